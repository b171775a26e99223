(** Rounding errors of the normalisation of g(r). *)
From Coq Require Import List ZArith Bool Arith Reals Lia Lra Psatz Floats.SpecFloat.
From Verif Require Import PyBase PyBaseFacts Num NumFacts Spec_Stats P_Text F64Round F64Ops F64Facts P_F64Mean P_F64Time P_F64Order P_F64Msd P_F64Dot P_F64Alpha
  M_Helpers M_Correlation M_Dynamics M_Realspace M_LinkedCells M_GrObject M_Norm64 Spec_Doubles Spec_Norm64.
Import ListNotations.
Local Open Scope R_scope.

(** ** Boundaries of the bins *)
Section Edges.
Variable dr : f64.
Hypothesis Kd : ok dr.
Hypothesis Bd : p2 (-60) <= fval dr <= p2 60.
Let D := fval dr.

Lemma tiny_dr : 0 < tiny /\ tiny <= u * u * D / 1000.
Proof.
  split; [apply tiny_pos|]. unfold tiny, u, D. apply Rle_trans with (p2 (-53) * p2 (-53) * p2 (-60) / 1000).
  - apply Rle_trans with (p2 (-53 + -53 + -60 + -10)); [apply p2_le; lia|]. rewrite !p2_add. pose proof (p2_pos (-53)). pose proof (p2_pos (-60)). assert (p2 (-10) <= / 1000) by (unfold p2; simpl; lra). unfold Rdiv. apply Rmult_le_compat_l; [|assumption]. repeat apply Rmult_le_pos; lra.
  - assert (0 <= p2 (-53) * p2 (-53)) by (apply Rmult_le_pos; left; apply p2_pos). unfold Rdiv. apply Rmult_le_compat_r; [lra|]. apply Rmult_le_compat_l; lra.
Qed.

Lemma round_near : forall v r, rounded v r -> Rabs v <= p2 200 -> ok r /\ Rabs (fval r - v) <= u * Rabs v + tiny.
Proof.
  intros v r R1 B. destruct (rounded_bounded _ _ (p2 200) R1) as [K _]; [apply format_p2; lia|exact B|apply p2_lt; lia|]. split; [exact K|]. apply rounded_error; assumption.
Qed.

Definition bin_center (j : nat) : f64 := fadd (fmul dr (f64_ofZ (Z.of_nat j))) (fdiv dr (f64_ofZ 2)).

Lemma D_pos : 0 < D <= p2 60.
Proof. unfold D. pose proof (p2_pos (-60)). lra. Qed.

Lemma small_index : forall j : nat, (Z.of_nat j <= 2 ^ 20)%Z -> 0 <= INR j <= p2 20.
Proof. intros j H. split; [apply pos_INR|]. rewrite p2_Z by lia. rewrite INR_IZR_INZ. apply IZR_le. exact H. Qed.

Lemma size_le : forall x, 0 <= x <= p2 20 -> 0 <= x * D /\ x * D + 2 * D <= p2 100.
Proof.
  intros x H. pose proof D_pos. split; [apply Rmult_le_pos; lra|]. assert (x * D <= p2 20 * p2 60) by (apply Rmult_le_compat; lra).
  rewrite <- p2_add in *. change (20 + 60)%Z with 80%Z in *. assert (p2 60 <= p2 98) by (apply p2_le; lia). assert (p2 80 <= p2 98) by (apply p2_le; lia). assert (p2 100 = 4 * p2 98) by (change 100%Z with (98 + 1 + 1)%Z; rewrite !p2_succ; ring). lra.
Qed.

Lemma center_near : forall j, (Z.of_nat j <= 2 ^ 20)%Z -> ok (bin_center j) /\ Rabs (fval (bin_center j) - (INR j + / 2) * D) <= 5 / 2 * u * (INR j * D) + 5 / 4 * u * D.
Proof.
  intros j Hj. pose proof u_small as U. pose proof D_pos as PD. destruct tiny_dr as [T0 T1]. pose proof (small_index j Hj) as SJ. pose proof (size_le _ SJ) as [SD SS].
  set (J := INR j) in *. unfold bin_center.
  assert (PU : 0 <= u * D <= D / 1000000) by (split; [apply Rmult_le_pos; lra|unfold Rdiv; rewrite Rmult_comm; apply Rmult_le_compat_l; lra]).
  assert (PUU : 0 <= u * u * D <= u * D / 1000000) by (split; [repeat apply Rmult_le_pos; lra|replace (u * u * D) with (u * (u * D)) by ring; unfold Rdiv; rewrite (Rmult_comm (u * D)); apply Rmult_le_compat_r; lra]).
  assert (QU : 0 <= u * (J * D) <= J * D / 1000000) by (split; [apply Rmult_le_pos; lra|unfold Rdiv; rewrite (Rmult_comm (J * D)); apply Rmult_le_compat_r; lra]).
  assert (QUU : 0 <= u * (u * (J * D)) <= u * (J * D) / 1000000) by (split; [repeat apply Rmult_le_pos; lra|unfold Rdiv; rewrite (Rmult_comm (u * (J * D))); apply Rmult_le_compat_r; lra]).
  assert (PUUU : 0 <= u * (u * u * D) <= u * u * D / 1000000) by (split; [repeat apply Rmult_le_pos; lra|unfold Rdiv; rewrite (Rmult_comm (u * u * D)); apply Rmult_le_compat_r; lra]).
  assert (UT : 0 <= u * tiny <= tiny / 1000000) by (split; [apply Rmult_le_pos; lra|unfold Rdiv; rewrite (Rmult_comm tiny); apply Rmult_le_compat_r; lra]).
  assert (B200 : p2 100 <= p2 199) by (apply p2_le; lia). assert (E200 : p2 200 = 2 * p2 199) by (change 200%Z with (199 + 1)%Z; rewrite p2_succ; ring).
  destruct (ofZ_exact (Z.of_nat j)) as [Kj Ej]; [lia|]. rewrite <- INR_IZR_INZ in Ej. fold J in Ej. destruct (ofZ_exact 2) as [K2 E2]; [lia|].
  assert (R1 : rounded (D * J) (fmul dr (f64_ofZ (Z.of_nat j)))) by (rewrite <- Ej; apply mul_spec; try apply Kd; apply Kj).
  assert (R2 : rounded (D / 2) (fdiv dr (f64_ofZ 2))) by (rewrite <- E2; apply div_spec; try apply Kd; try apply K2; rewrite E2; lra).
  rewrite (Rmult_comm D J) in R1.
  destruct (round_near _ _ R1) as [K1 N1]; [rewrite Rabs_right; lra|]. destruct (round_near _ _ R2) as [K3 N2]; [rewrite Rabs_right; lra|].
  rewrite (Rabs_right (J * D)) in N1 by lra. rewrite (Rabs_right (D / 2)) in N2 by lra.
  set (m := fmul dr (f64_ofZ (Z.of_nat j))) in *. set (h := fdiv dr (f64_ofZ 2)) in *.
  assert (R3 : rounded (fval m + fval h) (fadd m h)) by (apply add_spec; try apply K1; apply K3).
  apply Rabs_le_inv in N1. apply Rabs_le_inv in N2.
  assert (B3 : Rabs (fval m + fval h) <= J * D + D / 2 + u * (J * D) + u * (D / 2) + 2 * tiny) by (apply Rabs_le; lra).
  destruct (round_near _ _ R3) as [K4 N3]; [lra|]. split; [exact K4|].
  assert (u * Rabs (fval m + fval h) <= u * (J * D + D / 2 + u * (J * D) + u * (D / 2) + 2 * tiny)) by (apply Rmult_le_compat_l; lra).
  apply Rabs_le_inv in N3. apply Rabs_le. lra.
Qed.

(** Half of the spacing, and the boundaries. *)
Definition half_width : f64 := fdiv (fsub (bin_center 1) (bin_center 0)) (f64_ofZ 2).
Definition bin_edge (j : nat) : f64 := fsub (bin_center j) half_width.

Lemma half_near : ok half_width /\ Rabs (fval half_width - D / 2) <= 4 * u * D.
Proof.
  pose proof u_small as U. pose proof D_pos as PD. destruct tiny_dr as [T0 T1].
  destruct (center_near 1) as [K1 N1]; [cbn; lia|]. destruct (center_near 0) as [K0 N0]; [cbn; lia|]. cbn [INR] in N1, N0. rewrite !Rmult_1_l in N1. rewrite !Rmult_0_l in N0.
  assert (PU : 0 <= u * D <= D / 1000000) by (split; [apply Rmult_le_pos; lra|unfold Rdiv; rewrite Rmult_comm; apply Rmult_le_compat_l; lra]).
  assert (PUU : 0 <= u * u * D <= u * D / 1000000) by (split; [repeat apply Rmult_le_pos; lra|replace (u * u * D) with (u * (u * D)) by ring; unfold Rdiv; rewrite (Rmult_comm (u * D)); apply Rmult_le_compat_r; lra]).
  assert (B200 : p2 60 <= p2 198) by (apply p2_le; lia). assert (E200 : p2 200 = 4 * p2 198) by (change 200%Z with (198 + 1 + 1)%Z; rewrite !p2_succ; ring).
  unfold half_width. set (a := bin_center 1) in *. set (b := bin_center 0) in *. apply Rabs_le_inv in N1. apply Rabs_le_inv in N0.
  assert (R1 : rounded (fval a - fval b) (fsub a b)) by (apply sub_spec; try apply K1; apply K0).
  assert (B1 : Rabs (fval a - fval b) <= D + 5 * u * D) by (apply Rabs_le; lra).
  destruct (round_near _ _ R1) as [Ks Ns]; [lra|].
  assert (u * Rabs (fval a - fval b) <= u * (D + 5 * u * D)) by (apply Rmult_le_compat_l; lra). apply Rabs_le_inv in Ns.
  destruct (ofZ_exact 2) as [K2 E2]; [lia|].
  assert (R2 : rounded (fval (fsub a b) / 2) (fdiv (fsub a b) (f64_ofZ 2))) by (rewrite <- E2; apply div_spec; try apply Ks; try apply K2; rewrite E2; lra).
  assert (B2 : Rabs (fval (fsub a b) / 2) <= D) by (apply Rabs_le; lra).
  destruct (round_near _ _ R2) as [Kh Nh]; [lra|]. split; [exact Kh|].
  assert (B2' : Rabs (fval (fsub a b) / 2) <= D / 2 + 4 * u * D) by (apply Rabs_le; lra).
  assert (u * Rabs (fval (fsub a b) / 2) <= u * (D / 2 + 4 * u * D)) by (apply Rmult_le_compat_l; lra).
  apply Rabs_le_inv in Nh. apply Rabs_le. lra.
Qed.

Lemma edge_near : forall j, (Z.of_nat j <= 2 ^ 20)%Z -> ok (bin_edge j) /\ Rabs (fval (bin_edge j) - INR j * D) <= 6 * u * ((INR j + 1) * D).
Proof.
  intros j Hj. pose proof u_small as U. pose proof D_pos as PD. destruct tiny_dr as [T0 T1]. pose proof (small_index j Hj) as SJ. pose proof (size_le _ SJ) as [SD SS].
  destruct (center_near j Hj) as [Kc Nc]. destruct half_near as [Kh Nh]. set (J := INR j) in *. unfold bin_edge.
  assert (PU : 0 <= u * D <= D / 1000000) by (split; [apply Rmult_le_pos; lra|unfold Rdiv; rewrite Rmult_comm; apply Rmult_le_compat_l; lra]).
  assert (PUU : 0 <= u * u * D <= u * D / 1000000) by (split; [repeat apply Rmult_le_pos; lra|replace (u * u * D) with (u * (u * D)) by ring; unfold Rdiv; rewrite (Rmult_comm (u * D)); apply Rmult_le_compat_r; lra]).
  assert (QU : 0 <= u * (J * D) <= J * D / 1000000) by (split; [apply Rmult_le_pos; lra|unfold Rdiv; rewrite (Rmult_comm (J * D)); apply Rmult_le_compat_r; lra]).
  assert (QUU : 0 <= u * (u * (J * D)) <= u * (J * D) / 1000000) by (split; [repeat apply Rmult_le_pos; lra|unfold Rdiv; rewrite (Rmult_comm (u * (J * D))); apply Rmult_le_compat_r; lra]).
  assert (B200 : p2 100 <= p2 198) by (apply p2_le; lia). assert (E200 : p2 200 = 4 * p2 198) by (change 200%Z with (198 + 1 + 1)%Z; rewrite !p2_succ; ring).
  apply Rabs_le_inv in Nc. apply Rabs_le_inv in Nh.
  assert (R1 : rounded (fval (bin_center j) - fval half_width) (fsub (bin_center j) half_width)) by (apply sub_spec; try apply Kc; apply Kh).
  assert (B1 : Rabs (fval (bin_center j) - fval half_width) <= J * D + 3 * (u * (J * D)) + 6 * u * D) by (apply Rabs_le; lra).
  destruct (round_near _ _ R1) as [Ks Ns]; [lra|]. split; [exact Ks|].
  assert (u * Rabs (fval (bin_center j) - fval half_width) <= u * (J * D + 3 * (u * (J * D)) + 6 * u * D)) by (apply Rmult_le_compat_l; lra).
  apply Rabs_le_inv in Ns. apply Rabs_le. lra.
Qed.
End Edges.

(** ** Relative errors *)
Lemma pow_low : forall K, (1 - u) ^ K <= 1 - INR K * u + (INR K * u) * (INR K * u).
Proof.
  induction K as [|K IH]; [cbn; lra|]. rewrite S_INR. cbn [pow]. pose proof u_small as U. pose proof (pos_INR K) as P. set (k := INR K) in *.
  apply Rle_trans with ((1 - u) * (1 - k * u + (k * u) * (k * u))); [apply Rmult_le_compat_l; lra|].
  assert (0 <= k * u) by (apply Rmult_le_pos; lra). assert (0 <= k * u * (k * u)) by (apply Rmult_le_pos; assumption). assert (0 <= u * (k * u * (k * u))) by (apply Rmult_le_pos; lra).
  assert (0 <= u * u) by (apply Rmult_le_pos; lra). assert (0 <= u * (k * u)) by (apply Rmult_le_pos; lra). lra.
Qed.

Lemma square_small : forall K : nat, (Z.of_nat K <= 2 ^ 26)%Z -> INR K * INR K * u <= / 2 /\ INR K * u <= / 1000000.
Proof.
  intros K H. pose proof (pos_INR K) as P. assert (B : INR K <= p2 26) by (rewrite p2_Z by lia; rewrite INR_IZR_INZ; apply IZR_le; exact H). pose proof (p2_pos (-53)) as Q. unfold u. split.
  - apply Rle_trans with (p2 26 * p2 26 * p2 (-53)); [apply Rmult_le_compat_r; [lra|]; apply Rmult_le_compat; lra|]. rewrite <- !p2_add. unfold p2. simpl. lra.
  - apply Rle_trans with (p2 26 * p2 (-53)); [apply Rmult_le_compat_r; lra|]. rewrite <- p2_add. unfold p2. simpl. lra.
Qed.

Lemma within_of_error : forall K x y, (Z.of_nat K + 1 <= 2 ^ 26)%Z -> 0 <= y -> Rabs (x - y) <= INR K * u * y -> within (K + 1) x y.
Proof.
  intros K x y HK Py E. pose proof u_small as U. apply Rabs_le_inv in E. destruct (square_small (K + 1)) as [S1 _]; [lia|]. pose proof (pos_INR K) as P.
  split; [exact Py|]. split.
  - apply Rle_trans with ((1 - INR K * u) * y); [|lra]. apply Rmult_le_compat_r; [exact Py|]. apply Rle_trans with (1 := pow_low (K + 1)). rewrite plus_INR in *. cbn [INR] in *. set (k := INR K) in *.
    assert ((k + 1) * (k + 1) * u * u <= / 2 * u) by (apply Rmult_le_compat_r; lra). lra.
  - apply Rle_trans with ((1 + INR K * u) * y); [lra|]. apply Rmult_le_compat_r; [exact Py|]. rewrite pow_add, pow_1.
    assert (B : 1 + INR K * u <= (1 + u) ^ K) by (apply poly; lra). apply Rle_trans with (1 := B). rewrite <- (Rmult_1_r ((1 + u) ^ K)) at 1. apply Rmult_le_compat_l; [pose proof (high_pos K)|]; lra.
Qed.

Lemma error_of_within : forall K x y, (Z.of_nat K <= 2 ^ 26)%Z -> within K x y -> Rabs (x - y) <= (INR K + 1) * u * y.
Proof.
  intros K x y HK [Py [A B]]. pose proof u_small as U. destruct (square_small K HK) as [S1 S2]. pose proof (pos_INR K) as P. set (k := INR K) in *.
  assert (Pu : 0 <= k * u) by (apply Rmult_le_pos; lra).
  assert (L : 1 - k * u <= (1 - u) ^ K) by apply low_bernoulli.
  assert (Hh : (1 + u) ^ K <= 1 + (k + 1) * u).
  { assert (E : (1 + u) ^ K * (1 - u) ^ K <= 1) by (rewrite <- Rpow_mult_distr; apply Rle_trans with (1 ^ K); [apply pow_incr; assert (0 <= u * u) by (apply Rmult_le_pos; lra); assert (u * u <= 1 * u) by (apply Rmult_le_compat_r; lra); lra|rewrite pow1; lra]).
    assert (E2 : (1 + u) ^ K * (1 - k * u) <= 1) by (apply Rle_trans with (2 := E); apply Rmult_le_compat_l; [pose proof (high_pos K); lra|exact L]).
    apply Rmult_le_reg_r with (1 - k * u); [lra|]. apply Rle_trans with (1 := E2).
    assert (k * k * u * u <= / 2 * u) by (apply Rmult_le_compat_r; lra). assert (k * u * u <= / 1000000 * u) by (apply Rmult_le_compat_r; lra). lra. }
  apply Rabs_le. assert ((1 - k * u) * y <= (1 - u) ^ K * y) by (apply Rmult_le_compat_r; assumption). assert ((1 + u) ^ K * y <= (1 + (k + 1) * u) * y) by (apply Rmult_le_compat_r; assumption). assert (0 <= u * y) by (apply Rmult_le_pos; lra). lra.
Qed.

(** ** Volumes of the shells *)
Section Shells.
Variable dr : f64.
Hypothesis Kd : ok dr.
Hypothesis Bd : p2 (-60) <= fval dr <= p2 60.
Let D := fval dr.
Variable pow64 : f64 -> nat -> f64.
Hypothesis Hpow : fair_power pow64.

Lemma power_shift : forall d r J, (d = 2 \/ d = 3)%nat -> 0 <= J <= p2 20 -> Rabs (r - J * D) <= 6 * u * ((J + 1) * D) -> Rabs r <= (J + 1) * D /\ Rabs (r ^ d - (J * D) ^ d) <= 19 * u * ((J + 1) * D) ^ d.
Proof.
  intros d r J Hd HJ H. pose proof u_small as U. pose proof (D_pos dr Bd) as PD. fold D in PD.
  assert (Uj : u * (J + 1) <= / 1000000).
  { unfold u. apply Rle_trans with (p2 (-53) * p2 21); [apply Rmult_le_compat_l; [left; apply p2_pos|]; change 21%Z with (20 + 1)%Z; rewrite p2_succ; assert (1 <= p2 20) by (unfold p2; simpl; lra); lra|]. rewrite <- p2_add. unfold p2. simpl. lra. }
  set (W := (J + 1) * D) in *. set (X := J * D) in *. assert (EW : W = X + D) by (unfold W, X; ring).
  assert (X0 : 0 <= X) by (unfold X; apply Rmult_le_pos; lra). assert (PW : 0 < W) by lra.
  assert (UW : u * W <= / 1000000 * D) by (unfold W; rewrite <- Rmult_assoc; apply Rmult_le_compat_r; lra). assert (UW0 : 0 <= u * W) by (apply Rmult_le_pos; lra).
  set (e := r - X) in *. assert (Er : r = X + e) by (unfold e; ring). assert (He : Rabs e <= W / 1000) by lra. pose proof (Rabs_pos e) as Pe.
  split.
  { rewrite Er. apply Rle_trans with (1 := Rabs_triang _ _). rewrite (Rabs_right X) by lra. lra. }
  assert (XW : X * X <= W * W) by (apply Rmult_le_compat; lra). assert (WW : 0 <= W * W) by (apply Rmult_le_pos; lra).
  destruct Hd as [-> | ->].
  - replace (r ^ 2 - X ^ 2) with (e * (2 * X + e)) by (rewrite Er; ring). rewrite Rabs_mult.
    assert (B : Rabs (2 * X + e) <= 3 * W) by (apply Rle_trans with (1 := Rabs_triang _ _); rewrite (Rabs_right (2 * X)) by lra; lra).
    apply Rle_trans with (6 * u * W * (3 * W)); [apply Rmult_le_compat; try assumption; apply Rabs_pos|]. assert (0 <= u * (W * W)) by (apply Rmult_le_pos; lra). lra.
  - replace (r ^ 3 - X ^ 3) with (e * (3 * (X * X) + 3 * (X * e) + e * e)) by (rewrite Er; ring). rewrite Rabs_mult.
    assert (B : Rabs (3 * (X * X) + 3 * (X * e) + e * e) <= 19 / 6 * (W * W)).
    { apply Rle_trans with (1 := Rabs_triang _ _). pose proof (Rabs_triang (3 * (X * X)) (3 * (X * e))) as T. assert (0 <= X * X) by (apply Rmult_le_pos; lra). rewrite (Rabs_right (3 * (X * X))) in T by lra.
      assert (E1 : Rabs (3 * (X * e)) = 3 * (X * Rabs e)) by (rewrite !Rabs_mult, (Rabs_right 3), (Rabs_right X) by lra; ring). rewrite E1 in T. rewrite (Rabs_mult e e).
      assert (X * Rabs e <= W * (W / 1000)) by (apply Rmult_le_compat; lra). assert (Rabs e * Rabs e <= W / 1000 * (W / 1000)) by (apply Rmult_le_compat; lra). lra. }
    apply Rle_trans with (6 * u * W * (19 / 6 * (W * W))); [apply Rmult_le_compat; try assumption; apply Rabs_pos|]. right. simpl. field.
Qed.

Lemma dr_power : forall d, (d = 2 \/ d = 3)%nat -> p2 (-180) <= D ^ d /\ p2 (-800) <= u * D ^ d / 1000000.
Proof.
  intros d Hd. pose proof (D_pos dr Bd) as PD. fold D in PD.
  assert (P : p2 (-180) <= D ^ d).
  { assert (Q : p2 (-60) ^ d <= D ^ d) by (apply pow_incr; split; [left; apply p2_pos|apply Bd]). apply Rle_trans with (2 := Q).
    destruct Hd as [-> | ->]; cbn [pow]; rewrite Rmult_1_r, <- !p2_add; apply p2_le; lia. }
  split; [exact P|]. apply Rle_trans with (p2 (-53 + -180 + -30)); [apply p2_le; lia|]. rewrite !p2_add. unfold Rdiv. assert (p2 (-30) <= / 1000000) by (unfold p2; simpl; lra). pose proof (p2_pos (-30)). pose proof (p2_pos (-53)). pose proof (p2_pos (-180)).
  apply Rmult_le_compat; try lra; [apply Rmult_le_pos; lra|]. apply Rmult_le_compat; unfold u; lra.
Qed.

Lemma power_near : forall d j, (d = 2 \/ d = 3)%nat -> (Z.of_nat j <= 2 ^ 20)%Z ->
  ok (pow64 (bin_edge dr j) d) /\ Rabs (fval (pow64 (bin_edge dr j) d) - (INR j * D) ^ d) <= 23 * u * ((INR j + 1) * D) ^ d + u * D ^ d / 1000000.
Proof.
  intros d j Hd Hj. pose proof u_small as U. destruct (edge_near dr Kd Bd j Hj) as [Ke Ne]. fold D in Ne. pose proof (small_index j Hj) as SJ.
  pose proof (D_pos dr Bd) as PD. fold D in PD. destruct (power_shift d (fval (bin_edge dr j)) (INR j) Hd SJ Ne) as [B1 S1].
  destruct (size_le dr Bd _ SJ) as [_ SS]. fold D in SS. assert (p2 100 <= p2 160) by (apply p2_le; lia).
  destruct (Hpow (bin_edge dr j) d Hd Ke) as [Kp Np]; [lra|]. split; [exact Kp|]. destruct (dr_power d Hd) as [_ Q].
  assert (B2 : Rabs (fval (bin_edge dr j)) ^ d <= ((INR j + 1) * D) ^ d) by (apply pow_incr; split; [apply Rabs_pos|exact B1]).
  assert (4 * u * Rabs (fval (bin_edge dr j)) ^ d <= 4 * u * ((INR j + 1) * D) ^ d) by (apply Rmult_le_compat_l; lra).
  apply Rabs_le_inv in Np. apply Rabs_le_inv in S1. apply Rabs_le. lra.
Qed.

(** The difference of the powers at the two boundaries of bin k. *)
Definition power_step (d k : nat) : f64 := fsub (pow64 (bin_edge dr (k + 1)) d) (pow64 (bin_edge dr k) d).
Definition exact_step (d k : nat) : R := (INR (k + 1) * D) ^ d - (INR k * D) ^ d.

Lemma step_poly : forall d k, (d = 2 \/ d = 3)%nat -> exact_step d k = D ^ d * (if (d =? 2)%nat then 2 * INR k + 1 else 3 * (INR k * INR k) + 3 * INR k + 1).
Proof. intros d k [-> | ->]; unfold exact_step; rewrite plus_INR; cbn [INR Nat.eqb pow]; ring. Qed.

Lemma step_size : forall d k, (d = 2 \/ d = 3)%nat -> (Z.of_nat k <= 2 ^ 20 - 1)%Z -> p2 (-180) <= exact_step d k <= p2 244.
Proof.
  intros d k Hd Hk. destruct (dr_power d Hd) as [Q _]. pose proof (pos_INR k) as Pk. pose proof (p2_pos (-180)). split.
  - rewrite step_poly by exact Hd. apply Rle_trans with (1 := Q). rewrite <- (Rmult_1_r (D ^ d)) at 1. apply Rmult_le_compat_l; [lra|]. assert (0 <= INR k * INR k) by (apply Rmult_le_pos; lra). destruct (d =? 2)%nat; lra.
  - pose proof (D_pos dr Bd) as PD. fold D in PD. unfold exact_step. assert (0 <= (INR k * D) ^ d) by (apply pow_le; apply Rmult_le_pos; lra).
    assert (B : (INR (k + 1) * D) ^ d <= p2 80 ^ d).
    { apply pow_incr. destruct (small_index (k + 1) ltac:(lia)) as [A1 A2]. split; [apply Rmult_le_pos; lra|]. change 80%Z with (20 + 60)%Z. rewrite p2_add. apply Rmult_le_compat; lra. }
    assert (p2 80 ^ d <= p2 244) by (destruct Hd as [-> | ->]; cbn [pow]; rewrite Rmult_1_r, <- !p2_add; apply p2_le; lia). lra.
Qed.

Lemma step_near : forall d k, (d = 2 \/ d = 3)%nat -> (Z.of_nat k <= 2 ^ 20 - 1)%Z -> close_to (-180) 250 (210 + 23 * k) (power_step d k) (exact_step d k).
Proof.
  intros d k Hd Hk. pose proof u_small as U. destruct (power_near d k Hd ltac:(lia)) as [K0 N0]. destruct (power_near d (k + 1) Hd ltac:(lia)) as [K1 N1]. destruct (step_size d k Hd Hk) as [T1 T2]. pose proof (p2_pos (-180)) as P180.
  pose proof (D_pos dr Bd) as PD. fold D in PD. destruct (dr_power d Hd) as [Q1 _].
  assert (Kk : INR (209 + 23 * k) * u <= / 1000000) by (apply square_small; lia).
  unfold power_step. set (p1 := pow64 (bin_edge dr (k + 1)) d) in *. set (p0 := pow64 (bin_edge dr k) d) in *. 
  assert (Sum : 23 * u * ((INR (k + 1) + 1) * D) ^ d + 23 * u * ((INR k + 1) * D) ^ d + 2 * (u * D ^ d / 1000000) <= (INR (207 + 23 * k) + / 1000) * u * exact_step d k).
  { rewrite step_poly by exact Hd. replace (INR (207 + 23 * k)) with (207 + 23 * INR k) by (rewrite plus_INR, mult_INR, !INR_IZR_INZ; simpl; ring). rewrite !plus_INR. cbn [INR]. pose proof (pos_INR k) as Pk. set (x := INR k) in *.
    assert (P2 : 0 <= x * x) by (apply Rmult_le_pos; lra). assert (P3 : 0 <= x * (x * x)) by (apply Rmult_le_pos; lra).
    assert (PC : 0 <= u * D ^ d) by (apply Rmult_le_pos; [lra|apply pow_le; lra]).
    destruct Hd as [-> | ->]; cbn [Nat.eqb].
    - match goal with |- ?a <= ?b => replace a with (u * D ^ 2 * (23 * (x + 1 + 1) ^ 2 + 23 * (x + 1) ^ 2 + 2 / 1000000)) by (simpl; field); set (rhs := b) end.
      replace rhs with (u * D ^ 2 * ((207 + 23 * x + / 1000) * (2 * x + 1))) by (unfold rhs; simpl; ring).
      apply Rmult_le_compat_l; [exact PC|]. cbn [INR pow]. lra.
    - match goal with |- ?a <= ?b => replace a with (u * D ^ 3 * (23 * (x + 1 + 1) ^ 3 + 23 * (x + 1) ^ 3 + 2 / 1000000)) by (simpl; field); set (rhs := b) end.
      replace rhs with (u * D ^ 3 * ((207 + 23 * x + / 1000) * (3 * (x * x) + 3 * x + 1))) by (unfold rhs; simpl; ring).
      apply Rmult_le_compat_l; [exact PC|]. cbn [INR pow]. lra. }
  assert (R1 : rounded (fval p1 - fval p0) (fsub p1 p0)) by (apply sub_spec; try apply K1; apply K0).
  apply Rabs_le_inv in N0. apply Rabs_le_inv in N1. set (T := exact_step d k) in *.
  assert (Ev : Rabs (fval p1 - fval p0 - T) <= (INR (207 + 23 * k) + / 1000) * u * T) by (apply Rabs_le; unfold T at 1 2 3; unfold exact_step; fold T; unfold T, exact_step in Sum |- *; lra).
  assert (I209 : INR (209 + 23 * k) = INR (207 + 23 * k) + 2) by (replace (209 + 23 * k)%nat with (207 + 23 * k + 2)%nat by lia; rewrite plus_INR; reflexivity).
  rewrite I209 in Kk.
  assert (PT : 0 <= u * T) by (apply Rmult_le_pos; lra).
  assert (C1 : INR (207 + 23 * k) * u * T <= / 1000000 * T) by (apply Rmult_le_compat_r; lra).
  assert (C2 : u * (u * T) <= / 1000000 * (u * T)) by (apply Rmult_le_compat_r; lra).
  assert (C3 : u * (INR (207 + 23 * k) * u * T) <= u * (/ 1000000 * T)) by (apply Rmult_le_compat_l; lra).
  assert (UT : u * T <= / 1000000 * T) by (apply Rmult_le_compat_r; lra).
  apply Rabs_le_inv in Ev.
  assert (Bv : Rabs (fval p1 - fval p0) <= T + (INR (207 + 23 * k) + / 1000) * u * T) by (apply Rabs_le; lra).
  assert (E250 : p2 250 = 64 * p2 244) by (change 250%Z with (244 + 1 + 1 + 1 + 1 + 1 + 1)%Z; rewrite !p2_succ; ring).
  destruct (rounded_bounded _ _ (p2 250) R1) as [Kr Br]; [apply format_p2; lia|lra|apply p2_lt; lia|].
  pose proof (rounded_error _ _ R1 Kr) as Er.
  assert (u * Rabs (fval p1 - fval p0) <= u * (T + (INR (207 + 23 * k) + / 1000) * u * T)) by (apply Rmult_le_compat_l; lra).
  assert (Ty : tiny <= u * T / 1000).
  { unfold tiny, u. apply Rle_trans with (p2 (-53 + -180 + -10)); [apply p2_le; lia|]. rewrite !p2_add. unfold Rdiv. pose proof (p2_pos (-53)). assert (p2 (-10) <= / 1000) by (unfold p2; simpl; lra). pose proof (p2_pos (-10)).
    apply Rmult_le_compat; try lra; [apply Rmult_le_pos; lra|]. apply Rmult_le_compat_l; lra. }
  apply Rabs_le_inv in Er.
  assert (Ef : Rabs (fval (fsub p1 p0) - T) <= INR (209 + 23 * k) * u * T) by (rewrite I209; apply Rabs_le; lra).
  pose proof (within_of_error (209 + 23 * k) _ T ltac:(lia) ltac:(lra) Ef) as W. replace (209 + 23 * k + 1)%nat with (210 + 23 * k)%nat in W by lia.
  split; [exact Kr|]. split; [|split; [exact W|right; exact T1]]. pose proof (within_nonneg _ _ _ W). rewrite Rabs_right in Br by lra. lra.
Qed.
End Shells.

(** ** The normalisation *)
Lemma p2_inv : forall k, p2 (- k) = / p2 k.
Proof.
  intros k. pose proof (p2_pos k). apply Rmult_eq_reg_r with (p2 k); [|lra]. rewrite Rinv_l by lra. rewrite <- p2_add. replace (- k + k)%Z with 0%Z by lia. reflexivity.
Qed.

Lemma close_weaken : forall e1 e2 K f1 f2 L v y, (f1 <= e1)%Z -> (e2 <= f2)%Z -> (K <= L)%nat -> close_to e1 e2 K v y -> close_to f1 f2 L v y.
Proof.
  intros e1 e2 K f1 f2 L v y H1 H2 HL [Kv [B [W A]]]. pose proof (p2_le e2 f2 H2). pose proof (p2_le f1 e1 H1). split; [exact Kv|]. split; [lra|]. split; [exact (within_weaken K L _ _ HL W)|]. destruct A as [A|A]; [left; exact A|right; lra].
Qed.

Lemma close_exact : forall e1 e2 v, ok v -> p2 e1 <= fval v <= p2 e2 -> close_to e1 e2 0 v (fval v).
Proof.
  intros e1 e2 v Kv B. pose proof (p2_pos e1). split; [exact Kv|]. split; [lra|]. split; [apply within_refl; lra|]. right. lra.
Qed.

Lemma close_upper : forall e1 e2 K v y, close_to e1 e2 K v y -> (Z.of_nat K <= 2 ^ 51)%Z -> y <= p2 (e2 + 1).
Proof. intros e1 e2 K v y [_ [B [W _]]] HK. destruct (within_half K _ _ HK W) as [L _]. rewrite p2_succ. lra. Qed.

Lemma mul_close : forall e1 e2 f1 f2 K L v w y z, close_to e1 e2 K v y -> close_to f1 f2 L w z -> (-1020 <= e1 + f1)%Z -> (-1074 <= e2 + f2 <= 1000)%Z -> (Z.of_nat (K + L) <= 2 ^ 51)%Z ->
  close_to (e1 + f1) (e2 + f2) (K + L + 1) (fmul v w) (y * z).
Proof. intros. apply close_mul; assumption. Qed.

Lemma div_close : forall g1 g2 e1 e2 f1 f2 K L v w y z, close_to e1 e2 K v y -> close_to f1 f2 L w z -> (-1020 <= g1)%Z -> (-1074 <= g2 <= 1000)%Z -> (Z.of_nat (K + 2 * L) <= 2 ^ 51)%Z ->
  0 < z -> apart g1 (y / z) -> 2 * (y / z) <= p2 g2 -> close_to g1 g2 (K + 2 * L + 1) (fdiv v w) (y / z).
Proof. intros. eapply close_div; eassumption. Qed.

(** Sums of integers are exact. *)
Lemma int_sum : forall l : list nat, (Z.of_nat (fold_left Nat.add l 0%nat) <= 2 ^ 53)%Z ->
  ok (nsum F64ops (map (nofnat F64ops) l)) /\ fval (nsum F64ops (map (nofnat F64ops) l)) = rsum (map INR l).
Proof.
  intros l H.
  assert (EZ : forall l k, Z.of_nat (fold_left Nat.add l k) = fold_left Z.add (map Z.of_nat l) (Z.of_nat k)).
  { clear. induction l as [|x l IH]; intros k; [reflexivity|]. cbn [fold_left map]. rewrite IH, Nat2Z.inj_add. reflexivity. }
  assert (Bnd : forall x, In x l -> (Z.of_nat x <= 2 ^ 53)%Z).
  { intros x Hx. assert (M : forall l k, (k <= fold_left Nat.add l k)%nat) by (clear; induction l as [|y l IH]; intros k; cbn [fold_left]; [lia|specialize (IH (k + y)%nat); lia]).
    assert (G : forall l k, In x l -> (x <= fold_left Nat.add l k)%nat).
    { clear - M. induction l as [|y l IH]; intros k [].
      - subst y. cbn [fold_left]. specialize (M l (k + x)%nat). lia.
      - cbn [fold_left]. apply IH. assumption. }
    specialize (G l 0%nat Hx). lia. }
  assert (E0 : Z.of_nat (fold_left Nat.add l 0%nat) = fold_left Z.add (map Z.of_nat l) 0%Z) by exact (EZ l 0%nat).
  destruct (fsum_exact (map (nofnat F64ops) l) (map Z.of_nat l) (f64_ofZ 0) 0) as [K E].
  - apply ofZ_exact; lia.
  - apply ofZ_exact; lia.
  - lia.
  - clear - Bnd. induction l as [|x l IH]; constructor.
    + destruct (ofZ_exact (Z.of_nat x)) as [K E]; [specialize (Bnd x (or_introl eq_refl)); lia|]. split; [exact K|]. split; [exact E|lia].
    + apply IH. intros y Hy. apply Bnd. right. exact Hy.
  - rewrite <- E0. exact H.
  - split; [exact K|]. refine (eq_trans E _). rewrite <- E0. rewrite <- INR_IZR_INZ. clear. 
    assert (G : forall l' k, INR (fold_left Nat.add l' k) = INR k + rsum (map INR l')).
    { induction l' as [|x l' IH]; intros k; cbn [fold_left map rsum]; [lra|]. rewrite IH, plus_INR. lra. }
    rewrite G. cbn [INR]. lra.
Qed.

Lemma int_mean : forall l : list nat, l <> [] -> (Z.of_nat (length l) <= 2 ^ 53)%Z -> (Z.of_nat (fold_left Nat.add l 0%nat) <= 2 ^ 53)%Z ->
  close_to (-53) 53 1 (fdiv (nsum F64ops (map (nofnat F64ops) l)) (f64_ofZ (Z.of_nat (length l)))) (rmean (map INR l)).
Proof.
  intros l Hl HL HS. destruct (int_sum l HS) as [K E]. unfold rmean. rewrite map_length. apply (close_mean 0 53 0); try lia; [destruct l; [congruence|cbn; lia]|].
  assert (G : forall l k, INR (fold_left Nat.add l k) = INR k + rsum (map INR l)).
  { clear. induction l as [|x l IH]; intros k; cbn [fold_left map rsum]; [lra|]. rewrite IH, plus_INR. ring. }
  specialize (G l 0%nat). cbn [INR] in G. rewrite Rplus_0_l in G. rewrite <- G in E |- *. set (t := fold_left Nat.add l 0%nat) in *.
  assert (B : INR t <= p2 53) by (rewrite p2_Z by lia; rewrite INR_IZR_INZ; apply IZR_le; exact HS).
  split; [exact K|]. rewrite E. pose proof (pos_INR t). split; [lra|]. split; [apply within_refl; assumption|].
  destruct t as [|t]; [left; reflexivity|right]. rewrite S_INR. pose proof (pos_INR t). unfold p2. simpl. lra.
Qed.

Section Values.
Variable dr : f64.
Hypothesis Kd : ok dr.
Hypothesis Bd : p2 (-60) <= fval dr <= p2 60.
Let D := fval dr.
Variable pow64 : f64 -> nat -> f64.
Hypothesis Hpow : fair_power pow64.
Variable pi : f64.
Hypothesis Kpi : ok pi.
Hypothesis Npi : Rabs (fval pi - PI) <= u * PI.

Lemma pi_close : close_to 1 3 2 pi PI.
Proof.
  pose proof u_small as U. pose proof PI_4 as P4. pose proof PI2_1 as P1.
  assert (u * PI <= / 1000000 * PI) by (apply Rmult_le_compat_r; lra).
  assert (W : within (1 + 1) (fval pi) PI) by (apply within_of_error; [cbn; lia|lra|cbn [INR]; rewrite Rmult_1_l; exact Npi]).
  apply Rabs_le_inv in Npi. split; [exact Kpi|]. split; [unfold p2; simpl; lra|]. split; [exact W|]. right. unfold p2. simpl. lra.
Qed.

Lemma shell_close : forall d k, (d = 2 \/ d = 3)%nat -> (Z.of_nat k <= 2 ^ 20 - 1)%Z ->
  close_to (-180) 260 (215 + 23 * k) (shell_by F64ops pow64 pi d (bin_edge dr k) (bin_edge dr (k + 1))) (exact_shell d D k).
Proof.
  intros d k Hd Hk. pose proof (step_near dr Kd Bd pow64 Hpow d k Hd Hk) as S1. fold D in S1. pose proof pi_close as Cp. pose proof PI_4 as P4. pose proof PI2_1 as P1.
  unfold exact_shell. change ((INR (k + 1) * D) ^ d - (INR k * D) ^ d) with (exact_step dr d k).
  destruct Hd as [-> | ->]; cbn [Nat.eqb shell_by].
  - apply (close_weaken (1 + -180) (3 + 250) (2 + (210 + 23 * k) + 1)); try lia. apply close_mul; try lia; assumption.
  - pose proof (close_int 4 2 ltac:(lia) ltac:(unfold p2; simpl; lra)) as C4. pose proof (close_int 3 2 ltac:(lia) ltac:(unfold p2; simpl; lra)) as C3.
    pose proof (mul_close _ _ _ _ _ _ _ _ _ _ C4 Cp ltac:(lia) ltac:(lia) ltac:(lia)) as C5.
    assert (C6 : close_to 1 4 (0 + 2 + 1 + 2 * 0 + 1) (fdiv (fmul (f64_ofZ 4) pi) (f64_ofZ 3)) (4 * PI / 3)).
    { apply (div_close 1 4 _ _ _ _ _ _ _ _ _ _ C5 C3 ltac:(lia) ltac:(lia) ltac:(lia)); [lra|right; unfold p2; simpl; lra|unfold p2; simpl; lra]. }
    apply (close_weaken (1 + -180) (4 + 250) (0 + 2 + 1 + 2 * 0 + 1 + (210 + 23 * k) + 1)); try lia. apply close_mul; try lia; assumption.
Qed.

Variable volume : f64.
Hypothesis Kv : ok volume.
Hypothesis Bv : p2 (-200) <= fval volume <= p2 200.
Variable acc : list (list nat * (nat * nat)).
Hypothesis Ha : acc <> [].
Hypothesis Hl : (Z.of_nat (length acc) <= 2 ^ 50)%Z.
(** Every frame has particles of both groups; the totals are far below 2^53. *)
Hypothesis Hn : forall s, In s acc -> (1 <= fst (snd s))%nat /\ (1 <= snd (snd s))%nat.

Definition norm_by (d : nat) (distinct : bool) (k : nat) : f64 :=
  let N0 := nmean F64ops (map (fun s => nofnat F64ops (fst (snd s))) acc) in
  let N1 := nmean F64ops (map (fun s => nofnat F64ops (snd (snd s))) acc) in
  let norm := fmul (fmul (fdiv N1 volume) (shell_by F64ops pow64 pi d (bin_edge dr k) (bin_edge dr (k + 1)))) N0 in
  if distinct then norm else fdiv norm (f64_ofZ 2).
Definition exact_norm (d : nat) (distinct : bool) (k : nat) : R :=
  rmean (map (fun s => INR (snd (snd s))) acc) / fval volume * exact_shell d D k * rmean (map (fun s => INR (fst (snd s))) acc) / (if distinct then 1 else 2).

Definition total (f : list nat * (nat * nat) -> nat) : nat := fold_left Nat.add (map f acc) 0%nat.

Lemma mean_close : forall f : list nat * (nat * nat) -> nat, (Z.of_nat (total f) <= 2 ^ 53)%Z ->
  close_to (-53) 53 1 (nmean F64ops (map (fun s => nofnat F64ops (f s)) acc)) (rmean (map (fun s => INR (f s)) acc)).
Proof.
  intros f H. pose proof (int_mean (map f acc)) as G. rewrite !map_map, !map_length in G. unfold nmean. rewrite map_length. apply G; [destruct acc; [congruence|discriminate]|lia|exact H].
Qed.

Lemma mean_positive : forall f : list nat * (nat * nat) -> nat, (forall s, In s acc -> (1 <= f s)%nat) -> 1 <= rmean (map (fun s => INR (f s)) acc).
Proof.
  intros f H. assert (P : 1 <= INR (length acc)) by (apply (le_INR 1); destruct acc; [congruence|cbn; lia]). unfold rmean. rewrite map_length.
  assert (G : forall l : list (list nat * (nat * nat)), (forall s, In s l -> (1 <= f s)%nat) -> INR (length l) <= rsum (map (fun s => INR (f s)) l)).
  { clear. induction l as [|x l IH]; intros H; [cbn; lra|]. cbn [length map rsum]. rewrite S_INR. pose proof (le_INR 1 (f x) (H x (or_introl eq_refl))) as Q. cbn [INR] in Q. specialize (IH ltac:(intros s Hs; apply H; right; exact Hs)). lra. }
  specialize (G acc H). apply Rmult_le_reg_r with (INR (length acc)); [lra|]. unfold Rdiv. rewrite Rmult_assoc, Rinv_l, Rmult_1_r, Rmult_1_l by lra. exact G.
Qed.

Lemma norm_close : forall d distinct k, (d = 2 \/ d = 3)%nat -> (Z.of_nat k <= 2 ^ 20 - 1)%Z ->
  (Z.of_nat (total (fun s => fst (snd s))) <= 2 ^ 53)%Z -> (Z.of_nat (total (fun s => snd (snd s))) <= 2 ^ 53)%Z ->
  close_to (-500) 600 (221 + 23 * k) (norm_by d distinct k) (exact_norm d distinct k) /\ 0 < exact_norm d distinct k.
Proof.
  intros d distinct k Hd Hk H0 H1. pose proof (mean_close (fun s => fst (snd s)) H0) as C0. pose proof (mean_close (fun s => snd (snd s)) H1) as C1. cbv beta in C0, C1.
  pose proof (mean_positive (fun s => fst (snd s)) (fun s Hs => proj1 (Hn s Hs))) as P0. pose proof (mean_positive (fun s => snd (snd s)) (fun s Hs => proj2 (Hn s Hs))) as P1. cbv beta in P0, P1.
  unfold norm_by, exact_norm. set (n0 := rmean (map (fun s => INR (fst (snd s))) acc)) in *. set (n1 := rmean (map (fun s => INR (snd (snd s))) acc)) in *.
  set (m0 := nmean F64ops (map (fun s => nofnat F64ops (fst (snd s))) acc)) in *. set (m1 := nmean F64ops (map (fun s => nofnat F64ops (snd (snd s))) acc)) in *.
  pose proof (close_exact _ _ _ Kv Bv) as CV. pose proof (p2_pos (-200)) as PV. pose proof (shell_close d k Hd Hk) as CS.
  assert (PS : 0 < exact_shell d D k).
  { unfold exact_shell. apply Rmult_lt_0_compat; [pose proof PI2_1; destruct (d =? 2)%nat; lra|]. change ((INR (k + 1) * D) ^ d - (INR k * D) ^ d) with (exact_step dr d k). pose proof (step_size dr Bd d k Hd Hk). pose proof (p2_pos (-180)). lra. }
  set (sh := shell_by F64ops pow64 pi d (bin_edge dr k) (bin_edge dr (k + 1))) in *. set (S0 := exact_shell d D k) in *. set (V := fval volume) in *.
  pose proof (close_upper _ _ _ _ _ C1 ltac:(lia)) as U1.
  assert (I1 : / V <= p2 200) by (change (p2 200) with (p2 (- -200)); rewrite p2_inv; apply Rinv_le_contravar; [exact PV|apply Bv]).
  assert (I2 : p2 (-200) <= / V) by (change (p2 (-200)) with (p2 (- (200))); rewrite (p2_inv 200); apply Rinv_le_contravar; [lra|apply Bv]).
  assert (CR : close_to (-200) 255 (1 + 2 * 0 + 1) (fdiv m1 volume) (n1 / V)).
  { apply (div_close (-200) 255 _ _ _ _ _ _ _ _ _ _ C1 CV ltac:(lia) ltac:(lia) ltac:(lia)); [lra| |].
    - right. unfold Rdiv. rewrite <- (Rmult_1_l (p2 (-200))). apply Rmult_le_compat; lra.
    - change 255%Z with (254 + 1)%Z. rewrite p2_succ. apply Rmult_le_compat_l; [lra|]. change 254%Z with (53 + 1 + 200)%Z. rewrite p2_add. unfold Rdiv. apply Rmult_le_compat; lra. }
  pose proof (mul_close _ _ _ _ _ _ _ _ _ _ CR CS ltac:(lia) ltac:(lia) ltac:(lia)) as CN. pose proof (mul_close _ _ _ _ _ _ _ _ _ _ CN C0 ltac:(lia) ltac:(lia) ltac:(lia)) as CM.
  assert (PR : 0 < n1 / V) by (unfold Rdiv; apply Rmult_lt_0_compat; lra).
  assert (PN : 0 < n1 / V * S0 * n0) by (apply Rmult_lt_0_compat; [apply Rmult_lt_0_compat; assumption|lra]).
  destruct distinct.
  - split; [|lra]. unfold Rdiv at 1. rewrite Rinv_1, Rmult_1_r. revert CM. apply close_weaken; lia.
  - split; [|lra]. pose proof (close_int 2 1 ltac:(lia) ltac:(unfold p2; simpl; lra)) as C2. pose proof (close_upper _ _ _ _ _ CM ltac:(lia)) as UM.
    match type of CM with close_to ?e1 ?e2 ?K _ _ => apply (close_weaken (e1 - 1) (e2 + 1) (K + 2 * 0 + 1)); try lia; apply (div_close (e1 - 1) (e2 + 1) _ _ _ _ _ _ _ _ _ _ CM C2 ltac:(lia) ltac:(lia) ltac:(lia)) end.
    + lra.
    + destruct CM as [_ [_ [_ [A|A]]]]; [lra|]. right. match type of A with p2 ?e <= _ => replace e with (e - 1 + 1)%Z in A by lia; rewrite p2_succ in A end. lra.
    + lra.
Qed.

Definition value_by (d : nat) (distinct : bool) (k : nat) : f64 :=
  fdiv (fdiv (nsum F64ops (map (fun h => nofnat F64ops (nth k h 0%nat)) (map fst acc))) (f64_ofZ (Z.of_nat (length (map fst acc))))) (norm_by d distinct k).

Lemma value_close : forall d distinct k, (d = 2 \/ d = 3)%nat -> (Z.of_nat k <= 2 ^ 20 - 1)%Z ->
  (Z.of_nat (total (fun s => fst (snd s))) <= 2 ^ 53)%Z -> (Z.of_nat (total (fun s => snd (snd s))) <= 2 ^ 53)%Z -> (Z.of_nat (total (fun s => nth k (fst s) 0%nat)) <= 2 ^ 53)%Z ->
  ok (value_by d distinct k) /\ Rabs (fval (value_by d distinct k) - exact_gr d distinct D (fval volume) acc k) <= (445 + 46 * INR k) * u * exact_gr d distinct D (fval volume) acc k.
Proof.
  intros d distinct k Hd Hk H0 H1 H2. destruct (norm_close d distinct k Hd Hk H0 H1) as [CN PN]. pose proof (mean_close (fun s => nth k (fst s) 0%nat) H2) as CH. cbv beta in CH.
  assert (EH : nmean F64ops (map (fun s => nofnat F64ops (nth k (fst s) 0%nat)) acc) = fdiv (nsum F64ops (map (fun h => nofnat F64ops (nth k h 0%nat)) (map fst acc))) (f64_ofZ (Z.of_nat (length (map fst acc))))).
  { unfold nmean. rewrite map_map, !map_length. reflexivity. }
  rewrite EH in CH. unfold value_by. unfold exact_gr. fold (exact_norm d distinct k).
  set (h := fdiv (nsum F64ops (map (fun h => nofnat F64ops (nth k h 0%nat)) (map fst acc))) (f64_ofZ (Z.of_nat (length (map fst acc))))) in *.
  set (y := rmean (map (fun s => INR (nth k (fst s) 0%nat)) acc)) in *. set (z := exact_norm d distinct k) in *.
  pose proof (close_upper _ _ _ _ _ CN ltac:(lia)) as UZ. pose proof (close_upper _ _ _ _ _ CH ltac:(lia)) as UY.
  assert (I1 : / z <= p2 500) by (destruct CN as [_ [_ [_ [A|A]]]]; [lra|]; change (p2 500) with (p2 (- -500)); rewrite p2_inv; apply Rinv_le_contravar; [apply p2_pos|exact A]).
  assert (I2 : p2 (-601) <= / z) by (change (p2 (-601)) with (p2 (- (600 + 1))); rewrite p2_inv; apply Rinv_le_contravar; assumption).
  pose proof (Rinv_0_lt_compat _ PN) as Iz. pose proof (p2_pos (-601)). pose proof (p2_pos (-53)).
  assert (C : close_to (-654) 600 (1 + 2 * (221 + 23 * k) + 1) (fdiv h (norm_by d distinct k)) (y / z)).
  { apply (div_close (-654) 600 _ _ _ _ _ _ _ _ _ _ CH CN ltac:(lia) ltac:(lia) ltac:(lia)); [exact PN| |].
    - destruct CH as [_ [_ [_ [A|A]]]]; [left; rewrite A; unfold Rdiv; ring|right]. change (-654)%Z with (-53 + -601)%Z. rewrite p2_add. unfold Rdiv. apply Rmult_le_compat; lra.
    - assert (0 <= y) by (destruct CH as [_ [_ [W _]]]; apply (proj1 W)).
      apply Rle_trans with (p2 (53 + 1 + 500 + 1)); [|apply p2_le; lia]. rewrite (p2_succ (53 + 1 + 500)). apply Rmult_le_compat_l; [lra|]. rewrite p2_add. unfold Rdiv. apply Rmult_le_compat; lra. }
  destruct C as [Kc [_ [W _]]]. split; [exact Kc|]. pose proof (error_of_within (1 + 2 * (221 + 23 * k) + 1) _ _ ltac:(lia) W) as E.
  replace (445 + 46 * INR k) with (INR (1 + 2 * (221 + 23 * k) + 1) + 1); [exact E|].
  replace (1 + 2 * (221 + 23 * k) + 1)%nat with (444 + 46 * k)%nat by lia. rewrite plus_INR, mult_INR, !INR_IZR_INZ. simpl. ring.
Qed.
End Values.

(** ** The values reported *)
Lemma get_map_seq : forall (X : Type) (f : nat -> X) n k, (k < n)%nat -> get (map f (seq 0 n)) k = Ok (f k).
Proof. intros X f n k H. rewrite (get_Ok _ _ _ (f 0%nat)) by (rewrite map_length, seq_length; exact H). rewrite map_nth, seq_nth by exact H. reflexivity. Qed.

Lemma pairs_next : forall (X : Type) (f : nat -> X) n k, combine (map f (seq k n)) (tl (map f (seq k n))) = map (fun j => (f j, f (j + 1)%nat)) (seq k (n - 1)).
Proof.
  intros X f. induction n as [|n IH]; intros k; [reflexivity|]. cbn [seq map tl combine]. destruct n as [|n]; [reflexivity|]. replace (S (S n) - 1)%nat with (S n) by lia. cbn [seq map combine]. rewrite Nat.add_1_r. f_equal.
  specialize (IH (S k)). cbn [seq map tl] in IH. replace (S n - 1)%nat with n in IH by lia. exact IH.
Qed.

Lemma map2_map : forall (X Y W I : Type) (g : X -> Y -> W) (a : I -> X) (b : I -> Y) l, map2 g (map a l) (map b l) = map (fun i => g (a i) (b i)) l.
Proof. intros. unfold map2. induction l as [|i l IH]; [reflexivity|]. cbn [map combine]. f_equal. exact IH. Qed.

Lemma values_form : forall pow64 pi d distinct dr n acc volume, (2 <= n)%nat ->
  fast_values_by F64ops pow64 pi d distinct dr n acc volume
  = Ok (map (bin_center dr) (seq 0 n), map (value_by dr pow64 pi volume acc d distinct) (seq 0 (n - 1))).
Proof.
  intros pow64 pi d distinct dr n acc volume Hn. unfold fast_values_by, edges_by.
  assert (EB : fbins F64ops dr n = map (bin_center dr) (seq 0 n)) by reflexivity. rewrite EB.
  refine (eq_trans (f_equal (fun z => r <- (b0 <- z ;; _) ;; _) (get_map_seq _ (bin_center dr) n 0 ltac:(lia))) _). cbn [bind].
  refine (eq_trans (f_equal (fun z => r <- (b1 <- z ;; _) ;; _) (get_map_seq _ (bin_center dr) n 1 ltac:(lia))) _). cbn [bind].
  assert (ER : map (fun b => nsub F64ops b (ndiv F64ops (nsub F64ops (bin_center dr 1) (bin_center dr 0)) (nofZ F64ops 2))) (map (bin_center dr) (seq 0 n)) = map (bin_edge dr) (seq 0 n)) by (rewrite map_map; reflexivity).
  rewrite ER. rewrite pairs_next, map_length, seq_length. unfold hist_average. 
  f_equal. f_equal. refine (eq_trans (map2_map _ _ _ _ _ _ _ _) _). apply map_ext. intros k. cbn [fst snd]. unfold value_by, norm_by. destruct distinct; reflexivity.
Qed.

Lemma product_near : forall x y, ok x -> ok y -> Rabs (fval x * fval y) <= p2 900 -> ok (fmul x y) /\ Rabs (fval (fmul x y) - fval x * fval y) <= u * Rabs (fval x * fval y) + tiny.
Proof.
  intros x y Kx Ky B. assert (R1 : rounded (fval x * fval y) (fmul x y)) by (apply mul_spec; try apply Kx; apply Ky).
  destruct (rounded_bounded _ _ (p2 900) R1) as [K _]; [apply format_p2; lia|exact B|apply p2_lt; lia|]. split; [exact K|]. apply rounded_error; assumption.
Qed.

Lemma products_fair : fair_power (npow F64ops).
Proof.
  intros x d Hd Kx Bx. pose proof u_small as U. destruct (ofZ_exact 1) as [K1 V1]; [lia|].
  assert (R1 : rounded (fval x) (fmul x (f64_ofZ 1))) by (replace (fval x) with (fval x * fval (f64_ofZ 1)) by (rewrite V1; ring); apply mul_spec; try apply Kx; apply K1).
  destruct (rounded_exact _ _ R1) as [Kp Ep]; [apply ok_format; exact Kx|apply Rle_lt_trans with (1 := Bx); apply p2_lt; lia|].
  set (p := fmul x (f64_ofZ 1)) in *. set (X := fval x) in *. pose proof (Rabs_pos X) as PX.
  assert (B2 : Rabs X * Rabs X <= p2 320) by (change 320%Z with (160 + 160)%Z; rewrite p2_add; apply Rmult_le_compat; lra).
  assert (B3 : Rabs X * (Rabs X * Rabs X) <= p2 480) by (change 480%Z with (160 + 320)%Z; rewrite p2_add; apply Rmult_le_compat; try lra; apply Rmult_le_pos; lra).
  assert (PXX : 0 <= Rabs X * Rabs X) by (apply Rmult_le_pos; lra). assert (PXXX : 0 <= Rabs X * (Rabs X * Rabs X)) by (apply Rmult_le_pos; lra).
  destruct (product_near x p Kx Kp) as [K2 N2]; [rewrite Ep, Rabs_mult; apply Rle_trans with (1 := B2); apply p2_le; lia|].
  rewrite Ep, Rabs_mult in N2. fold X in N2. set (q := fmul x p) in *.
  assert (T : tiny <= p2 (-1000)) by (unfold tiny; apply p2_le; lia). pose proof tiny_pos as T0.
  assert (E1000 : 16 * p2 (-1000) <= p2 (-800)) by (apply Rle_trans with (p2 (-1000 + 1 + 1 + 1 + 1)); [rewrite !p2_succ; lra|apply p2_le; lia]).
  destruct Hd as [-> | ->].
  - change (npow F64ops x 2) with q. split; [exact K2|]. cbn [pow]. rewrite !Rmult_1_r. assert (0 <= u * (Rabs X * Rabs X)) by (apply Rmult_le_pos; lra). lra.
  - change (npow F64ops x 3) with (fmul x q). apply Rabs_le_inv in N2.
    assert (UXX : u * (Rabs X * Rabs X) <= / 1000000 * (Rabs X * Rabs X)) by (apply Rmult_le_compat_r; lra). assert (UX0 : 0 <= u * (Rabs X * Rabs X)) by (apply Rmult_le_pos; lra).
    assert (N2' : Rabs (fval q - X * X) <= u * (Rabs X * Rabs X) + tiny) by (apply Rabs_le; lra).
    assert (M : Rabs (X * fval q - X * (X * X)) <= u * (Rabs X * (Rabs X * Rabs X)) + Rabs X * tiny).
    { replace (X * fval q - X * (X * X)) with (X * (fval q - X * X)) by ring. rewrite Rabs_mult. apply Rle_trans with (Rabs X * (u * (Rabs X * Rabs X) + tiny)); [apply Rmult_le_compat_l; lra|]. right. ring. }
    assert (XT : Rabs X * tiny <= p2 (-900)) by (apply Rle_trans with (p2 160 * tiny); [apply Rmult_le_compat_r; lra|]; unfold tiny; rewrite <- p2_add; apply p2_le; lia).
    assert (E900 : 16 * p2 (-900) <= p2 (-800)) by (apply Rle_trans with (p2 (-900 + 1 + 1 + 1 + 1)); [rewrite !p2_succ; lra|apply p2_le; lia]).
    assert (PXT : 0 <= Rabs X * tiny) by (apply Rmult_le_pos; lra). assert (P800 : p2 (-800) <= 1) by (change 1 with (p2 0); apply p2_le; lia).
    assert (UXXX : 0 <= u * (Rabs X * (Rabs X * Rabs X)) <= / 1000000 * (Rabs X * (Rabs X * Rabs X))) by (split; [apply Rmult_le_pos; lra|apply Rmult_le_compat_r; lra]).
    assert (Bq : Rabs (X * fval q) <= 2 * (Rabs X * (Rabs X * Rabs X)) + Rabs X * tiny).
    { replace (X * fval q) with (X * (X * X) + (X * fval q - X * (X * X))) by ring. apply Rle_trans with (1 := Rabs_triang _ _). rewrite (Rabs_mult X (X * X)), (Rabs_mult X X). lra. }
    assert (Bq' : Rabs (X * fval q) <= (1 + / 1000000) * (Rabs X * (Rabs X * Rabs X)) + Rabs X * tiny).
    { replace (X * fval q) with (X * (X * X) + (X * fval q - X * (X * X))) by ring. apply Rle_trans with (1 := Rabs_triang _ _). rewrite (Rabs_mult X (X * X)), (Rabs_mult X X). lra. }
    destruct (product_near x q Kx K2) as [K3 N3].
    { fold X. apply Rle_trans with (1 := Bq). assert (p2 482 = 4 * p2 480) by (change 482%Z with (480 + 1 + 1)%Z; rewrite !p2_succ; ring). assert (1 <= p2 480) by (change 1 with (p2 0); apply p2_le; lia). apply Rle_trans with (p2 482); [lra|apply p2_le; lia]. }
    split; [exact K3|]. fold X in N3. cbn [pow]. rewrite !Rmult_1_r.
    assert (u * Rabs (X * fval q) <= u * ((1 + / 1000000) * (Rabs X * (Rabs X * Rabs X)) + Rabs X * tiny)) by (apply Rmult_le_compat_l; lra).
    assert (u * (Rabs X * tiny) <= / 1000000 * (Rabs X * tiny)) by (apply Rmult_le_compat_r; lra).
    apply Rabs_le_inv in N3. apply Rabs_le_inv in M. apply Rabs_le. lra.
Qed.
