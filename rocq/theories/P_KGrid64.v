(** Selection of wave-vectors in double precision. *)
From Coq Require Import List ZArith Bool Arith Reals Lra Lia Psatz Floats.SpecFloat.
From Verif Require Import PyBase PyBaseFacts Num NumFacts P_Text F64Round F64Ops F64Facts F64Sqrt P_F64Mean P_F64Time P_F64Dot P_F64Dist P_Fit64 P_Linked64 M_Helpers M_KGrid Spec_Stats Spec_BondAngle
  P_BondAngle Spec_KGrid Spec_KGrid64 P_KGrid P_KGrid2 P_KGrid3.
Import ListNotations.
Local Open Scope R_scope.

(** ** The loop for any arithmetic *)
Lemma find_shell_gen : forall (A : arith) x (kgrid dk : list (num A)) i, find_shell A x kgrid dk = Some i <->
  (exists k d, nth_error kgrid i = Some k /\ nth_error dk i = Some d /\ nlt A (nabs A (nsub A x k)) d = true) /\
  forall j k d, (j < i)%nat -> nth_error kgrid j = Some k -> nth_error dk j = Some d -> nlt A (nabs A (nsub A x k)) d = false.
Proof.
  intros A x kgrid. induction kgrid as [|k kr IH]; intros dk i; cbn [find_shell].
  - split; [discriminate|]. intros [[k [d [H _]]] _]. destruct i; discriminate.
  - destruct dk as [|d dr].
    + split; [discriminate|]. intros [[k' [d' [_ [H _]]]] _]. destruct i; discriminate.
    + destruct (nlt A (nabs A (nsub A x k)) d) eqn:L.
      * split.
        -- intros H. injection H as <-. split; [exists k, d; auto|]. intros j; lia.
        -- intros [_ H]. destruct i as [|i]; [reflexivity|]. exfalso.
           specialize (H 0%nat k d ltac:(lia) eq_refl eq_refl). congruence.
      * split.
        -- intros H. destruct (find_shell A x kr dr) as [j|] eqn:E; [|discriminate].
           injection H as <-. apply IH in E. destruct E as [[k' [d' [H1 [H2 H3]]]] H4].
           split; [exists k', d'; auto|]. intros [|m] k2 d2 Hm Hk Hd; cbn in Hk, Hd.
           ++ injection Hk as <-. injection Hd as <-. assumption.
           ++ apply (H4 m k2 d2); [lia|assumption|assumption].
        -- intros [[k' [d' [H1 [H2 H3]]]] H4]. destruct i as [|i]; cbn in H1, H2.
           ++ injection H1 as <-. injection H2 as <-. congruence.
           ++ assert (E : find_shell A x kr dr = Some i).
              { apply IH. split; [exists k', d'; auto|]. intros m k2 d2 Hm Hk Hd.
                apply (H4 (S m) k2 d2); [lia|assumption|assumption]. }
              rewrite E. reflexivity.
Qed.

(** The widths after some number of widenings, shell by shell. *)
Definition grown (A : arith) (w : nat) (d : num A) : num A := Nat.iter w (fun x => nmul A x (n12 A)) d.
Definition widened_in (A : arith) (f : nat) (dk dk' : list (num A)) : Prop :=
  length dk' = length dk /\ forall i d, nth_error dk' i = Some d -> exists w d0, (w <= f)%nat /\ nth_error dk i = Some d0 /\ d = grown A w d0.

Lemma widen_nth_error : forall A (dk : list (num A)) (kvec : list (list (list Z))) i d, nth_error (widen A dk kvec) i = Some d ->
  exists d0 w, (w <= 1)%nat /\ nth_error dk i = Some d0 /\ d = grown A w d0.
Proof.
  intros A dk kvec i d H. unfold widen in H. rewrite nth_error_map in H. destruct (nth_error (combine dk kvec) i) as [[d0 s]|] eqn:E; [|discriminate]. cbn in H. injection H as <-.
  assert (E0 : nth_error dk i = Some d0).
  { clear - E. revert kvec i E. induction dk as [|a dk IH]; intros [|b kvec] [|i] E; cbn in *; try discriminate; [congruence|]. eapply IH. exact E. }
  exists d0, (if is_empty s then 1 else 0)%nat. destruct (is_empty s); auto.
Qed.
Lemma grown_add : forall A v w d, grown A v (grown A w d) = grown A (v + w) d.
Proof. intros A v w d. unfold grown. induction v as [|v IH]; [reflexivity|]. cbn [Nat.iter Nat.add] in *. cbn. f_equal. exact IH. Qed.

Lemma setup_grid_gen : forall A fuel (dk kgrid k0 : list (num A)) kvec kb, length dk = length kgrid ->
  setup_grid_sphere A fuel dk kgrid k0 = Ok (kvec, kb) ->
  exists dk', widened_in A fuel dk dk' /\ grid_pass A dk' kgrid k0 = Ok (kvec, kb) /\ forall i, (i < length kgrid)%nat -> nth i kvec [] <> [].
Proof.
  intros A fuel. induction fuel as [|f IH]; intros dk kgrid k0 kvec kb L H; cbn [setup_grid_sphere] in H; [discriminate|].
  apply bind_Ok_inv in H. destruct H as [[kv b] [E H]]. cbn [fst] in H.
  pose proof E as E'. apply grid_pass_spec in E'. destruct E' as [kl [dl [km [q [pts [_ [_ [_ [_ [_ [_ [Lk _]]]]]]]]]]]].
  destruct (existsb is_empty kv) eqn:EX.
  - assert (Lw : length (widen A dk kv) = length dk) by (unfold widen; rewrite map_length, combine_length; lia).
    apply IH in H; [|rewrite Lw; exact L]. destruct H as [dk' [[W1 W2] [P N]]]. exists dk'. split; [|tauto]. split; [congruence|].
    intros i d Hd. destruct (W2 i d Hd) as [w [d0 [Hw [H0 ->]]]]. apply widen_nth_error in H0. destruct H0 as [d1 [v [Hv [H1 ->]]]]. exists (w + v)%nat, d1. split; [lia|]. split; [exact H1|apply grown_add].
  - apply Ok_inj in H. pose proof (f_equal fst H) as H1. pose proof (f_equal snd H) as H2. cbn in H1, H2. subst kv b.
    exists dk. split; [split; [reflexivity|]; intros i d Hd; exists 0%nat, d; split; [lia|]; split; [exact Hd|reflexivity]|]. split; [assumption|].
    intros i Hi. apply existsb_empty_false; [assumption|lia].
Qed.

(** ** Widths *)
Lemma twelve_tenths : ok (n12 F64ops) /\ Rabs (fval (n12 F64ops) - 12 / 10) <= u * (12 / 10).
Proof.
  destruct (ofZ_exact 12 ltac:(cbn; lia)) as [K1 E1]. destruct (ofZ_exact 10 ltac:(cbn; lia)) as [K2 E2].
  pose proof (div_spec _ _ (proj1 K1) (proj1 K2) (proj2 K1) (proj2 K2) ltac:(rewrite E2; lra)) as R1. rewrite E1, E2 in R1.
  change (n12 F64ops) with (SFdiv fprec femax (f64_ofZ 12) (f64_ofZ 10)).
  destruct (rounded_bounded _ _ (p2 1) R1) as [K _]; [apply format_p2; lia|rewrite Rabs_right by lra; rewrite (p2_Z 1) by lia; cbn; lra|apply p2_lt; lia|]. split; [exact K|].
  pose proof (rounded_relative _ _ R1 K) as Q. rewrite (Rabs_right (12 / 10)) in Q by lra. apply Q. right. apply Rle_trans with (p2 0); [apply p2_le; lia|rewrite (p2_Z 0) by lia; cbn; lra].
Qed.

Lemma grown_spec : forall w d, (w <= 1000)%nat -> ok d -> p2 (-60) <= fval d <= p2 20 -> let g := grown F64ops w d in
  ok g /\ fval d <= fval g <= p2 (20 + Z.of_nat w) /\ Rabs (fval g - fval d * (12 / 10) ^ w) <= 3 * INR w * u * (fval d * (12 / 10) ^ w).
Proof.
  intros w d Hw Kd Bd. pose proof u_small as U. pose proof (p2_pos (-60)) as P60. destruct twelve_tenths as [Kc Ec]. set (c := n12 F64ops) in *.
  apply Rabs_le_inv in Ec. assert (C1 : 1 <= fval c <= 2) by lra.
  induction w as [|w IH]; cbn zeta.
  - cbn [grown Nat.iter pow]. split; [exact Kd|]. split; [change (20 + Z.of_nat 0)%Z with 20%Z; split; [apply Rle_refl|apply Bd]|]. rewrite Rmult_1_r, Rminus_diag_eq, Rabs_R0 by reflexivity. cbn [INR]. lra.
  - destruct (IH ltac:(lia)) as [Kg [Bg Eg]]. clear IH. assert (E : grown F64ops (S w) d = fmul (grown F64ops w d) c) by reflexivity. rewrite E. clear E. set (g := grown F64ops w d) in *.
    assert (G0 : 0 < fval g) by lra. pose proof (mul_spec g c (proj1 Kg) (proj1 Kc) (proj2 Kg) (proj2 Kc)) as R1.
    assert (M : fval g <= fval g * fval c <= fval g * 2) by (split; [rewrite <- (Rmult_1_r (fval g)) at 1|]; apply Rmult_le_compat_l; lra).
    destruct (rounded_bounded _ _ (p2 (20 + Z.of_nat (S w))) R1) as [K B]; [apply format_p2; lia| |apply p2_lt; lia|].
    { rewrite Rabs_right by lra. rewrite Nat2Z.inj_succ. replace (20 + Z.succ (Z.of_nat w))%Z with (20 + Z.of_nat w + 1)%Z by lia. rewrite p2_succ. lra. }
    split; [exact K|]. assert (L : fval g <= fval (fmul g c)) by (apply (rounded_ge _ _ _ R1 K); [apply ok_format; exact Kg|lra]).
    rewrite Rabs_right in B by lra. split; [lra|].
    pose proof (rounded_relative _ _ R1 K) as Q. assert (Z1 : p2 (-1022) <= Rabs (fval g * fval c)) by (rewrite Rabs_right by lra; apply Rle_trans with (p2 (-60)); [apply p2_le; lia|lra]).
    specialize (Q (or_intror Z1)). rewrite (Rabs_right (fval g * fval c)) in Q by lra. cbn [pow]. rewrite S_INR.
    replace (fval d * (12 / 10 * (12 / 10) ^ w)) with (12 / 10 * (fval d * (12 / 10) ^ w)) by ring. set (t := fval d * (12 / 10) ^ w) in *.
    assert (T0 : 0 < t) by (apply Rmult_lt_0_compat; [lra|apply pow_lt; lra]).
    assert (W0 : 0 <= INR w <= 1000) by (split; [apply pos_INR|replace 1000 with (INR 1000) by (rewrite INR_IZR_INZ; reflexivity); apply le_INR; lia]).
    set (r := fval (fmul g c)) in *. set (a := fval g) in *. set (b := fval c) in *. clearbody r a b t. set (n := INR w) in *. clearbody n. clear - U W0 T0 Eg Ec Q C1 G0.
    set (q := u * t) in *. assert (q0 : 0 < q) by (apply Rmult_lt_0_compat; lra). replace (3 * n * u * t) with (3 * n * q) in Eg by (unfold q; ring).
    assert (nq : 0 <= n * q <= 1000 * q) by (split; [apply Rmult_le_pos; lra|apply Rmult_le_compat_r; lra]).
    assert (uq : 0 <= u * q <= / 1000000 * q) by (split; [apply Rmult_le_pos; lra|apply Rmult_le_compat_r; lra]).
    assert (unq : 0 <= u * (n * q) <= / 1000 * q) by (split; [apply Rmult_le_pos; lra|apply Rle_trans with (/ 1000000 * (n * q)); [apply Rmult_le_compat_r; lra|lra]]).
    apply Rabs_le_inv in Eg. apply Rabs_le_inv in Q.
    assert (tb : t * b <= 12 / 10 * t + 12 / 10 * q /\ 12 / 10 * t - 12 / 10 * q <= t * b).
    { split; [apply Rle_trans with (t * (12 / 10 + u * (12 / 10))); [apply Rmult_le_compat_l; lra|unfold q; lra]|apply Rle_trans with (t * (12 / 10 - u * (12 / 10))); [unfold q; lra|apply Rmult_le_compat_l; lra]]. }
    assert (nqb : n * q * b <= 12 / 10 * (n * q) + 12 / 10 * (u * (n * q))).
    { apply Rle_trans with (n * q * (12 / 10 + u * (12 / 10))); [apply Rmult_le_compat_l; lra|lra]. }
    assert (ab1 : a * b <= (t + 3 * n * q) * b) by (apply Rmult_le_compat_r; lra). assert (ab2 : (t - 3 * n * q) * b <= a * b) by (apply Rmult_le_compat_r; lra).
    assert (ab : u * (a * b) <= 12 / 10 * q + 12 / 10 * (u * q) + 4 * (u * (n * q))).
    { apply Rle_trans with (u * (12 / 10 * t + 12 / 10 * q + 3 * (12 / 10 * (n * q) + 12 / 10 * (u * (n * q))))); [apply Rmult_le_compat_l; lra|].
      assert (u * (u * (n * q)) <= / 1000000 * (u * (n * q))) by (apply Rmult_le_compat_r; lra). replace (u * (12 / 10 * t + 12 / 10 * q + 3 * (12 / 10 * (n * q) + 12 / 10 * (u * (n * q))))) with (12 / 10 * q + 12 / 10 * (u * q) + 36 / 10 * (u * (n * q)) + 36 / 10 * (u * (u * (n * q)))) by (unfold q; field). lra. }
    replace (3 * (n + 1) * u * (12 / 10 * t)) with (36 / 10 * (n * q) + 36 / 10 * q) by (unfold q; field). apply Rabs_le. split; lra.
Qed.

(** ** Norms *)
Definition close (m : R) (a : f64) (A : R) : Prop := ok a /\ 0 <= A <= p2 230 /\ Rabs (fval a - A) <= m * (u * A).

Lemma close_zero : forall m, 0 <= m -> close m (S754_zero false) 0.
Proof. intros m Hm. split; [split; reflexivity|]. pose proof (p2_pos 230). split; [lra|]. cbn [fval]. rewrite Rminus_diag_eq, Rabs_R0 by reflexivity. rewrite Rmult_0_r, Rmult_0_r. lra. Qed.
Lemma close_weaken : forall m m' a A, m <= m' -> close m a A -> close m' a A.
Proof. intros m m' a A H [K [B E]]. split; [exact K|]. split; [exact B|]. apply Rle_trans with (1 := E). apply Rmult_le_compat_r; [|exact H]. pose proof u_small. apply Rmult_le_pos; lra. Qed.
Lemma close_add : forall m a A b B, 0 <= m <= 20 -> A + B <= p2 230 -> close m a A -> close m b B -> close (m + 11 / 10) (fadd a b) (A + B).
Proof.
  intros m a A b B Hm HS [Ka [Ba Ea]] [Kb [Bb Eb]]. pose proof u_small as U. pose proof (add_spec a b (proj1 Ka) (proj1 Kb) (proj2 Ka) (proj2 Kb)) as R1.
  set (q := u * A) in *. set (r := u * B) in *. assert (q0 : 0 <= q <= / 1000000 * A) by (split; [apply Rmult_le_pos; lra|apply Rmult_le_compat_r; lra]). assert (r0 : 0 <= r <= / 1000000 * B) by (split; [apply Rmult_le_pos; lra|apply Rmult_le_compat_r; lra]).
  apply Rabs_le_inv in Ea. apply Rabs_le_inv in Eb. assert (mq : 0 <= m * q <= 20 * q) by (split; [apply Rmult_le_pos; lra|apply Rmult_le_compat_r; lra]). assert (mr : 0 <= m * r <= 20 * r) by (split; [apply Rmult_le_pos; lra|apply Rmult_le_compat_r; lra]).
  assert (S0 : 0 <= fval a + fval b <= 2 * p2 230) by lra.
  destruct (rounded_bounded _ _ (p2 231) R1) as [K _]; [apply format_p2; lia|rewrite Rabs_right by lra; change 231%Z with (230 + 1)%Z; rewrite p2_succ; lra|apply p2_lt; lia|].
  split; [exact K|]. split; [lra|]. pose proof (add_relative a b _ Ka Kb R1 K) as Q. rewrite (Rabs_right (fval a + fval b)) in Q by lra. apply Rabs_le_inv in Q.
  assert (Us : u * (fval a + fval b) <= 101 / 100 * (q + r)).
  { apply Rle_trans with (u * (A + B + 20 * (q + r))); [apply Rmult_le_compat_l; lra|]. replace (u * (A + B + 20 * (q + r))) with (q + r + 20 * (u * (q + r))) by (unfold q, r; ring). assert (u * (q + r) <= / 1000000 * (q + r)) by (apply Rmult_le_compat_r; lra). lra. }
  replace ((m + 11 / 10) * (u * (A + B))) with (m * q + m * r + 11 / 10 * (q + r)) by (unfold q, r; ring). change (nadd F64ops a b) with (fadd a b). apply Rabs_le. lra.
Qed.

Lemma close_term : forall k z, ok k -> p2 (-60) <= fval k <= p2 60 -> (Z.abs z <= 2 ^ 52)%Z -> close 4 (fmul (fmul k (f64_ofZ z)) (fmul k (f64_ofZ z))) ((fval k * IZR z) * (fval k * IZR z)) /\ (fval k * IZR z) * (fval k * IZR z) <= p2 224.
Proof.
  intros k z Kk Bk Hz. pose proof u_small as U. pose proof (p2_pos (-60)) as P60. destruct (ofZ_exact z ltac:(lia)) as [Kz Ez].
  assert (Bz : Rabs (fval (f64_ofZ z)) <= p2 52) by (rewrite Ez, (p2_Z 52), <- abs_IZR by lia; apply IZR_le; exact Hz).
  destruct (mul_bound 60 52 k (f64_ofZ z) Kk Kz ltac:(rewrite Rabs_right; lra) Bz ltac:(lia)) as [Kc [Bc Ec]]. rewrite Ez in Ec.
  destruct (mul_bound 112 112 _ _ Kc Kc Bc Bc ltac:(lia)) as [Kq [Bq Eq]]. set (c := fmul k (f64_ofZ z)) in *. set (v := fval k * IZR z) in *. set (q := fmul c c) in *.
  assert (Vb : Rabs v <= p2 112) by (unfold v; rewrite Rabs_mult, <- Ez; change 112%Z with (60 + 52)%Z; rewrite p2_add; apply Rmult_le_compat; try apply Rabs_pos; [rewrite Rabs_right; lra|exact Bz]).
  assert (Vv : v * v = Rabs v * Rabs v) by (rewrite <- Rabs_mult; rewrite Rabs_right; [reflexivity|]; apply Rle_ge, Rle_0_sqr).
  assert (V2 : 0 <= v * v <= p2 224) by (rewrite Vv; pose proof (Rabs_pos v); split; [apply Rmult_le_pos; lra|change 224%Z with (112 + 112)%Z; rewrite p2_add; apply Rmult_le_compat; lra]).
  split; [|lra]. split; [exact Kq|]. split; [split; [lra|apply Rle_trans with (p2 224); [lra|apply p2_le; lia]]|].
  destruct (Z.eq_dec z 0) as [->|Nz].
  - assert (v0 : v = 0) by (unfold v; ring). assert (c0 : fval c = 0).
    { pose proof (mul_spec k (f64_ofZ 0) (proj1 Kk) (proj1 Kz) (proj2 Kk) (proj2 Kz)) as R1. rewrite Ez, Rmult_0_r in R1. apply (rounded_exact 0 _ R1 format_0). rewrite Rabs_R0. apply p2_pos. }
    assert (q0 : fval q = 0).
    { pose proof (mul_spec c c (proj1 Kc) (proj1 Kc) (proj2 Kc) (proj2 Kc)) as R1. rewrite c0, Rmult_0_r in R1. apply (rounded_exact 0 _ R1 format_0). rewrite Rabs_R0. apply p2_pos. }
    rewrite q0, v0. rewrite !Rmult_0_r, Rminus_diag_eq, Rabs_R0 by reflexivity. lra.
  - assert (V1 : p2 (-60) <= Rabs v).
    { unfold v. rewrite Rabs_mult, (Rabs_right (fval k)) by lra. assert (1 <= Rabs (IZR z)) by (rewrite <- abs_IZR; apply IZR_le; lia). apply Rle_trans with (fval k * 1); [lra|]. apply Rmult_le_compat_l; lra. }
    assert (T1 : tiny <= / 1000 * (u * Rabs v)).
    { apply Rle_trans with (/ 1000 * (u * p2 (-60))); [|apply Rmult_le_compat_l; [lra|]; apply Rmult_le_compat_l; lra]. unfold tiny, u. rewrite <- p2_add. assert (p2 (-1075) * 1024 <= p2 (-53 + -60)) by (replace 1024 with (p2 10) by (rewrite (p2_Z 10) by lia; reflexivity); rewrite <- p2_add; apply p2_le; lia). pose proof (p2_pos (-1075)). lra. }
    assert (T2 : tiny <= / 1000 * (u * (v * v))).
    { rewrite Vv. apply Rle_trans with (/ 1000 * (u * (p2 (-60) * p2 (-60)))).
      - unfold tiny, u. rewrite <- !p2_add. assert (p2 (-1075) * 1024 <= p2 (-53 + (-60 + -60))) by (replace 1024 with (p2 10) by (rewrite (p2_Z 10) by lia; reflexivity); rewrite <- p2_add; apply p2_le; lia). pose proof (p2_pos (-1075)). lra.
      - apply Rmult_le_compat_l; [lra|]. apply Rmult_le_compat_l; [lra|]. apply Rmult_le_compat; lra. }
    set (x := fval c) in *. set (y := fval q) in *. clearbody x y v. clear - U Ec Eq T1 T2 V2 Vv.
    set (a := Rabs v) in *. assert (a0 : 0 <= a) by apply Rabs_pos. assert (ua : 0 <= u * a) by (apply Rmult_le_pos; lra).
    assert (Dx : Rabs (x - v) <= 1001 / 1000 * (u * a)) by lra.
    assert (Dxx : Rabs (x * x - v * v) <= 201 / 100 * (u * (v * v))).
    { replace (x * x - v * v) with ((x - v) * ((x - v) + 2 * v)) by ring. rewrite Rabs_mult. assert (Rabs (x - v + 2 * v) <= 1001 / 1000 * (u * a) + 2 * a).
      { apply Rle_trans with (1 := Rabs_triang _ _). rewrite Rabs_mult, (Rabs_right 2) by lra. fold a. lra. }
      apply Rle_trans with (1001 / 1000 * (u * a) * (1001 / 1000 * (u * a) + 2 * a)); [apply Rmult_le_compat; try apply Rabs_pos; assumption|]. rewrite Vv.
      assert (0 <= u * (a * a)) by (apply Rmult_le_pos; [lra|apply Rmult_le_pos; lra]). assert (u * (u * (a * a)) <= / 1000000 * (u * (a * a))) by (apply Rmult_le_compat_r; lra).
      replace (1001 / 1000 * (u * a) * (1001 / 1000 * (u * a) + 2 * a)) with (1001 / 1000 * (1001 / 1000) * (u * (u * (a * a))) + 2002 / 1000 * (u * (a * a))) by field. lra. }
    set (w := v * v) in *. clearbody w a. set (qq := u * w) in *. assert (q0 : 0 <= qq) by (apply Rmult_le_pos; lra). assert (uq : u * qq <= / 1000000 * qq) by (apply Rmult_le_compat_r; lra).
    apply Rabs_le_inv in Dxx. assert (Xb : Rabs (x * x) <= w + 201 / 100 * qq) by (rewrite Rabs_right by (apply Rle_ge, Rle_0_sqr); lra).
    assert (u * Rabs (x * x) <= qq + 201 / 100 * (u * qq)) by (apply Rle_trans with (u * (w + 201 / 100 * qq)); [apply Rmult_le_compat_l; lra|unfold qq; lra]).
    apply Rabs_le_inv in Eq. apply Rabs_le. lra.
Qed.

Lemma close_square : forall k0 n, cell_waves k0 -> length n = length k0 -> Forall (fun z => (Z.abs z <= 2 ^ 52)%Z) n ->
  let v := wave (map fval k0) n in close 8 (self_dot F64ops (kscale F64ops k0 n)) (dot v v) /\ dot v v <= p2 226.
Proof.
  intros k0 n [Hd Hk] Ln Fn v. pose proof (p2_pos 224) as P4.
  assert (Q : p2 226 = 4 * p2 224) by (change 226%Z with (224 + 1 + 1)%Z; rewrite !p2_succ; ring). assert (Q' : p2 226 <= p2 230) by (apply p2_le; lia).
  destruct Hd as [Hd|Hd]; [destruct k0 as [|ka [|kb [|]]]; try discriminate Hd|destruct k0 as [|ka [|kb [|kc [|]]]]; try discriminate Hd].
  - destruct n as [|a [|b [|]]]; try discriminate Ln. inversion Fn as [|? ? Fa F2]; subst. inversion F2 as [|? ? Fb F3]; subst.
    destruct (Hk ka ltac:(cbn; auto)) as [Ka Ba]. destruct (Hk kb ltac:(cbn; auto)) as [Kb Bb].
    destruct (close_term ka a Ka Ba Fa) as [Ca Ma]. destruct (close_term kb b Kb Bb Fb) as [Cb Mb].
    change (dot v v) with (fval ka * IZR a * (fval ka * IZR a) + (fval kb * IZR b * (fval kb * IZR b) + 0)). rewrite Rplus_0_r.
    split; [|lra]. change (self_dot F64ops (kscale F64ops [ka; kb] [a; b])) with (fadd (fadd (S754_zero false) (fmul (fmul ka (f64_ofZ a)) (fmul ka (f64_ofZ a)))) (fmul (fmul kb (f64_ofZ b)) (fmul kb (f64_ofZ b)))).
    apply close_weaken with (4 + 11 / 10 + 11 / 10); [lra|]. apply close_add; [lra|lra| |apply close_weaken with 4; [lra|exact Cb]].
    rewrite <- (Rplus_0_l (fval ka * IZR a * (fval ka * IZR a))). apply close_add; [lra|lra|apply close_zero; lra|exact Ca].
  - destruct n as [|a [|b [|c [|]]]]; try discriminate Ln. inversion Fn as [|? ? Fa F2]; subst. inversion F2 as [|? ? Fb F3]; subst. inversion F3 as [|? ? Fc F4]; subst.
    destruct (Hk ka ltac:(cbn; auto)) as [Ka Ba]. destruct (Hk kb ltac:(cbn; auto)) as [Kb Bb]. destruct (Hk kc ltac:(cbn; auto)) as [Kc Bc].
    destruct (close_term ka a Ka Ba Fa) as [Ca Ma]. destruct (close_term kb b Kb Bb Fb) as [Cb Mb]. destruct (close_term kc c Kc Bc Fc) as [Cc Mc].
    change (dot v v) with (fval ka * IZR a * (fval ka * IZR a) + (fval kb * IZR b * (fval kb * IZR b) + (fval kc * IZR c * (fval kc * IZR c) + 0))). rewrite Rplus_0_r, <- Rplus_assoc.
    split; [|lra]. change (self_dot F64ops (kscale F64ops [ka; kb; kc] [a; b; c])) with (fadd (fadd (fadd (S754_zero false) (fmul (fmul ka (f64_ofZ a)) (fmul ka (f64_ofZ a)))) (fmul (fmul kb (f64_ofZ b)) (fmul kb (f64_ofZ b)))) (fmul (fmul kc (f64_ofZ c)) (fmul kc (f64_ofZ c)))).
    apply close_weaken with (4 + 11 / 10 + 11 / 10 + 11 / 10); [lra|]. apply close_add; [lra|lra| |apply close_weaken with 4; [lra|exact Cc]]. apply close_add; [lra|lra| |apply close_weaken with 4; [lra|exact Cb]].
    rewrite <- (Rplus_0_l (fval ka * IZR a * (fval ka * IZR a))). apply close_add; [lra|lra|apply close_zero; lra|exact Ca].
Qed.

Lemma close_norm : forall k0 n, cell_waves k0 -> length n = length k0 -> Forall (fun z => (Z.abs z <= 2 ^ 52)%Z) n ->
  let v := wave (map fval k0) n in let r := nsqrt F64ops (self_dot F64ops (kscale F64ops k0 n)) in
  ok r /\ 0 <= fval r <= p2 114 /\ Rabs (fval r - norm v) <= 10 * (u * norm v) /\ norm v <= p2 113.
Proof.
  intros k0 n Hk Ln Fn v r. pose proof u_small as U. destruct (close_square k0 n Hk Ln Fn) as [[Ks [Bs Es]] Ms]. fold v in Bs, Es, Ms. set (s := self_dot F64ops (kscale F64ops k0 n)) in *.
  assert (us : 0 <= u * dot v v <= / 1000000 * dot v v) by (split; [apply Rmult_le_pos; lra|apply Rmult_le_compat_r; lra]).
  assert (S0 : 0 <= fval s) by (apply Rabs_le_inv in Es; lra).
  assert (Nv : norm v <= p2 113) by (unfold norm; rewrite <- (sqrt_square (p2 113)) by (left; apply p2_pos); apply sqrt_le_1_alt; rewrite <- p2_add; exact Ms).
  pose proof (sqrt_perturbed (fval s) (dot v v) (8 * u) 0 S0 ltac:(lra) ltac:(lra) ltac:(lra) ltac:(lra)) as Q. rewrite sqrt_0 in Q. change (sqrt (dot v v)) with (norm v) in Q.
  pose proof (norm_nonneg v) as N0. assert (uN : 0 <= u * norm v <= / 1000000 * norm v) by (split; [apply Rmult_le_pos; lra|apply Rmult_le_compat_r; lra]).
  apply Rabs_le_inv in Q. pose proof (sqrt_pos (fval s)) as Q0. assert (R1 : rounded (sqrt (fval s)) r) by (apply sqrt_spec64; [apply Ks|apply Ks|exact S0]).
  assert (P : p2 114 = 2 * p2 113) by (change 114%Z with (113 + 1)%Z; apply p2_succ). pose proof (p2_pos 113) as P113.
  destruct (rounded_bounded _ _ (p2 114) R1) as [K B]; [apply format_p2; lia|rewrite Rabs_right by lra; lra|apply p2_lt; lia|].
  assert (r0 : 0 <= fval r) by (apply (rounded_ge _ _ 0 R1 K format_0 Q0)). rewrite Rabs_right in B by lra. split; [exact K|]. split; [lra|]. split; [|exact Nv].
  assert (Z1 : sqrt (fval s) = 0 \/ p2 (-1022) <= Rabs (sqrt (fval s))).
  { destruct (Req_dec (fval s) 0) as [E|E]; [left; rewrite E; apply sqrt_0|]. right. rewrite Rabs_right by lra. rewrite <- (sqrt_square (p2 (-1022))) by (left; apply p2_pos). apply sqrt_le_1_alt. rewrite <- p2_add.
    apply Rle_trans with (p2 (-1074)); [apply p2_le; lia|]. destruct (format_multiple (fval s) (ok_format s Ks)) as [j Ej]. rewrite Ej. pose proof (p2_pos (-1074)) as Pt. assert (j <> 0%Z) by (intros ->; apply E; rewrite Ej; ring).
    assert (0 < IZR j) by (apply Rmult_lt_reg_r with (p2 (-1074)); [exact Pt|]; rewrite Rmult_0_l, <- Ej; lra). apply lt_IZR in H0. assert (1 <= IZR j) by (apply IZR_le; lia). apply Rle_trans with (1 * p2 (-1074)); [lra|]. apply Rmult_le_compat_r; lra. }
  pose proof (rounded_relative _ _ R1 K Z1) as Er. rewrite (Rabs_right (sqrt (fval s))) in Er by lra. set (t := sqrt (fval s)) in *. set (N := norm v) in *. set (rr := fval r) in *. clearbody t N rr.
  assert (u * t <= u * N + 8 * (u * (u * N))) by (apply Rle_trans with (u * (N + 8 * u * N)); [apply Rmult_le_compat_l; lra|lra]). assert (u * (u * N) <= / 1000000 * (u * N)) by (apply Rmult_le_compat_r; lra).
  apply Rabs_le_inv in Er. apply Rabs_le. lra.
Qed.
