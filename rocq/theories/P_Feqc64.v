(** Roots of tabulated functions in double precision. *)
From Coq Require Import List ZArith Bool Arith Reals Lia Lra Psatz Floats.SpecFloat.
From Verif Require Import PyBase PyBaseFacts Num NumFacts P_Text F64Round F64Ops F64Facts P_F64Mean P_F64Time P_F64Dot M_Helpers Spec_Fit P_Helpers Spec_Feqc64.
Import ListNotations.
Local Open Scope R_scope.

Lemma rel_error : forall v r, rounded v r -> ok r -> v = 0 \/ p2 (-1022) <= Rabs v -> exists d, Rabs d <= u /\ fval r = v * (1 + d).
Proof.
  intros v r H K L. pose proof (rounded_relative v r H K L) as E. destruct (Req_dec v 0) as [Z|Z].
  - exists 0. rewrite Rabs_R0. split; [left; apply u_pos|]. rewrite Z in *. rewrite Rabs_R0, Rmult_0_r in E. pose proof (Rabs_pos (fval r - 0)) as P. assert (Q : Rabs (fval r - 0) = 0) by lra.
    destruct (Req_dec (fval r - 0) 0) as [W|W]; [lra|]. apply Rabs_no_R0 in W. contradiction.
  - exists ((fval r - v) / v). split; [|field; exact Z]. unfold Rdiv. rewrite Rabs_mult, Rabs_inv. apply Rmult_le_reg_r with (Rabs v); [apply Rabs_pos_lt; exact Z|]. rewrite Rmult_assoc, Rinv_l by (apply Rabs_no_R0; exact Z). lra.
Qed.

Lemma sub_rel : forall a b, ok a -> ok b -> Rabs (fval a) <= p2 300 -> Rabs (fval b) <= p2 300 ->
  ok (fsub a b) /\ exists d, Rabs d <= u /\ fval (fsub a b) = (fval a - fval b) * (1 + d).
Proof.
  intros a b Ka Kb Ba Bb. pose proof (sub_spec a b (proj1 Ka) (proj1 Kb) (proj2 Ka) (proj2 Kb)) as H.
  assert (B : Rabs (fval a - fval b) <= p2 301).
  { apply Rle_trans with (1 := Rabs_triang _ _). rewrite Rabs_Ropp. change 301%Z with (300 + 1)%Z. rewrite p2_succ. lra. }
  destruct (rounded_bounded _ _ (p2 301) H) as [K _]; [apply format_p2; lia|exact B|apply p2_lt; lia|]. split; [exact K|].
  destruct (format_multiple _ (ok_format _ Ka)) as [i Ei]. destruct (format_multiple _ (ok_format _ Kb)) as [j Ej].
  assert (E : Rabs (fval (fsub a b) - (fval a - fval b)) <= u * Rabs (fval a - fval b)).
  { apply (multiple_relative (i - j)); [|assumption|assumption]. rewrite Ei, Ej, minus_IZR. ring. }
  destruct (Req_dec (fval a - fval b) 0) as [Z|Z].
  - exists 0. rewrite Rabs_R0. split; [left; apply u_pos|]. rewrite Z in *. rewrite Rabs_R0, Rmult_0_r in E. pose proof (Rabs_pos (fval (fsub a b) - 0)) as P.
    destruct (Req_dec (fval (fsub a b) - 0) 0) as [W|W]; [lra|]. apply Rabs_no_R0 in W. lra.
  - exists ((fval (fsub a b) - (fval a - fval b)) / (fval a - fval b)). split; [|field; exact Z]. unfold Rdiv. rewrite Rabs_mult, Rabs_inv. apply Rmult_le_reg_r with (Rabs (fval a - fval b)); [apply Rabs_pos_lt; exact Z|]. rewrite Rmult_assoc, Rinv_l by (apply Rabs_no_R0; exact Z). lra.
Qed.

Lemma factor_pos : forall d, Rabs d <= u -> / 2 <= 1 + d <= 2.
Proof. intros d H. apply Rabs_le_inv in H. pose proof u_small. lra. Qed.

Lemma factor_bounds : forall v d, Rabs d <= u -> / 2 * Rabs v <= Rabs (v * (1 + d)) <= 2 * Rabs v.
Proof. intros v d H. pose proof (factor_pos d H) as F. rewrite Rabs_mult, (Rabs_right (1 + d)) by lra. pose proof (Rabs_pos v). split; [rewrite Rmult_comm; apply Rmult_le_compat_l; lra|rewrite (Rmult_comm 2); apply Rmult_le_compat_l; lra]. Qed.

(** Three factors over two of them. *)
Lemma factors : forall d1 d2 d3 d4 d5, Rabs d1 <= u -> Rabs d2 <= u -> Rabs d3 <= u -> Rabs d4 <= u -> Rabs d5 <= u ->
  Rabs ((1 + d1) * (1 + d3) * (1 + d5) / ((1 + d2) * (1 + d4)) - 1) <= 6 * u.
Proof.
  intros d1 d2 d3 d4 d5 H1 H2 H3 H4 H5. pose proof u_small as U. pose proof u_pos as U0.
  assert (M : forall a b x y, 0 <= x -> 0 <= y -> Rabs a <= x -> Rabs b <= y -> Rabs (a * b) <= x * y) by (intros; rewrite Rabs_mult; apply Rmult_le_compat; try apply Rabs_pos; assumption).
  assert (P : Rabs ((1 + d1) * (1 + d3) * (1 + d5) - 1) <= 3 * u + 3 * (u * u) + u * u * u).
  { replace ((1 + d1) * (1 + d3) * (1 + d5) - 1) with (d1 + d3 + d5 + (d1 * d3 + d1 * d5 + d3 * d5) + d1 * d3 * d5) by ring.
    pose proof (M d1 d3 u u ltac:(lra) ltac:(lra) H1 H3) as A1. pose proof (M d1 d5 u u ltac:(lra) ltac:(lra) H1 H5) as A2. pose proof (M d3 d5 u u ltac:(lra) ltac:(lra) H3 H5) as A3.
    pose proof (M (d1 * d3) d5 (u * u) u ltac:(apply Rmult_le_pos; lra) ltac:(lra) A1 H5) as A4.
    apply Rabs_le_inv in A1, A2, A3, A4, H1, H3, H5. apply Rabs_le. lra. }
  assert (Q : Rabs ((1 + d2) * (1 + d4) - 1) <= 2 * u + u * u).
  { replace ((1 + d2) * (1 + d4) - 1) with (d2 + d4 + d2 * d4) by ring. pose proof (M d2 d4 u u ltac:(lra) ltac:(lra) H2 H4) as A1. apply Rabs_le_inv in A1, H2, H4. apply Rabs_le. lra. }
  set (p := (1 + d1) * (1 + d3) * (1 + d5)) in *. set (q := (1 + d2) * (1 + d4)) in *. apply Rabs_le_inv in P, Q.
  assert (UU : 0 <= u * u <= u / 1000) by (split; [apply Rmult_le_pos; lra|apply Rle_trans with (u * / 1000); [apply Rmult_le_compat_l; lra|lra]]).
  assert (UUU : 0 <= u * u * u <= u / 1000) by (split; [apply Rmult_le_pos; lra|apply Rle_trans with (u * u * 1); [apply Rmult_le_compat_l; lra|lra]]).
  assert (Qp : 1 - 3 * u <= q) by lra. replace (p / q - 1) with ((p - q) * / q) by (field; lra). rewrite Rabs_mult, Rabs_inv, (Rabs_right q) by lra.
  apply Rmult_le_reg_r with q; [lra|]. rewrite Rmult_assoc, Rinv_l, Rmult_1_r by lra. assert (6 * u * (1 - 3 * u) <= 6 * u * q) by (apply Rmult_le_compat_l; lra). assert (Rabs (p - q) <= 5 * u + u / 100) by (apply Rabs_le; lra). lra.
Qed.

Lemma p2_inv' : forall k, p2 (- k) = / p2 k.
Proof. intros k. apply Rmult_eq_reg_l with (p2 k); [|pose proof (p2_pos k); lra]. rewrite <- p2_add, Rinv_r by (pose proof (p2_pos k); lra). replace (k + - k)%Z with 0%Z by lia. unfold p2. reflexivity. Qed.

Lemma feqc_loop_skip : forall (A : arith) x f fstar s i left fi, get f i = Ok fi -> nlt A (nmul A (nsub A fi fstar) s) (n0 A) = false ->
  feqc_loop A x f fstar s i (S left) = feqc_loop A x f fstar s (S i) left.
Proof. intros A x f fstar s i left fi G E. cbn [feqc_loop]. rewrite G. cbn [bind]. rewrite E. reflexivity. Qed.

Lemma feqc_loop_hit : forall (A : arith) x f fstar s i left fi fp xi xp, (1 <= i)%nat -> get f i = Ok fi -> nlt A (nmul A (nsub A fi fstar) s) (n0 A) = true ->
  get f (i - 1) = Ok fp -> get x i = Ok xi -> get x (i - 1) = Ok xp -> neq A (nsub A xi xp) (n0 A) = false -> neq A (ndiv A (nsub A fi fp) (nsub A xi xp)) (n0 A) = false ->
  feqc_loop A x f fstar s i (S left) = Ok (Some (nadd A xp (ndiv A (nsub A fstar fp) (ndiv A (nsub A fi fp) (nsub A xi xp))), i)).
Proof.
  intros A x f fstar s i left fi fp xi xp Hi G E Gp Gx Gq E1 E2. cbn [feqc_loop]. rewrite G. cbn [bind]. rewrite E. unfold getZ. destruct (Z.ltb_spec (Z.of_nat i - 1) 0); [lia|].
  replace (Z.to_nat (Z.of_nat i - 1)) with (i - 1)%nat by lia. rewrite Gp, Gx, Gq. cbn [bind]. rewrite E1. cbv zeta. rewrite E2. reflexivity.
Qed.

Section Feqc.
Variables (x f : list f64) (fstar : f64).
Notation X i := (fval (nth i x zero64')).
Notation F i := (fval (nth i f zero64')).
Hypothesis Hd : table x f fstar.
Let m := Nat.min (length x) (length f).
Notation s := (fsub (nth 0 f zero64') fstar).

Lemma sub_star : forall i, (i < m)%nat -> ok (fsub (nth i f zero64') fstar) /\ (exists d, Rabs d <= u /\ fval (fsub (nth i f zero64') fstar) = (F i - fval fstar) * (1 + d)) /\ (F i = fval fstar \/ p2 (-300) <= Rabs (F i - fval fstar)).
Proof.
  intros i Hi. destruct Hd as [Kx [Kf [Ks [Bs _]]]]. destruct (Kf i) as [K [B G]]; [unfold m in Hi; lia|]. destruct (sub_rel _ _ K Ks B Bs) as [K1 E1]. auto.
Qed.

Lemma crossing_spec64 : forall i, (i < m)%nat -> SFltb (fmul (fsub (nth i f zero64') fstar) s) (S754_zero false) = true <-> (F i - fval fstar) * (F 0 - fval fstar) < 0.
Proof.
  intros i Hi. destruct (sub_star i Hi) as [Ka [[d [Hd1 Ea]] Ga]]. destruct (sub_star 0 ltac:(lia)) as [Kb [[e [He Eb]] Gb]].
  set (a := fsub (nth i f zero64') fstar) in *. set (b := s) in *. pose proof (factor_pos d Hd1) as Pd. pose proof (factor_pos e He) as Pe.
  set (A := F i - fval fstar) in *. set (B := F 0 - fval fstar) in *.
  assert (BA : Rabs A <= p2 301 /\ Rabs B <= p2 301).
  { destruct Hd as [_ [Kf [_ [Bs _]]]]. change 301%Z with (300 + 1)%Z. rewrite p2_succ. split; (apply Rle_trans with (1 := Rabs_triang _ _); rewrite Rabs_Ropp); [destruct (Kf i) as [_ [B' _]]|destruct (Kf 0%nat) as [_ [B' _]]]; try (unfold m in Hi; lia); lra. }
  pose proof (mul_spec a b (proj1 Ka) (proj1 Kb) (proj2 Ka) (proj2 Kb)) as R1.
  assert (Ep : fval a * fval b = A * B * ((1 + d) * (1 + e))) by (rewrite Ea, Eb; ring).
  assert (Pf : 0 < (1 + d) * (1 + e)) by (apply Rmult_lt_0_compat; lra).
  assert (Bp : Rabs (fval a * fval b) <= p2 604).
  { rewrite Rabs_mult, Ea, Eb. pose proof (factor_bounds A d Hd1). pose proof (factor_bounds B e He). change 604%Z with (302 + 302)%Z. rewrite p2_add. change 302%Z with (301 + 1)%Z. rewrite p2_succ. apply Rmult_le_compat; try apply Rabs_pos; lra. }
  destruct (rounded_bounded _ _ (p2 604) R1) as [Kt _]; [apply format_p2; lia|exact Bp|apply p2_lt; lia|].
  assert (L : fval a * fval b = 0 \/ p2 (-1022) <= Rabs (fval a * fval b)).
  { destruct Ga as [Ga|Ga]; [left; rewrite Ep; replace A with 0 by (unfold A; lra); ring|]. destruct Gb as [Gb|Gb]; [left; rewrite Ep; replace B with 0 by (unfold B; lra); ring|]. right.
    fold A in Ga. fold B in Gb. rewrite Rabs_mult, Ea, Eb. pose proof (factor_bounds A d Hd1). pose proof (factor_bounds B e He).
    apply Rle_trans with (p2 (-301) * p2 (-301)); [rewrite <- p2_add; apply p2_le; lia|]. assert (Q : p2 (-300) = 2 * p2 (-301)) by (change (-300)%Z with (-301 + 1)%Z; apply p2_succ). pose proof (p2_pos (-301)). apply Rmult_le_compat; lra. }
  destruct (rel_error _ _ R1 Kt L) as [g [Hg Eg]]. pose proof (factor_pos g Hg) as Pg. rewrite ltb_spec; [|exact Kt|apply ok_zero]. cbn [fval]. rewrite Eg, Ep.
  assert (PP : 0 < (1 + d) * (1 + e) * (1 + g)) by (apply Rmult_lt_0_compat; lra). split; intros H.
  - destruct (Rlt_or_le (A * B) 0) as [|C]; [assumption|exfalso]. assert (0 <= A * B * ((1 + d) * (1 + e) * (1 + g))) by (apply Rmult_le_pos; lra). lra.
  - replace (A * B * ((1 + d) * (1 + e)) * (1 + g)) with (A * B * ((1 + d) * (1 + e) * (1 + g))) by ring. assert (0 < - (A * B) * ((1 + d) * (1 + e) * (1 + g))) by (apply Rmult_lt_0_compat; lra). lra.
Qed.

(** The interpolation between two points on the two sides of the target. *)
Definition root64 (i : nat) : f64 :=
  fadd (nth (i - 1) x zero64') (fdiv (fsub fstar (nth (i - 1) f zero64')) (fdiv (fsub (nth i f zero64') (nth (i - 1) f zero64')) (fsub (nth i x zero64') (nth (i - 1) x zero64')))).
Definition root_exact (i : nat) : R := X (i - 1) + (fval fstar - F (i - 1)) / (F i - F (i - 1)) * (X i - X (i - 1)).

Lemma interpolation : forall i, (1 <= i < m)%nat -> (F i - fval fstar) * (F 0 - fval fstar) < 0 -> ~ (F (i - 1) - fval fstar) * (F 0 - fval fstar) < 0 ->
  let dx := fsub (nth i x zero64') (nth (i - 1) x zero64') in let dxf := fdiv (fsub (nth i f zero64') (nth (i - 1) f zero64')) dx in
  ok dx /\ fval dx <> 0 /\ ok dxf /\ fval dxf <> 0 /\
  ok (root64 i) /\ X (i - 1) <= fval (root64 i) /\ Rabs (fval (root64 i) - root_exact i) <= p2 (-50) * X i /\
  X (i - 1) <= root_exact i < X i /\ line_through (X (i - 1)) (F (i - 1)) (X i) (F i) (root_exact i) = fval fstar.
Proof.
  intros i Hi Hc Hp dx dxf. pose proof Hd as [Kx [Kf [Ks [Bs St]]]]. unfold m in Hi.
  destruct (Kx i ltac:(lia)) as [K1 B1]. destruct (Kx (i - 1)%nat ltac:(lia)) as [K2 B2]. destruct (Kf i ltac:(lia)) as [K3 [B3 G3]]. destruct (Kf (i - 1)%nat ltac:(lia)) as [K4 [B4 G4]].
  assert (Sx : p2 (-300) <= X i - X (i - 1)) by (pose proof (St (i - 1)%nat ltac:(lia)) as Q; replace (S (i - 1)) with i in Q by lia; exact Q).
  set (xi := nth i x zero64') in *. set (xp := nth (i - 1) x zero64') in *. set (fi := nth i f zero64') in *. set (fp := nth (i - 1) f zero64') in *.
  set (S0 := F 0 - fval fstar) in *. pose proof (p2_pos (-300)) as P300.
  assert (G : (F i - fval fstar) <> 0) by (fold fi; intros E; rewrite E, Rmult_0_l in Hc; lra). fold fi in G, Hc. fold fp in Hp.
  destruct G3 as [G3|G3]; [exfalso; lra|].
  assert (T : p2 (-300) <= Rabs (fval fi - fval fp) /\ fval fi - fval fp <> 0 /\ 0 <= (fval fstar - fval fp) / (fval fi - fval fp) < 1).
  { destruct (Rlt_or_le 0 S0) as [HS|HS].
    - assert (A1 : fval fi - fval fstar < 0) by (destruct (Rlt_or_le (fval fi - fval fstar) 0); [assumption|exfalso; assert (0 <= (fval fi - fval fstar) * S0) by (apply Rmult_le_pos; lra); lra]).
      assert (A2 : fval fstar <= fval fp) by (destruct (Rle_or_lt (fval fstar) (fval fp)); [assumption|exfalso; apply Hp; assert (0 < - (fval fp - fval fstar) * S0) by (apply Rmult_lt_0_compat; lra); lra]).
      rewrite Rabs_left in G3 by lra. rewrite Rabs_left by lra. split; [lra|]. split; [lra|]. replace ((fval fstar - fval fp) / (fval fi - fval fp)) with ((fval fp - fval fstar) / (fval fp - fval fi)) by (field; lra).
      split; [apply Rle_mult_inv_pos; lra|]. apply Rmult_lt_reg_r with (fval fp - fval fi); [lra|]. unfold Rdiv. rewrite Rmult_assoc, Rinv_l by lra. lra.
    - assert (S1 : S0 < 0) by (destruct (Req_dec S0 0) as [E|]; [rewrite E, Rmult_0_r in Hc; lra|lra]).
      assert (A1 : 0 < fval fi - fval fstar) by (destruct (Rlt_or_le 0 (fval fi - fval fstar)); [assumption|exfalso; assert (0 <= - (fval fi - fval fstar) * - S0) by (apply Rmult_le_pos; lra); lra]).
      assert (A2 : fval fp <= fval fstar) by (destruct (Rle_or_lt (fval fp) (fval fstar)); [assumption|exfalso; apply Hp; assert (0 < (fval fp - fval fstar) * - S0) by (apply Rmult_lt_0_compat; lra); lra]).
      rewrite Rabs_right in G3 by lra. rewrite Rabs_right by lra. split; [lra|]. split; [lra|].
      split; [apply Rle_mult_inv_pos; lra|]. apply Rmult_lt_reg_r with (fval fi - fval fp); [lra|]. unfold Rdiv. rewrite Rmult_assoc, Rinv_l by lra. lra. }
  destruct T as [T1 [T2 T3]]. set (q := (fval fstar - fval fp) / (fval fi - fval fp)) in *.
  assert (BX : Rabs (fval xi) <= p2 300 /\ Rabs (fval xp) <= p2 300) by (split; rewrite Rabs_right; lra).
  destruct (sub_rel xi xp K1 K2 (proj1 BX) (proj2 BX)) as [Kdx [d3 [H3 E3]]]. fold dx in Kdx, E3.
  destruct (sub_rel fi fp K3 K4 B3 B4) as [Kdf [d2 [H2 E2]]]. set (df := fsub fi fp) in *.
  destruct (sub_rel fstar fp Ks K4 Bs B4) as [Kn [d1 [H1 E1]]]. set (num := fsub fstar fp) in *.
  pose proof (factor_pos d1 H1) as F1. pose proof (factor_pos d2 H2) as F2. pose proof (factor_pos d3 H3) as F3.
  pose proof (factor_bounds (fval fi - fval fp) d2 H2) as N2. pose proof (factor_bounds (fval xi - fval xp) d3 H3) as N3. rewrite <- E2 in N2. rewrite <- E3 in N3. rewrite (Rabs_right (fval xi - fval xp)) in N3 by lra.
  assert (Q300 : p2 (-300) = 2 * p2 (-301)) by (change (-300)%Z with (-301 + 1)%Z; apply p2_succ). assert (Q301 : p2 301 = 2 * p2 300) by (change 301%Z with (300 + 1)%Z; apply p2_succ). assert (Q302 : p2 302 = 2 * p2 301) by (change 302%Z with (301 + 1)%Z; apply p2_succ).
  assert (Fd : Rabs (fval fi - fval fp) <= p2 301) by (apply Rle_trans with (1 := Rabs_triang _ _); rewrite Rabs_Ropp; lra).
  assert (Sd : Rabs (fval fstar - fval fp) <= p2 301) by (apply Rle_trans with (1 := Rabs_triang _ _); rewrite Rabs_Ropp; lra).
  assert (Bdx : p2 (-301) <= fval dx <= p2 302).
  { assert (0 < fval dx) by (rewrite E3; apply Rmult_lt_0_compat; lra). rewrite (Rabs_right (fval dx)) in N3 by lra. lra. }
  pose proof (p2_pos (-301)) as P301. assert (Ndx : fval dx <> 0) by lra.
  assert (I1 : p2 (-302) <= / fval dx <= p2 301).
  { split; [change (-302)%Z with (- (302))%Z; rewrite p2_inv'; apply Rinv_le_contravar; lra|]. apply Rle_trans with (/ p2 (-301)); [apply Rinv_le_contravar; lra|]. rewrite <- p2_inv'. right. reflexivity. }
  pose proof (p2_pos (-302)) as P302.
  pose proof (div_spec df dx (proj1 Kdf) (proj1 Kdx) (proj2 Kdf) (proj2 Kdx) Ndx) as R4.
  assert (B4' : p2 (-603) <= Rabs (fval df / fval dx) <= p2 603).
  { unfold Rdiv. rewrite Rabs_mult, (Rabs_right (/ fval dx)) by lra. split; [change (-603)%Z with (-301 + -302)%Z|change 603%Z with (302 + 301)%Z]; rewrite p2_add; apply Rmult_le_compat; try apply Rabs_pos; lra. }
  destruct (rounded_bounded _ _ (p2 603) R4) as [Kdxf _]; [apply format_p2; lia|apply B4'|apply p2_lt; lia|].
  destruct (rel_error _ _ R4 Kdxf) as [d4 [H4 E4]]; [right; apply Rle_trans with (2 := proj1 B4'); apply p2_le; lia|]. fold dxf in Kdxf, E4.
  pose proof (factor_pos d4 H4) as F4. pose proof (factor_bounds (fval df / fval dx) d4 H4) as N4. rewrite <- E4 in N4.
  assert (Q604 : p2 (-603) = 2 * p2 (-604)) by (change (-603)%Z with (-604 + 1)%Z; apply p2_succ). assert (Q604' : p2 604 = 2 * p2 603) by (change 604%Z with (603 + 1)%Z; apply p2_succ). pose proof (p2_pos (-604)) as P604.
  assert (Bdxf : p2 (-604) <= Rabs (fval dxf) <= p2 604) by lra.
  assert (Ndxf : fval dxf <> 0) by (intros E; rewrite E, Rabs_R0 in Bdxf; lra).
  pose proof (div_spec num dxf (proj1 Kn) (proj1 Kdxf) (proj2 Kn) (proj2 Kdxf) Ndxf) as R5.
  set (c := q * (fval xi - fval xp)).
  assert (Ec : fval num / fval dxf = c * ((1 + d1) * (1 + d3) / ((1 + d2) * (1 + d4)))).
  { rewrite E1, E4, E3, E2. unfold c, q. field. repeat split; try lra. }
  assert (I2 : Rabs (/ fval dxf) <= p2 604 /\ p2 (-604) <= Rabs (/ fval dxf)).
  { rewrite Rabs_inv. split; [apply Rle_trans with (/ p2 (-604)); [apply Rinv_le_contravar; lra|rewrite <- p2_inv'; right; reflexivity]|change (-604)%Z with (- (604))%Z; rewrite p2_inv'; apply Rinv_le_contravar; lra]. }
  pose proof (factor_bounds (fval fstar - fval fp) d1 H1) as N1. rewrite <- E1 in N1.
  assert (B5 : Rabs (fval num / fval dxf) <= p2 906).
  { unfold Rdiv. rewrite Rabs_mult. change 906%Z with (302 + 604)%Z. rewrite p2_add. apply Rmult_le_compat; try apply Rabs_pos; lra. }
  destruct (rounded_bounded _ _ (p2 906) R5) as [Kc _]; [apply format_p2; lia|exact B5|apply p2_lt; lia|]. set (cc := fdiv num dxf) in *.
  assert (L5 : fval num / fval dxf = 0 \/ p2 (-1022) <= Rabs (fval num / fval dxf)).
  { destruct G4 as [G4|G4]; [left; rewrite E1, G4; replace (fval fstar - fval fstar) with 0 by ring; unfold Rdiv; ring|]. right. unfold Rdiv. rewrite Rabs_mult. rewrite Rabs_minus_sym in G4.
    apply Rle_trans with (p2 (-301) * p2 (-604)); [rewrite <- p2_add; apply p2_le; lia|]. apply Rmult_le_compat; lra. }
  destruct (rel_error _ _ R5 Kc L5) as [d5 [H5 E5]]. fold cc in E5. pose proof (factor_pos d5 H5) as F5.
  assert (C0 : 0 <= c <= fval xi - fval xp).
  { unfold c. split; [apply Rmult_le_pos; lra|]. rewrite <- (Rmult_1_l (fval xi - fval xp)) at 2. apply Rmult_le_compat_r; lra. }
  assert (C1 : Rabs (fval cc - c) <= 6 * u * c).
  { replace (fval cc - c) with (c * ((1 + d1) * (1 + d3) * (1 + d5) / ((1 + d2) * (1 + d4)) - 1)) by (rewrite E5, Ec; field; split; lra).
    rewrite Rabs_mult, (Rabs_right c) by lra. rewrite (Rmult_comm (6 * u)). apply Rmult_le_compat_l; [lra|]. apply factors; assumption. }
  pose proof u_small as U. pose proof u_pos as U0. apply Rabs_le_inv in C1.
  assert (UC : 0 <= u * c <= u * fval xi) by (split; [apply Rmult_le_pos; lra|apply Rmult_le_compat_l; lra]).
  assert (Uxi : u * fval xi <= / 1000 * fval xi) by (apply Rmult_le_compat_r; lra).
  assert (C2 : 0 <= fval cc) by (assert (u * c <= / 1000 * c) by (apply Rmult_le_compat_r; lra); lra).
  pose proof (add_spec xp cc (proj1 K2) (proj1 Kc) (proj2 K2) (proj2 Kc)) as R6.
  assert (B6 : Rabs (fval xp + fval cc) <= p2 301) by (rewrite Rabs_right by lra; lra).
  destruct (rounded_bounded _ _ (p2 301) R6) as [Kr _]; [apply format_p2; lia|exact B6|apply p2_lt; lia|].
  pose proof (add_relative xp cc _ K2 Kc R6 Kr) as A6. rewrite (Rabs_right (fval xp + fval cc)) in A6 by lra.
  split; [exact Kdx|]. split; [exact Ndx|]. split; [exact Kdxf|]. split; [exact Ndxf|].
  split; [exact Kr|]. split.
  { apply nearest_lower with (fval xp + fval cc); [apply rounded_value; [exact R6|apply Kr]|apply ok_format; exact K2|lra]. }
  assert (Er : root_exact i = fval xp + c) by reflexivity.
  split; [|split].
  - change (root64 i) with (fadd xp cc). rewrite Er. assert (P50 : p2 (-50) = 8 * u) by (unfold u; change (-50)%Z with (3 + -53)%Z; rewrite p2_add; unfold p2 at 1; simpl; lra). rewrite P50.
    assert (Uu : u * (u * c) <= u * (/ 1000 * fval xi)) by (apply Rmult_le_compat_l; lra).
    assert (A7 : u * (fval xp + fval cc) <= u * (fval xi + 6 * (u * c))) by (apply Rmult_le_compat_l; lra).
    apply Rabs_le_inv in A6. apply Rabs_le. lra.
  - rewrite Er. split; [lra|]. unfold c. assert (q * (fval xi - fval xp) < 1 * (fval xi - fval xp)) by (apply Rmult_lt_compat_r; lra). lra.
  - rewrite Er. unfold line_through, c, q. fold xi xp fi fp. field. split; lra.
Qed.

Lemma feqc_loop64 : forall left i, (i + left = m)%nat -> (0 < m)%nat -> (forall j, (j < i)%nat -> ~ (F j - fval fstar) * (F 0 - fval fstar) < 0) ->
  exists r, feqc_loop F64ops x f fstar s i left = Ok r /\
    match r with
    | None => forall j, (j < m)%nat -> ~ (F j - fval fstar) * (F 0 - fval fstar) < 0
    | Some (xs, k) => (1 <= k < m)%nat /\ (F k - fval fstar) * (F 0 - fval fstar) < 0 /\ (forall j, (j < k)%nat -> ~ (F j - fval fstar) * (F 0 - fval fstar) < 0) /\ xs = root64 k
    end.
Proof.
  induction left as [|left IH]; intros i Hi Hm Hprev.
  - exists None. split; [reflexivity|]. intros j Hj. apply Hprev. lia.
  - assert (Gf : forall j, (j < m)%nat -> get f j = Ok (nth j f zero64')) by (intros j Hj; apply get_Ok; unfold m in Hj; lia).
    assert (Gx : forall j, (j < m)%nat -> get x j = Ok (nth j x zero64')) by (intros j Hj; apply get_Ok; unfold m in Hj; lia).
    pose proof (crossing_spec64 i ltac:(lia)) as C. destruct (SFltb (fmul (fsub (nth i f zero64') fstar) s) (S754_zero false)) eqn:E.
    + assert (Hc : (F i - fval fstar) * (F 0 - fval fstar) < 0) by (apply C; reflexivity).
      assert (Hi1 : (1 <= i)%nat).
      { destruct i as [|i]; [|lia]. exfalso. pose proof (Rle_0_sqr (F 0 - fval fstar)) as Hsq. unfold Rsqr in Hsq. lra. }
      destruct (interpolation i ltac:(lia) Hc (Hprev (i - 1)%nat ltac:(lia))) as [K1 [N1 [K2 [N2 _]]]].
      exists (Some (root64 i, i)). split.
      * apply (feqc_loop_hit F64ops x f fstar s i left (nth i f zero64') (nth (i - 1) f zero64') (nth i x zero64') (nth (i - 1) x zero64') Hi1); [apply Gf; lia|exact E|apply Gf; lia|apply Gx; lia|apply Gx; lia| |].
        -- apply Bool.not_true_is_false. intros W. apply (eqb_spec _ _ K1 (ok_zero false)) in W. apply N1. rewrite W. reflexivity.
        -- apply Bool.not_true_is_false. intros W. apply (eqb_spec _ _ K2 (ok_zero false)) in W. apply N2. rewrite W. reflexivity.
      * split; [lia|]. split; [exact Hc|]. split; [exact Hprev|reflexivity].
    + assert (Hc : ~ (F i - fval fstar) * (F 0 - fval fstar) < 0) by (intros W; apply C in W; discriminate).
      destruct (IH (S i) ltac:(lia) Hm) as [r [R1 R2]].
      { intros j Hj. destruct (Nat.eq_dec j i) as [->|]; [exact Hc|]. apply Hprev. lia. }
      exists r. split; [|exact R2]. apply eq_trans with (2 := R1). apply (feqc_loop_skip F64ops x f fstar s i left (nth i f zero64')); [apply Gf; lia|exact E].
Qed.

Lemma feqc_spec64 : (0 < m)%nat ->
  exists r, feqc F64ops x f fstar = Ok r /\
    match r with
    | None => forall j, (j < m)%nat -> ~ (F j - fval fstar) * (F 0 - fval fstar) < 0
    | Some (xs, k) => (1 <= k < m)%nat /\ (F k - fval fstar) * (F 0 - fval fstar) < 0 /\ (forall j, (j < k)%nat -> ~ (F j - fval fstar) * (F 0 - fval fstar) < 0) /\
        ok xs /\ X (k - 1) <= fval xs /\ exists y, X (k - 1) <= y < X k /\ line_through (X (k - 1)) (F (k - 1)) (X k) (F k) y = fval fstar /\ Rabs (fval xs - y) <= p2 (-50) * X k
    end.
Proof.
  intros Hm. destruct (feqc_loop64 m 0 eq_refl Hm) as [r [R1 R2]]; [intros j Hj; lia|]. exists r. split.
  - unfold feqc. assert (G : get f 0 = Ok (nth 0 f zero64')) by (apply get_Ok; unfold m in Hm; lia). exact (eq_trans (f_equal (fun z => bind z _) G) R1).
  - destruct r as [[xs k]|]; [|exact R2]. destruct R2 as [A1 [A2 [A3 ->]]]. split; [exact A1|]. split; [exact A2|]. split; [exact A3|].
    destruct (interpolation k A1 A2 (A3 (k - 1)%nat ltac:(lia))) as [_ [_ [_ [_ [B1 [B2 [B3 [B4 B5]]]]]]]]. split; [exact B1|]. split; [exact B2|]. exists (root_exact k). auto.
Qed.
End Feqc.
