(** The operations on doubles round the exact results (see F64Round). *)
From Coq Require Import ZArith Bool Reals Lia Lra Psatz Floats.SpecFloat.
From Verif Require Import Num P_Text F64Round.
Local Open Scope Z_scope.

(** ** Exact results of integers times powers of two *)
Lemma digits_unique : forall p d, 2 ^ (d - 1) <= Zpos p < 2 ^ d -> 1 <= d -> Zpos (digits2_pos p) = d.
Proof.
  intros p d H Hd. pose proof (digits_bounds p) as B. set (c := Zpos (digits2_pos p)) in *. assert (1 <= c) by (unfold c; lia).
  destruct (Z.lt_trichotomy c d) as [L|[L|L]]; [|assumption|].
  - assert (2 ^ c <= 2 ^ (d - 1)) by (apply Z.pow_le_mono_r; lia). lia.
  - assert (2 ^ d <= 2 ^ (c - 1)) by (apply Z.pow_le_mono_r; lia). lia.
Qed.

Lemma digits_le : forall p d, 2 ^ (d - 1) <= Zpos p -> d <= Zpos (digits2_pos p).
Proof.
  intros p d H. pose proof (digits_bounds p) as B. destruct (Z_le_gt_dec d (Zpos (digits2_pos p))); [assumption|].
  assert (2 ^ Zpos (digits2_pos p) <= 2 ^ (d - 1)) by (apply Z.pow_le_mono_r; lia). lia.
Qed.

Lemma shift_pos_value : forall n p, Zpos (shift_pos n p) = Zpos p * 2 ^ Zpos n.
Proof. intros n p. rewrite Zpower.shift_pos_correct, Zpower.Zpower_pos_is_exp || rewrite Zpower.shift_pos_correct. change (Z.pow_pos 2 n) with (2 ^ Zpos n). ring. Qed.

Lemma digits_shift : forall n p, Zpos (digits2_pos (shift_pos n p)) = Zpos (digits2_pos p) + Zpos n.
Proof.
  intros n p. apply digits_unique; [|lia]. pose proof (digits_bounds p) as B. rewrite shift_pos_value.
  replace (Zpos (digits2_pos p) + Zpos n - 1) with (Zpos (digits2_pos p) - 1 + Zpos n) by lia.
  rewrite !Z.pow_add_r by lia. assert (0 < 2 ^ Zpos n) by (apply Z.pow_pos_nonneg; lia). nia.
Qed.

Lemma binary_round_spec : forall s m e, rounded (sgn s * (IZR (Zpos m) * p2 e)) (binary_round fprec femax s m e).
Proof.
  intros s m e. unfold binary_round, shl_align.
  destruct (fexp64 (Zpos (digits2_pos m) + e) - e) as [|d|d] eqn:E.
  - apply round_aux_spec; [lia|reflexivity|]. cbn [Zdigits2]. lia.
  - apply round_aux_spec; [lia|reflexivity|]. cbn [Zdigits2]. lia.
  - apply round_aux_spec; [lia| |].
    + cbn [located]. rewrite shift_pos_value, mult_IZR, <- p2_Z by lia. rewrite Rmult_assoc, <- p2_add. f_equal. f_equal. lia.
    + cbn [Zdigits2]. rewrite digits_shift. replace (Zpos (digits2_pos m) + Zpos d + fexp64 (Zpos (digits2_pos m) + e)) with (Zpos (digits2_pos m) + e) by lia. lia.
Qed.

Lemma format_0 : format 0.
Proof. exists 0, 0. split; [ring|]. split; [reflexivity|lia]. Qed.

Lemma half_ulp_pos : forall v, (0 < half_ulp v)%R.
Proof. intros v. unfold half_ulp. apply Rlt_le_trans with (2 := Rmax_r _ _). apply p2_pos. Qed.

Lemma nearest_self : forall v, format v -> closest v v.
Proof. intros v H. split; [assumption|]. intros z _. rewrite Rminus_diag_eq by reflexivity. rewrite Rabs_R0. apply Rabs_pos. Qed.

Lemma fin_format : forall x, valid x -> fin x -> format (fval x) /\ (Rabs (fval x) < p2 1024)%R.
Proof.
  intros [s|s| |s m e] V F; try destruct F.
  - cbn [fval]. split; [apply format_0|rewrite Rabs_R0; apply p2_pos].
  - apply valid_iff in V. destruct V as [V1 [V2 V3]]. cbn [fval]. change (powerRZ 2 e) with (p2 e). split.
    + apply format_sgn. exists (Zpos m), e. split; [reflexivity|]. split; [exact V1|lia].
    + rewrite sgn_abs, Rabs_right by (apply Rle_ge, Rmult_le_pos; [apply IZR_le; lia|left; apply p2_pos]).
      apply Rlt_le_trans with (p2 53 * p2 e)%R; [|rewrite <- p2_add; apply p2_le; lia].
      apply Rmult_lt_compat_r; [apply p2_pos|]. rewrite p2_Z by lia. apply IZR_lt. exact V1.
Qed.

Lemma rounded_self : forall x, valid x -> fin x -> rounded (fval x) x.
Proof.
  intros x V F. destruct (fin_format x V F) as [Hf Hb]. split; [assumption|]. exists (fval x). split; [apply nearest_self; assumption|].
  split; [rewrite Rminus_diag_eq, Rabs_R0 by reflexivity; left; apply half_ulp_pos|].
  destruct x; try destruct F; split; solve [reflexivity|assumption].
Qed.

Lemma binary_normalize_spec : forall m e s, rounded (IZR m * p2 e) (binary_normalize fprec femax m e s).
Proof.
  intros [|m|m] e s; cbn [binary_normalize].
  - rewrite Rmult_0_l. apply (rounded_self (S754_zero s)); reflexivity.
  - pose proof (binary_round_spec false m e) as H. cbn [sgn] in H. rewrite Rmult_1_l in H. exact H.
  - pose proof (binary_round_spec true m e) as H. cbn [sgn] in H.
    change (Zneg m) with (- Zpos m). rewrite opp_IZR. replace (- IZR (Zpos m) * p2 e)%R with (-1 * (IZR (Zpos m) * p2 e))%R by ring. exact H.
Qed.

Lemma ofZ_spec : forall z, rounded (IZR z) (f64_ofZ z).
Proof. intros z. pose proof (binary_normalize_spec z 0 false) as H. unfold p2 in H. simpl powerRZ in H. rewrite Rmult_1_r in H. exact H. Qed.

(** ** Sums *)
Lemma shl_align_value : forall m e f, f <= e -> (IZR (Zpos (fst (shl_align m e f))) * p2 f = IZR (Zpos m) * p2 e)%R.
Proof.
  intros m e f H. unfold shl_align. destruct (f - e) as [|d|d] eqn:E; cbn [fst].
  - replace f with e by lia. reflexivity.
  - lia.
  - rewrite shift_pos_value, mult_IZR, <- p2_Z by lia. rewrite Rmult_assoc, <- p2_add. f_equal. f_equal. lia.
Qed.

Lemma cond_Zopp_IZR : forall s z, IZR (cond_Zopp s z) = (sgn s * IZR z)%R.
Proof. intros [] z; cbn [cond_Zopp sgn]; [rewrite opp_IZR|]; ring. Qed.

Definition same_val (x y : f64) : Prop := fval x = fval y.

Lemma add_spec : forall x y, valid x -> valid y -> fin x -> fin y -> rounded (fval x + fval y) (SFadd fprec femax x y).
Proof.
  intros x y Vx Vy Fx Fy.
  destruct x as [sx|sx| |sx mx ex]; try destruct Fx; destruct y as [sy|sy| |sy my ey]; try destruct Fy; cbn [SFadd].
  - cbn [fval]. rewrite Rplus_0_r. destruct (Bool.eqb sx sy); apply (rounded_self (S754_zero _)); reflexivity.
  - replace (fval (S754_zero sx)) with 0%R by reflexivity. rewrite Rplus_0_l. apply rounded_self; [assumption|exact I].
  - replace (fval (S754_zero sy)) with 0%R by reflexivity. rewrite Rplus_0_r. apply rounded_self; [assumption|exact I].
  - set (ez := Z.min ex ey).
    replace (fval (S754_finite sx mx ex) + fval (S754_finite sy my ey))%R with
      (IZR (cond_Zopp sx (Zpos (fst (shl_align mx ex ez))) + cond_Zopp sy (Zpos (fst (shl_align my ey ez)))) * p2 ez)%R;
      [apply binary_normalize_spec|].
    rewrite plus_IZR, !cond_Zopp_IZR, Rmult_plus_distr_r, !Rmult_assoc, !shl_align_value by lia. reflexivity.
Qed.

Lemma fval_opp : forall x, fval (SFopp x) = (- fval x)%R.
Proof. intros [[]|[]| |[] m e]; cbn [SFopp fval negb sgn]; ring. Qed.

Lemma sub_spec : forall x y, valid x -> valid y -> fin x -> fin y -> rounded (fval x - fval y) (SFsub fprec femax x y).
Proof.
  intros x y Vx Vy Fx Fy.
  destruct x as [sx|sx| |sx mx ex]; try destruct Fx; destruct y as [sy|sy| |sy my ey]; try destruct Fy; cbn [SFsub].
  - cbn [fval]. rewrite Rminus_0_r. destruct (Bool.eqb sx (negb sy)); apply (rounded_self (S754_zero _)); reflexivity.
  - replace (fval (S754_zero sx)) with 0%R by reflexivity. rewrite Rminus_0_l, <- fval_opp.
    apply rounded_self; [exact Vy|exact I].
  - replace (fval (S754_zero sy)) with 0%R by reflexivity. rewrite Rminus_0_r. apply rounded_self; [assumption|exact I].
  - set (ez := Z.min ex ey).
    replace (fval (S754_finite sx mx ex) - fval (S754_finite sy my ey))%R with
      (IZR (cond_Zopp sx (Zpos (fst (shl_align mx ex ez))) - cond_Zopp sy (Zpos (fst (shl_align my ey ez)))) * p2 ez)%R;
      [apply binary_normalize_spec|].
    rewrite minus_IZR, !cond_Zopp_IZR. unfold Rminus at 1. rewrite Rmult_plus_distr_r, <- Ropp_mult_distr_l, !Rmult_assoc, !shl_align_value by lia. reflexivity.
Qed.

(** ** Products *)
Lemma sgn_xorb : forall a b, sgn (xorb a b) = (sgn a * sgn b)%R.
Proof. intros [] []; cbn; ring. Qed.

Lemma mul_spec : forall x y, valid x -> valid y -> fin x -> fin y -> rounded (fval x * fval y) (SFmul fprec femax x y).
Proof.
  intros x y Vx Vy Fx Fy.
  destruct x as [sx|sx| |sx mx ex]; try destruct Fx; destruct y as [sy|sy| |sy my ey]; try destruct Fy; cbn [SFmul].
  - cbn [fval]. rewrite Rmult_0_r. apply (rounded_self (S754_zero _)); reflexivity.
  - replace (fval (S754_zero sx)) with 0%R by reflexivity. rewrite Rmult_0_l. apply (rounded_self (S754_zero _)); reflexivity.
  - replace (fval (S754_zero sy)) with 0%R by reflexivity. rewrite Rmult_0_r. apply (rounded_self (S754_zero _)); reflexivity.
  - replace (fval (S754_finite sx mx ex) * fval (S754_finite sy my ey))%R with
      (sgn (xorb sx sy) * (IZR (Zpos (mx * my)) * p2 (ex + ey)))%R.
    + apply round_aux_spec; [lia|reflexivity|]. cbn [Zdigits2]. rewrite fexp_form.
      apply valid_iff in Vx. apply valid_iff in Vy. destruct Vx as [X1 [X2 X3]]. destruct Vy as [Y1 [Y2 Y3]].
      assert (B : 2 ^ 52 <= Zpos (mx * my) -> ex + ey <= Z.max (Zpos (digits2_pos (mx * my)) + (ex + ey) - 53) (-1074)).
      { intros B. apply (digits_le _ 53) in B. lia. }
      destruct X3 as [X3|X3]; [destruct Y3 as [Y3|Y3]; [lia|]|]; apply B; rewrite Pos2Z.inj_mul; nia.
    + rewrite sgn_xorb, Pos2Z.inj_mul, mult_IZR, p2_add. cbn [fval]. unfold p2. ring.
Qed.

(** ** Quotients *)
Lemma new_location_spec : forall q e n r, 0 < n -> 0 <= r < n ->
  located q e (new_location n r) ((IZR q + IZR r / IZR n) * p2 e).
Proof.
  intros q e n r Hn Hr. assert (N : (0 < IZR n)%R) by (apply IZR_lt; exact Hn).
  assert (D : forall k : Z, (IZR r / IZR n < IZR k / 2)%R <-> 2 * r < k * n).
  { intros k. split; intros H.
    - apply Rmult_lt_compat_r with (r := IZR n) in H; [|exact N]. unfold Rdiv in H. rewrite Rmult_assoc, Rinv_l in H by lra.
      apply lt_IZR. rewrite !mult_IZR. lra.
    - apply Rmult_lt_reg_r with (IZR n); [exact N|]. unfold Rdiv. rewrite Rmult_assoc, Rinv_l by lra. apply IZR_lt in H. rewrite !mult_IZR in H. lra. }
  assert (D' : forall k : Z, (IZR k / 2 < IZR r / IZR n)%R <-> k * n < 2 * r).
  { intros k. split; intros H.
    - apply Rmult_lt_compat_r with (r := IZR n) in H; [|exact N]. unfold Rdiv in H. rewrite (Rmult_assoc (IZR r)), Rinv_l in H by lra.
      apply lt_IZR. rewrite !mult_IZR. lra.
    - apply Rmult_lt_reg_r with (IZR n); [exact N|]. unfold Rdiv. rewrite (Rmult_assoc (IZR r)), Rinv_l by lra. apply IZR_lt in H. rewrite !mult_IZR in H. lra. }
  assert (Hlt1 : (IZR r / IZR n < 1)%R) by (pose proof (proj2 (D 2)) as A; replace (2 / 2)%R with 1%R in A by field; apply A; lia).
  pose proof (p2_pos e) as P. unfold new_location, new_location_even, new_location_odd.
  destruct (Z.eq_dec r 0) as [->|Hz].
  - replace (Zeq_bool 0 0) with true by reflexivity. destruct (Z.even n); cbn [located]; unfold Rdiv; rewrite Rmult_0_l, Rplus_0_r; reflexivity.
  - assert (Zf : Zeq_bool r 0 = false) by (apply not_true_is_false; rewrite <- Zeq_is_eq_bool; exact Hz).
    assert (Hpos : (0 < IZR r / IZR n)%R) by (apply Rdiv_lt_0_compat; [apply IZR_lt; lia|exact N]).
    set (t := (IZR r / IZR n)%R) in *. 
    assert (L : 2 * r < n -> (t < / 2)%R) by (intros A; pose proof (proj2 (D 1) ltac:(lia)); lra).
    assert (G : n < 2 * r -> (/ 2 < t)%R) by (intros A; pose proof (proj2 (D' 1) ltac:(lia)); lra).
    assert (Eq : 2 * r = n -> t = (/ 2)%R).
    { intros A. destruct (Rtotal_order t (/ 2)) as [B|[B|B]]; [|assumption|]; exfalso.
      - assert (C : 2 * r < 1 * n) by (apply D; lra). lia.
      - assert (C : 1 * n < 2 * r) by (apply D'; lra). lia. }
    clearbody t. destruct (Z.even n) eqn:Ev; rewrite Zf.
    + destruct (Z.compare_spec (2 * r) n) as [C|C|C]; cbn [located].
      * rewrite (Eq C). reflexivity.
      * specialize (L C). split; apply Rmult_lt_compat_r; lra.
      * specialize (G C). split; apply Rmult_lt_compat_r; lra.
    + destruct (Z.compare_spec (2 * r + 1) n) as [C|C|C]; cbn [located].
      * specialize (L ltac:(lia)). split; apply Rmult_lt_compat_r; lra.
      * specialize (L ltac:(lia)). split; apply Rmult_lt_compat_r; lra.
      * assert (A : n <> 2 * r) by (intros ->; rewrite Z.even_mul in Ev; discriminate).
        specialize (G ltac:(lia)). split; apply Rmult_lt_compat_r; lra.
Qed.

Lemma digits_nonneg : forall q, 0 <= q -> 0 <= Zdigits2 q.
Proof. intros [|p|p] H; cbn; lia. Qed.

Lemma digits_ge : forall q d, 0 <= q -> (0 < d -> 2 ^ (d - 1) <= q) -> d <= Zdigits2 q.
Proof.
  intros q d Hq H. destruct (Z_lt_le_dec 0 d) as [L|L]; [|pose proof (digits_nonneg q Hq); lia].
  specialize (H L). destruct q as [|p|p]; [|apply digits_le; exact H|lia].
  assert (0 < 2 ^ (d - 1)) by (apply Z.pow_pos_nonneg; lia). lia.
Qed.

Lemma div_core_spec : forall m1 e1 m2 e2, let '(q, e, l) := SFdiv_core_binary fprec femax (Zpos m1) e1 (Zpos m2) e2 in
  0 <= q /\ located q e l (IZR (Zpos m1) * p2 e1 / (IZR (Zpos m2) * p2 e2)) /\ e <= fexp64 (Zdigits2 q + e).
Proof.
  intros m1 e1 m2 e2. unfold SFdiv_core_binary. cbn [Zdigits2].
  set (d1 := Zpos (digits2_pos m1)). set (d2 := Zpos (digits2_pos m2)).
  set (e := Z.min (fexp64 (d1 + e1 - (d2 + e2))) (e1 - e2)). set (s := e1 - e2 - e).
  assert (Hs : 0 <= s) by (unfold s, e; lia).
  set (m' := match s with Zpos _ => Z.shiftl (Zpos m1) s | Z0 => Zpos m1 | Zneg _ => 0 end).
  assert (Em : m' = Zpos m1 * 2 ^ s).
  { unfold m'. destruct s eqn:E; [lia| |lia]. rewrite Z.shiftl_mul_pow2 by lia. reflexivity. }
  clearbody m'. pose proof (Z_div_mod m' (Zpos m2) ltac:(lia)) as DM. destruct (Z.div_eucl m' (Zpos m2)) as [q r]. destruct DM as [Dm Hr].
  assert (P2 : 0 < 2 ^ s) by (apply Z.pow_pos_nonneg; lia).
  assert (Hq : 0 <= q) by nia. split; [exact Hq|]. split.
  - replace (IZR (Zpos m1) * p2 e1 / (IZR (Zpos m2) * p2 e2))%R with ((IZR q + IZR r / IZR (Zpos m2)) * p2 e)%R; [apply new_location_spec; lia|].
    assert (N : (0 < IZR (Zpos m2))%R) by (apply IZR_lt; lia).
    assert (V : (IZR q + IZR r / IZR (Zpos m2) = IZR m' / IZR (Zpos m2))%R) by (rewrite Dm, plus_IZR, mult_IZR; field; lra).
    rewrite V, Em, mult_IZR, <- p2_Z by exact Hs. replace (p2 e1) with (p2 s * p2 e * p2 e2)%R; [|rewrite <- !p2_add; f_equal; unfold s; lia].
    pose proof (p2_pos e2). field. lra.
  - assert (D : d1 + s - d2 <= Zdigits2 q).
    { apply digits_ge; [exact Hq|]. intros L. pose proof (digits_bounds m1) as B1. pose proof (digits_bounds m2) as B2. fold d1 in B1. fold d2 in B2.
      assert (1 <= d1) by (unfold d1; lia). assert (1 <= d2) by (unfold d2; lia).
      assert (A : 2 ^ (d1 + s - d2 - 1) * 2 ^ d2 <= m').
      { rewrite <- Z.pow_add_r by lia. rewrite Em. replace (d1 + s - d2 - 1 + d2) with ((d1 - 1) + s) by lia. rewrite Z.pow_add_r by lia. nia. }
      set (t := 2 ^ (d1 + s - d2 - 1)) in *. assert (0 < t) by (apply Z.pow_pos_nonneg; lia).
      destruct (Z_le_gt_dec t q); [assumption|]. assert (q + 1 <= t) by lia. nia. }
    assert (Mono : fexp64 (d1 + e1 - (d2 + e2)) <= fexp64 (Zdigits2 q + e)) by (rewrite !fexp_form; unfold s in D; lia).
    unfold e at 1. lia.
Qed.

Lemma div_spec : forall x y, valid x -> valid y -> fin x -> fin y -> fval y <> 0%R -> rounded (fval x / fval y) (SFdiv fprec femax x y).
Proof.
  intros x y Vx Vy Fx Fy Hy.
  destruct y as [sy|sy| |sy my ey]; try destruct Fy; [cbn in Hy; congruence|].
  destruct x as [sx|sx| |sx mx ex]; try destruct Fx; cbn [SFdiv].
  - replace (fval (S754_zero sx)) with 0%R by reflexivity. unfold Rdiv. rewrite Rmult_0_l. apply (rounded_self (S754_zero _)); reflexivity.
  - pose proof (div_core_spec mx ex my ey) as H. destruct (SFdiv_core_binary fprec femax (Zpos mx) ex (Zpos my) ey) as [[q e] l].
    destruct H as [Hq [Hl He]].
    replace (fval (S754_finite sx mx ex) / fval (S754_finite sy my ey))%R with
      (sgn (xorb sx sy) * (IZR (Zpos mx) * p2 ex / (IZR (Zpos my) * p2 ey)))%R; [apply round_aux_spec; assumption|].
    rewrite sgn_xorb. cbn [fval]. change (powerRZ 2 ex) with (p2 ex). change (powerRZ 2 ey) with (p2 ey).
    pose proof (p2_pos ey). assert (0 < IZR (Zpos my))%R by (apply IZR_lt; lia). destruct sy; cbn [sgn]; field; lra.
Qed.
