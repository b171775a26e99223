(** Correct rounding of the double-precision operations of SpecFloat, from their
    definitions: the result of each is a double closest to the exact result. *)
From Coq Require Import ZArith Bool Reals Lia Lra Psatz Floats.SpecFloat.
From Verif Require Import Num P_Text.
Local Open Scope Z_scope.

(** ** Powers of two *)
Definition p2 (k : Z) : R := powerRZ 2 k.

Lemma p2_add : forall a b, p2 (a + b) = (p2 a * p2 b)%R.
Proof. intros. apply powerRZ_add. lra. Qed.

Lemma p2_pos : forall k, (0 < p2 k)%R.
Proof. intros. apply powerRZ_lt. lra. Qed.

Lemma p2_Z : forall k, 0 <= k -> p2 k = IZR (2 ^ k).
Proof. intros k Hk. unfold p2. rewrite <- (Z2Nat.id k) by assumption. rewrite <- pow_powerRZ, <- pow_IZR. reflexivity. Qed.

Lemma p2_succ : forall k, p2 (k + 1) = (2 * p2 k)%R.
Proof. intros k. rewrite p2_add. replace (p2 1) with 2%R by (unfold p2; simpl; ring). ring. Qed.

Lemma p2_le : forall a b, a <= b -> (p2 a <= p2 b)%R.
Proof.
  intros a b H. replace b with (a + (b - a)) by lia. rewrite p2_add. rewrite (p2_Z (b - a)) by lia.
  assert (H0 : 0 < 2 ^ (b - a)) by (apply Z.pow_pos_nonneg; lia). apply IZR_lt in H0. assert (H1 : 1 <= 2 ^ (b - a)) by (apply lt_IZR in H0; lia). apply IZR_le in H1. pose proof (p2_pos a). nra.
Qed.

Lemma p2_lt : forall a b, a < b -> (p2 a < p2 b)%R.
Proof. intros a b H. pose proof (p2_le (a + 1) b ltac:(lia)) as L. rewrite p2_succ in L. pose proof (p2_pos a). lra. Qed.

Lemma p2_lt_inv : forall a b, (p2 a < p2 b)%R -> a < b.
Proof. intros a b H. destruct (Z_lt_le_dec a b); [assumption|]. apply p2_le in l. lra. Qed.

(** ** Digits *)
Lemma digits_bounds : forall p, 2 ^ (Zpos (digits2_pos p) - 1) <= Zpos p < 2 ^ Zpos (digits2_pos p).
Proof.
  assert (S : forall d, 2 ^ Zpos (Pos.succ d) = 2 * 2 ^ Zpos d) by (intros d; rewrite Pos2Z.inj_succ, Z.pow_succ_r by lia; reflexivity).
  assert (S' : forall d, 2 ^ (Zpos (Pos.succ d) - 1) = 2 * 2 ^ (Zpos d - 1)).
  { intros d. rewrite Pos2Z.inj_succ. replace (Z.succ (Zpos d) - 1) with (Z.succ (Zpos d - 1)) by lia. rewrite Z.pow_succ_r by lia. reflexivity. }
  induction p as [p IH|p IH|]; cbn [digits2_pos]; rewrite ?S, ?S'; [lia|lia|cbn; lia].
Qed.

(** ** Shifting right *)
(** v lies in [m 2^e, (m+1) 2^e), where [l] says. *)
Definition located (m e : Z) (l : location) (v : R) : Prop :=
  match l with
  | loc_Exact => v = IZR m * p2 e
  | loc_Inexact Lt => IZR m * p2 e < v < (IZR m + / 2) * p2 e
  | loc_Inexact Eq => v = (IZR m + / 2) * p2 e
  | loc_Inexact Gt => (IZR m + / 2) * p2 e < v < (IZR m + 1) * p2 e
  end%R.

Definition placed (mrs : shr_record) (e : Z) (v : R) : Prop :=
  0 <= shr_m mrs /\ located (shr_m mrs) e (loc_of_shr_record mrs) v.

Lemma shr_1_form : forall m r s, 0 <= m -> exists q b, 0 <= q /\ m = 2 * q + Z.b2z b /\
  shr_1 (Build_shr_record m r s) = Build_shr_record q b (r || s).
Proof.
  intros m r s Hm. destruct m as [|[p|p|]|p]; [| | | |lia].
  - exists 0, false. repeat split; lia.
  - exists (Zpos p), true. repeat split; cbn [Z.b2z]; lia.
  - exists (Zpos p), false. repeat split; cbn [Z.b2z]; lia.
  - exists 0, true. repeat split; cbn [Z.b2z]; lia.
Qed.

Lemma shr_1_placed : forall mrs e v, placed mrs e v -> placed (shr_1 mrs) (e + 1) v.
Proof.
  intros [m r s] e v [Hm H]. cbn [shr_m] in *. destruct (shr_1_form m r s Hm) as [q [b [Hq [Em ->]]]].
  split; [exact Hq|]. cbn [shr_m]. unfold located in *. rewrite p2_succ. pose proof (p2_pos e) as P.
  assert (E : IZR m = (2 * IZR q + IZR (Z.b2z b))%R) by (rewrite Em, plus_IZR, mult_IZR; reflexivity). rewrite E in H.
  set (x := IZR q) in *. set (u := p2 e) in *. clearbody x u.
  destruct b, r, s; cbn [loc_of_shr_record orb Z.b2z] in *; nra.
Qed.

Lemma iter_placed : forall n mrs e v, placed mrs e v -> placed (iter_pos shr_1 n mrs) (e + Zpos n) v.
Proof.
  induction n as [n IH|n IH|]; intros mrs e v H; cbn [iter_pos].
  - apply shr_1_placed in H. apply IH in H. apply IH in H. replace (e + Zpos n~1) with (e + 1 + Zpos n + Zpos n) by lia. exact H.
  - apply IH in H. apply IH in H. replace (e + Zpos n~0) with (e + Zpos n + Zpos n) by lia. exact H.
  - apply shr_1_placed. exact H.
Qed.

Lemma loc_of_record_of_loc : forall m l, loc_of_shr_record (shr_record_of_loc m l) = l /\ shr_m (shr_record_of_loc m l) = m.
Proof. intros m [|[]]; split; reflexivity. Qed.

Notation fexp64 := (fexp fprec femax).

Lemma shr_fexp_placed : forall m e l v, 0 <= m -> located m e l v ->
  placed (fst (shr_fexp fprec femax m e l)) (snd (shr_fexp fprec femax m e l)) v /\
  snd (shr_fexp fprec femax m e l) = Z.max e (fexp64 (Zdigits2 m + e)).
Proof.
  intros m e l v Hm H. unfold shr_fexp, shr.
  assert (P : placed (shr_record_of_loc m l) e v).
  { unfold placed. destruct (loc_of_record_of_loc m l) as [-> ->]. split; assumption. }
  destruct (fexp64 (Zdigits2 m + e) - e) as [|n|n] eqn:E; cbn [fst snd].
  - split; [exact P|lia].
  - split; [apply iter_placed; exact P|lia].
  - split; [exact P|lia].
Qed.

(** ** Nearest integer *)
Lemma round_even_spec : forall m e l v, 0 <= m -> located m e l v ->
  let m' := round_nearest_even m l in
  (m' = m \/ m' = m + 1) /\ (Rabs (IZR m' * p2 e - v) <= / 2 * p2 e)%R.
Proof.
  intros m e l v Hm H. pose proof (p2_pos e) as P. cbv zeta. unfold located in H.
  set (u := p2 e) in *. clearbody u.
  destruct l as [|[]]; cbn [round_nearest_even].
  - split; [left; reflexivity|]. rewrite H. rewrite Rminus_diag_eq by reflexivity. rewrite Rabs_R0. lra.
  - destruct (Z.even m); (split; [auto|]); rewrite ?plus_IZR; apply Rabs_le; nra.
  - split; [left; reflexivity|]. apply Rabs_le. nra.
  - split; [right; reflexivity|]. rewrite plus_IZR. apply Rabs_le. nra.
Qed.

Lemma nearest_multiple : forall (m k : Z) u v, (0 < u)%R -> (Rabs (IZR m * u - v) <= / 2 * u)%R ->
  (Rabs (IZR m * u - v) <= Rabs (IZR k * u - v))%R.
Proof.
  intros m k u v Hu H. destruct (Z.eq_dec k m) as [->|Hk]; [lra|]. apply Rle_trans with (1 := H).
  assert (A : (- (/ 2 * u) <= IZR m * u - v <= / 2 * u)%R) by (unfold Rabs in H; destruct (Rcase_abs _) in H; lra).
  assert (D : (IZR k <= IZR m - 1)%R \/ (IZR m + 1 <= IZR k)%R).
  { destruct (Z_lt_le_dec k m) as [L|L].
    - left. assert (L' : k <= m - 1) by lia. apply IZR_le in L'. rewrite minus_IZR in L'. exact L'.
    - right. assert (L' : m + 1 <= k) by lia. apply IZR_le in L'. rewrite plus_IZR in L'. exact L'. }
  destruct D as [D|D].
  - apply Rle_trans with (- (IZR k * u - v))%R; [nra|]. rewrite <- Rabs_Ropp. apply RRle_abs.
  - apply Rle_trans with (IZR k * u - v)%R; [nra|]. apply RRle_abs.
Qed.

(** ** Doubles without the limit of the exponent *)
Definition format (z : R) : Prop := exists k e : Z, z = (IZR k * p2 e)%R /\ Z.abs k < 2 ^ 53 /\ -1074 <= e.

Definition closest (v r : R) : Prop := format r /\ forall z, format z -> (Rabs (r - v) <= Rabs (z - v))%R.

(** Half a unit in the last place of v, or of the smallest double. *)
Definition half_ulp (v : R) : R := Rmax (p2 (-53) * Rabs v) (p2 (-1075)).

(** The smallest exponents that can hold v. *)
Definition scaled (e : Z) (v : R) : Prop := -1074 <= e /\ (0 <= v < p2 (e + 53))%R /\ (e = -1074 \/ (p2 (e + 52) <= v)%R).

Lemma scaled_nearest : forall e v m, scaled e v -> 0 <= m -> (Rabs (IZR m * p2 e - v) <= / 2 * p2 e)%R -> m <= 2 ^ 53 ->
  closest v (IZR m * p2 e) /\ (Rabs (IZR m * p2 e - v) <= half_ulp v)%R.
Proof.
  intros e v m [He [Hv Hc]] Hm H Hmax. pose proof (p2_pos e) as P. split; [split|].
  - destruct (Z.eq_dec m (2 ^ 53)) as [->|Hne].
    + exists (2 ^ 52), (e + 1). split; [|split; [reflexivity|lia]]. rewrite p2_succ.
      replace (2 ^ 53) with (2 ^ 52 * 2) by reflexivity. rewrite mult_IZR. ring.
    + exists m, e. split; [reflexivity|]. split; [rewrite Z.abs_eq by lia; lia|lia].
  - intros z [k [f [-> [Hk Hf]]]].
    destruct (Z_le_gt_dec e f) as [L|L].
    + replace (p2 f) with (p2 (f - e) * p2 e)%R by (rewrite <- p2_add; f_equal; lia). rewrite (p2_Z (f - e)) by lia.
      rewrite <- Rmult_assoc, <- mult_IZR. apply nearest_multiple; assumption.
    + destruct Hc as [->|Hc]; [lia|].
      (* below the smallest number of the scale *)
      assert (Z0 : (IZR k * p2 f <= IZR (2 ^ 52) * p2 e)%R).
      { assert (K : (IZR k <= IZR (2 ^ 53))%R) by (apply IZR_le; lia).
        assert (F : (2 * p2 f <= p2 e)%R) by (rewrite <- p2_succ; apply p2_le; lia).
        replace (IZR (2 ^ 53)) with (2 * IZR (2 ^ 52))%R in K by (rewrite <- mult_IZR; reflexivity).
        assert (0 < IZR (2 ^ 52))%R by (apply IZR_lt; reflexivity). pose proof (p2_pos f). nra. }
      replace (p2 (e + 52)) with (IZR (2 ^ 52) * p2 e)%R in Hc by (rewrite <- p2_Z by lia; rewrite <- p2_add; f_equal; lia).
      apply Rle_trans with (Rabs (IZR (2 ^ 52) * p2 e - v)); [apply nearest_multiple; assumption|].
      rewrite <- (Rabs_Ropp (IZR (2 ^ 52) * p2 e - v)), <- (Rabs_Ropp (IZR k * p2 f - v)).
      rewrite !Rabs_right by lra. lra.
  - apply Rle_trans with (1 := H). unfold half_ulp. destruct Hc as [->|Hc].
    + apply Rle_trans with (2 := Rmax_r _ _). replace (-1074) with (-1075 + 1) by reflexivity. rewrite p2_succ. lra.
    + apply Rle_trans with (2 := Rmax_l _ _). rewrite (Rabs_right v) by lra.
      apply Rle_trans with (p2 (-53) * p2 (e + 52))%R; [|apply Rmult_le_compat_l; [left; apply p2_pos|exact Hc]].
      rewrite <- p2_add. replace (-53 + (e + 52)) with (e - 1) by lia. replace (p2 e) with (2 * p2 (e - 1))%R by (rewrite <- p2_succ; f_equal; lia). lra.
Qed.

(** ** The result of an operation *)
Definition valid (x : f64) : Prop := valid_binary fprec femax x = true.
Definition fin (x : f64) : Prop := match x with S754_finite _ _ _ | S754_zero _ => True | _ => False end.

(** r is a double closest to v; an infinity if the closest one exceeds all doubles. *)
Definition rounded (v : R) (r : f64) : Prop :=
  valid r /\ exists w, closest v w /\ (Rabs (w - v) <= half_ulp v)%R /\
  match r with
  | S754_nan => False
  | S754_infinity s => (p2 1024 <= sgn s * w)%R
  | _ => fval r = w /\ (Rabs w < p2 1024)%R
  end.

Lemma fexp_form : forall e, fexp64 e = Z.max (e - 53) (-1074).
Proof. reflexivity. Qed.

Lemma sgn_abs : forall s x, Rabs (sgn s * x) = Rabs x.
Proof. intros [] x; cbn [sgn]; rewrite Rabs_mult; [rewrite (Rabs_left (-1)) by lra|rewrite Rabs_R1]; ring. Qed.

Lemma format_sgn : forall s z, format z -> format (sgn s * z).
Proof.
  intros s z [k [e [-> [Hk He]]]]. destruct s; cbn [sgn].
  - exists (- k), e. split; [rewrite opp_IZR; ring|]. split; [rewrite Z.abs_opp; exact Hk|exact He].
  - exists k, e. split; [ring|]. split; assumption.
Qed.

Lemma sgn_sgn : forall s x, (sgn s * (sgn s * x) = x)%R.
Proof. intros [] x; cbn [sgn]; ring. Qed.

Lemma nearest_sgn : forall s v w, closest v w -> closest (sgn s * v) (sgn s * w).
Proof.
  intros s v w [Hf H]. split; [apply format_sgn; exact Hf|]. intros z Hz.
  replace (sgn s * w - sgn s * v)%R with (sgn s * (w - v))%R by ring. rewrite sgn_abs.
  replace (z - sgn s * v)%R with (sgn s * (sgn s * z - v))%R by (rewrite <- (sgn_sgn s z) at 2; ring). rewrite sgn_abs.
  apply H. apply format_sgn. exact Hz.
Qed.

Lemma half_ulp_sgn : forall s v, half_ulp (sgn s * v) = half_ulp v.
Proof. intros s v. unfold half_ulp. rewrite sgn_abs. reflexivity. Qed.

Lemma valid_iff : forall s m e, valid (S754_finite s m e) <-> Zpos m < 2 ^ 53 /\ -1074 <= e <= 971 /\ (e = -1074 \/ 2 ^ 52 <= Zpos m).
Proof.
  intros s m e. unfold valid, valid_binary, bounded, canonical_mantissa. pose proof (digits_bounds m) as D.
  rewrite andb_true_iff, <- Zeq_is_eq_bool, fexp_form. rewrite <- Zle_is_le_bool. change (femax - fprec) with 971.
  set (d := Zpos (digits2_pos m)) in *.
  assert (1 <= d) by (unfold d; lia). split.
  - intros [E B]. assert (d <= 53) by lia. split; [|split].
    + apply Z.lt_le_trans with (2 ^ d); [lia|]. apply Z.pow_le_mono_r; lia.
    + lia.
    + destruct (Z.eq_dec e (-1074)); [left; assumption|right]. assert (d = 53) by lia. rewrite H1 in D. change (53 - 1) with 52 in D. lia.
  - intros [B [E C]]. split; [|lia].
    assert (d <= 53). { destruct (Z_le_gt_dec d 53); [assumption|]. assert (2 ^ 53 <= 2 ^ (d - 1)) by (apply Z.pow_le_mono_r; lia). lia. }
    destruct C as [->|C]; [lia|].
    assert (53 <= d). { destruct (Z_le_gt_dec 53 d); [assumption|]. assert (2 ^ d <= 2 ^ 52) by (apply Z.pow_le_mono_r; lia). lia. }
    lia.
Qed.

Lemma located_bounds : forall m e l v, located m e l v -> (IZR m * p2 e <= v < (IZR m + 1) * p2 e)%R.
Proof.
  intros m e l v H. pose proof (p2_pos e) as P. unfold located in H. set (u := p2 e) in *. clearbody u. destruct l as [|[]]; nra.
Qed.

Lemma canonical_scaled : forall m e l v, 0 <= m -> located m e l v -> e <= fexp64 (Zdigits2 m + e) ->
  scaled (fexp64 (Zdigits2 m + e)) v.
Proof.
  intros m e l v Hm H He. apply located_bounds in H. rewrite fexp_form in *. set (d := Zdigits2 m) in *. set (f := Z.max (d + e - 53) (-1074)) in *.
  pose proof (p2_pos e) as P. split; [lia|].
  assert (D : (IZR m + 1 <= IZR (2 ^ d))%R /\ (0 < m -> (IZR (2 ^ (d - 1)) <= IZR m)%R) /\ (m = 0 -> d = 0) /\ 0 <= d).
  { destruct m as [|p|p]; [|pose proof (digits_bounds p) as B; fold (Zdigits2 (Zpos p)) in B|lia].
    - split; [cbn; lra|]. split; [lia|]. split; [reflexivity|cbn; lia].
    - change (Zdigits2 (Zpos p)) with d in B. split; [|split; [|split]].
      + rewrite <- plus_IZR. apply IZR_le. lia.
      + intros _. apply IZR_le. lia.
      + discriminate.
      + unfold d. cbn. lia. }
  destruct D as [D1 [D2 [D3 D4]]]. split; [split|].
  - apply Rle_trans with (IZR m * p2 e)%R; [|lra]. apply Rmult_le_pos; [apply IZR_le; exact Hm|lra].
  - apply Rlt_le_trans with ((IZR m + 1) * p2 e)%R; [lra|].
    apply Rle_trans with (p2 (d + e)); [|apply p2_le; unfold f; lia]. rewrite p2_add, (p2_Z d) by lia. nra.
  - destruct (Z.eq_dec f (-1074)); [left; assumption|right]. assert (Ef : f = d + e - 53) by lia.
    assert (Hm' : 0 < m) by (destruct (Z.eq_dec m 0) as [E|E]; [specialize (D3 E); lia|lia]).
    assert (1 <= d). { destruct m as [|p|p]; lia. }
    rewrite Ef. replace (d + e - 53 + 52) with ((d - 1) + e) by lia. rewrite p2_add, p2_Z by lia.
    specialize (D2 Hm'). nra.
Qed.

Lemma round_aux_spec : forall sx mx ex lx v, 0 <= mx -> located mx ex lx v -> ex <= fexp64 (Zdigits2 mx + ex) ->
  rounded (sgn sx * v) (binary_round_aux fprec femax sx mx ex lx).
Proof.
  intros sx mx ex lx v Hm H He. unfold binary_round_aux.
  destruct (shr_fexp_placed mx ex lx v Hm H) as [P1 E1]. pose proof (canonical_scaled mx ex lx v Hm H He) as Sc.
  destruct (shr_fexp fprec femax mx ex lx) as [mrs e]. cbn [fst snd] in P1, E1.
  rewrite Z.max_r in E1 by lia. rewrite <- E1 in Sc. destruct P1 as [Hm1 L1].
  destruct (round_even_spec _ _ _ _ Hm1 L1) as [Cm Em]. set (m' := round_nearest_even (shr_m mrs) (loc_of_shr_record mrs)) in *.
  assert (Hm' : 0 <= m' <= 2 ^ 53).
  { split; [lia|]. apply located_bounds in L1. destruct Sc as [_ [[_ Hv] _]].
    assert (B : (IZR (shr_m mrs) * p2 e < IZR (2 ^ 53) * p2 e)%R).
    { rewrite <- p2_Z by lia. rewrite <- p2_add. replace (53 + e) with (e + 53) by lia. lra. }
    apply Rmult_lt_reg_r in B; [|apply p2_pos]. apply lt_IZR in B. lia. }
  destruct (scaled_nearest e v m' Sc (proj1 Hm') Em (proj2 Hm')) as [N U].
  assert (Q : exists m2 e2, shr_fexp fprec femax m' e loc_Exact = (Build_shr_record m2 false false, e2) /\
             (IZR m2 * p2 e2 = IZR m' * p2 e)%R /\ 0 <= m2 < 2 ^ 53 /\ -1074 <= e2 /\ (e2 = -1074 \/ 2 ^ 52 <= m2)).
  { destruct (Z.eq_dec m' (2 ^ 53)) as [Eq|Hne].
    - exists (2 ^ 52), (e + 1). rewrite Eq. split.
      + unfold shr_fexp. rewrite fexp_form. change (Zdigits2 (2 ^ 53)) with 54. destruct Sc as [Hmin _].
        replace (Z.max (54 + e - 53) (-1074) - e) with 1 by lia. reflexivity.
      + split; [rewrite p2_succ; replace (2 ^ 53) with (2 ^ 52 * 2) by reflexivity; rewrite mult_IZR; ring|].
        destruct Sc as [Hmin _]. split; [split; [|reflexivity]; discriminate|]. split; [lia|right; lia].
    - exists m', e. split.
      + unfold shr_fexp. assert (D : Zdigits2 m' <= 53).
        { destruct m' as [|p|p]; [cbn; lia| |lia]. pose proof (digits_bounds p). cbn [Zdigits2].
          destruct (Z_le_gt_dec (Zpos (digits2_pos p)) 53); [assumption|]. assert (2 ^ 53 <= 2 ^ (Zpos (digits2_pos p) - 1)) by (apply Z.pow_le_mono_r; lia). lia. }
        rewrite fexp_form. unfold shr. cbn [shr_record_of_loc]. destruct Sc as [Hmin _].
        destruct (Z.max (Zdigits2 m' + e - 53) (-1074) - e) eqn:E; [reflexivity|lia|reflexivity].
      + split; [reflexivity|]. split; [lia|]. destruct Sc as [Hmin [Hv Hc]]. split; [lia|].
        destruct Hc as [Hc|Hc]; [left; exact Hc|right].
        apply located_bounds in L1.
        replace (p2 (e + 52)) with (IZR (2 ^ 52) * p2 e)%R in Hc by (rewrite <- p2_Z by lia; rewrite <- p2_add; f_equal; lia).
        assert (B : (IZR (2 ^ 52) * p2 e < (IZR (shr_m mrs) + 1) * p2 e)%R) by lra.
        apply Rmult_lt_reg_r in B; [|apply p2_pos]. rewrite <- plus_IZR in B. apply lt_IZR in B. lia. }
  destruct Q as [m2 [e2 [-> [Ev [B2 [E2 C2]]]]]]. cbn [shr_m].
  assert (G : closest (sgn sx * v) (sgn sx * (IZR m2 * p2 e2)) /\ (Rabs (sgn sx * (IZR m2 * p2 e2) - sgn sx * v) <= half_ulp (sgn sx * v))%R).
  { rewrite Ev. split; [apply nearest_sgn; exact N|]. replace (sgn sx * (IZR m' * p2 e) - sgn sx * v)%R with (sgn sx * (IZR m' * p2 e - v))%R by ring.
    rewrite sgn_abs, half_ulp_sgn. exact U. }
  destruct G as [G1 G2].
  destruct m2 as [|m2|m2]; [| |lia].
  - split; [reflexivity|]. exists (sgn sx * (IZR 0 * p2 e2))%R. split; [exact G1|]. split; [exact G2|]. cbn [fval].
    rewrite !Rmult_0_l, Rmult_0_r, Rabs_R0. split; [reflexivity|apply p2_pos].
  - destruct (Z.leb_spec e2 (femax - fprec)) as [L|L].
    + split; [apply valid_iff; change (femax - fprec) with 971 in L; lia|].
      exists (sgn sx * (IZR (Zpos m2) * p2 e2))%R. split; [exact G1|]. split; [exact G2|]. split; [reflexivity|].
      rewrite sgn_abs. rewrite Rabs_right by (apply Rle_ge, Rmult_le_pos; [apply IZR_le; lia|left; apply p2_pos]).
      apply Rlt_le_trans with (p2 53 * p2 e2)%R.
      * apply Rmult_lt_compat_r; [apply p2_pos|]. rewrite p2_Z by lia. apply IZR_lt. lia.
      * rewrite <- p2_add. apply p2_le. change (femax - fprec) with 971 in L. lia.
    + split; [reflexivity|]. exists (sgn sx * (IZR (Zpos m2) * p2 e2))%R. split; [exact G1|]. split; [exact G2|].
      rewrite sgn_sgn. change (femax - fprec) with 971 in L. destruct C2 as [C2|C2]; [lia|].
      apply Rle_trans with (p2 52 * p2 e2)%R; [rewrite <- p2_add; apply p2_le; lia|].
      apply Rmult_le_compat_r; [left; apply p2_pos|]. rewrite p2_Z by lia. apply IZR_le. exact C2.
Qed.
