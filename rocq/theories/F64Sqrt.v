(** The square root of doubles is correctly rounded. *)
From Coq Require Import ZArith Bool Reals Lia Lra Psatz Floats.SpecFloat.
From Verif Require Import PyBase Num NumFacts P_Text F64Round F64Ops F64Facts.
Local Open Scope Z_scope.

Lemma sqrt_core_spec : forall m e, let '(q, e', l) := SFsqrt_core_binary fprec femax (Zpos m) e in
  0 <= q /\ located q e' l (sqrt (IZR (Zpos m) * p2 e)) /\ e' <= fexp64 (Zdigits2 q + e').
Proof.
  intros m e. unfold SFsqrt_core_binary. cbn [Zdigits2]. set (d := Zpos (digits2_pos m)).
  set (e' := Z.min (fexp64 (Z.div2 (d + e + 1))) (Z.div2 e)). set (s := e - 2 * e').
  pose proof (Z.div2_odd e) as De. assert (Hs : 0 <= s) by (unfold s, e'; destruct (Z.odd e); cbn [Z.b2z] in De; lia).
  set (m' := match s with Zpos _ => Z.shiftl (Zpos m) s | Z0 => Zpos m | Zneg _ => 0 end).
  assert (Em : m' = Zpos m * 2 ^ s).
  { unfold m'. destruct s eqn:E; [lia| |lia]. rewrite Z.shiftl_mul_pow2 by lia. reflexivity. }
  clearbody m'. assert (P2 : 0 < 2 ^ s) by (apply Z.pow_pos_nonneg; lia). assert (Hm : 0 < m') by nia.
  pose proof (Z.sqrtrem_spec m' ltac:(lia)) as SR. destruct (Z.sqrtrem m') as [q r]. destruct SR as [Dm Hr].
  assert (Hq : 0 <= q) by lia. split; [exact Hq|]. split.
  - assert (V : (sqrt (IZR (Zpos m) * p2 e) = sqrt (IZR m') * p2 e')%R).
    { replace (IZR (Zpos m) * p2 e)%R with (IZR m' * (p2 e' * p2 e'))%R.
      - rewrite sqrt_mult; [|apply IZR_le; lia|apply Rle_0_sqr]. f_equal. apply sqrt_square. left. apply p2_pos.
      - rewrite Em, mult_IZR, <- p2_Z by exact Hs. rewrite Rmult_assoc, <- !p2_add. do 2 f_equal. unfold s. lia. }
    rewrite V. assert (Pe := p2_pos e'). assert (Q0 : (0 <= IZR q)%R) by (apply IZR_le; exact Hq).
    assert (M0 : (0 <= IZR m')%R) by (apply IZR_le; lia).
    assert (EM : (IZR m' = IZR q * IZR q + IZR r)%R) by (rewrite Dm, plus_IZR, mult_IZR; reflexivity).
    assert (Lo : forall a, (0 <= a)%R -> (a * a < IZR m')%R -> (a * p2 e' < sqrt (IZR m') * p2 e')%R).
    { intros a Ha H. apply Rmult_lt_compat_r; [exact Pe|]. rewrite <- (sqrt_square a) by exact Ha. apply sqrt_lt_1; [apply Rle_0_sqr|exact M0|exact H]. }
    assert (Up : forall a, (0 <= a)%R -> (IZR m' < a * a)%R -> (sqrt (IZR m') * p2 e' < a * p2 e')%R).
    { intros a Ha H. apply Rmult_lt_compat_r; [exact Pe|]. rewrite <- (sqrt_square a) by exact Ha. apply sqrt_lt_1; [exact M0|apply Rle_0_sqr|exact H]. }
    destruct (Zeq_bool r 0) eqn:E0.
    + apply Zeq_bool_eq in E0. subst r. cbn [located]. rewrite EM, Rplus_0_r, sqrt_square by exact Q0. reflexivity.
    + apply Zeq_bool_neq in E0. assert (R1 : (1 <= IZR r)%R) by (apply IZR_le; lia).
      destruct (Zle_bool r q) eqn:E1; cbn [located].
      * apply Zle_bool_imp_le in E1. apply IZR_le in E1. split; [apply Lo; [exact Q0|lra]|apply Up; [lra|rewrite EM; nra]].
      * assert (E2 : q + 1 <= r) by (rewrite Z.leb_gt in E1; lia). apply IZR_le in E2. rewrite plus_IZR in E2.
        assert (E3 : (IZR r <= 2 * IZR q)%R) by (rewrite <- mult_IZR; apply IZR_le; lia).
        split; [apply Lo; [lra|rewrite EM; nra]|apply Up; [lra|rewrite EM; nra]].
  - assert (B := digits_bounds m). fold d in B. set (h := Z.div2 (d + e + 1)). pose proof (Z.div2_odd (d + e + 1)) as Dh. fold h in Dh.
    assert (D : h - e' <= Zdigits2 q).
    { apply digits_ge; [exact Hq|]. intros L. set (t := 2 ^ (h - e' - 1)). assert (T0 : 0 < t) by (apply Z.pow_pos_nonneg; lia).
      assert (T : t * t <= m').
      { unfold t. rewrite <- Z.pow_add_r by lia. apply Z.le_trans with (2 ^ ((d - 1) + s)).
        - apply Z.pow_le_mono_r; [lia|]. unfold s. destruct (Z.odd (d + e + 1)); cbn [Z.b2z] in Dh; lia.
        - rewrite Z.pow_add_r by (unfold d; lia). rewrite Em. apply Z.mul_le_mono_nonneg_r; lia. }
      destruct (Z_le_gt_dec t q) as [H|H]; [exact H|]. assert (q + 1 <= t) by lia. nia. }
    assert (Mono : fexp64 h <= fexp64 (Zdigits2 q + e')) by (rewrite !fexp_form; lia).
    unfold e' at 1. fold h. lia.
Qed.

Lemma sqrt_spec64 : forall x, valid x -> fin x -> (0 <= fval x)%R -> rounded (sqrt (fval x)) (SFsqrt fprec femax x).
Proof.
  intros x Vx Fx H0. destruct x as [s|s| |s m e]; try destruct Fx; cbn [SFsqrt].
  - replace (fval (S754_zero s)) with 0%R by reflexivity. rewrite sqrt_0. apply (rounded_self (S754_zero s)); reflexivity.
  - destruct s.
    + exfalso. cbn [fval sgn] in H0. change (powerRZ 2 e) with (p2 e) in H0. assert (0 < IZR (Zpos m))%R by (apply IZR_lt; lia). pose proof (p2_pos e). nra.
    + pose proof (sqrt_core_spec m e) as H. destruct (SFsqrt_core_binary fprec femax (Zpos m) e) as [[q e'] l]. destruct H as [Hq [Hl He]].
      replace (sqrt (fval (S754_finite false m e))) with (sgn false * sqrt (IZR (Zpos m) * p2 e))%R; [apply round_aux_spec; assumption|].
      cbn [fval sgn]. rewrite !Rmult_1_l. reflexivity.
Qed.
