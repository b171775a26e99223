(** Sums and means of nonnegative doubles. *)
From Coq Require Import List ZArith Bool Arith Reals Lia Lra Psatz Floats.SpecFloat.
From Verif Require Import PyBase PyBaseFacts Num Spec_Stats P_Text F64Round F64Ops F64Facts.
Import ListNotations.
Local Open Scope R_scope.

Notation fadd := (SFadd fprec femax).
Notation fsub := (SFsub fprec femax).
Notation fmul := (SFmul fprec femax).
Notation fdiv := (SFdiv fprec femax).

(** ** Bounded sums *)
Definition fsum (l : list f64) (s : f64) : f64 := fold_left fadd l s.

Lemma format_scaled : forall k e, (Z.abs k <= 2 ^ 53)%Z -> (-1074 <= e)%Z -> format (IZR k * p2 e).
Proof.
  intros k e Hk He. destruct (Z.eq_dec (Z.abs k) (2 ^ 53)) as [E|E]; [|exists k, e; repeat split; lia || lra].
  assert (C : k = (2 ^ 53)%Z \/ k = (- 2 ^ 53)%Z) by lia. destruct C as [-> | ->].
  - exists 1%Z, (53 + e)%Z. split; [rewrite p2_add, (p2_Z 53) by lia; ring|]. split; [reflexivity|lia].
  - exists (-1)%Z, (53 + e)%Z. split; [rewrite p2_add, (p2_Z 53) by lia; rewrite opp_IZR; ring|]. split; [reflexivity|lia].
Qed.

(** Terms between 0 and 2^e: the partial sums of k terms are between 0 and k 2^e. *)
Lemma fsum_bounds : forall e l s k, (-1074 <= e <= 900)%Z -> ok s -> 0 <= fval s <= IZR k * p2 e -> (0 <= k)%Z ->
  (forall v, In v l -> ok v /\ 0 <= fval v <= p2 e) -> (k + Z.of_nat (length l) <= 2 ^ 53)%Z ->
  ok (fsum l s) /\ 0 <= fval (fsum l s) <= IZR (k + Z.of_nat (length l)) * p2 e.
Proof.
  intros e l. induction l as [|v l IH]; intros s k He Ks Bs Hk Hl Hn.
  - cbn [fsum fold_left length]. replace (k + Z.of_nat 0)%Z with k by lia. split; assumption.
  - cbn [length] in Hn. destruct (Hl v (or_introl eq_refl)) as [Kv Bv].
    assert (R1 : rounded (fval s + fval v) (fadd s v)) by (apply add_spec; try apply Ks; apply Kv).
    assert (F : format (IZR (k + 1) * p2 e)) by (apply format_scaled; lia).
    assert (Pe := p2_pos e).
    assert (B : 0 <= fval s + fval v <= IZR (k + 1) * p2 e) by (rewrite plus_IZR; lra).
    assert (L : IZR (k + 1) * p2 e < p2 1024).
    { apply Rle_lt_trans with (p2 53 * p2 e); [|rewrite <- p2_add; apply p2_lt; lia]. apply Rmult_le_compat_r; [lra|]. rewrite p2_Z by lia. apply IZR_le. lia. }
    destruct (rounded_bounded _ _ _ R1 F) as [Kr Br]; [rewrite Rabs_right; lra|exact L|].
    assert (G : 0 <= fval (fadd s v)) by (apply (rounded_ge _ _ 0 R1 Kr format_0); lra). rewrite Rabs_right in Br by lra.
    cbn [fsum fold_left]. fold (fsum l (fadd s v)). destruct (IH (fadd s v) (k + 1)%Z He Kr ltac:(lra) ltac:(lia)) as [K1 B1]; [intros; apply Hl; right; assumption|lia|].
    split; [exact K1|]. cbn [length]. replace (k + Z.of_nat (S (length l)))%Z with (k + 1 + Z.of_nat (length l))%Z by lia. exact B1.
Qed.

Lemma fmean_bounds : forall e l, (-1074 <= e <= 900)%Z -> l <> [] -> (Z.of_nat (length l) <= 2 ^ 53)%Z ->
  (forall v, In v l -> ok v /\ 0 <= fval v <= p2 e) -> ok (nmean F64ops l) /\ 0 <= fval (nmean F64ops l) <= p2 e.
Proof.
  intros e l He Hl Hn H. destruct (fsum_bounds e l (S754_zero false) 0 He (ok_zero _)) as [Ks Bs]; [cbn [fval]; lra|lia|exact H|lia|].
  rewrite Z.add_0_l in Bs. unfold nmean, nsum. cbn [nadd n0 F64ops ndiv nofnat nofZ]. unfold nofnat. cbn [nofZ F64ops].
  change (num F64ops) with f64 in *. set (n := Z.of_nat (length l)) in *. assert (Pn : (1 <= n)%Z) by (unfold n; destruct l; [congruence|cbn [length]; lia]).
  destruct (ofZ_exact n) as [Kn En]; [lia|]. assert (P : 1 <= IZR n) by (apply IZR_le; exact Pn). fold (fsum l (S754_zero false)).
  set (s := fsum l (S754_zero false)) in *.
  assert (R1 : rounded (fval s / fval (f64_ofZ n)) (fdiv s (f64_ofZ n))) by (apply div_spec; try apply Ks; try apply Kn; rewrite En; lra).
  rewrite En in R1. assert (Pe := p2_pos e).
  assert (B : 0 <= fval s / IZR n <= p2 e).
  { split; [apply Rmult_le_pos; [lra|left; apply Rinv_0_lt_compat; lra]|]. apply Rmult_le_reg_r with (IZR n); [lra|]. unfold Rdiv. rewrite Rmult_assoc, Rinv_l by lra. lra. }
  assert (F : format (p2 e)) by (replace (p2 e) with (1 * p2 e) by ring; apply format_scaled; lia).
  destruct (rounded_bounded _ _ _ R1 F) as [Kr Br]; [rewrite Rabs_right; lra|apply p2_lt; lia|].
  split; [exact Kr|]. assert (G : 0 <= fval (fdiv s (f64_ofZ n))) by (apply (rounded_ge _ _ 0 R1 Kr format_0); lra).
  rewrite Rabs_right in Br by lra. split; [exact G|exact Br].
Qed.

(** ** Exact sums of integers *)
Lemma fsum_exact : forall (l : list f64) (zs : list Z) s k, ok s -> fval s = IZR k -> (0 <= k)%Z ->
  Forall2 (fun v z => ok v /\ fval v = IZR z /\ (0 <= z)%Z) l zs -> (fold_left Z.add zs k <= 2 ^ 53)%Z ->
  ok (fsum l s) /\ fval (fsum l s) = IZR (fold_left Z.add zs k).
Proof.
  assert (Mono : forall zs k, (forall z, In z zs -> (0 <= z)%Z) -> (k <= fold_left Z.add zs k)%Z).
  { induction zs as [|z zs IH]; intros k H; cbn [fold_left]; [lia|]. specialize (IH (k + z)%Z (fun y Hy => H y (or_intror Hy))). specialize (H z (or_introl eq_refl)). lia. }
  intros l zs s k Ks Es Hk F. revert s k Ks Es Hk. induction F as [|v z l zs [Kv [Ev Hz]] F IH]; intros s k Ks Es Hk B; cbn [fsum fold_left] in *; [split; assumption|].
  assert (N : forall y, In y zs -> (0 <= y)%Z).
  { intros y Hy. clear - F Hy. induction F as [|a b l m [_ [_ Hab]] F IH]; [destruct Hy|]. destruct Hy as [<-|Hy]; [exact Hab|apply IH; exact Hy]. }
  pose proof (Mono zs (k + z)%Z N) as Q.
  assert (R1 : rounded (fval s + fval v) (fadd s v)) by (apply add_spec; try apply Ks; apply Kv).
  rewrite Es, Ev, <- plus_IZR in R1.
  destruct (rounded_exact _ _ R1) as [Kr Er]; [apply format_Z; lia|apply IZR_bound; lia|].
  fold (fsum l (fadd s v)). apply (IH (fadd s v) (k + z)%Z Kr Er ltac:(lia) B).
Qed.

(** ** Relative error of sums of nonnegative numbers *)
Definition within (K : nat) (x y : R) : Prop := 0 <= y /\ (1 - u) ^ K * y <= x <= (1 + u) ^ K * y.

Lemma u_small : 0 < u < / 1000000.
Proof. split; [apply u_pos|]. apply Rle_lt_trans with (p2 (-30)); [apply p2_le; lia|]. unfold p2. simpl. lra. Qed.

Lemma low_pos : forall K, 0 < (1 - u) ^ K <= 1.
Proof.
  intros K. pose proof u_small. induction K as [|K IH]; cbn [pow]; [lra|]. split; [apply Rmult_lt_0_compat; lra|].
  apply Rle_trans with (1 * 1); [apply Rmult_le_compat; lra|lra].
Qed.

Lemma high_pos : forall K, 1 <= (1 + u) ^ K.
Proof. intros K. apply pow_R1_Rle. pose proof u_small. lra. Qed.

Lemma low_mono : forall a b, (a <= b)%nat -> (1 - u) ^ b <= (1 - u) ^ a.
Proof.
  intros a b H. replace b with (a + (b - a))%nat by lia. rewrite pow_add. pose proof (low_pos a). pose proof (low_pos (b - a)).
  rewrite <- (Rmult_1_r ((1 - u) ^ a)) at 2. apply Rmult_le_compat_l; lra.
Qed.

Lemma high_mono : forall a b, (a <= b)%nat -> (1 + u) ^ a <= (1 + u) ^ b.
Proof. intros a b H. apply Rle_pow; [pose proof u_small; lra|exact H]. Qed.

Lemma within_nonneg : forall K x y, within K x y -> 0 <= x.
Proof. intros K x y [H [L _]]. pose proof (low_pos K). apply Rle_trans with (2 := L). apply Rmult_le_pos; lra. Qed.

Lemma within_weaken : forall a b x y, (a <= b)%nat -> within a x y -> within b x y.
Proof.
  intros a b x y H [P [L U]]. split; [exact P|]. split.
  - apply Rle_trans with (2 := L). apply Rmult_le_compat_r; [exact P|apply low_mono; exact H].
  - apply Rle_trans with (1 := U). apply Rmult_le_compat_r; [exact P|apply high_mono; exact H].
Qed.

Lemma within_refl : forall y, 0 <= y -> within 0 y y.
Proof. intros y H. split; [exact H|]. cbn [pow]. lra. Qed.

Lemma within_add : forall K a b c d, within K a b -> within K c d -> within K (a + c) (b + d).
Proof. intros K a b c d [P [L U]] [P' [L' U']]. split; [lra|]. rewrite !Rmult_plus_distr_l. lra. Qed.

Lemma within_mul : forall K L a b c d, within K a b -> within L c d -> within (K + L) (a * c) (b * d).
Proof.
  intros K L a b c d H H'. pose proof (within_nonneg _ _ _ H). pose proof (within_nonneg _ _ _ H'). destruct H as [P [A B]]. destruct H' as [P' [A' B']].
  pose proof (low_pos K). pose proof (low_pos L). pose proof (high_pos K). pose proof (high_pos L).
  split; [apply Rmult_le_pos; assumption|]. rewrite !pow_add. split.
  - replace ((1 - u) ^ K * (1 - u) ^ L * (b * d)) with (((1 - u) ^ K * b) * ((1 - u) ^ L * d)) by ring.
    apply Rmult_le_compat; try assumption; apply Rmult_le_pos; lra.
  - replace ((1 + u) ^ K * (1 + u) ^ L * (b * d)) with (((1 + u) ^ K * b) * ((1 + u) ^ L * d)) by ring.
    apply Rmult_le_compat; assumption.
Qed.

Lemma within_scale : forall K a b c, 0 <= c -> within K a b -> within K (a * c) (b * c).
Proof. intros K a b c Hc H. rewrite <- (Nat.add_0_r K). apply within_mul; [exact H|apply within_refl; exact Hc]. Qed.

(** One more rounding. *)
Lemma within_round : forall K x y z, within K x y -> Rabs (z - x) <= u * Rabs x -> within (S K) z y.
Proof.
  intros K x y z H E. pose proof (within_nonneg _ _ _ H) as Px. destruct H as [P [L U]]. rewrite (Rabs_right x) in E by lra.
  apply Rabs_le_inv in E. pose proof u_small as Us. split; [exact P|]. cbn [pow]. split.
  - apply Rle_trans with ((1 - u) * x); [|lra]. rewrite Rmult_assoc. apply Rmult_le_compat_l; lra.
  - apply Rle_trans with ((1 + u) * x); [lra|]. rewrite Rmult_assoc. apply Rmult_le_compat_l; lra.
Qed.

Lemma fsum_within : forall (l : list f64) (ys : list R) K s t, ok s -> within K (fval s) t ->
  Forall2 (fun v y => ok v /\ within K (fval v) y) l ys ->
  (forall m l1 l2, l = l1 ++ l2 -> m = fsum l1 s -> ok m) ->
  within (K + length l) (fval (fsum l s)) (t + rsum ys).
Proof.
  intros l ys K s t Ks W F. revert K s t Ks W F. 
  assert (G : forall l ys K J s t, ok s -> within (K + J) (fval s) t -> Forall2 (fun v y => ok v /\ within K (fval v) y) l ys ->
    (forall m l1 l2, l = l1 ++ l2 -> m = fsum l1 s -> ok m) -> within (K + J + length l) (fval (fsum l s)) (t + rsum ys)).
  { clear l ys. induction l as [|v l IH]; intros ys K J s t Ks W F O; inversion F as [|? y ? ys' [Kv Wv] F']; subst; cbn [fsum fold_left length rsum].
    - rewrite Rplus_0_r, Nat.add_0_r. exact W.
    - assert (Kr : ok (fadd s v)) by (apply (O _ [v] l); reflexivity).
      assert (R1 : rounded (fval s + fval v) (fadd s v)) by (apply add_spec; try apply Ks; apply Kv).
      fold (fsum l (fadd s v)). replace (t + (y + rsum ys')) with ((t + y) + rsum ys') by ring.
      replace (K + J + S (length l))%nat with (K + S J + length l)%nat by lia. apply IH; [exact Kr| |exact F'|].
      + replace (K + S J)%nat with (S (K + J)) by lia. apply within_round with (fval s + fval v).
        * apply within_add; [exact W|]. apply within_weaken with K; [lia|exact Wv].
        * apply add_relative; assumption.
      + intros m l1 l2 E1 E2. apply (O m (v :: l1) l2); [rewrite E1; reflexivity|exact E2]. }
  intros K s t Ks W F O. replace (K + length l)%nat with (K + 0 + length l)%nat by lia. apply (G l ys K 0%nat s t Ks); [|exact F|exact O].
  rewrite Nat.add_0_r. exact W.
Qed.
