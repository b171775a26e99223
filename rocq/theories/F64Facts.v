(** Consequences of correct rounding: exact results, order, error bounds. *)
From Coq Require Import ZArith Bool Reals Lia Lra Psatz Floats.SpecFloat.
From Verif Require Import Num P_Text F64Round F64Ops.
Local Open Scope R_scope.

Lemma Rabs_le_inv : forall a b, Rabs a <= b -> - b <= a <= b.
Proof. intros a b H. unfold Rabs in H. destruct (Rcase_abs a); lra. Qed.

(** A finite double. *)
Definition ok (x : f64) : Prop := valid x /\ fin x.

Lemma ok_format : forall x, ok x -> format (fval x).
Proof. intros x [V F]. apply fin_format; assumption. Qed.

Lemma ok_bound : forall x, ok x -> Rabs (fval x) < p2 1024.
Proof. intros x [V F]. apply fin_format; assumption. Qed.

Lemma ok_zero : forall s, ok (S754_zero s).
Proof. intros s. split; [reflexivity|exact I]. Qed.

Lemma rounded_value : forall v r, rounded v r -> fin r -> closest v (fval r) /\ Rabs (fval r - v) <= half_ulp v.
Proof.
  intros v r [_ [w [N [H M]]]] F. destruct r; try destruct F; destruct M as [M _]; rewrite M; split; assumption.
Qed.

Lemma nearest_exact : forall v w, closest v w -> format v -> w = v.
Proof.
  intros v w [_ N] F. specialize (N v F). rewrite (Rminus_diag_eq v v eq_refl), Rabs_R0 in N.
  pose proof (Rabs_pos (w - v)). destruct (Req_dec (w - v) 0) as [A|A]; [lra|]. apply Rabs_pos_lt in A. lra.
Qed.

Lemma nearest_upper : forall v w b, closest v w -> format b -> v <= b -> w <= b.
Proof.
  intros v w b [_ N] F H. specialize (N b F). destruct (Rle_lt_dec w b) as [L|L]; [assumption|exfalso].
  rewrite !Rabs_right in N by lra. lra.
Qed.

Lemma nearest_lower : forall v w b, closest v w -> format b -> b <= v -> b <= w.
Proof.
  intros v w b [_ N] F H. specialize (N b F). destruct (Rle_lt_dec b w) as [L|L]; [assumption|exfalso].
  rewrite !Rabs_left1 in N by lra. lra.
Qed.

Lemma format_opp : forall b, format b -> format (- b).
Proof. intros b H. replace (- b) with (sgn true * b) by (cbn; ring). apply format_sgn. assumption. Qed.

(** Results bounded by a double are finite and keep the bound. *)
Lemma rounded_bounded : forall v r b, rounded v r -> format b -> Rabs v <= b -> b < p2 1024 -> ok r /\ Rabs (fval r) <= b.
Proof.
  intros v r b H F B L. pose proof H as [V [w [N [_ M]]]].
  assert (W : Rabs w <= b).
  { apply Rabs_le. apply Rabs_le_inv in B. split; [apply nearest_lower with v; [|apply format_opp|]|apply nearest_upper with v]; try assumption; lra. }
  destruct r as [s|s| |s m e].
  - destruct M as [M _]. rewrite M. repeat split; try assumption.
  - exfalso. pose proof (sgn_abs s w) as A. pose proof (Rle_abs (sgn s * w)). lra.
  - destruct M.
  - destruct M as [M _]. rewrite M. repeat split; try assumption.
Qed.

Lemma rounded_exact : forall v r, rounded v r -> format v -> Rabs v < p2 1024 -> ok r /\ fval r = v.
Proof.
  intros v r H F B. assert (A : format (Rabs v)) by (unfold Rabs; destruct (Rcase_abs v); [apply format_opp|]; assumption).
  destruct (rounded_bounded v r (Rabs v) H A (Rle_refl _) B) as [K _]. split; [exact K|].
  apply nearest_exact; [|assumption]. apply rounded_value; [assumption|apply K].
Qed.

Lemma rounded_le : forall v r b, rounded v r -> ok r -> format b -> v <= b -> fval r <= b.
Proof. intros v r b H [_ F] B L. apply nearest_upper with v; [apply rounded_value; assumption|assumption|assumption]. Qed.

Lemma rounded_ge : forall v r b, rounded v r -> ok r -> format b -> b <= v -> b <= fval r.
Proof. intros v r b H [_ F] B L. apply nearest_lower with v; [apply rounded_value; assumption|assumption|assumption]. Qed.

Lemma rounded_lt_mono : forall v r v' r', rounded v r -> rounded v' r' -> ok r -> ok r' -> v < v' -> fval r <= fval r'.
Proof.
  intros v r v' r' H H' [_ F] [_ F'] L. destruct (rounded_value _ _ H F) as [[Fr N] _]. destruct (rounded_value _ _ H' F') as [[Fr' N'] _].
  destruct (Rle_lt_dec (fval r) (fval r')) as [G|G]; [assumption|exfalso].
  specialize (N _ Fr'). specialize (N' _ Fr). unfold Rabs in N, N'.
  repeat match goal with H : context [Rcase_abs ?x] |- _ => destruct (Rcase_abs x) end; lra.
Qed.

(** ** Relative error *)
Definition u : R := p2 (-53).

Lemma u_pos : 0 < u.
Proof. apply p2_pos. Qed.

Lemma rounded_relative : forall v r, rounded v r -> ok r -> v = 0 \/ p2 (-1022) <= Rabs v -> Rabs (fval r - v) <= u * Rabs v.
Proof.
  intros v r H K L. destruct L as [->|L].
  - destruct (rounded_exact 0 r H format_0) as [_ E]; [rewrite Rabs_R0; apply p2_pos|]. rewrite E, Rminus_diag_eq, Rabs_R0 by reflexivity. lra.
  - apply (Rle_trans _ (half_ulp v)); [apply rounded_value; [assumption|apply K]|]. unfold half_ulp. apply Rmax_lub; [apply Rle_refl|].
    replace (p2 (-1075)) with (u * p2 (-1022)) by (unfold u; rewrite <- p2_add; reflexivity). apply Rmult_le_compat_l; [left; apply u_pos|exact L].
Qed.

(** Multiples of the smallest double, such as sums of doubles, never suffer from underflow. *)
Lemma format_multiple : forall x, format x -> exists k : Z, x = IZR k * p2 (-1074).
Proof.
  intros x [k [e [E [_ H]]]]. exists (k * 2 ^ (e + 1074))%Z. rewrite mult_IZR, <- (p2_Z (e + 1074)) by lia. rewrite Rmult_assoc, <- p2_add, E. f_equal. f_equal. lia.
Qed.

Lemma multiple_relative : forall (k : Z) r v, v = IZR k * p2 (-1074) -> rounded v r -> ok r -> Rabs (fval r - v) <= u * Rabs v.
Proof.
  intros k r v E H K. destruct (Z_lt_le_dec (Z.abs k) (2 ^ 53)) as [L|L].
  - destruct (rounded_exact v r H) as [_ Ev].
    + exists k, (-1074)%Z. split; [assumption|]. split; [exact L|lia].
    + rewrite E, Rabs_mult, (Rabs_right (p2 _)) by (left; apply p2_pos). rewrite <- abs_IZR. apply Rlt_le_trans with (p2 53 * p2 (-1074)); [|rewrite <- p2_add; apply p2_le; lia].
      apply Rmult_lt_compat_r; [apply p2_pos|]. rewrite p2_Z by lia. apply IZR_lt. exact L.
    + rewrite Ev, Rminus_diag_eq, Rabs_R0 by reflexivity. apply Rmult_le_pos; [left; apply u_pos|apply Rabs_pos].
  - apply rounded_relative; [assumption|assumption|]. right. rewrite E, Rabs_mult, (Rabs_right (p2 _)) by (left; apply p2_pos). rewrite <- abs_IZR.
    apply Rle_trans with (p2 53 * p2 (-1074)); [rewrite <- p2_add; apply p2_le; lia|].
    apply Rmult_le_compat_r; [left; apply p2_pos|]. rewrite p2_Z by lia. apply IZR_le. exact L.
Qed.

Lemma add_relative : forall x y r, ok x -> ok y -> rounded (fval x + fval y) r -> ok r ->
  Rabs (fval r - (fval x + fval y)) <= u * Rabs (fval x + fval y).
Proof.
  intros x y r Kx Ky H K. destruct (format_multiple _ (ok_format _ Kx)) as [i Ei]. destruct (format_multiple _ (ok_format _ Ky)) as [j Ej].
  apply (multiple_relative (i + j)); [|assumption|assumption]. rewrite Ei, Ej, plus_IZR. ring.
Qed.

Lemma sub_relative : forall x y r, ok x -> ok y -> rounded (fval x - fval y) r -> ok r ->
  Rabs (fval r - (fval x - fval y)) <= u * Rabs (fval x - fval y).
Proof.
  intros x y r Kx Ky H K. destruct (format_multiple _ (ok_format _ Kx)) as [i Ei]. destruct (format_multiple _ (ok_format _ Ky)) as [j Ej].
  apply (multiple_relative (i - j)); [|assumption|assumption]. rewrite Ei, Ej, minus_IZR. ring.
Qed.

(** ** Integers *)
Lemma format_Z : forall z, (Z.abs z <= 2 ^ 53)%Z -> format (IZR z).
Proof.
  intros z H. destruct (Z.eq_dec (Z.abs z) (2 ^ 53)) as [E|E].
  - assert (C : z = (2 ^ 53)%Z \/ z = (- 2 ^ 53)%Z) by lia. destruct C as [-> | ->].
    + exists 1%Z, 53%Z. split; [rewrite p2_Z by lia; ring|split; [reflexivity|lia]].
    + exists (-1)%Z, 53%Z. split; [rewrite p2_Z by lia; rewrite opp_IZR; ring|split; [reflexivity|lia]].
  - exists z, 0%Z. split; [unfold p2; simpl; ring|split; [|lia]]. lia.
Qed.

Lemma IZR_bound : forall z, (Z.abs z <= 2 ^ 53)%Z -> Rabs (IZR z) < p2 1024.
Proof.
  intros z H. rewrite <- abs_IZR. apply Rle_lt_trans with (p2 53); [rewrite p2_Z by lia; apply IZR_le; exact H|apply p2_lt; lia].
Qed.

Lemma ofZ_exact : forall z, (Z.abs z <= 2 ^ 53)%Z -> ok (f64_ofZ z) /\ fval (f64_ofZ z) = IZR z.
Proof. intros z H. apply rounded_exact; [apply ofZ_spec|apply format_Z; exact H|apply IZR_bound; exact H]. Qed.

(** ** Comparisons *)
Lemma pos_order : forall m1 e1 m2 e2, (e1 < e2)%Z -> valid (S754_finite false m1 e1) -> valid (S754_finite false m2 e2) ->
  IZR (Zpos m1) * p2 e1 < IZR (Zpos m2) * p2 e2.
Proof.
  intros m1 e1 m2 e2 L V1 V2. apply valid_iff in V1. apply valid_iff in V2. destruct V1 as [A1 [A2 A3]]. destruct V2 as [B1 [B2 B3]].
  destruct B3 as [B3|B3]; [lia|]. apply Rlt_le_trans with (p2 53 * p2 e1).
  - apply Rmult_lt_compat_r; [apply p2_pos|]. rewrite p2_Z by lia. apply IZR_lt. exact A1.
  - apply Rle_trans with (p2 52 * p2 e2); [rewrite <- !p2_add; apply p2_le; lia|].
    apply Rmult_le_compat_r; [left; apply p2_pos|]. rewrite p2_Z by lia. apply IZR_le. exact B3.
Qed.

Definition order (a b : R) (c : comparison) : Prop := match c with Lt => a < b | Eq => a = b | Gt => b < a end.

Lemma valid_sign : forall s m e, valid (S754_finite s m e) -> valid (S754_finite false m e).
Proof. intros s m e V. exact V. Qed.

Lemma compare_spec : forall x y, ok x -> ok y -> exists c, SFcompare x y = Some c /\ order (fval x) (fval y) c.
Proof.
  intros x y [Vx Fx] [Vy Fy].
  destruct x as [sx|sx| |sx mx ex]; try destruct Fx; destruct y as [sy|sy| |sy my ey]; try destruct Fy; cbn [SFcompare].
  - exists Eq. split; reflexivity.
  - exists (if sy then Gt else Lt). split; [reflexivity|]. assert (P : 0 < IZR (Zpos my) * powerRZ 2 ey) by (apply Rmult_lt_0_compat; [apply IZR_lt; lia|apply p2_pos]).
    destruct sy; cbn [order fval sgn]; lra.
  - exists (if sx then Lt else Gt). split; [reflexivity|]. assert (P : 0 < IZR (Zpos mx) * powerRZ 2 ex) by (apply Rmult_lt_0_compat; [apply IZR_lt; lia|apply p2_pos]).
    destruct sx; cbn [order fval sgn]; lra.
  - eexists. split; [reflexivity|].
    assert (P : 0 < IZR (Zpos mx) * powerRZ 2 ex) by (apply Rmult_lt_0_compat; [apply IZR_lt; lia|apply p2_pos]).
    assert (Q : 0 < IZR (Zpos my) * powerRZ 2 ey) by (apply Rmult_lt_0_compat; [apply IZR_lt; lia|apply p2_pos]).
    apply valid_sign in Vx. apply valid_sign in Vy.
    assert (L : (ex < ey)%Z -> IZR (Zpos mx) * powerRZ 2 ex < IZR (Zpos my) * powerRZ 2 ey) by (intros; apply (pos_order mx ex my ey); assumption).
    assert (G : (ey < ex)%Z -> IZR (Zpos my) * powerRZ 2 ey < IZR (Zpos mx) * powerRZ 2 ex) by (intros; apply (pos_order my ey mx ex); assumption).
    destruct sx, sy; cbn [order fval sgn]; try lra.
    + destruct (Z.compare_spec ex ey) as [C|C|C]; cbn [order].
      * subst ey. fold (Pos.compare mx my). pose proof (p2_pos ex) as E. unfold p2 in E. destruct (Pos.compare_spec mx my) as [D|D|D]; cbn [CompOpp order].
        -- subst. reflexivity.
        -- assert (IZR (Zpos mx) < IZR (Zpos my)) by (apply IZR_lt; lia). nra.
        -- assert (IZR (Zpos my) < IZR (Zpos mx)) by (apply IZR_lt; lia). nra.
      * specialize (L C). lra.
      * specialize (G C). lra.
    + destruct (Z.compare_spec ex ey) as [C|C|C]; cbn [order].
      * subst ey. fold (Pos.compare mx my). pose proof (p2_pos ex) as E. unfold p2 in E. destruct (Pos.compare_spec mx my) as [D|D|D]; cbn [order].
        -- subst. reflexivity.
        -- assert (IZR (Zpos mx) < IZR (Zpos my)) by (apply IZR_lt; lia). nra.
        -- assert (IZR (Zpos my) < IZR (Zpos mx)) by (apply IZR_lt; lia). nra.
      * specialize (L C). lra.
      * specialize (G C). lra.
Qed.

Lemma ltb_spec : forall x y, ok x -> ok y -> SFltb x y = true <-> fval x < fval y.
Proof.
  intros x y Kx Ky. destruct (compare_spec x y Kx Ky) as [c [E O]]. unfold SFltb. rewrite E.
  destruct c; cbn [order] in O; split; intros H; try discriminate; try reflexivity; lra.
Qed.

Lemma leb_spec : forall x y, ok x -> ok y -> SFleb x y = true <-> fval x <= fval y.
Proof.
  intros x y Kx Ky. destruct (compare_spec x y Kx Ky) as [c [E O]]. unfold SFleb. rewrite E.
  destruct c; cbn [order] in O; split; intros H; try discriminate; try reflexivity; lra.
Qed.

Lemma eqb_spec : forall x y, ok x -> ok y -> SFeqb x y = true <-> fval x = fval y.
Proof.
  intros x y Kx Ky. destruct (compare_spec x y Kx Ky) as [c [E O]]. unfold SFeqb. rewrite E.
  destruct c; cbn [order] in O; split; intros H; try discriminate; try reflexivity; lra.
Qed.

(** ** Conversions to integers *)
Lemma rint_spec : forall x, ok x -> exists k, f64_toint rnd_even x = Some k /\ Rabs (IZR k - fval x) <= / 2.
Proof.
  intros x [V F]. destruct x as [s|s| |s m e]; try destruct F; cbn [f64_toint].
  - exists 0%Z. split; [reflexivity|]. cbn [fval]. rewrite Rminus_0_r, Rabs_R0. lra.
  - destruct (Z.leb_spec 0 e) as [L|L].
    + eexists. split; [reflexivity|]. rewrite cond_Zopp_IZR, mult_IZR, <- p2_Z by exact L. cbn [fval].
      change (powerRZ 2 e) with (p2 e). rewrite Rminus_diag_eq, Rabs_R0 by ring. lra.
    + eexists. split; [reflexivity|]. pose proof (rnd_even_spec (Zpos m) (2 ^ (- e))) as H.
      replace (rnd_even s (Zpos m) (2 ^ (- e))) with (cond_Zopp s (rnd_even false (Zpos m) (2 ^ (- e)))) by reflexivity.
      rewrite cond_Zopp_IZR. cbn [fval]. rewrite <- Rmult_minus_distr_l, sgn_abs.
      replace (IZR (Zpos m) * powerRZ 2 e) with (IZR (Zpos m) / IZR (2 ^ (- e))); [apply H; apply Z.pow_pos_nonneg; lia|].
      rewrite <- p2_Z by lia. change (powerRZ 2 e) with (p2 e). pose proof (p2_pos (- e)). apply Rmult_eq_reg_r with (p2 (- e)); [|lra].
      unfold Rdiv. rewrite !Rmult_assoc, Rinv_l, <- p2_add by lra. replace (e + - e)%Z with 0%Z by lia. unfold p2. simpl. ring.
Qed.

Lemma rint_exact : forall x k, ok x -> Rabs (fval x - IZR k) < / 2 -> f64_toint rnd_even x = Some k.
Proof.
  intros x k K H. destruct (rint_spec x K) as [j [E B]]. rewrite E. f_equal. rewrite <- Rabs_Ropp, Ropp_minus_distr in B.
  apply Rabs_def2 in H. apply Rabs_le_inv in B.
  assert (A1 : (j - k < 1)%Z) by (apply lt_IZR; rewrite minus_IZR; lra).
  assert (A2 : (-1 < j - k)%Z) by (apply lt_IZR; rewrite minus_IZR; lra). lia.
Qed.
