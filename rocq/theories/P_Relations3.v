(** Relations between different functions of the same trajectory. *)
From Coq Require Import Ascii String List ZArith Bool Arith Reals Lia Lra Psatz Sorting.Sorted Sorting.Permutation.
From Verif Require Import PyBase PyBaseFacts Num Spec_Stats NumFacts M_Helpers M_Correlation M_Dynamics M_KGrid M_Fourier M_Fkt Spec_BondAngle P_BondAngle
  Spec_KGrid P_KGrid2 P_KGrid4 Spec_Fourier Spec_Correlation P_Correlation Spec_Time P_Time P_Acf P_Helpers Spec_Dynamics Spec_Fkt P_Sk P_Sk2 P_Sk3 P_Tcf P_Fkt P_Fkt3
  P_Dynamics P_Dynamics2 P_Overlap P_Chi4 T_Fourier T_Fkt Spec_Relations P_Relations P_Relations2.
Import ListNotations.
Local Open Scope R_scope.

(** Two averages over the same pairs compare as their terms do. *)
Lemma rmean_affine : forall X (f h : X -> R) (al be : R) l, l <> [] ->
  (forall p, In p l -> al + be * f p <= h p) -> al + be * rmean (map f l) <= rmean (map h l).
Proof.
  intros X f h al be l Hl H. unfold rmean. rewrite !map_length. pose proof (INR_pos_length _ l Hl) as P.
  assert (al + be * (rsum (map f l) / INR (length l)) = rsum (map (fun p => al + be * f p) l) / INR (length l)) as ->.
  { rewrite (rsum_plus _ (fun _ => al) (fun p => be * f p)), rsum_const, rsum_scal. field. lra. }
  unfold Rdiv. apply Rmult_le_compat_r; [left; apply Rinv_0_lt_compat; exact P|]. apply rsum_le. exact H.
Qed.

Lemma grouped_affine : forall X (f h : X -> X -> R) t (x : list X) dflt ps dts (v w : list R) al be,
  grouped_mean (A:=Rops) f t x dflt ps dts v -> grouped_mean (A:=Rops) h t x dflt ps dts w -> in_range (length x) ps ->
  (forall a b, In a x -> In b x -> al + be * f a b <= h a b) ->
  forall k, (k < length v)%nat -> al + be * nth k v 0 <= nth k w 0.
Proof.
  intros X f h t x dflt ps dts v w al be G G' Hr H k Hk.
  assert (Lw : (k < length w)%nat).
  { rewrite (grouped_length _ _ _ _ _ _ _ _ G'). rewrite <- (grouped_length _ _ _ _ _ _ _ _ G). exact Hk. }
  rewrite (grouped_value _ _ _ _ _ _ _ _ k G Hk), (grouped_value _ _ _ _ _ _ _ _ k G' Lw).
  apply rmean_affine.
  - apply pairs_at_nonempty. apply (proj1 (proj2 G)). apply nth_In. rewrite <- (grouped_length _ _ _ _ _ _ _ _ G). exact Hk.
  - intros p Hp. apply filter_In in Hp. destruct (Hr p (proj1 Hp)). apply H; apply nth_In; lia.
Qed.

(** ** Markov: a particle that moved by more than a contributes more than a^2 *)
Lemma near_markov : forall a2 p, 0 < a2 -> 1 + - / a2 * dist2 (fst p) (snd p) <= near a2 p.
Proof.
  intros a2 p H. unfold near. pose proof (dist2_nonneg (fst p) (snd p)) as D. pose proof (Rinv_0_lt_compat _ H) as I.
  destruct (Rlt_dec (dist2 (fst p) (snd p)) a2) as [L|L]; [nra|].
  assert (1 <= / a2 * dist2 (fst p) (snd p)); [|lra].
  apply Rmult_le_reg_l with a2; [exact H|]. rewrite <- Rmult_assoc, Rinv_r by lra. lra.
Qed.

Lemma particle_affine : forall h h' al be x y, length x = length y -> x <> [] ->
  (forall p, al + be * h p <= h' p) -> al + be * particle_mean h x y <= particle_mean h' x y.
Proof.
  intros h h' al be x y L Hx H. unfold particle_mean. apply rmean_affine; [|intros; apply H].
  destruct x; [congruence|]. destruct y; [discriminate|]. discriminate.
Qed.

(** ** 1 - cos u <= u^2/2 *)
Lemma sin_abs_le : forall y, 0 <= y -> sin y * sin y <= y * y.
Proof.
  intros y [H|H].
  2: { subst y. rewrite sin_0. lra. }
  pose proof (Ratan.sin_lt_x y H) as U.
  assert (- y <= sin y).
  { destruct (Rle_lt_dec y PI) as [P|P].
    - pose proof (sin_ge_0 y ltac:(lra) P). lra.
    - pose proof PI_RGT_0. pose proof (SIN_bound y). pose proof PI2_1. unfold PI in *. lra. }
  nra.
Qed.

Lemma cos_quadratic : forall u, 1 + - / 2 * (u * u) <= cos u.
Proof.
  intros u. replace (cos u) with (cos (2 * (u / 2))) by (f_equal; field). rewrite cos_2a_sin.
  assert (Q : sin (u / 2) * sin (u / 2) <= u / 2 * (u / 2)).
  { destruct (Rle_lt_dec 0 (u / 2)) as [H|H]; [apply sin_abs_le; exact H|].
    pose proof (sin_abs_le (- (u / 2)) ltac:(lra)) as P. rewrite sin_neg in P. lra. }
  lra.
Qed.

Lemma cauchy : forall k r s, length r = length k -> length s = length k ->
  (dot k r - dot k s) * (dot k r - dot k s) <= dot k k * dist2 r s.
Proof.
  induction k as [|a k IH]; intros [|b r] [|c s] L L'; try discriminate.
  { cbn. lra. }
  specialize (IH r s ltac:(cbn in L; lia) ltac:(cbn in L'; lia)).
  change (dot (a :: k) (b :: r)) with (a * b + dot k r). change (dot (a :: k) (c :: s)) with (a * c + dot k s).
  change (dot (a :: k) (a :: k)) with (a * a + dot k k). cbn [dist2].
  set (A := dot k r - dot k s) in *. replace (a * b + dot k r - (a * c + dot k s)) with (a * (b - c) + A) by (unfold A; ring).
  set (B := b - c). set (D := dist2 r s) in *. set (Q := dot k k) in *.
  assert (0 <= D) by apply dist2_nonneg.
  assert (0 <= Q). { unfold Q. clear. induction k as [|z k I]; [cbn; lra|]. change (dot (z :: k) (z :: k)) with (z * z + dot k k). nra. }
  (* (aB + A)^2 <= (a^2 + Q)(B^2 + D), with A^2 <= Q D *)
  assert (2 * (a * B) * A <= a * a * D + Q * (B * B)).
  { destruct (Req_dec D 0) as [Z|Z].
    - rewrite Z in *. assert (A = 0) by nra. rewrite H1. nra.
    - assert (0 < D) by lra. 
      assert (0 <= (a * D - B * A) * (a * D - B * A)) by apply Rle_0_sqr.
      assert (A * A * (B * B) <= Q * D * (B * B)) by (apply Rmult_le_compat_r; [apply Rle_0_sqr|exact IH]).
      apply Rmult_le_reg_l with D; [exact H1|]. nra. }
  nra.
Qed.

(** F_s against the mean square displacement of two frames. *)
Lemma fs_pair_quadratic : forall k q x y, dot k k <= q -> length x = length y -> x <> [] ->
  (forall r, In r x -> length r = length k) -> (forall r, In r y -> length r = length k) ->
  1 + - (q / 2) * mean_over (fun d => d) x y <= fs_pair k x y.
Proof.
  intros k q x y Hq L Hx Dx Dy. unfold mean_over, fs_pair. apply rmean_affine.
  - destruct x; [congruence|]. destruct y; [discriminate|]. discriminate.
  - intros [r s] Hp. cbn [fst snd]. pose proof (cos_quadratic (dot k r - dot k s)) as C.
    pose proof (cauchy k r s (Dx r (in_combine_l _ _ _ _ Hp)) (Dy s (in_combine_r _ _ _ _ Hp))) as Q.
    pose proof (dist2_nonneg r s). assert (dot k k * dist2 r s <= q * dist2 r s) by (apply Rmult_le_compat_r; assumption). lra.
Qed.

Lemma fs_pair_le_1 : forall k x y, length x = length y -> x <> [] -> fs_pair k x y <= 1.
Proof.
  intros k x y L Hx. unfold fs_pair. apply rmean_le.
  - destruct x; [congruence|]. destruct y; [discriminate|]. discriminate.
  - intros v Hv. apply in_map_iff in Hv. destruct Hv as [p [<- _]]. apply COS_bound.
Qed.

Lemma pair_mean_prod : forall s steps ps vs d,
  pair_mean s steps ps vs d = rmean (map (fun q => s (fst q) (fst (snd q)) (snd (snd q))) (list_prod vs (pairs_at steps d ps))).
Proof.
  intros s steps ps vs d. unfold pair_mean. f_equal. induction vs as [|v vs IH]; [reflexivity|]. cbn [flat_map list_prod].
  rewrite map_app, map_map, IH. reflexivity.
Qed.

(** The mean over vectors of a constant is that constant. *)
Lemma pair_mean_const : forall (f : nat -> nat -> R) steps ps (vs : list (list R)) d, vs <> [] ->
  pair_mean (fun _ a b => f a b) steps ps vs d = rmean (map (fun p => f (fst p) (snd p)) (pairs_at steps d ps)).
Proof.
  intros f steps ps vs d Hv. unfold pair_mean, rmean. set (l := map (fun p => f (fst p) (snd p)) (pairs_at steps d ps)).
  assert (E1 : rsum (flat_map (fun _ : list R => l) vs) = INR (length vs) * rsum l).
  { induction vs as [|v vs IH]; [cbn; lra|]. cbn [flat_map length]. rewrite rsum_app, S_INR. destruct vs as [|w vs].
    - cbn. lra.
    - rewrite IH by discriminate. lra. }
  assert (E2 : length (flat_map (fun _ : list R => l) vs) = (length vs * length l)%nat).
  { clear. induction vs as [|v vs IH]; [reflexivity|]. cbn [flat_map length]. rewrite app_length, IH. lia. }
  rewrite E1, E2, mult_INR. destruct (Nat.eq_dec (length l) 0) as [Z|Z].
  - rewrite Z. cbn [INR]. rewrite Rmult_0_r. destruct l; [|discriminate]. cbn. unfold Rdiv. rewrite !Rmult_0_r, !Rmult_0_l. reflexivity.
  - field. split; apply not_0_INR; [exact Z|]. destruct vs; [congruence|cbn; lia].
Qed.

(** ** Variance of counts between 0 and N *)
Lemma variance_bhatia : forall (l : list R) N, l <> [] -> (forall x, In x l -> 0 <= x <= N) ->
  rmean (map (fun x => x * x) l) - rmean l * rmean l <= rmean l * (N - rmean l).
Proof.
  intros l N Hl H.
  assert (rmean (map (fun x => x * x) l) <= N * rmean l).
  { pose proof (rmean_affine _ (fun x => x * x) (fun x => N * x) 0 1 l Hl) as P. rewrite Rplus_0_l, Rmult_1_l in P.
    replace (N * rmean l) with (rmean (map (fun x => N * x) l)).
    - apply P. intros x Hx. specialize (H x Hx). nra.
    - unfold rmean. rewrite map_length. rewrite (rsum_scal R N (fun x => x)), map_id. unfold Rdiv. ring. }
  nra.
Qed.

Lemma count_le : forall a2 x y, (slow a2 x y <= length x)%nat.
Proof. exact slow_le. Qed.

(** ** Upper bound on the non-Gaussian parameter *)
Lemma sum_squares_le : forall l : list R, (forall x, In x l -> 0 <= x) -> rsum (map (fun x => x * x) l) <= rsum l * rsum l.
Proof.
  induction l as [|a l IH]; intros H; [cbn; lra|]. cbn [map rsum].
  pose proof (rsum_nonneg l ltac:(intros; apply H; right; assumption)). pose proof (H a (or_introl eq_refl)).
  specialize (IH ltac:(intros; apply H; right; assumption)). nra.
Qed.

Lemma non_gaussian_upper : forall x y, length x = length y -> x <> [] -> mean_over (fun d => d) x y <> 0 ->
  non_gaussian x y <= 3 * INR (length x) / 5 - 1.
Proof.
  intros x y L Hx H0. unfold non_gaussian.
  set (l := map (fun p => dist2 (fst p) (snd p)) (combine x y)).
  assert (Ll : length l = length x) by (unfold l; rewrite map_length, combine_length; lia).
  assert (P : 0 < INR (length x)) by (apply INR_pos_length; exact Hx).
  assert (E1 : mean_over (fun d => d) x y = rsum l / INR (length x)).
  { unfold mean_over, rmean. fold l. rewrite Ll. reflexivity. }
  assert (E2 : mean_over (fun d => d * d) x y = rsum (map (fun d => d * d) l) / INR (length x)).
  { unfold mean_over, rmean. unfold l. rewrite map_map, map_length. rewrite <- Ll. unfold l. rewrite map_length. reflexivity. }
  assert (N0 : forall d, In d l -> 0 <= d).
  { intros d Hd. apply in_map_iff in Hd. destruct Hd as [p [<- _]]. apply dist2_nonneg. }
  pose proof (sum_squares_le l N0) as Q. rewrite E1 in H0. rewrite E1, E2.
  assert (S0 : rsum l <> 0). { intros E. apply H0. rewrite E. unfold Rdiv. ring. }
  assert (S1 : 0 < rsum l * rsum l). { apply Rsqr_pos_lt in S0. exact S0. }
  set (s := rsum l) in *. set (q := rsum (map (fun d => d * d) l)) in *. set (N := INR (length x)) in *.
  assert (3 * (q / N) / (5 * (s / N * (s / N))) = 3 * N / 5 * (q / (s * s))) as -> by (field; repeat split; lra).
  assert (q / (s * s) <= 1).
  { apply Rmult_le_reg_r with (s * s); [exact S1|]. unfold Rdiv. rewrite Rmult_assoc, Rinv_l by lra. lra. }
  assert (0 < 3 * N / 5) by lra. nra.
Qed.

(** ** One particle: collective and self functions coincide *)
Lemma single_particle : forall k r s, density_cross k [r] [s] = fs_pair k [r] [s].
Proof.
  intros k r s. unfold density_cross, fs_pair, rmean. rewrite !rho_re_unit, !rho_im_unit. cbn.
  rewrite cos_minus. field.
Qed.
