(** Symmetries of the dynamic correlation functions. *)
From Coq Require Import Ascii String List ZArith Bool Arith Reals Lia Lra Sorting.Sorted Sorting.Permutation.
From Verif Require Import PyBase PyBaseFacts Num Spec_Stats NumFacts M_Helpers M_Correlation M_Dynamics
  Spec_Correlation P_Correlation Spec_Time P_Time P_Skip Spec_Dynamics P_Dynamics P_Dynamics2 P_Overlap P_Chi4 Spec_Symmetry.
Import ListNotations.
Local Open Scope nat_scope.

(** ** Transformations of the frames that keep the kernels *)
Section Maps.
Variable A : arith.
Variable T : frame A -> frame A.

Lemma msd_compute_map : forall (tr : traj A) grid rmax ts n no (frames : list (frame A)),
  length (t_steps tr) = length frames ->
  (forall x y, In x frames -> In y frames -> msd A (T x) (T y) = msd A x y) ->
  msd_compute A tr grid rmax ts n no (map T frames) = msd_compute A tr grid rmax ts n no frames.
Proof.
  intros tr grid rmax ts n no frames Hl H. unfold msd_compute.
  destruct (adjust_skip A _ _ _ n) as [skip|]; cbn [bind]; [|reflexivity].
  assert (msd_grid A tr grid rmax ts (map T frames) = msd_grid A tr grid rmax ts frames) as ->.
  { unfold msd_grid. destruct grid as [g|]; [reflexivity|].
    destruct (nlt A (n0 A) rmax); [|reflexivity].
    rewrite getZ_map, get_map.
    destruct (getZ frames (-1)) as [l|] eqn:E1; cbn [bind]; [|reflexivity].
    destruct (get frames 0) as [f0|] eqn:E2; cbn [bind]; [|reflexivity].
    rewrite H; [reflexivity|eapply getZ_In; eauto|eapply get_In; eauto]. }
  destruct (msd_grid A tr grid rmax ts frames) as [g|]; cbn [bind]; [|reflexivity].
  destruct (setup_t_grid A _ _ _ g _) as [dg|]; cbn [bind]; [|reflexivity].
  apply (offset_compute_ext A _ _ (msd A) (msd A) tr dg skip _ _ [] []).
  - apply map_length.
  - rewrite map_length. exact Hl.
  - intros i j Hi Hj. rewrite map_length in Hi, Hj.
    rewrite !(nth_map_lt _ _ T _ _ _ []) by assumption. apply H; apply nth_In; assumption.
Qed.

Lemma grid_compute_ext : forall X Y (f : X -> X -> num A) (g : Y -> Y -> num A) (tr : traj A) grid n
    (x : list X) (y : list Y) dx dy,
  length x = length y -> length (t_steps tr) = length x ->
  (forall i j, i < length x -> j < length x -> f (nth i x dx) (nth j x dx) = g (nth i y dy) (nth j y dy)) ->
  grid_compute A f tr grid n x = grid_compute A g tr grid n y.
Proof.
  intros X Y f g tr grid n x y dx dy H1 H2 H. unfold grid_compute.
  destruct (adjust_skip A _ _ _ n) as [skip|]; cbn [bind]; [|reflexivity].
  destruct (setup_t_grid A _ _ _ grid _) as [dg|]; cbn [bind]; [|reflexivity].
  eapply offset_compute_ext; eassumption.
Qed.

Lemma grid_compute_map : forall (f g : frame A -> frame A -> num A) (tr : traj A) grid n (x : list (frame A)),
  length (t_steps tr) = length x ->
  (forall a b, In a x -> In b x -> f (T a) (T b) = g a b) ->
  grid_compute A f tr grid n (map T x) = grid_compute A g tr grid n x.
Proof.
  intros f g tr grid n x Hl H. apply (grid_compute_ext _ _ f g tr grid n (map T x) x [] []).
  - apply map_length.
  - rewrite map_length. exact Hl.
  - intros i j Hi Hj. rewrite map_length in Hi, Hj.
    rewrite !(nth_map_lt _ _ T _ _ _ []) by assumption. apply H; apply nth_In; assumption.
Qed.

Lemma with_id_nth : forall (x : list (frame A)) i, i < length x -> nth i (with_id A x) (0, []) = (i, nth i x []).
Proof.
  intros x i H. unfold with_id. rewrite combine_nth by apply seq_length. rewrite seq_nth by exact H. reflexivity.
Qed.
Lemma with_id_length : forall (x : list (frame A)), length (with_id A x) = length x.
Proof. intros. unfold with_id. rewrite combine_length, seq_length. lia. Qed.

Lemma alpha2_compute_map : forall (tr : traj A) grid n (x : list (frame A)),
  length (t_steps tr) = length x ->
  (forall i j a b, In a x -> In b x -> alpha_2 A (i, T a) (j, T b) = alpha_2 A (i, a) (j, b)) ->
  alpha2_compute A tr grid n (map T x) = alpha2_compute A tr grid n x.
Proof.
  intros tr grid n x Hl H. unfold alpha2_compute.
  apply (grid_compute_ext _ _ _ _ _ _ _ _ _ (0, []) (0, [])).
  - rewrite !with_id_length. apply map_length.
  - rewrite with_id_length, map_length. exact Hl.
  - intros i j Hi Hj. rewrite with_id_length, map_length in Hi, Hj.
    rewrite !with_id_nth by (rewrite ?map_length; assumption).
    rewrite !(nth_map_lt _ _ T _ _ _ []) by assumption. apply H; apply nth_In; assumption.
Qed.

Lemma foldM_ext : forall S X (f g : S -> X -> res S) l s, (forall s x, In x l -> f s x = g s x) -> foldM f s l = foldM g s l.
Proof.
  induction l as [|x l IH]; intros s H; [reflexivity|]. cbn [foldM]. rewrite (H s x (or_introl eq_refl)).
  destruct (g s x); cbn [bind]; [|reflexivity]. apply IH. intros. apply H. right. assumption.
Qed.
Lemma mapM_ext : forall X Y (f g : X -> res Y) l, (forall x, In x l -> f x = g x) -> mapM f l = mapM g l.
Proof.
  induction l as [|x l IH]; intros H; [reflexivity|]. cbn [mapM]. rewrite (H x (or_introl eq_refl)).
  rewrite IH; [reflexivity|]. intros. apply H. right. assumption.
Qed.

Lemma chi4_compute_map : forall (tr : traj A) grid n a a' (x : list (frame A)),
  (forall u v, In u x -> In v x -> self_count A (nsq A a') (T u) (T v) = self_count A (nsq A a) u v) ->
  (forall u, In u x -> length (T u) = length u) ->
  chi4_compute A tr grid n a' (map T x) = chi4_compute A tr grid n a x.
Proof.
  intros tr grid n a a' x H Hn. unfold chi4_compute.
  destruct (adjust_skip A _ _ _ n) as [skip|]; cbn [bind]; [|reflexivity].
  destruct (setup_t_grid A _ _ _ grid _) as [dg|]; cbn [bind]; [|reflexivity].
  apply mapM_ext. intros p _. unfold chi4_point.
  assert (chi4_sums A (nsq A a') skip (map T x) p = chi4_sums A (nsq A a) skip x p) as ->.
  { unfold chi4_sums. rewrite map_length. destruct (py_range _ _ _); cbn [bind]; [|reflexivity].
    apply foldM_ext. intros st i0 _. rewrite !get_map.
    destruct (get x i0) as [u|] eqn:E1; cbn [bind]; [|reflexivity].
    destruct (get x (i0 + snd p)) as [v|] eqn:E2; cbn [bind]; [|reflexivity].
    rewrite H; [reflexivity|eapply get_In; eauto|eapply get_In; eauto]. }
  destruct (chi4_sums A _ skip x p) as [s|]; cbn [bind]; [|reflexivity].
  rewrite get_map.
  destruct (get (t_steps tr) (fst p + snd p)) as [ta|]; cbn [bind]; [|reflexivity].
  destruct (get (t_steps tr) (fst p)) as [tb|]; cbn [bind]; [|reflexivity].
  destruct (get x 0) as [x0|] eqn:E; cbn [bind]; [|reflexivity].
  rewrite Hn by (eapply get_In; eauto). reflexivity.
Qed.

Lemma vacf_compute_map : forall (tr : traj A) g n (x : list (frame A)),
  length (t_steps tr) = length x ->
  (forall u v, In u x -> In v x -> vacf_f A (T u) (T v) = vacf_f A u v) ->
  vacf_compute A tr g n (map T x) = vacf_compute A tr g n x.
Proof.
  intros tr g n x Hl H. unfold vacf_compute.
  destruct (adjust_skip A _ _ _ n) as [skip|]; cbn [bind]; [|reflexivity].
  destruct g as [g|]; [|reflexivity].
  destruct (setup_t_grid A _ _ _ g _) as [dg|]; cbn [bind]; [|reflexivity].
  apply (offset_compute_ext A _ _ (vacf_f A) (vacf_f A) tr dg (t_bs tr) _ _ [] []).
  - apply map_length.
  - rewrite map_length. exact Hl.
  - intros i j Hi Hj. rewrite map_length in Hi, Hj.
    rewrite !(nth_map_lt _ _ T _ _ _ []) by assumption. apply H; apply nth_In; assumption.
Qed.
End Maps.

(** ** Relabelling *)
Lemma combine_seq : forall X (x y : list X) d, length x = length y ->
  combine x y = map (fun i => (nth i x d, nth i y d)) (seq 0 (length x)).
Proof.
  induction x as [|a x IH]; intros [|b y] d H; try discriminate; [reflexivity|].
  cbn [length seq map combine nth]. f_equal. rewrite (IH y d) by (cbn in H; lia).
  rewrite <- seq_shift, map_map. reflexivity.
Qed.

Lemma relabel_combine : forall X sigma N (x y : list (list X)),
  Permutation sigma (seq 0 N) -> length x = N -> length y = N ->
  Permutation (combine (relabel sigma x) (relabel sigma y)) (combine x y).
Proof.
  intros X sigma N x y Hp Hx Hy. unfold relabel. rewrite combine_map_map.
  rewrite (combine_seq _ x y []) by congruence. rewrite Hx. apply Permutation_map. exact Hp.
Qed.

Lemma relabel_length : forall X sigma N (x : list (list X)), Permutation sigma (seq 0 N) -> length x = N ->
  length (relabel sigma x) = length x.
Proof. intros X s N x Hp Hx. unfold relabel. rewrite map_length, (Permutation_length Hp), seq_length. congruence. Qed.

Lemma self_count_relabel : forall A a2 sigma N (x y : frame A), Permutation sigma (seq 0 N) -> length x = N -> length y = N ->
  self_count A a2 (relabel sigma x) (relabel sigma y) = self_count A a2 x y.
Proof.
  intros. unfold self_count. apply Permutation_length, filter_perm. eapply relabel_combine; eauto.
Qed.

Local Open Scope R_scope.
Lemma mean_over_perm : forall f (x y x' y' : list (list R)),
  Permutation (combine x' y') (combine x y) -> mean_over f x' y' = mean_over f x y.
Proof.
  intros f x y x' y' H. unfold mean_over, rmean. rewrite !map_length, (Permutation_length H).
  f_equal. apply rsum_perm. apply Permutation_map. exact H.
Qed.

Lemma alpha_2_R : forall i j (x y : list (list R)), length x = length y ->
  alpha_2 Rops (i, x) (j, y) = if (i =? j)%nat then 0 else non_gaussian x y.
Proof.
  intros i j x y Hl. unfold alpha_2. cbn [fst snd]. destruct (i =? j)%nat; [reflexivity|].
  rewrite msd_R by exact Hl. unfold non_gaussian. cbn [nsub ndiv nmul nofZ n1 Rops]. unfold nsq. cbn [nmul Rops].
  repeat f_equal. unfold mean_over at 1, rmean. rewrite nsum_R, nofnat_R, !map_map, map_length, combine_length, <- Hl, Nat.min_id.
  f_equal. apply rsum_ext. intros p _. cbn [nmul Rops]. rewrite sqdist_R. reflexivity.
Qed.

Lemma non_gaussian_ext : forall x y x' y', (forall f, mean_over f x' y' = mean_over f x y) -> non_gaussian x' y' = non_gaussian x y.
Proof. intros x y x' y' H. unfold non_gaussian. rewrite !H. reflexivity. Qed.

Section Relabel.
Variable sigma : list nat.
Variable N : nat.
Hypothesis Hs : Permutation sigma (seq 0 N).

Lemma msd_relabel : forall (tr : traj Rops) grid rmax ts n no (frames : list (list (list R))),
  length (t_steps tr) = length frames -> (forall x, In x frames -> length x = N) ->
  msd_compute Rops tr grid rmax ts n no (map (relabel sigma) frames) = msd_compute Rops tr grid rmax ts n no frames.
Proof.
  intros tr grid rmax ts n no frames Hl HN. apply (msd_compute_map Rops (relabel sigma)); [exact Hl|].
  intros x y Hx Hy. specialize (HN x Hx) as Nx. specialize (HN y Hy) as Ny.
  rewrite !msd_R; [|congruence|rewrite !(relabel_length _ _ N); congruence].
  apply mean_over_perm. apply (relabel_combine _ _ N); assumption.
Qed.

Lemma alpha2_relabel : forall (tr : traj Rops) grid n (frames : list (list (list R))),
  length (t_steps tr) = length frames -> (forall x, In x frames -> length x = N) ->
  alpha2_compute Rops tr grid n (map (relabel sigma) frames) = alpha2_compute Rops tr grid n frames.
Proof.
  intros tr grid n frames Hl HN. apply (alpha2_compute_map Rops (relabel sigma)); [exact Hl|].
  intros i j x y Hx Hy. specialize (HN x Hx) as Nx. specialize (HN y Hy) as Ny.
  rewrite !alpha_2_R; [|congruence|rewrite !(relabel_length _ _ N); congruence].
  destruct (i =? j)%nat; [reflexivity|]. apply non_gaussian_ext. intros f.
  apply mean_over_perm. apply (relabel_combine _ _ N); assumption.
Qed.

Lemma vacf_relabel : forall (tr : traj Rops) g n (frames : list (list (list R))),
  length (t_steps tr) = length frames -> (forall x, In x frames -> length x = N) ->
  vacf_compute Rops tr g n (map (relabel sigma) frames) = vacf_compute Rops tr g n frames.
Proof.
  intros tr g n frames Hl HN. apply (vacf_compute_map Rops (relabel sigma)); [exact Hl|].
  intros x y Hx Hy. specialize (HN x Hx) as Nx. specialize (HN y Hy) as Ny.
  rewrite !vacf_f_R; [|congruence|rewrite !(relabel_length _ _ N); congruence].
  flatR. unfold rmean. pose proof (relabel_combine _ _ N x y Hs Nx Ny) as P.
  rewrite !map_length, (Permutation_length P). f_equal. apply rsum_perm, Permutation_map, P.
Qed.

Lemma self_overlap_relabel : forall A (tr : traj A) grid n a (frames : list (frame A)),
  length (t_steps tr) = length frames -> (forall x, In x frames -> length x = N) ->
  self_overlap_compute A tr grid n a (map (relabel sigma) frames) = self_overlap_compute A tr grid n a frames.
Proof.
  intros A tr grid n a frames Hl HN. unfold self_overlap_compute. apply (grid_compute_map A (relabel sigma)); [exact Hl|].
  intros x y Hx Hy. unfold self_overlap_f. rewrite (self_count_relabel _ _ _ N); auto.
  rewrite (relabel_length _ _ N); auto.
Qed.

Lemma chi4_relabel : forall A (tr : traj A) grid n a (frames : list (frame A)),
  (forall x, In x frames -> length x = N) ->
  chi4_compute A tr grid n a (map (relabel sigma) frames) = chi4_compute A tr grid n a frames.
Proof.
  intros A tr grid n a frames HN. apply (chi4_compute_map A (relabel sigma)).
  - intros u v Hu Hv. apply (self_count_relabel _ _ _ N); auto.
  - intros u Hu. apply (relabel_length _ _ N); auto.
Qed.
End Relabel.

(** Collective overlap: any relabelling in each frame. *)
Lemma prod_perm_both : forall X (x x' y y' : list X), Permutation x x' -> Permutation y y' ->
  Permutation (flat_map (fun yi => map (fun xj => (xj, yi)) x) y) (flat_map (fun yi => map (fun xj => (xj, yi)) x') y').
Proof.
  intros X x x' y y' Hx Hy. transitivity (flat_map (fun yi => map (fun xj => (xj, yi)) x) y').
  - apply Permutation_flat_map. exact Hy.
  - clear Hy. induction y' as [|b y0 IH]; [constructor|]. cbn [flat_map]. apply Permutation_app; [apply Permutation_map; exact Hx|exact IH].
Qed.

Lemma coll_overlap_relabel : forall A (tr : traj A) grid n a (frames frames' : list (frame A)),
  length (t_steps tr) = length frames -> Forall2 (@Permutation (list (num A))) frames frames' ->
  coll_overlap_compute A tr grid n a frames' = coll_overlap_compute A tr grid n a frames.
Proof.
  intros A tr grid n a frames frames' Hl H. unfold coll_overlap_compute.
  assert (length frames' = length frames) as E by (clear - H; induction H; cbn; congruence).
  assert (forall i, (i < length frames)%nat -> Permutation (nth i frames' []) (nth i frames [])) as P.
  { clear Hl E. induction H as [|u v l l' Huv Hll IH]; intros i Hi; [cbn in Hi; lia|].
    destruct i; cbn [nth]; [symmetry; exact Huv|]. apply IH. cbn in Hi. lia. }
  apply (grid_compute_ext A _ _ _ _ tr grid n frames' frames [] []); [exact E|congruence|].
  intros i j Hi Hj. rewrite E in Hi, Hj. unfold coll_overlap_f, coll_count.
  rewrite (Permutation_length (P i Hi)). do 2 f_equal. apply Permutation_length, filter_perm, prod_perm_both; apply P; assumption.
Qed.

(** ** Isometries *)
Section Isometry.
Variable iso : list R -> list R.
Variable inside : list R -> Prop.
Hypothesis Hiso : forall r s, inside r -> inside s -> dist2 (iso r) (iso s) = dist2 r s.

Lemma combine_in : forall X (x y : list X) p, In p (combine x y) -> In (fst p) x /\ In (snd p) y.
Proof. intros X x y [a b] H. split; [eapply in_combine_l|eapply in_combine_r]; eauto. Qed.

Lemma mean_over_iso : forall f x y, (forall r, In r x -> inside r) -> (forall r, In r y -> inside r) ->
  mean_over f (map iso x) (map iso y) = mean_over f x y.
Proof.
  intros f x y Hx Hy. unfold mean_over. rewrite combine_map_both, map_map. f_equal. apply map_ext_in.
  intros p Hp. apply combine_in in Hp. cbn [fst snd]. rewrite Hiso; [reflexivity|apply Hx|apply Hy]; tauto.
Qed.

Lemma slow_iso : forall a2 x y, (forall r, In r x -> inside r) -> (forall r, In r y -> inside r) ->
  slow a2 (map iso x) (map iso y) = slow a2 x y.
Proof.
  intros a2 x y Hx Hy. unfold slow. rewrite combine_map_both.
  assert (forall l, (forall p, In p l -> inside (fst p) /\ inside (snd p)) ->
    length (filter (fun p : list R * list R => if Rlt_dec (dist2 (fst p) (snd p)) a2 then true else false)
                   (map (fun p => (iso (fst p), iso (snd p))) l))
    = length (filter (fun p : list R * list R => if Rlt_dec (dist2 (fst p) (snd p)) a2 then true else false) l)) as H.
  { induction l as [|p l IH]; intros Hl; [reflexivity|]. cbn [map filter fst snd].
    destruct (Hl p (or_introl eq_refl)) as [H1 H2]. rewrite (Hiso _ _ H1 H2).
    destruct (Rlt_dec _ _); cbn [length]; rewrite IH; auto; intros q Hq; apply Hl; right; exact Hq. }
  apply H. intros p Hp. apply combine_in in Hp. split; [apply Hx|apply Hy]; tauto.
Qed.

Variable frames : list (list (list R)).
Variable N : nat.
Hypothesis HN : forall x, In x frames -> length x = N.
Hypothesis Hin : forall x r, In x frames -> In r x -> inside r.

Lemma msd_iso : forall (tr : traj Rops) grid rmax ts n no, length (t_steps tr) = length frames ->
  msd_compute Rops tr grid rmax ts n no (map (map iso) frames) = msd_compute Rops tr grid rmax ts n no frames.
Proof.
  intros tr grid rmax ts n no Hl. apply (msd_compute_map Rops (map iso)); [exact Hl|].
  intros x y Hx Hy. specialize (HN x Hx) as Nx. specialize (HN y Hy) as Ny. flatR.
  rewrite !msd_R; [|congruence|rewrite !map_length; congruence].
  apply mean_over_iso; eauto.
Qed.
Lemma alpha2_iso : forall (tr : traj Rops) grid n, length (t_steps tr) = length frames ->
  alpha2_compute Rops tr grid n (map (map iso) frames) = alpha2_compute Rops tr grid n frames.
Proof.
  intros tr grid n Hl. apply (alpha2_compute_map Rops (map iso)); [exact Hl|].
  intros i j x y Hx Hy. specialize (HN x Hx) as Nx. specialize (HN y Hy) as Ny. flatR.
  rewrite !alpha_2_R; [|congruence|rewrite !map_length; congruence].
  destruct (i =? j)%nat; [reflexivity|]. apply non_gaussian_ext. intros f. apply mean_over_iso; eauto.
Qed.
Lemma self_overlap_iso : forall (tr : traj Rops) grid n a, length (t_steps tr) = length frames ->
  self_overlap_compute Rops tr grid n a (map (map iso) frames) = self_overlap_compute Rops tr grid n a frames.
Proof.
  intros tr grid n a Hl. unfold self_overlap_compute. apply (grid_compute_map Rops (map iso)); [exact Hl|].
  intros x y Hx Hy. unfold self_overlap_f. flatR. rewrite !self_count_slow, slow_iso by eauto. rewrite map_length. reflexivity.
Qed.
Lemma chi4_iso : forall (tr : traj Rops) grid n a,
  chi4_compute Rops tr grid n a (map (map iso) frames) = chi4_compute Rops tr grid n a frames.
Proof.
  intros tr grid n a. apply (chi4_compute_map Rops (map iso)).
  - intros u v Hu Hv. flatR. rewrite !self_count_slow. apply slow_iso; eauto.
  - intros u Hu. apply map_length.
Qed.
End Isometry.

(** ** Units of length *)
Lemma dist2_scale : forall c r s, dist2 (timesv c r) (timesv c s) = c * c * dist2 r s.
Proof.
  intros c. unfold timesv. induction r as [|a r IH]; intros [|b s]; cbn [map dist2]; try ring. rewrite IH. ring.
Qed.
Lemma dotv_scale : forall c r s, dotv (timesv c r) (timesv c s) = c * c * dotv r s.
Proof.
  intros c. unfold timesv. induction r as [|a r IH]; intros [|b s]; cbn [map dotv]; try ring. rewrite IH. ring.
Qed.

Lemma rmean_scale : forall X (f : X -> R) k l, rmean (map (fun x => k * f x) l) = k * rmean (map f l).
Proof.
  intros. unfold rmean. rewrite !map_length. unfold Rdiv. rewrite <- Rmult_assoc. f_equal.
  induction l as [|x l IH]; cbn; [ring|]. rewrite IH. ring.
Qed.

Lemma mean_over_scale : forall c f x y,
  mean_over f (map (timesv c) x) (map (timesv c) y) = mean_over (fun d => f (c * c * d)) x y.
Proof.
  intros c f x y. unfold mean_over. rewrite combine_map_both, map_map. f_equal. apply map_ext. intros p. cbn [fst snd].
  rewrite dist2_scale. reflexivity.
Qed.

Lemma msd_scale : forall c (x y : list (list R)), length x = length y ->
  msd Rops (map (timesv c) x) (map (timesv c) y) = c * c * msd Rops x y.
Proof.
  intros c x y H. rewrite !msd_R; [|exact H|rewrite !map_length; exact H].
  rewrite mean_over_scale. unfold mean_over. apply (rmean_scale _ (fun p => dist2 (fst p) (snd p))).
Qed.

Lemma non_gaussian_scale : forall c x y, c <> 0 -> non_gaussian (map (timesv c) x) (map (timesv c) y) = non_gaussian x y.
Proof.
  intros c x y Hc. unfold non_gaussian. rewrite !mean_over_scale. f_equal.
  assert (mean_over (fun d => c * c * d) x y = c * c * mean_over (fun d => d) x y) as ->.
  { unfold mean_over. apply (rmean_scale _ (fun p => dist2 (fst p) (snd p))). }
  assert (mean_over (fun d => c * c * d * (c * c * d)) x y = (c * c * c * c) * mean_over (fun d => d * d) x y) as ->.
  { unfold mean_over. rewrite <- rmean_scale. f_equal. apply map_ext. intros p. ring. }
  set (a := mean_over (fun d => d) x y). set (b := mean_over (fun d => d * d) x y).
  destruct (Req_dec a 0) as [->|Ha].
  - unfold Rdiv. rewrite !Rmult_0_r, !Rinv_0, !Rmult_0_r. reflexivity.
  - field. repeat split; assumption.
Qed.

Lemma slow_scale : forall c a x y, c <> 0 ->
  slow (c * a * (c * a)) (map (timesv c) x) (map (timesv c) y) = slow (a * a) x y.
Proof.
  intros c a x y Hc. unfold slow. rewrite combine_map_both.
  induction (combine x y) as [|p l IH]; [reflexivity|]. cbn [map filter fst snd]. rewrite dist2_scale.
  assert (0 < c * c) by nra.
  destruct (Rlt_dec (c * c * dist2 (fst p) (snd p)) (c * a * (c * a))), (Rlt_dec (dist2 (fst p) (snd p)) (a * a));
    cbn [length]; rewrite ?IH; auto; exfalso.
  - apply n. apply Rmult_lt_reg_l with (c * c); [assumption|]. lra.
  - apply n. replace (c * a * (c * a)) with (c * c * (a * a)) by ring. apply Rmult_lt_compat_l; assumption.
Qed.

Lemma offset_compute_scale : forall X Y (f : X -> X -> R) (g : Y -> Y -> R) (tr : traj Rops) dg skip (x : list X) (y : list Y) dx dy k gr v,
  length x = length y -> length (t_steps tr) = length x ->
  (forall i j, (i < length x)%nat -> (j < length x)%nat -> g (nth i y dy) (nth j y dy) = k * f (nth i x dx) (nth j x dx)) ->
  offset_compute Rops f tr dg skip x = Ok (gr, v) ->
  offset_compute Rops g tr dg skip y = Ok (gr, map (Rmult k) v).
Proof.
  intros X Y f g tr dg skip x y dx dy k gr v Hxy Hl H E.
  destruct (Nat.eq_dec skip 0) as [->|Hs].
  { unfold offset_compute in *. apply bind_Ok_inv in E. destruct E as [r [E1 E2]].
    pose proof (gcf_offset_skip0 _ _ _ _ _ _ _ E1) as ->. cbn in *. apply Ok_inj in E1. subst r. cbn in E2.
    apply Ok_inj in E2. injection E2 as <- <-. reflexivity. }
  destruct (offset_compute_spec Rops X f tr dg skip x dx gr v Hl E) as [dts [Eg [G1 [G2 G3]]]].
  destruct (gcf_offset_correct Rops Y g (t_steps tr) y dy ltac:(congruence) dg skip ltac:(lia)) as [dt' [v' [E' [G1' [G2' G3']]]]].
  unfold offset_compute. rewrite E'. cbn [bind fst snd].
  assert (dt' = dts) as ->.
  { apply sorted_lt_irr_ext; [assumption|assumption|]. intros d. rewrite G2, G2', Hxy. tauto. }
  rewrite <- Eg. do 2 f_equal. rewrite G3', G3, map_map. apply map_ext. intros d.
  rewrite !nmean_R, <- Hxy.
  transitivity (rmean (map (fun p => k * pair_val (A:=Rops) f x dx p) (pairs_at (t_steps tr) d (admitted dg skip (length x))))).
  - unfold rmean. rewrite !map_length. f_equal. apply rsum_ext.
    intros p Hp. apply filter_In in Hp. destruct Hp as [Hp _]. apply admitted_range in Hp.
    unfold pair_val. apply H; lia.
  - apply (rmean_scale _ (pair_val (A:=Rops) f x dx)).
Qed.

Section Scale.
Variable c : R.
Hypothesis Hc : 0 < c.
Variable frames : list (list (list R)).
Variable N : nat.
Hypothesis HN : forall x, In x frames -> length x = N.

Lemma msd_compute_scale : forall (tr : traj Rops) grid rmax ts n no g v, length (t_steps tr) = length frames ->
  msd_compute Rops tr grid rmax ts n no frames = Ok (g, v) ->
  msd_compute Rops tr grid (c * rmax) ts n no (map (map (timesv c)) frames) = Ok (g, map (Rmult (c * c)) v).
Proof.
  intros tr grid rmax ts n no g v Hl H. unfold msd_compute in *. flatR.
  apply bind_Ok_inv in H. destruct H as [skip [-> H]]. cbn [bind].
  assert (msd_grid Rops tr grid (c * rmax) ts (map (map (timesv c)) frames) = msd_grid Rops tr grid rmax ts frames) as ->.
  { unfold msd_grid. destruct grid as [g0|]; [reflexivity|]. cbn [nlt n0 Rops].
    assert (Rltb 0 (c * rmax) = Rltb 0 rmax) as ->.
    { unfold Rltb. destruct (Rlt_dec 0 (c * rmax)), (Rlt_dec 0 rmax); try reflexivity; exfalso; [|nra].
      apply n0. apply Rmult_lt_reg_l with c; lra. }
    destruct (Rltb 0 rmax); [|reflexivity]. flatR. rewrite getZ_map, get_map.
    destruct (getZ frames (-1)) as [l|] eqn:E1; cbn [bind]; [|reflexivity].
    destruct (get frames 0) as [f0|] eqn:E2; cbn [bind]; [|reflexivity].
    apply getZ_In in E1. apply get_In in E2. apply HN in E1. apply HN in E2.
    rewrite msd_scale by (flatR; congruence).
    assert (ndiv Rops (nsq Rops (c * rmax)) (c * c * msd Rops l f0) = ndiv Rops (nsq Rops rmax) (msd Rops l f0)) as ->; [|reflexivity].
    unfold nsq. cbn [ndiv nmul Rops]. set (m := msd Rops l f0). change (num Rops) with R in m.
    clearbody m. match goal with |- @eq _ ?a ?b => change (@eq R a b) end.
    destruct (Req_dec m 0) as [->|Hm]; [unfold Rdiv; rewrite Rmult_0_r, Rinv_0, !Rmult_0_r; reflexivity|]. field. split; lra. }
  apply bind_Ok_inv in H. destruct H as [gr [-> H]]. cbn [bind].
  apply bind_Ok_inv in H. destruct H as [dg [-> H]]. cbn [bind].
  apply (offset_compute_scale _ _ (msd Rops) (msd Rops) tr dg skip frames _ [] [] (c * c) g v); [symmetry; apply map_length|exact Hl| |exact H].
  intros i j Hi Hj. rewrite !(nth_map_lt _ _ _ _ _ _ []) by assumption.
  apply msd_scale. rewrite !HN by (apply nth_In; assumption). reflexivity.
Qed.

Lemma alpha2_scale : forall (tr : traj Rops) grid n, length (t_steps tr) = length frames ->
  alpha2_compute Rops tr grid n (map (map (timesv c)) frames) = alpha2_compute Rops tr grid n frames.
Proof.
  intros tr grid n Hl. apply (alpha2_compute_map Rops (map (timesv c))); [exact Hl|].
  intros i j x y Hx Hy. specialize (HN x Hx) as Nx. specialize (HN y Hy) as Ny. flatR.
  rewrite !alpha_2_R; [|congruence|rewrite !map_length; congruence].
  destruct (i =? j)%nat; [reflexivity|]. apply non_gaussian_scale. lra.
Qed.

Lemma self_overlap_scale : forall (tr : traj Rops) grid n a, length (t_steps tr) = length frames ->
  self_overlap_compute Rops tr grid n (c * a) (map (map (timesv c)) frames) = self_overlap_compute Rops tr grid n a frames.
Proof.
  intros tr grid n a Hl. unfold self_overlap_compute. apply (grid_compute_map Rops (map (timesv c))); [exact Hl|].
  intros x y Hx Hy. unfold self_overlap_f, nsq. flatR. cbn [nmul Rops]. rewrite !self_count_slow, slow_scale by lra.
  rewrite map_length. reflexivity.
Qed.
Lemma chi4_scale : forall (tr : traj Rops) grid n a,
  chi4_compute Rops tr grid n (c * a) (map (map (timesv c)) frames) = chi4_compute Rops tr grid n a frames.
Proof.
  intros tr grid n a. apply (chi4_compute_map Rops (map (timesv c))).
  - intros u v Hu Hv. unfold nsq. flatR. cbn [nmul Rops]. rewrite !self_count_slow. apply slow_scale. lra.
  - intros u Hu. apply map_length.
Qed.
Lemma vacf_scale : forall (tr : traj Rops) tg n g v, length (t_steps tr) = length frames ->
  vacf_compute Rops tr tg n frames = Ok (g, v) ->
  vacf_compute Rops tr tg n (map (map (timesv c)) frames) = Ok (g, map (Rmult (c * c)) v).
Proof.
  intros tr tg n g v Hl H. unfold vacf_compute in *. flatR.
  apply bind_Ok_inv in H. destruct H as [skip [-> H]]. cbn [bind].
  destruct tg as [tg|]; [|discriminate].
  apply bind_Ok_inv in H. destruct H as [dg [-> H]]. cbn [bind].
  apply (offset_compute_scale _ _ (vacf_f Rops) (vacf_f Rops) tr dg (t_bs tr) frames _ [] [] (c * c) g v); [symmetry; apply map_length|exact Hl| |exact H].
  intros i j Hi Hj. rewrite !(nth_map_lt _ _ _ _ _ _ []) by assumption.
  assert (length (nth i frames []) = N) as Li by (apply HN, nth_In; assumption).
  assert (length (nth j frames []) = N) as Lj by (apply HN, nth_In; assumption).
  assert (length (nth i frames []) = length (nth j frames [])) as Lij by congruence.
  rewrite !vacf_f_R; [|exact Lij|rewrite !map_length; exact Lij].
  rewrite combine_map_both, map_map, <- rmean_scale. f_equal. apply map_ext. intros p. apply dotv_scale.
Qed.
End Scale.

(** ** Origin and unit of time *)
Section Shift.
Variable c : Z.
Notation shift := (map (Z.add c)).

Lemma get_shift : forall (t : list Z) i, get (shift t) i = match get t i with Ok a => Ok (c + a)%Z | Err e => Err e end.
Proof. intros. apply get_map. Qed.

Lemma off_samp_shift : forall steps offs, off_samp (shift steps) offs = off_samp steps offs.
Proof.
  intros steps offs. unfold off_samp. rewrite map_length. apply foldM_ext. intros d off _.
  destruct (py_range _ _ _) as [rng|]; cbn [bind]; [|reflexivity].
  apply foldM_ext. intros d' i _. rewrite !get_shift.
  destruct (get steps i) as [si|]; cbn [bind]; [|reflexivity].
  destruct (get steps off) as [so|]; cbn [bind]; [|reflexivity].
  replace (c + si - (c + so))%Z with (si - so)%Z by lia. reflexivity.
Qed.

Lemma setup_t_grid_shift : forall A steps bs h g off,
  setup_t_grid A (shift steps) bs h g off = setup_t_grid A steps bs h g off.
Proof. intros. unfold setup_t_grid. rewrite off_samp_shift. reflexivity. Qed.

Lemma cf_body_shift : forall A X (f : X -> X -> num A) t x i st i0,
  cf_body A f (shift t) x i st i0 = cf_body A f t x i st i0.
Proof.
  intros. unfold cf_body. rewrite !get_shift.
  destruct (get t (i0 + i)) as [ta|]; cbn [bind]; [|reflexivity].
  destruct (get t i0) as [tb|]; cbn [bind]; [|reflexivity].
  replace (c + ta - (c + tb))%Z with (ta - tb)%Z by lia. reflexivity.
Qed.

Lemma gcf_offset_shift : forall A X (f : X -> X -> num A) grid skip t x,
  gcf_offset A f grid skip (shift t) x = gcf_offset A f grid skip t x.
Proof.
  intros. unfold gcf_offset.
  assert (forall st, foldM (fun st p => rng <- py_range (fst p) (length x - snd p) skip ;;
            foldM (cf_body A f (shift t) x (snd p)) st rng) st grid
          = foldM (fun st p => rng <- py_range (fst p) (length x - snd p) skip ;;
            foldM (cf_body A f t x (snd p)) st rng) st grid) as H.
  { intros st. apply foldM_ext. intros s p _. destruct (py_range _ _ _); cbn [bind]; [|reflexivity].
    apply foldM_ext. intros. apply cf_body_shift. }
  rewrite H. reflexivity.
Qed.

Definition delayed {A} (tr : traj A) : traj A := mkTraj (shift (t_steps tr)) (t_bs tr) (t_dt tr) (t_total tr) (t_npart tr).

Lemma offset_compute_shift : forall A X (f : X -> X -> num A) tr dg skip x,
  offset_compute A f (delayed tr) dg skip x = offset_compute A f tr dg skip x.
Proof. intros. unfold offset_compute, delayed. cbn [t_steps t_dt]. rewrite gcf_offset_shift. reflexivity. Qed.

Lemma msd_time_shift : forall A (tr : traj A) grid rmax ts n no x,
  msd_compute A (delayed tr) grid rmax ts n no x = msd_compute A tr grid rmax ts n no x.
Proof.
  intros. unfold msd_compute. change (length (t_steps (delayed tr))) with (length (shift (t_steps tr))). rewrite map_length.
  change (msd_grid A (delayed tr) grid rmax ts x) with (msd_grid A tr grid rmax ts x).
  cbn [delayed t_npart t_bs t_dt t_steps]. destruct (adjust_skip _ _ _ _ _); cbn [bind]; [|reflexivity].
  destruct (msd_grid _ _ _ _ _ _); cbn [bind]; [|reflexivity]. rewrite setup_t_grid_shift.
  destruct (setup_t_grid _ _ _ _ _ _); cbn [bind]; [|reflexivity]. apply offset_compute_shift.
Qed.
Lemma grid_time_shift : forall A X (f : X -> X -> num A) tr grid n x,
  grid_compute A f (delayed tr) grid n x = grid_compute A f tr grid n x.
Proof.
  intros. unfold grid_compute. change (length (t_steps (delayed tr))) with (length (shift (t_steps tr))). rewrite map_length.
  cbn [delayed t_npart t_bs t_dt t_steps]. destruct (adjust_skip _ _ _ _ _); cbn [bind]; [|reflexivity].
  rewrite setup_t_grid_shift.
  destruct (setup_t_grid _ _ _ _ _ _); cbn [bind]; [|reflexivity]. apply offset_compute_shift.
Qed.
Lemma chi4_time_shift : forall A (tr : traj A) grid n a x,
  chi4_compute A (delayed tr) grid n a x = chi4_compute A tr grid n a x.
Proof.
  intros. unfold chi4_compute. change (length (t_steps (delayed tr))) with (length (shift (t_steps tr))). rewrite map_length.
  cbn [delayed t_npart t_bs t_dt t_steps]. destruct (adjust_skip _ _ _ _ _); cbn [bind]; [|reflexivity].
  rewrite setup_t_grid_shift.
  destruct (setup_t_grid _ _ _ _ _ _); cbn [bind]; [|reflexivity]. apply mapM_ext. intros p _. unfold chi4_point.
  destruct (chi4_sums _ _ _ _ _); cbn [bind]; [|reflexivity]. cbn [delayed t_steps t_dt]. rewrite !get_shift.
  destruct (get (t_steps tr) (fst p + snd p)) as [ta|]; cbn [bind]; [|reflexivity].
  destruct (get (t_steps tr) (fst p)) as [tb|]; cbn [bind]; [|reflexivity].
  destruct (get x 0); cbn [bind]; [|reflexivity].
  replace (c + ta - (c + tb))%Z with (ta - tb)%Z by lia. reflexivity.
Qed.
Lemma vacf_time_shift : forall A (tr : traj A) grid n x,
  vacf_compute A (delayed tr) grid n x = vacf_compute A tr grid n x.
Proof.
  intros. unfold vacf_compute. change (length (t_steps (delayed tr))) with (length (shift (t_steps tr))). rewrite map_length.
  cbn [delayed t_npart t_bs t_dt t_steps]. destruct (adjust_skip _ _ _ _ _); cbn [bind]; [|reflexivity].
  destruct grid; [|reflexivity]. rewrite setup_t_grid_shift.
  destruct (setup_t_grid _ _ _ _ _ _); cbn [bind]; [|reflexivity]. apply offset_compute_shift.
Qed.
End Shift.

(** Unit of time: time step, total time and requested times multiplied by c. *)
Section TimeUnit.
Variable c : R.
Hypothesis Hc : 0 < c.
Definition slower (tr : traj Rops) : traj Rops :=
  mkTraj (A:=Rops) (t_steps tr) (t_bs tr) (c * t_dt tr) (c * t_total tr) (t_npart tr).

Lemma to_step_unit : forall h t, to_step Rops (c * h) (c * t) = to_step Rops h t.
Proof.
  intros h t. unfold to_step, pydiv. cbn [neq n0 Rops ndiv].
  assert (Reqb (c * h) 0 = Reqb h 0) as ->.
  { unfold Reqb. destruct (Req_EM_T (c * h) 0), (Req_EM_T h 0); try reflexivity; exfalso.
    - apply Rmult_integral in e. lra.
    - subst. lra. }
  unfold Reqb. destruct (Req_EM_T h 0); [reflexivity|]. cbn [bind].
  replace (c * t / (c * h)) with (t / h); [reflexivity|]. field. split; lra.
Qed.

Lemma setup_t_grid_unit : forall steps bs h g off,
  setup_t_grid Rops steps bs (c * h) (map (Rmult c) g) off = setup_t_grid Rops steps bs h g off.
Proof.
  intros. unfold setup_t_grid. destruct (off_samp _ _); cbn [bind]; [|reflexivity].
  assert (mapM (to_step Rops (c * h)) (map (Rmult c) g) = mapM (to_step Rops h) g) as ->; [|reflexivity].
  induction g as [|t g IH]; [reflexivity|]. cbn [map mapM]. rewrite to_step_unit, IH. reflexivity.
Qed.

Definition stretched (r : res (list R * list R)) : res (list R * list R) :=
  match r with Ok (g, v) => Ok (map (Rmult c) g, v) | Err e => Err e end.

Lemma offset_compute_unit : forall X (f : X -> X -> R) tr dg skip (x : list X),
  offset_compute Rops f (slower tr) dg skip x = stretched (offset_compute Rops f tr dg skip x).
Proof.
  intros. unfold offset_compute, slower. cbn [t_steps t_dt]. destruct (gcf_offset _ _ _ _ _ _) as [r|]; cbn [bind stretched]; [|reflexivity].
  do 2 f_equal. rewrite map_map. apply map_ext. intros z. cbn [nmul nofZ Rops]. ring.
Qed.

Lemma grid_compute_unit : forall X (f : X -> X -> R) tr grid n (x : list X),
  grid_compute Rops f (slower tr) (map (Rmult c) grid) n x = stretched (grid_compute Rops f tr grid n x).
Proof.
  intros. unfold grid_compute. cbn [slower t_npart t_bs t_dt t_steps]. destruct (adjust_skip _ _ _ _ _); cbn [bind stretched]; [|reflexivity].
  rewrite setup_t_grid_unit.
  destruct (setup_t_grid _ _ _ _ _ _); cbn [bind stretched]; [|reflexivity]. apply offset_compute_unit.
Qed.

Lemma msd_compute_unit : forall tr grid rmax ts n no x,
  msd_compute Rops (slower tr) (Some (map (Rmult c) grid)) rmax ts n no x = stretched (msd_compute Rops tr (Some grid) rmax ts n no x).
Proof.
  intros. unfold msd_compute. cbn [slower t_npart t_bs t_dt t_steps msd_grid]. destruct (adjust_skip _ _ _ _ _); cbn [bind stretched]; [|reflexivity].
  rewrite setup_t_grid_unit.
  destruct (setup_t_grid _ _ _ _ _ _); cbn [bind stretched]; [|reflexivity]. apply offset_compute_unit.
Qed.
End TimeUnit.
