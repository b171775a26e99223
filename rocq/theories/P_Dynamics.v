(** Proofs about the dynamic correlation functions. *)
From Coq Require Import Ascii String List ZArith Bool Arith Reals Lia Lra Psatz Sorting.Sorted Sorting.Permutation.
From Verif Require Import PyBase PyBaseFacts Num Spec_Stats NumFacts M_Helpers M_Correlation M_Dynamics
  Spec_Correlation P_Correlation Spec_Time P_Time P_Skip P_Acf P_Helpers Spec_Dynamics.
Import ListNotations.
Local Open Scope nat_scope.

Lemma gcf_offset_skip0 : forall A X (f : X -> X -> num A) grid t (x : list X) r,
  gcf_offset A f grid 0 t x = Ok r -> grid = [].
Proof. intros A X f [|p grid] t x r H; [reflexivity|]. cbn in H. discriminate. Qed.

Lemma admitted_range : forall grid skip n p, In p (admitted grid skip n) ->
  snd p <= fst p < n.
Proof.
  intros grid skip n p H. unfold admitted in H. apply in_flat_map in H.
  destruct H as [q [_ H]]. apply in_map_iff in H. destruct H as [i0 [<- H]].
  unfold origins in H. apply filter_In in H. destruct H as [H _]. apply in_seq in H. cbn. lia.
Qed.

(** What every offset correlation returns. *)
Lemma offset_compute_spec : forall A X (f : X -> X -> num A) (tr : traj A) dg skip (x : list X) dflt g v,
  length (t_steps tr) = length x ->
  offset_compute A f tr dg skip x = Ok (g, v) ->
  exists dts, g = map (fun ti => nmul A (nofZ A ti) (t_dt tr)) dts /\
    grouped_mean f (t_steps tr) x dflt (admitted dg skip (length x)) dts v.
Proof.
  intros A X f tr dg skip x dflt g v Hl H. unfold offset_compute in H.
  destruct (gcf_offset A f dg skip (t_steps tr) x) as [r|] eqn:E; [|discriminate].
  cbn in H. apply Ok_inj in H. injection H as <- <-.
  destruct (Nat.eq_dec skip 0) as [->|Hs].
  - pose proof (gcf_offset_skip0 _ _ _ _ _ _ _ E) as ->. cbn in E. apply Ok_inj in E. subst r.
    exists []. split; [reflexivity|]. split; [constructor|]. split; [|reflexivity].
    intros d. split; [intros []|]. intros [p [[] _]].
  - destruct (gcf_offset_correct A X f (t_steps tr) x dflt Hl dg skip) as [dt [v [E' G]]]; [lia|].
    rewrite E in E'. apply Ok_inj in E'. subst r. exists dt. split; [reflexivity|]. exact G.
Qed.

(** Two data lists with pairwise equal contributions give the same result. *)
Lemma gcf_offset_ext : forall A X Y (f : X -> X -> num A) (g : Y -> Y -> num A) grid skip t (x : list X) (y : list Y) dx dy,
  length x = length y -> length t = length x ->
  (forall i j, i < length x -> j < length x -> f (nth i x dx) (nth j x dx) = g (nth i y dy) (nth j y dy)) ->
  gcf_offset A f grid skip t x = gcf_offset A g grid skip t y.
Proof.
  intros A X Y f g grid skip t x y dx dy Hxy Ht H.
  unfold gcf_offset.
  assert (forall l i st, (forall i0, In i0 l -> i0 + i < length x) ->
     foldM (cf_body A f t x i) st l = foldM (cf_body A g t y i) st l) as Hin.
  { induction l as [|i0 l IH]; intros i st Hl; [reflexivity|]. cbn [foldM].
    assert (i0 + i < length x) by (apply Hl; left; reflexivity).
    assert (cf_body A f t x i st i0 = cf_body A g t y i st i0) as ->.
    { unfold cf_body. rewrite (get_Ok _ t (i0 + i) 0%Z), (get_Ok _ t i0 0%Z) by lia.
      rewrite (get_Ok _ x (i0 + i) dx), (get_Ok _ x i0 dx) by lia.
      rewrite (get_Ok _ y (i0 + i) dy), (get_Ok _ y i0 dy) by lia. cbn [bind].
      rewrite H by lia. reflexivity. }
    destruct (cf_body A g t y i st i0); cbn [bind]; [|reflexivity].
    apply IH. intros j Hj. apply Hl. right. exact Hj. }
  assert (forall gr st, foldM (fun st p =>
          rng <- py_range (fst p) (length x - snd p) skip ;;
          foldM (cf_body A f t x (snd p)) st rng) st gr
        = foldM (fun st p =>
          rng <- py_range (fst p) (length y - snd p) skip ;;
          foldM (cf_body A g t y (snd p)) st rng) st gr) as Hout.
  { induction gr as [|p gr IH]; intros st; [reflexivity|]. cbn [foldM]. rewrite <- Hxy.
    destruct (py_range (fst p) (length x - snd p) skip) as [rng|] eqn:E; cbn [bind]; [|reflexivity].
    rewrite Hin.
    - destruct (foldM (cf_body A g t y (snd p)) st rng); cbn [bind]; [|reflexivity]. rewrite <- Hxy in IH. apply IH.
    - intros i0 Hi0. assert (1 <= skip) as Hs.
      { destruct skip; [|lia]. discriminate E. }
      rewrite py_range_spec in E by exact Hs. apply Ok_inj in E. subst rng.
      apply filter_In in Hi0. destruct Hi0 as [Hi0 _]. apply in_seq in Hi0. lia. }
  rewrite Hout. reflexivity.
Qed.

Lemma offset_compute_ext : forall A X Y (f : X -> X -> num A) (g : Y -> Y -> num A) (tr : traj A) dg skip
    (x : list X) (y : list Y) dx dy,
  length x = length y -> length (t_steps tr) = length x ->
  (forall i j, i < length x -> j < length x -> f (nth i x dx) (nth j x dx) = g (nth i y dy) (nth j y dy)) ->
  offset_compute A f tr dg skip x = offset_compute A g tr dg skip y.
Proof. intros. unfold offset_compute. erewrite gcf_offset_ext by eassumption. reflexivity. Qed.

(** Inversion of the classes. *)
Lemma grid_compute_inv : forall A X (f : X -> X -> num A) tr grid n (x : list X) r,
  grid_compute A f tr grid n x = Ok r ->
  exists skip dg, adjust_skip A (length (t_steps tr)) (t_npart tr) (t_bs tr) n = Ok skip /\
    setup_t_grid A (t_steps tr) (t_bs tr) (t_dt tr) grid (not_str_1 A n) = Ok dg /\
    offset_compute A f tr dg skip x = Ok r.
Proof.
  intros A X f tr grid n x r H. unfold grid_compute in H.
  apply bind_Ok_inv in H. destruct H as [skip [E1 H]].
  apply bind_Ok_inv in H. destruct H as [dg [E2 H]]. eauto.
Qed.

Lemma msd_compute_inv : forall A tr grid rmax ts n no frames r,
  msd_compute A tr grid rmax ts n no frames = Ok r ->
  exists skip dg g, adjust_skip A (length (t_steps tr)) (t_npart tr) (t_bs tr) n = Ok skip /\
    msd_grid A tr grid rmax ts frames = Ok g /\
    setup_t_grid A (t_steps tr) (t_bs tr) (t_dt tr) g (not_str_1 A n && negb no) = Ok dg /\
    offset_compute A (msd A) tr dg skip frames = Ok r.
Proof.
  intros A tr grid rmax ts n no x r H. unfold msd_compute in H.
  apply bind_Ok_inv in H. destruct H as [skip [E1 H]].
  apply bind_Ok_inv in H. destruct H as [g [E3 H]].
  apply bind_Ok_inv in H. destruct H as [dg [E2 H]]. exists skip, dg, g. auto.
Qed.

(** ** Means over the reals *)
Local Open Scope R_scope.

(** A value listed by a grouped mean is a mean over a nonempty set of pairs. *)
Lemma grouped_mean_nth : forall X (f : X -> X -> R) t (x : list X) dflt ps dts (v : list R) k,
  grouped_mean (A := Rops) f t x dflt ps dts v -> (k < length v)%nat ->
  length v = length dts /\
  exists qs, qs <> [] /\ (forall p, In p qs -> In p ps /\ pair_dt t p = nth k dts 0%Z) /\
    nth k v 0 = rmean (map (fun p => f (nth (fst p) x dflt) (nth (snd p) x dflt)) qs).
Proof.
  intros X f t x dflt ps dts v k [Hs [Hd Hv]] Hk. subst v. change (num Rops) with R in *.
  rewrite map_length in *. split; [reflexivity|].
  exists (pairs_at t (nth k dts 0%Z) ps). split.
  - apply pairs_at_nonempty. apply Hd. apply nth_In. exact Hk.
  - split.
    + intros p Hp. apply filter_In in Hp. destruct Hp as [Hp E]. apply Z.eqb_eq in E. auto.
    + rewrite (nth_indep _ 0 (nmean Rops (map (pair_val (A := Rops) f x dflt) (pairs_at t 0%Z ps))))
        by (rewrite map_length; exact Hk).
      rewrite (map_nth (fun d => nmean Rops (map (pair_val (A := Rops) f x dflt) (pairs_at t d ps)))).
      rewrite nmean_R. reflexivity.
Qed.

Lemma rmean_le : forall (l : list R) c, l <> [] -> (forall v, In v l -> v <= c) -> rmean l <= c.
Proof.
  intros l c Hl H. unfold rmean. pose proof (INR_pos_length _ l Hl).
  apply Rmult_le_reg_r with (INR (length l)); [assumption|].
  unfold Rdiv. rewrite Rmult_assoc, Rinv_l by lra. rewrite Rmult_1_r, Rmult_comm, <- (rsum_const R c l).
  rewrite <- (map_id l) at 1. apply rsum_le. exact H.
Qed.
Lemma rmean_ge : forall (l : list R) c, l <> [] -> (forall v, In v l -> c <= v) -> c <= rmean l.
Proof.
  intros l c Hl H. unfold rmean. pose proof (INR_pos_length _ l Hl).
  apply Rmult_le_reg_r with (INR (length l)); [assumption|].
  unfold Rdiv. rewrite Rmult_assoc, Rinv_l by lra. rewrite Rmult_1_r, Rmult_comm, <- (rsum_const R c l).
  rewrite <- (map_id l) at 2. apply rsum_le. exact H.
Qed.
Lemma rmean_const : forall (l : list R) c, l <> [] -> (forall v, In v l -> v = c) -> rmean l = c.
Proof.
  intros l c Hl H. apply Rle_antisym; [apply rmean_le|apply rmean_ge]; auto;
  intros v Hv; rewrite (H v Hv); apply Rle_refl.
Qed.
Lemma map_nonnil : forall X Y (f : X -> Y) l, l <> [] -> map f l <> [].
Proof. intros X Y f [|a l] H; [congruence|discriminate]. Qed.

(** Strictly increasing steps: time difference zero means the same frame. *)
Lemma pair_dt_zero : forall t p, StronglySorted Z.lt t -> (snd p <= fst p < length t)%nat ->
  pair_dt t p = 0%Z -> fst p = snd p.
Proof.
  intros t [i j] Ht Hp E. unfold pair_dt in E. cbn in *.
  destruct (Nat.eq_dec i j); [assumption|]. exfalso.
  pose proof (sorted_nth_lt t j i Ht ltac:(lia)). lia.
Qed.

(** ** Kernels over the reals *)
Lemma sqdist_R : forall r s : list R, sqdist Rops r s = dist2 r s.
Proof.
  intros r s. unfold sqdist. rewrite nsum_R. unfold map2, nsq. cbn [nmul nsub Rops].
  revert s. induction r as [|a r IH]; intros [|b s]; cbn; try reflexivity. rewrite IH. reflexivity.
Qed.

Lemma dist2_nonneg : forall r s, 0 <= dist2 r s.
Proof.
  induction r as [|a r IH]; intros [|b s]; cbn; try lra.
  pose proof (Rle_0_sqr (a - b)) as H. unfold Rsqr in H. specialize (IH s). lra.
Qed.
Lemma dist2_refl : forall r, dist2 r r = 0.
Proof. induction r as [|a r IH]; cbn; [reflexivity|]. rewrite IH. ring. Qed.
Lemma dist2_sym : forall r s, dist2 r s = dist2 s r.
Proof. induction r as [|a r IH]; intros [|b s]; cbn; try reflexivity. rewrite IH. ring. Qed.
Lemma dist2_shift : forall r s c, length r = length c -> length s = length c ->
  dist2 (plusv r c) (plusv s c) = dist2 r s.
Proof.
  induction r as [|a r IH]; intros [|b s] [|c0 c] H1 H2; cbn in *; try reflexivity; try discriminate.
  rewrite IH by congruence. ring.
Qed.

Lemma msd_R : forall x y : list (list R), length x = length y ->
  msd Rops x y = mean_over (fun d => d) x y.
Proof.
  intros x y Hl. unfold msd, mean_over, rmean. rewrite nsum_R, nofnat_R, map_length, combine_length, <- Hl, Nat.min_id.
  cbn [ndiv Rops]. f_equal.
  rewrite <- (map_id (flat_map _ _)).
  rewrite (rsum_flat_map _ _ (fun z => z)). apply rsum_ext. intros p _. rewrite map_id, <- sqdist_R.
  unfold sqdist. rewrite nsum_R. reflexivity.
Qed.
