(** Radial distribution functions: grids given by the user, order of the frames. *)
From Coq Require Import Ascii String List ZArith Bool Arith Lia Reals Lra Permutation Sorting.Sorted.
From Verif Require Import PyBase PyBaseFacts Num NumFacts Spec_Stats M_Helpers M_Correlation M_Dynamics M_Realspace M_LinkedCells
  M_GrObject Spec_Correlation Spec_Dynamics Spec_Pairs Spec_LinkedCells Spec_GrObject
  P_Helpers P_Dynamics P_Overlap P_Pairs P_Image P_Count P_Shell P_Gr P_Gr2 P_Gr3 P_GrFast P_GrFast2 P_LinkedCells P_LinkedCells2 P_LinkedCells3
  P_LinkedCells4 P_KGrid2 P_GrObject P_GrObject2 P_GrObject3 P_GrObject4 P_GrObject5 P_GrObject6.
Import ListNotations.
Local Open Scope R_scope.

Lemma setup_user : forall (p : gparams Rops) g sd cell, g_grid p = Some g -> g <> [] -> gr_setup_grid Rops p sd cell = Ok g.
Proof.
  intros p g sd cell Hg Hne. unfold gr_setup_grid. rewrite Hg. cbn [bind]. destruct (getZ_last _ g Hne) as [x Ex]. rewrite Ex. reflexivity.
Qed.

Definition user_edges (g : list R) : list R :=
  map (fun x => x - (nth 1 g 0 - nth 0 g 0) / 2) g ++ [nth (length g - 1) g 0 + (nth 1 g 0 - nth 0 g 0) / 2].

Lemma user_edges_ok : forall g : list R, (2 <= length g)%nat -> edges_of_grid Rops g = Ok (user_edges g).
Proof.
  intros g Hn. unfold edges_of_grid. change (num Rops) with R. rewrite (get_Ok _ g 0 0), (get_Ok _ g 1 0) by lia. cbn [bind].
  unfold getZ. change (-1 <? 0)%Z with true. cbn match. destruct (Z.ltb_spec (-1 + Z.of_nat (length g)) 0); [lia|].
  rewrite (get_Ok _ g _ 0) by lia. cbn [bind]. replace (Z.to_nat (-1 + Z.of_nat (length g))) with (length g - 1)%nat by lia. reflexivity.
Qed.

Lemma user_edges_len : forall g, length (user_edges g) = S (length g).
Proof. intros g. unfold user_edges. rewrite app_length, map_length. cbn [length]. lia. Qed.

Lemma user_edges_nth : forall g k, (k < length g)%nat -> nth k (user_edges g) 0 = nth k g 0 - (nth 1 g 0 - nth 0 g 0) / 2.
Proof.
  intros g k Hk. unfold user_edges. rewrite app_nth1 by (rewrite map_length; exact Hk).
  set (F := fun x => x - (nth 1 g 0 - nth 0 g 0) / 2). rewrite (nth_indep _ 0 (F 0)) by (rewrite map_length; exact Hk). rewrite map_nth. reflexivity.
Qed.
Lemma user_edges_last : forall g, nth (length g) (user_edges g) 0 = nth (length g - 1) g 0 + (nth 1 g 0 - nth 0 g 0) / 2.
Proof.
  intros g. unfold user_edges. rewrite app_nth2 by (rewrite map_length; lia). rewrite map_length, Nat.sub_diag. reflexivity.
Qed.

Lemma sorted_of_steps : forall l : list R, (forall k, (S k < length l)%nat -> nth k l 0 < nth (S k) l 0) -> StronglySorted Rlt l.
Proof.
  intros l H. apply Sorted_StronglySorted; [intros a b c; apply Rlt_trans|]. induction l as [|a l IH]; [constructor|]. constructor.
  - apply IH. intros k Hk. apply (H (S k)). cbn [length]. lia.
  - destruct l as [|b l]; constructor. apply (H 0%nat). cbn [length]. lia.
Qed.

Lemma user_edges_sorted : forall g, (2 <= length g)%nat -> StronglySorted Rlt g -> StronglySorted Rlt (user_edges g).
Proof.
  intros g Hn Hs. apply sorted_of_steps. intros k Hk. rewrite user_edges_len in Hk.
  pose proof (sorted_edges_lt g Hs 0 1 ltac:(lia)) as H01.
  destruct (Nat.eq_dec (S k) (length g)) as [E|N].
  - rewrite E, user_edges_last, user_edges_nth by lia. replace (length g - 1)%nat with k by lia. lra.
  - rewrite !user_edges_nth by lia. pose proof (sorted_edges_lt g Hs k (S k) ltac:(lia)). lra.
Qed.

Lemma user_center : forall g k, (k + 1 < length g)%nat ->
  center (user_edges g) k = (nth k g 0 + nth (k + 1) g 0) / 2 - (nth 1 g 0 - nth 0 g 0) / 2.
Proof. intros g k Hk. unfold center. rewrite !user_edges_nth by lia. field. Qed.
Lemma user_center_last : forall g, (1 <= length g)%nat -> center (user_edges g) (length g - 1) = nth (length g - 1) g 0.
Proof.
  intros g Hk. unfold center. replace (length g - 1 + 1)%nat with (length g) by lia. rewrite user_edges_last, user_edges_nth by lia. field.
Qed.

Lemma legacy_user : forall D ndims same (p : gparams Rops) skip frames g r,
  is_distance D -> good_dim ndims -> gr_frames ndims same skip frames -> (forall f, In f frames -> has_cell ndims f) ->
  g_grid p = Some g -> (2 <= length g)%nat -> StronglySorted Rlt g -> limit (g_rmax p) (last_used skip frames) r ->
  gr_object_legacy Rops PI (sqrt (INR ndims)) ndims same p skip frames
  = Ok (map (fun k => (center (user_edges g) k,
      mean_neighbours D same skip (group0 frames) (group1 frames) (sides_of frames) (in_bin 0 Rleb Rltb (user_edges g) k)
      / (mean_number (group1 frames) / volume_of (last_used skip frames)
         * (ball ndims (nth (k + 1) (user_edges g) 0) - ball ndims (nth k (user_edges g) 0)) * mean_number (group0 frames))))
    (bins_upto (user_edges g) r)).
Proof.
  intros D ndims same p skip frames g r HD Hgd Hf Hc Hg Hn Hs Hr.
  rewrite (legacy_reduces PI ndims same p skip frames g r Hf Hc) by first [assumption | apply setup_user; [exact Hg|intros ->; cbn in Hn; lia]].
  rewrite (gr_legacy_form D PI _ r ndims same g (user_edges g) skip (group0 frames) (group1 frames) (sides_of frames)
    HD (user_edges_ok g Hn) (user_edges_sorted g Hn Hs) (gr_frames_input ndims same skip frames Hf Hc)).
  f_equal. apply map_ext. intros k. rewrite shell_good by exact Hgd. reflexivity.
Qed.

(** Fast version with any grid, cells periodic, rmax not given. *)
Lemma fast_user : forall fmax ndims same (p : gparams Rops) skip frames g r,
  good_dim ndims ->
  gr_frames ndims same skip frames -> (forall f, In f frames -> has_cell ndims f /\ all_periodic f) ->
  (forall f x, In f frames -> In x (f_0 f) \/ In x (f_1 f) -> inside x (side_of f)) ->
  g_grid p = Some g -> (2 <= length g)%nat -> 0 < nth 1 g 0 - nth 0 g 0 -> g_rmax p <= 0 -> limit (g_rmax p) (last_used skip frames) r ->
  gr_object_fast Rops PI (sqrt (INR ndims)) fmax ndims same p skip frames
  = Ok (map (fun k => ((INR k + 1 / 2) * (nth 1 g 0 - nth 0 g 0),
        mean_neighbours img_D same skip (group0 frames) (group1 frames) (sides_of frames) (slot (nth 1 g 0 - nth 0 g 0) k)
        / (mean_used skip (group1 frames) / volume_of (last_used skip frames)
           * (ball ndims (INR (k + 1) * (nth 1 g 0 - nth 0 g 0)) - ball ndims (INR k * (nth 1 g 0 - nth 0 g 0))) * mean_used skip (group0 frames))))
      (filter (fun k => Rleb ((INR k + 1 / 2) * (nth 1 g 0 - nth 0 g 0)) r) (seq 0 (length g - 1)))).
Proof.
  intros fmax ndims same p skip frames g r Hgd Hf Hca Hins Hg Hn Hdr Hrm Hr.
  assert (forall f, In f frames -> has_cell ndims f) as Hc by (intros f Hin; apply Hca, Hin).
  destruct Hf as [Hd Hs Hne Hsame Hpop].
  assert (1 <= length frames)%nat as Hlen by (destruct frames; [congruence|cbn; lia]).
  assert (In (frame_at frames 0) frames) as H0 by (apply frame_at_In; lia).
  assert (g <> []) as Hgne by (intros ->; cbn in Hn; lia).
  set (dr := nth 1 g 0 - nth 0 g 0) in *. change (num Rops) with R in *.
  set (os := origins 0 skip (length frames)).
  assert (forall i, In i os -> In (frame_at frames i) frames) as Hos by (intros i Hi; apply frame_at_In, (origins_lt skip), Hi).
  pose proof (last_used_In skip frames Hs Hne) as HlIn.
  destruct (has_cell_the _ _ (Hc _ HlIn)) as [D1 [D2 _]].
  assert (use_linked Rops p ndims (frame_at frames 0) = Ok false) as Elk.
  { unfold use_linked. destruct (f_cell (frame_at frames 0)); [|reflexivity]. rewrite rmax_given_R.
    destruct (Rltb_spec 0 (g_rmax p)) as [C|_]; [exfalso; lra|reflexivity]. }
  assert (exists h : nat -> list nat, forall i, In i os ->
     (if same then gr_self_c Rops (f_0 (frame_at frames i)) (side_of (frame_at frames i)) dr (length g)
      else gr_distinct_c Rops (f_0 (frame_at frames i)) (f_1 (frame_at frames i)) (side_of (frame_at frames i)) dr (length g)) = Ok (h i) /\
     forall k, (k < length g)%nat -> INR (neighbours same img_D (slot dr k) (side_of (frame_at frames i)) (f_0 (frame_at frames i)) (f_1 (frame_at frames i)))
        = (if same then 2 else 1) * INR (nth k (h i) 0%nat)) as [h Hh].
  { exists (fun i => match (if same then gr_self_c Rops (f_0 (frame_at frames i)) (side_of (frame_at frames i)) dr (length g)
      else gr_distinct_c Rops (f_0 (frame_at frames i)) (f_1 (frame_at frames i)) (side_of (frame_at frames i)) dr (length g)) with Ok h => h | Err _ => [] end).
    intros i Hi. specialize (Hos i Hi). destruct (has_cell_the _ _ (Hc _ Hos)) as [_ [_ [S3 [S4 _]]]]. destruct (Hpop _ Hos) as [P0 [P1 P2]].
    destruct (fast_frame same (side_of (frame_at frames i)) (f_0 (frame_at frames i)) (f_1 (frame_at frames i)) dr (length g) Hdr S4)
      as [h [E [_ C]]].
    - split; [exact P0|]. intros x Hx. rewrite S3. apply P2. auto.
    - split; [exact P1|]. intros x Hx. rewrite S3. apply P2. auto.
    - intros E. apply Hsame; assumption.
    - intros x Hx. apply Hins; auto.
    - intros x Hx. apply Hins; auto.
    - change (num Rops) with R in *. rewrite E. split; [reflexivity|exact C]. }
  rewrite (fast_object_form PI (sqrt (INR ndims)) fmax ndims same p skip frames g dr false None (negb same) false h
    (fun i => length (f_0 (frame_at frames i))) (fun i => length (f_1 (frame_at frames i))) (volume_of (last_used skip frames)) r);
    try assumption; try reflexivity.
  2:{ apply setup_user; assumption. }
  2:{ intros ls lf acc i Hi Hls. assert (ls = None) as -> by (destruct Hls; assumption). pose proof (Hos i Hi) as Hin.
      destruct (has_cell_the _ _ (Hc _ Hin)) as [S1 [S2 [S3 [S4 S5]]]].
      apply (step_periodic fmax ndims same p dr (length g) None lf acc (frame_at frames i) (the_cell (frame_at frames i)) (h i)); auto.
      + rewrite S2. exact S3.
      + apply all_periodic_the, Hca, Hin.
      + rewrite S2. apply Hh, Hi. }
  2:{ rewrite D1, (cell_volume_R _ _ D1). reflexivity. }
  2:{ apply gr_crop_R; [left; rewrite D1; discriminate|exact Hr]. }
  f_equal. rewrite (filter_ext (fun k => Rleb ((INR k + 1 / 2) * dr) r) (fun k => Rleb (dr * INR k + dr / 2) r))
    by (intros k; f_equal; field).
  apply map_ext_in. intros k Hk. apply filter_In in Hk. destruct Hk as [Hk _]. apply in_seq in Hk. f_equal; [field|].
  cbn [andb]. unfold fast_value. rewrite shell_good by exact Hgd.
  pose proof (mean_of_group f_0 skip frames (group0 frames) (map_length _ _) (group0_nth frames)) as M0.
  pose proof (mean_of_group f_1 skip frames (group1 frames) (map_length _ _) (group1_nth frames)) as M1.
  change (num Rops) with R in *. rewrite M0, M1. fold os.
  assert ((if negb same then 1 else 2) * mean_hist h os k
    = mean_neighbours img_D same skip (group0 frames) (group1 frames) (sides_of frames) (slot dr k)) as ->; [|reflexivity].
  unfold mean_hist, mean_neighbours, rmean. rewrite !map_length. unfold group0 at 2 3. rewrite map_length. fold os.
  rewrite (rsum_ext _ (fun i => INR (neighbours same img_D (slot dr k) (nth i (sides_of frames) []) (nth i (group0 frames) []) (nth i (group1 frames) [])))
    (fun i => (if same then 2 else 1) * INR (nth k (h i) 0%nat))).
  - rewrite rsum_scal. destruct same; cbn [negb]; unfold Rdiv; ring.
  - intros i Hi. rewrite sides_nth, group0_nth, group1_nth. apply Hh; [assumption|lia].
Qed.

(** Averages over all frames do not depend on the order of the frames. *)
Lemma origins_one : forall n, origins 0 1 n = seq 0 n.
Proof. intros n. unfold origins. apply filter_all_true. intros i _. rewrite Nat.mod_1_r. reflexivity. Qed.

Lemma mean_neighbours_frames : forall D same frames P,
  mean_neighbours D same 1 (group0 frames) (group1 frames) (sides_of frames) P
  = rmean (map (fun f : frameR => INR (neighbours same D P (side_of f) (f_0 f) (f_1 f))) frames).
Proof.
  intros D same frames P. unfold mean_neighbours. rewrite origins_one. unfold group0 at 2. rewrite map_length. f_equal.
  rewrite <- (nth_seq_all _ frames no_frame) at 2. rewrite map_map. apply map_ext. intros i.
  rewrite sides_nth, group0_nth, group1_nth. reflexivity.
Qed.

Lemma rmean_perm : forall l l', Permutation l l' -> rmean l = rmean l'.
Proof. intros l l' H. unfold rmean. rewrite (Permutation_length H), (rsum_perm l l' H). reflexivity. Qed.

Lemma legacy_order : forall ndims same (p : gparams Rops) frames frames' g r r',
  good_dim ndims -> gr_frames ndims same 1 frames -> (forall f, In f frames -> has_cell ndims f) -> Permutation frames frames' ->
  g_grid p = Some g -> (2 <= length g)%nat -> StronglySorted Rlt g ->
  limit (g_rmax p) (last_used 1 frames) r -> limit (g_rmax p) (last_used 1 frames') r' -> r = r' ->
  exists out out', gr_object_legacy Rops PI (sqrt (INR ndims)) ndims same p 1 frames = Ok out /\
    gr_object_legacy Rops PI (sqrt (INR ndims)) ndims same p 1 frames' = Ok out' /\
    map fst out' = map fst out /\
    forall k, (k < length out)%nat -> snd (nth k out (0, 0)) * volume_of (last_used 1 frames') = snd (nth k out' (0, 0)) * volume_of (last_used 1 frames).
Proof.
  intros ndims same p frames frames' g r r' Hgd Hf Hc HP Hg Hn Hs Hr Hr' <-.
  assert (forall f, In f frames' -> has_cell ndims f) as Hc' by (intros f Hin; apply Hc, (Permutation_in _ (Permutation_sym HP)), Hin).
  assert (gr_frames ndims same 1 frames') as Hf'.
  { destruct Hf as [H1 H2 H3 H4 H5]. constructor; auto.
    - intros E. rewrite E in HP. apply Permutation_sym, Permutation_nil in HP. congruence.
    - intros E f Hin. apply H4; [exact E|]. apply (Permutation_in _ (Permutation_sym HP)), Hin.
    - intros f Hin. apply H5, (Permutation_in _ (Permutation_sym HP)), Hin. }
  rewrite (legacy_user img_D ndims same p 1 frames g r img_D_distance Hgd Hf Hc Hg Hn Hs Hr).
  rewrite (legacy_user img_D ndims same p 1 frames' g r img_D_distance Hgd Hf' Hc' Hg Hn Hs Hr').
  eexists. eexists. split; [reflexivity|]. split; [reflexivity|]. split.
  - rewrite !map_map. reflexivity.
  - rewrite map_length. intros k Hk.
    match goal with |- snd (nth k (map ?F0 ?l) _) * _ = snd (nth k (map ?G0 _) _) * _ =>
      set (F := F0); set (G := G0);
      rewrite (nth_indep (map F l) (0, 0) (F 0%nat)), (nth_indep (map G l) (0, 0) (G 0%nat)) by (rewrite map_length; exact Hk) end.
    rewrite !map_nth. unfold F, G. cbn [snd]. set (q := nth k (bins_upto (user_edges g) r) 0%nat).
    assert (forall P, mean_neighbours img_D same 1 (group0 frames') (group1 frames') (sides_of frames') P
      = mean_neighbours img_D same 1 (group0 frames) (group1 frames) (sides_of frames) P) as EN.
    { intros P. rewrite !mean_neighbours_frames. apply rmean_perm, Permutation_map, Permutation_sym, HP. }
    assert (mean_number (group0 frames') = mean_number (group0 frames) /\ mean_number (group1 frames') = mean_number (group1 frames)) as [E0 E1].
    { unfold mean_number, group0, group1. split; apply rmean_perm, Permutation_map, Permutation_map, Permutation_sym, HP. }
    rewrite EN, E0, E1. pose proof (volume_pos ndims _ (Hc _ (last_used_In 1 frames (le_n 1) (gf_some _ _ _ _ Hf)))) as V1.
    pose proof (volume_pos ndims _ (Hc' _ (last_used_In 1 frames' (le_n 1) (gf_some _ _ _ _ Hf')))) as V2.
    unfold Rdiv. rewrite !Rinv_mult, !Rinv_inv. ring.
Qed.
