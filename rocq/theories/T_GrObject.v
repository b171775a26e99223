(** C89-C92: radial distribution functions computed from trajectories. *)
From Coq Require Import Ascii String List ZArith Bool Arith Lia Reals Lra Permutation Sorting.Sorted.
From Verif Require Import PyBase PyBaseFacts Num NumFacts Spec_Stats M_Helpers M_Correlation M_Dynamics M_Realspace M_LinkedCells
  M_GrObject Spec_Correlation Spec_Dynamics Spec_Pairs Spec_LinkedCells Spec_GrObject
  P_Helpers P_Dynamics P_Overlap P_Pairs P_Image P_Count P_Shell P_Gr P_Gr2 P_Gr3 P_GrFast P_GrFast2 P_LinkedCells P_LinkedCells2 P_LinkedCells3
  P_LinkedCells4 P_KGrid2 P_GrObject P_GrObject2 P_GrObject3 P_GrObject4 P_GrObject5 P_GrObject6 P_GrObject7 P_GrObject8.
Import ListNotations.
Local Open Scope R_scope.

(** A frame to show that hypotheses can be met. *)
Definition ex_cell (flag : bool) (L M : R) : cellR := mkCell (A:=Rops) [L; M] [flag; flag].
Definition ex_frame (cell : option cellR) (x : R) : frameR := mkFrame (A:=Rops) [[0; 0]; [x; 1]] [[0; 0]; [x; 1]] cell 2%nat 1.

Lemma ex_gr_frames : forall cell x cell' x', gr_frames 2 true 1 [ex_frame cell x; ex_frame cell' x'].
Proof.
  intros cell x cell' x'. constructor; try lia.
  - discriminate.
  - intros _ f [<-|[<-|[]]]; reflexivity.
  - intros f [<-|[<-|[]]]; (split; [discriminate|split; [discriminate|]]); cbn; intros r Hr;
      repeat (destruct Hr as [Hr|Hr]); subst; try contradiction; reflexivity.
Qed.
Lemma ex_has_cell : forall b x L M, 0 < L -> 0 < M -> has_cell 2 (ex_frame (Some (ex_cell b L M)) x).
Proof.
  intros b x L M HL HM. exists (ex_cell b L M). split; [reflexivity|]. split; [reflexivity|]. split; [|reflexivity].
  intros l [<-|[<-|[]]]; assumption.
Qed.
Lemma ex_good2 : good_dim 2.
Proof. right. exists 1%nat. split; [lia|reflexivity]. Qed.
Lemma ex_sqrt2 : 1 <= sqrt (INR 2).
Proof. rewrite <- sqrt_1. apply sqrt_le_1_alt. cbn. lra. Qed.
Lemma ex_folded : forall b x L M y, 2 < M -> 0 < L -> Rabs x < L / 2 -> let f := ex_frame (Some (ex_cell b L M)) x in
  In y (f_0 f) \/ In y (f_1 f) -> folded y (side_of f).
Proof.
  intros b x L M y HM HL Hx. cbn. apply Rabs_def2 in Hx. intros Hy.
  repeat (destruct Hy as [Hy|Hy]); subst; try contradiction; cbn; lra.
Qed.

(* ------------------------------------------------------------------ *)
(** C89: with rgrid=None the calculation succeeds and reports g(r) at the centers of
    the bins of width dr, starting from dr/2 and up to rmax if it is positive, or half
    the smallest side of the cell of the last frame used otherwise.  The value at bin k
    is the mean number of pairs with minimum-image distance in the bin, divided by the
    number expected at uniform density.  Holds when the limit is at least dr shorter
    than the longest distance on the grid. *)
Theorem C89_legacy : forall D ndims same (p : gparams Rops) skip frames L r,
  is_distance D -> good_dim ndims ->
  gr_frames ndims same skip frames -> (forall f, In f frames -> has_cell ndims f) ->
  g_grid p = None -> 0 < (g_dr p : R) -> largest L (side_of (frame_at frames 0)) -> limit (g_rmax p) (last_used skip frames) r ->
  3 / 2 * g_dr p <= L * sqrt (INR ndims) -> 0 < r <= L * sqrt (INR ndims) - g_dr p ->
  exists out, gr_object_legacy Rops PI (sqrt (INR ndims)) ndims same p skip frames = Ok out /\
    all_points (g_dr p) r (map fst out) /\
    forall k, (k < length out)%nat -> snd (nth k out (0, 0))
      = mean_neighbours D same skip (group0 frames) (group1 frames) (sides_of frames) (slot (g_dr p) k)
        / (mean_number (group1 frames) / volume_of (last_used skip frames)
           * (ball ndims (INR (k + 1) * g_dr p) - ball ndims (INR k * g_dr p)) * mean_number (group0 frames)).
Proof. exact legacy_default. Qed.
Print Assumptions C89_legacy.

(** The compiled version, with or without linked cells; with linked cells the cell is
    constant and only the bins entirely within rmax are complete. *)
Theorem C89_fast : forall fmax ndims same (p : gparams Rops) skip frames L r,
  good_dim ndims ->
  gr_frames ndims same skip frames -> (forall f, In f frames -> has_cell ndims f /\ all_periodic f) ->
  (forall f x, In f frames -> In x (f_0 f) \/ In x (f_1 f) -> folded x (side_of f)) ->
  (0 < g_rmax p -> dim23 ndims /\ forall f, In f frames -> side_of f = side_of (frame_at frames 0)) ->
  g_grid p = None -> 0 < (g_dr p : R) -> largest L (side_of (frame_at frames 0)) -> limit (g_rmax p) (last_used skip frames) r ->
  3 / 2 * g_dr p <= L * sqrt (INR ndims) -> 0 < r <= L * sqrt (INR ndims) - g_dr p ->
  exists out, gr_object_fast Rops PI (sqrt (INR ndims)) fmax ndims same p skip frames = Ok out /\
    all_points (g_dr p) r (map fst out) /\
    forall k, (k < length out)%nat -> g_rmax p <= 0 \/ INR (k + 1) * g_dr p <= g_rmax p -> snd (nth k out (0, 0))
      = mean_neighbours img_D same skip (group0 frames) (group1 frames) (sides_of frames) (slot (g_dr p) k)
        / (mean_used skip (group1 frames) / volume_of (last_used skip frames)
           * (ball ndims (INR (k + 1) * g_dr p) - ball ndims (INR k * g_dr p)) * mean_used skip (group0 frames)).
Proof. exact fast_default. Qed.
Print Assumptions C89_fast.

(** The documented grid, "from 0 to L/2 (...) L is the side along the x axis at the
    first step", is not the reported one whenever half the smallest side of the last
    cell differs from it by dr or more. *)
Theorem C89_documented_refuted : forall ndims same (p : gparams Rops) skip frames L r Lx rest,
  good_dim ndims ->
  gr_frames ndims same skip frames -> (forall f, In f frames -> has_cell ndims f) ->
  g_grid p = None -> 0 < (g_dr p : R) -> largest L (side_of (frame_at frames 0)) -> limit (g_rmax p) (last_used skip frames) r ->
  3 / 2 * g_dr p <= L * sqrt (INR ndims) -> 0 < r <= L * sqrt (INR ndims) - g_dr p ->
  side_of (frame_at frames 0) = Lx :: rest -> g_dr p <= Rabs (r - Lx / 2) ->
  exists out, gr_object_legacy Rops PI (sqrt (INR ndims)) ndims same p skip frames = Ok out /\
    ~ all_points (g_dr p) (Lx / 2) (map fst out).
Proof.
  intros ndims same p skip frames L r Lx rest Hgd Hf Hc Hg Hdr HL Hr H3 Hr0 Ex Hfar.
  destruct (legacy_default img_D ndims same p skip frames L r img_D_distance Hgd Hf Hc Hg Hdr HL Hr H3 Hr0) as [out [E [A _]]].
  exists out. split; [exact E|]. intros C. pose proof (all_points_close _ _ _ _ Hdr A C). change (num Rops) with R in *. lra.
Qed.
Print Assumptions C89_documented_refuted.

Definition ex89 : list frameR := [ex_frame (Some (ex_cell true 10 8)) 1; ex_frame (Some (ex_cell true 10 8)) 2].
Definition ex89_p : gparams Rops := mkGr (A:=Rops) None 1 (-1).
Lemma ex89_limit : limit (g_rmax ex89_p) (last_used 1 ex89) 4.
Proof.
  split; [cbn; intros; lra|]. intros _. exists 8. split; [|lra].
  change ex89 with ([ex_frame (Some (ex_cell true 10 8)) 1] ++ [ex_frame (Some (ex_cell true 10 8)) 2]).
  rewrite last_used_one. split; [right; left; reflexivity|]. intros l [<-|[<-|[]]]; lra.
Qed.
Lemma ex89_largest : largest 10 (side_of (frame_at ex89 0)).
Proof. split; [left; reflexivity|]. intros l [<-|[<-|[]]]; lra. Qed.
Lemma ex89_cells : forall f, In f ex89 -> has_cell 2 f /\ all_periodic f.
Proof.
  intros f [<-|[<-|[]]]; (split; [apply ex_has_cell; lra|]); exists (ex_cell true 10 8); split; try reflexivity;
    intros b [<-|[<-|[]]]; reflexivity.
Qed.
Example C89_nonvacuous : exists out, gr_object_fast Rops PI (sqrt (INR 2)) 100 2 true ex89_p 1 ex89 = Ok out /\
  all_points 1 4 (map fst out) /\
  exists out', gr_object_legacy Rops PI (sqrt (INR 2)) 2 true ex89_p 1 ex89 = Ok out' /\ ~ all_points 1 (10 / 2) (map fst out').
Proof.
  pose proof ex_sqrt2 as Hsq.
  destruct (C89_fast 100 2 true ex89_p 1 ex89 10 4) as [out [E [A _]]]; auto.
  - exact ex_good2.
  - apply ex_gr_frames.
  - apply ex89_cells.
  - intros f x [<-|[<-|[]]]; apply ex_folded; try lra; rewrite Rabs_right; lra.
  - cbn. intros. lra.
  - cbn. lra.
  - apply ex89_largest.
  - apply ex89_limit.
  - cbn [g_dr ex89_p]. lra.
  - cbn [g_dr ex89_p]. lra.
  - exists out. split; [exact E|]. split; [exact A|].
    apply (C89_documented_refuted 2 true ex89_p 1 ex89 10 4 10 [8]); auto.
    + exact ex_good2.
    + apply ex_gr_frames.
    + intros f Hf. apply ex89_cells, Hf.
    + cbn. lra.
    + apply ex89_largest.
    + apply ex89_limit.
    + cbn [g_dr ex89_p]. lra.
    + cbn [g_dr ex89_p]. lra.
    + cbn [g_dr ex89_p]. rewrite Rabs_left; lra.
Qed.

(* ------------------------------------------------------------------ *)
(** C90: g(r) is an average over frames: for all frames used (norigins=None) the
    result does not depend on the order of the frames. *)
(** Proved when the cell is the same in all frames; missing: cells that change. *)
Theorem C90_order_partial : forall fmax ndims same (p : gparams Rops) frames frames' side L,
  good_dim ndims -> gr_frames ndims same 1 frames -> Permutation frames frames' ->
  (forall f, In f frames -> has_cell ndims f /\ side_of f = side) ->
  g_grid p = None -> 0 < (g_dr p : R) -> largest L side ->
  (forall r, limit (g_rmax p) (frame_at frames 0) r -> r <= L * sqrt (INR ndims) - g_dr p) ->
  3 / 2 * g_dr p <= L * sqrt (INR ndims) ->
  gr_object_legacy Rops PI (sqrt (INR ndims)) ndims same p 1 frames' = gr_object_legacy Rops PI (sqrt (INR ndims)) ndims same p 1 frames /\
  ((forall f, In f frames -> all_periodic f) ->
   (forall f x, In f frames -> In x (f_0 f) \/ In x (f_1 f) -> folded x side) -> g_rmax p <= 0 ->
   gr_object_fast Rops PI (sqrt (INR ndims)) fmax ndims same p 1 frames' = gr_object_fast Rops PI (sqrt (INR ndims)) fmax ndims same p 1 frames).
Proof. exact order_constant. Qed.
Print Assumptions C90_order_partial.

(** Refuted in general: the mean density is that of the last frame.  With the same
    grid and rmax, putting a frame of another volume last rescales every value. *)
Theorem C90_order_refuted : forall ndims same (p : gparams Rops) frames frames' g,
  good_dim ndims -> gr_frames ndims same 1 frames -> (forall f, In f frames -> has_cell ndims f) -> Permutation frames frames' ->
  g_grid p = Some g -> (2 <= length g)%nat -> StronglySorted Rlt g -> 0 < (g_rmax p : R) ->
  volume_of (last_used 1 frames) <> volume_of (last_used 1 frames') ->
  exists out out', gr_object_legacy Rops PI (sqrt (INR ndims)) ndims same p 1 frames = Ok out /\
    gr_object_legacy Rops PI (sqrt (INR ndims)) ndims same p 1 frames' = Ok out' /\
    forall k, (k < length out)%nat -> snd (nth k out (0, 0)) <> 0 -> snd (nth k out' (0, 0)) <> snd (nth k out (0, 0)).
Proof.
  intros ndims same p frames frames' g Hgd Hf Hc HP Hg Hn Hs Hr HV.
  destruct (legacy_order ndims same p frames frames' g (g_rmax p) (g_rmax p) Hgd Hf Hc HP Hg Hn Hs) as [o [o' [E [E' [_ V]]]]];
    try reflexivity; try (split; [reflexivity|intros; change (num Rops) with R in *; lra]).
  exists o, o'. split; [exact E|]. split; [exact E'|]. intros k Hk Hne C. specialize (V k Hk). rewrite C in V.
  apply HV. apply Rmult_eq_reg_l in V; [symmetry; exact V|exact Hne].
Qed.
Print Assumptions C90_order_refuted.

Example C90_nonvacuous :
  gr_object_legacy Rops PI (sqrt (INR 2)) 2 true ex89_p 1 (rev ex89) = gr_object_legacy Rops PI (sqrt (INR 2)) 2 true ex89_p 1 ex89 /\
  let a := ex_frame (Some (ex_cell true 10 8)) 1 in let b := ex_frame (Some (ex_cell true 10 9)) 1 in
  exists out out', gr_object_legacy Rops PI (sqrt (INR 2)) 2 true (mkGr (A:=Rops) (Some [1 / 2; 3 / 2; 5 / 2]) 1 2) 1 [a; b] = Ok out /\
    gr_object_legacy Rops PI (sqrt (INR 2)) 2 true (mkGr (A:=Rops) (Some [1 / 2; 3 / 2; 5 / 2]) 1 2) 1 [b; a] = Ok out' /\
    forall k, (k < length out)%nat -> snd (nth k out (0, 0)) <> 0 -> snd (nth k out' (0, 0)) <> snd (nth k out (0, 0)).
Proof.
  pose proof ex_sqrt2 as Hsq. split.
  - apply (C90_order_partial 100 2 true ex89_p ex89 (rev ex89) [10; 8] 10); auto.
    + exact ex_good2.
    + apply ex_gr_frames.
    + apply Permutation_rev.
    + intros f Hf. split; [apply ex89_cells, Hf|]. destruct Hf as [<-|[<-|[]]]; reflexivity.
    + cbn. lra.
    + exact ex89_largest.
    + intros r [_ Hr]. destruct Hr as [M [[[<-|[<-|[]]] HM] ->]]; cbn [g_dr g_rmax ex89_p]; lra.
    + cbn [g_dr ex89_p]. lra.
  - intros a b. apply (C90_order_refuted 2 true _ [a; b] [b; a] [1 / 2; 3 / 2; 5 / 2]); auto.
    + exact ex_good2.
    + apply ex_gr_frames.
    + intros f [<-|[<-|[]]]; apply ex_has_cell; lra.
    + constructor.
    + cbn. lia.
    + repeat constructor; lra.
    + change (0 < 2). lra.
    + change [a; b] with ([a] ++ [b]). change [b; a] with ([b] ++ [a]). rewrite !last_used_one. unfold volume_of, a, b. cbn. lra.
Qed.

(* ------------------------------------------------------------------ *)
(** C91: systems without periodic boundaries.  g(r) counts Euclidean distances, and a
    grid of distances is chosen when none is given. *)
(** Open cells, rmax given, compiled version: particles closer than rmax to a face of
    the cell are not taken as centers.  Proved for all bins but the first, entirely
    within rmax, and frames with at least one center; missing: the first bin. *)
Theorem C91_open_partial : forall fmax ndims same (p : gparams Rops) skip frames L,
  good_dim ndims -> dim23 ndims -> gr_frames ndims same skip frames ->
  (forall f, In f frames -> has_cell ndims f /\ none_periodic f /\ side_of f = side_of (frame_at frames 0)) ->
  (forall f x, In f frames -> In x (f_0 f) \/ In x (f_1 f) -> folded x (side_of f)) ->
  (forall f, In f frames -> interior0 (g_rmax p) f <> []) ->
  g_grid p = None -> 0 < (g_dr p : R) -> g_dr p <= g_rmax p -> largest L (side_of (frame_at frames 0)) -> L <= fmax / 2 ->
  3 * g_dr p <= L * sqrt (INR ndims) -> g_rmax p <= L * sqrt (INR ndims) - g_dr p ->
  exists out, gr_object_fast Rops PI (sqrt (INR ndims)) fmax ndims same p skip frames = Ok out /\
    all_points (g_dr p) (g_rmax p) (map fst out) /\
    forall k, (1 <= k < length out)%nat -> INR (k + 1) * g_dr p <= g_rmax p ->
      snd (nth k out (0, 0)) = open_gr ndims skip frames (g_rmax p) (g_dr p) k.
Proof.
  intros fmax ndims same p skip frames L Hgd H23 Hf Hca Hfold Hint Hg Hdr Hrd HL HLF H3 Hr.
  destruct (fast_open fmax ndims same p skip frames L Hgd H23 Hf Hca Hfold Hint Hg Hdr Hrd HL HLF H3 Hr) as [out [E [A V]]].
  exists out. split; [exact E|]. split; [exact A|]. intros k Hk Hkr. replace (Nat.max 1 k) with k in V by lia.
  rewrite V; replace (Nat.max 1 k) with k by lia; [reflexivity|lia|exact Hkr].
Qed.
Print Assumptions C91_open_partial.

(** The value at the first point is that of the second bin, whatever the positions. *)
Theorem C91_first_bin_refuted : forall fmax ndims same (p : gparams Rops) skip frames L,
  good_dim ndims -> dim23 ndims -> gr_frames ndims same skip frames ->
  (forall f, In f frames -> has_cell ndims f /\ none_periodic f /\ side_of f = side_of (frame_at frames 0)) ->
  (forall f x, In f frames -> In x (f_0 f) \/ In x (f_1 f) -> folded x (side_of f)) ->
  (forall f, In f frames -> interior0 (g_rmax p) f <> []) ->
  g_grid p = None -> 0 < (g_dr p : R) -> 2 * g_dr p <= g_rmax p -> largest L (side_of (frame_at frames 0)) -> L <= fmax / 2 ->
  3 * g_dr p <= L * sqrt (INR ndims) -> g_rmax p <= L * sqrt (INR ndims) - g_dr p ->
  open_gr ndims skip frames (g_rmax p) (g_dr p) 0 <> open_gr ndims skip frames (g_rmax p) (g_dr p) 1 ->
  exists out, gr_object_fast Rops PI (sqrt (INR ndims)) fmax ndims same p skip frames = Ok out /\
    fst (nth 0 out (0, 0)) = g_dr p / 2 /\ snd (nth 0 out (0, 0)) <> open_gr ndims skip frames (g_rmax p) (g_dr p) 0.
Proof.
  intros fmax ndims same p skip frames L Hgd H23 Hf Hca Hfold Hint Hg Hdr Hrd HL HLF H3 Hr Hne.
  destruct (fast_open fmax ndims same p skip frames L Hgd H23 Hf Hca Hfold Hint Hg Hdr ltac:(change (num Rops) with R in *; lra) HL HLF H3 Hr) as [out [E [A V]]].
  exists out. split; [exact E|]. change (num Rops) with R in *. destruct A as [m [Em Bm]].
  assert (length out = m) as Lo by (apply (f_equal (@length R)) in Em; rewrite !map_length, seq_length in Em; exact Em).
  assert (1 <= m)%nat as Hm. { destruct m as [|m]; [cbn in Bm; lra|lia]. }
  split.
  - change (0, 0) with ((0 : R), (0 : R)). rewrite <- (map_nth fst). cbn [fst]. rewrite Em, nth_map_seq by lia. cbn [INR]. field.
  - rewrite (V 0%nat); [|change (num Rops) with R in *; lia|cbn [Nat.max Nat.add INR]; change (num Rops) with R in *; lra].
    cbn [Nat.max]. intros C. apply Hne. symmetry. exact C.
Qed.
Print Assumptions C91_first_bin_refuted.

(** No cell, rmax given, compiled version: all the values reported are right, with the
    volume given by the density of the system. *)
Theorem C91_isolated_partial : forall fmax ndims same (p : gparams Rops) skip frames,
  good_dim ndims -> gr_frames ndims same skip frames -> (forall f, In f frames -> f_cell f = None) ->
  (forall f x a, In f frames -> In x (f_0 f) \/ In x (f_1 f) -> In a x -> Rabs a <= fmax / 4) -> 0 < fmax ->
  f_density (last_used skip frames) <> 0 ->
  g_grid p = None -> 0 < (g_dr p : R) -> 3 / 2 * g_dr p <= g_rmax p ->
  exists out m, gr_object_fast Rops PI (sqrt (INR ndims)) fmax ndims same p skip frames = Ok out /\
    map fst out = map (fun k => (INR k + 1 / 2) * g_dr p) (seq 0 m) /\ (INR m + 1 / 2) * g_dr p <= g_rmax p < (INR m + 3 / 2) * g_dr p /\
    forall k, (k < length out)%nat -> snd (nth k out (0, 0))
      = mean_frames skip frames (fun f => INR (neighbours same (fun _ => euclid) (slot (g_dr p) k) [] (f_0 f) (f_1 f)))
        / (mean_frames skip frames (fun f => INR (length (f_1 f))) / (INR (f_npart (last_used skip frames)) / f_density (last_used skip frames))
           * (ball ndims (INR (k + 1) * g_dr p) - ball ndims (INR k * g_dr p))
           * mean_frames skip frames (fun f => INR (length (f_0 f)))).
Proof.
  intros fmax ndims same p skip frames Hgd Hf Hc Hb HF Hden Hg Hdr H3. apply fast_nocell; auto.
  intros f x Hin Hx a Ha. exact (Hb f x a Hin Hx Ha).
Qed.
Print Assumptions C91_isolated_partial.

(** The last point not exceeding rmax is always missing. *)
Theorem C91_isolated_last_refuted : forall fmax ndims same (p : gparams Rops) skip frames,
  good_dim ndims -> gr_frames ndims same skip frames -> (forall f, In f frames -> f_cell f = None) ->
  (forall f x a, In f frames -> In x (f_0 f) \/ In x (f_1 f) -> In a x -> Rabs a <= fmax / 4) -> 0 < fmax ->
  f_density (last_used skip frames) <> 0 ->
  g_grid p = None -> 0 < (g_dr p : R) -> 3 / 2 * g_dr p <= g_rmax p ->
  exists out, gr_object_fast Rops PI (sqrt (INR ndims)) fmax ndims same p skip frames = Ok out /\
    ~ all_points (g_dr p) (g_rmax p) (map fst out).
Proof.
  intros fmax ndims same p skip frames Hgd Hf Hc Hb HF Hden Hg Hdr H3.
  destruct (C91_isolated_partial fmax ndims same p skip frames Hgd Hf Hc Hb HF Hden Hg Hdr H3) as [out [m [E [Em [B _]]]]].
  exists out. split; [exact E|]. intros [m' [Em' B']]. rewrite Em in Em'. apply (f_equal (@length R)) in Em'.
  rewrite !map_length, !seq_length in Em'. subst m'. change (num Rops) with R in *. lra.
Qed.
Print Assumptions C91_isolated_last_refuted.

(** Without a cell and with the default rmax both versions fail; the first one fails
    even when rmax is given. *)
Theorem C91_isolated_default_refuted : forall fmax ndims same (p : gparams Rops) skip frames,
  gr_frames ndims same skip frames -> (forall f, In f frames -> f_cell f = None) ->
  (forall f x a, In f frames -> In x (f_0 f) \/ In x (f_1 f) -> In a x -> Rabs a <= fmax / 4) -> 0 < fmax ->
  f_density (last_used skip frames) <> 0 ->
  g_grid p = None -> 0 < (g_dr p : R) ->
  (g_rmax p <= 0 -> gr_object_fast Rops PI (sqrt (INR ndims)) fmax ndims same p skip frames = Err AttributeError) /\
  (g_rmax p <= 0 \/ 3 / 2 * g_dr p <= g_rmax p ->
   gr_object_legacy Rops PI (sqrt (INR ndims)) ndims same p skip frames = Err AttributeError).
Proof.
  intros fmax ndims same p skip frames Hf Hc Hb HF Hden Hg Hdr. split.
  - intros Hr. apply fast_nocell_default; auto. intros f x Hin Hx a Ha. exact (Hb f x a Hin Hx Ha).
  - intros Hr. apply legacy_nocell; auto. unfold grid_top. change (num Rops) with R in *.
    destruct (Rlt_dec 0 (g_rmax p)), Hr; lra.
Qed.
Print Assumptions C91_isolated_default_refuted.

(** The pure Python version always applies periodic boundaries: its result does not
    depend on the periodic directions of the cells. *)
Theorem C91_flags_refuted : forall ndims same (p : gparams Rops) skip frames flags L r,
  gr_frames ndims same skip frames -> (forall f, In f frames -> has_cell ndims f) -> length flags = ndims ->
  g_grid p = None -> 0 < (g_dr p : R) -> largest L (side_of (frame_at frames 0)) -> limit (g_rmax p) (last_used skip frames) r ->
  3 / 2 * g_dr p <= L * sqrt (INR ndims) ->
  gr_object_legacy Rops PI (sqrt (INR ndims)) ndims same p skip (map (with_periodic flags) frames)
  = gr_object_legacy Rops PI (sqrt (INR ndims)) ndims same p skip frames.
Proof.
  intros ndims same p skip frames flags L r Hf Hc Hfl Hg Hdr HL Hr H3.
  assert (In (frame_at frames 0) frames) as H0 by (apply frame_at_In; destruct frames; [destruct (gf_some _ _ _ _ Hf); reflexivity|cbn; lia]).
  destruct (setup_default p ndims (frame_at frames 0) L Hg (gf_dims _ _ _ _ Hf) (Hc _ H0) Hdr HL H3) as [n [Hn [Es B]]].
  apply (legacy_flags ndims same p skip frames flags r _ Hf Hc Hfl Es Hr).
Qed.
Print Assumptions C91_flags_refuted.

(** Cells periodic along some directions only are rejected by the compiled version. *)
Theorem C91_mixed_refuted : forall fmax ndims same (p : gparams Rops) skip frames (c : cellR) L,
  gr_frames ndims same skip frames -> has_cell ndims (frame_at frames 0) -> f_cell (frame_at frames 0) = Some c ->
  In true (c_periodic c) -> In false (c_periodic c) ->
  g_grid p = None -> 0 < (g_dr p : R) -> g_rmax p <= 0 -> largest L (side_of (frame_at frames 0)) -> 3 / 2 * g_dr p <= L * sqrt (INR ndims) ->
  gr_object_fast Rops PI (sqrt (INR ndims)) fmax ndims same p skip frames = Err AssertionError.
Proof.
  intros fmax ndims same p skip frames c L Hf Hc0 Ec Ht Hfa Hg Hdr Hr HL H3.
  apply (fast_mixed fmax ndims same p skip frames c L Hf Hc0 Ec); auto.
  destruct Hc0 as [c' [Ec' [_ [_ Hlp]]]]. assert (c' = c) as -> by congruence. rewrite <- Hlp. unfold n_periodic. split.
  - assert (In true (filter (fun b => b) (c_periodic c))) as H by (apply filter_In; split; [exact Ht|reflexivity]).
    destruct (filter (fun b => b) (c_periodic c)); [destruct H|cbn; lia].
  - clear - Hfa. induction (c_periodic c) as [|b l IH]; [destruct Hfa|]. pose proof (filter_length_le _ (fun b : bool => b) l) as Hle. cbn [filter length].
    destruct b; cbn [length]; [|lia]. destruct Hfa as [C|Hfa]; [discriminate|]. specialize (IH Hfa). lia.
Qed.
Print Assumptions C91_mixed_refuted.

Definition ex91 (cell : option cellR) : list frameR := [ex_frame cell 1; ex_frame cell 2].
Definition ex91_p (rmax : R) : gparams Rops := mkGr (A:=Rops) None 1 rmax.
Lemma ex91_interior : interior 2 [10; 8] [0; 0] = true.
Proof.
  unfold interior. cbn [combine forallb fst snd]. rewrite Rabs_R0.
  destruct (Rleb_spec 0 (10 / 2 - 2)); [|lra]. destruct (Rleb_spec 0 (8 / 2 - 2)); [reflexivity|lra].
Qed.
Example C91_nonvacuous :
  (exists out, gr_object_fast Rops PI (sqrt (INR 2)) 100 2 true (ex91_p 2) 1 (ex91 (Some (ex_cell false 10 8))) = Ok out /\
    all_points 1 2 (map fst out)) /\
  (exists out, gr_object_fast Rops PI (sqrt (INR 2)) 100 2 true (ex91_p 2) 1 (ex91 None) = Ok out /\ ~ all_points 1 2 (map fst out)) /\
  gr_object_fast Rops PI (sqrt (INR 2)) 100 2 true (ex91_p (-1)) 1 (ex91 None) = Err AttributeError /\
  gr_object_legacy Rops PI (sqrt (INR 2)) 2 true (ex91_p 2) 1 (ex91 None) = Err AttributeError /\
  gr_object_fast Rops PI (sqrt (INR 2)) 100 2 true (ex91_p (-1)) 1 (ex91 (Some (mkCell (A:=Rops) [10; 8] [true; false]))) = Err AssertionError /\
  gr_object_legacy Rops PI (sqrt (INR 2)) 2 true (ex91_p 2) 1 (ex91 (Some (ex_cell false 10 8)))
  = gr_object_legacy Rops PI (sqrt (INR 2)) 2 true (ex91_p 2) 1 (ex91 (Some (ex_cell true 10 8))).
Proof.
  pose proof ex_sqrt2 as Hsq.
  assert (forall f x a, In f (ex91 None) -> In x (f_0 f) \/ In x (f_1 f) -> In a x -> Rabs a <= 100 / 4) as Hb.
  { intros f x a [<-|[<-|[]]] Hx Ha; cbn in Hx; repeat (destruct Hx as [Hx|Hx]); subst; try contradiction;
      destruct Ha as [<-|[<-|[]]]; rewrite Rabs_right; lra. }
  split; [|split; [|split; [|split; [|split]]]].
  - destruct (C91_open_partial 100 2 true (ex91_p 2) 1 (ex91 (Some (ex_cell false 10 8))) 10) as [out [E [A _]]]; auto.
    + exact ex_good2.
    + left. reflexivity.
    + apply ex_gr_frames.
    + intros f [<-|[<-|[]]]; (split; [apply ex_has_cell; lra|split; [|reflexivity]]); exists (ex_cell false 10 8);
        (split; [reflexivity|]); intros b [<-|[<-|[]]]; reflexivity.
    + intros f x [<-|[<-|[]]]; apply ex_folded; try lra; rewrite Rabs_right; lra.
    + intros f [<-|[<-|[]]] C; unfold interior0, ex_frame in C; cbn [f_0 side_of f_cell filter c_side ex_cell g_rmax ex91_p] in C;
        rewrite ex91_interior in C; discriminate.
    + cbn. lra.
    + cbn. lra.
    + exact ex89_largest.
    + lra.
    + cbn [g_dr ex91_p]. lra.
    + cbn [g_dr g_rmax ex91_p]. lra.
    + exists out. split; [exact E|exact A].
  - apply (C91_isolated_last_refuted 100 2 true (ex91_p 2) 1 (ex91 None)); auto.
    + exact ex_good2.
    + apply ex_gr_frames.
    + intros f [<-|[<-|[]]]; reflexivity.
    + lra.
    + change (ex91 None) with ([ex_frame None 1] ++ [ex_frame None 2]). rewrite last_used_one. cbn. lra.
    + cbn. lra.
    + cbn. lra.
  - apply (C91_isolated_default_refuted 100 2 true (ex91_p (-1)) 1 (ex91 None)); auto; try (cbn; lra).
    + apply ex_gr_frames.
    + intros f [<-|[<-|[]]]; reflexivity.
  - apply (C91_isolated_default_refuted 100 2 true (ex91_p 2) 1 (ex91 None)); auto; try (cbn; lra).
    + apply ex_gr_frames.
    + intros f [<-|[<-|[]]]; reflexivity.
  - apply (C91_mixed_refuted 100 2 true (ex91_p (-1)) 1 _ (mkCell (A:=Rops) [10; 8] [true; false]) 10); auto; try (cbn; lra).
    + apply ex_gr_frames.
    + exists (mkCell (A:=Rops) [10; 8] [true; false]). split; [reflexivity|]. split; [reflexivity|]. split; [|reflexivity]. intros l [<-|[<-|[]]]; lra.
    + split; [left; reflexivity|]. intros l [<-|[<-|[]]]; lra.
    + cbn [g_dr ex91_p]. lra.
  - apply (C91_flags_refuted 2 true (ex91_p 2) 1 (ex91 (Some (ex_cell true 10 8))) [false; false] 10 2); auto; try (cbn; lra).
    + apply ex_gr_frames.
    + intros f [<-|[<-|[]]]; apply ex_has_cell; lra.
    + exact ex89_largest.
    + split; [reflexivity|]. cbn. intros. lra.
    + cbn [g_dr ex91_p]. lra.
Qed.

(* ------------------------------------------------------------------ *)
(** C92: when rgrid is given, g(r) is computed at the distances of that grid. *)
(** Pure Python version, equally spaced grid: the points reported are those requested
    that do not exceed the limit; all bins but the last one of the grid have the width
    of the spacing and are centered at the points. *)
Theorem C92_uniform_partial : forall D ndims same (p : gparams Rops) skip frames (g : list R) h r,
  is_distance D -> good_dim ndims -> gr_frames ndims same skip frames -> (forall f, In f frames -> has_cell ndims f) ->
  g_grid p = Some g -> (2 <= length g)%nat -> 0 < h -> (forall k, (k + 1 < length g)%nat -> nth (k + 1) g 0 - nth k g 0 = h) ->
  limit (g_rmax p) (last_used skip frames) r ->
  exists out, gr_object_legacy Rops PI (sqrt (INR ndims)) ndims same p skip frames = Ok out /\
    map fst out = filter (fun x => Rleb x r) g /\
    forall k, (k < length out)%nat -> (k + 1 < length g)%nat -> snd (nth k out (0, 0))
      = mean_neighbours D same skip (group0 frames) (group1 frames) (sides_of frames)
          (fun d => Rleb (nth k g 0 - h / 2) d && Rltb d (nth k g 0 + h / 2))%bool
        / (mean_number (group1 frames) / volume_of (last_used skip frames)
           * (ball ndims (nth k g 0 + h / 2) - ball ndims (nth k g 0 - h / 2)) * mean_number (group0 frames)).
Proof.
  intros D ndims same p skip frames g h r HD Hgd Hf Hc Hg Hn Hh Hst Hr.
  assert (StronglySorted Rlt g) as Hs.
  { apply sorted_of_steps. intros k Hk. specialize (Hst k ltac:(lia)). replace (k + 1)%nat with (S k) in Hst by lia. lra. }
  assert (nth 1 g 0 - nth 0 g 0 = h) as H01 by (apply (Hst 0%nat); lia).
  rewrite (legacy_user D ndims same p skip frames g r HD Hgd Hf Hc Hg Hn Hs Hr). eexists. split; [reflexivity|].
  assert (forall k, (k < length g)%nat -> center (user_edges g) k = nth k g 0) as Ec.
  { intros k Hk. destruct (Nat.eq_dec (S k) (length g)) as [E|N].
    - replace k with (length g - 1)%nat by lia. apply user_center_last. lia.
    - rewrite user_center by lia. specialize (Hst k ltac:(lia)). lra. }
  assert (bins_upto (user_edges g) r = filter (fun k => Rleb (nth k g 0) r) (seq 0 (length g))) as Eb.
  { unfold bins_upto. rewrite user_edges_len. replace (S (length g) - 1)%nat with (length g) by lia.
    apply filter_ext_in. intros k Hk. apply in_seq in Hk. rewrite Ec by lia. reflexivity. }
  rewrite Eb. destruct (filter_seq_prefix (fun k => Rleb (nth k g 0) r) (length g) 0) as [m [Hm Em]].
  { intros i j Hij Hj. destruct (Rleb_spec (nth j g 0) r) as [Hjr|]; [|discriminate]. intros Hi'.
    destruct (Rleb_spec (nth i g 0) r) as [|C]; [reflexivity|]. exfalso. apply C. pose proof (sorted_edges_lt g Hs i j ltac:(lia)). lra. }
  split.
  - rewrite map_map. cbn [fst].
    transitivity (filter (fun x => Rleb x r) (map (fun k => nth k g 0) (seq 0 (length g)))); [|rewrite nth_seq_all; reflexivity]. rewrite filter_map. apply map_ext_in. intros k Hk. apply filter_In in Hk. destruct Hk as [Hk _].
    apply in_seq in Hk. apply Ec. lia.
  - intros k Hk Hk1. rewrite Em in *. rewrite map_length, seq_length in Hk. rewrite nth_map_seq by exact Hk. cbn [snd].
    rewrite !user_edges_nth by lia. rewrite H01. pose proof (Hst k Hk1) as Hk2.
    replace (nth (k + 1) g 0 - h / 2) with (nth k g 0 + h / 2) by lra. f_equal.
    unfold mean_neighbours. f_equal. apply map_ext. intros i. f_equal. unfold neighbours.
    assert (forall d, in_bin 0 Rleb Rltb (user_edges g) k d = (Rleb (nth k g 0 - h / 2) d && Rltb d (nth k g 0 + h / 2))%bool) as Hbin.
    { intros d. unfold in_bin. rewrite !user_edges_nth, user_edges_len by lia. rewrite H01.
      replace (nth (k + 1) g 0 - h / 2) with (nth k g 0 + h / 2) by lra.
      destruct (Nat.eqb_spec (k + 2) (S (length g))); [lia|reflexivity]. }
    destruct same.
    + apply cnt_ext. intros q _. rewrite Hbin. reflexivity.
    + apply count_prod_ext. intros x y _ _. rewrite Hbin. reflexivity.
Qed.
Print Assumptions C92_uniform_partial.

(** Refuted: when the points are not equally spaced they are moved.  A point k of the
    grid, which is followed by a gap different from the first one, is not reported;
    the distance reported in its place is shifted by half of the difference. *)
Theorem C92_spacing_refuted : forall ndims same (p : gparams Rops) skip frames (g : list R) r k,
  good_dim ndims -> gr_frames ndims same skip frames -> (forall f, In f frames -> has_cell ndims f) ->
  g_grid p = Some g -> (2 <= length g)%nat -> StronglySorted Rlt g -> limit (g_rmax p) (last_used skip frames) r ->
  (k + 1 < length g)%nat -> nth (k + 1) g 0 - nth k g 0 <> nth 1 g 0 - nth 0 g 0 -> nth (k + 1) g 0 <= r ->
  exists out, gr_object_legacy Rops PI (sqrt (INR ndims)) ndims same p skip frames = Ok out /\
    (k < length out)%nat /\
    fst (nth k out (0, 0)) = nth k g 0 + ((nth (k + 1) g 0 - nth k g 0) - (nth 1 g 0 - nth 0 g 0)) / 2 /\
    fst (nth k out (0, 0)) <> nth k g 0.
Proof.
  intros ndims same p skip frames g r k Hgd Hf Hc Hg Hn Hs Hr Hk Hne Hkr.
  rewrite (legacy_user img_D ndims same p skip frames g r img_D_distance Hgd Hf Hc Hg Hn Hs Hr). eexists. split; [reflexivity|].
  pose proof (user_edges_sorted g Hn Hs) as Hse.
  pose proof (sorted_edges_lt g Hs k (k + 1) ltac:(lia)) as Hlt. pose proof (sorted_edges_lt g Hs 0 1 ltac:(lia)) as H01.
  unfold bins_upto. rewrite user_edges_len. replace (S (length g) - 1)%nat with (length g) by lia.
  destruct (filter_seq_prefix (fun k => Rleb (center (user_edges g) k) r) (length g) 0) as [m [Hm Em]].
  { intros i j Hij Hj. destruct (Rleb_spec (center (user_edges g) j) r) as [Hjr|]; [|discriminate]. intros _.
    destruct (Rleb_spec (center (user_edges g) i) r) as [|C]; [reflexivity|]. exfalso. apply C. unfold center in *.
    pose proof (sorted_edges_lt _ Hse i j ltac:(rewrite user_edges_len; lia)).
    pose proof (sorted_edges_lt _ Hse (i + 1) (j + 1) ltac:(rewrite user_edges_len; lia)). lra. }
  rewrite Em, map_length, seq_length.
  assert (k < m)%nat as Hkm.
  { assert (In k (seq 0 m)) as H; [|apply in_seq in H; lia]. rewrite <- Em. apply filter_In. split; [apply in_seq; lia|].
    destruct (Rleb_spec (center (user_edges g) k) r) as [|C]; [reflexivity|]. exfalso. apply C. rewrite user_center by lia. lra. }
  split; [exact Hkm|]. rewrite nth_map_seq by exact Hkm. cbn [fst]. rewrite user_center by lia. split; lra.
Qed.
Print Assumptions C92_spacing_refuted.

(** Compiled version, cells with periodic boundaries, no rmax.  The bins are those of
    width dr starting from zero, whatever the first point of the grid; when the grid is
    dr/2, 3/2 dr, ... the values are those at its points, but the last point is dropped. *)
Theorem C92_fast_partial : forall fmax ndims same (p : gparams Rops) skip frames (g : list R) dr r,
  good_dim ndims -> gr_frames ndims same skip frames -> (forall f, In f frames -> has_cell ndims f /\ all_periodic f) ->
  (forall f x, In f frames -> In x (f_0 f) \/ In x (f_1 f) -> inside x (side_of f)) ->
  g_grid p = Some g -> (2 <= length g)%nat -> 0 < dr -> (forall k, (k < length g)%nat -> nth k g 0 = (INR k + 1 / 2) * dr) ->
  g_rmax p <= 0 -> limit (g_rmax p) (last_used skip frames) r ->
  exists out, gr_object_fast Rops PI (sqrt (INR ndims)) fmax ndims same p skip frames = Ok out /\
    map fst out = filter (fun x => Rleb x r) (removelast g) /\
    forall k, (k < length out)%nat -> snd (nth k out (0, 0))
      = mean_neighbours img_D same skip (group0 frames) (group1 frames) (sides_of frames)
          (fun d => Rleb (nth k g 0 - dr / 2) d && Rltb d (nth k g 0 + dr / 2))%bool
        / (mean_used skip (group1 frames) / volume_of (last_used skip frames)
           * (ball ndims (nth k g 0 + dr / 2) - ball ndims (nth k g 0 - dr / 2)) * mean_used skip (group0 frames)).
Proof.
  intros fmax ndims same p skip frames g dr r Hgd Hf Hca Hins Hg Hn Hdr Hgk Hrm Hr.
  assert (nth 1 g 0 - nth 0 g 0 = dr) as H01 by (rewrite !Hgk by lia; cbn [INR]; lra).
  assert (0 < nth 1 g 0 - nth 0 g 0) as H01' by lra.
  rewrite (fast_user fmax ndims same p skip frames g r Hgd Hf Hca Hins Hg Hn H01' Hrm Hr).
  change (num Rops) with R. rewrite H01. eexists. split; [reflexivity|].
  destruct (filter_seq_prefix (fun k => Rleb ((INR k + 1 / 2) * dr) r) (length g - 1) 0) as [m [Hm Em]].
  { intros i j Hij Hj. destruct (Rleb_spec ((INR j + 1 / 2) * dr) r) as [Hjr|]; [|discriminate]. intros _.
    destruct (Rleb_spec ((INR i + 1 / 2) * dr) r) as [|C]; [reflexivity|]. exfalso. apply C. apply lt_INR in Hij.
    apply Rle_trans with (2 := Hjr). apply Rmult_le_compat_r; lra. }
  split.
  - rewrite map_map. cbn [fst].
    transitivity (filter (fun x => Rleb x r) (map (fun k => (INR k + 1 / 2) * dr) (seq 0 (length g - 1)))).
    { rewrite filter_map. reflexivity. }
    f_equal. assert (g <> []) as Hne by (intros ->; cbn in Hn; lia).
    pose proof (app_removelast_last 0 Hne) as Ea.
    assert (length (removelast g) = length g - 1)%nat as Hl by (apply (f_equal (@length R)) in Ea; rewrite app_length in Ea; cbn [length] in Ea; lia).
    rewrite <- (nth_seq_all _ (removelast g) 0), Hl. apply map_ext_in. intros k Hk. apply in_seq in Hk.
    rewrite <- Hgk by lia. rewrite Ea at 1. rewrite app_nth1 by lia. reflexivity.
  - intros k Hk. rewrite Em in *. rewrite map_length, seq_length in Hk. rewrite nth_map_seq by exact Hk. cbn [snd].
    assert (INR k * dr = nth k g 0 - dr / 2 /\ INR (k + 1) * dr = nth k g 0 + dr / 2) as [E0 E1].
    { rewrite Hgk by lia. rewrite plus_INR. cbn [INR]. split; lra. }
    rewrite E0, E1. f_equal. unfold mean_neighbours. f_equal. apply map_ext. intros i. f_equal. unfold neighbours.
    assert (forall d, slot dr k d = (Rleb (nth k g 0 - dr / 2) d && Rltb d (nth k g 0 + dr / 2))%bool) as Hbin.
    { intros d. unfold slot. rewrite E0, E1. reflexivity. }
    destruct same.
    + apply cnt_ext. intros q _. rewrite Hbin. reflexivity.
    + apply count_prod_ext. intros x y _ _. rewrite Hbin. reflexivity.
Qed.
Print Assumptions C92_fast_partial.

(** Refuted: a grid that does not start at half its first gap is replaced. *)
Theorem C92_fast_start_refuted : forall fmax ndims same (p : gparams Rops) skip frames (g : list R) r,
  good_dim ndims -> gr_frames ndims same skip frames -> (forall f, In f frames -> has_cell ndims f /\ all_periodic f) ->
  (forall f x, In f frames -> In x (f_0 f) \/ In x (f_1 f) -> inside x (side_of f)) ->
  g_grid p = Some g -> (2 <= length g)%nat -> nth 0 g 0 < nth 1 g 0 -> nth 0 g 0 <> (nth 1 g 0 - nth 0 g 0) / 2 ->
  g_rmax p <= 0 -> limit (g_rmax p) (last_used skip frames) r -> (nth 1 g 0 - nth 0 g 0) / 2 <= r ->
  exists out, gr_object_fast Rops PI (sqrt (INR ndims)) fmax ndims same p skip frames = Ok out /\
    (0 < length out)%nat /\ fst (nth 0 out (0, 0)) = (nth 1 g 0 - nth 0 g 0) / 2 /\ fst (nth 0 out (0, 0)) <> nth 0 g 0.
Proof.
  intros fmax ndims same p skip frames g r Hgd Hf Hca Hins Hg Hn Hlt Hne Hrm Hr Hhr.
  assert (0 < nth 1 g 0 - nth 0 g 0) as H01' by lra.
  rewrite (fast_user fmax ndims same p skip frames g r Hgd Hf Hca Hins Hg Hn H01' Hrm Hr).
  eexists. split; [reflexivity|]. change (num Rops) with R in *. destruct (length g) as [|[|n]] eqn:El; [lia|lia|]. cbn [Nat.sub seq filter INR].
  destruct (Rleb_spec ((0 + 1 / 2) * (nth 1 g 0 - nth 0 g 0)) r) as [_|C]; [|exfalso; apply C; lra]. cbn [map nth fst length].
  split; [lia|]. cbn [INR]. split; lra.
Qed.
Print Assumptions C92_fast_start_refuted.

(** Refuted: the last point of the grid is not reported even if it is below the limit. *)
Theorem C92_fast_last_refuted : forall fmax ndims same (p : gparams Rops) skip frames (g : list R) dr r,
  good_dim ndims -> gr_frames ndims same skip frames -> (forall f, In f frames -> has_cell ndims f /\ all_periodic f) ->
  (forall f x, In f frames -> In x (f_0 f) \/ In x (f_1 f) -> inside x (side_of f)) ->
  g_grid p = Some g -> (2 <= length g)%nat -> 0 < dr -> (forall k, (k < length g)%nat -> nth k g 0 = (INR k + 1 / 2) * dr) ->
  g_rmax p <= 0 -> limit (g_rmax p) (last_used skip frames) r -> nth (length g - 1) g 0 <= r ->
  exists out, gr_object_fast Rops PI (sqrt (INR ndims)) fmax ndims same p skip frames = Ok out /\
    map fst out = removelast g /\ ~ In (nth (length g - 1) g 0) (map fst out).
Proof.
  intros fmax ndims same p skip frames g dr r Hgd Hf Hca Hins Hg Hn Hdr Hgk Hrm Hr Hlast.
  destruct (C92_fast_partial fmax ndims same p skip frames g dr r Hgd Hf Hca Hins Hg Hn Hdr Hgk Hrm Hr) as [out [E [Em _]]].
  exists out. split; [exact E|].
  assert (g <> []) as Hne by (intros ->; cbn in Hn; lia). pose proof (app_removelast_last 0 Hne) as Ea.
  assert (length (removelast g) = length g - 1)%nat as Hl by (apply (f_equal (@length R)) in Ea; rewrite app_length in Ea; cbn [length] in Ea; lia).
  assert (forall x, In x (removelast g) -> x < nth (length g - 1) g 0) as Hbelow.
  { intros x Hx. apply (In_nth _ _ 0) in Hx. destruct Hx as [k [Hk <-]].
    replace (nth k (removelast g) 0) with (nth k g 0) by (rewrite Ea at 1; rewrite app_nth1 by lia; reflexivity).
    rewrite !Hgk by lia. apply Rmult_lt_compat_r; [exact Hdr|]. assert (INR k < INR (length g - 1)) by (apply lt_INR; lia). lra. }
  assert (filter (fun x => Rleb x r) (removelast g) = removelast g) as Ef.
  { apply filter_all_true. intros x Hx. specialize (Hbelow x Hx). destruct (Rleb_spec x r); [reflexivity|lra]. }
  rewrite Em, Ef. split; [reflexivity|]. intros Hin. specialize (Hbelow _ Hin). lra.
Qed.
Print Assumptions C92_fast_last_refuted.

Definition ex92 (g : list R) : gparams Rops := mkGr (A:=Rops) (Some g) 1 (-1).
Lemma ex92_limit : forall g, limit (g_rmax (ex92 g)) (last_used 1 ex89) 4.
Proof. exact (fun _ => ex89_limit). Qed.
Example C92_nonvacuous :
  (exists out, gr_object_legacy Rops PI (sqrt (INR 2)) 2 true (ex92 [1; 2; 4; 5]) 1 ex89 = Ok out /\ fst (nth 1 out (0, 0)) = 5 / 2) /\
  (exists out, gr_object_legacy Rops PI (sqrt (INR 2)) 2 true (ex92 [1; 2; 3; 4; 5]) 1 ex89 = Ok out /\
    map fst out = filter (fun x => Rleb x 4) [1; 2; 3; 4; 5]) /\
  (exists out, gr_object_fast Rops PI (sqrt (INR 2)) 100 2 true (ex92 [1; 2; 3; 4]) 1 ex89 = Ok out /\ fst (nth 0 out (0, 0)) = 1 / 2) /\
  (exists out, gr_object_fast Rops PI (sqrt (INR 2)) 100 2 true (ex92 [1 / 2; 3 / 2; 5 / 2]) 1 ex89 = Ok out /\ map fst out = [1 / 2; 3 / 2]).
Proof.
  assert (gr_frames 2 true 1 ex89) as Hf by apply ex_gr_frames.
  assert (forall f, In f ex89 -> has_cell 2 f) as Hc by (intros f Hin; apply ex89_cells, Hin).
  assert (forall f x, In f ex89 -> In x (f_0 f) \/ In x (f_1 f) -> inside x (side_of f)) as Hins.
  { intros f x [<-|[<-|[]]] Hx; cbn in Hx; repeat (destruct Hx as [Hx|Hx]); subst; try contradiction; cbn; repeat constructor; lra. }
  assert (forall k, (k < 5)%nat -> nth k [1; 2; 3; 4; 5] 0 = INR k + 1) as H5.
  { intros k Hk. do 5 (destruct k as [|k]; [cbn; lra|]). lia. }
  assert (forall l : list R, l = [1; 2; 4; 5] \/ l = [1; 2; 3; 4; 5] -> StronglySorted Rlt l) as Hs.
  { intros l [-> | ->]; repeat constructor; lra. }
  split; [|split; [|split]].
  - destruct (C92_spacing_refuted 2 true (ex92 [1; 2; 4; 5]) 1 ex89 [1; 2; 4; 5] 4 1) as [out [E [_ [E1 _]]]]; auto.
    + exact ex_good2.
    + cbn. lia.
    + apply ex92_limit.
    + cbn. lia.
    + cbn. lra.
    + cbn. lra.
    + exists out. split; [exact E|]. rewrite E1. cbn [nth Nat.add]. lra.
  - destruct (C92_uniform_partial img_D 2 true (ex92 [1; 2; 3; 4; 5]) 1 ex89 [1; 2; 3; 4; 5] 1 4) as [out [E [E1 _]]]; auto.
    + exact img_D_distance.
    + exact ex_good2.
    + cbn. lia.
    + lra.
    + intros k Hk. cbn in Hk. rewrite !H5 by lia. rewrite plus_INR. cbn [INR]. lra.
    + apply ex92_limit.
    + exists out. split; [exact E|exact E1].
  - destruct (C92_fast_start_refuted 100 2 true (ex92 [1; 2; 3; 4]) 1 ex89 [1; 2; 3; 4] 4) as [out [E [_ [E1 _]]]]; auto.
    + exact ex_good2.
    + exact ex89_cells.
    + cbn. lia.
    + cbn. lra.
    + cbn. lra.
    + cbn. lra.
    + apply ex92_limit.
    + cbn. lra.
    + exists out. split; [exact E|]. rewrite E1. cbn [nth]. lra.
  - destruct (C92_fast_last_refuted 100 2 true (ex92 [1 / 2; 3 / 2; 5 / 2]) 1 ex89 [1 / 2; 3 / 2; 5 / 2] 1 4) as [out [E [E1 _]]]; auto.
    + exact ex_good2.
    + exact ex89_cells.
    + cbn. lia.
    + lra.
    + intros k Hk. cbn in Hk. do 3 (destruct k as [|k]; [cbn; lra|]). lia.
    + cbn. lra.
    + apply ex92_limit.
    + cbn. lra.
    + exists out. split; [exact E|exact E1].
Qed.
