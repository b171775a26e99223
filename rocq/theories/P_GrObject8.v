(** Radial distribution functions: failures, grids, periodic directions. *)
From Coq Require Import Ascii String List ZArith Bool Arith Lia Reals Lra Permutation Sorting.Sorted.
From Verif Require Import PyBase PyBaseFacts Num NumFacts Spec_Stats M_Helpers M_Correlation M_Dynamics M_Realspace M_LinkedCells
  M_GrObject Spec_Correlation Spec_Dynamics Spec_Pairs Spec_LinkedCells Spec_GrObject
  P_Helpers P_Dynamics P_Overlap P_Pairs P_Image P_Count P_Shell P_Gr P_Gr2 P_Gr3 P_GrFast P_GrFast2 P_LinkedCells P_LinkedCells2 P_LinkedCells3
  P_LinkedCells4 P_KGrid2 P_GrObject P_GrObject2 P_GrObject3 P_GrObject4 P_GrObject5 P_GrObject6 P_GrObject7.
Import ListNotations.
Local Open Scope R_scope.

Lemma all_points_close : forall dr r r' l, 0 < dr -> all_points dr r l -> all_points dr r' l -> Rabs (r - r') < dr.
Proof.
  intros dr r r' l Hdr [m [E B]] [m' [E' B']].
  assert (m = m') as <-.
  { apply (f_equal (@length R)) in E, E'. rewrite map_length, seq_length in *. congruence. }
  apply Rabs_def1; lra.
Qed.

Lemma last_used_one : forall frames f, last_used 1 (frames ++ [f]) = f.
Proof.
  intros frames f. unfold last_used. rewrite origins_one, app_length. cbn [length]. rewrite seq_app. cbn [seq Nat.add]. rewrite last_last.
  unfold frame_at. rewrite app_nth2, Nat.sub_diag by lia. reflexivity.
Qed.

Lemma first_origin : forall skip n, (1 <= skip)%nat -> (1 <= n)%nat -> exists os, origins 0 skip n = 0%nat :: os.
Proof.
  intros skip n Hs Hn. destruct n as [|n]; [lia|]. unfold origins. cbn [seq filter Nat.leb Nat.sub andb].
  rewrite Nat.mod_0_l by lia. cbn [Nat.eqb]. eexists. reflexivity.
Qed.

(** No cell. *)
Lemma legacy_nocell : forall ndims same (p : gparams Rops) skip frames,
  gr_frames ndims same skip frames -> (forall f, In f frames -> f_cell f = None) ->
  g_grid p = None -> 0 < (g_dr p : R) -> 3 / 2 * g_dr p <= grid_top p ->
  gr_object_legacy Rops PI (sqrt (INR ndims)) ndims same p skip frames = Err AttributeError.
Proof.
  intros ndims same p skip frames [Hd Hs Hne Hsame Hpop] Hc Hg Hdr H3.
  destruct (setup_nocell p (sqrt (INR ndims)) Hg Hdr H3) as [n [Hn [Es _]]].
  assert (1 <= length frames)%nat as Hlen by (destruct frames; [congruence|cbn; lia]).
  unfold gr_object_legacy. rewrite (get_Ok _ frames 0 no_frame) by lia. cbn [bind]. rewrite (Hc (nth 0 frames no_frame)) by (apply nth_In; lia).
  match goal with |- bind ?u _ = _ => replace u with (Ok (ugrid (g_dr p) n)) by (symmetry; exact Es) end. cbn [bind].
  change (num Rops) with R in *. rewrite (uedges_edges (g_dr p) n Hn). cbn [bind].
  pose proof (np_histogram_Ok Rops [] (uedges (g_dr p) n) (edges_ok_sorted _ (uedges_sorted (g_dr p) n Hdr))) as Eh.
  match goal with |- bind ?u _ = _ => match type of Eh with _ = ?v => replace u with v by (symmetry; exact Eh) end end. cbn [bind].
  rewrite py_range_spec by exact Hs. cbn [bind].
  change (filter (fun i => (0 <=? i) && ((i - 0) mod skip =? 0))%nat (seq 0 (length frames))) with (origins 0 skip (length frames)).
  destruct (first_origin skip (length frames) Hs Hlen) as [os Eo]. rewrite Eo. cbn [foldM].
  rewrite (get_Ok _ frames 0 no_frame) by lia. cbn [bind]. rewrite (Hc (nth 0 frames no_frame)) by (apply nth_In; lia). reflexivity.
Qed.

Lemma fast_nocell_default : forall fmax ndims same (p : gparams Rops) skip frames,
  gr_frames ndims same skip frames -> (forall f, In f frames -> f_cell f = None) ->
  (forall f x, In f frames -> In x (f_0 f) \/ In x (f_1 f) -> bounded_by (fmax / 4) x) -> 0 < fmax ->
  f_density (last_used skip frames) <> 0 ->
  g_grid p = None -> 0 < (g_dr p : R) -> g_rmax p <= 0 ->
  gr_object_fast Rops PI (sqrt (INR ndims)) fmax ndims same p skip frames = Err AttributeError.
Proof.
  intros fmax ndims same p skip frames Hf Hc Hb HF Hden Hg Hdr Hrm.
  assert (grid_top p = g_dr p * 1000) as Etop by (unfold grid_top; destruct (Rlt_dec 0 (g_rmax p)) as [C|_]; [exfalso; lra|reflexivity]).
  destruct (setup_nocell p (sqrt (INR ndims)) Hg Hdr) as [n [Hn [Es B]]].
  { rewrite Etop. change (num Rops) with R in *. lra. }
  destruct (nocell_hist fmax ndims same skip frames (g_dr p) n Hdr HF Hf Hb) as [h Hh].
  destruct Hf as [Hd Hs Hne Hsame Hpop].
  assert (1 <= length frames)%nat as Hlen by (destruct frames; [congruence|cbn; lia]).
  assert (In (frame_at frames 0) frames) as H0 by (apply frame_at_In; lia).
  pose proof (last_used_In skip frames Hs Hne) as HlIn.
  change (num Rops) with R in *. set (dr := g_dr p) in *. set (os := origins 0 skip (length frames)) in *.
  assert (length (ugrid dr n) = n) as Lg by apply ugrid_len.
  assert (dr = nth 1 (ugrid dr n) 0 - nth 0 (ugrid dr n) 0) as Edr by (apply ugrid_step; exact Hn).
  rewrite (fast_object_bind PI (sqrt (INR ndims)) fmax ndims same p skip frames (ugrid dr n) dr false None (negb same) false h
    (fun i => length (f_0 (frame_at frames i))) (fun i => length (f_1 (frame_at frames i)))
    (INR (f_npart (last_used skip frames)) / f_density (last_used skip frames))); try assumption.
  - rewrite (Hc _ HlIn). unfold gr_crop. rewrite rmax_given_R. destruct (Rltb_spec 0 (g_rmax p)) as [C|_]; [exfalso; lra|reflexivity].
  - rewrite (Hc _ H0). exact Es.
  - change (num Rops) with R in *. rewrite Lg. exact Hn.
  - unfold use_linked. rewrite (Hc _ H0). reflexivity.
  - change (num Rops) with R in *. rewrite Lg. intros ls lf acc i Hi Hls. assert (ls = None) as -> by (destruct Hls; assumption).
    assert (In (frame_at frames i) frames) as Hin by (apply frame_at_In, (origins_lt skip), Hi).
    apply step_nocell; auto. apply Hh, Hi.
  - rewrite (Hc _ HlIn). unfold pydiv. cbn [neq Rops n0]. unfold Reqb.
    destruct (Req_EM_T (f_density (last_used skip frames)) 0) as [C|_]; [contradiction|]. rewrite nofnat_R. reflexivity.
Qed.

(** Cells periodic along some directions only. *)
Lemma fast_mixed : forall fmax ndims same (p : gparams Rops) skip frames (c : cellR) L,
  gr_frames ndims same skip frames -> has_cell ndims (frame_at frames 0) -> f_cell (frame_at frames 0) = Some c ->
  (0 < n_periodic c < ndims)%nat ->
  g_grid p = None -> 0 < (g_dr p : R) -> g_rmax p <= 0 -> largest L (side_of (frame_at frames 0)) -> 3 / 2 * g_dr p <= L * sqrt (INR ndims) ->
  gr_object_fast Rops PI (sqrt (INR ndims)) fmax ndims same p skip frames = Err AssertionError.
Proof.
  intros fmax ndims same p skip frames c L [Hd Hs Hne Hsame Hpop] Hc0 Ec Hn Hg Hdr Hrm HL H3.
  assert (1 <= length frames)%nat as Hlen by (destruct frames; [congruence|cbn; lia]).
  destruct (setup_default p ndims (frame_at frames 0) L Hg Hd Hc0 Hdr HL H3) as [n [Hn2 [Es B]]].
  unfold gr_object_fast. rewrite (get_Ok _ frames 0 no_frame) by lia. cbn [bind]. fold (frame_at frames 0).
  match goal with |- bind ?x _ = _ => replace x with (Ok (ugrid (g_dr p) n)) by (symmetry; exact Es) end. cbn [bind].
  change (num Rops) with R in *.
  rewrite (get_Ok _ (ugrid (g_dr p) n) 0 0), (get_Ok _ (ugrid (g_dr p) n) 1 0) by (rewrite ugrid_len; lia). cbn [bind].
  assert (use_linked Rops p ndims (frame_at frames 0) = Ok false) as ->.
  { unfold use_linked. rewrite Ec, rmax_given_R. destruct (Rltb_spec 0 (g_rmax p)) as [C|_]; [exfalso; lra|reflexivity]. }
  cbn [bind]. rewrite py_range_spec by exact Hs. cbn [bind].
  change (filter (fun i => (0 <=? i) && ((i - 0) mod skip =? 0))%nat (seq 0 (length frames))) with (origins 0 skip (length frames)).
  destruct (first_origin skip (length frames) Hs Hlen) as [os Eo]. rewrite Eo. cbn [foldM].
  rewrite (get_Ok _ frames 0 no_frame) by lia. cbn [bind]. fold (frame_at frames 0).
  assert (In (frame_at frames 0) frames) as H0 by (apply frame_at_In; lia). destruct (Hpop _ H0) as [P0 [P1 _]].
  unfold fast_object_step.
  assert ((length (f_0 (frame_at frames 0)) =? 0)%nat || (length (f_1 (frame_at frames 0)) =? 0)%nat = false) as ->.
  { destruct (f_0 (frame_at frames 0)); [congruence|]. destruct (f_1 (frame_at frames 0)); [congruence|]. reflexivity. }
  rewrite Ec. cbn [bind kernel_side].
  destruct (Nat.eqb_spec (n_periodic c) 0); [lia|]. destruct (Nat.eqb_spec (n_periodic c) ndims); [lia|]. reflexivity.
Qed.

(** The legacy version does not look at the periodic directions. *)
Lemma setup_flags : forall (p : gparams Rops) sd (c : cellR) fl,
  gr_setup_grid Rops p sd (Some (mkCell (A:=Rops) (c_side c) fl)) = gr_setup_grid Rops p sd (Some c).
Proof. reflexivity. Qed.

Lemma with_periodic_side : forall fl f, side_of (with_periodic fl f) = side_of f.
Proof. intros fl f. unfold side_of, with_periodic. cbn [f_cell]. destruct (f_cell f); reflexivity. Qed.

Lemma legacy_flags : forall ndims same (p : gparams Rops) skip frames fl r grid,
  gr_frames ndims same skip frames -> (forall f, In f frames -> has_cell ndims f) -> length fl = ndims ->
  gr_setup_grid Rops p (sqrt (INR ndims)) (f_cell (frame_at frames 0)) = Ok grid ->
  limit (g_rmax p) (last_used skip frames) r ->
  gr_object_legacy Rops PI (sqrt (INR ndims)) ndims same p skip (map (with_periodic fl) frames)
  = gr_object_legacy Rops PI (sqrt (INR ndims)) ndims same p skip frames.
Proof.
  intros ndims same p skip frames fl r grid Hf Hc Hfl Hg Hr.
  assert (1 <= length frames)%nat as Hlen by (destruct frames; [destruct (gf_some _ _ _ _ Hf); reflexivity|cbn; lia]).
  assert (forall i, (i < length frames)%nat -> frame_at (map (with_periodic fl) frames) i = with_periodic fl (frame_at frames i)) as Hat.
  { intros i Hi. unfold frame_at. rewrite (nth_indep _ no_frame (with_periodic fl no_frame)) by (rewrite map_length; exact Hi). apply map_nth. }
  assert (last_used skip (map (with_periodic fl) frames) = with_periodic fl (last_used skip frames)) as El.
  { unfold last_used. rewrite map_length. apply Hat, (origins_lt skip), last_In, origins_nonempty; [exact (gf_skip _ _ _ _ Hf)|exact Hlen]. }
  rewrite (legacy_reduces PI ndims same p skip frames grid r Hf Hc Hg Hr).
  rewrite (legacy_reduces PI ndims same p skip (map (with_periodic fl) frames) grid r).
  - unfold volume_of. rewrite El, with_periodic_side. f_equal; unfold group0, group1, sides_of; rewrite map_map; try reflexivity.
    apply map_ext. intros f. apply with_periodic_side.
  - destruct Hf as [H1 H2 H3 H4 H5]. constructor; auto.
    + intros E. apply map_eq_nil in E. congruence.
    + intros E f Hin. apply in_map_iff in Hin. destruct Hin as [f' [<- Hin]]. cbn. auto.
    + intros f Hin. apply in_map_iff in Hin. destruct Hin as [f' [<- Hin]]. exact (H5 f' Hin).
  - intros f Hin. apply in_map_iff in Hin. destruct Hin as [f' [<- Hin]]. destruct (Hc f' Hin) as [c [Ec [A1 [A2 A3]]]].
    unfold with_periodic. rewrite Ec. exists (mkCell (A:=Rops) (c_side c) fl). cbn. auto.
  - rewrite Hat by lia. assert (In (frame_at frames 0) frames) as H0 by (apply frame_at_In; lia).
    destruct (Hc _ H0) as [c [Ec _]]. unfold with_periodic. cbn [f_cell]. rewrite Ec in *. exact Hg.
  - rewrite El. unfold limit. rewrite with_periodic_side. exact Hr.
Qed.

(** Order of the frames, default grid and constant cell. *)
Lemma perm_frames : forall ndims same skip frames frames', gr_frames ndims same skip frames -> Permutation frames frames' ->
  gr_frames ndims same skip frames'.
Proof.
  intros ndims same skip frames frames' [H1 H2 H3 H4 H5] HP. constructor; auto.
  - intros E. rewrite E in HP. apply Permutation_sym, Permutation_nil in HP. congruence.
  - intros E f Hin. apply H4; [exact E|]. apply (Permutation_in _ (Permutation_sym HP)), Hin.
  - intros f Hin. apply H5, (Permutation_in _ (Permutation_sym HP)), Hin.
Qed.

Lemma mean_used_one : forall pos, mean_used 1 pos = mean_number pos.
Proof.
  intros pos. unfold mean_used, mean_number. rewrite origins_one. f_equal. rewrite <- (nth_seq_all _ pos []) at 2. rewrite map_map. reflexivity.
Qed.

Lemma all_points_unique : forall dr r l l', 0 < dr -> all_points dr r l -> all_points dr r l' -> l = l'.
Proof.
  intros dr r l l' Hdr [m [-> B]] [m' [-> B']]. f_equal. f_equal.
  destruct (Nat.lt_total m m') as [H|[H|H]]; [|exact H|].
  - exfalso. assert (INR m + 1 <= INR m') by (rewrite <- S_INR; apply le_INR; lia).
    assert ((INR m + 1) * dr <= INR m' * dr) by (apply Rmult_le_compat_r; lra). lra.
  - exfalso. assert (INR m' + 1 <= INR m) by (rewrite <- S_INR; apply le_INR; lia).
    assert ((INR m' + 1) * dr <= INR m * dr) by (apply Rmult_le_compat_r; lra). lra.
Qed.

Lemma pairs_ext : forall l l' : list (R * R), map fst l = map fst l' -> (forall k, (k < length l)%nat -> snd (nth k l (0, 0)) = snd (nth k l' (0, 0))) -> l = l'.
Proof.
  intros l l' H1 H2. assert (length l = length l') as E by (apply (f_equal (@length R)) in H1; rewrite !map_length in H1; exact H1).
  apply nth_ext with (d := (0, 0)) (d' := (0, 0)); [exact E|]. intros k Hk. specialize (H2 k Hk).
  assert (fst (nth k l (0, 0)) = fst (nth k l' (0, 0))) as H.
  { change 0 with (fst (0, 0)) in H1. rewrite <- !(map_nth fst), H1. reflexivity. }
  destruct (nth k l (0, 0)), (nth k l' (0, 0)). cbn in *. congruence.
Qed.

Lemma order_facts : forall D same frames frames', Permutation frames frames' ->
  (forall P, mean_neighbours D same 1 (group0 frames') (group1 frames') (sides_of frames') P
      = mean_neighbours D same 1 (group0 frames) (group1 frames) (sides_of frames) P) /\
  mean_number (group0 frames') = mean_number (group0 frames) /\ mean_number (group1 frames') = mean_number (group1 frames).
Proof.
  intros D same frames frames' HP. split; [|split].
  - intros P. rewrite !mean_neighbours_frames. apply rmean_perm, Permutation_map, Permutation_sym, HP.
  - unfold mean_number, group0. apply rmean_perm, Permutation_map, Permutation_map, Permutation_sym, HP.
  - unfold mean_number, group1. apply rmean_perm, Permutation_map, Permutation_map, Permutation_sym, HP.
Qed.

Lemma order_constant : forall fmax ndims same (p : gparams Rops) frames frames' side L,
  good_dim ndims -> gr_frames ndims same 1 frames -> Permutation frames frames' ->
  (forall f, In f frames -> has_cell ndims f /\ side_of f = side) ->
  g_grid p = None -> 0 < (g_dr p : R) -> largest L side ->
  (forall r, limit (g_rmax p) (frame_at frames 0) r -> r <= L * sqrt (INR ndims) - g_dr p) ->
  3 / 2 * g_dr p <= L * sqrt (INR ndims) ->
  gr_object_legacy Rops PI (sqrt (INR ndims)) ndims same p 1 frames' = gr_object_legacy Rops PI (sqrt (INR ndims)) ndims same p 1 frames /\
  ((forall f, In f frames -> all_periodic f) ->
   (forall f x, In f frames -> In x (f_0 f) \/ In x (f_1 f) -> folded x side) -> g_rmax p <= 0 ->
   gr_object_fast Rops PI (sqrt (INR ndims)) fmax ndims same p 1 frames' = gr_object_fast Rops PI (sqrt (INR ndims)) fmax ndims same p 1 frames).
Proof.
  intros fmax ndims same p frames frames' side L Hgd Hf HP Hc Hg Hdr HL Hlim H3.
  pose proof (perm_frames _ _ _ _ _ Hf HP) as Hf'.
  assert (forall f, In f frames' -> In f frames) as Hin' by (intros f Hin; apply (Permutation_in _ (Permutation_sym HP)), Hin).
  assert (forall fs, gr_frames ndims same 1 fs -> In (frame_at fs 0) fs) as H0.
  { intros fs [_ _ Hne _ _]. apply frame_at_In. destruct fs; [congruence|cbn; lia]. }
  assert (forall fs, gr_frames ndims same 1 fs -> In (last_used 1 fs) fs) as Hl.
  { intros fs [_ _ Hne _ _]. apply last_used_In; [lia|exact Hne]. }
  assert (side_of (frame_at frames 0) = side) as S0 by (apply Hc, H0, Hf).
  assert (side_of (frame_at frames' 0) = side) as S0' by (apply Hc, Hin', H0, Hf').
  assert (side_of (last_used 1 frames) = side) as Sl by (apply Hc, Hl, Hf).
  assert (side_of (last_used 1 frames') = side) as Sl' by (apply Hc, Hin', Hl, Hf').
  destruct (limit_exists ndims (g_rmax p) (frame_at frames 0) (gf_dims _ _ _ _ Hf) (proj1 (Hc _ (H0 _ Hf)))) as [r [Hr Hr0]].
  assert (0 < r <= L * sqrt (INR ndims) - g_dr p) as Hrr by (split; [exact Hr0|apply Hlim, Hr]).
  assert (limit (g_rmax p) (last_used 1 frames) r) as Hr1 by (unfold limit in *; rewrite Sl; rewrite S0 in Hr; exact Hr).
  assert (limit (g_rmax p) (last_used 1 frames') r) as Hr2 by (unfold limit in *; rewrite Sl'; rewrite S0 in Hr; exact Hr).
  assert (volume_of (last_used 1 frames') = volume_of (last_used 1 frames)) as EV by (unfold volume_of; rewrite Sl, Sl'; reflexivity).
  destruct (order_facts img_D same frames frames' HP) as [EN [E0 E1]]. split.
  - destruct (legacy_default img_D ndims same p 1 frames L r img_D_distance Hgd Hf (fun f Hi => proj1 (Hc f Hi)) Hg Hdr) as [o [Eo [Ao Vo]]]; auto.
    { rewrite S0. exact HL. }
    destruct (legacy_default img_D ndims same p 1 frames' L r img_D_distance Hgd Hf' (fun f Hi => proj1 (Hc f (Hin' f Hi))) Hg Hdr) as [o' [Eo' [Ao' Vo']]]; auto.
    { rewrite S0'. exact HL. }
    rewrite Eo, Eo'. f_equal. assert (map fst o' = map fst o) as Ef by (apply (all_points_unique (g_dr p) r); assumption).
    apply pairs_ext; [exact Ef|]. intros k Hk. rewrite Vo', EN, E0, E1, EV by exact Hk. symmetry. apply Vo.
    apply (f_equal (@length R)) in Ef. rewrite !map_length in Ef. change (num Rops) with R in *. lia.
  - intros Hper Hfold Hrm.
    assert (forall f, In f frames -> has_cell ndims f /\ all_periodic f) as Hca by (intros f Hi; split; [apply Hc, Hi|apply Hper, Hi]).
    destruct (fast_default fmax ndims same p 1 frames L r Hgd Hf Hca) as [o [Eo [Ao Vo]]]; auto.
    { intros f x Hi Hx. rewrite (proj2 (Hc f Hi)). apply (Hfold f); assumption. } { intros; exfalso; lra. } { rewrite S0. exact HL. }
    destruct (fast_default fmax ndims same p 1 frames' L r Hgd Hf' (fun f Hi => Hca f (Hin' f Hi))) as [o' [Eo' [Ao' Vo']]]; auto.
    { intros f x Hi Hx. rewrite (proj2 (Hc f (Hin' f Hi))). apply (Hfold f); [apply Hin', Hi|exact Hx]. } { intros; exfalso; lra. } { rewrite S0'. exact HL. }
    rewrite Eo, Eo'. f_equal. assert (map fst o' = map fst o) as Ef by (apply (all_points_unique (g_dr p) r); assumption).
    apply pairs_ext; [exact Ef|]. intros k Hk. rewrite Vo', EN, !mean_used_one, E0, E1, EV by (try exact Hk; left; exact Hrm).
    symmetry. rewrite <- !mean_used_one. apply Vo; [|left; exact Hrm].
    apply (f_equal (@length R)) in Ef. rewrite !map_length in Ef. change (num Rops) with R in *. lia.
Qed.
