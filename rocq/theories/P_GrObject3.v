(** Radial distribution functions with the default grid. *)
From Coq Require Import Ascii String List ZArith Bool Arith Lia Reals Lra Permutation Sorting.Sorted.
From Verif Require Import PyBase PyBaseFacts Num NumFacts Spec_Stats M_Helpers M_Correlation M_Dynamics M_Realspace M_LinkedCells
  M_GrObject Spec_Correlation Spec_Dynamics Spec_Pairs Spec_LinkedCells Spec_GrObject
  P_Helpers P_Dynamics P_Overlap P_Pairs P_Image P_Count P_Shell P_Gr P_Gr2 P_Gr3 P_GrFast P_GrFast2 P_LinkedCells P_LinkedCells2 P_LinkedCells3
  P_LinkedCells4 P_KGrid2 P_GrObject P_GrObject2.
Import ListNotations.
Local Open Scope R_scope.

Lemma ugrid_step : forall (dr : R) n, (2 <= n)%nat -> dr = nth 1 (ugrid dr n) 0 - nth 0 (ugrid dr n) 0.
Proof. intros dr n Hn. unfold ugrid. rewrite !nth_map_seq by lia. cbn [INR]. field. Qed.

Definition the_cell (f : frameR) : cellR := match f_cell f with Some c => c | None => mkCell (A:=Rops) [] [] end.

Lemma legacy_reduces : forall pi ndims same (p : gparams Rops) skip frames grid r,
  gr_frames ndims same skip frames -> (forall f, In f frames -> has_cell ndims f) ->
  gr_setup_grid Rops p (sqrt (INR ndims)) (f_cell (frame_at frames 0)) = Ok grid ->
  limit (g_rmax p) (last_used skip frames) r ->
  gr_object_legacy Rops pi (sqrt (INR ndims)) ndims same p skip frames
  = gr_legacy Rops pi ndims same grid skip (group0 frames) (group1 frames) (sides_of frames) (volume_of (last_used skip frames)) r.
Proof.
  intros pi ndims same p skip frames grid r Hf Hc Hg Hr.
  pose proof (last_used_In skip frames (gf_skip _ _ _ _ Hf) (gf_some _ _ _ _ Hf)) as HlIn.
  destruct (Hc _ HlIn) as [cl [Ecl _]].
  assert (the_cell (last_used skip frames) = cl) as Et by (unfold the_cell; rewrite Ecl; reflexivity).
  rewrite (legacy_bridge Rops pi (sqrt (INR ndims)) ndims same p skip frames no_frame grid r cl the_cell).
  - rewrite (cell_volume_R (last_used skip frames) cl Ecl). f_equal.
    unfold sides_of. apply map_ext. intros f. unfold the_cell, side_of. destruct (f_cell f); reflexivity.
  - exact (gf_some _ _ _ _ Hf).
  - exact (gf_skip _ _ _ _ Hf).
  - intros f Hin. destruct (Hc f Hin) as [c [Ec _]]. unfold the_cell. rewrite Ec. reflexivity.
  - exact Hg.
  - symmetry. exact Et.
  - rewrite <- Ecl. apply gr_crop_R; [left; rewrite Ecl; discriminate|exact Hr].
Qed.

Lemma uedges_center : forall dr n k, (k < n)%nat -> center (uedges dr n) k = dr * INR k + dr / 2.
Proof. intros dr n k Hk. unfold center. rewrite !uedges_nth by lia. rewrite plus_INR. cbn [INR]. field. Qed.

Lemma legacy_default : forall D ndims same (p : gparams Rops) skip frames L r,
  is_distance D -> good_dim ndims ->
  gr_frames ndims same skip frames -> (forall f, In f frames -> has_cell ndims f) ->
  g_grid p = None -> 0 < (g_dr p : R) -> largest L (side_of (frame_at frames 0)) -> limit (g_rmax p) (last_used skip frames) r ->
  3 / 2 * g_dr p <= L * sqrt (INR ndims) -> 0 < r <= L * sqrt (INR ndims) - g_dr p ->
  exists out, gr_object_legacy Rops PI (sqrt (INR ndims)) ndims same p skip frames = Ok out /\
    all_points (g_dr p) r (map fst out) /\
    forall k, (k < length out)%nat -> snd (nth k out (0, 0))
      = mean_neighbours D same skip (group0 frames) (group1 frames) (sides_of frames) (slot (g_dr p) k)
        / (mean_number (group1 frames) / volume_of (last_used skip frames)
           * (ball ndims (INR (k + 1) * g_dr p) - ball ndims (INR k * g_dr p)) * mean_number (group0 frames)).
Proof.
  intros D ndims same p skip frames L r HD Hgd Hf Hc Hg Hdr HL Hr H3 [Hr0 Hr1].
  assert (In (frame_at frames 0) frames) as H0 by (apply frame_at_In; destruct frames; [destruct (gf_some _ _ _ _ Hf); reflexivity|cbn; lia]).
  destruct (setup_default p ndims (frame_at frames 0) L Hg (gf_dims _ _ _ _ Hf) (Hc _ H0) Hdr HL H3) as [n [Hn [Es B]]].
  rewrite (legacy_reduces PI ndims same p skip frames _ r Hf Hc Es Hr).
  pose proof (gr_frames_input ndims same skip frames Hf Hc) as Hin. change (num Rops) with R in *. set (dr := g_dr p) in *.
  rewrite (gr_legacy_form D PI _ r ndims same (ugrid dr n) (uedges dr n) skip (group0 frames) (group1 frames) (sides_of frames)
    HD (uedges_edges dr n Hn) (uedges_sorted dr n Hdr) Hin).
  eexists. split; [reflexivity|].
  assert (bins_upto (uedges dr n) r = filter (fun k => Rleb (dr * INR k + dr / 2) r) (seq 0 n)) as ->.
  { unfold bins_upto. rewrite uedges_len. replace (n + 1 - 1)%nat with n by lia.
    apply filter_ext_in. intros k Hk. apply in_seq in Hk. rewrite uedges_center by lia. reflexivity. }
  rewrite minus_INR in B by lia. cbn [INR] in B.
  assert (r < dr * INR n + dr / 2) as HN by lra.
  destruct (points_prefix dr n r Hdr Hr0 HN) as [m [Hm [E Bm]]]. rewrite E.
  assert (m < n)%nat as Hmn.
  { apply INR_lt. apply Rmult_lt_reg_r with dr; [exact Hdr|]. lra. }
  split.
  - exists m. split; [|exact Bm]. rewrite map_map. apply map_ext_in. intros k Hk. apply in_seq in Hk. cbn [fst].
    rewrite uedges_center by lia. field.
  - intros k Hk. rewrite map_length, seq_length in Hk. rewrite nth_map_seq by exact Hk. cbn [snd].
    rewrite !uedges_nth by lia. rewrite shell_good by exact Hgd. f_equal. unfold mean_neighbours. f_equal. apply map_ext. intros i. f_equal.
    unfold neighbours. destruct same.
    + apply cnt_ext. intros q _. rewrite uedges_slot by lia. reflexivity.
    + apply count_prod_ext. intros x y _ _. rewrite uedges_slot by lia. reflexivity.
Qed.

(** Fully periodic cells. *)
Lemma step_periodic : forall big ndims same (p : gparams Rops) dr n ls lf acc (f : frameR) (c : cellR) h,
  (1 <= ndims)%nat -> f_cell f = Some c -> length (c_side c) = ndims -> length (c_periodic c) = ndims ->
  (forall b, In b (c_periodic c) -> b = true) -> populated ndims f -> (same = true -> f_1 f = f_0 f) ->
  (if same then gr_self_c Rops (f_0 f) (c_side c) dr n else gr_distinct_c Rops (f_0 f) (f_1 f) (c_side c) dr n) = Ok h ->
  fast_object_step Rops big ndims same p false dr n (ls, lf, acc) f
  = Ok (ls, Some (f, (negb same, false)), acc ++ [(h, (length (f_0 f), length (f_1 f)))]).
Proof.
  intros big ndims same p dr n ls lf acc f c h Hn Ec Hl Hlp Hb [P0 [P1 _]] Hsame Hh.
  destruct (kernel_side_periodic big ndims c Hn Hl Hlp Hb) as [En Ek].
  unfold fast_object_step.
  assert ((length (f_0 f) =? 0)%nat || (length (f_1 f) =? 0)%nat = false) as ->.
  { destruct (f_0 f); [congruence|]. destruct (f_1 f); [congruence|]. reflexivity. }
  rewrite Ec, En. destruct (Nat.eqb_spec ndims 0) as [|_]; [lia|]. cbn [andb]. rewrite orb_false_r. cbn [bind].
  rewrite Ek. cbn [bind]. destruct same; cbn [negb].
  - rewrite Hh. cbn [bind]. rewrite (Hsame eq_refl). reflexivity.
  - rewrite Hh. reflexivity.
Qed.

Lemma step_periodic_linked : forall big ndims same (p : gparams Rops) dr n ls lf acc (f : frameR) (c : cellR) s h,
  (1 <= ndims)%nat -> f_cell f = Some c -> length (c_side c) = ndims -> length (c_periodic c) = ndims ->
  (forall b, In b (c_periodic c) -> b = true) -> populated ndims f -> (same = true -> f_1 f = f_0 f) ->
  linked_frame Rops same (g_rmax p) dr n ls (f_0 f) (f_1 f) (c_side c) = Ok (s, h) ->
  fast_object_step Rops big ndims same p true dr n (ls, lf, acc) f
  = Ok (Some s, Some (f, (negb same, false)), acc ++ [(h, (length (f_0 f), length (f_1 f)))]).
Proof.
  intros big ndims same p dr n ls lf acc f c s h Hn Ec Hl Hlp Hb [P0 [P1 _]] Hsame Hh.
  destruct (kernel_side_periodic big ndims c Hn Hl Hlp Hb) as [En Ek].
  unfold fast_object_step.
  assert ((length (f_0 f) =? 0)%nat || (length (f_1 f) =? 0)%nat = false) as ->.
  { destruct (f_0 f); [congruence|]. destruct (f_1 f); [congruence|]. reflexivity. }
  rewrite Ec, En. destruct (Nat.eqb_spec ndims 0) as [|_]; [lia|]. cbn [andb need_cell]. rewrite orb_false_r. cbn [bind].
  assert (c_periodic c = repeat true (length (c_side c))) as Ep.
  { rewrite Hl, <- Hlp. clear - Hb. induction (c_periodic c) as [|b l IH]; [reflexivity|]. cbn [length repeat].
    rewrite (Hb b (or_introl eq_refl)). f_equal. apply IH. intros; apply Hb; right; assumption. }
  unfold linked_frame in Hh. change (num Rops) with R in *. rewrite Ep.
  apply bind_Ok_inv in Hh. destruct Hh as [[s' ns] [E1 Hh]].
  apply bind_Ok_inv in Hh. destruct Hh as [m [E2 Hh]].
  apply bind_Ok_inv in Hh. destruct Hh as [h' [E3 Hh]]. apply Ok_inj in Hh.
  assert (s' = s /\ h' = h) as [-> ->] by (split; congruence).
  destruct same; cbn [negb]; rewrite E1; cbn [bind]; rewrite E2; cbn [bind]; rewrite Ek; cbn [bind]; rewrite E3; cbn [bind];
    [rewrite (Hsame eq_refl)|]; reflexivity.
Qed.

Lemma has_cell_the : forall ndims f, has_cell ndims f -> f_cell f = Some (the_cell f) /\ c_side (the_cell f) = side_of f /\
  length (side_of f) = ndims /\ positive (side_of f) /\ length (c_periodic (the_cell f)) = ndims.
Proof.
  intros ndims f [c [Ec [Hl [Hp Hq]]]]. unfold the_cell, side_of. rewrite Ec. auto.
Qed.

Lemma all_periodic_the : forall f, all_periodic f -> forall b, In b (c_periodic (the_cell f)) -> b = true.
Proof. intros f [c [Ec H]]. unfold the_cell. rewrite Ec. exact H. Qed.
Lemma none_periodic_the : forall f, none_periodic f -> forall b, In b (c_periodic (the_cell f)) -> b = false.
Proof. intros f [c [Ec H]]. unfold the_cell. rewrite Ec. exact H. Qed.

Lemma mean_of_group : forall (g : frameR -> list (list R)) skip frames (pos : list (list (list R))),
  length pos = length frames -> (forall i, nth i pos [] = g (frame_at frames i)) ->
  mean_of (fun i => length (g (frame_at frames i))) (origins 0 skip (length frames)) = mean_used skip pos.
Proof. intros g skip frames pos Hl H. unfold mean_of, mean_used. rewrite Hl. f_equal. apply map_ext. intros i. rewrite H. reflexivity. Qed.

Lemma fast_default : forall big ndims same (p : gparams Rops) skip frames L r,
  good_dim ndims ->
  gr_frames ndims same skip frames -> (forall f, In f frames -> has_cell ndims f /\ all_periodic f) ->
  (forall f x, In f frames -> In x (f_0 f) \/ In x (f_1 f) -> folded x (side_of f)) ->
  (0 < g_rmax p -> dim23 ndims /\ forall f, In f frames -> side_of f = side_of (frame_at frames 0)) ->
  g_grid p = None -> 0 < (g_dr p : R) -> largest L (side_of (frame_at frames 0)) -> limit (g_rmax p) (last_used skip frames) r ->
  3 / 2 * g_dr p <= L * sqrt (INR ndims) -> 0 < r <= L * sqrt (INR ndims) - g_dr p ->
  exists out, gr_object_fast Rops PI (sqrt (INR ndims)) big ndims same p skip frames = Ok out /\
    all_points (g_dr p) r (map fst out) /\
    forall k, (k < length out)%nat -> g_rmax p <= 0 \/ INR (k + 1) * g_dr p <= g_rmax p -> snd (nth k out (0, 0))
      = mean_neighbours img_D same skip (group0 frames) (group1 frames) (sides_of frames) (slot (g_dr p) k)
        / (mean_used skip (group1 frames) / volume_of (last_used skip frames)
           * (ball ndims (INR (k + 1) * g_dr p) - ball ndims (INR k * g_dr p)) * mean_used skip (group0 frames)).
Proof.
  intros big ndims same p skip frames L r Hgd Hf Hca Hfold Hconst Hg Hdr HL Hr H3 [Hr0 Hr1].
  assert (forall f, In f frames -> has_cell ndims f) as Hc by (intros f Hin; apply Hca, Hin).
  destruct Hf as [Hd Hs Hne Hsame Hpop].
  assert (1 <= length frames)%nat as Hlen by (destruct frames; [congruence|cbn; lia]).
  assert (In (frame_at frames 0) frames) as H0 by (apply frame_at_In; lia).
  destruct (setup_default p ndims (frame_at frames 0) L Hg Hd (Hc _ H0) Hdr HL H3) as [n [Hn [Es B]]].
  destruct (has_cell_the _ _ (Hc _ H0)) as [C1 [C2 [C3 [C4 C5]]]].
  destruct (use_linked_R p ndims (frame_at frames 0) (the_cell (frame_at frames 0)) Hd C1) as [linked [Elk Hlk]].
  { rewrite C2. exact C3. } { rewrite C2. exact C4. }
  rewrite C2 in Hlk.
  change (num Rops) with R in *. set (dr := g_dr p) in *.
  assert (length (ugrid dr n) = n) as Lg by apply ugrid_len.
  assert (dr = nth 1 (ugrid dr n) 0 - nth 0 (ugrid dr n) 0) as Edr.
  { apply ugrid_step. exact Hn. }
  set (os := origins 0 skip (length frames)).
  assert (forall i, In i os -> In (frame_at frames i) frames) as Hos by (intros i Hi; apply frame_at_In, (origins_lt skip), Hi).
  pose proof (last_used_In skip frames Hs Hne) as HlIn.
  destruct (has_cell_the _ _ (Hc _ HlIn)) as [D1 [D2 _]].
  assert (forall f, In f frames -> fits (side_of f) (f_0 f) /\ fits (side_of f) (f_1 f)) as Hfit.
  { intros f Hin. destruct (Hpop f Hin) as [P0 [P1 P2]]. destruct (has_cell_the _ _ (Hc _ Hin)) as [_ [_ [S3 _]]].
    split; (split; [assumption|]); intros x Hx; rewrite S3; apply P2; auto. }
  assert (forall f x, In f frames -> In x (f_0 f) \/ In x (f_1 f) -> inside x (side_of f)) as Hins.
  { intros f x Hin Hx. apply folded_inside, (Hfold f x Hin Hx). }
  (* histograms of all frames *)
  assert (exists h' : nat -> list nat, forall i, In i os ->
     (if same then gr_self_c Rops (f_0 (frame_at frames i)) (side_of (frame_at frames i)) dr n
      else gr_distinct_c Rops (f_0 (frame_at frames i)) (f_1 (frame_at frames i)) (side_of (frame_at frames i)) dr n) = Ok (h' i) /\
     forall k, (k < n)%nat -> INR (neighbours same img_D (slot dr k) (side_of (frame_at frames i)) (f_0 (frame_at frames i)) (f_1 (frame_at frames i)))
        = (if same then 2 else 1) * INR (nth k (h' i) 0%nat)) as [h' Hh'].
  { exists (fun i => match (if same then gr_self_c Rops (f_0 (frame_at frames i)) (side_of (frame_at frames i)) dr n
      else gr_distinct_c Rops (f_0 (frame_at frames i)) (f_1 (frame_at frames i)) (side_of (frame_at frames i)) dr n) with Ok h => h | Err _ => [] end).
    intros i Hi. specialize (Hos i Hi). destruct (has_cell_the _ _ (Hc _ Hos)) as [_ [_ [_ [S4 _]]]]. destruct (Hfit _ Hos) as [F0 F1].
    destruct (fast_frame same (side_of (frame_at frames i)) (f_0 (frame_at frames i)) (f_1 (frame_at frames i)) dr n Hdr S4 F0 F1)
      as [h [E [_ C]]].
    - intros E. apply Hsame; assumption.
    - intros x Hx. apply Hins; auto.
    - intros x Hx. apply Hins; auto.
    - change (num Rops) with R in *. rewrite E. split; [reflexivity|exact C]. }
  (* histograms found by the code *)
  assert (exists (s0 : option (setup Rops)) (h : nat -> list nat),
    (forall ls lf acc i, In i os -> ls = None \/ ls = s0 ->
       fast_object_step Rops big ndims same p linked dr n (ls, lf, acc) (frame_at frames i)
       = Ok (s0, Some (frame_at frames i, (negb same, false)), acc ++ [(h i, (length (f_0 (frame_at frames i)), length (f_1 (frame_at frames i))))])) /\
    forall i k, In i os -> (k < n)%nat -> g_rmax p <= 0 \/ INR (k + 1) * dr <= g_rmax p -> nth k (h i) 0%nat = nth k (h' i) 0%nat) as [s0 [h [Hstep Hh]]].
  { destruct linked.
    - destruct (Hlk eq_refl) as [Hrm Hb]. destruct (Hconst Hrm) as [H23 Hsd]. set (side := side_of (frame_at frames 0)) in *.
      assert (dim23 (length side)) as Hd23 by (rewrite C3; exact H23).
      assert (0 <= L) as HL0 by (apply Rlt_le, C4, HL).
      assert (forall x y, folded x side -> folded y side -> fdist Rops x y side < dr * INR n) as Hfar.
      { intros x y Hx Hy. pose proof (fdist_bound L side x y HL0 C4 (proj2 HL) Hx Hy) as H. rewrite C3 in H.
        rewrite minus_INR in B by lia. cbn [INR] in B. lra. }
      destruct (adjust_R (g_rmax p) side same (Some (repeat true (length side))) Hd23) as [O [_ EO]].
      set (s := rsetup (g_rmax p) side (flags side (Some (repeat true (length side)))) O) in *.
      exists (Some s), (fun i => match linked_frame Rops same (g_rmax p) dr n None (f_0 (frame_at frames i)) (f_1 (frame_at frames i)) side with Ok (_, h) => h | Err _ => [] end).
      assert (forall i, In i os -> exists h1,
        (forall st, st = None \/ st = Some s -> linked_frame Rops same (g_rmax p) dr n st (f_0 (frame_at frames i)) (f_1 (frame_at frames i)) side = Ok (s, h1)) /\
        forall k, (k < n)%nat -> INR (k + 1) * dr <= g_rmax p -> nth k h1 0%nat = nth k (h' i) 0%nat) as Hfr.
      { intros i Hi. pose proof (Hos i Hi) as Hin. destruct (Hpop _ Hin) as [P0 [P1 _]]. pose proof (Hsd _ Hin) as Esd.
        destruct (linked_frame_spec same (g_rmax p) dr n side (f_0 (frame_at frames i)) (f_1 (frame_at frames i)) Hdr Hrm Hd23 C4 Hb P0)
          as [s' [hh [hh' [E1 [E2 [E3 [_ [_ E4]]]]]]]].
        { intros E. apply Hsame; assumption. } { intros x Hx. rewrite <- Esd. apply Hfold; assumption. } { exact Hfar. }
        assert (s' = s) as ->.
        { unfold lc_setup, call_newton in E1. cbn [k_box k_other k_newton k_periodic] in E1. apply Ok_inj. rewrite <- E1.
          destruct same; exact EO. }
        exists hh. split; [exact E2|]. destruct (Hh' i Hi) as [G _]. rewrite Esd in G. change (num Rops) with R in *. rewrite E3 in G.
        apply Ok_inj in G. subst hh'. exact E4. }
      split.
      + intros ls lf acc i Hi Hls. pose proof (Hos i Hi) as Hin. destruct (has_cell_the _ _ (Hc _ Hin)) as [S1 [S2 [S3 [S4 S5]]]].
        destruct (Hfr i Hi) as [h1 [E1 _]]. rewrite (E1 None (or_introl eq_refl)).
        apply (step_periodic_linked big ndims same p dr n ls lf acc (frame_at frames i) (the_cell (frame_at frames i)) s h1); auto.
        * rewrite S2. exact S3.
        * apply all_periodic_the, Hca, Hin.
        * rewrite S2, (Hsd _ Hin). apply E1, Hls.
      + intros i k Hi Hk [Hk'|Hk']; [lra|]. destruct (Hfr i Hi) as [h1 [E1 E2]]. rewrite (E1 None (or_introl eq_refl)). apply E2; assumption.
    - exists None, h'. split; [|reflexivity]. intros ls lf acc i Hi Hls. pose proof (Hos i Hi) as Hin.
      destruct (has_cell_the _ _ (Hc _ Hin)) as [S1 [S2 [S3 [S4 S5]]]]. assert (ls = None) as -> by (destruct Hls; assumption).
      apply (step_periodic big ndims same p dr n None lf acc (frame_at frames i) (the_cell (frame_at frames i)) (h' i)); auto.
      + rewrite S2. exact S3.
      + apply all_periodic_the, Hca, Hin.
      + rewrite S2. apply Hh', Hi. }
  rewrite (fast_object_form PI (sqrt (INR ndims)) big ndims same p skip frames (ugrid dr n) dr linked s0 (negb same) false h
    (fun i => length (f_0 (frame_at frames i))) (fun i => length (f_1 (frame_at frames i))) (volume_of (last_used skip frames)) r);
    try assumption.
  2:{ change (num Rops) with R in *. rewrite Lg. exact Hn. }
  2:{ change (num Rops) with R in *. rewrite Lg. exact Hstep. }
  2:{ rewrite D1, (cell_volume_R _ _ D1). reflexivity. }
  2:{ apply gr_crop_R; [left; rewrite D1; discriminate|exact Hr]. }
  change (num Rops) with R in *. rewrite Lg. rewrite minus_INR in B by lia. cbn [INR] in B.
  destruct (points_all dr (n - 1) r (fun k => fast_value PI (volume_of (last_used skip frames)) ndims (negb same) dr h
      (fun i => length (f_0 (frame_at frames i))) (fun i => length (f_1 (frame_at frames i))) (origins 0 skip (length frames)) k)) as [A1 [A2 A3]].
  { exact Hdr. } { exact Hr0. } { rewrite minus_INR by lia. cbn [INR]. lra. }
  eexists. split; [reflexivity|]. cbn [andb]. split; [exact A1|].
  intros k Hk Hkr. rewrite A3 by exact Hk. cbn [snd]. unfold fast_value. rewrite shell_good by exact Hgd.
  pose proof (mean_of_group f_0 skip frames (group0 frames) (map_length _ _) (group0_nth frames)) as M0.
  pose proof (mean_of_group f_1 skip frames (group1 frames) (map_length _ _) (group1_nth frames)) as M1.
  change (num Rops) with R in *. rewrite M0, M1. fold os.
  assert ((if negb same then 1 else 2) * mean_hist h os k
    = mean_neighbours img_D same skip (group0 frames) (group1 frames) (sides_of frames) (slot dr k)) as ->; [|reflexivity].
  unfold mean_hist, mean_neighbours, rmean. rewrite !map_length. unfold group0 at 2 3. rewrite map_length. fold os.
  assert (k < n)%nat as Hkn by (change (num Rops) with R in *; lia).
  rewrite (rsum_ext _ (fun i => INR (neighbours same img_D (slot dr k) (nth i (sides_of frames) []) (nth i (group0 frames) []) (nth i (group1 frames) [])))
    (fun i => (if same then 2 else 1) * INR (nth k (h i) 0%nat))).
  - rewrite rsum_scal. destruct same; cbn [negb]; unfold Rdiv; ring.
  - intros i Hi. rewrite sides_nth, group0_nth, group1_nth. rewrite (Hh i k Hi Hkn Hkr). apply Hh'; assumption.
Qed.
