(** Radial distribution functions of systems without a cell. *)
From Coq Require Import Ascii String List ZArith Bool Arith Lia Reals Lra Permutation Sorting.Sorted.
From Verif Require Import PyBase PyBaseFacts Num NumFacts Spec_Stats M_Helpers M_Correlation M_Dynamics M_Realspace M_LinkedCells
  M_GrObject Spec_Correlation Spec_Dynamics Spec_Pairs Spec_LinkedCells Spec_GrObject
  P_Helpers P_Dynamics P_Overlap P_Pairs P_Image P_Count P_Shell P_Gr P_Gr2 P_Gr3 P_GrFast P_GrFast2 P_LinkedCells P_LinkedCells2 P_LinkedCells3
  P_LinkedCells4 P_KGrid2 P_GrObject P_GrObject2 P_GrObject3 P_GrObject4 P_GrObject5.
Import ListNotations.
Local Open Scope R_scope.

Definition grid_top (p : gparams Rops) : R := if Rlt_dec 0 (g_rmax p) then g_rmax p else g_dr p * 1000.

Lemma setup_nocell : forall (p : gparams Rops) sd, g_grid p = None -> 0 < (g_dr p : R) -> 3 / 2 * g_dr p <= grid_top p ->
  exists n, (2 <= n)%nat /\ gr_setup_grid Rops p sd None = Ok (ugrid (g_dr p) n) /\
    grid_top p - g_dr p < g_dr p / 2 + INR (n - 1) * g_dr p <= grid_top p.
Proof.
  intros p sd Hg Hdr H3. unfold gr_setup_grid. rewrite Hg. change (num Rops) with R in *.
  destruct (gr_grid_uniform (g_dr p) (grid_top p) 1 Hdr ltac:(lra)) as [n [H2 [E B]]]. exists n. split; [exact H2|].
  rewrite Rmult_1_r in B. split; [|exact B].
  match goal with |- bind ?u _ = _ => assert (u = Ok (ugrid (g_dr p) n)) as Eu end.
  { rewrite <- E. unfold gr_grid. f_equal. rewrite rmax_given_R. unfold grid_top. cbn [nmul nofZ Rops]. rewrite Rmult_1_r. unfold Rltb.
    destruct (Rlt_dec 0 (g_rmax p)); reflexivity. }
  match goal with |- bind ?u _ = _ => replace u with (Ok (ugrid (g_dr p) n)) by (symmetry; exact Eu) end.
  cbn [bind].
  destruct (getZ_last R (ugrid (g_dr p) n)) as [x Ex]; [intros C; pose proof (ugrid_len (g_dr p) n) as G; rewrite C in G; cbn in G; lia|].
  match goal with |- bind ?u _ = _ => replace u with (Ok x) by (symmetry; exact Ex) end. reflexivity.
Qed.

Lemma step_nocell : forall fmax ndims same (p : gparams Rops) dr n ls lf acc (f : frameR) h,
  f_cell f = None -> populated ndims f -> (same = true -> f_1 f = f_0 f) ->
  (if same then gr_self_c Rops (f_0 f) (repeat fmax ndims) dr n else gr_distinct_c Rops (f_0 f) (f_1 f) (repeat fmax ndims) dr n) = Ok h ->
  fast_object_step Rops fmax ndims same p false dr n (ls, lf, acc) f
  = Ok (ls, Some (f, (negb same, false)), acc ++ [(h, (length (f_0 f), length (f_1 f)))]).
Proof.
  intros fmax ndims same p dr n ls lf acc f h Ec [P0 [P1 _]] Hsame Hh.
  unfold fast_object_step.
  assert ((length (f_0 f) =? 0)%nat || (length (f_1 f) =? 0)%nat = false) as ->.
  { destruct (f_0 f); [congruence|]. destruct (f_1 f); [congruence|]. reflexivity. }
  rewrite Ec. cbn [orb bind kernel_side]. rewrite orb_false_r. destruct same; cbn [negb].
  - rewrite Hh. cbn [bind]. rewrite (Hsame eq_refl). reflexivity.
  - rewrite Hh. reflexivity.
Qed.

Lemma euclid_sym : forall x y, euclid x y = euclid y x.
Proof.
  intros x y. unfold euclid. f_equal. revert y. induction x as [|a x IH]; intros [|b y]; try reflexivity. cbn [dist2]. rewrite IH. ring.
Qed.

Lemma nocell_frame : forall fmax same ndims p0 p1 dr n, 0 < dr -> 0 < fmax -> (same = true -> p1 = p0) ->
  (forall x, In x p0 \/ In x p1 -> length x = ndims /\ bounded_by (fmax / 4) x) ->
  exists h, (if same then gr_self_c Rops p0 (repeat fmax ndims) dr n else gr_distinct_c Rops p0 p1 (repeat fmax ndims) dr n) = Ok h /\
    length h = n /\ forall k, (k < n)%nat ->
      INR (neighbours same (fun _ => euclid) (slot dr k) [] p0 p1) = (if same then 2 else 1) * INR (nth k h 0%nat).
Proof.
  intros fmax same ndims p0 p1 dr n Hdr HF Hsame Hb.
  assert (forall x y, In x p0 -> In y p1 -> fdist Rops x y (repeat fmax ndims) = euclid x y) as Hfd.
  { intros x y Hx Hy. destruct (Hb x (or_introl Hx)), (Hb y (or_intror Hy)). apply fdist_far; assumption. }
  destruct same.
  - rewrite (Hsame eq_refl) in *. destruct (gr_self_c_spec p0 (repeat fmax ndims) dr n Hdr) as [h [E [L C]]].
    exists h. split; [exact E|]. split; [exact L|]. intros k Hk. rewrite C by exact Hk. unfold neighbours.
    assert (2 = INR 2) as -> by (cbn; lra). rewrite <- mult_INR. f_equal. rewrite <- count_pairs_ordered.
    + f_equal. apply cnt_ext. intros [i j] Hij. unfold index_pairs in Hij. apply filter_In in Hij. destruct Hij as [Hij _].
      apply in_prod_iff in Hij. rewrite !in_seq in Hij. cbn [fst snd]. rewrite Hfd by (apply nth_In; lia). reflexivity.
    + intros x y Hx Hy. rewrite euclid_sym. reflexivity.
  - destruct (gr_distinct_c_spec p0 p1 (repeat fmax ndims) dr n Hdr) as [h [E [L C]]].
    exists h. split; [exact E|]. split; [exact L|]. intros k Hk. rewrite C by exact Hk. unfold neighbours.
    rewrite Rmult_1_l. f_equal. apply count_prod_ext. intros x y Hx Hy. rewrite Hfd by assumption. reflexivity.
Qed.

Lemma nocell_hist : forall fmax ndims same skip (frames : list frameR) dr n, 0 < dr -> 0 < fmax ->
  gr_frames ndims same skip frames ->
  (forall f x, In f frames -> In x (f_0 f) \/ In x (f_1 f) -> bounded_by (fmax / 4) x) ->
  exists h : nat -> list nat, forall i, In i (origins 0 skip (length frames)) ->
     (if same then gr_self_c Rops (f_0 (frame_at frames i)) (repeat fmax ndims) dr n
      else gr_distinct_c Rops (f_0 (frame_at frames i)) (f_1 (frame_at frames i)) (repeat fmax ndims) dr n) = Ok (h i) /\
     forall k, (k < n)%nat -> INR (neighbours same (fun _ => euclid) (slot dr k) [] (f_0 (frame_at frames i)) (f_1 (frame_at frames i)))
        = (if same then 2 else 1) * INR (nth k (h i) 0%nat).
Proof.
  intros fmax ndims same skip frames dr n Hdr HF [Hd Hs Hne Hsame Hpop] Hb.
  exists (fun i => match (if same then gr_self_c Rops (f_0 (frame_at frames i)) (repeat fmax ndims) dr n
      else gr_distinct_c Rops (f_0 (frame_at frames i)) (f_1 (frame_at frames i)) (repeat fmax ndims) dr n) with Ok h => h | Err _ => [] end).
  intros i Hi. assert (In (frame_at frames i) frames) as Hin by (apply frame_at_In, (origins_lt skip), Hi).
  destruct (nocell_frame fmax same ndims (f_0 (frame_at frames i)) (f_1 (frame_at frames i)) dr n Hdr HF) as [h [E [_ C]]].
  - intros E. apply Hsame; assumption.
  - intros x Hx. split; [apply (Hpop _ Hin), Hx|apply (Hb _ x Hin Hx)].
  - change (num Rops) with R in *. rewrite E. split; [reflexivity|exact C].
Qed.

Lemma fast_nocell : forall fmax ndims same (p : gparams Rops) skip frames,
  good_dim ndims -> gr_frames ndims same skip frames -> (forall f, In f frames -> f_cell f = None) ->
  (forall f x, In f frames -> In x (f_0 f) \/ In x (f_1 f) -> bounded_by (fmax / 4) x) -> 0 < fmax ->
  f_density (last_used skip frames) <> 0 ->
  g_grid p = None -> 0 < (g_dr p : R) -> 3 / 2 * g_dr p <= g_rmax p ->
  exists out m, gr_object_fast Rops PI (sqrt (INR ndims)) fmax ndims same p skip frames = Ok out /\
    map fst out = map (fun k => (INR k + 1 / 2) * g_dr p) (seq 0 m) /\ (INR m + 1 / 2) * g_dr p <= g_rmax p < (INR m + 3 / 2) * g_dr p /\
    forall k, (k < length out)%nat -> snd (nth k out (0, 0))
      = mean_frames skip frames (fun f => INR (neighbours same (fun _ => euclid) (slot (g_dr p) k) [] (f_0 f) (f_1 f)))
        / (mean_frames skip frames (fun f => INR (length (f_1 f))) / (INR (f_npart (last_used skip frames)) / f_density (last_used skip frames))
           * (ball ndims (INR (k + 1) * g_dr p) - ball ndims (INR k * g_dr p))
           * mean_frames skip frames (fun f => INR (length (f_0 f)))).
Proof.
  intros fmax ndims same p skip frames Hgd Hf Hc Hb HF Hden Hg Hdr H3.
  assert (0 < (g_rmax p : R)) as Hrc by (change (num Rops) with R in *; lra).
  assert (grid_top p = g_rmax p) as Etop by (unfold grid_top; destruct (Rlt_dec 0 (g_rmax p)); [reflexivity|contradiction]).
  destruct (setup_nocell p (sqrt (INR ndims)) Hg Hdr) as [n [Hn [Es B]]]; [rewrite Etop; exact H3|]. rewrite Etop in B.
  destruct (nocell_hist fmax ndims same skip frames (g_dr p) n Hdr HF Hf Hb) as [h Hh].
  destruct Hf as [Hd Hs Hne Hsame Hpop].
  assert (1 <= length frames)%nat as Hlen by (destruct frames; [congruence|cbn; lia]).
  assert (In (frame_at frames 0) frames) as H0 by (apply frame_at_In; lia).
  pose proof (last_used_In skip frames Hs Hne) as HlIn.
  change (num Rops) with R in *. set (dr := g_dr p) in *. set (rc := g_rmax p) in *. set (os := origins 0 skip (length frames)) in *.
  assert (length (ugrid dr n) = n) as Lg by apply ugrid_len.
  assert (dr = nth 1 (ugrid dr n) 0 - nth 0 (ugrid dr n) 0) as Edr by (apply ugrid_step; exact Hn).
  rewrite (fast_object_form PI (sqrt (INR ndims)) fmax ndims same p skip frames (ugrid dr n) dr false None (negb same) false h
    (fun i => length (f_0 (frame_at frames i))) (fun i => length (f_1 (frame_at frames i)))
    (INR (f_npart (last_used skip frames)) / f_density (last_used skip frames)) rc); try assumption.
  2:{ rewrite (Hc _ H0). exact Es. }
  2:{ change (num Rops) with R in *. rewrite Lg. exact Hn. }
  2:{ unfold use_linked. rewrite (Hc _ H0). reflexivity. }
  2:{ change (num Rops) with R in *. rewrite Lg. intros ls lf acc i Hi Hls. assert (ls = None) as -> by (destruct Hls; assumption).
      assert (In (frame_at frames i) frames) as Hin by (apply frame_at_In, (origins_lt skip), Hi).
      apply step_nocell; auto. apply Hh, Hi. }
  2:{ rewrite (Hc _ HlIn). unfold pydiv. cbn [neq Rops n0]. unfold Reqb. destruct (Req_EM_T (f_density (last_used skip frames)) 0) as [C|_]; [contradiction|]. rewrite nofnat_R. reflexivity. }
  2:{ unfold gr_crop. rewrite rmax_given_R. fold rc. destruct (Rltb_spec 0 rc); [reflexivity|contradiction]. }
  change (num Rops) with R in *. rewrite Lg. rewrite minus_INR in B by lia. cbn [INR] in B.
  assert (filter (fun k => Rleb (dr * INR k + dr / 2) rc) (seq 0 (n - 1)) = seq 0 (n - 1)) as ->.
  { apply filter_all_true. intros k Hk. apply in_seq in Hk. destruct (Rleb_spec (dr * INR k + dr / 2) rc) as [|C]; [reflexivity|].
    exfalso. apply C. assert (INR k <= INR (n - 1)) as Hk' by (apply le_INR; lia). rewrite minus_INR in Hk' by lia. cbn [INR] in Hk'.
    assert (dr * INR k <= dr * (INR n - 1)) by (apply Rmult_le_compat_l; lra). lra. }
  eexists. exists (n - 1)%nat. split; [reflexivity|]. split; [|split].
  - rewrite map_map. apply map_ext. intros k. cbn [fst]. field.
  - rewrite minus_INR by lia. cbn [INR]. lra.
  - intros k Hk. rewrite map_length, seq_length in Hk. rewrite nth_map_seq by exact Hk. cbn [snd andb].
    unfold fast_value. rewrite shell_good by exact Hgd. unfold mean_of, mean_frames. fold os. f_equal.
    unfold mean_hist, rmean. rewrite !map_length.
    rewrite (rsum_ext _ (fun i => INR (neighbours same (fun _ => euclid) (slot dr k) [] (f_0 (frame_at frames i)) (f_1 (frame_at frames i))))
      (fun i => (if same then 2 else 1) * INR (nth k (h i) 0%nat))).
    + rewrite rsum_scal. destruct same; cbn [negb]; unfold Rdiv; ring.
    + intros i Hi. apply Hh; [exact Hi|lia].
Qed.
