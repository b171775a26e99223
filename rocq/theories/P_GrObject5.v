(** Radial distribution functions of open systems with the default grid. *)
From Coq Require Import Ascii String List ZArith Bool Arith Lia Reals Lra Permutation Sorting.Sorted.
From Verif Require Import PyBase PyBaseFacts Num NumFacts Spec_Stats M_Helpers M_Correlation M_Dynamics M_Realspace M_LinkedCells
  M_GrObject Spec_Correlation Spec_Dynamics Spec_Pairs Spec_LinkedCells Spec_GrObject
  P_Helpers P_Dynamics P_Overlap P_Pairs P_Image P_Count P_Shell P_Gr P_Gr2 P_Gr3 P_GrFast P_GrFast2 P_LinkedCells P_LinkedCells2 P_LinkedCells3
  P_LinkedCells4 P_KGrid2 P_GrObject P_GrObject2 P_GrObject3 P_GrObject4.
Import ListNotations.
Local Open Scope R_scope.

Lemma INR_ge_of : forall a n, INR a < INR n + 1 -> (a <= n)%nat.
Proof. intros a n H. rewrite <- S_INR in H. apply INR_lt in H. lia. Qed.

(** Number of points of a default grid. *)
Lemma grid_three : forall dr X n, 0 < dr -> 3 * dr <= X -> X - dr < dr / 2 + INR (n - 1) * dr -> (3 <= n)%nat.
Proof.
  intros dr X n Hdr H3 B. assert (3 / 2 * dr < INR (n - 1) * dr) as H by lra. apply Rmult_lt_reg_r in H; [|exact Hdr].
  assert (2 <= n - 1)%nat; [|lia]. apply INR_ge_of. cbn [INR]. lra.
Qed.

Lemma fast_open : forall fmax ndims same (p : gparams Rops) skip frames L,
  good_dim ndims -> dim23 ndims -> gr_frames ndims same skip frames ->
  (forall f, In f frames -> has_cell ndims f /\ none_periodic f /\ side_of f = side_of (frame_at frames 0)) ->
  (forall f x, In f frames -> In x (f_0 f) \/ In x (f_1 f) -> folded x (side_of f)) ->
  (forall f, In f frames -> interior0 (g_rmax p) f <> []) ->
  g_grid p = None -> 0 < (g_dr p : R) -> g_dr p <= g_rmax p -> largest L (side_of (frame_at frames 0)) -> L <= fmax / 2 ->
  3 * g_dr p <= L * sqrt (INR ndims) -> g_rmax p <= L * sqrt (INR ndims) - g_dr p ->
  exists out, gr_object_fast Rops PI (sqrt (INR ndims)) fmax ndims same p skip frames = Ok out /\
    all_points (g_dr p) (g_rmax p) (map fst out) /\
    forall k, (k < length out)%nat -> INR (Nat.max 1 k + 1) * g_dr p <= g_rmax p -> snd (nth k out (0, 0))
      = mean_frames skip frames (fun f => INR (count_prod (fun x y => slot (g_dr p) (Nat.max 1 k) (euclid x y)) (interior0 (g_rmax p) f) (f_1 f)))
        / (mean_frames skip frames (fun f => INR (length (f_1 f))) / volume_of (last_used skip frames)
           * (ball ndims (INR (Nat.max 1 k + 1) * g_dr p) - ball ndims (INR (Nat.max 1 k) * g_dr p))
           * mean_frames skip frames (fun f => INR (length (interior0 (g_rmax p) f)))).
Proof.
  intros fmax ndims same p skip frames L Hgd H23 Hf Hca Hfold Hint Hg Hdr Hrd HL HLF H3 Hr1.
  assert (forall f, In f frames -> has_cell ndims f) as Hc by (intros f Hin; apply Hca, Hin).
  destruct Hf as [Hd Hs Hne Hsame Hpop].
  assert (1 <= length frames)%nat as Hlen by (destruct frames; [congruence|cbn; lia]).
  assert (In (frame_at frames 0) frames) as H0 by (apply frame_at_In; lia).
  destruct (setup_default p ndims (frame_at frames 0) L Hg Hd (Hc _ H0) Hdr HL ltac:(lra)) as [n [Hn [Es B]]].
  assert (3 <= n)%nat as Hn3 by (apply (grid_three (g_dr p) (L * sqrt (INR ndims))); [exact Hdr|exact H3|apply B]).
  destruct (has_cell_the _ _ (Hc _ H0)) as [C1 [C2 [C3 [C4 C5]]]].
  destruct (use_linked_R p ndims (frame_at frames 0) (the_cell (frame_at frames 0)) Hd C1) as [linked [Elk Hlk]].
  { rewrite C2. exact C3. } { rewrite C2. exact C4. }
  rewrite C2 in Hlk.
  change (num Rops) with R in *. set (dr := g_dr p) in *. set (rc := g_rmax p) in *.
  assert (0 < rc) as Hrc by lra.
  assert (length (ugrid dr n) = n) as Lg by apply ugrid_len.
  assert (dr = nth 1 (ugrid dr n) 0 - nth 0 (ugrid dr n) 0) as Edr.
  { apply ugrid_step. exact Hn. }
  set (os := origins 0 skip (length frames)).
  assert (forall i, In i os -> In (frame_at frames i) frames) as Hos by (intros i Hi; apply frame_at_In, (origins_lt skip), Hi).
  pose proof (last_used_In skip frames Hs Hne) as HlIn.
  destruct (has_cell_the _ _ (Hc _ HlIn)) as [D1 [D2 _]].
  assert (0 < L) as HL0 by (apply C4, HL).
  assert (0 < fmax) as HF by lra.
  set (side := side_of (frame_at frames 0)) in *.
  assert (forall f, In f frames -> side_of f = side) as Hsd by (intros f Hin; apply Hca, Hin).
  assert (forall f x, In f frames -> In x (interior0 rc f) -> In x (f_0 f) /\ interior rc side x = true) as Hin0.
  { intros f x Hin Hx. unfold interior0 in Hx. rewrite (Hsd f Hin) in Hx. apply filter_In in Hx. exact Hx. }
  assert (forall f x, In f frames -> In x (interior0 rc f) \/ In x (f_1 f) -> folded x side) as Hfo.
  { intros f x Hin Hx. rewrite <- (Hsd f Hin). apply Hfold; [exact Hin|]. destruct Hx as [Hx|Hx]; [left; apply (Hin0 f), Hx; exact Hin|right; exact Hx]. }
  assert (forall f x y, In f frames -> In x (interior0 rc f) -> In y (f_1 f) -> fdist Rops x y (repeat fmax ndims) = euclid x y) as Hfd.
  { intros f x y Hin Hx Hy. assert (folded x side) as Fx by (apply (Hfo f x Hin); auto). assert (folded y side) as Fy by (apply (Hfo f y Hin); auto).
    assert (forall l, In l side -> l <= 2 * (fmax / 4)) as Hl by (intros l Hl; pose proof (proj2 HL l Hl); lra).
    apply fdist_far; auto.
    - rewrite <- C3. apply folded_inside, Fx.
    - rewrite <- C3. apply folded_inside, Fy.
    - apply (folded_bounded side); assumption.
    - apply (folded_bounded side); assumption. }
  assert (exists (s0 : option (setup Rops)) (h : nat -> list nat),
    (forall ls lf acc i, In i os -> ls = None \/ ls = s0 ->
       fast_object_step Rops fmax ndims same p linked dr n (ls, lf, acc) (frame_at frames i)
       = Ok (s0, Some (frame_at frames i, (true, true)), acc ++ [(h i, (length (interior0 rc (frame_at frames i)), length (f_1 (frame_at frames i))))])) /\
    forall i k, In i os -> (k < n)%nat -> INR (k + 1) * dr <= rc ->
      nth k (h i) 0%nat = count_prod (fun x y => slot dr k (euclid x y)) (interior0 rc (frame_at frames i)) (f_1 (frame_at frames i))) as [s0 [h [Hstep Hh]]].
  { destruct linked.
    - destruct (Hlk eq_refl) as [_ Hb].
      assert (dim23 (length side)) as Hd23 by (rewrite C3; exact H23).
      set (per := repeat false (length side)).
      destruct (adjust_R rc side false (Some per) Hd23) as [O [_ EO]].
      set (s := rsetup rc side (flags side (Some per)) O) in *.
      assert (forall i, In i os -> exists ns h,
        (forall st, st = None \/ st = Some s -> lc_compute Rops rc st (mkCall (A:=Rops) side (interior0 rc (frame_at frames i)) (Some (f_1 (frame_at frames i))) true (Some per)) = Ok (s, ns)) /\
        ns <> [] /\ gr_neighbors_c Rops (interior0 rc (frame_at frames i)) (f_1 (frame_at frames i)) ns (repeat fmax ndims) dr n = Ok h /\
        forall k, (k < n)%nat -> INR (k + 1) * dr <= rc -> nth k h 0%nat
          = count_prod (fun x y => slot dr k (euclid x y)) (interior0 rc (frame_at frames i)) (f_1 (frame_at frames i))) as Hfr.
      { intros i Hi. pose proof (Hos i Hi) as Hin.
        destruct (open_linked_hist fmax rc dr n side (interior0 rc (frame_at frames i)) (f_1 (frame_at frames i)) per L) as [s' [ns [hh [E1 [E2 [E3 [E4 E5]]]]]]]; auto.
        - apply repeat_length.
        - intros b Hbin. apply repeat_spec in Hbin. exact Hbin.
        - intros x Hx. apply (Hfo (frame_at frames i)); assumption.
        - intros x Hx. apply (Hin0 (frame_at frames i) x Hin Hx).
        - rewrite C3. rewrite minus_INR in B by lia. cbn [INR] in B.
          assert (1 <= sqrt (INR ndims)) as Hsq.
          { rewrite <- sqrt_1. apply sqrt_le_1_alt. apply (le_INR 1). exact Hd. }
          assert (dr * 1 <= rc * sqrt (INR ndims)) by (apply Rmult_le_compat; lra). lra.
        - assert (s' = s) as ->.
          { unfold lc_setup, call_newton in E1. cbn [k_box k_other k_newton k_periodic] in E1. apply Ok_inj. rewrite <- E1. exact EO. }
          exists ns, hh. rewrite C3 in E4. auto. }
      exists (Some s), (fun i => match fast_object_step Rops fmax ndims same p true dr n (None, None, []) (frame_at frames i) with
        | Ok (_, _, [(h, _)]) => h | _ => [] end).
      assert (forall i, In i os -> exists hh, (forall ls lf acc, ls = None \/ ls = Some s ->
         fast_object_step Rops fmax ndims same p true dr n (ls, lf, acc) (frame_at frames i)
         = Ok (Some s, Some (frame_at frames i, (true, true)), acc ++ [(hh, (length (interior0 rc (frame_at frames i)), length (f_1 (frame_at frames i))))])) /\
         forall k, (k < n)%nat -> INR (k + 1) * dr <= rc -> nth k hh 0%nat
          = count_prod (fun x y => slot dr k (euclid x y)) (interior0 rc (frame_at frames i)) (f_1 (frame_at frames i))) as Hfr2.
      { intros i Hi. pose proof (Hos i Hi) as Hin. destruct (has_cell_the _ _ (Hc _ Hin)) as [S1 [S2 [S3 [S4 S5]]]].
        destruct (Hfr i Hi) as [ns [hh [E1 [E2 [E3 E4]]]]]. exists hh. split; [|exact E4]. intros ls lf acc Hls.
        pose proof (none_periodic_the _ (proj1 (proj2 (Hca _ Hin)))) as Hnp.
        assert (c_periodic (the_cell (frame_at frames i)) = per) as Eper.
        { unfold per. rewrite C3, <- S5. clear - Hnp. induction (c_periodic (the_cell (frame_at frames i))) as [|b l IH]; [reflexivity|]. cbn [length repeat].
          rewrite (Hnp b (or_introl eq_refl)). f_equal. apply IH. intros; apply Hnp; right; assumption. }
        apply (step_open_linked fmax ndims same p dr n ls lf acc (frame_at frames i) (the_cell (frame_at frames i)) s ns hh); auto.
        - rewrite S2. exact S3.
        - rewrite S2, Eper, (Hsd _ Hin). apply E1, Hls. }
      split.
      + intros ls lf acc i Hi Hls. destruct (Hfr2 i Hi) as [hh [E1 _]]. rewrite (E1 None None []) by (left; reflexivity). apply E1, Hls.
      + intros i k Hi Hk Hkr. destruct (Hfr2 i Hi) as [hh [E1 E2]]. rewrite (E1 None None []) by (left; reflexivity). cbn [app]. apply E2; assumption.
    - exists None, (fun i => match gr_distinct_c Rops (interior0 rc (frame_at frames i)) (f_1 (frame_at frames i)) (repeat fmax ndims) dr n with Ok h => h | Err _ => [] end).
      assert (forall i, In i os -> exists hh, gr_distinct_c Rops (interior0 rc (frame_at frames i)) (f_1 (frame_at frames i)) (repeat fmax ndims) dr n = Ok hh /\
        forall k, (k < n)%nat -> nth k hh 0%nat = count_prod (fun x y => slot dr k (euclid x y)) (interior0 rc (frame_at frames i)) (f_1 (frame_at frames i))) as Hfr.
      { intros i Hi. pose proof (Hos i Hi) as Hin.
        destruct (gr_distinct_c_spec (interior0 rc (frame_at frames i)) (f_1 (frame_at frames i)) (repeat fmax ndims) dr n Hdr) as [hh [E [_ C]]].
        exists hh. split; [exact E|]. intros k Hk. rewrite C by exact Hk. apply count_prod_ext. intros x y Hx Hy.
        rewrite (Hfd (frame_at frames i)) by assumption. reflexivity. }
      split.
      + intros ls lf acc i Hi Hls. pose proof (Hos i Hi) as Hin. destruct (has_cell_the _ _ (Hc _ Hin)) as [S1 [S2 [S3 [S4 S5]]]].
        assert (ls = None) as -> by (destruct Hls; assumption). destruct (Hfr i Hi) as [hh [E _]]. change (num Rops) with R in *. rewrite E.
        apply (step_open fmax ndims same p dr n None lf acc (frame_at frames i) (the_cell (frame_at frames i)) hh); auto.
        * rewrite S2. exact S3.
        * apply none_periodic_the, Hca, Hin.
      + intros i k Hi Hk _. destruct (Hfr i Hi) as [hh [E C]]. change (num Rops) with R in *. rewrite E. apply C, Hk. }
  rewrite (fast_object_form PI (sqrt (INR ndims)) fmax ndims same p skip frames (ugrid dr n) dr linked s0 true true h
    (fun i => length (interior0 rc (frame_at frames i))) (fun i => length (f_1 (frame_at frames i))) (volume_of (last_used skip frames)) rc);
    try assumption.
  2:{ change (num Rops) with R in *. rewrite Lg. exact Hn3. }
  2:{ change (num Rops) with R in *. rewrite Lg. exact Hstep. }
  2:{ rewrite D1, (cell_volume_R _ _ D1). reflexivity. }
  2:{ unfold gr_crop. rewrite rmax_given_R. fold rc. destruct (Rltb_spec 0 rc); [reflexivity|contradiction]. }
  change (num Rops) with R in *. rewrite Lg. rewrite minus_INR in B by lia. cbn [INR] in B.
  destruct (points_all dr (n - 1) rc (fun k => fast_value PI (volume_of (last_used skip frames)) ndims true dr h
      (fun i => length (interior0 rc (frame_at frames i))) (fun i => length (f_1 (frame_at frames i))) (origins 0 skip (length frames))
      (if (true && (k =? 0)%nat)%bool then 1%nat else k))) as [A1 [A2 A3]].
  { exact Hdr. } { exact Hrc. } { rewrite minus_INR by lia. cbn [INR]. lra. }
  eexists. split; [reflexivity|]. split; [exact A1|].
  intros k Hk Hkr. rewrite A3 by exact Hk. cbn [snd].
  assert ((if (true && (k =? 0)%nat)%bool then 1%nat else k) = Nat.max 1 k) as -> by (destruct k as [|k]; reflexivity).
  assert (Nat.max 1 k < n)%nat as Hkn by (change (num Rops) with R in *; lia). set (j := Nat.max 1 k) in *.
  unfold fast_value. rewrite shell_good by exact Hgd. unfold mean_of, mean_frames. fold os. f_equal.
  rewrite Rmult_1_l. unfold mean_hist. f_equal. apply map_ext_in. intros i Hi. f_equal. apply Hh; assumption.
Qed.
