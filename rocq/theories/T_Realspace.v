(** Theorems about pair distances and g(r): C24 - C29, C33, C34. *)
From Coq Require Import Ascii String List ZArith Bool Arith Reals Lia Lra Permutation Sorting.Sorted.
From Coq Require Import Floats.SpecFloat.
From Verif Require Import PyBase PyBaseFacts Num Spec_Stats NumFacts M_Helpers M_Correlation M_Dynamics M_Realspace M_Groups
  Spec_Correlation Spec_Dynamics Spec_Pairs P_Image P_Pairs P_Count P_Shell P_Gr P_Gr2 P_GrFast P_GrFast2 P_Groups P_Gr3.
Import ListNotations.
Local Open Scope R_scope.

(** ** C24 *)
Theorem C24_python_minimum_image : forall side x y,
  positive side -> length x = length side -> length y = length side ->
  min_image x y side (img_dist Rops x y side).
Proof. exact img_dist_min. Qed.
Print Assumptions C24_python_minimum_image.

Theorem C24_fortran_minimum_image : forall side x y,
  positive side -> length x = length side -> length y = length side -> near x y side ->
  min_image x y side (fdist Rops x y side).
Proof.
  intros side x y Hp Hx Hy Hn. rewrite (proj2 (fdist_near side x y Hp Hx Hy) Hn). apply img_dist_min; assumption.
Qed.
Print Assumptions C24_fortran_minimum_image.

(** Folded positions are near. *)
Theorem C24_folded_minimum_image : forall side x y,
  positive side -> length x = length side -> length y = length side -> inside x side -> inside y side ->
  fdist Rops x y side = img_dist Rops x y side.
Proof. intros side x y Hp Hx Hy Ix Iy. apply fdist_near; try assumption. apply inside_near; assumption. Qed.
Print Assumptions C24_folded_minimum_image.

Example C24_nonvacuous :
  positive [4; 4] /\ near [-2; 0] [3; 1] [4; 4] /\
  img_dist F64ops (map f64_ofZ [-2; 0]%Z) (map f64_ofZ [1; 0]%Z) (map f64_ofZ [4; 4]%Z) = f64_ofZ 1 /\
  fdist F64ops (map f64_ofZ [-2; 0]%Z) (map f64_ofZ [1; 0]%Z) (map f64_ofZ [4; 4]%Z) = f64_ofZ 1.
Proof.
  split; [|split; [|split; vm_compute; reflexivity]].
  - intros L [<-|[<-|[]]]; lra.
  - cbn. repeat split; try apply Rabs_le; lra.
Qed.

(** ** C25 *)
(** The Fortran distance is the minimum-image one exactly when every coordinate
    difference is within 3/2 of the side; otherwise it is larger. *)
Theorem C25_fortran_exact_condition_partial : forall side x y,
  positive side -> length x = length side -> length y = length side ->
  (min_image x y side (fdist Rops x y side) <-> near x y side).
Proof.
  intros side x y Hp Hx Hy. split.
  - intros H. apply (fdist_near side x y Hp Hx Hy).
    apply (min_image_unique x y side); [exact H|apply img_dist_min; assumption].
  - intros Hn. rewrite (proj2 (fdist_near side x y Hp Hx Hy) Hn). apply img_dist_min; assumption.
Qed.
Print Assumptions C25_fortran_exact_condition_partial.

Theorem C25_fortran_unfolded_refuted : forall L k : R, 0 < L -> 3 / 2 * L < k ->
  ~ min_image [0] [k] [L] (fdist Rops [0] [k] [L]).
Proof.
  intros L k HL Hk H. apply C25_fortran_exact_condition_partial in H; try reflexivity.
  - destruct H as [H _]. rewrite Rabs_left in H by lra. lra.
  - intros l [<-|[]]. exact HL.
Qed.
Print Assumptions C25_fortran_unfolded_refuted.

Example C25_nonvacuous :
  fdist F64ops [f64_ofZ 0] [f64_ofZ 10] [f64_ofZ 4] = f64_ofZ 6 /\
  img_dist F64ops [f64_ofZ 0] [f64_ofZ 10] [f64_ofZ 4] = f64_ofZ 2.
Proof. split; vm_compute; reflexivity. Qed.

(** ** C26 *)
(** For every arithmetic and every kernel f. *)
Theorem C26_newton_counts_once : forall (A : arith) bl (f : list (num A) -> list (num A) -> num A) x es,
  (1 <= bl)%nat -> edges_ok A es = true ->
  exists h, newton_hist_batch A bl f x x es = Ok h /\ length h = (length es - 1)%nat /\
    forall k, (k + 1 < length es)%nat ->
      nth k h 0%nat = count_pairs (fun xi xj => in_bin (n0 A) (nle A) (nlt A) es k (f xj xi)) x [].
Proof. exact newton_hist_spec. Qed.
Print Assumptions C26_newton_counts_once.

Theorem C26_newton_counts_once_default : forall (A : arith) (f : list (num A) -> list (num A) -> num A) x es,
  x <> [] -> edges_ok A es = true ->
  exists h, pairs_newton_hist A f x x es = Ok h /\ length h = (length es - 1)%nat /\
    forall k, (k + 1 < length es)%nat ->
      nth k h 0%nat = count_pairs (fun xi xj => in_bin (n0 A) (nle A) (nlt A) es k (f xj xi)) x [].
Proof. exact pairs_newton_spec. Qed.
Print Assumptions C26_newton_counts_once_default.

Theorem C26_distinct_counts_once : forall (A : arith) (f : list (num A) -> list (num A) -> num A) x y es,
  edges_ok A es = true ->
  exists h, pairs_hist A f x y es = Ok h /\ length h = (length es - 1)%nat /\
    forall k, (k + 1 < length es)%nat ->
      nth k h 0%nat = count_prod (fun yi xj => in_bin (n0 A) (nle A) (nlt A) es k (f xj yi)) y x.
Proof. exact pairs_hist_spec. Qed.
Print Assumptions C26_distinct_counts_once.

Theorem C26_newton_total : forall f (x : list (list R)) es,
  x <> [] -> StronglySorted Rlt es -> (2 <= length es)%nat ->
  exists h, pairs_newton_hist Rops f x x es = Ok h /\
    list_sum h = count_pairs (fun a b => Rleb (nth 0 es 0) (f b a) && Rleb (f b a) (nth (length es - 1) es 0)) x [].
Proof. exact newton_total. Qed.
Print Assumptions C26_newton_total.

Theorem C26_distinct_total : forall f (x y : list (list R)) es,
  StronglySorted Rlt es -> (2 <= length es)%nat ->
  exists h, pairs_hist Rops f x y es = Ok h /\
    list_sum h = count_prod (fun a b => Rleb (nth 0 es 0) (f b a) && Rleb (f b a) (nth (length es - 1) es 0)) y x.
Proof. exact hist_total. Qed.
Print Assumptions C26_distinct_total.

(** There are n(n-1)/2 index pairs. *)
Theorem C26_number_of_pairs : forall n, (2 * length (index_pairs n) = n * (n - 1))%nat.
Proof. exact index_pairs_count. Qed.
Print Assumptions C26_number_of_pairs.

Definition demo_pos : list (list (num F64ops)) := map (map f64_ofZ) [[0; 0]; [1; 0]; [0; 2]; [-2; -2]; [2; 0]]%Z.
Definition demo_side : list (num F64ops) := map f64_ofZ [6; 6]%Z.
Definition demo_edges : list (num F64ops) := map f64_ofZ [0; 1; 2; 3]%Z.
Example C26_nonvacuous :
  edges_ok F64ops demo_edges = true /\
  newton_hist_batch F64ops 2 (fun x y => img_dist F64ops x y demo_side) demo_pos demo_pos demo_edges = Ok [0; 2; 7]%nat /\
  pairs_newton_hist F64ops (fun x y => img_dist F64ops x y demo_side) demo_pos demo_pos demo_edges = Ok [0; 2; 7]%nat /\
  pairs_hist F64ops (fun x y => img_dist F64ops x y demo_side) demo_pos demo_pos demo_edges = Ok [5; 4; 14]%nat.
Proof. repeat (split; [vm_compute; reflexivity|]); vm_compute; reflexivity. Qed.

(** ** C27 *)
(** What is counted in one frame: pairs of distinct particles only. *)
Theorem C27_unfiltered_partial : forall X (pos : X -> list R) side es ps d,
  positive side -> (forall p, In p ps -> length (pos p) = length side) -> StronglySorted Rlt es -> ps <> [] ->
  exists h, frame_histogram Rops pos [] ps side es = Ok h /\
    forall k, (k + 1 < length es)%nat ->
      (2 * nth k h 0 = ordered_pairs (fun p q => in_bin 0%R Rleb Rltb es k (img_dist Rops (pos p) (pos q) side)) ps d)%nat.
Proof. exact unfiltered_frame. Qed.
Print Assumptions C27_unfiltered_partial.

Theorem C27_partial_like_partial : forall D (pos : particle D -> list R) side es (ps : list (particle D)) d a,
  positive side -> (forall p, In p ps -> length (pos p) = length side) -> StronglySorted Rlt es ->
  (exists p, In p ps /\ species p = a) ->
  exists cbk h, partial_filters a a = Ok cbk /\ frame_histogram Rops pos cbk ps side es = Ok h /\
    forall k, (k + 1 < length es)%nat ->
      (2 * nth k h 0 = ordered_pairs (fun p q => String.eqb (species p) a && String.eqb (species q) a
          && in_bin 0%R Rleb Rltb es k (img_dist Rops (pos p) (pos q) side)) ps d)%nat.
Proof. exact partial_frame_same. Qed.
Print Assumptions C27_partial_like_partial.

Theorem C27_partial_unlike_partial : forall D (pos : particle D -> list R) side es (ps : list (particle D)) d a b,
  positive side -> (forall p, In p ps -> length (pos p) = length side) -> StronglySorted Rlt es -> a <> b ->
  exists cbk h, partial_filters a b = Ok cbk /\ frame_histogram Rops pos cbk ps side es = Ok h /\
    forall k, (k + 1 < length es)%nat ->
      nth k h 0%nat = ordered_pairs (fun p q => String.eqb (species p) a && String.eqb (species q) b
          && in_bin 0%R Rleb Rltb es k (img_dist Rops (pos p) (pos q) side)) ps d.
Proof. exact partial_frame_distinct. Qed.
Print Assumptions C27_partial_unlike_partial.

(** Filter with one condition: the first bin holds, besides the pairs of distinct
    particles, every selected particle paired with itself. *)
Theorem C27_one_condition_refuted : forall X (pos : X -> list R) side es ps d c,
  positive side -> (forall p, In p ps -> length (pos p) = length side) -> StronglySorted Rlt es ->
  (2 <= length es)%nat -> nth 0 es 0 <= 0 < nth 1 es 0 ->
  exists cbk h, Filter 2 [c] = Ok cbk /\ frame_histogram Rops pos cbk ps side es = Ok h /\
    nth 0 h 0%nat = (ordered_pairs (fun p q => c p && in_bin 0%R Rleb Rltb es 0 (img_dist Rops (pos p) (pos q) side)) ps d
                     + length (filter c ps))%nat.
Proof. exact one_condition_frame. Qed.
Print Assumptions C27_one_condition_refuted.

(** Filter with two conditions: pairs of distinct particles, and the particles that meet both
    conditions paired with themselves.  With more conditions there is no result. *)
Theorem C27_two_conditions_partial : forall X (pos : X -> list R) side es ps d,
  positive side -> (forall p, In p ps -> length (pos p) = length side) -> StronglySorted Rlt es ->
  (forall c0 c1, exists cbk h, Filter 2 [c0; c1] = Ok cbk /\ frame_histogram Rops pos cbk ps side es = Ok h /\
    forall k, (k + 1 < length es)%nat ->
      nth k h 0%nat = (ordered_pairs (fun p q => c0 p && c1 q && in_bin 0%R Rleb Rltb es k (img_dist Rops (pos p) (pos q) side)) ps d
                       + length (filter (fun p => c0 p && c1 p && in_bin 0%R Rleb Rltb es k 0%R) ps))%nat) /\
  forall conds cbk, Filter (P := X) 2 conds = Ok cbk -> length conds = 1%nat \/ length conds = 2%nat.
Proof.
  intros X pos side es ps d Hp Hd Hs. split.
  - intros c0 c1. destruct (frame_distinct _ pos side es ps d Hs c0 c1) as [h [E C]].
    exists [filter_generic c0; filter_generic c1], h. split; [reflexivity|]. split; [exact E|].
    intros k Hk. rewrite (C k Hk). f_equal.
    apply (cnt_ext _ _ (fun p => c0 p && c1 p && in_bin 0%R Rleb Rltb es k 0)). intros p Hin.
    rewrite img_dist_self by (try assumption; apply Hd; exact Hin). reflexivity.
  - intros [|a [|b [|c r]]] cbk H; cbn [length]; auto; discriminate.
Qed.
Print Assumptions C27_two_conditions_partial.

Definition demo_species : list (particle (list (num F64ops))) :=
  map2 mkParticle ["A"; "B"; "A"; "B"; "A"]%string demo_pos.
Example C27_nonvacuous :
  (cbk <- Filter 2 [fun p => String.eqb (species p) "A"] ;;
   frame_histogram F64ops pdata cbk demo_species demo_side demo_edges) = Ok [3; 2; 10]%nat /\
  (cbk <- partial_filters "A" "A" ;; frame_histogram F64ops pdata cbk demo_species demo_side demo_edges) = Ok [0; 0; 3]%nat /\
  (cbk <- partial_filters "A" "B" ;; frame_histogram F64ops pdata cbk demo_species demo_side demo_edges) = Ok [0; 2; 4]%nat.
Proof. repeat (split; [vm_compute; reflexivity|]); vm_compute; reflexivity. Qed.

(** ** C28 *)
(** D is any function giving minimum-image distances. *)
Theorem C28_coordination_numbers : forall D V crop ndims same (grid es : list R) skip pos0 pos1 sides out K,
  is_distance D -> edges_of_grid Rops grid = Ok es -> StronglySorted Rlt es -> 0 <= nth 0 es 0 ->
  gr_input same skip pos0 pos1 sides -> pos0 <> [] -> 0 < V -> good_dim ndims ->
  gr_legacy Rops PI ndims same grid skip pos0 pos1 sides V crop = Ok out -> (K <= length out)%nat ->
  rsum (map (fun k => snd (nth k out (0, 0)) * (mean_number pos1 / V)
                      * (ball ndims (nth (k + 1) es 0) - ball ndims (nth k es 0))) (seq 0 K))
  = mean_neighbours D same skip pos0 pos1 sides (within es K) / mean_number pos0.
Proof. exact gr_coordination. Qed.
Print Assumptions C28_coordination_numbers.

Theorem C28_symmetric : forall D pi V crop ndims (grid es : list R) skip pos0 pos1 sides,
  is_distance D -> edges_of_grid Rops grid = Ok es -> StronglySorted Rlt es ->
  gr_input false skip pos0 pos1 sides ->
  gr_legacy Rops pi ndims false grid skip pos0 pos1 sides V crop
  = gr_legacy Rops pi ndims false grid skip pos1 pos0 sides V crop.
Proof. exact gr_symmetric. Qed.
Print Assumptions C28_symmetric.

(** Each species present in every frame. *)
Theorem C28_composition_partial : forall D V crop ndims (grid es : list R) skip pos sides parts tot (out : nat -> nat -> list (R * R)),
  is_distance D -> edges_of_grid Rops grid = Ok es -> StronglySorted Rlt es -> 0 <= nth 0 es 0 ->
  pos <> [] -> 0 < V -> (1 <= ndims)%nat ->
  gr_input true skip pos pos sides ->
  (forall a, (a < length parts)%nat -> gr_input true skip (nth a parts []) (nth a parts []) sides) ->
  (forall i, (i < length pos)%nat -> Permutation (nth i pos []) (concat (map (fun p => nth i p []) parts))) ->
  gr_legacy Rops PI ndims true grid skip pos pos sides V crop = Ok tot ->
  (forall a b, (a < length parts)%nat -> (b < length parts)%nat ->
     gr_legacy Rops PI ndims (a =? b)%nat grid skip (nth a parts []) (nth b parts []) sides V crop = Ok (out a b)) ->
  forall j, (j < length tot)%nat ->
    (forall a b, (a < length parts)%nat -> (b < length parts)%nat ->
       length (out a b) = length tot /\ fst (nth j (out a b) (0, 0)) = fst (nth j tot (0, 0))) /\
    mean_number pos * mean_number pos * snd (nth j tot (0, 0))
    = rsum (map (fun a => rsum (map (fun b =>
        mean_number (nth a parts []) * mean_number (nth b parts []) * snd (nth j (out a b) (0, 0)))
        (seq 0 (length parts)))) (seq 0 (length parts))).
Proof. exact gr_composition. Qed.
Print Assumptions C28_composition_partial.

(** Hypotheses met by two frames of two species. *)
Definition demo_A : list (list (list R)) := [[[0; 0]; [1; 0]]; [[0; 1]; [1; 1]]].
Definition demo_B : list (list (list R)) := [[[2; 2]]; [[-2; 1]]].
Definition demo_AB : list (list (list R)) := [[[0; 0]; [2; 2]; [1; 0]]; [[-2; 1]; [0; 1]; [1; 1]]].
Definition demo_sides : list (list R) := [[6; 6]; [6; 6]].
Lemma demo_grid_edges : edges_of_grid Rops [1/2; 3/2; 5/2] = Ok [0; 1; 2; 3].
Proof.
  unfold edges_of_grid, getZ. cbn -[Rdiv Rmult Rplus Rminus]. unfold Pos.to_nat. cbn -[Rdiv Rmult Rplus Rminus]. apply f_equal.
  assert (forall (a b : R) (l m : list R), a = b -> l = m -> a :: l = b :: m) as C by (intros; congruence).
  repeat apply C; try lra. reflexivity.
Qed.
Example C28_nonvacuous :
  is_distance img_D /\ edges_of_grid Rops [1/2; 3/2; 5/2] = Ok [0; 1; 2; 3] /\ StronglySorted Rlt [0; 1; 2; 3] /\
  gr_input true 1 demo_AB demo_AB demo_sides /\ gr_input false 1 demo_A demo_B demo_sides /\
  gr_input true 1 demo_A demo_A demo_sides /\ gr_input true 1 demo_B demo_B demo_sides /\
  (forall i, (i < 2)%nat -> Permutation (nth i demo_AB []) (concat (map (fun p => nth i p []) [demo_A; demo_B]))) /\
  good_dim 2.
Proof.
  assert (forall s, In s demo_sides -> positive s) as Hp.
  { intros s [<-|[<-|[]]] l [<-|[<-|[]]]; lra. }
  assert (forall side (l : list (list R)), l <> [] -> forallb (fun r => (length r =? length side)%nat) l = true -> fits side l) as Hf.
  { intros side l Hn H. split; [exact Hn|]. intros r Hr. rewrite forallb_forall in H. apply Nat.eqb_eq, H, Hr. }
  repeat match goal with |- _ /\ _ => split end.
  - exact img_D_distance.
  - exact demo_grid_edges.
  - repeat constructor; lra.
  - constructor; auto. intros [|[|i]] Hi; [| |cbn in Hi; lia]; split; apply Hf; cbn; congruence.
  - constructor; auto; [discriminate|]. intros [|[|i]] Hi; [| |cbn in Hi; lia]; split; apply Hf; cbn; congruence.
  - constructor; auto. intros [|[|i]] Hi; [| |cbn in Hi; lia]; split; apply Hf; cbn; congruence.
  - constructor; auto. intros [|[|i]] Hi; [| |cbn in Hi; lia]; split; apply Hf; cbn; congruence.
  - intros [|[|i]] Hi; [| |lia]; cbn.
    + apply perm_skip. apply perm_swap.
    + change ([[-2; 1]; [0; 1]; [1; 1]]) with ([[-2; 1]] ++ [[0; 1]; [1; 1]]).
      apply (Permutation_app_comm [[-2; 1]] [[0; 1]; [1; 1]]).
  - right. exists 1%nat. lia.
Qed.

(** A species absent from one frame: histograms are averaged over the frames where
    both groups are present, numbers of particles over all frames.  Here species B
    is absent from the second of two frames; with N = (2+1)/2, N_A = 1, N_B = 1/2
    the first bin holds one A-B pair in frame 0.  N^2 g and the sum of N_a N_b g_ab
    (A-A and B-B are zero) differ by a factor two. *)
Theorem C28_composition_absent_species_refuted :
  exists pos posA posB sides grid,
    length posA = length pos /\ length posB = length pos /\
    (forall i, (i < length pos)%nat -> Permutation (nth i pos []) (nth i posA [] ++ nth i posB [])) /\
    let f := f64_ofZ in let pi := f64_frac 22 7 in
    exists tot ab aa,
      gr_legacy F64ops pi 2 true grid 1 pos pos sides (f 36%Z) (f 3%Z) = Ok tot /\
      gr_legacy F64ops pi 2 false grid 1 posA posB sides (f 36%Z) (f 3%Z) = Ok ab /\
      gr_legacy F64ops pi 2 true grid 1 posA posA sides (f 36%Z) (f 3%Z) = Ok aa /\
      map snd aa = [f 0%Z; f 0%Z; f 0%Z] /\
      (* N^2 g_tot *)
      let lhs := nmul F64ops (nmul F64ops (f64_frac 3 2) (f64_frac 3 2)) (nth 1 (map snd tot) (f 0%Z)) in
      (* 2 N_A N_B g_AB; g_BB has no pair *)
      let rhs := nmul F64ops (nmul F64ops (f 2%Z) (f64_frac 1 2)) (nth 1 (map snd ab) (f 0%Z)) in
      nlt F64ops (nmul F64ops (f64_frac 3 2) lhs) rhs = true.
Proof.
  exists (map (map (map f64_ofZ)) [[[0; 0]; [1; 0]]; [[0; 0]]]%Z), (map (map (map f64_ofZ)) [[[0; 0]]; [[0; 0]]]%Z),
    (map (map (map f64_ofZ)) [[[1; 0]]; []]%Z), [map f64_ofZ [6; 6]%Z; map f64_ofZ [6; 6]%Z],
    [f64_frac 1 2; f64_frac 3 2; f64_frac 5 2].
  split; [reflexivity|]. split; [reflexivity|]. split.
  { intros [|[|i]] Hi; [| |cbn in Hi; lia]; apply Permutation_refl. }
  cbv zeta. do 3 eexists. split; [vm_compute; reflexivity|]. split; [vm_compute; reflexivity|].
  split; [vm_compute; reflexivity|]. split; vm_compute; reflexivity.
Qed.
Print Assumptions C28_composition_absent_species_refuted.

(** ** C29 *)
Theorem C29_shell_volume_partial : forall d (r0 r1 : R), good_dim d ->
  shell Rops PI d r0 r1 = ball d r1 - ball d r0.
Proof. exact shell_good. Qed.
Print Assumptions C29_shell_volume_partial.

(** Every odd dimension but 3: wrong for every shell. *)
Theorem C29_shell_volume_odd_refuted : forall m (r0 r1 : R), m <> 1%nat -> 0 <= r0 -> r0 < r1 ->
  shell Rops PI (2 * m + 1) r0 r1 <> ball (2 * m + 1) r1 - ball (2 * m + 1) r0.
Proof. exact shell_odd_wrong. Qed.
Print Assumptions C29_shell_volume_odd_refuted.

Example C29_nonvacuous : shell Rops PI 1 1 3 = 2 /\ ball 1 3 - ball 1 1 = 4 /\ good_dim 2 /\ good_dim 3 /\ good_dim 4.
Proof.
  split; [unfold shell; cbn; field|]. split; [unfold ball; cbn; lra|].
  split; [right; exists 1%nat; lia|]. split; [left; reflexivity|right; exists 2%nat; lia].
Qed.

(** ** C33 *)
(** In exact arithmetic the kernels stay inside the histogram, and count each
    pair in the right bin. *)
Theorem C33_self_in_bounds_partial : forall (pos : list (list R)) side dr n, 0 < dr ->
  exists h, gr_self_c Rops pos side dr n = Ok h /\ length h = n /\
    forall k, (k < n)%nat -> nth k h 0%nat = count_pairs (fun a b => slot dr k (fdist Rops a b side)) pos [].
Proof. exact gr_self_c_spec. Qed.
Print Assumptions C33_self_in_bounds_partial.

Theorem C33_distinct_in_bounds_partial : forall (pos1 pos2 : list (list R)) side dr n, 0 < dr ->
  exists h, gr_distinct_c Rops pos1 pos2 side dr n = Ok h /\ length h = n /\
    forall k, (k < n)%nat -> nth k h 0%nat = count_prod (fun a b => slot dr k (fdist Rops a b side)) pos1 pos2.
Proof. exact gr_distinct_c_spec. Qed.
Print Assumptions C33_distinct_in_bounds_partial.

(** The kernels for neighbour lists need all listed neighbours within the histogram. *)
Theorem C33_neighbors_in_bounds_partial : forall (pos1 pos2 : list (list R)) neigh side dr n, 0 < dr ->
  length neigh = length pos1 ->
  (forall i j, (i < length pos1)%nat -> In j (nth i neigh []) ->
     (j < length pos2)%nat /\ fdist Rops (nth i pos1 []) (nth j pos2 []) side < dr * INR n) ->
  exists h, gr_neighbors_c Rops pos1 pos2 neigh side dr n = Ok h /\ length h = n /\
    forall k, (k < n)%nat -> nth k h 0%nat =
      length (filter (fun ij => slot dr k (fdist Rops (nth (fst ij) pos1 []) (nth (snd ij) pos2 []) side))
        (flat_map (fun i => map (fun j => (i, j)) (nth i neigh [])) (seq 0 (length pos1)))).
Proof. exact gr_neighbors_c_spec. Qed.
Print Assumptions C33_neighbors_in_bounds_partial.

(** Doubles: d = 0.35 passes the test d < 0.01 * 35 but falls in bin 36 of 35. *)
Theorem C33_double_out_of_bounds_refuted :
  exists pos side dr n, nlt F64ops (n0 F64ops) dr = true /\
    gr_self_c F64ops pos side dr n = Err IndexError /\ gr_distinct_c F64ops pos pos side dr n = Err IndexError.
Proof.
  exists [[f64_ofZ 0]; [f64_frac 35 100]], [f64_ofZ 1], (f64_frac 1 100), 35%nat.
  split; [vm_compute; reflexivity|]. split; vm_compute; reflexivity.
Qed.
Print Assumptions C33_double_out_of_bounds_refuted.

(** A listed neighbour beyond the histogram: written out of bounds, also exactly. *)
Lemma bin_add_out : forall dr d (h : list nat), 0 < dr -> dr * INR (length h) <= d -> bin_add Rops dr h d = Err IndexError.
Proof.
  intros dr d h Hdr Hd. unfold bin_add. cbn [nfloor ndiv Rops].
  assert (INR (length h) <= d / dr) as H.
  { apply Rmult_le_reg_r with dr; [exact Hdr|]. unfold Rdiv. rewrite Rmult_assoc, Rinv_l by lra. lra. }
  rewrite INR_IZR_INZ in H. pose proof (Rfloor_bounds (d / dr)) as B.
  assert (IZR (Z.of_nat (length h)) < IZR (Rfloor (d / dr)) + 1) as B' by lra.
  rewrite <- plus_IZR in B'. apply lt_IZR in B'.
  replace (Rfloor (d / dr) <? Z.of_nat (length h))%Z with false by (symmetry; apply Z.ltb_ge; lia).
  rewrite andb_false_r. reflexivity.
Qed.
Theorem C33_neighbors_short_grid_refuted : forall (a b side : list R) dr n, 0 < dr ->
  dr * INR n <= fdist Rops a b side ->
  gr_neighbors_c Rops [a] [a; b] [[1%nat]] side dr n = Err IndexError.
Proof.
  intros a b side dr n Hdr Hd. unfold gr_neighbors_c. cbn [combine foldM fst snd mapM get nth_error bind].
  rewrite bin_add_out; [reflexivity|exact Hdr|]. rewrite repeat_length. exact Hd.
Qed.
Print Assumptions C33_neighbors_short_grid_refuted.

Example C33_nonvacuous :
  gr_self_c F64ops demo_pos demo_side (f64_ofZ 1) 3 = Ok [0; 2; 7]%nat /\
  gr_neighbors_c F64ops demo_pos demo_pos [[1; 2]; []; [3]; []; []]%nat demo_side (f64_ofZ 1) 3 = Ok [0; 1; 2]%nat.
Proof. split; vm_compute; reflexivity. Qed.

(** ** C34 *)
(** Default grid from bin width dr, largest cell side L and sd = sqrt(ndims);
    [crop] is at most the reach of the grid minus one bin. *)
Theorem C34_fast_legacy_partial : forall pi V crop ndims same (dr L sd : R) skip pos0 pos1 sides,
  0 < dr -> 3 / 2 * dr <= L * sd -> crop <= L * sd - dr ->
  gr_input same skip pos0 pos1 sides -> pos0 <> [] ->
  mean_used skip pos0 = mean_number pos0 -> mean_used skip pos1 = mean_number pos1 ->
  (forall i r, (i < length pos0)%nat -> In r (nth i pos0 []) \/ In r (nth i pos1 []) -> inside r (nth i sides [])) ->
  exists grid, gr_grid Rops dr L sd = Ok grid /\
  gr_fast Rops pi ndims same grid skip pos0 pos1 sides V crop
  = gr_legacy Rops pi ndims same grid skip pos0 pos1 sides V crop.
Proof. exact gr_fast_legacy_default. Qed.
Print Assumptions C34_fast_legacy_partial.

(** The hypothesis on the numbers of particles holds when they are constant, or
    when every frame is used. *)
Theorem C34_constant_number : forall skip pos N, (1 <= skip)%nat -> pos <> [] ->
  (forall i, (i < length pos)%nat -> length (nth i pos []) = N) -> mean_used skip pos = mean_number pos.
Proof. exact mean_used_const. Qed.
Print Assumptions C34_constant_number.
Theorem C34_all_frames : forall pos, mean_used 1 pos = mean_number pos.
Proof. exact mean_used_all. Qed.
Print Assumptions C34_all_frames.

(** Otherwise they differ: one frame out of two used, 2 and then 3 particles. *)
Theorem C34_varying_number_refuted :
  exists pos sides grid fast legacy,
    gr_grid F64ops (f64_frac 1 2) (f64_ofZ 6) (f64_frac 3 2) = Ok grid /\
    gr_fast F64ops (f64_frac 22 7) 2 true grid 2 pos pos sides (f64_ofZ 36) (f64_ofZ 3) = Ok fast /\
    gr_legacy F64ops (f64_frac 22 7) 2 true grid 2 pos pos sides (f64_ofZ 36) (f64_ofZ 3) = Ok legacy /\
    nlt F64ops (nmul F64ops (f64_frac 3 2) (nth 2 (map snd legacy) (f64_ofZ 0))) (nth 2 (map snd fast) (f64_ofZ 0)) = true.
Proof.
  exists (map (map (map f64_ofZ)) [[[0; 0]; [1; 0]]; [[0; 0]; [1; 0]; [2; 0]]]%Z),
    [map f64_ofZ [6; 6]%Z; map f64_ofZ [6; 6]%Z].
  do 3 eexists. repeat (split; [vm_compute; reflexivity|]). vm_compute; reflexivity.
Qed.
Print Assumptions C34_varying_number_refuted.

Example C34_nonvacuous :
  (forall i r, (i < 2)%nat -> In r (nth i demo_A []) \/ In r (nth i demo_B []) -> inside r (nth i demo_sides [])) /\
  exists grid out, gr_grid F64ops (f64_frac 1 2) (f64_ofZ 6) (f64_frac 3 2) = Ok grid /\
    gr_fast F64ops (f64_frac 22 7) 2 true grid 1 [demo_pos] [demo_pos] [demo_side] (f64_ofZ 36) (f64_ofZ 3) = Ok out /\
    gr_legacy F64ops (f64_frac 22 7) 2 true grid 1 [demo_pos] [demo_pos] [demo_side] (f64_ofZ 36) (f64_ofZ 3) = Ok out /\
    length out = 6%nat.
Proof.
  split.
  - intros [|[|i]] r Hi H; [| |lia]; cbn in H;
      repeat match goal with H : _ \/ _ |- _ => destruct H as [H|H] | H : False |- _ => destruct H | H : _ = r |- _ => subst r end;
      cbn; lra.
  - do 2 eexists. repeat (split; [vm_compute; reflexivity|]). vm_compute; reflexivity.
Qed.
