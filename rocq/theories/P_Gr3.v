(** Default grid of g(r); histogram totals; pairs selected by filters. *)
From Coq Require Import Ascii String List ZArith Bool Arith Lia Reals Lra Permutation Sorting.Sorted Psatz.
From Verif Require Import PyBase PyBaseFacts Num NumFacts Spec_Stats M_Helpers M_Correlation M_Dynamics M_Realspace M_Groups
  Spec_Correlation Spec_Dynamics Spec_Pairs P_Helpers P_Dynamics P_Overlap P_Pairs P_Image P_Count P_Gr P_GrFast2 P_Groups.
Import ListNotations.
Local Open Scope R_scope.

Lemma gr_grid_uniform : forall dr L sd : R, 0 < dr -> 3 / 2 * dr <= L * sd ->
  exists n, (2 <= n)%nat /\ gr_grid Rops dr L sd = Ok (ugrid dr n) /\
    L * sd - dr < dr / 2 + INR (n - 1) * dr <= L * sd.
Proof.
  intros dr L sd Hdr HL. unfold gr_grid. cbn [ndiv nmul nofZ Rops].
  destruct (linear_grid_float (dr / 2) (L * sd) dr) as [g [E [Hlen [Hn [Hb [Hne Hl]]]]]]; [lra|lra|].
  assert (2 <= length g)%nat as H2.
  { rewrite Hlen. pose proof (Rfloor_bounds ((L * sd - dr / 2) / dr)) as B.
    assert (1 <= (L * sd - dr / 2) / dr).
    { apply Rmult_le_reg_r with dr; [assumption|]. unfold Rdiv. rewrite Rmult_assoc, Rinv_l by lra. lra. }
    assert (1 < IZR (Rfloor ((L * sd - dr / 2) / dr)) + 1) as B' by lra.
    rewrite <- plus_IZR in B'. apply lt_IZR in B'. lia. }
  exists (length g). split; [exact H2|]. split.
  - etransitivity; [exact E|]. f_equal. unfold ugrid. apply nth_ext with (d := 0) (d' := 0).
    + rewrite map_length, seq_length. reflexivity.
    + intros i Hi. rewrite nth_map_seq by exact Hi. change (num Rops) with R. rewrite Hn by exact Hi. reflexivity.
  - rewrite Hn in Hl by lia. split; [lra|]. rewrite <- Hn by lia. apply Hb. apply nth_In. lia.
Qed.

Lemma gr_fast_legacy_default : forall pi V crop ndims same (dr L sd : R) skip pos0 pos1 sides,
  0 < dr -> 3 / 2 * dr <= L * sd -> crop <= L * sd - dr ->
  gr_input same skip pos0 pos1 sides -> pos0 <> [] ->
  mean_used skip pos0 = mean_number pos0 -> mean_used skip pos1 = mean_number pos1 ->
  (forall i r, (i < length pos0)%nat -> In r (nth i pos0 []) \/ In r (nth i pos1 []) -> inside r (nth i sides [])) ->
  exists grid, gr_grid Rops dr L sd = Ok grid /\
  gr_fast Rops pi ndims same grid skip pos0 pos1 sides V crop
  = gr_legacy Rops pi ndims same grid skip pos0 pos1 sides V crop.
Proof.
  intros pi V crop ndims same dr L sd skip pos0 pos1 sides Hdr HL Hc Hin Hne HN0 HN1 Hf.
  destruct (gr_grid_uniform dr L sd Hdr HL) as [n [Hn [E B]]]. exists (ugrid dr n). split; [exact E|].
  apply (gr_fast_legacy pi V crop ndims same dr n skip pos0 pos1 sides); auto. lra.
Qed.

(** Histogram totals. *)
Lemma cnt_pairs_vals : forall X (P : R -> bool) (f : X -> X -> R) xs d,
  count_pairs (fun a b => P (f a b)) xs d
  = cnt P (map (fun p => f (nth (fst p) xs d) (nth (snd p) xs d)) (index_pairs (length xs))).
Proof. intros. rewrite cnt_map. reflexivity. Qed.
Lemma cnt_prod_vals : forall X Y (P : R -> bool) (f : X -> Y -> R) xs ys,
  count_prod (fun a b => P (f a b)) xs ys = cnt P (map (fun p => f (fst p) (snd p)) (list_prod xs ys)).
Proof. intros. rewrite cnt_map. reflexivity. Qed.

Lemma list_sum_nth : forall h, list_sum h = list_sum (map (fun k => nth k h 0%nat) (seq 0 (length h))).
Proof. intros h. f_equal. apply nth_ext with (d := 0%nat) (d' := 0%nat); [rewrite map_length, seq_length; reflexivity|].
  intros i Hi. rewrite nth_map_seq by exact Hi. reflexivity. Qed.

Lemma within_all : forall es v, (2 <= length es)%nat ->
  within es (length es - 1) v = (Rleb (nth 0 es 0) v && Rleb v (nth (length es - 1) es 0))%bool.
Proof.
  intros es v H. unfold within. replace (length es - 1 + 1 =? length es)%nat with true; [reflexivity|].
  symmetry. apply Nat.eqb_eq. lia.
Qed.

Lemma newton_total : forall f (x : list (list R)) es, x <> [] -> StronglySorted Rlt es -> (2 <= length es)%nat ->
  exists h, pairs_newton_hist Rops f x x es = Ok h /\
    list_sum h = count_pairs (fun a b => Rleb (nth 0 es 0) (f b a) && Rleb (f b a) (nth (length es - 1) es 0)) x [].
Proof.
  intros f x es Hx Hs H2. destruct (pairs_newton_spec Rops f x es Hx (edges_ok_sorted es Hs)) as [h [E [L C]]].
  exists h. split; [exact E|]. rewrite list_sum_nth, L. change (num Rops) with R in *.
  rewrite (map_ext_in _ (fun k => cnt (in_bin 0%R Rleb Rltb es k)
     (map (fun p => f (nth (snd p) x []) (nth (fst p) x [])) (index_pairs (length x))))).
  2:{ intros k Hk. apply in_seq in Hk. rewrite C by lia. rewrite cnt_map. reflexivity. }
  rewrite bins_telescope by (try assumption; lia). destruct (Nat.eqb_spec (length es - 1) 0); [lia|].
  rewrite cnt_map. unfold count_pairs. apply cnt_ext. intros p _. apply within_all. exact H2.
Qed.

Lemma hist_total : forall f (x y : list (list R)) es, StronglySorted Rlt es -> (2 <= length es)%nat ->
  exists h, pairs_hist Rops f x y es = Ok h /\
    list_sum h = count_prod (fun a b => Rleb (nth 0 es 0) (f b a) && Rleb (f b a) (nth (length es - 1) es 0)) y x.
Proof.
  intros f x y es Hs H2. destruct (pairs_hist_spec Rops f x y es (edges_ok_sorted es Hs)) as [h [E [L C]]].
  exists h. split; [exact E|]. rewrite list_sum_nth, L. change (num Rops) with R in *.
  rewrite (map_ext_in _ (fun k => cnt (in_bin 0%R Rleb Rltb es k)
     (map (fun p => f (snd p) (fst p)) (list_prod y x)))).
  2:{ intros k Hk. apply in_seq in Hk. rewrite C by lia. rewrite cnt_map. reflexivity. }
  rewrite bins_telescope by (try assumption; lia). destruct (Nat.eqb_spec (length es - 1) 0); [lia|].
  rewrite cnt_map. unfold count_prod. apply cnt_ext. intros p _. apply within_all. exact H2.
Qed.

Lemma ordered_ext : forall X (P Q : X -> X -> bool) l d, (forall a b, P a b = Q a b) -> ordered_pairs P l d = ordered_pairs Q l d.
Proof. intros X P Q l d H. unfold ordered_pairs. apply cnt_ext. intros p _. rewrite H. reflexivity. Qed.

Lemma partial_frame_same : forall D (pos : particle D -> list R) side es (ps : list (particle D)) d a,
  positive side -> (forall p, In p ps -> length (pos p) = length side) -> StronglySorted Rlt es ->
  (exists p, In p ps /\ species p = a) ->
  exists cbk h, partial_filters a a = Ok cbk /\ frame_histogram Rops pos cbk ps side es = Ok h /\
    forall k, (k + 1 < length es)%nat ->
      (2 * nth k h 0 = ordered_pairs (fun p q => String.eqb (species p) a && String.eqb (species q) a
          && in_bin 0%R Rleb Rltb es k (img_dist Rops (pos p) (pos q) side)) ps d)%nat.
Proof.
  intros D pos side es ps d a Hp Hd Hs [p [Hin Hsp]].
  destruct (frame_same _ pos side es ps d Hp Hd Hs (fun p => String.eqb (species p) a)) as [h [E C]].
  { intros E. assert (In p (filter (fun p => String.eqb (species p) a) ps)) as H.
    { apply filter_In. split; [exact Hin|]. rewrite Hsp. apply String.eqb_refl. }
    rewrite E in H. destruct H. }
  eexists. exists h. unfold partial_filters, add_filter. cbn [length Nat.ltb Nat.leb bind app].
  rewrite String.eqb_refl. split; [reflexivity|]. split; [exact E|exact C].
Qed.

Lemma partial_frame_distinct : forall D (pos : particle D -> list R) side es (ps : list (particle D)) d a b,
  positive side -> (forall p, In p ps -> length (pos p) = length side) -> StronglySorted Rlt es -> a <> b ->
  exists cbk h, partial_filters a b = Ok cbk /\ frame_histogram Rops pos cbk ps side es = Ok h /\
    forall k, (k + 1 < length es)%nat ->
      nth k h 0%nat = ordered_pairs (fun p q => String.eqb (species p) a && String.eqb (species q) b
          && in_bin 0%R Rleb Rltb es k (img_dist Rops (pos p) (pos q) side)) ps d.
Proof.
  intros D pos side es ps d a b Hp Hd Hs Hab.
  destruct (frame_distinct _ pos side es ps d Hs (fun p => String.eqb (species p) a) (fun p => String.eqb (species p) b))
    as [h [E C]].
  eexists. exists h. unfold partial_filters, add_filter. cbn [length Nat.ltb Nat.leb bind app].
  destruct (String.eqb_spec a b); [contradiction|]. split; [reflexivity|]. split; [exact E|].
  intros k Hk. rewrite (C k Hk). rewrite (cnt_ext _ _ (fun _ => false)).
  - assert (cnt (fun _ : particle D => false) ps = 0%nat) as -> by (unfold cnt; clear; induction ps; auto). lia.
  - intros p _. destruct (String.eqb_spec (species p) a), (String.eqb_spec (species p) b); try reflexivity. congruence.
Qed.

Lemma unfiltered_frame : forall X (pos : X -> list R) side es ps d,
  positive side -> (forall p, In p ps -> length (pos p) = length side) -> StronglySorted Rlt es -> ps <> [] ->
  exists h, frame_histogram Rops pos [] ps side es = Ok h /\
    forall k, (k + 1 < length es)%nat ->
      (2 * nth k h 0 = ordered_pairs (fun p q => in_bin 0%R Rleb Rltb es k (img_dist Rops (pos p) (pos q) side)) ps d)%nat.
Proof.
  intros X pos side es ps d Hp Hd Hs Hne.
  assert (filter (fun _ : X => true) ps = ps) as E by (clear; induction ps; cbn; congruence).
  destruct (frame_same _ pos side es ps d Hp Hd Hs (fun _ => true)) as [h [Eh C]]; [rewrite E; exact Hne|].
  exists h. split; [|exact C]. unfold frame_histogram, two_body, one_body, filter_generic in *. rewrite E in Eh. exact Eh.
Qed.

(** One condition: every selected particle is counted as its own neighbour. *)
Lemma one_condition_frame : forall X (pos : X -> list R) side es ps d c,
  positive side -> (forall p, In p ps -> length (pos p) = length side) -> StronglySorted Rlt es ->
  (2 <= length es)%nat -> nth 0 es 0 <= 0 < nth 1 es 0 ->
  exists cbk h, Filter 2 [c] = Ok cbk /\ frame_histogram Rops pos cbk ps side es = Ok h /\
    nth 0 h 0%nat = (ordered_pairs (fun p q => c p && in_bin 0%R Rleb Rltb es 0 (img_dist Rops (pos p) (pos q) side)) ps d
                     + length (filter c ps))%nat.
Proof.
  intros X pos side es ps d c Hp Hd Hs H2 H0.
  destruct (frame_distinct _ pos side es ps d Hs c (fun _ => true)) as [h [E C]].
  exists [filter_generic c; fun ps => ps], h. split; [reflexivity|].
  assert (filter (fun _ : X => true) ps = ps) as Ef by (clear; induction ps; cbn; congruence).
  split. { unfold frame_histogram, two_body, filter_generic in *. rewrite Ef in E. exact E. }
  rewrite C by lia. f_equal.
  - apply ordered_ext. intros a b. rewrite andb_true_r. reflexivity.
  - apply (cnt_ext _ _ c). intros p Hin. rewrite andb_true_r.
    rewrite img_dist_self by (try assumption; apply Hd; exact Hin).
    unfold in_bin. cbn [Nat.add]. destruct (Rleb_spec (nth 0 es 0) 0); [|lra].
    destruct (Rltb_spec 0 (nth 1 es 0)); [|lra]. destruct (Rleb_spec 0 (nth 1 es 0)); [|lra].
    destruct (2 =? length es)%nat; cbn; apply andb_true_r.
Qed.
