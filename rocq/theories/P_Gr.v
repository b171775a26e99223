(** Proofs about the normalisation of g(r). *)
From Coq Require Import List ZArith Bool Arith Lia Reals Lra Permutation Sorting.Sorted Psatz.
From Verif Require Import PyBase PyBaseFacts Num NumFacts Spec_Stats M_Helpers M_Correlation M_Dynamics M_Realspace
  Spec_Correlation Spec_Dynamics Spec_Pairs P_Helpers P_Dynamics P_Overlap P_Pairs P_Image P_Count.
Import ListNotations.
Local Open Scope R_scope.

Lemma sorted_edges_lt : forall es, StronglySorted Rlt es ->
  forall i j, (i < j < length es)%nat -> nth i es 0 < nth j es 0.
Proof.
  intros es Hs. induction Hs as [|a es Hs IH Hf]; intros i j Hij; [cbn in Hij; lia|].
  destruct j as [|j]; [lia|]. destruct i as [|i]; cbn [nth].
  - rewrite Forall_forall in Hf. apply Hf. apply nth_In. cbn in Hij. lia.
  - apply IH. cbn in Hij. lia.
Qed.

Lemma edges_ok_sorted : forall es, StronglySorted Rlt es -> edges_ok Rops es = true.
Proof.
  intros es Hs. induction Hs as [|a es Hs IH Hf]; [reflexivity|]. destruct es as [|b es]; [reflexivity|].
  change (negb (Rltb b a) && edges_ok Rops (b :: es) = true). rewrite IH, andb_true_r.
  rewrite Forall_forall in Hf. specialize (Hf b (or_introl eq_refl)). destruct (Rltb_spec b a); [lra|reflexivity].
Qed.

(** The distance used is the minimum-image distance. *)
Lemma distance_img : forall D side x y, is_distance D -> positive side ->
  length x = length side -> length y = length side -> img_dist Rops x y side = D side x y.
Proof.
  intros D side x y HD Hp Hx Hy. apply (min_image_unique x y side); [apply img_dist_min; assumption|apply HD; assumption].
Qed.

(** A closed form of the histogram of one frame. *)
Lemma frame_hist : forall D same es side p0 p1, is_distance D -> StronglySorted Rlt es -> positive side ->
  fits side p0 -> fits side p1 -> (same = true -> p1 = p0) ->
  exists h, (if same then pairs_newton_hist Rops (fun x y => img_dist Rops x y side) p0 p1 es
             else pairs_hist Rops (fun x y => img_dist Rops x y side) p0 p1 es) = Ok h /\
    length h = (length es - 1)%nat /\
    forall k, (k + 1 < length es)%nat ->
      INR (neighbours same D (in_bin 0 Rleb Rltb es k) side p0 p1) = (if same then 2 else 1) * INR (nth k h 0%nat).
Proof.
  intros D same es side p0 p1 HD Hs Hp [H0 F0] [H1 F1] Hsame.
  pose proof (edges_ok_sorted es Hs) as He. destruct same.
  - rewrite (Hsame eq_refl) in *.
    destruct (pairs_newton_spec Rops (fun x y => img_dist Rops x y side) p0 es H0 He) as [h [E [L C]]].
    exists h. split; [exact E|]. split; [exact L|]. intros k Hk. rewrite C by exact Hk. unfold neighbours.
    assert (2 = INR 2) as -> by (cbn; lra). rewrite <- mult_INR. f_equal.
    rewrite <- count_pairs_ordered.
    + f_equal. unfold count_pairs. change (@nil (num Rops)) with (@nil R).
      change (num Rops) with R in *. apply cnt_ext. intros [i j] Hij.
      unfold index_pairs in Hij. apply filter_In in Hij. destruct Hij as [Hij _]. apply in_prod_iff in Hij.
      rewrite !in_seq in Hij. cbn [fst snd].
      assert (In (nth i p0 []) p0 /\ In (nth j p0 []) p0) as [Hi Hj] by (split; apply nth_In; lia).
      rewrite <- (distance_img D side (nth i p0 []) (nth j p0 [])) by auto.
      rewrite (img_dist_sym side (nth i p0 []) (nth j p0 [])) by auto. reflexivity.
    + intros x y Hx Hy. rewrite <- !(distance_img D) by auto. rewrite img_dist_sym by auto. reflexivity.
  - destruct (pairs_hist_spec Rops (fun x y => img_dist Rops x y side) p0 p1 es He) as [h [E [L C]]].
    exists h. split; [exact E|]. split; [exact L|]. intros k Hk. rewrite C by exact Hk. unfold neighbours.
    rewrite Rmult_1_l. f_equal. rewrite count_prod_swap. change (num Rops) with R. apply count_prod_ext.
    intros y x Hy Hx. rewrite <- (distance_img D) by auto. reflexivity.
Qed.

Lemma combine_nth_seq : forall X Y (l : list X) (m : list Y) a b,
  combine l m = map (fun k => (nth k l a, nth k m b)) (seq 0 (Nat.min (length l) (length m))).
Proof.
  intros X Y l m a b. revert m. induction l as [|x l IH]; intros [|y m]; try reflexivity.
  cbn [combine length Nat.min seq map nth]. f_equal. rewrite IH, <- seq_shift, map_map. reflexivity.
Qed.

Lemma filter_map : forall X Y (P : Y -> bool) (g : X -> Y) l, filter P (map g l) = map g (filter (fun x => P (g x)) l).
Proof. intros. induction l as [|a l IH]; [reflexivity|]. cbn. destruct (P (g a)); cbn; rewrite IH; reflexivity. Qed.

Lemma foldM_acc_map : forall X Y (step : list Y -> X -> res (list Y)) (g : X -> Y) l acc,
  (forall a x, In x l -> step a x = Ok (a ++ [g x])) -> foldM step acc l = Ok (acc ++ map g l).
Proof.
  intros X Y step g l. induction l as [|x l IH]; intros acc H; cbn [foldM map].
  - rewrite app_nil_r. reflexivity.
  - rewrite H by (left; reflexivity). cbn [bind]. rewrite IH by (intros; apply H; right; assumption).
    rewrite <- app_assoc. reflexivity.
Qed.

Section Gr.
Variables (D : list R -> list R -> list R -> R) (pi V crop : R) (ndims : nat) (same : bool) (grid es : list R)
  (skip : nat) (pos0 pos1 : list (list (list R))) (sides : list (list R)).
Hypothesis HD : is_distance D.
Hypothesis Hedges : edges_of_grid Rops grid = Ok es.
Hypothesis Hsorted : StronglySorted Rlt es.
Hypothesis Hin : gr_input same skip pos0 pos1 sides.

Let frame_neighbours (P : R -> bool) (i : nat) : nat :=
  neighbours same D P (nth i sides []) (nth i pos0 []) (nth i pos1 []).

Lemma gr_legacy_form :
  gr_legacy Rops pi ndims same grid skip pos0 pos1 sides V crop
  = Ok (map (fun k => (center es k,
        mean_neighbours D same skip pos0 pos1 sides (in_bin 0 Rleb Rltb es k)
        / (mean_number pos1 / V * shell Rops pi ndims (nth k es 0) (nth (k + 1) es 0) * mean_number pos0)))
      (bins_upto es crop)).
Proof.
  destruct Hin as [Hskip Hlen1 Hlen2 Hsame Hpos Hfit].
  unfold gr_legacy. rewrite Hedges. cbn [bind]. rewrite (np_histogram_Ok Rops [] es) by (apply edges_ok_sorted; assumption).
  cbn [bind]. rewrite py_range_spec by exact Hskip. cbn [bind].
  change (num Rops) with R.
  set (os := filter (fun i => (0 <=? i) && ((i - 0) mod skip =? 0))%nat (seq 0 (length pos0))).
  assert (os = origins 0 skip (length pos0)) as Eos by reflexivity.
  assert (forall i, In i os -> (i < length pos0)%nat) as Hos.
  { intros i Hi. apply filter_In in Hi. destruct Hi as [Hi _]. apply in_seq in Hi. lia. }
  assert (forall i, exists h, (i < length pos0)%nat ->
     (if same then pairs_newton_hist Rops (fun x y => img_dist Rops x y (nth i sides [])) (nth i pos0 []) (nth i pos1 []) es
      else pairs_hist Rops (fun x y => img_dist Rops x y (nth i sides [])) (nth i pos0 []) (nth i pos1 []) es) = Ok h /\
      length h = (length es - 1)%nat /\ (forall k, (k + 1 < length es)%nat ->
        INR (frame_neighbours (in_bin 0 Rleb Rltb es k) i) = (if same then 2 else 1) * INR (nth k h 0%nat))) as Hh.
  { intros i. destruct (le_lt_dec (length pos0) i) as [Hi|Hi]; [exists []; lia|].
    destruct (Hfit i Hi) as [F0 F1].
    destruct (frame_hist D same es (nth i sides []) (nth i pos0 []) (nth i pos1 [])) as [h Hh]; auto.
    - apply Hpos. apply nth_In. lia.
    - intros E. rewrite (Hsame E). reflexivity.
    - exists h. intros _. exact Hh. }
  assert (exists hf : nat -> list nat, forall i, (i < length pos0)%nat ->
     (if same then pairs_newton_hist Rops (fun x y => img_dist Rops x y (nth i sides [])) (nth i pos0 []) (nth i pos1 []) es
      else pairs_hist Rops (fun x y => img_dist Rops x y (nth i sides [])) (nth i pos0 []) (nth i pos1 []) es) = Ok (hf i) /\
      length (hf i) = (length es - 1)%nat /\ (forall k, (k + 1 < length es)%nat ->
        INR (frame_neighbours (in_bin 0 Rleb Rltb es k) i) = (if same then 2 else 1) * INR (nth k (hf i) 0%nat)))
    as [hf Hhf].
  { exists (fun i => match (if same then pairs_newton_hist Rops (fun x y => img_dist Rops x y (nth i sides [])) (nth i pos0 []) (nth i pos1 []) es
      else pairs_hist Rops (fun x y => img_dist Rops x y (nth i sides [])) (nth i pos0 []) (nth i pos1 []) es) with Ok h => h | Err _ => [] end).
    intros i Hi. destruct (Hh i) as [h H]. destruct (H Hi) as [E H']. rewrite E. split; [reflexivity|exact H']. }
  clear Hh.
  rewrite (foldM_acc_map _ _ _ hf).
  2:{ intros a i Hi. change (num Rops) with R. specialize (Hos i Hi). destruct (Hhf i Hos) as [E _]. destruct (Hfit i Hos) as [[N0 _] [N1 _]].
      rewrite (get_Ok _ pos0 i []) by exact Hos. cbn [bind].
      rewrite (get_Ok _ pos1 i []) by (change (i < length pos1)%nat; lia). cbn [bind].
      rewrite (get_Ok _ sides i []) by (change (i < length sides)%nat; lia). cbn [bind].
      change (num Rops) with R in *.
      destruct (length (nth i pos0 []) =? 0)%nat eqn:E0; [apply Nat.eqb_eq, length_zero_iff_nil in E0; contradiction|].
      destruct (length (nth i pos1 []) =? 0)%nat eqn:E1; [apply Nat.eqb_eq, length_zero_iff_nil in E1; contradiction|].
      cbn [orb]. destruct same; rewrite E; reflexivity. }
  clearbody os.
  cbn [bind app]. f_equal.
  assert (forall l : list R, tl l = skipn 1 l) as Htl by (intros [|]; reflexivity).
  assert (combine es (tl es) = map (fun k => (nth k es 0, nth (k + 1) es 0)) (seq 0 (length es - 1))) as Epairs.
  { rewrite (combine_nth_seq R R es (tl es) 0 0). rewrite Htl, skipn_length. replace (Nat.min (length es) (length es - 1)) with (length es - 1)%nat by lia.
    apply map_ext. intros k. f_equal. destruct es as [|e r]; [destruct k; reflexivity|]. cbn [skipn]. rewrite Nat.add_1_r. reflexivity. }
  change (num Rops) with R in *. rewrite Epairs, map_length, seq_length. set (n := (length es - 1)%nat).
  unfold hist_average, map2. rewrite !map_map.
  assert (forall (X Y Z : Type) (f : nat -> X) (g : nat -> Y) (m : nat) ,
     combine (map f (seq 0 m)) (map g (seq 0 m)) = map (fun k => (f k, g k)) (seq 0 m)) as Hc.
  { intros X Y _ f g m. generalize (seq 0 m). induction l as [|a l IH]; [reflexivity|]. cbn. rewrite IH. reflexivity. }
  rewrite (Hc R (R * R)%type R), map_map, (Hc R R R), filter_map. cbn [fst snd].
  unfold bins_upto. fold n.
  apply map_ext_in. intros k Hk. apply filter_In in Hk. destruct Hk as [Hk _]. apply in_seq in Hk. f_equal.
  rewrite !nmean_R, nsum_R, !map_length, nofnat_R. change (num Rops) with R.
  assert (rsum (map (fun p : list (list R) => nofnat Rops (length p) : R) pos0) / INR (length pos0) = mean_number pos0) as ->.
  { unfold mean_number, rmean. rewrite map_length. f_equal. f_equal. apply map_ext. intros. apply nofnat_R. }
  assert (rsum (map (fun p : list (list R) => nofnat Rops (length p) : R) pos1) / INR (length pos1) = mean_number pos1) as ->.
  { unfold mean_number, rmean. rewrite map_length. f_equal. f_equal. apply map_ext. intros. apply nofnat_R. }
  unfold mean_neighbours, rmean. rewrite map_length, <- Eos.
  change (fun i => INR (neighbours same D (in_bin 0 Rleb Rltb es k) (nth i sides []) (nth i pos0 []) (nth i pos1 [])))
    with (fun i => INR (frame_neighbours (in_bin 0 Rleb Rltb es k) i)).
  rewrite (rsum_ext _ (fun i => INR (frame_neighbours (in_bin 0 Rleb Rltb es k) i))
     (fun i => (if same then 2 else 1) * (nofnat Rops (nth k (hf i) 0%nat) : R))).
  2:{ intros i Hi. destruct (Hhf i (Hos i Hi)) as [_ [_ C]]. rewrite C by lia. rewrite nofnat_R. reflexivity. }
  rewrite rsum_scal. rewrite map_map. cbn [nmul ndiv n1 nofZ Rops].
  change (num Rops) with R in *.
  set (sh := shell Rops pi ndims (nth k es 0) (nth (k + 1) es 0)).
  destruct same; unfold Rdiv; rewrite ?Rinv_mult; [|ring].
  replace (/ 1 * / / 2) with 2 by (field; lra). ring.
Qed.
End Gr.
