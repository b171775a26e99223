(** The Fortran histogram kernels and RadialDistributionFunctionFast. *)
From Coq Require Import List ZArith Bool Arith Lia Reals Lra Permutation Sorting.Sorted Psatz.
From Verif Require Import PyBase PyBaseFacts Num NumFacts Spec_Stats M_Helpers M_Correlation M_Dynamics M_Realspace
  Spec_Correlation Spec_Dynamics Spec_Pairs P_Helpers P_Dynamics P_Overlap P_Pairs P_Image P_Count P_Shell P_Gr P_Gr2.
Import ListNotations.
Local Open Scope R_scope.

Lemma incr_length : forall h k, length (incr h k) = length h.
Proof. induction h as [|a h IH]; intros [|k]; cbn; auto. Qed.
Lemma incr_nth : forall h i k, (i < length h)%nat ->
  nth k (incr h i) 0%nat = (nth k h 0 + if (k =? i)%nat then 1 else 0)%nat.
Proof.
  induction h as [|a h IH]; intros i k Hi; [cbn in Hi; lia|].
  destruct i as [|i], k as [|k]; cbn [incr nth Nat.eqb]; try lia.
  rewrite IH by (cbn in Hi; lia). reflexivity.
Qed.

Lemma slot_floor : forall dr k d, 0 < dr -> (slot dr k d = true <-> Rfloor (d / dr) = Z.of_nat k).
Proof.
  intros dr k d Hdr. unfold slot. rewrite andb_true_iff.
  assert (d = d / dr * dr) as Ed by (field; lra).
  destruct (Rleb_spec (INR k * dr) d) as [H1|H1], (Rltb_spec d (INR (k + 1) * dr)) as [H2|H2].
  - split; [intros _|auto]. apply Rfloor_unique. rewrite <- INR_IZR_INZ. rewrite plus_INR in H2. cbn [INR] in H2.
    rewrite Ed in H1, H2. split; [apply Rmult_le_reg_r with dr; lra|apply Rmult_lt_reg_r with dr; lra].
  - split; [intros [_ C]; discriminate|]. intros E. exfalso. apply H2. pose proof (Rfloor_bounds (d / dr)) as [_ B].
    rewrite E, <- INR_IZR_INZ in B. rewrite plus_INR. cbn [INR]. rewrite Ed. apply Rmult_lt_compat_r; lra.
  - split; [intros [C _]; discriminate|]. intros E. exfalso. apply H1. pose proof (Rfloor_bounds (d / dr)) as [B _].
    rewrite E, <- INR_IZR_INZ in B. rewrite Ed. apply Rmult_le_compat_r; lra.
  - split; [intros [C _]; discriminate|]. intros E. exfalso. apply H1. pose proof (Rfloor_bounds (d / dr)) as [B _].
    rewrite E, <- INR_IZR_INZ in B. rewrite Ed. apply Rmult_le_compat_r; lra.
Qed.

Lemma bin_add_fold : forall dr vs h, 0 < dr -> (forall d, In d vs -> 0 <= d < dr * INR (length h)) ->
  exists h', foldM (bin_add Rops dr) h vs = Ok h' /\ length h' = length h /\
    forall k, (k < length h)%nat -> nth k h' 0%nat = (nth k h 0 + cnt (slot dr k) vs)%nat.
Proof.
  intros dr vs. induction vs as [|d vs IH]; intros h Hdr Hd.
  - exists h. split; [reflexivity|]. split; [reflexivity|]. intros. cbn. lia.
  - destruct (Hd d (or_introl eq_refl)) as [D0 D1].
    assert (0 <= d / dr) as Q0 by (apply Rle_mult_inv_pos; lra).
    assert (d / dr < INR (length h)) as Q1.
    { apply Rmult_lt_reg_r with dr; [exact Hdr|]. replace (d / dr * dr) with d by (field; lra). lra. }
    pose proof (Rfloor_nonneg _ Q0) as F0. rewrite INR_IZR_INZ in Q1. pose proof (Rfloor_lt_Z _ _ Q1) as F1.
    set (z := Rfloor (d / dr)) in *.
    assert (bin_add Rops dr h d = Ok (incr h (Z.to_nat z))) as E.
    { unfold bin_add. cbn [nfloor ndiv Rops]. fold z.
      destruct (Z.leb_spec 0 z); [|lia]. destruct (Z.ltb_spec z (Z.of_nat (length h))); [|lia]. reflexivity. }
    cbn [foldM]. rewrite E. cbn [bind].
    destruct (IH (incr h (Z.to_nat z)) Hdr) as [h' [E' [L' C']]].
    { intros e He. rewrite incr_length. apply Hd. right. exact He. }
    exists h'. rewrite incr_length in *. split; [exact E'|]. split; [exact L'|].
    intros k Hk. rewrite C' by exact Hk. rewrite incr_nth by lia.
    change (cnt (slot dr k) (d :: vs)) with (cnt (slot dr k) ([d] ++ vs)). rewrite cnt_app.
    assert (cnt (slot dr k) [d] = if (k =? Z.to_nat z)%nat then 1%nat else 0%nat) as ->; [|lia].
    unfold cnt. cbn [filter]. destruct (slot dr k d) eqn:Es.
    + apply slot_floor in Es; [|exact Hdr]. fold z in Es. destruct (Nat.eqb_spec k (Z.to_nat z)); [reflexivity|lia].
    + destruct (Nat.eqb_spec k (Z.to_nat z)) as [Ek|]; [|reflexivity].
      assert (slot dr k d = true) as C; [|congruence]. apply slot_floor; [exact Hdr|]. fold z. lia.
Qed.

Lemma foldM_foldM : forall S X Y (step : S -> Y -> res S) (g : X -> list Y) l s,
  foldM (fun s x => foldM step s (g x)) s l = foldM step s (flat_map g l).
Proof.
  intros S X Y step g l. induction l as [|x l IH]; intros s; [reflexivity|]. cbn [foldM flat_map].
  rewrite foldM_app. destruct (foldM step s (g x)); cbn [bind]; [apply IH|reflexivity].
Qed.

Lemma foldM_map : forall S X Y (f : S -> Y -> res S) (g : X -> Y) l s,
  foldM f s (map g l) = foldM (fun s x => f s (g x)) s l.
Proof.
  intros S X Y f g l. induction l as [|x l IH]; intros s; [reflexivity|]. cbn [map foldM].
  destruct (f s (g x)); [apply IH|reflexivity].
Qed.

Lemma foldM_ext_in : forall S X (f g : S -> X -> res S) l s, (forall s x, In x l -> f s x = g s x) -> foldM f s l = foldM g s l.
Proof.
  intros S X f g l. induction l as [|x l IH]; intros s H; [reflexivity|]. cbn [foldM].
  rewrite (H s x (or_introl eq_refl)). destruct (g s x); [|reflexivity]. cbn [bind].
  apply IH. intros; apply H; right; assumption.
Qed.

Lemma fdist_nonneg : forall x y side, 0 <= fdist Rops x y side.
Proof. intros. rewrite fdist_sq. apply sqrt_pos. Qed.

Lemma slot_below : forall dr k d n, 0 < dr -> (k < n)%nat -> slot dr k d = true -> d < dr * INR n.
Proof.
  intros dr k d n Hdr Hk Hs. unfold slot in Hs. apply andb_true_iff in Hs. destruct Hs as [_ Hs].
  destruct (Rltb_spec d (INR (k + 1) * dr)) as [H|]; [|discriminate].
  assert (INR (k + 1) <= INR n) by (apply le_INR; lia). nra.
Qed.

Lemma cnt_filter_slot : forall dr k n vs, 0 < dr -> (k < n)%nat ->
  cnt (slot dr k) (filter (fun d => Rltb d (dr * INR n)) vs) = cnt (slot dr k) vs.
Proof.
  intros dr k n vs Hdr Hk. rewrite cnt_filter. apply cnt_ext. intros d _.
  destruct (slot dr k d) eqn:E; [|apply andb_false_r]. rewrite andb_true_r.
  destruct (Rltb_spec d (dr * INR n)) as [|C]; [reflexivity|]. exfalso. apply C. eapply slot_below; eassumption.
Qed.

Lemma flat_map_filter : forall X Y (P : Y -> bool) (g : X -> list Y) l,
  flat_map (fun x => filter P (g x)) l = filter P (flat_map g l).
Proof. intros. induction l as [|a l IH]; [reflexivity|]. cbn. rewrite filter_app, IH. reflexivity. Qed.

Lemma gr_self_c_spec : forall (pos : list (list R)) side dr n, 0 < dr ->
  exists h, gr_self_c Rops pos side dr n = Ok h /\ length h = n /\
    forall k, (k < n)%nat -> nth k h 0%nat = count_pairs (fun a b => slot dr k (fdist Rops a b side)) pos [].
Proof.
  intros pos side dr n Hdr. unfold gr_self_c. change (num Rops) with R. cbn [nlt nmul Rops].
  rewrite (foldM_ext_in _ _ _ (fun h i => foldM (bin_add Rops dr) h
    (filter (fun d => Rltb d (dr * INR n)) (map (fun pj => fdist Rops (nth i pos []) pj side) (skipn (i + 1) pos))))).
  2:{ intros h i Hi. apply in_seq in Hi. rewrite (get_Ok _ pos i []) by lia. cbn [bind]. rewrite nofnat_R. reflexivity. }
  rewrite foldM_foldM, flat_map_filter.
  set (vs := flat_map (fun i => map (fun pj => fdist Rops (nth i pos []) pj side) (skipn (i + 1) pos)) (seq 0 (length pos))).
  destruct (bin_add_fold dr (filter (fun d => Rltb d (dr * INR n)) vs) (repeat 0%nat n) Hdr) as [h [E [L C]]].
  { intros d Hd. rewrite repeat_length. apply filter_In in Hd. destruct Hd as [Hd Hlt].
    destruct (Rltb_spec d (dr * INR n)); [|discriminate]. split; [|assumption].
    unfold vs in Hd. apply in_flat_map in Hd. destruct Hd as [i [_ Hd]]. apply in_map_iff in Hd.
    destruct Hd as [p [<- _]]. apply fdist_nonneg. }
  rewrite repeat_length in *. exists h. split; [exact E|]. split; [exact L|]. intros k Hk. rewrite C by exact Hk.
  rewrite nth_repeat, cnt_filter_slot by assumption. cbn [Nat.add].
  assert (vs = map (fun p => fdist Rops (nth (fst p) pos []) (nth (snd p) pos []) side) (index_pairs (length pos))) as ->.
  { unfold vs. rewrite index_pairs_rows, concat_map, map_map, flat_map_concat_map. f_equal. apply map_ext. intros i.
    rewrite (skipn_nth_map _ pos [] (i + 1)), !map_map. reflexivity. }
  rewrite cnt_map. reflexivity.
Qed.

Lemma gr_distinct_c_spec : forall (pos1 pos2 : list (list R)) side dr n, 0 < dr ->
  exists h, gr_distinct_c Rops pos1 pos2 side dr n = Ok h /\ length h = n /\
    forall k, (k < n)%nat -> nth k h 0%nat = count_prod (fun a b => slot dr k (fdist Rops a b side)) pos1 pos2.
Proof.
  intros pos1 pos2 side dr n Hdr. unfold gr_distinct_c. change (num Rops) with R. cbn [nlt nmul Rops].
  rewrite (foldM_ext_in _ _ _ (fun h pi => foldM (bin_add Rops dr) h
    (filter (fun d => Rltb d (dr * INR n)) (map (fun pj => fdist Rops pi pj side) pos2)))).
  2:{ intros h p _. rewrite nofnat_R. reflexivity. }
  rewrite foldM_foldM, flat_map_filter.
  set (vs := flat_map (fun pi => map (fun pj => fdist Rops pi pj side) pos2) pos1).
  destruct (bin_add_fold dr (filter (fun d => Rltb d (dr * INR n)) vs) (repeat 0%nat n) Hdr) as [h [E [L C]]].
  { intros d Hd. rewrite repeat_length. apply filter_In in Hd. destruct Hd as [Hd Hlt].
    destruct (Rltb_spec d (dr * INR n)); [|discriminate]. split; [|assumption].
    unfold vs in Hd. apply in_flat_map in Hd. destruct Hd as [i [_ Hd]]. apply in_map_iff in Hd.
    destruct Hd as [p [<- _]]. apply fdist_nonneg. }
  rewrite repeat_length in *. exists h. split; [exact E|]. split; [exact L|]. intros k Hk. rewrite C by exact Hk.
  rewrite nth_repeat, cnt_filter_slot by assumption. cbn [Nat.add].
  assert (vs = map (fun p => fdist Rops (fst p) (snd p) side) (list_prod pos1 pos2)) as ->.
  { unfold vs. clear. induction pos1 as [|a l IH]; [reflexivity|]. cbn [flat_map list_prod]. rewrite IH, map_app, map_map. reflexivity. }
  rewrite cnt_map. reflexivity.
Qed.

(** The neighbour-list kernels have no range check: in bounds when the listed
    neighbours are closer than the end of the histogram. *)
Lemma gr_neighbors_c_spec : forall (pos1 pos2 : list (list R)) neigh side dr n, 0 < dr ->
  length neigh = length pos1 ->
  (forall i j, (i < length pos1)%nat -> In j (nth i neigh []) ->
     (j < length pos2)%nat /\ fdist Rops (nth i pos1 []) (nth j pos2 []) side < dr * INR n) ->
  exists h, gr_neighbors_c Rops pos1 pos2 neigh side dr n = Ok h /\ length h = n /\
    forall k, (k < n)%nat -> nth k h 0%nat =
      cnt (fun ij => slot dr k (fdist Rops (nth (fst ij) pos1 []) (nth (snd ij) pos2 []) side))
        (flat_map (fun i => map (fun j => (i, j)) (nth i neigh [])) (seq 0 (length pos1))).
Proof.
  intros pos1 pos2 neigh side dr n Hdr Hl Hn. unfold gr_neighbors_c. change (num Rops) with R.
  rewrite (combine_nth_seq _ _ pos1 neigh [] []), Hl, Nat.min_id.
  set (vs := flat_map (fun i => map (fun j => fdist Rops (nth i pos1 []) (nth j pos2 []) side) (nth i neigh [])) (seq 0 (length pos1))).
  rewrite foldM_map. cbn [fst snd].
  rewrite (foldM_ext_in _ _ _ (fun h i => foldM (bin_add Rops dr) h
    (map (fun j => fdist Rops (nth i pos1 []) (nth j pos2 []) side) (nth i neigh [])))).
  2:{ intros h i Hi. apply in_seq in Hi.
      rewrite (mapM_pure _ _ _ (fun j => fdist Rops (nth i pos1 []) (nth j pos2 []) side)); [reflexivity|].
      intros j Hj. destruct (Hn i j ltac:(lia) Hj) as [Hj' _]. rewrite (get_Ok _ pos2 j []) by exact Hj'. reflexivity. }
  rewrite foldM_foldM. change (num Rops) with R. fold vs.
  destruct (bin_add_fold dr vs (repeat 0%nat n) Hdr) as [h [E [L C]]].
  { intros d Hd. rewrite repeat_length. unfold vs in Hd. apply in_flat_map in Hd. destruct Hd as [i [Hi Hd]].
    apply in_seq in Hi. apply in_map_iff in Hd. destruct Hd as [j [<- Hj]]. split; [apply fdist_nonneg|].
    apply Hn; [lia|exact Hj]. }
  rewrite repeat_length in *. exists h. split; [exact E|]. split; [exact L|]. intros k Hk. rewrite C by exact Hk.
  rewrite nth_repeat. cbn [Nat.add].
  assert (vs = map (fun ij => fdist Rops (nth (fst ij) pos1 []) (nth (snd ij) pos2 []) side)
    (flat_map (fun i => map (fun j => (i, j)) (nth i neigh [])) (seq 0 (length pos1)))) as ->.
  { unfold vs. rewrite !flat_map_concat_map, concat_map, map_map. f_equal. apply map_ext. intros i. rewrite map_map. reflexivity. }
  rewrite cnt_map. reflexivity.
Qed.
