(** g(r) with a cutoff in double precision: linked cells or not. *)
From Coq Require Import List ZArith Bool Arith Reals Lia Lra Psatz Floats.SpecFloat Sorting.Sorted.
From Verif Require P_Dynamics P_Gr.
From Verif Require Import PyBase PyBaseFacts Num Spec_Stats NumFacts P_Text F64Round F64Ops F64Facts F64Sqrt F64Pi P_F64Mean M_Helpers M_Correlation M_Dynamics M_Realspace M_LinkedCells M_GrObject
  Spec_Correlation Spec_Dynamics P_Overlap Spec_Pairs P_Pairs P_Image P_Count P_GrFast P_GrFast2 Spec_LinkedCells P_LinkedCells P_LinkedCells2 P_LinkedCells3 Spec_Doubles P_F64Time P_F64Overlap P_F64Order Spec_Dot P_F64Dot Spec_Dist P_F64Dist P_F64Bins
  T_Distances P_F64Alpha M_Norm64 Spec_Norm64 P_Norm64 T_Norm64 Spec_GrDouble P_GrObject P_GrDouble T_GrDouble Spec_Linked64 P_Linked64 T_Linked64.
Import ListNotations.
Local Open Scope R_scope.

(** ** Exchange of the particles of a pair *)
Lemma pair_coords_sym : forall (P Q : f64 -> f64 -> f64 -> Prop) a b s, (forall x y L, P x y L -> Q y x L) -> pair_coords P a b s -> pair_coords Q b a s.
Proof. intros P Q a b s H. revert b s. induction a as [|x a IH]; intros [|y b] [|L s] HP; cbn [pair_coords] in *; try contradiction; [exact I|]. destruct HP as [H1 H2]. split; [apply H; exact H1|apply IH; exact H2]. Qed.

Lemma regular_sym : forall m a b s, regular m a b s -> regular m b a s.
Proof.
  intros m a b s [H1 [H2 H3]]. split; [exact H1|]. split; [exact H2|]. revert H3. apply pair_coords_sym. intros x y L [[K1 [K2 [K3 [K4 [K5 K6]]]]] B].
  split; [split; [exact K2|]; split; [exact K1|]; split; [exact K3|]; split; [exact K5|]; split; [exact K4|exact K6]|]. rewrite Rabs_minus_sym. exact B.
Qed.

Lemma spread_sym : forall a b s, spread a b s = spread b a s.
Proof. induction a as [|x a IH]; intros [|y b] [|L s]; cbn [spread]; try reflexivity. rewrite (Rabs_minus_sym x y), (IH b s). reflexivity. Qed.

Lemma slack_sym : forall a b s, slack a b s = slack b a s.
Proof. intros. unfold slack. rewrite spread_sym. reflexivity. Qed.

Lemma distance_sym : forall D a b (s : list R), is_distance D -> positive s -> length a = length s -> length b = length s -> D s a b = D s b a.
Proof.
  intros D a b s HD Hp La Lb. rewrite (min_image_unique _ _ _ _ _ (HD s a b Hp La Lb) (img_dist_min _ _ _ Hp La Lb)), (min_image_unique _ _ _ _ _ (HD s b a Hp Lb La) (img_dist_min _ _ _ Hp Lb La)).
  apply img_dist_sym; assumption.
Qed.

(** ** Histogram of listed pairs *)
Lemma neighbors_loop : forall (pos1 pos2 : list (list f64)) neigh side dr n, length neigh = length pos1 ->
  (forall i j, (i < length pos1)%nat -> In j (nth i neigh []) -> (j < length pos2)%nat) ->
  gr_neighbors_c F64ops pos1 pos2 neigh side dr n
  = foldM (bin_add F64ops dr) (repeat 0%nat n) (map (fun ij => fdist F64ops (nth (fst ij) pos1 []) (nth (snd ij) pos2 []) side)
      (flat_map (fun i => map (fun j => (i, j)) (nth i neigh [])) (seq 0 (length pos1)))).
Proof.
  intros pos1 pos2 neigh side dr n Hl Hn. unfold gr_neighbors_c. change (num F64ops) with f64.
  rewrite (P_Gr.combine_nth_seq _ _ pos1 neigh [] []), Hl, Nat.min_id.
  rewrite foldM_map. cbn [fst snd].
  rewrite (P_GrFast.foldM_ext_in _ _ _ (fun h i => foldM (bin_add F64ops dr) h
    (map (fun j => fdist F64ops (nth i pos1 []) (nth j pos2 []) side) (nth i neigh [])))).
  2:{ intros h i Hi. apply in_seq in Hi.
      rewrite (mapM_pure _ _ _ (fun j => fdist F64ops (nth i pos1 []) (nth j pos2 []) side)); [reflexivity|].
      intros j Hj. pose proof (Hn i j ltac:(lia) Hj) as Hj'. rewrite (get_Ok _ pos2 j []) by exact Hj'. reflexivity. }
  rewrite foldM_foldM. f_equal. rewrite !flat_map_concat_map, concat_map, map_map. f_equal. apply map_ext. intros i. rewrite map_map. reflexivity.
Qed.

Section Unchecked.
Variables (X : Type) (dd : X -> f64) (DD : X -> R) (E : R) (dr : f64) (n : nat).
Hypothesis W : width_ok dr.
Hypothesis N1 : (1 <= n)%nat.
Hypothesis N2 : (Z.of_nat n <= 2 ^ 53)%Z.
(** No distance reaches the last bin: the range check is immaterial. *)
Lemma hist_unchecked : forall l, (forall p, In p l -> ok (dd p) /\ 0 <= fval (dd p) <= p2 500 /\ Rabs (fval (dd p) - DD p) <= E /\ 0 <= DD p /\ clear_of E dr n (DD p) /\ DD p + E < INR n * fval dr * (1 - p2 (-51))) ->
  exists h, foldM (bin_add F64ops dr) (repeat 0%nat n) (map dd l) = Ok h /\ length h = n /\
    forall k, (k < n)%nat -> nth k h 0%nat = length (filter (fun p => slot (fval dr) k (DD p)) l).
Proof.
  intros l H. destruct (hist_exact X dd DD E dr n W N1 N2 l) as [h [Eh Hh]]; [intros p Hp; destruct (H p Hp) as [A1 [A2 [A3 [A4 [A5 _]]]]]; auto|].
  exists h. split; [|exact Hh]. rewrite <- Eh. f_equal. symmetry. clear Eh Hh h. 
  destruct (limit_close dr n W N1 N2) as [Km [M1 _]]. cbv zeta in *.
  revert H. induction l as [|p l IH]; intros H; [reflexivity|]. cbn [map filter].
  assert (Hp : nlt F64ops (dd p) (nmul F64ops dr (nofnat F64ops n)) = true).
  { destruct (H p (or_introl eq_refl)) as [Kd [Bd [Ed [_ [_ Fd]]]]]. apply Rabs_le_inv in Ed. apply ltb_spec; [exact Kd|exact Km|]. lra. }
  rewrite Hp. f_equal. apply IH. intros q Hq. apply H. right. exact Hq.
Qed.
End Unchecked.

(** ** One frame *)
Definition margin (rc : f64) (side : list f64) (r : R) : Prop := forall L, In L side -> r + p2 (-49) * fval L <= fval rc.

Lemma in_slot : forall dr k d, slot dr k d = true -> d < INR (k + 1) * dr.
Proof. intros dr k d H. apply (slot_true dr k d H). Qed.

Lemma distance_within : forall D (s x y : list R) r, is_distance D -> positive s -> length x = length s -> length y = length s -> D s x y < r -> image_within (repeat true (length s)) s x y r.
Proof.
  intros D s x y r HD Hp Lx Ly Hd. destruct (HD s x y Hp Lx Ly) as [[ks [Lk Ek]] _]. exists ks. split; [exact Lk|]. split; [intros i Hi; rewrite nth_repeat_true in Hi; discriminate|]. rewrite <- Ek. exact Hd.
Qed.

(** The state of the object is the same for every frame. *)
Definition linked_state (same : bool) (rc : f64) (side : list f64) : setup F64ops :=
  fsetup rc side (repeat true (length side)) (match offsets (length side) same with Ok os => os | Err _ => [] end).

Lemma linked_setup : forall (same : bool) (rc : f64) (side : list f64) (p0 p1 : list (list f64)), dim23 (length side) ->
  lc_setup F64ops rc None (mkCall (A:=F64ops) side p0 (if same then None else Some p1) true (Some (repeat true (length side)))) = Ok (linked_state same rc side).
Proof.
  intros same rc side p0 p1 Hd. destruct (adjust_F rc side same (Some (repeat true (length side))) Hd) as [os [EO E]]. assert (Eo : linked_state same rc side = fsetup rc side (repeat true (length side)) os) by (unfold linked_state; change (num F64ops) with f64 in EO; rewrite EO; reflexivity).
  rewrite Eo. destruct same; exact E.
Qed.

Definition pair_fits (D : list R -> list R -> list R -> R) (side : list f64) (dr : f64) (n : nat) (E : R) (a b : list f64) : Prop :=
  regular (3 / 2) a b side /\ slack (map fval a) (map fval b) (map fval side) <= E /\
  clear_of E dr n (D (map fval side) (map fval a) (map fval b)) /\ D (map fval side) (map fval a) (map fval b) + E < INR n * fval dr * (1 - p2 (-51)).

Lemma pair_fits_sym : forall D side dr n E a b, is_distance D -> pair_fits D side dr n E a b -> pair_fits D side dr n E b a /\ D (map fval side) (map fval b) (map fval a) = D (map fval side) (map fval a) (map fval b).
Proof.
  intros D side dr n E a b HD [Rg [HE [Hc Hb]]]. destruct (pair_coords_length _ _ _ _ (proj2 (proj2 Rg))) as [La Lb].
  assert (Sy : D (map fval side) (map fval b) (map fval a) = D (map fval side) (map fval a) (map fval b)) by (apply distance_sym; [exact HD|apply (regular_positive _ _ _ _ Rg)| |]; rewrite !map_length; assumption).
  split; [|exact Sy]. split; [apply regular_sym; exact Rg|]. split; [rewrite slack_sym; exact HE|]. rewrite Sy. split; assumption.
Qed.

Lemma pair_fits_hist : forall D side dr n E a b, is_distance D -> pair_fits D side dr n E a b ->
  let d := D (map fval side) (map fval a) (map fval b) in let v := fdist F64ops a b side in
  ok v /\ 0 <= fval v <= p2 500 /\ Rabs (fval v - d) <= E /\ 0 <= d /\ clear_of E dr n d /\ d + E < INR n * fval dr * (1 - p2 (-51)).
Proof.
  intros D side dr n E a b HD [Rg [HE [Hc Hb]]]. cbv zeta. destruct (exact_close side D E HD a b Rg HE) as [A1 [A2 A3]]. unfold exact in A3.
  split; [exact A1|]. split; [exact A2|]. split; [exact A3|]. split; [|split; assumption].
  destruct (pair_coords_length _ _ _ _ (proj2 (proj2 Rg))) as [La Lb]. destruct (HD (map fval side) (map fval a) (map fval b) (regular_positive _ _ _ _ Rg)) as [[ks [_ Ek]] _]; [rewrite !map_length; assumption|rewrite !map_length; assumption|]. rewrite Ek. apply sqrt_pos.
Qed.

Lemma linked_histogram : forall (same : bool) rc side dr n E D (f : gframe F64ops), dim23 (length side) -> is_distance D -> width_ok dr -> (1 <= n)%nat -> (Z.of_nat n <= 2 ^ 53)%Z ->
  cell_fits rc side -> f_0 f <> [] -> (same = true -> f_1 f = f_0 f) ->
  (forall x, In x (f_0 f) \/ In x (f_1 f) -> well_inside x side) ->
  (forall a b, In (a, b) (pairs_of same f) -> pair_fits D side dr n E a b) ->
  exists ns h, lc_neighbors F64ops (linked_state same rc side) (f_0 f) (if same then None else Some (f_1 f)) = Ok ns /\ ns <> [] /\
    gr_neighbors_c F64ops (f_0 f) (f_1 f) ns side dr n = Ok h /\ length h = n /\
    (forall k, (k < n)%nat -> (nth k h 0 <= true_count same D side (fval dr) f k)%nat) /\
    (forall r k, margin rc side r -> (k < n)%nat -> INR (k + 1) * fval dr <= r -> nth k h 0%nat = true_count same D side (fval dr) f k).
Proof.
  intros same rc side dr n E D f Hd HD W N1 N2 Hc Hne Hs Hw HP.
  assert (Hl : length (repeat true (length side)) = length side) by apply repeat_length.
  assert (Hw0 : forall x, In x (f_0 f) -> well_inside x side) by (intros; apply Hw; auto). assert (Hw1 : forall x, In x (f_1 f) -> well_inside x side) by (intros; apply Hw; auto).
  assert (Lw : forall x, well_inside x side -> length (map fval x) = length (map fval side)) by (intros x Hx; rewrite !map_length; clear - Hx; induction Hx; cbn [length]; [reflexivity|f_equal; assumption]).
  assert (Pos : positive (map fval side)).
  { intros L HL. apply in_map_iff in HL. destruct HL as [L' [<- HL]]. destruct Hc as [_ [B F]]. rewrite Forall_forall in F. destruct (F L' HL) as [_ [B' _]]. pose proof (p2_pos (-60)). lra. }
  set (p0 := f_0 f) in *. set (p1 := f_1 f) in *.
  assert (Near : forall r x y, margin rc side r -> well_inside x side -> well_inside y side -> D (map fval side) (map fval x) (map fval y) < r ->
    forall os, adjacent (s_pns (fsetup rc side (repeat true (length side)) os)) (lc_index F64ops (fsetup rc side (repeat true (length side)) os) x) (lc_index F64ops (fsetup rc side (repeat true (length side)) os) y)).
  { intros r x y Hr Hx Hy Hdist os. destruct (distance_within D (map fval side) (map fval x) (map fval y) r HD Pos (Lw x Hx) (Lw y Hy) Hdist) as [ks [Lk [_ Hk]]].
    apply fwithin_adjacent with (r := r) (ks := ks); auto.
    - pose proof (sqrt_pos (dist2 (map fval x) (shifted (map fval y) ks (map fval side)))) as Q. unfold euclid in Hk. lra.
    - rewrite map_length in Lk. exact Lk.
    - intros i Hi. rewrite nth_repeat_true in Hi. discriminate.
    - apply (euclid_lt r). exact Hk. }
  destruct same.
  - specialize (Hs eq_refl). rewrite Hs in *. clear p1 Hs Hw1.
    destruct (offsets_newton _ Hd) as [os [EO _]]. set (s := linked_state true rc side). assert (Es : s = fsetup rc side (repeat true (length side)) os) by (unfold s, linked_state; rewrite EO; reflexivity).
    assert (Hins : forall x, In x p0 -> cell_inside (s_pns s) (lc_index F64ops s x) = true) by (intros x Hx; rewrite Es; apply findex_inside; auto).
    destruct (newton_listed F64ops s (length side) p0 Hd) as [ns [En [Ln [Hj [H0 H1]]]]]; [rewrite Es; apply fsetup_valid; assumption|rewrite Es; apply fsetup_len; assumption|exact Hins|rewrite Es; exact EO|].
    set (l := flat_map (fun i => map (fun j => (i, j)) (nth i ns [])) (seq 0 (length p0))).
    assert (Fit : forall i j, (i < length p0)%nat -> (j < length p0)%nat -> i <> j -> pair_fits D side dr n E (nth i p0 []) (nth j p0 []) /\ D (map fval side) (map fval (nth j p0 [])) (map fval (nth i p0 [])) = D (map fval side) (map fval (nth i p0 [])) (map fval (nth j p0 []))).
    { assert (G : forall i j, (i < j)%nat -> (j < length p0)%nat -> pair_fits D side dr n E (nth i p0 []) (nth j p0 [])).
      { intros i j Hij Hj'. apply HP. unfold pairs_of. apply in_map_iff. exists (i, j). split; [reflexivity|]. unfold index_pairs. apply filter_In. split; [apply in_prod_iff; rewrite !in_seq; fold p0; lia|cbn [fst snd]; apply Nat.ltb_lt; exact Hij]. }
      intros i j Hi Hj' Hne'. destruct (Nat.lt_ge_cases i j) as [L|L]; [specialize (G i j L Hj')|assert (j < i)%nat as L' by lia; specialize (G j i L' Hi)].
      - destruct (pair_fits_sym _ _ _ _ _ _ _ HD G). split; assumption.
      - destruct (pair_fits_sym _ _ _ _ _ _ _ HD G) as [G1 G2]. split; [exact G1|symmetry; exact G2]. }
    destruct (hist_unchecked (nat * nat) (fun ij => fdist F64ops (nth (fst ij) p0 []) (nth (snd ij) p0 []) side) (fun ij => D (map fval side) (map fval (nth (fst ij) p0 [])) (map fval (nth (snd ij) p0 []))) E dr n W N1 N2 l) as [h [Eh [Lh Ch]]].
    { intros [i j] Hin. cbn [fst snd]. unfold l in Hin. apply in_flat_map in Hin. destruct Hin as [i' [Hi' Hin]]. apply in_seq in Hi'. apply in_map_iff in Hin. destruct Hin as [j' [Eq Hj']]. injection Eq as -> ->.
      pose proof (Hj i j ltac:(lia) Hj') as Lj. assert (Nij : i <> j) by (intros ->; specialize (H0 j Lj); unfold listed in H0; apply (count_occ_In Nat.eq_dec) in Hj'; lia).
      apply pair_fits_hist; [exact HD|]. apply Fit; [lia|exact Lj|exact Nij]. }
    exists ns, h. split; [exact En|]. split; [intros ->; destruct p0; [congruence|discriminate]|]. split; [rewrite neighbors_loop by assumption; exact Eh|]. split; [exact Lh|].
    assert (Main : forall k, (k < n)%nat -> nth k h 0%nat = sumf (fun p => (listed ns (fst p) (snd p) + listed ns (snd p) (fst p)) * b2n (slot (fval dr) k (D (map fval side) (map fval (nth (fst p) p0 [])) (map fval (nth (snd p) p0 [])))))%nat (index_pairs (length p0))).
    { intros k Hk. rewrite Ch by exact Hk. unfold l. change (length (filter ?P ?m)) with (cnt P m). rewrite (cnt_lists _ ns (length p0) (length p0)) by exact Hj.
      assert (Hq : forall q : nat * nat, In q (list_prod (seq 0 (length p0)) (seq 0 (length p0))) -> (fst q < length p0)%nat /\ (snd q < length p0)%nat).
      { intros [i j] Hin. apply in_prod_iff in Hin. rewrite !in_seq in Hin. cbn [fst snd]. lia. }
      set (F := fun p : nat * nat => (listed ns (fst p) (snd p) * b2n (negb (fst p =? snd p)%nat && slot (fval dr) k (D (map fval side) (map fval (nth (fst p) p0 [])) (map fval (nth (snd p) p0 [])))))%nat).
      rewrite (sumf_ext _ _ F).
      2:{ intros [i j] Hin. destruct (Hq _ Hin) as [Hi Hj']. unfold F. cbn [fst snd] in *. destruct (Nat.eqb_spec i j) as [->|Nn]; [|reflexivity]. rewrite H0 by exact Hj'. reflexivity. }
      rewrite sum_sym by (intros i; unfold F; cbn [fst snd]; rewrite Nat.eqb_refl; cbn [negb andb b2n]; lia).
      apply sumf_ext. intros [i j] Hin. unfold index_pairs in Hin. apply filter_In in Hin. destruct Hin as [Hin Hij]. destruct (Hq _ Hin) as [Hi Hj']. cbn [fst snd] in *.
      apply Nat.ltb_lt in Hij. unfold F. cbn [fst snd]. destruct (Nat.eqb_spec i j); [lia|]. destruct (Nat.eqb_spec j i); [lia|]. cbn [negb andb].
      destruct (Fit i j Hi Hj' ltac:(lia)) as [_ Sy]. rewrite Sy. lia. }
    assert (True' : forall k, true_count true D side (fval dr) f k = sumf (fun p => b2n (slot (fval dr) k (D (map fval side) (map fval (nth (fst p) p0 [])) (map fval (nth (snd p) p0 []))))) (index_pairs (length p0))).
    { intros k. unfold true_count, pairs_of. fold p0. change (length (filter ?P ?m)) with (cnt P m). rewrite cnt_map, cnt_sumf. reflexivity. }
    assert (Ix : forall i j, In (i, j) (index_pairs (length p0)) -> (i < j < length p0)%nat).
    { intros i j Hin. unfold index_pairs in Hin. apply filter_In in Hin. destruct Hin as [Hin Hij]. apply in_prod_iff in Hin. rewrite !in_seq in Hin. cbn [fst snd] in Hij. apply Nat.ltb_lt in Hij. lia. }
    split.
    + intros k Hk. rewrite Main, True' by exact Hk. unfold sumf. assert (G : forall m, (forall i j, In (i, j) m -> (i < j < length p0)%nat) -> (list_sum (map (fun p => ((listed ns (fst p) (snd p) + listed ns (snd p) (fst p)) * b2n (slot (fval dr) k (D (map fval side) (map fval (nth (fst p) p0 [])) (map fval (nth (snd p) p0 [])))))%nat) m) <= list_sum (map (fun p => b2n (slot (fval dr) k (D (map fval side) (map fval (nth (fst p) p0 [])) (map fval (nth (snd p) p0 []))))) m))%nat).
      { induction m as [|[i j] m IH]; intros Hm; [apply Nat.le_refl|]. cbn [map fst snd]. specialize (IH (fun i' j' Hin => Hm i' j' (or_intror Hin))). destruct (Hm i j (or_introl eq_refl)) as [A1 A2]. destruct (H1 i j ltac:(lia) A2 ltac:(lia)) as [B _].
        unfold list_sum in IH |- *. cbn [fold_right]. apply Nat.add_le_mono; [|exact IH]. set (b := b2n _). nia. }
      apply G. exact Ix.
    + intros r k Hr Hk Hkr. rewrite Main, True' by exact Hk. apply sumf_ext. intros [i j] Hin. destruct (Ix i j Hin) as [A1 A2]. cbn [fst snd].
      destruct (slot (fval dr) k (D (map fval side) (map fval (nth i p0 [])) (map fval (nth j p0 [])))) eqn:Sl; cbn [b2n]; [|lia]. apply in_slot in Sl.
      destruct (H1 i j ltac:(lia) A2 ltac:(lia)) as [_ B]. rewrite Nat.mul_1_r. apply B. rewrite Es. apply Near with (r := r); [exact Hr|apply Hw0, nth_In; lia|apply Hw0, nth_In; lia|lra].
  - destruct (offsets_full _ Hd) as [os [EO _]]. set (s := linked_state false rc side). assert (Es : s = fsetup rc side (repeat true (length side)) os) by (unfold s, linked_state; rewrite EO; reflexivity).
    assert (Hins : forall x, In x p0 -> cell_inside (s_pns s) (lc_index F64ops s x) = true) by (intros x Hx; rewrite Es; apply findex_inside; auto).
    assert (Hino : forall x, In x p1 -> cell_inside (s_pns s) (lc_index F64ops s x) = true) by (intros x Hx; rewrite Es; apply findex_inside; auto).
    destruct (full_listed F64ops s (length side) p0 Hd) with (other := p1) as [ns [En [Ln [Hj H1]]]]; [rewrite Es; apply fsetup_valid; assumption|rewrite Es; apply fsetup_len; assumption|exact Hins|exact Hino|rewrite Es; exact EO|].
    set (l := flat_map (fun i => map (fun j => (i, j)) (nth i ns [])) (seq 0 (length p0))).
    destruct (hist_unchecked (nat * nat) (fun ij => fdist F64ops (nth (fst ij) p0 []) (nth (snd ij) p1 []) side) (fun ij => D (map fval side) (map fval (nth (fst ij) p0 [])) (map fval (nth (snd ij) p1 []))) E dr n W N1 N2 l) as [h [Eh [Lh Ch]]].
    { intros [i j] Hin. cbn [fst snd]. unfold l in Hin. apply in_flat_map in Hin. destruct Hin as [i' [Hi' Hin]]. apply in_seq in Hi'. apply in_map_iff in Hin. destruct Hin as [j' [Eq Hj']]. injection Eq as -> ->.
      pose proof (Hj i j ltac:(lia) Hj') as Lj. apply pair_fits_hist; [exact HD|]. apply HP. unfold pairs_of. fold p0 p1. apply in_prod_iff. split; apply nth_In; lia. }
    exists ns, h. split; [exact En|]. split; [intros ->; destruct p0; [congruence|discriminate]|]. split; [rewrite neighbors_loop by assumption; exact Eh|]. split; [exact Lh|].
    assert (Main : forall k, (k < n)%nat -> nth k h 0%nat = sumf (fun p => listed ns (fst p) (snd p) * b2n (slot (fval dr) k (D (map fval side) (map fval (nth (fst p) p0 [])) (map fval (nth (snd p) p1 [])))))%nat (list_prod (seq 0 (length p0)) (seq 0 (length p1)))).
    { intros k Hk. rewrite Ch by exact Hk. unfold l. change (length (filter ?P ?m)) with (cnt P m). rewrite (cnt_lists _ ns (length p0) (length p1)) by exact Hj. reflexivity. }
    assert (True' : forall k, true_count false D side (fval dr) f k = sumf (fun p => b2n (slot (fval dr) k (D (map fval side) (map fval (nth (fst p) p0 [])) (map fval (nth (snd p) p1 []))))) (list_prod (seq 0 (length p0)) (seq 0 (length p1)))).
    { intros k. unfold true_count, pairs_of. fold p0 p1. change (length (filter ?P ?m)) with (cnt P m). rewrite <- (nth_seq_all _ p0 []) at 1. rewrite <- (nth_seq_all _ p1 []) at 1. rewrite list_prod_map, cnt_map, cnt_sumf. reflexivity. }
    assert (Ix : forall i j, In (i, j) (list_prod (seq 0 (length p0)) (seq 0 (length p1))) -> (i < length p0 /\ j < length p1)%nat) by (intros i j Hin; apply in_prod_iff in Hin; rewrite !in_seq in Hin; lia).
    split.
    + intros k Hk. rewrite Main, True' by exact Hk. unfold sumf. assert (G : forall m, (forall i j, In (i, j) m -> (i < length p0 /\ j < length p1)%nat) -> (list_sum (map (fun p => (listed ns (fst p) (snd p) * b2n (slot (fval dr) k (D (map fval side) (map fval (nth (fst p) p0 [])) (map fval (nth (snd p) p1 [])))))%nat) m) <= list_sum (map (fun p => b2n (slot (fval dr) k (D (map fval side) (map fval (nth (fst p) p0 [])) (map fval (nth (snd p) p1 []))))) m))%nat).
      { induction m as [|[i j] m IH]; intros Hm; [apply Nat.le_refl|]. cbn [map fst snd]. specialize (IH (fun i' j' Hin => Hm i' j' (or_intror Hin))). destruct (Hm i j (or_introl eq_refl)) as [A1 A2]. destruct (H1 i j A1 A2) as [B _].
        unfold list_sum in IH |- *. cbn [fold_right]. apply Nat.add_le_mono; [|exact IH]. set (b := b2n _). nia. }
      apply G. exact Ix.
    + intros r k Hr Hk Hkr. rewrite Main, True' by exact Hk. apply sumf_ext. intros [i j] Hin. destruct (Ix i j Hin) as [A1 A2]. cbn [fst snd].
      destruct (slot (fval dr) k (D (map fval side) (map fval (nth i p0 [])) (map fval (nth j p1 [])))) eqn:Sl; cbn [b2n]; [|lia]. apply in_slot in Sl.
      destruct (H1 i j A1 A2) as [_ B]. rewrite Nat.mul_1_r. apply B. rewrite Es. apply Near with (r := r); [exact Hr|apply Hw0, nth_In; lia|apply Hw1, nth_In; lia|lra].
Qed.
