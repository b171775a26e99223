(** Fast and legacy g(r) agree. *)
From Coq Require Import List ZArith Bool Arith Lia Reals Lra Permutation Sorting.Sorted Psatz.
From Verif Require Import PyBase PyBaseFacts Num NumFacts Spec_Stats M_Helpers M_Correlation M_Dynamics M_Realspace
  Spec_Correlation Spec_Dynamics Spec_Pairs P_Helpers P_Dynamics P_Overlap P_Pairs P_Image P_Count P_Shell P_Gr P_Gr2 P_GrFast.
Import ListNotations.
Local Open Scope R_scope.

Definition ugrid (dr : R) (n : nat) : list R := map (fun k => dr / 2 + INR k * dr) (seq 0 n).
Definition uedges (dr : R) (n : nat) : list R := map (fun k => INR k * dr) (seq 0 (n + 1)).

Lemma uedges_edges : forall dr n, (2 <= n)%nat -> edges_of_grid Rops (ugrid dr n) = Ok (uedges dr n).
Proof.
  intros dr n Hn. unfold edges_of_grid, ugrid. change (num Rops) with R.
  rewrite (get_Ok _ _ 0 0), (get_Ok _ _ 1 0) by (rewrite map_length, seq_length; lia).
  rewrite !nth_map_seq by lia. cbn [bind].
  unfold getZ. change (-1 <? 0)%Z with true. rewrite map_length, seq_length.
  destruct (Z.ltb_spec (-1 + Z.of_nat n) 0); [lia|].
  rewrite (get_Ok _ _ _ 0) by (rewrite map_length, seq_length; lia). rewrite nth_map_seq by lia. cbn [bind].
  f_equal. unfold uedges. rewrite seq_app, map_app. f_equal.
  - rewrite map_map. apply map_ext. intros k. cbn [nsub ndiv nofZ Rops INR]. change (num Rops) with R. field.
  - cbn [map seq Nat.add]. f_equal. cbn [nadd nsub ndiv nofZ Rops INR].
    replace (Z.to_nat (-1 + Z.of_nat n)) with (n - 1)%nat by lia. rewrite minus_INR by lia. cbn [INR]. change (num Rops) with R. field.
Qed.

Lemma uedges_nth : forall dr n k, (k <= n)%nat -> nth k (uedges dr n) 0 = INR k * dr.
Proof. intros. unfold uedges. rewrite nth_map_seq by lia. reflexivity. Qed.
Lemma uedges_len : forall dr n, length (uedges dr n) = (n + 1)%nat.
Proof. intros. unfold uedges. rewrite map_length, seq_length. reflexivity. Qed.

Lemma uedges_sorted : forall dr n, 0 < dr -> StronglySorted Rlt (uedges dr n).
Proof.
  intros dr n Hdr. unfold uedges. apply map_StronglySorted with (R := lt); [|apply seq_StronglySorted].
  intros x y _ _ H. apply Rmult_lt_compat_r; [exact Hdr|apply lt_INR; exact H].
Qed.

Lemma uedges_slot : forall dr n k d, (k + 1 < n)%nat -> in_bin 0 Rleb Rltb (uedges dr n) k d = slot dr k d.
Proof.
  intros dr n k d Hk. unfold in_bin, slot. rewrite uedges_len, !uedges_nth by lia.
  destruct (Nat.eqb_spec (k + 2) (n + 1)); [lia|]. reflexivity.
Qed.

Definition img_D : list R -> list R -> list R -> R := fun side x y => img_dist Rops x y side.
Lemma img_D_distance : is_distance img_D.
Proof. intros side x y Hp Hx Hy. apply img_dist_min; assumption. Qed.

Lemma fast_frame : forall same side p0 p1 dr n, 0 < dr -> positive side ->
  fits side p0 -> fits side p1 -> (same = true -> p1 = p0) ->
  (forall r, In r p0 -> inside r side) -> (forall r, In r p1 -> inside r side) ->
  exists h, (if same then gr_self_c Rops p0 side dr n else gr_distinct_c Rops p0 p1 side dr n) = Ok h /\
    length h = n /\
    forall k, (k < n)%nat ->
      INR (neighbours same img_D (slot dr k) side p0 p1) = (if same then 2 else 1) * INR (nth k h 0%nat).
Proof.
  intros same side p0 p1 dr n Hdr Hp [H0 F0] [H1 F1] Hsame I0 I1.
  assert (forall x y, In x p0 -> In y p1 -> fdist Rops x y side = img_D side x y) as Hfd.
  { intros x y Hx Hy. apply fdist_near; auto. apply inside_near; auto. }
  destruct same.
  - rewrite (Hsame eq_refl) in *. destruct (gr_self_c_spec p0 side dr n Hdr) as [h [E [L C]]].
    exists h. split; [exact E|]. split; [exact L|]. intros k Hk. rewrite C by exact Hk. unfold neighbours.
    assert (2 = INR 2) as -> by (cbn; lra). rewrite <- mult_INR. f_equal. rewrite <- count_pairs_ordered.
    + f_equal. apply cnt_ext. intros [i j] Hij. unfold index_pairs in Hij. apply filter_In in Hij. destruct Hij as [Hij _].
      apply in_prod_iff in Hij. rewrite !in_seq in Hij. cbn [fst snd]. rewrite Hfd by (apply nth_In; lia). reflexivity.
    + intros x y Hx Hy. unfold img_D. rewrite img_dist_sym by auto. reflexivity.
  - destruct (gr_distinct_c_spec p0 p1 side dr n Hdr) as [h [E [L C]]].
    exists h. split; [exact E|]. split; [exact L|]. intros k Hk. rewrite C by exact Hk. unfold neighbours.
    rewrite Rmult_1_l. f_equal. apply count_prod_ext. intros x y Hx Hy. rewrite Hfd by assumption. reflexivity.
Qed.

Lemma mean_number_const : forall pos N, pos <> [] -> (forall i, (i < length pos)%nat -> length (nth i pos []) = N) ->
  mean_number pos = INR N.
Proof.
  intros pos N Hne H. unfold mean_number, rmean. rewrite map_length.
  rewrite (rsum_ext _ _ (fun _ => INR N)).
  - rewrite rsum_const. pose proof (INR_pos_length _ pos Hne). field. lra.
  - intros p Hp. destruct (In_nth _ _ [] Hp) as [i [Hi <-]]. rewrite H by exact Hi. reflexivity.
Qed.

Lemma mean_const_list : forall X (l : list X) (f : X -> R) c, l <> [] -> (forall x, In x l -> f x = c) ->
  rsum (map f l) / INR (length l) = c.
Proof.
  intros X l f c Hne H. rewrite (rsum_ext _ f (fun _ => c)) by exact H. rewrite rsum_const.
  pose proof (INR_pos_length _ l Hne). field. lra.
Qed.

Lemma gr_fast_form : forall pi V crop ndims same dr n skip pos0 pos1 sides,
  0 < dr -> (2 <= n)%nat -> gr_input same skip pos0 pos1 sides -> pos0 <> [] ->
  (forall i r, (i < length pos0)%nat -> In r (nth i pos0 []) \/ In r (nth i pos1 []) -> inside r (nth i sides [])) ->
  gr_fast Rops pi ndims same (ugrid dr n) skip pos0 pos1 sides V crop
  = Ok (map (fun k => (dr * INR k + dr / 2,
        mean_neighbours img_D same skip pos0 pos1 sides (slot dr k)
        / (mean_used skip pos1 / V * shell Rops pi ndims (INR k * dr) (INR (k + 1) * dr) * mean_used skip pos0)))
      (filter (fun k => Rleb (dr * INR k + dr / 2) crop) (seq 0 (n - 1)))).
Proof.
  intros pi V crop ndims same dr n skip pos0 pos1 sides Hdr Hn Hin Hne Hfold.
  destruct Hin as [Hskip Hlen1 Hlen2 Hsame Hpos Hfit].
  unfold gr_fast, fast_finish. change (num Rops) with R.
  assert (length (ugrid dr n) = n) as Lg by (unfold ugrid; rewrite map_length, seq_length; reflexivity).
  rewrite (get_Ok _ (ugrid dr n) 0 0), (get_Ok _ (ugrid dr n) 1 0) by lia. cbn [bind].
  assert (nsub Rops (nth 1 (ugrid dr n) 0) (nth 0 (ugrid dr n) 0) = dr) as ->.
  { unfold ugrid. rewrite !nth_map_seq by lia. cbn [nsub Rops INR]. change (num Rops) with R. field. }
  rewrite Lg. rewrite py_range_spec by exact Hskip. cbn [bind].
  set (os := filter (fun i => (0 <=? i) && ((i - 0) mod skip =? 0))%nat (seq 0 (length pos0))).
  assert (os = origins 0 skip (length pos0)) as Eos by reflexivity.
  assert (forall i, In i os -> (i < length pos0)%nat) as Hos.
  { intros i Hi. apply filter_In in Hi. destruct Hi as [Hi _]. apply in_seq in Hi. lia. }
  assert (os <> []) as Hose.
  { intros E. assert (In 0%nat os) as C; [|rewrite E in C; destruct C].
    apply filter_In. split; [apply in_seq; destruct pos0; [congruence|cbn; lia]|]. cbn [Nat.leb Nat.sub andb].
    rewrite Nat.mod_0_l by lia. reflexivity. }
  clearbody os.
  assert (exists hf : nat -> list nat, forall i, (i < length pos0)%nat ->
     (if same then gr_self_c Rops (nth i pos0 []) (nth i sides []) dr n
      else gr_distinct_c Rops (nth i pos0 []) (nth i pos1 []) (nth i sides []) dr n) = Ok (hf i) /\
      (forall k, (k < n)%nat ->
        INR (neighbours same img_D (slot dr k) (nth i sides []) (nth i pos0 []) (nth i pos1 []))
        = (if same then 2 else 1) * INR (nth k (hf i) 0%nat)))
    as [hf Hhf].
  { exists (fun i => match (if same then gr_self_c Rops (nth i pos0 []) (nth i sides []) dr n
      else gr_distinct_c Rops (nth i pos0 []) (nth i pos1 []) (nth i sides []) dr n) with Ok h => h | Err _ => [] end).
    intros i Hi. destruct (Hfit i Hi) as [F0 F1].
    assert (positive (nth i sides [])) as Hps by (apply Hpos, nth_In; lia).
    assert (same = true -> nth i pos1 [] = nth i pos0 []) as Hsm by (intros E; rewrite (Hsame E); reflexivity).
    destruct (fast_frame same (nth i sides []) (nth i pos0 []) (nth i pos1 []) dr n Hdr Hps F0 F1 Hsm
      (fun r Hr => Hfold i r Hi (or_introl Hr)) (fun r Hr => Hfold i r Hi (or_intror Hr))) as [h [E [_ C]]].
    rewrite E. split; [reflexivity|exact C]. }
  rewrite (foldM_acc_map _ _ _ (fun i => (hf i, (length (nth i pos0 []), length (nth i pos1 []))))).
  2:{ intros a i Hi. change (num Rops) with R. specialize (Hos i Hi). destruct (Hhf i Hos) as [E _]. destruct (Hfit i Hos) as [[M0 _] [M1 _]].
      rewrite (get_Ok _ pos0 i []) by exact Hos. cbn [bind].
      rewrite (get_Ok _ pos1 i []) by lia. cbn [bind].
      rewrite (get_Ok _ sides i []) by lia. cbn [bind].
      assert (length (nth i pos0 []) <> 0%nat /\ length (nth i pos1 []) <> 0%nat) as [Z0 Z1].
      { split; intros Z; [destruct (nth i pos0 []); [congruence|discriminate]|destruct (nth i pos1 []); [congruence|discriminate]]. }
      apply Nat.eqb_neq in Z0, Z1. rewrite Z0, Z1. cbn [orb]. destruct same; rewrite E; reflexivity. }
  cbn [bind app].
  set (st := map (fun i => (hf i, (length (nth i pos0 []), length (nth i pos1 [])))) os).
  assert ((match st with [] => Err UnboundLocalError | _ :: _ => Ok tt end) = Ok tt) as ->
    by (unfold st; destruct os; [congruence|reflexivity]).
  cbn [bind].
  assert (get (fbins Rops dr n) 0 = Ok (dr * INR 0 + dr / 2) /\ get (fbins Rops dr n) 1 = Ok (dr * INR 1 + dr / 2)) as [G0 G1].
  { unfold fbins. rewrite !(get_Ok _ _ _ 0) by (rewrite map_length, seq_length; lia).
    change (num Rops) with R. rewrite !nth_map_seq by lia. rewrite !nofnat_R. split; reflexivity. }
  change (num Rops) with R in *. rewrite G0, G1. cbn [bind]. f_equal.
  set (half := ndiv Rops (nsub Rops (dr * INR 1 + dr / 2) (dr * INR 0 + dr / 2)) (nofZ Rops 2)).
  assert (half = dr / 2) as Ehalf by (unfold half; cbn [ndiv nsub nofZ Rops INR]; change (num Rops) with R; field).
  clearbody half. subst half.
  assert (map (fun b : R => nsub Rops b (dr / 2) : R) (fbins Rops dr n) = map (fun k => INR k * dr) (seq 0 n)) as ->.
  { unfold fbins. rewrite map_map. apply map_ext. intros k. rewrite nofnat_R. cbn [nsub nadd nmul ndiv nofZ Rops].
    change (num Rops) with R. field. }
  assert (combine (map (fun k => INR k * dr) (seq 0 n)) (tl (map (fun k => INR k * dr) (seq 0 n)))
    = map (fun k => (INR k * dr, INR (k + 1) * dr)) (seq 0 (n - 1))) as Ep.
  { assert (forall l : list R, tl l = skipn 1 l) as Htl by (intros [|]; reflexivity).
    rewrite (combine_nth_seq R R _ _ 0 0), Htl, skipn_length, map_length, seq_length.
    replace (Nat.min n (n - 1)) with (n - 1)%nat by lia. apply map_ext_in. intros k Hk. apply in_seq in Hk.
    f_equal; [rewrite nth_map_seq by lia; reflexivity|].
    destruct n as [|n']; [lia|]. cbn [seq map skipn]. rewrite <- seq_shift, map_map, nth_map_seq by lia.
    rewrite Nat.add_1_r. reflexivity. }
  change (num Rops) with R in *. rewrite Ep, map_length, seq_length.
  assert (fbins Rops dr n = map (fun k => dr * INR k + dr / 2) (seq 0 n)) as ->.
  { unfold fbins. apply map_ext. intros k. rewrite nofnat_R. reflexivity. }
  unfold hist_average, map2.
  assert (forall (X Y : Type) (f : nat -> X) (g : nat -> Y) (a b : nat),
     combine (map f (seq 0 a)) (map g (seq 0 b)) = map (fun k => (f k, g k)) (seq 0 (Nat.min a b))) as Hc.
  { intros X Y f g. assert (forall a b c, combine (map f (seq c a)) (map g (seq c b)) = map (fun k => (f k, g k)) (seq c (Nat.min a b))) as G.
    { induction a as [|a IH]; intros b c; [reflexivity|]. destruct b as [|b]; [reflexivity|].
      cbn [seq map combine Nat.min]. rewrite IH. reflexivity. }
    intros a b. apply G. }
  rewrite (Hc R (R * R)%type), map_map, (Hc R R), filter_map. cbn [fst snd].
  replace (Nat.min n (Nat.min (n - 1) (n - 1))) with (n - 1)%nat by lia.
  apply map_ext_in. intros k Hk. apply filter_In in Hk. destruct Hk as [Hk _]. apply in_seq in Hk. f_equal.
  rewrite !nmean_R, nsum_R, nofnat_R, !map_length.
  assert (rsum (map (fun s : list nat * (nat * nat) => nofnat Rops (fst (snd s)) : R) st) / INR (length st) = mean_used skip pos0) as ->.
  { unfold mean_used, rmean. rewrite <- Eos. unfold st. rewrite map_map, !map_length. cbn [fst snd]. f_equal. f_equal.
    apply map_ext. intros i. apply nofnat_R. }
  assert (rsum (map (fun s : list nat * (nat * nat) => nofnat Rops (snd (snd s)) : R) st) / INR (length st) = mean_used skip pos1) as ->.
  { unfold mean_used, rmean. rewrite Hlen1. rewrite <- Eos. unfold st. rewrite map_map, !map_length. cbn [fst snd]. f_equal. f_equal.
    apply map_ext. intros i. apply nofnat_R. }
  unfold mean_neighbours, rmean. rewrite map_length, <- Eos.
  rewrite (rsum_ext _ (fun i => INR (neighbours same img_D (slot dr k) (nth i sides []) (nth i pos0 []) (nth i pos1 [])))
     (fun i => (if same then 2 else 1) * (nofnat Rops (nth k (hf i) 0%nat) : R))).
  2:{ intros i Hi. destruct (Hhf i (Hos i Hi)) as [_ C]. rewrite C by lia. rewrite nofnat_R. reflexivity. }
  rewrite rsum_scal. unfold st. rewrite !map_map, map_length. cbn [fst].
  cbn [nmul ndiv n1 nofZ Rops]. change (num Rops) with R in *.
  set (sh := shell Rops pi ndims (INR k * dr) (INR (k + 1) * dr)). change (num Rops) with R in *.
  destruct same; unfold Rdiv; rewrite ?Rinv_mult; [|ring].
  replace (/ / 2) with 2 by (field; lra). ring.
Qed.

Lemma gr_fast_legacy : forall pi V crop ndims same dr n skip pos0 pos1 sides,
  0 < dr -> (2 <= n)%nat -> gr_input same skip pos0 pos1 sides -> pos0 <> [] ->
  mean_used skip pos0 = mean_number pos0 -> mean_used skip pos1 = mean_number pos1 ->
  (forall i r, (i < length pos0)%nat -> In r (nth i pos0 []) \/ In r (nth i pos1 []) -> inside r (nth i sides [])) ->
  crop < dr / 2 + INR (n - 1) * dr ->
  gr_fast Rops pi ndims same (ugrid dr n) skip pos0 pos1 sides V crop
  = gr_legacy Rops pi ndims same (ugrid dr n) skip pos0 pos1 sides V crop.
Proof.
  intros pi V crop ndims same dr n skip pos0 pos1 sides Hdr Hn Hin Hne HN0 HN1 Hfold Hcrop.
  rewrite (gr_fast_form pi V crop ndims same dr n skip pos0 pos1 sides) by assumption.
  rewrite (gr_legacy_form img_D pi V crop ndims same (ugrid dr n) (uedges dr n) skip pos0 pos1 sides
    img_D_distance (uedges_edges dr n Hn) (uedges_sorted dr n Hdr) Hin).
  f_equal.
  rewrite HN0, HN1.
  assert (forall k, (k < n)%nat -> center (uedges dr n) k = dr * INR k + dr / 2) as Ec.
  { intros k Hk. unfold center. rewrite !uedges_nth by lia. rewrite plus_INR. cbn [INR]. field. }
  assert (bins_upto (uedges dr n) crop = filter (fun k => Rleb (dr * INR k + dr / 2) crop) (seq 0 (n - 1))) as ->.
  { unfold bins_upto. rewrite uedges_len. replace (n + 1 - 1)%nat with (n - 1 + 1)%nat by lia.
    rewrite seq_app, filter_app. cbn [seq filter Nat.add]. rewrite Ec by lia.
    destruct (Rleb_spec (dr * INR (n - 1) + dr / 2) crop); [lra|]. rewrite app_nil_r.
    apply filter_ext_in. intros k Hk. apply in_seq in Hk. rewrite Ec by lia. reflexivity. }
  apply map_ext_in. intros k Hk. apply filter_In in Hk. destruct Hk as [Hk _]. apply in_seq in Hk.
  rewrite Ec, !uedges_nth by lia. f_equal. f_equal. unfold mean_neighbours. f_equal. apply map_ext. intros i. f_equal.
  unfold neighbours. destruct same.
  - apply cnt_ext. intros p _. rewrite uedges_slot by lia. reflexivity.
  - apply count_prod_ext. intros x y _ _. rewrite uedges_slot by lia. reflexivity.
Qed.

(** The frames used have the mean number of particles when it does not vary, or
    when all frames are used. *)
Lemma mean_used_const : forall skip pos N, (1 <= skip)%nat -> pos <> [] ->
  (forall i, (i < length pos)%nat -> length (nth i pos []) = N) -> mean_used skip pos = mean_number pos.
Proof.
  intros skip pos N Hs Hne HN. rewrite (mean_number_const pos N) by assumption.
  unfold mean_used, rmean. rewrite map_length. rewrite <- (map_length (fun i => INR (length (nth i pos [])))).
  assert (In 0%nat (origins 0 skip (length pos))) as H0.
  { apply filter_In. split; [apply in_seq; destruct pos; [congruence|cbn; lia]|]. cbn [Nat.leb Nat.sub andb].
    rewrite Nat.mod_0_l by lia. reflexivity. }
  rewrite map_length. apply mean_const_list.
  - intros E. rewrite E in H0. destruct H0.
  - intros i Hi. apply filter_In in Hi. destruct Hi as [Hi _]. apply in_seq in Hi. rewrite HN by lia. reflexivity.
Qed.

Lemma mean_used_all : forall pos, mean_used 1 pos = mean_number pos.
Proof.
  intros pos. unfold mean_used, mean_number. f_equal.
  assert (origins 0 1 (length pos) = seq 0 (length pos)) as ->.
  { unfold origins. rewrite (filter_ext_in _ (fun _ => true)); [|intros; rewrite Nat.mod_1_r; reflexivity].
    generalize (seq 0 (length pos)). induction l; cbn; congruence. }
  apply nth_ext with (d := 0) (d' := 0); [rewrite !map_length, seq_length; reflexivity|].
  rewrite map_length, seq_length. intros i Hi. rewrite nth_map_seq by exact Hi.
  rewrite (nth_indep _ 0 (INR (length (@nil (list R))))) by (rewrite map_length; exact Hi).
  rewrite (map_nth (fun p : list (list R) => INR (length p))). reflexivity.
Qed.
