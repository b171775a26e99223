(** g(r) in double precision, from the positions to the values. *)
From Coq Require Import List ZArith Bool Arith Reals Lia Lra Psatz Floats.SpecFloat Sorting.Sorted.
From Verif Require Import PyBase PyBaseFacts Num Spec_Stats NumFacts P_Text F64Round F64Ops F64Facts F64Sqrt F64Pi P_F64Mean M_Helpers M_Correlation M_Dynamics M_Realspace M_LinkedCells M_GrObject
  Spec_Correlation Spec_Dynamics P_Dynamics P_Overlap Spec_Pairs P_Pairs P_Image P_Count P_GrFast P_GrFast2 Spec_Doubles P_F64Time P_F64Overlap P_F64Msd P_F64Order T_Realspace Spec_Dot P_F64Dot Spec_Dist P_F64Dist P_F64Bins
  T_Distances P_F64Alpha M_Norm64 Spec_Norm64 P_Norm64 T_Norm64 Spec_GrDouble P_GrObject.
Import ListNotations.
Local Open Scope R_scope.

(** ** Histograms without distances close to the ends of bins *)
Section Exact.
Variables (X : Type) (dd : X -> f64) (DD : X -> R) (E : R) (dr : f64) (n : nat).
Hypothesis W : width_ok dr.
Hypothesis N1 : (1 <= n)%nat.
Hypothesis N2 : (Z.of_nat n <= 2 ^ 53)%Z.

Definition clear_of (d : R) : Prop := forall k, (1 <= k <= n)%nat -> d + E < INR k * fval dr * (1 - p2 (-51)) \/ INR k * fval dr * (1 + p2 (-51)) + E <= d.

Lemma hist_exact : forall l, (forall p, In p l -> ok (dd p) /\ 0 <= fval (dd p) <= p2 500 /\ Rabs (fval (dd p) - DD p) <= E /\ 0 <= DD p /\ clear_of (DD p)) ->
  exists h, foldM (bin_add F64ops dr) (repeat 0%nat n) (filter (fun v => nlt F64ops v (nmul F64ops dr (nofnat F64ops n))) (map dd l)) = Ok h /\ length h = n /\
    forall k, (k < n)%nat -> nth k h 0%nat = length (filter (fun p => slot (fval dr) k (DD p)) l).
Proof.
  intros l HP.
  assert (HH : forall p, In p l -> ok (dd p) /\ 0 <= fval (dd p) <= p2 500 /\ Rabs (fval (dd p) - DD p) <= E) by (intros p Hp; destruct (HP p Hp) as [A1 [A2 [A3 _]]]; auto).
  assert (Far : forall p, In p l -> clear_of (DD p)) by (intros p Hp; apply HP; exact Hp).
  destruct (hist_exists _ dd DD E dr n W N1 N2 l) as [h Eh].
  { intros p Hp. destruct (HH p Hp) as [A1 [A2 A3]]. split; [exact A1|]. split; [exact A2|]. split; [exact A3|]. destruct (Far p Hp n ltac:(lia)) as [G|G]; [left; exact G|right; lra]. }
  exists h. split; [exact Eh|]. destruct (hist_bounds _ dd DD E dr n W N1 N2 _ _ HH Eh) as [L _]. split; [exact L|]. intros k Hk.
  pose proof (hist_bin _ dd DD E dr n W N1 N2 _ _ HH Eh k Hk) as [C1 C2].
  assert (P : 0 < fval dr) by (apply Rlt_le_trans with (2 := proj1 (proj2 W)), p2_pos).
  assert (U51 : 0 < p2 (-51) < 1) by (pose proof (p2_pos (-51)); assert (p2 (-51) <= p2 (-10)) by (apply p2_le; lia); assert (p2 (-10) = / 1024) by (unfold p2; simpl; lra); lra).
  assert (HE : forall p, In p l -> 0 <= E) by (intros p Hp; destruct (HH p Hp) as [_ [_ A]]; apply Rle_trans with (2 := A), Rabs_pos).
  assert (Dp : forall p, In p l -> 0 <= DD p) by (intros p Hp; apply HP; exact Hp).
  assert (Q : forall j : nat, 0 <= INR j * fval dr * p2 (-51)) by (intros j; apply Rmult_le_pos; [apply Rmult_le_pos; [apply pos_INR|lra]|lra]).
  assert (SL : forall p, In p l -> slot (fval dr) k (DD p) = true -> DD p + E < INR (k + 1) * fval dr * (1 - p2 (-51)) /\ (k = 0%nat \/ INR k * fval dr + E <= DD p)).
  { intros p Hp Hs. unfold slot in Hs. apply andb_true_iff in Hs. destruct Hs as [Hs1 Hs2]. revert Hs1 Hs2. destruct (Rleb_spec (INR k * fval dr) (DD p)) as [S1|]; [|discriminate]. destruct (Rltb_spec (DD p) (INR (k + 1) * fval dr)) as [S2|]; [|discriminate]. intros _ _.
    pose proof (HE p Hp) as E0. split.
    - destruct (Far p Hp (k + 1)%nat ltac:(lia)) as [G|G]; [exact G|]. exfalso. pose proof (Q (k + 1)%nat). lra.
    - destruct k as [|k']; [left; reflexivity|right]. pose proof (Q (S k')). destruct (Far p Hp (S k') ltac:(lia)) as [G|G]; lra. }
  apply Nat.le_antisymm.
  - apply Nat.le_trans with (1 := C2). apply filter_mono. intros p Hp Hb. apply andb_true_iff in Hb. destruct Hb as [Hb1 Hb2]. revert Hb1 Hb2.
    destruct (Rleb_spec (INR k * fval dr * (1 - p2 (-51))) (DD p + E)) as [S1|]; [|discriminate]. destruct (Rltb_spec (DD p) (INR (k + 1) * fval dr + E)) as [S2|]; [|discriminate]. intros _ _.
    pose proof (HE p Hp) as E0. pose proof (Dp p Hp) as D0. unfold slot. apply andb_true_iff. split.
    + destruct (Rleb_spec (INR k * fval dr) (DD p)) as [|N]; [reflexivity|exfalso]. apply Rnot_le_lt in N. destruct k as [|k']; [cbn [INR] in N; lra|]. pose proof (Q (S k')).
      destruct (Far p Hp (S k') ltac:(lia)) as [G|G]; lra.
    + destruct (Rltb_spec (DD p) (INR (k + 1) * fval dr)) as [|N]; [reflexivity|exfalso]. apply Rnot_lt_le in N.
      assert (0 < INR (k + 1) * fval dr) by (apply Rmult_lt_0_compat; [apply lt_0_INR; lia|exact P]).
      assert (0 < INR (k + 1) * fval dr * p2 (-51)) by (apply Rmult_lt_0_compat; lra).
      destruct (Far p Hp (k + 1)%nat ltac:(lia)) as [G|G]; lra.
  - destruct k as [|k'].
    + destruct (hist_bounds _ dd DD E dr n W N1 N2 _ _ HH Eh) as [_ B]. destruct (B 1%nat ltac:(lia)) as [B1 _]. assert (F1 : first_bins 1 h = nth 0 h 0%nat) by (unfold first_bins; destruct h as [|h0 h']; cbn; lia). rewrite <- F1.
      refine (Nat.le_trans _ _ _ _ B1). apply filter_mono. intros p Hp Hs. destruct (SL p Hp Hs) as [Q1 _]. cbn [Nat.add] in Q1. destruct (Rltb_spec (DD p + E) (INR 1 * fval dr * (1 - p2 (-51)))) as [|N]; [reflexivity|contradiction].
    + refine (Nat.le_trans _ _ _ _ C1). apply filter_mono. intros p Hp Hs. destruct (SL p Hp Hs) as [Q1 [Q2|Q2]]; [discriminate|]. apply andb_true_iff. split.
      * destruct (Rleb_spec (INR (S k') * fval dr + E) (DD p)) as [|N]; [reflexivity|contradiction].
      * destruct (Rltb_spec (DD p + E) (INR (S k' + 1) * fval dr * (1 - p2 (-51)))) as [|N]; [reflexivity|contradiction].
Qed.
End Exact.

(** ** Volume of the cell *)
Lemma volume_close : forall d c, (d = 2 \/ d = 3)%nat -> good_cell d c ->
  let V := fold_right Rmult 1 (map fval (c_side c)) in
  ok (cell_volume F64ops c) /\ p2 (-200) <= fval (cell_volume F64ops c) <= p2 200 /\ 0 < V /\ Rabs (fval (cell_volume F64ops c) - V) <= 5 / 2 * u * V.
Proof.
  intros d c Hd [L [_ F]] V. unfold cell_volume, V. 
  assert (C : forall x, In x (c_side c) -> close_to (-60) 60 0 x (fval x)) by (intros x Hx; rewrite Forall_forall in F; destruct (F x Hx) as [Kx Bx]; apply close_exact; assumption).
  assert (Pos : forall x, In x (c_side c) -> p2 (-60) <= fval x <= p2 60) by (intros x Hx; rewrite Forall_forall in F; apply (F x Hx)).
  pose proof (close_int 1 0 ltac:(lia) ltac:(unfold p2; simpl; lra)) as C1. pose proof u_small as U. pose proof (p2_pos (-60)) as P60.
  assert (One : forall x, In x (c_side c) -> close_to (-60) 60 0 (fmul (f64_ofZ 1) x) (fval x)).
  { intros x Hx. destruct (C x Hx) as [Kx [Bx _]]. destruct (ofZ_exact 1) as [K1 V1]; [lia|].
    assert (R1 : rounded (fval x) (fmul (f64_ofZ 1) x)) by (replace (fval x) with (fval (f64_ofZ 1) * fval x) by (rewrite V1; ring); apply mul_spec; try apply Kx; apply K1).
    destruct (rounded_exact _ _ R1) as [Kp Ep]; [apply ok_format; exact Kx|rewrite Rabs_right by lra; apply Rle_lt_trans with (1 := proj2 Bx); apply p2_lt; lia|].
    pose proof (close_exact (-60) 60 _ Kp) as G. rewrite Ep in G. apply G. apply Pos. exact Hx. }
  destruct Hd as [-> | ->].
  - destruct (c_side c) as [|a [|b [|? ?]]]; try discriminate. cbn [fold_left map fold_right]. assert (EV : nmul F64ops (nmul F64ops (n1 F64ops) a) b = fmul (fmul (f64_ofZ 1) a) b) by reflexivity. rewrite EV. clear EV.
    pose proof (mul_close _ _ _ _ _ _ _ _ _ _ (One a (or_introl eq_refl)) (C b (or_intror (or_introl eq_refl))) ltac:(lia) ltac:(lia) ltac:(lia)) as M. rewrite Rmult_1_r.
    destruct M as [K [B [Wm [A|A]]]]; [exfalso; destruct (Pos a (or_introl eq_refl)); destruct (Pos b (or_intror (or_introl eq_refl))); assert (0 < fval a * fval b) by (apply Rmult_lt_0_compat; lra); lra|].
    pose proof (within_half (0 + 0 + 1) _ _ ltac:(lia) Wm) as [H1 H2]. pose proof (error_of_within (0 + 0 + 1) _ _ ltac:(lia) Wm) as Er. cbn [INR Nat.add] in Er.
    set (y := fval a * fval b) in *. assert (PA : 0 < p2 (-60 + -60)) by apply p2_pos. split; [exact K|]. split.
    + split; [apply Rle_trans with (p2 (-60 + -60 - 1)); [apply p2_le; lia|]; assert (p2 (-60 + -60) = 2 * p2 (-60 + -60 - 1)) by (rewrite <- p2_succ; f_equal; lia); lra|]. apply Rle_trans with (1 := proj2 B). apply p2_le; lia.
    + split; [lra|]. apply Rle_trans with (1 := Er). assert (0 <= u * y) by (apply Rmult_le_pos; lra). lra.
  - destruct (c_side c) as [|a [|b [|e [|? ?]]]]; try discriminate. cbn [fold_left map fold_right]. assert (EV : nmul F64ops (nmul F64ops (nmul F64ops (n1 F64ops) a) b) e = fmul (fmul (fmul (f64_ofZ 1) a) b) e) by reflexivity. rewrite EV. clear EV.
    pose proof (mul_close _ _ _ _ _ _ _ _ _ _ (One a (or_introl eq_refl)) (C b (or_intror (or_introl eq_refl))) ltac:(lia) ltac:(lia) ltac:(lia)) as M0.
    pose proof (mul_close _ _ _ _ _ _ _ _ _ _ M0 (C e (or_intror (or_intror (or_introl eq_refl)))) ltac:(lia) ltac:(lia) ltac:(lia)) as M. rewrite Rmult_1_r, <- Rmult_assoc.
    destruct (Pos a (or_introl eq_refl)). destruct (Pos b (or_intror (or_introl eq_refl))). destruct (Pos e (or_intror (or_intror (or_introl eq_refl)))).
    destruct M as [K [B [Wm [A|A]]]]; [exfalso; assert (0 < fval a * fval b * fval e) by (apply Rmult_lt_0_compat; [apply Rmult_lt_0_compat|]; lra); lra|].
    pose proof (within_half (0 + 0 + 1 + 0 + 1) _ _ ltac:(lia) Wm) as [H5 H6].
    assert (Er : Rabs (fval (fmul (fmul (fmul (f64_ofZ 1) a) b) e) - fval a * fval b * fval e) <= 5 / 2 * u * (fval a * fval b * fval e)).
    { set (y := fval a * fval b * fval e) in *. destruct Wm as [Py [W1 W2]]. cbn [Nat.add pow] in W1, W2. set (x := fval (fmul (fmul (fmul (f64_ofZ 1) a) b) e)) in *.
      assert (0 <= u * y) by (apply Rmult_le_pos; lra). assert (0 <= u * u * y <= / 1000000 * (u * y)) by (split; [apply Rmult_le_pos; [apply Rmult_le_pos; lra|lra]|rewrite Rmult_assoc; apply Rmult_le_compat_r; lra]). apply Rabs_le. lra. }
    set (y := fval a * fval b * fval e) in *. assert (PA : 0 < p2 (-60 + -60 + -60)) by apply p2_pos. split; [exact K|]. split.
    + split; [apply Rle_trans with (p2 (-60 + -60 + -60 - 1)); [apply p2_le; lia|]; assert (p2 (-60 + -60 + -60) = 2 * p2 (-60 + -60 + -60 - 1)) by (rewrite <- p2_succ; f_equal; lia); lra|]. apply Rle_trans with (1 := proj2 B). apply p2_le; lia.
    + split; [lra|exact Er].
Qed.

(** ** One frame *)
Lemma kernel_side_periodic : forall big d c, (1 <= d)%nat -> good_cell d c -> kernel_side F64ops big d (Some c) = Ok (c_side c).
Proof.
  intros big d c Hd [L [Pc _]]. unfold kernel_side.
  assert (NP : n_periodic c = d) by (unfold n_periodic; rewrite Pc; clear; induction d as [|d IH]; cbn; [reflexivity|rewrite IH; reflexivity]).
  rewrite NP, Nat.eqb_refl, orb_true_r.
  rewrite (mapM_pure _ _ _ (fun i => nth i (c_side c) (n0 F64ops))).
  - f_equal. apply nth_ext with (d := n0 F64ops) (d' := n0 F64ops); [rewrite map_length, seq_length; reflexivity|]. intros i Hi. rewrite map_length, seq_length in Hi.
    rewrite (nth_indep _ _ (nth 0 (c_side c) (n0 F64ops))) by (rewrite map_length, seq_length; exact Hi). rewrite (map_nth (fun i => nth i (c_side c) (n0 F64ops))), seq_nth by exact Hi. reflexivity.
  - intros i Hi. apply in_seq in Hi. rewrite (get_Ok _ (c_side c) i (n0 F64ops)) by lia. cbn [bind]. rewrite (get_Ok _ (c_periodic c) i true) by (rewrite Pc, repeat_length; lia). cbn [bind]. rewrite Pc, nth_repeat. reflexivity.
Qed.

Definition frame_histogram (same : bool) (side : list f64) (dr : f64) (n : nat) (f : gframe F64ops) : res (list nat) :=
  if same then gr_self_c F64ops (f_0 f) side dr n else gr_distinct_c F64ops (f_0 f) (f_1 f) side dr n.

Lemma fast_step : forall big d same p dr n c f h lf acc, (1 <= d)%nat -> good_cell d c -> f_cell f = Some c -> rmax_given F64ops p = false ->
  f_0 f <> [] -> f_1 f <> [] -> (same = true -> f_1 f = f_0 f) -> frame_histogram same (c_side c) dr n f = Ok h ->
  fast_object_step F64ops big d same p false dr n (None, lf, acc) f = Ok (None, Some (f, (negb same, false)), acc ++ [(h, (length (f_0 f), length (f_1 f)))]).
Proof.
  intros big d same p dr n c f h lf acc Hd Hc Ec Hr H0 H1 Hs Hh. unfold fast_object_step.
  assert (E0 : (length (f_0 f) =? 0)%nat = false) by (destruct (f_0 f); [congruence|reflexivity]). assert (E1 : (length (f_1 f) =? 0)%nat = false) by (destruct (f_1 f); [congruence|reflexivity]).
  rewrite E0, E1. cbn [orb]. rewrite Ec, Hr, andb_false_r, orb_false_r. cbn [bind]. rewrite (kernel_side_periodic big d c Hd Hc). cbn [bind]. unfold frame_histogram in Hh.
  destruct same; cbn [negb].
  - rewrite (Hs eq_refl). rewrite Hh. reflexivity.
  - rewrite Hh. reflexivity.
Qed.

(** ** The object *)
Lemma object_form : forall sd big d same p skip frames f0 c grid (h : nat -> list nat), (1 <= d)%nat -> good_cell d c -> (1 <= skip)%nat -> frames <> [] ->
  (forall f, In f frames -> f_cell f = Some c /\ f_0 f <> [] /\ f_1 f <> [] /\ (same = true -> f_1 f = f_0 f)) -> rmax_given F64ops p = false ->
  gr_setup_grid F64ops p sd (Some c) = Ok grid -> (2 <= length grid)%nat ->
  let dr := fsub (nth 1 grid (f64_ofZ 0)) (nth 0 grid (f64_ofZ 0)) in
  let n := length grid in
  (forall i, In i (origins 0 skip (length frames)) -> frame_histogram same (c_side c) dr n (nth i frames f0) = Ok (h i)) ->
  let acc := map (fun i => (h i, (length (f_0 (nth i frames f0)), length (f_1 (nth i frames f0))))) (origins 0 skip (length frames)) in
  gr_object_fast F64ops f64_pi sd big d same p skip frames
  = (crop <- gr_crop F64ops p (Some c) ;;
     Ok (filter (fun gv => nle F64ops (fst gv) crop)
       (combine (map (bin_center dr) (seq 0 n)) (map (value_by dr (npow F64ops) f64_pi (cell_volume F64ops c) acc d (negb same)) (seq 0 (n - 1)))))).
Proof.
  intros sd big d same p skip frames f0 c grid h Hd Hc Hs Hne Hf Hr Hg Hn dr n Hh acc.
  unfold gr_object_fast. assert (Hlen : (1 <= length frames)%nat) by (destruct frames; [congruence|cbn; lia]).
  assert (Hin : forall i, (i < length frames)%nat -> In (nth i frames f0) frames) by (intros i Hi; apply nth_In; exact Hi).
  rewrite (get_Ok _ frames 0%nat f0) by lia. cbn [bind]. rewrite (proj1 (Hf _ (Hin 0%nat ltac:(lia)))), Hg. cbn [bind].
  rewrite (get_Ok _ grid 0%nat (f64_ofZ 0)), (get_Ok _ grid 1%nat (f64_ofZ 0)) by (change (num F64ops) with f64 in *; lia). cbn [bind].
  unfold use_linked. rewrite (proj1 (Hf _ (Hin 0%nat ltac:(lia)))), Hr. cbn [bind]. rewrite py_range_spec by exact Hs. cbn [bind].
  change (filter (fun i => (0 <=? i) && ((i - 0) mod skip =? 0))%nat (seq 0 (length frames))) with (origins 0 skip (length frames)).
  set (os := origins 0 skip (length frames)) in *.
  match goal with |- context [foldM ?stp _ _] =>
    rewrite (foldM_state3 (setup F64ops) (gframe F64ops * (bool * bool)) nat (list nat * (nat * nat)) stp None
      (fun i => (nth i frames f0, (negb same, false))) (fun i => (h i, (length (f_0 (nth i frames f0)), length (f_1 (nth i frames f0))))) os) with (d := 0%nat) end.
  - cbn [bind app]. 
    assert (Il : In (nth (last os 0%nat) frames f0) frames) by (apply Hin, (origins_lt skip), last_In, origins_nonempty; lia).
    rewrite (proj1 (Hf _ Il)). cbn [bind]. rewrite fast_values_products. fold acc.
    match goal with |- bind ?x _ = _ => replace x with (Ok (map (bin_center dr) (seq 0 n), map (value_by dr (npow F64ops) f64_pi (cell_volume F64ops c) acc d (negb same)) (seq 0 (n - 1))))
      by (symmetry; apply values_form; exact Hn) end. reflexivity.
  - intros ls lf acc' i Hi Hls. assert (E : ls = None) by (destruct Hls; assumption). subst ls. assert (Li : (i < length frames)%nat) by (apply (origins_lt skip); exact Hi). rewrite (get_Ok _ frames i f0) by exact Li. cbn [bind].
    destruct (Hf _ (Hin i Li)) as [A1 [A2 [A3 A4]]]. apply (fast_step big d same p dr n c); try assumption. apply Hh. exact Hi.
  - apply origins_nonempty; lia.
  - left. reflexivity.
Qed.

(** ** The histograms *)
Lemma histogram_exact : forall same side dr n E D f, is_distance D -> width_ok dr -> (1 <= n)%nat -> (Z.of_nat n <= 2 ^ 53)%Z ->
  (forall a b, In (a, b) (pairs_of same f) -> regular (3 / 2) a b side /\ slack (map fval a) (map fval b) (map fval side) <= E /\ clear_of E dr n (D (map fval side) (map fval a) (map fval b))) ->
  exists h, frame_histogram same side dr n f = Ok h /\ length h = n /\ forall k, (k < n)%nat -> nth k h 0%nat = true_count same D side (fval dr) f k.
Proof.
  intros same side dr n E D f HD W N1 N2 HP.
  destruct (hist_exact _ (fun p : list f64 * list f64 => fdist F64ops (fst p) (snd p) side) (fun p => D (map fval side) (map fval (fst p)) (map fval (snd p))) E dr n W N1 N2 (pairs_of same f)) as [h [Eh Hh]].
  - intros [a b] Hp. cbn [fst snd]. destruct (HP a b Hp) as [Rg [HE Hc]]. destruct (exact_close side D E HD a b Rg HE) as [A1 [A2 A3]]. unfold exact in A3.
    split; [exact A1|]. split; [exact A2|]. split; [exact A3|]. split; [|exact Hc].
    destruct (pair_coords_length _ _ _ _ (proj2 (proj2 Rg))) as [La Lb]. destruct (HD (map fval side) (map fval a) (map fval b) (regular_positive _ _ _ _ Rg)) as [[ks [_ Ek]] _]; [rewrite !map_length; assumption|rewrite !map_length; assumption|]. rewrite Ek. apply sqrt_pos.
  - exists h. split; [|exact Hh]. rewrite <- Eh. unfold frame_histogram, pairs_of. destruct same; [rewrite self_loop, map_map; reflexivity|apply distinct_loop].
Qed.

(** ** The limit of the distances *)
Lemma best_smallest : forall (l : list f64) b, ok b -> Forall ok l -> let m := list_best F64ops (nlt F64ops) b l in
  ok m /\ In m (b :: l) /\ forall y, In y (b :: l) -> fval m <= fval y.
Proof.
  induction l as [|a l IH]; intros b Kb F m; unfold m; cbn [list_best].
  - split; [exact Kb|]. split; [left; reflexivity|]. intros y [<-|[]]. lra.
  - inversion F as [|? ? Ka F']; subst. assert (T : nlt F64ops a b = true <-> fval a < fval b) by (apply ltb_spec; assumption).
    destruct (nlt F64ops a b) eqn:Eab.
    + destruct (IH a Ka F') as [K [I M]]. split; [exact K|]. split; [right; exact I|]. intros y [<-|Hy]; [|apply M; exact Hy]. apply Rle_trans with (fval a); [apply M; left; reflexivity|]. pose proof (proj1 T eq_refl). lra.
    + destruct (IH b Kb F') as [K [I M]]. split; [exact K|]. split; [destruct I as [I|I]; [left; exact I|right; right; exact I]|]. intros y [<-|[<-|Hy]]; [apply M; left; reflexivity| |apply M; right; exact Hy].
      apply Rle_trans with (fval b); [apply M; left; reflexivity|]. destruct (Rlt_dec (fval a) (fval b)) as [Q|Q]; [apply T in Q; discriminate|lra].
Qed.

Lemma crop_half : forall p d c, (1 <= d)%nat -> good_cell d c -> rmax_given F64ops p = false ->
  exists crop L, gr_crop F64ops p (Some c) = Ok crop /\ In L (c_side c) /\ (forall M, In M (c_side c) -> fval L <= fval M) /\ ok crop /\ fval crop = fval L / 2.
Proof.
  intros p d c Hd [Ln [_ F]] Hr. unfold gr_crop. rewrite Hr. cbn [need_cell bind]. destruct (c_side c) as [|a l] eqn:Ec; [cbn in Ln; lia|]. unfold side_min. cbn [bind].
  assert (Fk : Forall ok (a :: l)) by (eapply Forall_impl; [|exact F]; intros x Hx; apply Hx). inversion Fk as [|? ? Ka Fl]; subst.
  destruct (best_smallest l a Ka Fl) as [Km [I M]]. cbv zeta in *. set (m := list_best F64ops (nlt F64ops) a l) in *.
  exists (fdiv m (f64_ofZ 2)), m. split; [reflexivity|]. split; [exact I|]. split; [exact M|].
  rewrite Forall_forall in F. destruct (F m I) as [_ Bm]. destruct (ofZ_exact 2) as [K2 E2]; [lia|].
  assert (R2 : rounded (fval m / 2) (fdiv m (f64_ofZ 2))) by (rewrite <- E2; apply div_spec; try apply Km; try apply K2; rewrite E2; lra).
  assert (Fm : format (fval m / 2)).
  { destruct (ok_format _ Km) as [k [e [Ex [Hk He]]]]. destruct (Z.eq_dec e (-1074)) as [->|Ne].
    - exfalso. assert (B : fval m <= p2 53 * p2 (-1074)) by (rewrite Ex; apply Rmult_le_compat_r; [left; apply p2_pos|]; rewrite p2_Z by lia; apply IZR_le; lia).
      rewrite <- p2_add in B. assert (p2 (53 + -1074) < p2 (-60)) by (apply p2_lt; lia). lra.
    - replace (fval m / 2) with (IZR k * p2 (e - 1)); [apply format_scaled; lia|]. rewrite Ex. replace e with (e - 1 + 1)%Z at 2 by lia. rewrite p2_succ. field. }
  apply rounded_exact; [exact R2|exact Fm|]. pose proof (p2_pos (-60)). rewrite Rabs_right by lra. apply Rle_lt_trans with (p2 60); [lra|apply p2_lt; lia].
Qed.
