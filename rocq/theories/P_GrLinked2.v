(** g(r) with a cutoff in double precision: the object. *)
From Coq Require Import List ZArith Bool Arith Reals Lia Lra Psatz Floats.SpecFloat Sorting.Sorted.
From Verif Require P_Dynamics P_Gr.
From Verif Require Import PyBase PyBaseFacts Num Spec_Stats NumFacts P_Text F64Round F64Ops F64Facts F64Sqrt F64Pi P_F64Mean M_Helpers M_Correlation M_Dynamics M_Realspace M_LinkedCells M_GrObject
  Spec_Correlation Spec_Dynamics P_Overlap Spec_Pairs P_Pairs P_Image P_Count P_GrFast P_GrFast2 Spec_LinkedCells P_LinkedCells P_LinkedCells2 P_LinkedCells3 Spec_Doubles P_F64Time P_F64Overlap P_F64Order Spec_Dot P_F64Dot Spec_Dist P_F64Dist P_F64Bins
  T_Distances P_F64Alpha M_Norm64 Spec_Norm64 P_Norm64 T_Norm64 Spec_GrDouble P_GrObject P_GrDouble T_GrDouble Spec_Linked64 P_Linked64 T_Linked64 P_GrLinked.
Import ListNotations.
Local Open Scope R_scope.

(** How a frame is counted, with linked cells or without. *)
Definition counted (linked same : bool) (rc : f64) (side : list f64) (dr : f64) (n : nat) (f : gframe F64ops) (h : list nat) : Prop :=
  if linked then exists ns, lc_neighbors F64ops (linked_state same rc side) (f_0 f) (if same then None else Some (f_1 f)) = Ok ns /\ ns <> [] /\ gr_neighbors_c F64ops (f_0 f) (f_1 f) ns side dr n = Ok h
  else frame_histogram same side dr n f = Ok h.

Definition state_of (linked same : bool) (rc : f64) (side : list f64) : option (setup F64ops) := if linked then Some (linked_state same rc side) else None.

Lemma cutoff_step : forall big d linked (same : bool) (p : gparams F64ops) dr n c f h ls lf acc, (d = 2 \/ d = 3)%nat -> good_cell d c -> f_cell f = Some c ->
  f_0 f <> [] -> f_1 f <> [] -> (same = true -> f_1 f = f_0 f) -> counted linked same (g_rmax p) (c_side c) dr n f h ->
  ls = None \/ ls = state_of linked same (g_rmax p) (c_side c) ->
  fast_object_step F64ops big d same p linked dr n (ls, lf, acc) f
  = Ok (state_of linked same (g_rmax p) (c_side c), Some (f, (negb same, false)), acc ++ [(h, (length (f_0 f), length (f_1 f)))]).
Proof.
  intros big d linked same p dr n c f h ls lf acc Hd Hc Ec H0 H1 Hs Hh Hls. unfold fast_object_step.
  assert (E0 : (length (f_0 f) =? 0)%nat = false) by (destruct (f_0 f); [congruence|reflexivity]). assert (E1 : (length (f_1 f) =? 0)%nat = false) by (destruct (f_1 f); [congruence|reflexivity]).
  rewrite E0, E1. cbn [orb]. rewrite Ec.
  assert (NP : n_periodic c = d) by (unfold n_periodic; rewrite (proj1 (proj2 Hc)); clear; induction d as [|d IH]; cbn; [reflexivity|rewrite IH; reflexivity]).
  rewrite NP. assert (Ed : (d =? 0)%nat = false) by (apply Nat.eqb_neq; lia). rewrite Ed. cbn [andb]. rewrite orb_false_r.
  rewrite (kernel_side_periodic big d c ltac:(lia) Hc). 
  assert (P1 : (if negb same then f_1 f else f_0 f) = f_1 f) by (destruct same; cbn [negb]; [symmetry; apply Hs; reflexivity|reflexivity]). rewrite P1.
  destruct linked; unfold counted, state_of in *.
  - destruct Hh as [ns [En [Ne Eh]]]. cbn [need_cell bind].
    assert (LC : lc_compute F64ops (g_rmax p) ls (mkCall (A:=F64ops) (c_side c) (f_0 f) (if negb same then Some (f_1 f) else None) true (Some (c_periodic c))) = Ok (linked_state same (g_rmax p) (c_side c), ns)).
    { unfold lc_compute. assert (LS : lc_setup F64ops (g_rmax p) ls (mkCall (A:=F64ops) (c_side c) (f_0 f) (if negb same then Some (f_1 f) else None) true (Some (c_periodic c))) = Ok (linked_state same (g_rmax p) (c_side c))).
      { destruct Hls as [-> | ->]; [|reflexivity]. assert (dim23 (length (c_side c))) as D23 by (rewrite (proj1 Hc); exact Hd). pose proof (linked_setup same (g_rmax p) (c_side c) (f_0 f) (f_1 f) D23) as LS.
        assert (EP : c_periodic c = repeat true (length (c_side c))) by (rewrite (proj1 Hc); apply Hc). rewrite EP. destruct same; exact LS. }
      rewrite LS. cbn [bind k_pos k_other]. assert (En' : lc_neighbors F64ops (linked_state same (g_rmax p) (c_side c)) (f_0 f) (if negb same then Some (f_1 f) else None) = Ok ns) by (rewrite <- En; destruct same; reflexivity).
      rewrite En'. reflexivity. }
    rewrite LC. cbn [bind]. assert (exists m, lc_as_array ns = Ok m) as [m Em] by (unfold lc_as_array; destruct ns; [congruence|eexists; reflexivity]). rewrite Em. cbn [bind]. 
    refine (eq_trans (f_equal (fun z => bind z _) Eh) _). reflexivity.
  - assert (E : ls = None) by (destruct Hls; assumption). rewrite E. cbn [bind]. unfold frame_histogram in Hh. destruct same; cbn [negb]; rewrite Hh; reflexivity.
Qed.

(** The object, for any way of counting. *)
Lemma cutoff_form : forall sd big d linked same (p : gparams F64ops) skip frames f0 c grid (h : nat -> list nat), (d = 2 \/ d = 3)%nat -> good_cell d c -> (1 <= skip)%nat -> frames <> [] ->
  (forall f, In f frames -> f_cell f = Some c /\ f_0 f <> [] /\ f_1 f <> [] /\ (same = true -> f_1 f = f_0 f)) -> rmax_given F64ops p = true ->
  use_linked F64ops p d (nth 0 frames f0) = Ok linked ->
  gr_setup_grid F64ops p sd (Some c) = Ok grid -> (2 <= length grid)%nat ->
  let dr := fsub (nth 1 grid (f64_ofZ 0)) (nth 0 grid (f64_ofZ 0)) in
  let n := length grid in
  (forall i, In i (origins 0 skip (length frames)) -> counted linked same (g_rmax p) (c_side c) dr n (nth i frames f0) (h i)) ->
  let acc := map (fun i => (h i, (length (f_0 (nth i frames f0)), length (f_1 (nth i frames f0))))) (origins 0 skip (length frames)) in
  gr_object_fast F64ops f64_pi sd big d same p skip frames
  = Ok (filter (fun gv => nle F64ops (fst gv) (g_rmax p))
       (combine (map (bin_center dr) (seq 0 n)) (map (value_by dr (npow F64ops) f64_pi (cell_volume F64ops c) acc d (negb same)) (seq 0 (n - 1))))).
Proof.
  intros sd big d linked same p skip frames f0 c grid h Hd Hc Hs Hne Hf Hr Hu Hg Hn dr n Hh acc.
  unfold gr_object_fast. assert (Hlen : (1 <= length frames)%nat) by (destruct frames; [congruence|cbn; lia]).
  assert (Hin : forall i, (i < length frames)%nat -> In (nth i frames f0) frames) by (intros i Hi; apply nth_In; exact Hi).
  rewrite (get_Ok _ frames 0%nat f0) by lia. cbn [bind]. rewrite (proj1 (Hf _ (Hin 0%nat ltac:(lia)))), Hg. cbn [bind].
  rewrite (get_Ok _ grid 0%nat (f64_ofZ 0)), (get_Ok _ grid 1%nat (f64_ofZ 0)) by (change (num F64ops) with f64 in *; lia). cbn [bind].
  rewrite Hu. cbn [bind]. rewrite py_range_spec by exact Hs. cbn [bind].
  change (filter (fun i => (0 <=? i) && ((i - 0) mod skip =? 0))%nat (seq 0 (length frames))) with (origins 0 skip (length frames)).
  set (os := origins 0 skip (length frames)) in *.
  match goal with |- context [foldM ?stp _ _] =>
    rewrite (foldM_state3 (setup F64ops) (gframe F64ops * (bool * bool)) nat (list nat * (nat * nat)) stp (state_of linked same (g_rmax p) (c_side c))
      (fun i => (nth i frames f0, (negb same, false))) (fun i => (h i, (length (f_0 (nth i frames f0)), length (f_1 (nth i frames f0))))) os) with (d := 0%nat) end.
  - cbn [bind app]. 
    assert (Il : In (nth (last os 0%nat) frames f0) frames) by (apply Hin, (origins_lt skip), last_In, origins_nonempty; lia).
    rewrite (proj1 (Hf _ Il)). cbn [bind]. rewrite fast_values_products. fold acc.
    match goal with |- bind ?x _ = _ => replace x with (Ok (map (bin_center dr) (seq 0 n), map (value_by dr (npow F64ops) f64_pi (cell_volume F64ops c) acc d (negb same)) (seq 0 (n - 1))))
      by (symmetry; apply values_form; exact Hn) end. unfold gr_crop. rewrite Hr. reflexivity.
  - intros ls lf acc' i Hi Hls. assert (Li : (i < length frames)%nat) by (apply (origins_lt skip); exact Hi). rewrite (get_Ok _ frames i f0) by exact Li. cbn [bind].
    destruct (Hf _ (Hin i Li)) as [A1 [A2 [A3 A4]]]. apply (cutoff_step big d linked same p dr n c); try assumption. apply Hh. exact Hi.
  - apply origins_nonempty; lia.
  - left. reflexivity.
Qed.
