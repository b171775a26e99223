(** Theorems about linked cells: C30, C31, C32, C67. *)
From Coq Require Import Ascii String List ZArith Bool Arith Reals Lia Lra.
From Verif Require Import PyBase PyBaseFacts Num Spec_Stats NumFacts M_Helpers M_Dynamics M_Realspace M_LinkedCells
  Spec_Correlation Spec_Dynamics Spec_Pairs Spec_LinkedCells P_Pairs P_Gr P_LinkedCells P_LinkedCells2 P_LinkedCells3 P_LinkedCells4 P_LinkedCells5.
Import ListNotations.
Local Open Scope R_scope.

(** ** C30: one group *)
Theorem C30_pairs_once : forall rc side periodic pos,
  0 < rc -> length side = 2%nat \/ length side = 3%nat -> (forall L, In L side -> 3 * rc <= L) ->
  let per := periodic_directions side periodic in
  length per = length side -> (forall x, In x pos -> folded x side) ->
  exists ns, lc_result Rops rc None (mkCall (A:=Rops) side pos None true periodic) = Ok ns /\ length ns = length pos /\
  (forall i j, (i < length pos)%nat -> In j (nth i ns []) -> (j < length pos)%nat) /\
  (forall i, (i < length pos)%nat -> listed ns i i = 0%nat) /\
  (forall i j, (i < length pos)%nat -> (j < length pos)%nat -> i <> j ->
    (listed ns i j + listed ns j i <= 1)%nat /\
    (image_within per side (nth i pos []) (nth j pos []) rc -> (listed ns i j + listed ns j i = 1)%nat)).
Proof.
  intros rc side periodic pos Hrc Hd H3 per Hper Hpos. 
  destruct (newton_list rc side periodic pos) as [s [ns [E H]]]; auto.
  - apply (positive_of rc); assumption.
  - apply big_of; assumption.
  - exists ns. split; [unfold lc_result; rewrite E; reflexivity|exact H].
Qed.
Print Assumptions C30_pairs_once.

(** Two groups *)
Theorem C30_ordered_pairs_once : forall rc side periodic pos other newton,
  0 < rc -> length side = 2%nat \/ length side = 3%nat -> (forall L, In L side -> 3 * rc <= L) ->
  let per := periodic_directions side periodic in
  length per = length side -> (forall x, In x pos -> folded x side) -> (forall x, In x other -> folded x side) ->
  exists ns, lc_result Rops rc None (mkCall (A:=Rops) side pos (Some other) newton periodic) = Ok ns /\ length ns = length pos /\
  (forall i j, (i < length pos)%nat -> In j (nth i ns []) -> (j < length other)%nat) /\
  (forall i j, (i < length pos)%nat -> (j < length other)%nat ->
    (listed ns i j <= 1)%nat /\
    (image_within per side (nth i pos []) (nth j other []) rc -> listed ns i j = 1%nat)).
Proof.
  intros rc side periodic pos other newton Hrc Hd H3 per Hper Hpos Ho. 
  destruct (distinct_list rc side periodic pos) with (other := other) (newton := newton) as [s [ns [E H]]]; auto.
  - apply (positive_of rc); assumption.
  - apply big_of; assumption.
  - exists ns. split; [unfold lc_result; rewrite E; reflexivity|exact H].
Qed.
Print Assumptions C30_ordered_pairs_once.

(** The bounds matter: with two subcells per side a pair is listed twice, and a
    particle at +L/2 is not in any subcell. *)
Example C30_two_cells : exists ns,
  lc_result F64ops (f64_ofZ 2) None (mkCall (A:=F64ops) (map f64_ofZ [4; 4]%Z) (map (map f64_ofZ) [[-1; -1]; [1; -1]]%Z) None true None) = Ok ns /\
  listed ns 0 1 = 1%nat /\ listed ns 1 0 = 1%nat.
Proof. eexists. split; [vm_compute; reflexivity|]. split; vm_compute; reflexivity. Qed.
Example C30_upper_edge :
  lc_result F64ops (f64_ofZ 1) None (mkCall (A:=F64ops) (map f64_ofZ [4; 4]%Z) (map (map f64_ofZ) [[2; -1]; [1; -1]]%Z) None true None) = Err KeyError.
Proof. vm_compute. reflexivity. Qed.

Definition lc_demo : list (list R) := [[-1; -1]; [7/5; -1]; [7/5; -7/5]; [0; 0]].
Example C30_nonvacuous :
  (forall L, In L [3; 3] -> 3 * 1 <= L) /\ (forall x, In x lc_demo -> folded x [3; 3]) /\
  image_within (periodic_directions [3; 3] None) [3; 3] (nth 0 lc_demo []) (nth 1 lc_demo []) 1 /\
  lc_result F64ops (f64_ofZ 1) None (mkCall (A:=F64ops) (map f64_ofZ [3; 3]%Z)
    [[f64_ofZ (-1); f64_ofZ (-1)]; [f64_frac 7 5; f64_ofZ (-1)]; [f64_frac 7 5; f64_frac (-7) 5]; [f64_ofZ 0; f64_ofZ 0]] None true None)
    = Ok ([[3]; [2; 0; 3]; [0; 3]; []]%nat).
Proof.
  split; [intros L [<-|[<-|[]]]; lra|]. split.
  - intros x H. cbn in H. repeat destruct H as [H|H]; try subst x; try contradiction; cbn; lra.
  - split.
    + exists [(-1)%Z; 0%Z]. split; [reflexivity|]. split.
      * intros [|[|i]] H; cbn in *; try discriminate. destruct i; discriminate.
      * unfold euclid. apply Rlt_le_trans with (sqrt 1); [|rewrite sqrt_1; lra]. apply sqrt_lt_1_alt.
        cbn. lra.
    + vm_compute. reflexivity.
Qed.

(** ** C31 *)
(** Refuted: after a call with another cell, a pair across the boundary is lost. *)
Theorem C31_refuted : exists rc ks k ns ns',
  lc_result F64ops rc (lc_after F64ops rc None ks) k = Ok ns /\
  lc_result F64ops rc None k = Ok ns' /\
  ns = [[]; []] /\ ns' = [[]; [0%nat]].
Proof.
  exists (f64_ofZ 1), [mkCall (A:=F64ops) (map f64_ofZ [8; 8]%Z) [] None true None],
    (mkCall (A:=F64ops) (map f64_ofZ [4; 4]%Z) [[f64_frac (-19) 10; f64_ofZ 0]; [f64_frac 19 10; f64_ofZ 0]] None true None).
  do 2 eexists. split; [vm_compute; reflexivity|]. split; [vm_compute; reflexivity|]. split; reflexivity.
Qed.
Print Assumptions C31_refuted.

(** Also for the same cell: one group, then two groups. *)
Theorem C31_groups_refuted : exists rc ks k ns ns',
  lc_result F64ops rc (lc_after F64ops rc None ks) k = Ok ns /\
  lc_result F64ops rc None k = Ok ns' /\
  ns = [[]] /\ ns' = [[0%nat]].
Proof.
  exists (f64_ofZ 1), [mkCall (A:=F64ops) (map f64_ofZ [8; 8]%Z) [] None true None],
    (mkCall (A:=F64ops) (map f64_ofZ [8; 8]%Z) [[f64_frac 3 2; f64_ofZ 0]] (Some [[f64_frac 1 2; f64_ofZ 0]]) true None).
  do 2 eexists. split; [vm_compute; reflexivity|]. split; [vm_compute; reflexivity|]. split; reflexivity.
Qed.
Print Assumptions C31_groups_refuted.

(** Holds, in any arithmetic, when the first call on the object had the same cell,
    periodicity and effective newton flag; the calls in between are arbitrary.
    Missing: any other first call. *)
Theorem C31_partial : forall (A : arith) rc (k0 : call A) ks k,
  length (k_box k0) = 2%nat \/ length (k_box k0) = 3%nat ->
  k_box k0 = k_box k -> call_newton k0 = call_newton k -> k_periodic k0 = k_periodic k ->
  lc_result A rc (lc_after A rc None (k0 :: ks)) k = lc_result A rc None k.
Proof. intros. unfold lc_result. rewrite history_first by assumption. reflexivity. Qed.
Print Assumptions C31_partial.

(** What holds without conditions: only the first call can matter. *)
Theorem C31_first_call_only : forall (A : arith) rc (k0 : call A) ks ks' k,
  length (k_box k0) = 2%nat \/ length (k_box k0) = 3%nat ->
  lc_result A rc (lc_after A rc None (k0 :: ks)) k = lc_result A rc (lc_after A rc None (k0 :: ks')) k.
Proof. intros. unfold lc_result. rewrite (history_frozen A rc k0 ks ks') by assumption. reflexivity. Qed.
Print Assumptions C31_first_call_only.

Example C31_nonvacuous : exists ns,
  let k := mkCall (A:=F64ops) (map f64_ofZ [4; 4]%Z) [[f64_frac (-19) 10; f64_ofZ 0]; [f64_frac 19 10; f64_ofZ 0]] None true None in
  let k0 := mkCall (A:=F64ops) (map f64_ofZ [4; 4]%Z) [] None true None in
  let k1 := mkCall (A:=F64ops) (map f64_ofZ [8; 8]%Z) [] None false None in
  lc_result F64ops (f64_ofZ 1) (lc_after F64ops (f64_ofZ 1) None [k0; k1]) k = Ok ns /\ ns = [[]; [0%nat]].
Proof. eexists. split; [vm_compute; reflexivity|reflexivity]. Qed.

(** ** C32 *)
(** Refuted: two particles in the same subcell. *)
Theorem C32_refuted : exists rc side pos ns,
  lc_result F64ops rc None (mkCall (A:=F64ops) side pos None false None) = Ok ns /\
  listed ns 0 1 = 1%nat /\ listed ns 1 0 = 0%nat.
Proof.
  exists (f64_ofZ 1), (map f64_ofZ [4; 4]%Z), [[f64_frac 1 4; f64_frac 1 4]; [f64_frac 1 2; f64_frac 1 2]].
  eexists. split; [vm_compute; reflexivity|]. split; vm_compute; reflexivity.
Qed.
Print Assumptions C32_refuted.

(** Exactly the pairs in a same subcell are affected: they are listed once in all,
    the other ones in both lists. *)
Theorem C32_partial : forall rc side periodic pos,
  0 < rc -> length side = 2%nat \/ length side = 3%nat -> (forall L, In L side -> 3 * rc <= L) ->
  let per := periodic_directions side periodic in
  length per = length side -> (forall x, In x pos -> folded x side) ->
  exists ns, lc_result Rops rc None (mkCall (A:=Rops) side pos None false periodic) = Ok ns /\
  forall i j, (i < length pos)%nat -> (j < length pos)%nat -> i <> j ->
    image_within per side (nth i pos []) (nth j pos []) rc ->
    (same_subcell rc (nth i pos []) (nth j pos []) side -> (listed ns i j + listed ns j i = 1)%nat) /\
    (~ same_subcell rc (nth i pos []) (nth j pos []) side -> listed ns i j = 1%nat /\ listed ns j i = 1%nat).
Proof.
  intros rc side periodic pos Hrc Hd H3 per Hper Hpos. 
  destruct (full_list_spec rc side periodic pos) as [s [ns [E H]]]; auto.
  - apply (positive_of rc); assumption.
  - apply big_of; assumption.
  - exists ns. split; [unfold lc_result; rewrite E; reflexivity|exact H].
Qed.
Print Assumptions C32_partial.

Example C32_nonvacuous : same_subcell 1 [1/4; 1/4] [1/2; 1/2] [4; 4] /\ ~ same_subcell 1 [1/4; 1/4] [5/4; 1/4] [4; 4] /\
  exists ns, lc_result F64ops (f64_ofZ 1) None (mkCall (A:=F64ops) (map f64_ofZ [4; 4]%Z)
    [[f64_frac 1 4; f64_frac 1 4]; [f64_frac 5 4; f64_frac 1 4]] None false None) = Ok ns /\ ns = [[1]; [0]]%nat.
Proof.
  split; [|split].
  - cbn. split; [|split; [|exact I]]; exists 4%Z, 2%Z; cbn; lra.
  - cbn. intros [[n [c [[H1 H2] [H3 H4]]]] _]. rewrite !plus_IZR in *.
    assert (n = 4)%Z as ->.
    { assert (IZR n < IZR 5) as Q1 by lra. assert (IZR 3 < IZR n) as Q2 by lra. apply lt_IZR in Q1, Q2. lia. }
    assert (c < 3)%Z by (apply lt_IZR; lra). assert (2 < c)%Z by (apply lt_IZR; lra). lia.
  - eexists. split; [vm_compute; reflexivity|reflexivity].
Qed.

(** ** C67 *)
(** Refuted: the last bin kept, centered at rmax, misses the pairs beyond rmax. *)
Theorem C67_refuted : exists pos side grid o o',
  gr_grid F64ops (f64_frac 1 2) (f64_ofZ 5) (f64_frac 7 5) = Ok grid /\
  gr_fast_linked F64ops (f64_frac 22 7) 2 true grid 1 [pos] [pos] [side] (f64_ofZ 25) (f64_frac 5 4) = Ok o /\
  gr_fast F64ops (f64_frac 22 7) 2 true grid 1 [pos] [pos] [side] (f64_ofZ 25) (f64_frac 5 4) = Ok o' /\
  map fst o = map fst o' /\
  neq F64ops (nth 2 (map snd o) (f64_ofZ 7)) (f64_ofZ 0) = true /\
  nlt F64ops (f64_ofZ 0) (nth 2 (map snd o') (f64_ofZ 7)) = true.
Proof.
  exists [[f64_frac (-126) 100; f64_ofZ 0]; [f64_frac 14 100; f64_ofZ 0]], (map f64_ofZ [5; 5]%Z).
  do 3 eexists. repeat (split; [vm_compute; reflexivity|]). vm_compute. reflexivity.
Qed.
Print Assumptions C67_refuted.

(** Exact arithmetic, constant cell: same grid, and same values in every bin that
    ends at rmax or before.  Missing: the last bin, and cells that change. *)
Theorem C67_partial : forall pi V ndims same (dr rmax L : R) side skip pos0 pos1 sides,
  let sd := sqrt (INR (length side)) in
  0 < dr -> 3 / 2 * dr <= L * sd -> 0 < rmax -> length side = 2%nat \/ length side = 3%nat ->
  (forall l, In l side -> 3 * rmax <= l) ->
  (forall l, In l side -> l <= L) -> (forall s, In s sides -> s = side) ->
  gr_input same skip pos0 pos1 sides -> pos0 <> [] ->
  (forall i r, (i < length pos0)%nat -> In r (nth i pos0 []) \/ In r (nth i pos1 []) -> folded r side) ->
  exists grid o o', gr_grid Rops dr L sd = Ok grid /\
    gr_fast_linked Rops pi ndims same grid skip pos0 pos1 sides V rmax = Ok o /\
    gr_fast Rops pi ndims same grid skip pos0 pos1 sides V rmax = Ok o' /\
    Forall2 (fun a b : R * R => fst a = fst b /\ (fst a + dr / 2 <= rmax -> snd a = snd b)) o o'.
Proof.
  intros pi V ndims same dr rmax L side skip pos0 pos1 sides sd Hdr HL Hrm Hd H3 Hl Hs Hin Hne Hf.
  apply (linked_agrees pi V ndims same dr rmax L side); auto.
  - apply (positive_of rmax); assumption.
  - apply big_of; assumption.
Qed.
Print Assumptions C67_partial.

Example C67_nonvacuous : exists grid o, 
  (forall r, In r lc_demo -> folded r [3; 3]) /\ (forall l, In l [3; 3] -> 3 * 1 <= l) /\
  gr_grid F64ops (f64_frac 1 2) (f64_ofZ 3) (f64_frac 7 5) = Ok grid /\
  let pos := [[f64_ofZ (-1); f64_ofZ (-1)]; [f64_frac 7 5; f64_ofZ (-1)]; [f64_frac 7 5; f64_frac (-7) 5]; [f64_ofZ 0; f64_ofZ 0]] in
  gr_fast_linked F64ops (f64_frac 22 7) 2 true grid 1 [pos] [pos] [map f64_ofZ [3; 3]%Z] (f64_ofZ 9) (f64_ofZ 1) = Ok o /\
  gr_fast F64ops (f64_frac 22 7) 2 true grid 1 [pos] [pos] [map f64_ofZ [3; 3]%Z] (f64_ofZ 9) (f64_ofZ 1) = Ok o /\
  length o = 2%nat.
Proof.
  do 2 eexists. split; [|split; [intros l [<-|[<-|[]]]; lra|]].
  - intros x H. cbn in H. repeat destruct H as [H|H]; try subst x; try contradiction; cbn; lra.
  - repeat (split; [vm_compute; reflexivity|]). vm_compute. reflexivity.
Qed.
