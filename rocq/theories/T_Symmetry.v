(** Theorems on transformations of the trajectory: C70-C75. *)
From Coq Require Import Ascii String List ZArith Bool Arith Reals Lia Lra Sorting.Sorted Sorting.Permutation.
From Verif Require Import PyBase PyBaseFacts Num Spec_Stats NumFacts M_Helpers M_Correlation M_Dynamics M_Realspace
  M_KGrid M_Fourier M_Fkt Spec_Correlation Spec_Dynamics Spec_Fourier Spec_Fkt Spec_Pairs P_Sk P_Sk3 P_Fkt T_Dynamics T_Fourier T_Fkt
  P_GrFast2 P_Gr T_Realspace P_KGrid2 Spec_Symmetry P_Symmetry P_Symmetry2 P_Symmetry3.
Import ListNotations.
Local Open Scope R_scope.

(** ** C70 *)
(** Listing the particles of all the frames in another order [sigma]. *)
Theorem C70_msd : forall sigma N (tr : traj Rops) grid rmax ts n no (frames : list (list (list R))),
  Permutation sigma (seq 0 N) -> length (t_steps tr) = length frames -> (forall x, In x frames -> length x = N) ->
  msd_compute Rops tr grid rmax ts n no (map (relabel sigma) frames) = msd_compute Rops tr grid rmax ts n no frames.
Proof. intros sigma N tr grid rmax ts n no frames Hs. exact (msd_relabel sigma N Hs tr grid rmax ts n no frames). Qed.
Print Assumptions C70_msd.

Theorem C70_alpha2 : forall sigma N (tr : traj Rops) grid n (frames : list (list (list R))),
  Permutation sigma (seq 0 N) -> length (t_steps tr) = length frames -> (forall x, In x frames -> length x = N) ->
  alpha2_compute Rops tr grid n (map (relabel sigma) frames) = alpha2_compute Rops tr grid n frames.
Proof. intros sigma N tr grid n frames Hs. exact (alpha2_relabel sigma N Hs tr grid n frames). Qed.
Print Assumptions C70_alpha2.

Theorem C70_vacf : forall sigma N (tr : traj Rops) grid n (velocities : list (list (list R))),
  Permutation sigma (seq 0 N) -> length (t_steps tr) = length velocities -> (forall x, In x velocities -> length x = N) ->
  vacf_compute Rops tr grid n (map (relabel sigma) velocities) = vacf_compute Rops tr grid n velocities.
Proof. intros sigma N tr grid n frames Hs. exact (vacf_relabel sigma N Hs tr grid n frames). Qed.
Print Assumptions C70_vacf.

(** Counting is exact, so the following hold in any arithmetic, doubles included. *)
Theorem C70_self_overlap : forall A sigma N (tr : traj A) grid n a (frames : list (list (list (num A)))),
  Permutation sigma (seq 0 N) -> length (t_steps tr) = length frames -> (forall x, In x frames -> length x = N) ->
  self_overlap_compute A tr grid n a (map (relabel sigma) frames) = self_overlap_compute A tr grid n a frames.
Proof. intros A sigma N tr grid n a frames Hs. exact (self_overlap_relabel sigma N Hs A tr grid n a frames). Qed.
Print Assumptions C70_self_overlap.

Theorem C70_chi4 : forall A sigma N (tr : traj A) grid n a (frames : list (list (list (num A)))),
  Permutation sigma (seq 0 N) -> (forall x, In x frames -> length x = N) ->
  chi4_compute A tr grid n a (map (relabel sigma) frames) = chi4_compute A tr grid n a frames.
Proof. intros A sigma N tr grid n a frames Hs. exact (chi4_relabel sigma N Hs A tr grid n a frames). Qed.
Print Assumptions C70_chi4.

(** Collective functions: the order may even change from frame to frame. *)
Theorem C70_collective_overlap : forall A (tr : traj A) grid n a (frames frames' : list (list (list (num A)))),
  length (t_steps tr) = length frames -> Forall2 (@Permutation (list (num A))) frames frames' ->
  coll_overlap_compute A tr grid n a frames' = coll_overlap_compute A tr grid n a frames.
Proof. exact coll_overlap_relabel. Qed.
Print Assumptions C70_collective_overlap.

Theorem C70_self_scattering : forall sigma K steps dgrid skip pos N nb normalize,
  Permutation sigma (seq 0 N) ->
  usable K -> ks_vectors K <> [] -> (1 <= skip)%nat -> length steps = length pos ->
  same_particles (length (ks_k0 K)) pos N ->
  fskt_legacy K steps dgrid skip normalize (map (relabel sigma) pos) = fskt_legacy K steps dgrid skip normalize pos /\
  fskt_fast nb K steps dgrid skip normalize (map (relabel sigma) pos) = fskt_fast nb K steps dgrid skip normalize pos.
Proof. exact fskt_relabel. Qed.
Print Assumptions C70_self_scattering.

Theorem C70_scattering : forall K steps dgrid skip a b a' b' same,
  usable K -> ks_vectors K <> [] -> (length (ks_k0 K) = 2 \/ length (ks_k0 K) = 3)%nat -> (1 <= skip)%nat ->
  length steps = length a -> length b = length a ->
  group_ok (length (ks_k0 K)) a -> group_ok (length (ks_k0 K)) b -> (same = true -> b = a) -> (same = true -> b' = a') ->
  Forall2 (@Permutation (list R)) a a' -> Forall2 (@Permutation (list R)) b b' ->
  forall normalize, fkt_compute K steps dgrid skip normalize a' (second same b') = fkt_compute K steps dgrid skip normalize a (second same b).
Proof. exact fkt_relabel. Qed.
Print Assumptions C70_scattering.

Theorem C70_structure_factor : forall same K skip a b a' b',
  usable K -> (1 <= skip)%nat -> a <> [] -> length a = length b ->
  group_ok (length (ks_k0 K)) a -> group_ok (length (ks_k0 K)) b -> (same = true -> b = a) -> (same = true -> b' = a') ->
  (same = true \/ length (ks_k0 K) = 2%nat \/ length (ks_k0 K) = 3%nat) ->
  Forall2 (@Permutation (list R)) a a' -> Forall2 (@Permutation (list R)) b b' ->
  structure_factor same false (fun _ => K) skip (pair_frames a' b') = structure_factor same false (fun _ => K) skip (pair_frames a b).
Proof. exact sk_relabel. Qed.
Print Assumptions C70_structure_factor.

Theorem C70_gr : forall pi V crop ndims same (grid es : list R) skip pos0 pos1 sides pos0' pos1',
  edges_of_grid Rops grid = Ok es -> StronglySorted Rlt es ->
  gr_input same skip pos0 pos1 sides ->
  Forall2 (@Permutation _) pos0 pos0' -> Forall2 (@Permutation _) pos1 pos1' -> (same = true -> pos1' = pos0') ->
  gr_legacy Rops pi ndims same grid skip pos0' pos1' sides V crop
  = gr_legacy Rops pi ndims same grid skip pos0 pos1 sides V crop.
Proof. exact gr_relabel. Qed.
Print Assumptions C70_gr.

Example C70_nonvacuous : Permutation [1; 0]%nat (seq 0 2) /\
  map (relabel [1; 0]%nat) demo_frames <> demo_frames /\
  self_overlap_compute F64ops demo_tr (map (fun z => f64_frac z 2) [0; 1; 2]%Z) (NoInt (-1)) (f64_frac 3 2) (map (relabel [1; 0]%nat) demo_frames)
  = self_overlap_compute F64ops demo_tr (map (fun z => f64_frac z 2) [0; 1; 2]%Z) (NoInt (-1)) (f64_frac 3 2) demo_frames.
Proof.
  split; [apply perm_swap|]. split; [intros H; vm_compute in H; discriminate H|].
  apply (C70_self_overlap F64ops [1; 0]%nat 2); [apply perm_swap|reflexivity|].
  intros x [<-|[<-|[<-|[<-|[]]]]]; reflexivity.
Qed.

(** ** C71 *)
(** A transformation of space that keeps the distances between all positions that
    occur: rotations, reflections, translations and their products. *)
Theorem C71_msd : forall (iso : list R -> list R) (frames : list (list (list R))) N (tr : traj Rops) grid rmax ts n no,
  (forall x y r s, In x frames -> In y frames -> In r x -> In s y -> dist2 (iso r) (iso s) = dist2 r s) ->
  (forall x, In x frames -> length x = N) -> length (t_steps tr) = length frames ->
  msd_compute Rops tr grid rmax ts n no (map (map iso) frames) = msd_compute Rops tr grid rmax ts n no frames.
Proof.
  intros iso frames N tr grid rmax ts n no Hi HN Hl.
  apply (msd_iso iso (fun r => exists x, In x frames /\ In r x)) with (N := N); eauto.
  intros r s [x [Hx Hr]] [y [Hy Hs]]. eauto.
Qed.
Print Assumptions C71_msd.

Theorem C71_alpha2 : forall (iso : list R -> list R) (frames : list (list (list R))) N (tr : traj Rops) grid n,
  (forall x y r s, In x frames -> In y frames -> In r x -> In s y -> dist2 (iso r) (iso s) = dist2 r s) ->
  (forall x, In x frames -> length x = N) -> length (t_steps tr) = length frames ->
  alpha2_compute Rops tr grid n (map (map iso) frames) = alpha2_compute Rops tr grid n frames.
Proof.
  intros iso frames N tr grid n Hi HN Hl.
  apply (alpha2_iso iso (fun r => exists x, In x frames /\ In r x)) with (N := N); eauto.
  intros r s [x [Hx Hr]] [y [Hy Hs]]. eauto.
Qed.
Print Assumptions C71_alpha2.

Theorem C71_self_overlap : forall (iso : list R -> list R) (frames : list (list (list R))) N (tr : traj Rops) grid n a,
  (forall x y r s, In x frames -> In y frames -> In r x -> In s y -> dist2 (iso r) (iso s) = dist2 r s) ->
  (forall x, In x frames -> length x = N) -> length (t_steps tr) = length frames ->
  self_overlap_compute Rops tr grid n a (map (map iso) frames) = self_overlap_compute Rops tr grid n a frames.
Proof.
  intros iso frames N tr grid n a Hi HN Hl.
  apply (self_overlap_iso iso (fun r => exists x, In x frames /\ In r x)); eauto.
  intros r s [x [Hx Hr]] [y [Hy Hs]]. eauto.
Qed.
Print Assumptions C71_self_overlap.

Theorem C71_chi4 : forall (iso : list R -> list R) (frames : list (list (list R))) N (tr : traj Rops) grid n a,
  (forall x y r s, In x frames -> In y frames -> In r x -> In s y -> dist2 (iso r) (iso s) = dist2 r s) ->
  (forall x, In x frames -> length x = N) ->
  chi4_compute Rops tr grid n a (map (map iso) frames) = chi4_compute Rops tr grid n a frames.
Proof.
  intros iso frames N tr grid n a Hi HN.
  apply (chi4_iso iso (fun r => exists x, In x frames /\ In r x)); eauto.
  intros r s [x [Hx Hr]] [y [Hy Hs]]. eauto.
Qed.
Print Assumptions C71_chi4.

(** A quarter turn. *)
Definition quarter (r : list R) : list R := match r with [x; y] => [- y; x] | _ => r end.
Example C71_nonvacuous : let frames := [[[0; 1]; [2; 3]]; [[1; 1]; [2; 5]]] in
  (forall x y r s, In x frames -> In y frames -> In r x -> In s y -> dist2 (quarter r) (quarter s) = dist2 r s) /\
  map (map quarter) frames = [[[- (1); 0]; [- (3); 2]]; [[- (1); 1]; [- (5); 2]]].
Proof.
  split; [|reflexivity]. intros x y r s Hx Hy Hr Hs.
  assert (G : forall a b, In a [[[0; 1]; [2; 3]]; [[1; 1]; [2; 5]]] -> In b a -> exists u v, b = [u; v]).
  { intros a b [<-|[<-|[]]] [<-|[<-|[]]]; eauto. }
  destruct (G x r Hx Hr) as [u [v ->]]. destruct (G y s Hy Hs) as [u' [v' ->]]. cbn. ring.
Qed.

(** ** C72 *)
(** Positions multiplied by c > 0: a change of the unit of length. *)
Theorem C72_msd : forall c (frames : list (list (list R))) N (tr : traj Rops) grid rmax ts n no g v,
  0 < c -> (forall x, In x frames -> length x = N) -> length (t_steps tr) = length frames ->
  msd_compute Rops tr grid rmax ts n no frames = Ok (g, v) ->
  msd_compute Rops tr grid (c * rmax) ts n no (map (map (timesv c)) frames) = Ok (g, map (Rmult (c * c)) v).
Proof. intros c frames N tr grid rmax ts n no g v Hc HN. exact (msd_compute_scale c Hc frames N HN tr grid rmax ts n no g v). Qed.
Print Assumptions C72_msd.

Theorem C72_alpha2 : forall c (frames : list (list (list R))) N (tr : traj Rops) grid n,
  0 < c -> (forall x, In x frames -> length x = N) -> length (t_steps tr) = length frames ->
  alpha2_compute Rops tr grid n (map (map (timesv c)) frames) = alpha2_compute Rops tr grid n frames.
Proof. intros c frames N tr grid n Hc HN. exact (alpha2_scale c Hc frames N HN tr grid n). Qed.
Print Assumptions C72_alpha2.

(** The threshold a is a length. *)
Theorem C72_self_overlap : forall c (frames : list (list (list R))) (tr : traj Rops) grid n a,
  0 < c -> length (t_steps tr) = length frames ->
  self_overlap_compute Rops tr grid n (c * a) (map (map (timesv c)) frames) = self_overlap_compute Rops tr grid n a frames.
Proof. intros c frames tr grid n a Hc. exact (self_overlap_scale c Hc frames tr grid n a). Qed.
Print Assumptions C72_self_overlap.

Theorem C72_chi4 : forall c (frames : list (list (list R))) (tr : traj Rops) grid n a,
  0 < c -> chi4_compute Rops tr grid n (c * a) (map (map (timesv c)) frames) = chi4_compute Rops tr grid n a frames.
Proof. intros c frames tr grid n a Hc. exact (chi4_scale c Hc frames tr grid n a). Qed.
Print Assumptions C72_chi4.

Theorem C72_vacf : forall c (velocities : list (list (list R))) N (tr : traj Rops) tg n g v,
  (forall x, In x velocities -> length x = N) -> length (t_steps tr) = length velocities ->
  vacf_compute Rops tr tg n velocities = Ok (g, v) ->
  vacf_compute Rops tr tg n (map (map (timesv c)) velocities) = Ok (g, map (Rmult (c * c)) v).
Proof. intros c frames N tr tg n g v HN. exact (vacf_scale c frames N HN tr tg n g v). Qed.
Print Assumptions C72_vacf.

(** g(r): the grid scales, the values do not change. *)
Theorem C72_gr : forall c pi V crop ndims same (grid es : list R) skip pos0 pos1 sides out,
  0 < c -> edges_of_grid Rops grid = Ok es -> StronglySorted Rlt es ->
  gr_input same skip pos0 pos1 sides -> V <> 0 ->
  gr_legacy Rops pi ndims same grid skip pos0 pos1 sides V crop = Ok out ->
  gr_legacy Rops pi ndims same (map (Rmult c) grid) skip (map (map (timesv c)) pos0) (map (map (timesv c)) pos1)
    (map (timesv c) sides) (c ^ ndims * V) (c * crop)
  = Ok (map (fun p => (c * fst p, snd p)) out).
Proof. intros c pi V crop ndims same grid es skip pos0 pos1 sides out Hc. exact (gr_scale c Hc pi V crop ndims same grid es skip pos0 pos1 sides out). Qed.
Print Assumptions C72_gr.

(** Functions of the wave-vectors, these being divided by c. *)
Theorem C72_structure_factor : forall c same K skip a b,
  0 < c -> usable K -> (1 <= skip)%nat -> a <> [] -> length a = length b ->
  group_ok (length (ks_k0 K)) a -> group_ok (length (ks_k0 K)) b -> (same = true -> b = a) ->
  (same = true \/ length (ks_k0 K) = 2%nat \/ length (ks_k0 K) = 3%nat) ->
  kvectors Rops (rescaled c K) = map (map (timesv (/ c))) (kvectors Rops K) /\
  structure_factor same false (fun _ => rescaled c K) skip (pair_frames (map (map (timesv c)) a) (map (map (timesv c)) b))
  = structure_factor same false (fun _ => K) skip (pair_frames a b).
Proof.
  intros c same K skip a b Hc U Hs Ha L Ga Gb E Hd. split; [apply rescaled_vectors|apply sk_scale; assumption].
Qed.
Print Assumptions C72_structure_factor.

Theorem C72_scattering : forall c K steps dgrid skip normalize a b same,
  0 < c -> usable K -> ks_vectors K <> [] -> (length (ks_k0 K) = 2 \/ length (ks_k0 K) = 3)%nat -> (1 <= skip)%nat ->
  length steps = length a -> length b = length a ->
  group_ok (length (ks_k0 K)) a -> group_ok (length (ks_k0 K)) b -> (same = true -> b = a) ->
  fkt_compute (rescaled c K) steps dgrid skip normalize (map (map (timesv c)) a) (second same (map (map (timesv c)) b))
  = fkt_compute K steps dgrid skip normalize a (second same b).
Proof. intros c K steps dgrid skip normalize a b same Hc. apply fkt_scale. exact Hc. Qed.
Print Assumptions C72_scattering.

Theorem C72_self_scattering : forall c K steps dgrid skip pos N nb normalize,
  0 < c -> usable K -> ks_vectors K <> [] -> (1 <= skip)%nat -> length steps = length pos ->
  same_particles (length (ks_k0 K)) pos N ->
  fskt_legacy (rescaled c K) steps dgrid skip normalize (map (map (timesv c)) pos) = fskt_legacy K steps dgrid skip normalize pos /\
  fskt_fast nb (rescaled c K) steps dgrid skip normalize (map (map (timesv c)) pos) = fskt_fast nb K steps dgrid skip normalize pos.
Proof. intros c K steps dgrid skip pos N nb normalize Hc. apply fskt_scale. exact Hc. Qed.
Print Assumptions C72_self_scattering.

(** ** C73 *)
(** Steps counted from another origin; any arithmetic. *)
Definition later {A} (c : Z) (tr : traj A) : traj A :=
  mkTraj (map (Z.add c) (t_steps tr)) (t_bs tr) (t_dt tr) (t_total tr) (t_npart tr).

Theorem C73_msd : forall c A (tr : traj A) grid rmax ts n no x,
  msd_compute A (later c tr) grid rmax ts n no x = msd_compute A tr grid rmax ts n no x.
Proof. exact msd_time_shift. Qed.
Print Assumptions C73_msd.

Theorem C73_overlap_alpha2 : forall c A (tr : traj A) grid n a x,
  self_overlap_compute A (later c tr) grid n a x = self_overlap_compute A tr grid n a x /\
  coll_overlap_compute A (later c tr) grid n a x = coll_overlap_compute A tr grid n a x /\
  alpha2_compute A (later c tr) grid n x = alpha2_compute A tr grid n x.
Proof.
  intros c A tr grid n a x. unfold self_overlap_compute, coll_overlap_compute, alpha2_compute.
  repeat split; apply (grid_time_shift c).
Qed.
Print Assumptions C73_overlap_alpha2.

Theorem C73_chi4 : forall c A (tr : traj A) grid n a x,
  chi4_compute A (later c tr) grid n a x = chi4_compute A tr grid n a x.
Proof. exact chi4_time_shift. Qed.
Print Assumptions C73_chi4.

Theorem C73_vacf : forall c A (tr : traj A) grid n x,
  vacf_compute A (later c tr) grid n x = vacf_compute A tr grid n x.
Proof. exact vacf_time_shift. Qed.
Print Assumptions C73_vacf.

Example C73_nonvacuous :
  msd_compute F64ops (later 1000 demo_tr) (Some (map (fun z => f64_frac z 2) [0; 1; 3]%Z)) (f64_ofZ (-1)) 30 (NoInt (-1)) false demo_frames
  = msd_compute F64ops demo_tr (Some (map (fun z => f64_frac z 2) [0; 1; 3]%Z)) (f64_ofZ (-1)) 30 (NoInt (-1)) false demo_frames /\
  match msd_compute F64ops demo_tr (Some (map (fun z => f64_frac z 2) [0; 1; 3]%Z)) (f64_ofZ (-1)) 30 (NoInt (-1)) false demo_frames with
  | Ok (g, v) => length v = 3%nat | Err _ => False end.
Proof. split; [apply C73_msd|vm_compute; reflexivity]. Qed.

(** ** C74 *)
(** Time step, total time and requested times multiplied by c. *)
Definition slower (c : R) (tr : traj Rops) : traj Rops :=
  mkTraj (A:=Rops) (t_steps tr) (t_bs tr) (c * t_dt tr) (c * t_total tr) (t_npart tr).
Definition stretched (c : R) (r : res (list R * list R)) : res (list R * list R) :=
  match r with Ok (g, v) => Ok (map (Rmult c) g, v) | Err e => Err e end.

Theorem C74_msd : forall c tr grid rmax ts n no x, 0 < c ->
  msd_compute Rops (slower c tr) (Some (map (Rmult c) grid)) rmax ts n no x = stretched c (msd_compute Rops tr (Some grid) rmax ts n no x).
Proof. intros c tr grid rmax ts n no x Hc. exact (msd_compute_unit c Hc tr grid rmax ts n no x). Qed.
Print Assumptions C74_msd.

Theorem C74_overlap_alpha2 : forall c tr grid n a x, 0 < c ->
  self_overlap_compute Rops (slower c tr) (map (Rmult c) grid) n a x = stretched c (self_overlap_compute Rops tr grid n a x) /\
  coll_overlap_compute Rops (slower c tr) (map (Rmult c) grid) n a x = stretched c (coll_overlap_compute Rops tr grid n a x) /\
  alpha2_compute Rops (slower c tr) (map (Rmult c) grid) n x = stretched c (alpha2_compute Rops tr grid n x).
Proof.
  intros c tr grid n a x Hc. unfold self_overlap_compute, coll_overlap_compute, alpha2_compute.
  repeat split; apply (grid_compute_unit c Hc).
Qed.
Print Assumptions C74_overlap_alpha2.

(** ** C75 *)
(** g(r) of the reference class: adding a vector of its own to all the positions of
    each frame and replacing any of the positions by periodic images. *)
Theorem C75_gr : forall pi V crop ndims same (grid es : list R) skip pos0 pos1 sides pos0' pos1' (d : nat -> nat -> R),
  edges_of_grid Rops grid = Ok es -> StronglySorted Rlt es ->
  gr_input same skip pos0 pos1 sides ->
  length pos0' = length pos0 -> length pos1' = length pos1 ->
  (forall i, (i < length pos0)%nat ->
     Forall2 (carried (nth i sides []) (d i)) (nth i pos0 []) (nth i pos0' []) /\
     Forall2 (carried (nth i sides []) (d i)) (nth i pos1 []) (nth i pos1' [])) ->
  (same = true -> pos1' = pos0') ->
  gr_legacy Rops pi ndims same grid skip pos0' pos1' sides V crop
  = gr_legacy Rops pi ndims same grid skip pos0 pos1 sides V crop.
Proof. exact gr_moved. Qed.
Print Assumptions C75_gr.

Example C75_nonvacuous :
  gr_input false 1 demo_A demo_B demo_sides /\
  (forall r, carried [6; 6] (fun j => nth j [1; 2] 0) r [nth 0 r 0 + 1 + 6; nth 1 r 0 + 2 - 12] \/ length r <> 2%nat).
Proof.
  split; [apply C28_nonvacuous|]. intros r. destruct r as [|x [|y [|z r]]]; try (right; cbn; lia). left.
  repeat split; intros [|[|j]] Hj; cbn in Hj; try lia; cbn.
  - exists 1%Z. ring.
  - exists (-2)%Z. ring.
Qed.

Example C72_nonvacuous :
  (exists out, gr_legacy Rops PI 2 true [1 * / 2; 3 / 2; 5 / 2] 1 demo_AB demo_AB demo_sides 36 3 = Ok out /\
    gr_legacy Rops PI 2 true (map (Rmult 10) [1 * / 2; 3 / 2; 5 / 2]) 1 (map (map (timesv 10)) demo_AB) (map (map (timesv 10)) demo_AB)
      (map (timesv 10) demo_sides) (10 ^ 2 * 36) (10 * 3) = Ok (map (fun p => (10 * fst p, snd p)) out)) /\
  structure_factor true false (fun _ => rescaled 10 K43) 1 (pair_frames (map (map (timesv 10)) a43) (map (map (timesv 10)) a43))
  = structure_factor true false (fun _ => K43) 1 (pair_frames a43 a43).
Proof.
  destruct C28_nonvacuous as [D [E [S [I _]]]]. split.
  - change (1 * / 2) with (1 / 2). eexists.
    assert (X : gr_legacy Rops PI 2 true [1 / 2; 3 / 2; 5 / 2] 1 demo_AB demo_AB demo_sides 36 3 = Ok _)
      by exact (P_Gr.gr_legacy_form img_D PI 36 3 2 true _ _ 1 _ _ _ D E S I).
    split; [exact X|]. apply (C72_gr 10 PI 36 3 2 true _ _ 1 _ _ _ _ ltac:(lra) E S I ltac:(lra) X).
  - apply (C72_structure_factor 10); auto; try lra; try apply C43_nonvacuous; discriminate.
Qed.

Example C74_nonvacuous : let tr := mkTraj (A:=Rops) [0; 1; 2]%Z 1 (/ 2) 1 1 in
  exists g v, msd_compute Rops tr (Some [0; / 2]) (-1) 30 (NoInt (-1)) false [[[0]]; [[1]]; [[2]]] = Ok (g, v) /\
    msd_compute Rops (slower 60 tr) (Some (map (Rmult 60) [0; / 2])) (-1) 30 (NoInt (-1)) false [[[0]]; [[1]]; [[2]]] = Ok (map (Rmult 60) g, v).
Proof.
  intros tr.
  assert (X : exists g v, msd_compute Rops tr (Some [0; / 2]) (-1) 30 (NoInt (-1)) false [[[0]]; [[1]]; [[2]]] = Ok (g, v)).
  { unfold msd_compute, msd_grid. 
    assert (T : forall t z, t / / 2 = IZR z -> to_step Rops (/ 2) t = Ok z).
    { intros t z E. unfold to_step, pydiv. cbn. unfold Reqb. destruct (Req_EM_T (/ 2) 0); [lra|]. cbn [bind].
      rewrite E. rewrite (Rrint_unique (IZR z) z); [reflexivity|]. rewrite Rminus_diag_eq, Rabs_R0 by reflexivity. lra. }
    assert (adjust_skip Rops (length (t_steps tr)) (t_npart tr) (t_bs tr) (NoInt (-1)) = Ok 1%nat) as ->.
    { unfold adjust_skip, skip_choice. cbn [no_float bind]. cbn [nlt n0 nofZ Rops].
      destruct (Rltb_spec (-1) 0) as [_|H]; [reflexivity|lra]. }
    cbn [bind].
    assert (setup_t_grid Rops (t_steps tr) (t_bs tr) (t_dt tr) [0; / 2] (not_str_1 Rops (NoInt (-1)) && negb false) = Ok [(0, 0); (0, 1)]%nat) as ->.
    { unfold setup_t_grid. cbn [mapM]. change (t_dt tr) with (/ 2).
      rewrite (T 0 0%Z) by field. rewrite (T (/ 2) 1%Z) by field. reflexivity. }
    cbn [bind]. unfold offset_compute.
    assert (exists r, gcf_offset Rops (msd Rops) [(0, 0); (0, 1)]%nat 1 (t_steps tr) [[[0]]; [[1]]; [[2]]] = Ok r) as [r ->].
    { generalize (msd Rops). intros f. eexists. cbn. reflexivity. }
    cbn [bind]. do 2 eexists. reflexivity. }
  destruct X as [g [v E]]. exists g, v. split; [exact E|]. rewrite (C74_msd 60) by lra. rewrite E. reflexivity.
Qed.
