(** Specification vocabulary for radial distribution functions computed from
    trajectories: frames with their own cells, with or without periodic boundaries. *)
From Coq Require Import List ZArith Reals Bool Arith.
From Verif Require Import Num Spec_Stats Spec_Dynamics Spec_Correlation Spec_Pairs M_GrObject.
Import ListNotations.
Local Open Scope R_scope.

Notation frameR := (gframe Rops).
Notation cellR := (gcell Rops).

(** The system at frame i, and the last of the frames used (every skip-th). *)
Definition no_frame : frameR := mkFrame (A:=Rops) [] [] None 0%nat 0.
Definition frame_at (frames : list frameR) (i : nat) : frameR := nth i frames no_frame.
Definition last_used (skip : nat) (frames : list frameR) : frameR :=
  frame_at frames (last (origins 0 skip (length frames)) 0%nat).

(** Sides of the cell of a frame; of all cells. *)
Definition side_of (f : frameR) : list R := match f_cell f with Some c => c_side c | None => [] end.
Definition sides_of (frames : list frameR) : list (list R) := map side_of frames.
Definition group0 (frames : list frameR) : list (list (list R)) := map f_0 frames.
Definition group1 (frames : list frameR) : list (list (list R)) := map f_1 frames.

(** The cell of a frame has ndims positive sides. *)
Definition has_cell (ndims : nat) (f : frameR) : Prop :=
  exists c, f_cell f = Some c /\ length (c_side c) = ndims /\ positive (c_side c) /\ length (c_periodic c) = ndims.

(** Periodic along all directions, or along none. *)
Definition all_periodic (f : frameR) : Prop := exists c, f_cell f = Some c /\ forall b, In b (c_periodic c) -> b = true.
Definition none_periodic (f : frameR) : Prop := exists c, f_cell f = Some c /\ forall b, In b (c_periodic c) -> b = false.

(** Both groups have particles, with ndims coordinates each. *)
Definition populated (ndims : nat) (f : frameR) : Prop :=
  f_0 f <> [] /\ f_1 f <> [] /\ forall r, In r (f_0 f) \/ In r (f_1 f) -> length r = ndims.

(** A trajectory for g(r): [same] when the two groups are one group. *)
Record gr_frames (ndims : nat) (same : bool) (skip : nat) (frames : list frameR) : Prop := {
  gf_dims : (1 <= ndims)%nat;
  gf_skip : (1 <= skip)%nat;
  gf_some : frames <> [];
  gf_same : same = true -> forall f, In f frames -> f_1 f = f_0 f;
  gf_populated : forall f, In f frames -> populated ndims f }.

(** Product of the sides. *)
Definition volume_of (f : frameR) : R := fold_right Rmult 1 (side_of f).

(** L is the largest, smallest of the sides. *)
Definition largest (L : R) (side : list R) : Prop := In L side /\ forall l, In l side -> l <= L.
Definition smallest (L : R) (side : list R) : Prop := In L side /\ forall l, In l side -> L <= l.

(** Upper limit of the distances: rmax when positive, else half the smallest side of
    the cell of the frame. *)
Definition limit (rmax : R) (f : frameR) (r : R) : Prop :=
  (0 < rmax -> r = rmax) /\ (rmax <= 0 -> exists L, smallest L (side_of f) /\ r = L / 2).

(** All the points dr/2, 3 dr/2, 5 dr/2, ... up to r, in this order. *)
Definition all_points (dr r : R) (l : list R) : Prop :=
  exists m, l = map (fun k => (INR k + 1 / 2) * dr) (seq 0 m) /\ (INR m - 1 / 2) * dr <= r < (INR m + 1 / 2) * dr.

(** Farther than r from every face of the cell centered at the origin. *)
Definition interior (r : R) (side x : list R) : bool :=
  forallb (fun aL => Rleb (Rabs (fst aL)) (snd aL / 2 - r)) (combine x side).

(** Particles of group 0 that are interior. *)
Definition interior0 (r : R) (f : frameR) : list (list R) := filter (interior r (side_of f)) (f_0 f).

(** Mean over the frames used. *)
Definition mean_frames (skip : nat) (frames : list frameR) (X : frameR -> R) : R :=
  rmean (map (fun i => X (frame_at frames i)) (origins 0 skip (length frames))).

(** g(r) at bin k of an open system: only particles farther than rmax from the faces
    of the cell are taken as centers, distances are Euclidean. *)
Definition open_gr (ndims skip : nat) (frames : list frameR) (rmax dr : R) (k : nat) : R :=
  mean_frames skip frames (fun f => INR (count_prod (fun x y => slot dr k (euclid x y)) (interior0 rmax f) (f_1 f)))
  / (mean_frames skip frames (fun f => INR (length (f_1 f))) / volume_of (last_used skip frames)
     * (ball ndims (INR (k + 1) * dr) - ball ndims (INR k * dr))
     * mean_frames skip frames (fun f => INR (length (interior0 rmax f)))).

(** The same frame with other periodic directions. *)
Definition with_periodic (flags : list bool) (f : frameR) : frameR :=
  mkFrame (A:=Rops) (f_0 f) (f_1 f) (match f_cell f with Some c => Some (mkCell (A:=Rops) (c_side c) flags) | None => None end)
    (f_npart f) (f_density f).
