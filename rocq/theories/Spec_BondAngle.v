(** Specification vocabulary for bond angles. *)
From Coq Require Import List ZArith Reals Bool Arith.
From Verif Require Import Num M_BondAngle Spec_Correlation.
Import ListNotations.
Local Open Scope R_scope.

(** Displacement from x to c, moved by one cell side where it exceeds half a side. *)
Definition min_coord (r L : R) : R :=
  if Rlt_dec (L / 2) r then r - L else if Rlt_dec r (- (L / 2)) then r + L else r.
Fixpoint min_vec (c x side : list R) : list R :=
  match c, x, side with
  | a :: c', b :: x', L :: side' => min_coord (a - b) L :: min_vec c' x' side'
  | _, _, _ => []
  end.

Fixpoint dot (u v : list R) : R :=
  match u, v with
  | a :: u', b :: v' => a * b + dot u' v'
  | _, _ => 0
  end.
Definition norm (u : list R) : R := sqrt (dot u u).

(** theta is the angle between u and v, in degrees. *)
Definition is_angle (u v : list R) (theta : R) : Prop :=
  0 <= theta <= 180 /\ cos (theta * PI / 180) * (norm u * norm v) = dot u v.
Definition angle_deg (u v : list R) : R := acos (dot u v / (norm u * norm v)) * 180 / PI.

(** Particles of [pos] (species [ids]) closer to c than the cutoff of their species. *)
Definition neighbours (side c : list R) (pos : list (list R)) (ids : list nat) (rcut : list R) : list nat :=
  filter (fun j => let u := min_vec c (nth j pos []) side in
                   Rltb (dot u u) (nth (nth j ids 0%nat) rcut 0 * nth (nth j ids 0%nat) rcut 0))
    (seq 0 (length pos)).

(** Angles between the bonds of c with two distinct neighbours, particles at the
    very position of c excluded; every unordered pair of bonds counts twice. *)
Definition bond_angles (side c : list R) (pos : list (list R)) (ns : list nat) : list R :=
  flat_map (fun j => flat_map (fun k =>
    let u := min_vec c (nth j pos []) side in
    let v := min_vec c (nth k pos []) side in
    if (k =? j)%nat then []
    else if Req_EM_T (dot u u) 0 then []
    else if Req_EM_T (dot v v) 0 then []
    else [angle_deg u v]) ns) ns.

(** All bond angles of a frame, and of the frames used. *)
Definition cutoffs (rcut : list (list R)) (f : frame Rops) (idx : nat) : list R := nth (nth idx (f_ids0 f) 0%nat) rcut [].
Definition frame_angles (rcut : list (list R)) (f : frame Rops) : list R :=
  flat_map (fun idx =>
    let c := nth idx (f_pos0 f) [] in
    bond_angles (f_side f) c (f_pos1 f) (neighbours (f_side f) c (f_pos1 f) (f_ids1 f) (cutoffs rcut f idx)))
    (seq 0 (length (f_pos0 f))).
Definition no_frame : frame Rops := mkFrame (A:=Rops) [] [] [] [] [].
Definition all_angles (rcut : list (list R)) (skip : nat) (frames : list (frame Rops)) : list R :=
  flat_map (fun i => frame_angles rcut (nth i frames no_frame)) (origins 0 skip (length frames)).

(** Species within range of the matrix of cutoffs, at most 50 neighbours. *)
Record frame_ok (rcut : list (list R)) (f : frame Rops) : Prop := {
  fo_side : forall L, In L (f_side f) -> (0 < L)%R;
  fo_ids0 : length (f_ids0 f) = length (f_pos0 f);
  fo_ids1 : length (f_ids1 f) = length (f_pos1 f);
  fo_sp0 : forall i, In i (f_ids0 f) -> (i < length rcut)%nat;
  fo_sp1 : forall i row, In i (f_ids1 f) -> In row rcut -> (i < length row)%nat;
  fo_few : forall idx, (idx < length (f_pos0 f))%nat ->
    (length (neighbours (f_side f) (nth idx (f_pos0 f) []) (f_pos1 f) (f_ids1 f) (cutoffs rcut f idx)) <= 50)%nat }.
