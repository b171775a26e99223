(** Bond angles computed with doubles (C142). *)
From Coq Require Import List ZArith Bool Arith Reals Floats.SpecFloat.
From Verif Require Import PyBase Num P_Text F64Round F64Ops F64Facts M_Helpers M_Dynamics M_Realspace M_BondAngle Spec_Correlation Spec_BondAngle.
Import ListNotations.
Local Open Scope R_scope.

(** A bond: finite components of at most 2^100, and a length of at least 2^-100. *)
Definition bond (v : list f64) : Prop := (length v <= 1000)%nat /\ (forall x, In x v -> ok x /\ Rabs (fval x) <= p2 100) /\ p2 (-200) <= dot (map fval v) (map fval v).

(** A function that computes arc cosines in degrees up to E. *)
Definition acos_within (E : R) (acosd : f64 -> f64) : Prop :=
  forall c, ok c -> -1 <= fval c <= 1 -> ok (acosd c) /\ Rabs (fval (acosd c) - acos (fval c) * 180 / PI) <= E.

(** Cosine of an angle in degrees. *)
Definition cosd (t : R) : R := cos (t * PI / 180).

(** The angles of the pairs of neighbours, as computed (in an arbitrary arithmetic). *)
Section Computed.
Variable A : arith.
Variable acosd : num A -> num A.
Definition computed_neighbours (side c : list (num A)) (pos : list (list (num A))) (ids : list nat) (rcut : list (num A)) : list nat :=
  filter (fun j => let r := wrapv A c (nth j pos []) side in nlt A (vdot A r r) (nsq A (nth (nth j ids 0%nat) rcut (n0 A)))) (seq 0 (length pos)).
Definition computed_angles (side c : list (num A)) (pos : list (list (num A))) (ns : list nat) : list (num A) :=
  flat_map (fun j => flat_map (fun k =>
    if (k =? j)%nat then []
    else match angle A acosd (wrapv A c (nth j pos []) side) (wrapv A c (nth k pos []) side) with Some t => [t] | None => [] end) ns) ns.
Definition computed_frame (rcut : list (list (num A))) (f : frame A) : list (list (num A)) :=
  map (fun idx => let c := nth idx (f_pos0 f) [] in
    computed_angles (f_side f) c (f_pos1 f) (computed_neighbours (f_side f) c (f_pos1 f) (f_ids1 f) (nth (nth idx (f_ids0 f) 0%nat) rcut [])))
    (seq 0 (length (f_pos0 f))).
Definition computed_all (rcut : list (list (num A))) (skip : nat) (frames : list (frame A)) : list (num A) :=
  concat (flat_map (fun i => computed_frame rcut (nth i frames (mkFrame [] [] [] [] []))) (origins 0 skip (length frames))).
(** The angle t falls in bin k. *)
Definition in_bin (d : num A) (k : nat) (t : num A) : bool := match nfloor A (ndiv A t d) with Some z => (z =? Z.of_nat k)%Z | None => false end.
End Computed.
