(** Positions close to the faces of the cell. *)
From Coq Require Import List ZArith Reals Bool Arith.
Import ListNotations.
Local Open Scope R_scope.

(** Every side is divided into the largest number n of equal parts not shorter than r; the position
    is in the first or in the last part of some side. *)
Fixpoint at_face (r : R) (x side : list R) : Prop :=
  match x, side with
  | a :: x', L :: side' =>
    (exists n : Z, IZR n * r <= L < IZR (n + 1) * r /\ (a + L / 2 < L / IZR n \/ L / 2 - a <= L / IZR n)) \/ at_face r x' side'
  | _, _ => False
  end.
