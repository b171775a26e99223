(** Linked cells in double precision: what is asked of cells and positions. *)
From Coq Require Import List ZArith Bool Arith Reals.
From Verif Require Import PyBase Num P_Text F64Round F64Ops F64Facts.
Import ListNotations.
Local Open Scope R_scope.

(** Sides of at least three cutoffs and at most 2^30, neither of them huge or minute. *)
Definition cell_fits (rc : f64) (side : list f64) : Prop :=
  ok rc /\ p2 (-60) <= fval rc /\ Forall (fun L => ok L /\ 3 * fval rc <= fval L <= p2 30 * fval rc /\ fval L <= p2 60) side.

(** In the cell, and not within 2^-50 of a side from its upper end. *)
Definition well_inside (x side : list f64) : Prop :=
  Forall2 (fun a L => ok a /\ - (fval L / 2) <= fval a <= fval L / 2 - p2 (-50) * fval L) x side.
