(** Specification of grids in logarithmic scale in double precision (C134). *)
From Coq Require Import List ZArith Reals Floats.SpecFloat.
From Verif Require Import PyBase Num P_Text F64Round F64Ops F64Facts.
Local Open Scope R_scope.

(** A power of floats that is accurate within two units in the last place, far from overflow and underflow. *)
Definition accurate_power (pow : f64 -> f64 -> f64) : Prop :=
  forall x y, ok x -> ok y -> 0 < fval x -> p2 (-1000) <= Rpower (fval x) (fval y) <= p2 1000 ->
  ok (pow x y) /\ Rabs (fval (pow x y) - Rpower (fval x) (fval y)) <= 4 * u * Rpower (fval x) (fval y).

(** Positive numbers far from the largest and the smallest ones. *)
Definition log_end (x : f64) : Prop := ok x /\ p2 (-400) <= fval x <= p2 400.

(** Entry i of the exact grid from a > 0 to b: a, then a q^(i+1) with q^n = b/a. *)
Definition log_point (a b : R) (n i : nat) : R :=
  match i with 0%nat => a | _ => a * Rpower (b / a) (INR (i + 1) / INR n) end.
(** ... and from 0: 0, then q^(i+1) - 1 with q^n = b. *)
Definition log_point0 (b : R) (n i : nat) : R :=
  match i with 0%nat => 0 | _ => Rpower b (INR (i + 1) / INR n) - 1 end.
