(** Specification of grids of evenly spaced points in double precision (C132). *)
From Coq Require Import List ZArith Reals Floats.SpecFloat.
From Verif Require Import PyBase Num P_Text F64Round F64Ops F64Facts.
Local Open Scope R_scope.

(** Ends of a grid: finite doubles, far from the largest ones. *)
Definition grid_end (x : f64) : Prop := ok x /\ Rabs (fval x) <= p2 1000.

(** Largest of the two ends, up to a factor of two: the scale of the rounding errors. *)
Definition ends (a b : f64) : R := Rabs (fval a) + Rabs (fval b).

(** The exact grid of n points from a to b. *)
Definition even_point (a b : R) (n : Z) (i : nat) : R := a + INR i * ((b - a) / IZR (n - 1)).

(** The values do not decrease along the list. *)
Definition nondecreasing (g : list f64) : Prop := forall i j x y, (i <= j)%nat -> nth_error g i = Some x -> nth_error g j = Some y -> fval x <= fval y.
Definition all_finite (g : list f64) : Prop := forall x, In x g -> ok x.
