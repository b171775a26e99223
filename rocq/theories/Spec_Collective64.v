(** Densities, structure factors and collective scattering functions in double precision: C122, C123. *)
From Coq Require Import List ZArith Reals Floats.SpecFloat.
From Verif Require Import PyBase Num P_Text F64Round F64Facts Spec_Doubles Spec_Expo64.
Import ListNotations.
Local Open Scope R_scope.

(** A way of multiplying together the factors of a plane wave: in an order that is not
    specified, possibly with an additional factor 1. *)
Definition wave_product (mul : f64 * f64 -> f64 * f64 -> f64 * f64) (prod : list (f64 * f64) -> f64 * f64) : Prop :=
  forall l, l <> [] -> product_of mul l (prod l) \/ product_of mul ((f64_ofZ 1, S754_zero false) :: l) (prod l).

(** A quotient by a positive integer that is right to a few roundings. *)
Definition fair_quotient (quot : f64 -> nat -> f64) : Prop :=
  forall a n, ok a -> Rabs (fval a) <= p2 500 -> (1 <= n)%nat -> (Z.of_nat n <= 2 ^ 53)%Z ->
    ok (quot a n) /\ Rabs (fval (quot a n) - fval a / INR n) <= 3 * p2 (-53) * Rabs (fval a / INR n) + p2 (-1070).

(** A square root that is right to a few roundings for numbers of ordinary size. *)
Definition fair_root (root : f64 -> f64) : Prop :=
  forall x, ok x -> p2 (-500) <= fval x <= p2 500 ->
    ok (root x) /\ Rabs (fval (root x) - sqrt (fval x)) <= 3 * p2 (-53) * sqrt (fval x).
