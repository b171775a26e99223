(** Wave-vectors given as lists of doubles (C140). *)
From Coq Require Import List ZArith Reals Floats.SpecFloat.
From Verif Require Import PyBase Num P_Text F64Round F64Ops F64Facts.
Import ListNotations.
Local Open Scope R_scope.

(** The vector v is the lattice vector with integer components n in the cell with smallest wave-vectors k0, up to
    0.49 of the spacing of the lattice in each direction. *)
Definition near_lattice (k0 v : list f64) (n : list Z) : Prop := length v = length k0 /\ length n = length k0 /\
  forall j k x z, nth_error k0 j = Some k -> nth_error v j = Some x -> nth_error n j = Some z ->
    ok x /\ (Z.abs z <= 2 ^ 40)%Z /\ Rabs (fval x - fval k * IZR z) <= 49 / 100 * fval k.

(** The components of v are those of the lattice vector up to rounding. *)
Definition lattice_double (k0 v : list f64) (n : list Z) : Prop := length v = length k0 /\ length n = length k0 /\
  forall j k x z, nth_error k0 j = Some k -> nth_error v j = Some x -> nth_error n j = Some z ->
    ok x /\ Rabs (fval x - fval k * IZR z) <= p2 (-53) * Rabs (fval k * IZR z).
