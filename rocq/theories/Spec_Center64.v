(** Specification of the removal of the center of mass in double precision (C133).
    A particle is a mass and a position. *)
From Coq Require Import List ZArith Reals Floats.SpecFloat.
From Verif Require Import PyBase Num Spec_Stats P_Text F64Round F64Ops F64Facts.
Local Open Scope R_scope.

(** Systems of N particles in d dimensions with masses of 2^-60 to 2^60 and coordinates up to 2^60. *)
Definition massive (d : nat) (ps : list (f64 * list f64)) : Prop :=
  (1 <= length ps)%nat /\ (Z.of_nat (length ps) <= 2 ^ 30)%Z /\
  forall p, In p ps -> length (snd p) = d /\ ok (fst p) /\ p2 (-60) <= fval (fst p) <= p2 60 /\ forall x, In x (snd p) -> ok x /\ Rabs (fval x) <= p2 60.

(** Coordinate k of a particle. *)
Definition coord (k : nat) (p : f64 * list f64) : R := fval (nth k (snd p) (S754_zero false)).

(** Average of f over the particles, weighted by the masses. *)
Definition mass_average (f : f64 * list f64 -> R) (ps : list (f64 * list f64)) : R :=
  rsum (map (fun p => fval (fst p) * f p) ps) / rsum (map (fun p => fval (fst p)) ps).

(** Center of mass, and mean distance from the origin, along direction k. *)
Definition center (k : nat) (ps : list (f64 * list f64)) : R := mass_average (coord k) ps.
Definition extent (k : nat) (ps : list (f64 * list f64)) : R := mass_average (fun p => Rabs (coord k p)) ps.
