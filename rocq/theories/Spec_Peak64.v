(** Tables of doubles in which an extremum is searched (C137). *)
From Coq Require Import List ZArith Bool Arith Reals Floats.SpecFloat.
From Verif Require Import PyBase Num P_Text F64Round F64Ops F64Facts Spec_Feqc64.
Import ListNotations.
Local Open Scope R_scope.

(** Abscissas up to X in magnitude that increase by steps of at least h, at most 2^42 times smaller than X;
    values up to Y that differ by at least 2^-120 or not at all. *)
Definition peak_table (x f : list f64) (X Y h : R) : Prop :=
  length x = length f /\ f <> [] /\
  (forall i, (i < length x)%nat -> ok (nth i x zero64') /\ Rabs (fval (nth i x zero64')) <= X) /\
  (forall i, (i < length f)%nat -> ok (nth i f zero64') /\ Rabs (fval (nth i f zero64')) <= Y) /\
  (forall i, (S i < length x)%nat -> h <= fval (nth (S i) x zero64') - fval (nth i x zero64')) /\
  (forall i j, (i < length f)%nat -> (j < length f)%nat -> fval (nth i f zero64') = fval (nth j f zero64') \/ p2 (-120) <= Rabs (fval (nth i f zero64') - fval (nth j f zero64'))) /\
  p2 (-60) <= h /\ X <= p2 60 /\ Y <= p2 60 /\ X <= p2 42 * h.

(** q is reported instead of p. *)
Definition reported_for (X Y h : R) (q : f64 * f64) (p : R * R) : Prop :=
  ok (fst q) /\ ok (snd q) /\ Rabs (fval (fst q) - fst p) <= 34 * (p2 (-53) * (X * X / h)) /\ Rabs (fval (snd q) - snd p) <= 300 * (p2 (-53) * (X * X * X / (h * h * h) * Y)).
