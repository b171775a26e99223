(** Tables of doubles in which a root is searched. *)
From Coq Require Import List ZArith Bool Arith Reals Floats.SpecFloat.
From Verif Require Import PyBase Num P_Text F64Round F64Ops F64Facts.
Import ListNotations.
Local Open Scope R_scope.

Definition zero64' : f64 := S754_zero false.

(** Abscissas that start at zero or above and increase by steps of at least 2^-300, up to 2^300; values up to
    2^300 that differ from the target by at least 2^-300 or not at all. *)
Definition table (x f : list f64) (fstar : f64) : Prop :=
  (forall i, (i < length x)%nat -> ok (nth i x zero64') /\ 0 <= fval (nth i x zero64') <= p2 300) /\
  (forall i, (i < length f)%nat -> ok (nth i f zero64') /\ Rabs (fval (nth i f zero64')) <= p2 300 /\
     (fval (nth i f zero64') = fval fstar \/ p2 (-300) <= Rabs (fval (nth i f zero64') - fval fstar))) /\
  ok fstar /\ Rabs (fval fstar) <= p2 300 /\
  (forall i, (S i < length x)%nat -> p2 (-300) <= fval (nth (S i) x zero64') - fval (nth i x zero64')).
