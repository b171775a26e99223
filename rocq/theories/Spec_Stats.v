(** Specification vocabulary: sums, means and variances of real numbers. *)
From Coq Require Import Reals List.
Import ListNotations.
Local Open Scope R_scope.

Fixpoint rsum (l : list R) : R := match l with [] => 0 | x :: r => x + rsum r end.

Definition rmean (l : list R) : R := rsum l / INR (length l).

(** Population variance. *)
Definition variance (l : list R) : R :=
  rsum (map (fun v => (v - rmean l) * (v - rmean l)) l) / INR (length l).
