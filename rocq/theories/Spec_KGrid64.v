(** Shells of wave-vectors whose edges are known up to rounding (C138). *)
From Coq Require Import List ZArith Reals Floats.SpecFloat.
From Verif Require Import PyBase Num P_Text F64Round F64Ops F64Facts Spec_BondAngle Spec_KGrid.
Import ListNotations.
Local Open Scope R_scope.

(** The norm of v is within d of k, surely or possibly, if it is only known up to rounding. *)
Definition edge (v : list R) (k : R) : R := 16 * (p2 (-53) * (norm v + k)).
Definition surely_within (v : list R) (k d : R) : Prop := Rabs (norm v - k) < d - edge v k.
Definition possibly_within (v : list R) (k d : R) : Prop := Rabs (norm v - k) < d + edge v k.

(** Cells of two or three dimensions with sides of reasonable size. *)
Definition cell_waves (k0 : list f64) : Prop := (length k0 = 2 \/ length k0 = 3)%nat /\ forall k, In k k0 -> ok k /\ p2 (-60) <= fval k <= p2 60.

(** d is dk widened w times by 1.2. *)
Definition width_of (dk d : R) (w : nat) : Prop := Rabs (d - dk * (12 / 10) ^ w) <= 3 * INR w * p2 (-53) * (dk * (12 / 10) ^ w).
