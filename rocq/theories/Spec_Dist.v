(** Pairs of positions in double precision: C115, C116. *)
From Coq Require Import List ZArith Reals Floats.SpecFloat.
From Verif Require Import PyBase Num P_Text F64Round F64Facts Spec_Stats.
Import ListNotations.
Local Open Scope R_scope.

(** A coordinate of two particles and the side of the cell: finite numbers of moderate size. *)
Definition coordinate (x y L : f64) : Prop := ok x /\ ok y /\ ok L /\ Rabs (fval x) <= p2 400 /\ Rabs (fval y) <= p2 400 /\ p2 (-400) <= fval L <= p2 400.

(** A condition on every direction of two particles and of the cell. *)
Fixpoint pair_coords (P : f64 -> f64 -> f64 -> Prop) (x y side : list f64) : Prop :=
  match x, y, side with
  | a :: x', b :: y', L :: side' => P a b L /\ pair_coords P x' y' side'
  | [], [], [] => True
  | _, _, _ => False
  end.

(** Sum over the directions of the distance of the coordinates and of the side. *)
Fixpoint spread (x y side : list R) : R :=
  match x, y, side with
  | a :: x', b :: y', L :: side' => Rabs (a - b) + L + spread x' y' side'
  | _, _, _ => 0
  end.

(** Coordinates as above in at most 2^40 directions, at most m sides apart. *)
Definition regular (m : R) (x y side : list f64) : Prop :=
  side <> [] /\ (Z.of_nat (length side) <= 2 ^ 40)%Z /\
  pair_coords (fun a b L => coordinate a b L /\ Rabs (fval a - fval b) <= m * fval L) x y side.

(** The error allowed for a distance. *)
Definition slack (x y side : list R) : R := (2 * INR (length side) + 15) * p2 (-53) * spread x y side.

(** Number of entries in the first K bins. *)
Definition first_bins (K : nat) (h : list nat) : nat := list_sum (firstn K h).
