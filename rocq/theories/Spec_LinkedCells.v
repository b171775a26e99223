(** Specification vocabulary for neighbour lists. *)
From Coq Require Import List ZArith Reals Bool Arith.
From Verif Require Import Spec_Pairs.
Import ListNotations.
Local Open Scope R_scope.

(** Inside the half-open cell centered at the origin. *)
Fixpoint folded (x side : list R) : Prop :=
  match x, side with
  | a :: x', L :: side' => - (L / 2) <= a < L / 2 /\ folded x' side'
  | [], [] => True
  | _, _ => False
  end.

(** Some image of y, displaced along periodic directions only, is closer to x than r. *)
Definition image_within (periodic : list bool) (side x y : list R) (r : R) : Prop :=
  exists ks, length ks = length side /\
    (forall i, nth i periodic true = false -> nth i ks 0%Z = 0%Z) /\
    euclid x (shifted y ks side) < r.

(** How many times j is listed as neighbour of i. *)
Definition listed (ns : list (list nat)) (i j : nat) : nat := count_occ Nat.eq_dec (nth i ns []) j.

(** A cell side of length L divided into the largest number n of equal parts not
    shorter than r; two points lie in the same part along every side. *)
Fixpoint same_subcell (r : R) (x y side : list R) : Prop :=
  match x, y, side with
  | a :: x', b :: y', L :: side' =>
    (exists n c : Z, IZR n * r <= L < IZR (n + 1) * r /\
       IZR c * (L / IZR n) <= a + L / 2 < IZR (c + 1) * (L / IZR n) /\
       IZR c * (L / IZR n) <= b + L / 2 < IZR (c + 1) * (L / IZR n)) /\
    same_subcell r x' y' side'
  | [], [], [] => True
  | _, _, _ => False
  end.

(** Directions along which the cell is periodic; by default all of them. *)
Definition periodic_directions (side : list R) (periodic : option (list bool)) : list bool :=
  match periodic with Some p => p | None => repeat true (length side) end.
