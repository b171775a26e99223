(** Specification vocabulary: transformations of a trajectory that should not matter. *)
From Coq Require Import List ZArith Reals.
Import ListNotations.

(** The particles of a frame listed in the order [sigma]. *)
Definition relabel {X} (sigma : list nat) (x : list (list X)) : list (list X) :=
  map (fun i => nth i x []) sigma.

(** y is a periodic image of x carried by d. *)
Definition carried (side : list R) (d : nat -> R) (x y : list R) : Prop :=
  length x = length side /\ length y = length side /\
  forall j, (j < length side)%nat -> exists n : Z, nth j y 0%R = (nth j x 0 + d j + IZR n * nth j side 0)%R.
