(** Wave-vectors of a periodic cell, said without the code's tables. *)
From Coq Require Import List ZArith Reals.
From Verif Require Import Spec_BondAngle.
Import ListNotations.
Local Open Scope R_scope.

(** The wave-vector with integer components [n] in the cell whose smallest
    wave-vectors along each direction are [k0]. *)
Definition wave (k0 : list R) (n : list Z) : list R :=
  map (fun p => fst p * IZR (snd p)) (combine k0 n).

(** The vector with table entry [t] when the origin of the table is at [off]. *)
Definition unshift (off : Z) (t : list Z) : list Z := map (fun i => (i - off)%Z) t.

(** [v] lies within [d] of the value [k]. *)
Definition within (v : list R) (k d : R) : Prop := Rabs (norm v - k) < d.

(** [v] belongs to shell [i]: it is within [dk_i] of [k_i], and within no
    earlier shell. *)
Definition in_shell (kgrid dk : list R) (v : list R) (i : nat) : Prop :=
  (exists k d, nth_error kgrid i = Some k /\ nth_error dk i = Some d /\ within v k d) /\
  forall j k d, (j < i)%nat -> nth_error kgrid j = Some k -> nth_error dk j = Some d ->
    ~ within v k d.

(** A non-decreasing list. *)
Definition ascending (l : list R) : Prop :=
  forall i j x y, (i < j)%nat -> nth_error l i = Some x -> nth_error l j = Some y -> x <= y.
