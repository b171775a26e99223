(** Specification vocabulary for time grids. *)
From Coq Require Import List ZArith Bool Arith Sorting.Sorted.
From Verif Require Import Spec_Correlation.
Import ListNotations.
Local Open Scope nat_scope.

(** The frames compared by an (offset, lag) pair. *)
Definition lag_pair (p : nat * nat) : nat * nat := (fst p + snd p, fst p).

(** Time difference measured by an (offset, lag) pair. *)
Definition lag_dt (steps : list Z) (p : nat * nat) : Z := pair_dt steps (lag_pair p).

(** (offset, lag) pairs the code may use: both frames exist, and the later frame
    is not among the last [offset] ones. *)
Definition usable (steps : list Z) (offsets : list nat) (p : nat * nat) : Prop :=
  In (fst p) offsets /\ fst p + snd p + fst p < length steps.

Definition available (steps : list Z) (offsets : list nat) (d : Z) : Prop :=
  exists p, usable steps offsets p /\ lag_dt steps p = d.

(** d is the available time difference closest to r, the smaller one on ties. *)
Definition nearest (steps : list Z) (offsets : list nat) (r d : Z) : Prop :=
  available steps offsets d /\
  forall d', available steps offsets d' ->
    (Z.abs (d - r) < Z.abs (d' - r) \/ (Z.abs (d - r) = Z.abs (d' - r) /\ d <= d'))%Z.

(** p comes first, by offset then by lag, among the usable pairs with its time
    difference. *)
Definition earliest (steps : list Z) (offsets : list nat) (p : nat * nat) : Prop :=
  forall q, usable steps offsets q -> lag_dt steps q = lag_dt steps p ->
    fst p < fst q \/ (fst p = fst q /\ snd p <= snd q).

(** Steps repeating over blocks of [bs] frames of duration [period]. *)
Definition block_periodic (steps : list Z) (bs : nat) (period : Z) : Prop :=
  forall i, i + bs < length steps ->
    (nth (i + bs) steps 0 = nth i steps 0 + period)%Z.
