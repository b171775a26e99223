(** Vocabulary for the neighbour lists of C113. *)
From Coq Require Import List ZArith Bool Arith Reals.
From Verif Require Import Spec_Pairs Spec_LinkedCells.
Import ListNotations.

(** Cutoff of the species of particle i with the species of particle j. *)
Definition cutoff {X} (d : X) (rcut : list (list X)) (ids : list nat) (i j : nat) : X := nth (nth j ids 0) (nth (nth i ids 0) rcut []) d.

(** Every particle has a species, every two species have a cutoff. *)
Definition species_ok {X} (n : nat) (ids : list nat) (rcut : list (list X)) : Prop :=
  length ids = n /\ forall s s', In s ids -> In s' ids -> s < length rcut /\ s' < length (nth s rcut []).

(** Some periodic image of particle j is closer than rc to particle i. *)
Definition neighbours (side : list R) (pos : list (list R)) (rc : R) (i j : nat) : Prop :=
  image_within (repeat true (length side)) side (nth i pos []) (nth j pos []) rc.

(** Lists of particles other than the one they belong to. *)
Definition proper (n : nat) (ns : list (list nat)) : Prop :=
  length ns = n /\ forall i j, i < n -> In j (nth i ns []) -> j < n /\ j <> i.

(** Each pair is listed once at most. *)
Definition half (n : nat) (ns : list (list nat)) : Prop :=
  proper n ns /\ forall i j, i < n -> j < n -> listed ns i j + listed ns j i <= 1.
