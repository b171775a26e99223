(** Specification vocabulary for relations between different results. *)
From Coq Require Import Ascii String List ZArith Reals Bool.
From Verif Require Import Spec_Stats.
Import ListNotations.
Local Open Scope R_scope.

(** The particles of a frame whose species is [a]; [sp] lists the species of the
    particles. *)
Definition of_species {X} (sp : list string) (a : string) (x : list X) : list X :=
  map snd (filter (fun p => String.eqb (fst p) a) (combine sp x)).

(** The number of particles of species [a]. *)
Definition population (sp : list string) (a : string) : nat := count_occ string_dec sp a.

(** [v] is the average of the functions [vs a] weighted with the concentrations:
    N v(t) = sum_a N_a v_a(t), entry by entry. *)
Definition composition (sp kinds : list string) (v : list R) (vs : string -> list R) : Prop :=
  (forall a, In a kinds -> length (vs a) = length v) /\
  forall k, (k < length v)%nat ->
    INR (length sp) * nth k v 0 = rsum (map (fun a => INR (population sp a) * nth k (vs a) 0) kinds).
