(** Scattering functions, said without loops or tables. *)
From Coq Require Import List ZArith Reals Sorting.Sorted.
From Verif Require Import Spec_Stats Spec_BondAngle Spec_Correlation.
Import ListNotations.
Local Open Scope R_scope.

(** The time differences that occur among the pairs, in increasing order. *)
Definition reported (steps : list Z) (ps : list (nat * nat)) (dts : list Z) : Prop :=
  StronglySorted Z.lt dts /\ (forall d, In d dts <-> exists p, In p ps /\ pair_dt steps p = d).

(** Mean over the particles of cos(k . (r_later - r_earlier)). *)
Definition fs_pair (k : list R) (later earlier : list (list R)) : R :=
  rmean (map (fun p => cos (dot k (fst p) - dot k (snd p))) (combine later earlier)).

(** Mean of [s k later earlier] over the vectors and over the pairs of frames at
    time difference d. *)
Definition pair_mean (s : list R -> nat -> nat -> R) (steps : list Z) (ps : list (nat * nat))
  (vs : list (list R)) (d : Z) : R :=
  rmean (flat_map (fun v => map (fun p => s v (fst p) (snd p)) (pairs_at steps d ps)) vs).

(** [y] is a periodic image of [x]: every coordinate is displaced by a whole number
    of sides of the cell. *)
Definition image (side x y : list R) : Prop :=
  length x = length side /\ length y = length side /\
  forall j, (j < length side)%nat -> exists n : Z, nth j y 0 = nth j x 0 + IZR n * nth j side 0.
(** Frame by frame and particle by particle. *)
Definition images (side : list R) (pos pos' : list (list (list R))) : Prop :=
  Forall2 (Forall2 (image side)) pos pos'.
