(** Specification vocabulary for time correlation functions, independent of the
    loops and dictionaries of the code. *)
From Coq Require Import List ZArith Bool Arith Sorting.Sorted.
From Verif Require Import PyBase Num.
Import ListNotations.
Local Open Scope nat_scope.

(** Origins: the frames i0 < limit with i0 = first + (a multiple of skip). *)
Definition origins (first skip limit : nat) : list nat :=
  filter (fun i0 => (first <=? i0) && ((i0 - first) mod skip =? 0)) (seq 0 limit).

(** The pairs (later frame, earlier frame) that a grid of (offset, lag) admits
    in a trajectory of n frames. *)
Definition admitted (grid : list (nat * nat)) (skip n : nat) : list (nat * nat) :=
  flat_map (fun p => map (fun i0 => (i0 + snd p, i0)) (origins (fst p) skip (n - snd p))) grid.

(** Time difference of a pair of frames. *)
Definition pair_dt (t : list Z) (p : nat * nat) : Z :=
  (nth (fst p) t 0 - nth (snd p) t 0)%Z.

(** The pairs at time difference d. *)
Definition pairs_at (t : list Z) (d : Z) (ps : list (nat * nat)) : list (nat * nat) :=
  filter (fun p => (pair_dt t p =? d)%Z) ps.

(** The value a pair contributes. *)
Definition pair_val {A X} (f : X -> X -> num A) (x : list X) (dflt : X) (p : nat * nat) : num A :=
  f (nth (fst p) x dflt) (nth (snd p) x dflt).

(** [dt, v] is the average of [f] over the pairs [ps], grouped by time
    difference: the differences are listed in increasing order, exactly those
    that occur, each with the mean over all its pairs. *)
Definition grouped_mean {A X} (f : X -> X -> num A) (t : list Z) (x : list X) (dflt : X)
  (ps : list (nat * nat)) (dt : list Z) (v : list (num A)) : Prop :=
  StronglySorted Z.lt dt /\
  (forall d, In d dt <-> exists p, In p ps /\ pair_dt t p = d) /\
  v = map (fun d => nmean A (map (pair_val f x dflt) (pairs_at t d ps))) dt.
