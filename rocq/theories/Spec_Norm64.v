(** g(r) normalised exactly. *)
From Coq Require Import List ZArith Bool Arith Reals.
From Verif Require Import PyBase Num Spec_Stats P_Text F64Round F64Ops F64Facts P_F64Dot.
Import ListNotations.
Local Open Scope R_scope.

(** The volume of the shell between k dr and (k+1) dr: an annulus, or a spherical shell. *)
Definition exact_shell (d : nat) (dr : R) (k : nat) : R :=
  (if (d =? 2)%nat then PI else 4 * PI / 3) * ((INR (k + 1) * dr) ^ d - (INR k * dr) ^ d).

(** The histograms and numbers of particles of the frames, averaged, over the number expected
    in a uniform system: N0 N1 / V times the volume of the shell, half of it if every pair is
    counted once. *)
Definition exact_gr (d : nat) (distinct : bool) (dr V : R) (acc : list (list nat * (nat * nat))) (k : nat) : R :=
  rmean (map (fun s => INR (nth k (fst s) 0%nat)) acc) /
  (rmean (map (fun s => INR (snd (snd s))) acc) / V * exact_shell d dr k * rmean (map (fun s => INR (fst (snd s))) acc) / (if distinct then 1 else 2)).

(** Powers of numpy: squares and cubes of numbers up to 2^160. *)
Definition fair_power (pow : f64 -> nat -> f64) : Prop :=
  forall x d, (d = 2 \/ d = 3)%nat -> ok x -> Rabs (fval x) <= p2 160 ->
  ok (pow x d) /\ Rabs (fval (pow x d) - fval x ^ d) <= 4 * u * Rabs (fval x) ^ d + p2 (-800).
