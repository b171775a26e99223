(** Specification vocabulary for dynamic correlation functions over the reals. *)
From Coq Require Import List ZArith Reals Bool Arith.
From Verif Require Import PyBase Num Spec_Stats Spec_Correlation M_Helpers M_Correlation M_Dynamics.
Import ListNotations.
Local Open Scope R_scope.

(** Squared Euclidean distance, componentwise sum and multiples of vectors. *)
Fixpoint dist2 (r s : list R) : R :=
  match r, s with
  | a :: r', b :: s' => (a - b) * (a - b) + dist2 r' s'
  | _, _ => 0
  end.
Fixpoint plusv (r s : list R) : list R :=
  match r, s with
  | a :: r', b :: s' => (a + b) :: plusv r' s'
  | _, _ => []
  end.
Definition timesv (c : R) (r : list R) : list R := map (Rmult c) r.
Definition norm2 (r : list R) : R := dist2 r (repeat 0 (length r)).

(** Mean over the particles of a function of the squared displacement between
    two frames. *)
Definition mean_over (f : R -> R) (x y : list (list R)) : R :=
  rmean (map (fun p => f (dist2 (fst p) (snd p))) (combine x y)).

(** n particles in d dimensions. *)
Definition shaped (n d : nat) (x : list (list R)) : Prop :=
  length x = n /\ forall r, In r x -> length r = d.

(** Number of particles that moved by less than the square root of a2. *)
Definition slow (a2 : R) (x y : list (list R)) : nat :=
  length (filter (fun p => if Rlt_dec (dist2 (fst p) (snd p)) a2 then true else false) (combine x y)).

(** Number of pairs (new position, old position) closer than the square root of a2. *)
Definition overlapping (a2 : R) (x y : list (list R)) : nat :=
  length (filter (fun p => if Rlt_dec (dist2 (fst p) (snd p)) a2 then true else false) (list_prod x y)).

(** Particles as (mass, position): total mass, k-th component of the first mass
    moment, all positions of dimension d, and the system displaced by c. *)
Definition total_mass (ps : list (R * list R)) : R := rsum (map fst ps).
Definition moment (ps : list (R * list R)) (k : nat) : R :=
  rsum (map (fun p => fst p * nth k (snd p) 0) ps).
Definition of_dim (d : nat) (ps : list (R * list R)) : Prop := forall p, In p ps -> length (snd p) = d.
Definition displaced (c : list R) (ps : list (R * list R)) : list (R * list R) :=
  map (fun p => (fst p, plusv (snd p) c)) ps.

(** Pairs (later frame, earlier frame) of a trajectory of n frames. *)
Definition in_range (n : nat) (ps : list (nat * nat)) : Prop :=
  forall p, In p ps -> (snd p <= fst p < n)%nat.

(** Positions after a time s of free flight. *)
Definition moved (r0 vel : list (list R)) (s : R) : list (list R) :=
  map (fun p => plusv (fst p) (timesv s (snd p))) (combine r0 vel).

(** The pairs of frames selected for a request: the time grid of C04 on the
    requested times, origins separated by the interval of C06. *)
Definition planned (tr : traj Rops) (grid : list R) (n : norigins Rops) (offset : bool)
  (nframes : nat) (ps : list (nat * nat)) : Prop :=
  exists skip dg,
    adjust_skip Rops (length (t_steps tr)) (t_npart tr) (t_bs tr) n = Ok skip /\
    setup_t_grid Rops (t_steps tr) (t_bs tr) (t_dt tr) grid offset = Ok dg /\
    ps = admitted dg skip nframes.

(** Times of the output in units of the time step. *)
Definition times_of (tr : traj Rops) (dts : list Z) : list R := map (fun ti => IZR ti * t_dt tr) dts.

(** Non-Gaussian parameter of the displacements between two frames. *)
Definition non_gaussian (x y : list (list R)) : R :=
  3 * mean_over (fun d => d * d) x y / (5 * (mean_over (fun d => d) x y * mean_over (fun d => d) x y)) - 1.

(** Numbers of slow particles over the lag [snd p], one per origin. *)
Definition counts (a2 : R) (unf : list (list (list R))) (p : nat * nat) (os : list nat) : list R :=
  map (fun i0 => INR (slow a2 (nth i0 unf []) (nth (i0 + snd p) unf []))) os.

Fixpoint dotv (r s : list R) : R :=
  match r, s with
  | a :: r', b :: s' => a * b + dotv r' s'
  | _, _ => 0
  end.
