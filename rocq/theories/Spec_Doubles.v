(** Specification vocabulary for results computed in double precision.  The exact
    value of a double is [P_Text.fval]; [F64Facts.ok] says that it is finite (and
    representable); [F64Round.p2 k] is 2^k. *)
From Coq Require Import List ZArith Bool Arith Reals Floats.SpecFloat Sorting.Permutation.
From Verif Require Import PyBase Num P_Text F64Round F64Facts Spec_Correlation Spec_Time M_Dynamics.
Import ListNotations.
Local Open Scope R_scope.

(** A nonzero time step, and steps close enough for time differences to be below
    2^51 steps and to be finite numbers. *)
Definition moderate_steps (steps : list Z) (dt : f64) : Prop :=
  ok dt /\ fval dt <> 0 /\
  forall i j, (i < length steps)%nat -> (j < length steps)%nat ->
    let k := (nth i steps 0 - nth j steps 0)%Z in (Z.abs k < 2 ^ 51)%Z /\ Rabs (IZR k * fval dt) <= p2 1023.

(** Numbers that went through a text with six significant digits. *)
Definition six_digits_close (t' t : f64) : Prop := ok t' /\ Rabs (fval t' - fval t) <= 6 / 1000000 * Rabs (fval t).

(** Values in strictly increasing order. *)
Definition increasing (l : list f64) : Prop := forall i j, (i < j < length l)%nat -> fval (nth i l (S754_zero false)) < fval (nth j l (S754_zero false)).

(** The calculation visits at most 2^53 pairs of frames. *)
Definition few_pairs (tr : traj F64ops) : Prop :=
  (Z.of_nat (Nat.max 1 (t_bs tr) * length (t_steps tr) * length (t_steps tr)) <= 2 ^ 53)%Z.

(** All the coordinates are finite. *)
Definition finite_frames (frames : list (frame F64ops)) : Prop := forall x r c, In x frames -> In r x -> In c r -> ok c.

(** The exact numbers held by a frame. *)
Definition values (x : frame F64ops) : list (list R) := map (map fval) x.

(** Finite coordinates of moderate size: squares and sums cannot overflow. *)
Definition moderate_frames (frames : list (frame F64ops)) : Prop :=
  forall x r c, In x frames -> In r x -> In c r -> ok c /\ Rabs (fval c) <= p2 400.

(** No coordinate changes by a nonzero amount so small that its square underflows. *)
Definition resolved (frames : list (frame F64ops)) : Prop :=
  forall x y r s a b, In x frames -> In y frames -> In (r, s) (combine x y) -> In (a, b) (combine r s) ->
    fval a = fval b \/ p2 (-400) <= Rabs (fval a - fval b).

(** Squared displacement in doubles, coordinate by coordinate, and the numbers of
    particles that moved by less than a threshold over a lag, one per origin. *)
Definition displacement2 (r s : list f64) : f64 :=
  fold_left (SFadd fprec femax) (map (fun p => let d := SFsub fprec femax (fst p) (snd p) in SFmul fprec femax d d) (combine r s)) (S754_zero false).
Definition close_counts (a2 : f64) (frames : list (frame F64ops)) (lag : nat) (os : list nat) : list Z :=
  map (fun i => Z.of_nat (length (filter (fun p => SFltb (displacement2 (fst p) (snd p)) a2) (combine (nth i frames []) (nth (i + lag) frames []))))) os.

(** [s] is the result of adding up the numbers [l] in some order: from left to right,
    in pairs, in blocks, ... *)
Inductive sum_of : list f64 -> f64 -> Prop :=
| sum_none : sum_of [] (S754_zero false)
| sum_one : forall x, sum_of [x] x
| sum_add : forall l1 l2 s1 s2, sum_of l1 s1 -> sum_of l2 s2 -> sum_of (l1 ++ l2) (SFadd fprec femax s1 s2)
| sum_perm : forall l l' s, Permutation l l' -> sum_of l s -> sum_of l' s.

(** All the squared differences of coordinates of two frames. *)
Definition squares (x y : frame F64ops) : list f64 :=
  flat_map (fun p => map (fun q => let d := SFsub fprec femax (fst q) (snd q) in SFmul fprec femax d d) (combine (fst p) (snd p))) (combine x y).
