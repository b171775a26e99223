(** Straight-line fits of doubles. *)
From Coq Require Import List ZArith Bool Arith Reals Floats.SpecFloat.
From Verif Require Import PyBase Num Spec_Stats P_Text F64Round F64Ops F64Facts Spec_Doubles.
Import ListNotations.
Local Open Scope R_scope.

(** 2 to 2^26 points with finite coordinates up to 2^60. *)
Definition fit_data (x y : list f64) : Prop :=
  length x = length y /\ (2 <= length x)%nat /\ (Z.of_nat (length x) <= 2 ^ 26)%Z /\
  (forall v, In v x -> ok v /\ Rabs (fval v) <= p2 60) /\ (forall v, In v y -> ok v /\ Rabs (fval v) <= p2 60).

(** n times the sum of the squared deviations from the mean. *)
Definition spread (x : list R) : R := INR (length x) * rsum (map (fun v => (v - rmean x) * (v - rmean x)) x).

(** n sum |x y| + sum |x| sum |y|. *)
Definition scale (x y : list R) : R :=
  INR (length x) * rsum (map (fun p => Rabs (fst p) * Rabs (snd p)) (combine x y)) + rsum (map Rabs x) * rsum (map Rabs y).

(** The abscissas are spread over more than the roundings of their sums. *)
Definition well_spread (x : list R) : Prop :=
  p2 (-60) <= spread x /\ INR (length x + 1) * p2 (-45) * scale x x <= spread x.

(** The products of the coordinates, rounded. *)
Definition products_of (x y : list f64) : list f64 := map (fun p => SFmul fprec femax (fst p) (snd p)) (combine x y).

(** The slope computed from the sums of the data, of their products and of the squares of the abscissas, each in
    some order of summation. *)
Definition slope_by (x y : list f64) (a : f64) : Prop :=
  exists sx sy sxy sxx, sum_of x sx /\ sum_of y sy /\ sum_of (products_of x y) sxy /\ sum_of (products_of x x) sxx /\
    let n := f64_ofZ (Z.of_nat (length y)) in
    a = SFdiv fprec femax (SFsub fprec femax (SFmul fprec femax n sxy) (SFmul fprec femax sx sy))
          (SFsub fprec femax (SFmul fprec femax n sxx) (SFmul fprec femax sx sx)).
