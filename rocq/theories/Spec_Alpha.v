(** The non-Gaussian parameter in double precision: C117. *)
From Coq Require Import List ZArith Reals Floats.SpecFloat.
From Verif Require Import PyBase Num P_Text F64Round F64Facts Spec_Stats M_Helpers M_Correlation M_Dynamics Spec_Dynamics Spec_Doubles.
Import ListNotations.
Local Open Scope R_scope.

(** Squared differences of the coordinates of one particle. *)
Definition row_squares (r s : list f64) : list f64 :=
  map (fun q => let d := SFsub fprec femax (fst q) (snd q) in SFmul fprec femax d d) (combine r s).

(** v is 3 <dr^4> / (5 <dr^2>^2) - 1 evaluated in double precision, the sums over
    coordinates and particles being done in some order. *)
Definition alpha_by (x y : list (list f64)) (v : f64) : Prop :=
  exists s2 rs s4, sum_of (squares x y) s2 /\ Forall2 (fun p r => sum_of (row_squares (fst p) (snd p)) r) (combine x y) rs /\
  sum_of (map (fun r => SFmul fprec femax r r) rs) s4 /\
  let n := f64_ofZ (Z.of_nat (length x)) in
  let dr2 := SFdiv fprec femax s2 n in
  let dr4 := SFdiv fprec femax s4 n in
  v = SFsub fprec femax (SFdiv fprec femax (SFmul fprec femax (f64_ofZ 3) dr4) (SFmul fprec femax (f64_ofZ 5) (SFmul fprec femax dr2 dr2))) (f64_ofZ 1).

(** Coordinates up to 2^200, changing by zero or at least 2^-200. *)
Definition medium_pair (x y : list (list f64)) : Prop :=
  forall r s a b, In (r, s) (combine x y) -> In (a, b) (combine r s) ->
    ok a /\ ok b /\ Rabs (fval a) <= p2 200 /\ Rabs (fval b) <= p2 200 /\ (fval a = fval b \/ p2 (-200) <= Rabs (fval a - fval b)).

(** The kurtosis of the displacements over three: the non-Gaussian parameter plus one. *)
Definition kurtosis (x y : list (list R)) : R :=
  3 * mean_over (fun d => d * d) x y / (5 * (mean_over (fun d => d) x y * mean_over (fun d => d) x y)).
