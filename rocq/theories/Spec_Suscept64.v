(** Specification of susceptibilities in double precision (C135). *)
From Coq Require Import List ZArith Bool Arith Reals Floats.SpecFloat.
From Verif Require Import PyBase Num P_Text F64Round F64Ops F64Facts Spec_Doubles.
Import ListNotations.
Local Open Scope R_scope.

(** v is the variance of l, computed in double precision with some order of each of the two sums *)
Definition variance_by (l : list f64) (v : f64) : Prop :=
  exists s q, sum_of l s /\
    let n := f64_ofZ (Z.of_nat (length l)) in
    let m := SFdiv fprec femax s n in
    sum_of (map (fun y => let d := SFsub fprec femax y m in SFmul fprec femax d d) l) q /\ v = SFdiv fprec femax q n.

(** Finite times; that of an origin with itself is +0. *)
Definition time_like (x : f64) : Prop := ok x /\ x <> S754_zero true.

(** The values found at time x. *)
Definition at_time (x : f64) (ps : list (f64 * f64)) : list f64 := map snd (filter (fun p => SFeqb (fst p) x) ps).
