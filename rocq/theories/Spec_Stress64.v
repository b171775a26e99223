(** The stress autocorrelation in double precision: order of the sums, sizes. *)
From Coq Require Import List ZArith Bool Arith Reals Floats.SpecFloat.
From Verif Require Import PyBase Num P_Text F64Round F64Ops F64Facts M_Dynamics Spec_Stats Spec_Dynamics Spec_Velocity Spec_Doubles.
Import ListNotations.
Local Open Scope R_scope.

(** The terms m v_j v_k of one component, and the components computed from them: the virial plus a
    sum of the terms in any order. *)
Definition kinetic_terms (mass : list f64) (vel : frame F64ops) (j k : nat) : list f64 :=
  map (fun mv => SFmul fprec femax (SFmul fprec femax (fst mv) (nth j (snd mv) (S754_zero false))) (nth k (snd mv) (S754_zero false))) (combine mass vel).
Definition component_by (mass : list f64) (s vel : frame F64ops) (jk : nat * nat) (c : f64) : Prop :=
  exists t, sum_of (kinetic_terms mass vel (fst jk) (snd jk)) t /\ c = SFadd fprec femax (nth (snd jk) (nth (fst jk) s []) (S754_zero false)) t.
Definition stress_by (mass : list f64) (s vel : frame F64ops) (st : list f64) : Prop :=
  Forall2 (component_by mass s vel) [(0, 1); (0, 2); (1, 2)]%nat st.

(** The same components in exact arithmetic, and their sizes: virials, masses and velocities all
    taken positive. *)
Definition true_stress (mass : list f64) (s vel : frame F64ops) : list R := off_diagonal (map fval mass) (values s) (values vel).
Definition stress_size (mass : list f64) (s vel : frame F64ops) : list R :=
  off_diagonal (map Rabs (map fval mass)) (map (map Rabs) (values s)) (map (map Rabs) (values vel)).

(** Virials up to 2^300, masses and velocities up to 2^100, three dimensions, N particles. *)
Definition stress_data (N : nat) (mass : list f64) (s vel : frame F64ops) : Prop :=
  length mass = N /\ length vel = N /\ length s = 3%nat /\ (forall r, In r s -> length r = 3%nat) /\ (forall r, In r vel -> length r = 3%nat) /\
  (forall m, In m mass -> ok m /\ Rabs (fval m) <= p2 100) /\ (forall r c, In r vel -> In c r -> ok c /\ Rabs (fval c) <= p2 100) /\
  (forall r c, In r s -> In c r -> ok c /\ Rabs (fval c) <= p2 300).
