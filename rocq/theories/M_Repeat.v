(** Model of repeated calls of compute() on one object, for the classes that keep more
    than a time grid: scattering functions, chi4, radial distribution function.  The
    arrays are those of M_Arrays: each call appends to them. *)
From Coq Require Import Ascii String List ZArith Bool Arith Reals.
From Verif Require Import PyBase Num M_Helpers M_Correlation M_Dynamics M_Realspace M_Groups M_Arrays M_KGrid M_Fourier M_Fkt
  M_Chi4Object M_GrObject.
Import ListNotations.
Local Open Scope nat_scope.

(** What [phasespace] is for the scattering functions: 'pos'. *)
Definition only_pos : phasespace := mkPS true false false false.
Definition only_unf : phasespace := mkPS false true false false.

(** correlation.py:493-523 and fkt.py:109-170, 191-246 for a self intermediate scattering
    function.  [self] is fskt_legacy or fskt_fast.  The wave-vectors [K] and the time grid are
    those of the first call (fourierspace.py:189-190 returns if kgrid is set). *)
Definition self_call
  (self : kstate Rops -> list Z -> list (nat * nat) -> nat -> bool -> list (list (list R)) -> res (list Z * list (list R)))
  (D : decor Rops) (K : kstate Rops) (steps : list Z) (dgrid : list (nat * nat)) (skip : nat) (normalize fix_cm : bool)
  (cbk : list (callback (part Rops))) (frames : list (system Rops)) (old : arrays Rops)
  : res (arrays Rops * (list Z * list (list R))) :=
  a <- setup_onebody Rops D only_pos fix_cm cbk frames old ;;
  r <- self K steps dgrid skip normalize (a_pos a) ;;
  Ok (a, r).

(** The arrays of an object with two groups: _pos, ... and _pos_0, _pos_1, ... *)
Definition two_arrays : Type := (arrays Rops * (arrays Rops * arrays Rops))%type.

(** correlation.py:447-523 and fkt.py:278-364 for the intermediate scattering function. *)
Definition pair_call (D : decor Rops) (K : kstate Rops) (steps : list Z) (dgrid : list (nat * nat)) (skip : nat)
  (normalize fix_cm : bool) (cbk : list (callback (part Rops))) (frames : list (system Rops)) (o : two_arrays)
  : res (two_arrays * (list Z * list (list R) * list (list R))) :=
  match cbk with
  | _ :: _ :: _ =>
      a <- setup_twobody Rops D only_pos fix_cm cbk frames (fst o) (fst (snd o)) (snd (snd o)) ;;
      r <- fkt_compute K steps dgrid skip normalize (a_pos (fst a)) (Some (a_pos (snd a))) ;;
      Ok ((fst o, a), r)
  | _ =>
      a <- setup_onebody Rops D only_pos fix_cm cbk frames (fst o) ;;
      r <- fkt_compute K steps dgrid skip normalize (a_pos a) None ;;
      Ok ((a, (a, a)), r)
  end.

(** chi4t.py:53-80 with the lists value, average.value and variance.value, which are
    appended to (lines 74-76); grid starts again (line 58).  Returned: grid and value. *)
Definition chi4_object (A : arith) : Type := (arrays A * (list (num A) * list (num A) * list (num A)))%type.
Definition chi4_call (A : arith) (D : decor A) (tr : traj A) (grid : list (num A)) (n : norigins A) (a : num A) (fix_cm : bool)
  (cbk : list (callback (part A))) (frames : list (system A)) (o : chi4_object A)
  : res (chi4_object A * (list (num A) * list (num A))) :=
  x <- setup_onebody A D only_unf fix_cm cbk frames (fst o) ;;
  rows <- chi4_rows A tr grid n a (a_unf x) ;;
  let '(v, av, m2) := snd o in
  let v' := v ++ map c_value rows in
  Ok ((x, (v', av ++ map c_average rows, m2 ++ map c_second rows)), (map c_time rows, v')).

(** gr.py:91-185, 211-371: what a call changes is self.grid, which a further call takes as
    given (line 105).  The loops are over the frames of the trajectory, so the second copy of
    each frame in the arrays is not read.  Simplified: line 161 takes the mean number of
    particles over the arrays, here over the frames, which is the same for whole copies. *)
Definition gr_call {A} (compute : gparams A -> res (list (num A * num A))) (p : gparams A)
  : res (gparams A * list (num A * num A)) :=
  r <- compute p ;;
  Ok (mkGr (Some (map fst r)) (g_dr p) (g_rmax p), r).

(** The last result of 1 + [more] calls. *)
Fixpoint gr_calls {A} (compute : gparams A -> res (list (num A * num A))) (more : nat) (p : gparams A)
  : res (list (num A * num A)) :=
  x <- gr_call compute p ;;
  match more with
  | O => Ok (snd x)
  | S m => gr_calls compute m (fst x)
  end.
