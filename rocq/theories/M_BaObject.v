(** Model of BondAngleDistribution from the trajectory to the result, for cutoffs given
    by the user: groups of particles and species indices (correlation.py:308-491), then
    ba.py:65-117.  The default cutoffs are in M_Analyze. *)
From Coq Require Import Ascii String List ZArith Bool Arith.
From Verif Require Import PyBase Num M_Helpers M_Correlation M_Dynamics M_Realspace M_Groups M_Arrays M_BondAngle.
Import ListNotations.
Local Open Scope nat_scope.

Section BaObject.
Variable A : arith.
Variable acosd : num A -> num A.
Notation vec := (list (num A)).

(** ba.py:85-90: the entries of the matrix of cutoffs for all pairs of species are read *)
Definition check_cutoffs (n : nat) (rcut : list vec) : res unit :=
  _ <- mapM (fun i => row <- get rcut i ;; mapM (fun j => get row j) (seq 0 n)) (seq 0 n) ;; Ok tt.

(** ba.py:92-101: side of the cell, positions and species indices of frame i *)
Definition ba_input (sides : list vec) (a0 a1 : arrays A) : list (frame A) :=
  map (fun i => mkFrame (nth i sides []) (nth i (a_pos a0) []) (nth i (a_ids a0) []) (nth i (a_pos a1) []) (nth i (a_ids a1) []))
    (seq 0 (length sides)).

(** correlation.py:493-523 compute, phasespace = ['pos', 'ids'] (ba.py:56) *)
Definition ba_object (D : decor A) (cbk : list (callback (part A))) (rcut : list vec) (delta : grid_delta A) (skip : nat)
  (frames : list (system A)) (sides : list vec) : res (list (num A) * list (num A)) :=
  '(a0, a1) <- setup_twobody A D (mkPS true false false true) false cbk frames arrays0 arrays0 arrays0 ;;
  s0 <- get frames 0 ;;
  _ <- check_cutoffs (length (distinct_species A s0)) rcut ;;
  ba_compute A acosd rcut delta skip (ba_input sides a0 a1).
End BaObject.
