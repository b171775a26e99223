(** Model of the time grids chosen by default (msd.py, alpha2.py, qt.py, chi4t.py), of
    the analyze methods (msd.py:81-98, alpha2.py:43-47, chi4t.py:86-90, qt.py:87-92) and
    of the default cutoffs of the bond-angle distribution (ba.py:19-47). *)
From Coq Require Import String List ZArith Bool Arith Reals.
From Verif Require Import PyBase Num M_Helpers M_Correlation M_Dynamics.
Import ListNotations.
Local Open Scope nat_scope.

Section Analyze.
Variable A : arith.

(** ** Default grids *)
(** The literal 0.75 *)
Definition n075 : num A := ndiv A (nofZ A 3) (nofZ A 4).

(** alpha2.py:27-28 *)
Definition alpha2_grid (tr : traj A) (grid : option (list (num A))) (nsamples : Z) : res (list (num A)) :=
  match grid with
  | Some g => Ok g
  | None => linear_grid A (n0 A) (nmul A (t_total tr) n075) (DInt nsamples)
  end.

(** ** analyze *)
(** [feqc(...)[0]] inside [try: ... except ValueError: None] (msd.py:83-87, qt.py:88-92).
    The values are numpy scalars in the code, for which a division by zero does not
    raise; increasing grids do not divide by zero. *)
Definition first_root (grid value : list (num A)) (target : num A) : res (option (num A)) :=
  match feqc A grid value target with
  | Ok (Some p) => Ok (Some (fst p))
  | Ok None => Ok None
  | Err ValueError => Ok None
  | Err e => Err e
  end.

(** msd.py:81-98 analyze: the diffusive time and the diffusion coefficient.  [None] for
    the latter is the early return of line 92.  An exception of linear_fit is not caught. *)
Definition msd_analyze (ndim : nat) (sigma : num A) (grid value : list (num A))
  : res (option (num A) * option (num A)) :=
  tau <- first_root grid value (nsq A sigma) ;;
  let kept := filter (fun p => nlt A (nsq A sigma) (snd p)) (combine grid value) in
  if length kept <? 2 then Ok (tau, None)
  else
    fit <- linear_fit A (map fst kept) (map snd kept) ;;
    Ok (tau, Some (ndiv A (fst (fst (fst fit))) (nofZ A (2 * Z.of_nat ndim)))).

(** alpha2.py:43-47 and chi4t.py:86-90 analyze: position and height of the maximum;
    [None] when ZeroDivisionError is caught. *)
Definition peak_analyze (grid value : list (num A)) : res (option (num A * num A)) :=
  match ifabsmm A grid value with
  | Ok (_, p) => Ok (Some p)
  | Err ZeroDivisionError => Ok None
  | Err e => Err e
  end.

(** ** Default cutoffs *)
(** ba.py:39-44: the loop over the grid from index [i] on, [left] points being left *)
Fixpoint rise_loop (grid value : list (num A)) (m : num A) (i left : nat) : res (option (num A)) :=
  match left with
  | 0 => Ok None
  | S left' =>
      gi <- get grid i ;;
      if nle A m gi then
        v1 <- get value (S i) ;; v0 <- get value i ;;
        if nle A (n0 A) (nsub A v1 v0) then Ok (Some gi) else rise_loop grid value m (S i) left'
      else rise_loop grid value m (S i) left'
  end.

(** ba.py:35-45: one pair of species; [None]: no entry in the dictionary *)
Definition pair_rcut (grid value : list (num A)) : res (option (num A)) :=
  r <- ifabsmm A grid value ;; rise_loop grid value (fst (snd r)) 0 (length grid).

(** ba.py:31-47 and 80-83: the matrix of cutoffs, from the partial g(r) of each pair *)
Definition default_rcut (n : nat) (gr : nat -> nat -> list (num A) * list (num A))
  : res (list (list (option (num A)))) :=
  mapM (fun i => mapM (fun j => pair_rcut (fst (gr i j)) (snd (gr i j))) (seq 0 n)) (seq 0 n).
End Analyze.

(** qt.py:48-49, 74-75 and chi4t.py:45-46: the default grid of the overlap functions.
    logx_grid is modelled over the reals only. *)
Definition overlap_grid (tr : traj Rops) (grid : option (list R)) (tsamples : nat) : res (list R) :=
  match grid with
  | Some g => Ok g
  | None => logx_grid 0 (t_total tr * (3 / 4))%R tsamples
  end.

(** alpha2.py:25-44 NonGaussianParameter with an optional grid *)
Definition alpha2_run (tr : traj Rops) (grid : option (list R)) (tsamples : Z) (n : norigins Rops)
  (unf : list (list (list R))) : res (list R * list R) :=
  g <- alpha2_grid Rops tr grid tsamples ;; alpha2_compute Rops tr g n unf.

(** SelfOverlap, CollectiveOverlap and Chi4SelfOverlap with an optional grid *)
Definition self_overlap_run (tr : traj Rops) (grid : option (list R)) (tsamples : nat) (n : norigins Rops) (a : R)
  (unf : list (list (list R))) : res (list R * list R) :=
  g <- overlap_grid tr grid tsamples ;; self_overlap_compute Rops tr g n a unf.
Definition coll_overlap_run (tr : traj Rops) (grid : option (list R)) (tsamples : nat) (n : norigins Rops) (a : R)
  (pos : list (list (list R))) : res (list R * list R) :=
  g <- overlap_grid tr grid tsamples ;; coll_overlap_compute Rops tr g n a pos.
Definition chi4_run (tr : traj Rops) (grid : option (list R)) (tsamples : nat) (n : norigins Rops) (a : R)
  (unf : list (list (list R))) : res (list (R * R)) :=
  g <- overlap_grid tr grid tsamples ;; chi4_compute Rops tr g n a unf.

(** qt.py:87-92 SelfOverlap.analyze: target 1/e *)
Definition overlap_analyze (grid value : list R) : res (option R) :=
  first_root Rops grid value (/ exp 1)%R.
