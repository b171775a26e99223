(** Model of the neighbour lists of realspace.f90 that no class of the package calls:
    neighbors_list, neighbors_full, neighbors_subset and neighbors_list_distinct, with
    offset 'C' (particle indices from 0).  Row i holds neigh(i,1..nn(i)); [None] is an
    entry below nn(i) that has not been written.  Writing beyond the second dimension
    [cap] of neigh or beyond its [rows] is undefined behaviour in the Fortran code and
    modelled as [Err IndexError].  Simplified: species indices from 0. *)
From Coq Require Import List ZArith Bool Arith.
From Verif Require Import PyBase Num M_Helpers M_Dynamics M_Realspace M_BondAngle.
Import ListNotations.
Local Open Scope nat_scope.

Section Neighbors.
Variable A : arith.
Notation vec := (list (num A)).
Notation table := (list (list (option nat))).

(** realspace.f90:154-162: rij folded, rijsq < rcutsq(isp,jsp) *)
Definition close (side : vec) (pos other : list vec) (ids : list nat) (rcut : list vec) (i j : nat) : res bool :=
  x <- get pos i ;; y <- get other j ;; isp <- get ids i ;; jsp <- get ids j ;; row <- get rcut isp ;; rc <- get row jsp ;;
  let r := wrapv A x y side in Ok (nlt A (vdot A r r) (nsq A rc)).

Fixpoint put {X} (l : list X) (i : nat) (x : X) : list X :=
  match l, i with
  | [], _ => []
  | _ :: r, O => x :: r
  | a :: r, S i => a :: put r i x
  end.

Definition push (cap : nat) (t : table) (i : nat) (new : list (option nat)) : res table :=
  row <- get t i ;;
  if length (row ++ new) <=? cap then Ok (put t i (row ++ new)) else Err IndexError.

(** realspace.f90:163-166: both counters are increased before the entries are written,
    so that a particle paired with itself leaves a hole. *)
Definition note (cap : nat) (t : table) (i j : nat) : res table :=
  if i =? j then push cap t i [None; Some i]
  else t <- push cap t i [Some j] ;; push cap t j [Some i].

Definition note_if (near : nat -> nat -> res bool) (cap : nat) (t : table) (i j : nat) : res table :=
  c <- near i j ;; if c then note cap t i j else Ok t.

(** realspace.f90:133-170 neighbors_list, and 710-747 neighbors_full, the same code *)
Definition neighbors_list (cap : nat) (side : vec) (pos : list vec) (ids : list nat) (rcut : list vec) : res table :=
  let n := length pos in
  foldM (fun t i => foldM (fun t j => note_if (close side pos pos ids rcut) cap t i j) t (seq (S i) (n - S i))) (repeat [] n) (seq 0 n).

(** realspace.f90:749-786 neighbors_subset *)
Definition neighbors_subset (cap : nat) (side : vec) (pos : list vec) (subset : list (list nat)) (ids : list nat) (rcut : list vec) : res table :=
  let n := length pos in
  foldM (fun t i => js <- get subset i ;; foldM (fun t j => note_if (close side pos pos ids rcut) cap t i j) t js) (repeat [] n) (seq 0 n).

(** realspace.f90:172-208 neighbors_list_distinct, for tables of [rows] rows *)
Definition neighbors_list_distinct (rows cap : nat) (side : vec) (pos other : list vec) (ids : list nat) (rcut : list vec) : res table :=
  foldM (fun t i => foldM (fun t j => note_if (close side pos other ids rcut) cap t i j) t (seq 0 (length other)))
    (repeat [] rows) (seq 0 (length pos)).
End Neighbors.
