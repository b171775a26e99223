(** Python values used by every model file: exceptions as values, ranges,
    indexing, dictionaries keyed by integers, sorting.  No proofs here. *)
From Coq Require Import List ZArith Bool Arith.
Import ListNotations.
Set Implicit Arguments.

(** Python exceptions that the modelled code can raise. *)
Inductive exn : Type :=
| ValueError | IndexError | KeyError | ZeroDivisionError | TypeError
| AttributeError | UnboundLocalError | OverflowError | RecursionError
| NameError | FileNotFoundError | SyntaxError | AssertionError.

Inductive res (A : Type) : Type :=
| Ok (a : A)
| Err (e : exn).
Arguments Ok {A} a.
Arguments Err {A} e.

Definition bind {A B} (x : res A) (f : A -> res B) : res B :=
  match x with Ok a => f a | Err e => Err e end.

Notation "x <- m ;; k" := (bind m (fun x => k))
  (at level 61, m at next level, right associativity).
Notation "' p <- m ;; k" := (bind m (fun x => let p := x in k))
  (at level 61, p pattern, m at next level, right associativity).

(** A Python [for] loop over a list with loop state [S]. *)
Fixpoint foldM {S X} (step : S -> X -> res S) (s : S) (l : list X) : res S :=
  match l with
  | [] => Ok s
  | x :: r => s' <- step s x ;; foldM step s' r
  end.

(** A list comprehension whose body may raise. *)
Fixpoint mapM {X Y} (f : X -> res Y) (l : list X) : res (list Y) :=
  match l with
  | [] => Ok []
  | x :: r => y <- f x ;; ys <- mapM f r ;; Ok (y :: ys)
  end.

(** [l[i]] for a non-negative index. *)
Definition get {X} (l : list X) (i : nat) : res X :=
  match nth_error l i with Some x => Ok x | None => Err IndexError end.

(** [l[i]] for any Python index: negative indices count from the end. *)
Definition getZ {X} (l : list X) (i : Z) : res X :=
  if (i <? 0)%Z
  then if (i + Z.of_nat (length l) <? 0)%Z then Err IndexError
       else get l (Z.to_nat (i + Z.of_nat (length l)))
  else get l (Z.to_nat i).

(** [range(a, b, s)] for non-negative [a], [b] and positive [s]; a zero step
    raises ValueError as in Python. *)
Definition py_range (a b s : nat) : res (list nat) :=
  if (s =? 0)%nat then Err ValueError
  else Ok (map (fun k => a + k * s) (seq 0 ((b - a + (s - 1)) / s))).

(** Dictionaries: association lists, insertion order, keys in [Z]. *)
Section Dict.
Variable V : Type.
Definition dict := list (Z * V).

Fixpoint dget (d : dict) (k : Z) : option V :=
  match d with
  | [] => None
  | (k', v) :: r => if (k =? k')%Z then Some v else dget r k
  end.

(** [d[k] = v] *)
Fixpoint dset (d : dict) (k : Z) (v : V) : dict :=
  match d with
  | [] => [(k, v)]
  | (k', v') :: r => if (k =? k')%Z then (k', v) :: r else (k', v') :: dset r k v
  end.

(** [d[k] = g(d[k])] for a [defaultdict] whose default is [z]. *)
Definition dupd (d : dict) (k : Z) (g : V -> V) (z : V) : dict :=
  dset d k (g (match dget d k with Some v => v | None => z end)).

Definition keys (d : dict) : list Z := map fst d.
End Dict.

(** [d[k]] raising KeyError. *)
Definition dgetE {V} (d : dict V) (k : Z) : res V :=
  match dget d k with Some v => Ok v | None => Err KeyError end.

(** [sorted(l)] on integers (insertion sort). *)
Fixpoint insertZ (x : Z) (l : list Z) : list Z :=
  match l with
  | [] => [x]
  | y :: r => if (x <=? y)%Z then x :: y :: r else y :: insertZ x r
  end.
Fixpoint sortZ (l : list Z) : list Z :=
  match l with [] => [] | x :: r => insertZ x (sortZ r) end.

(** [set(l)] as a duplicate-free list. *)
Definition setZ (l : list Z) : list Z := nodup Z.eq_dec l.

(** [min(l, key=key)]: the first entry with the smallest key. *)
Fixpoint argminZ {X} (key : X -> Z) (best : X) (l : list X) : X :=
  match l with
  | [] => best
  | x :: r => if (key x <? key best)%Z then argminZ key x r else argminZ key best r
  end.
Definition min_by {X} (key : X -> Z) (l : list X) : res X :=
  match l with
  | [] => Err ValueError
  | x :: r => Ok (argminZ key x r)
  end.
