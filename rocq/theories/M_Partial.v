(** Model of partial.py: the dictionary of correlation objects and compute().
    A correlation class enters through what one of its objects computes: [run s fs k]
    is the outcome of the compute() number [k] (from 0) of an object built with the
    filters [fs]; [s] stands for what the constructor took from the random generator. *)
From Coq Require Import Ascii String List ZArith Bool Arith.
From Verif Require Import PyBase.
Import ListNotations.
Local Open Scope nat_scope.

(** Python dictionaries: insertion order, assignment replaces in place. *)
Section Dict.
Variables K V : Type.
Variable eqb : K -> K -> bool.
Fixpoint dict_set (d : list (K * V)) (k : K) (v : V) : list (K * V) :=
  match d with
  | [] => [(k, v)]
  | (k', v') :: r => if eqb k' k then (k', v) :: r else (k', v') :: dict_set r k v
  end.
Fixpoint dict_get (d : list (K * V)) (k : K) : option V :=
  match d with
  | [] => None
  | (k', v) :: r => if eqb k' k then Some v else dict_get r k
  end.
(** d[k] *)
Definition dict_at (d : list (K * V)) (k : K) : res V :=
  match dict_get d k with Some v => Ok v | None => Err KeyError end.
End Dict.
Arguments dict_set {K V}.
Arguments dict_get {K V}.
Arguments dict_at {K V}.

Definition pair_eqb (a b : string * string) : bool := String.eqb (fst a) (fst b) && String.eqb (snd a) (snd b).

Section Partial.
Variable Res : Type.
Variable run : nat -> list string -> nat -> res Res.

(** A correlation object: its random state, species filters, number of calls of
    compute() and the attributes grid, value and analysis ([None] before). *)
Record obj : Type := mkObj { o_seed : nat; o_filters : list string; o_runs : nat; o_result : option Res }.

(** correlation.py:493-523 compute *)
Definition obj_compute (o : obj) : res obj :=
  v <- run (o_seed o) (o_filters o) (o_runs o) ;;
  Ok (mkObj (o_seed o) (o_filters o) (S (o_runs o)) (Some v)).
Definition obj_set (o : obj) (r : option Res) : obj := mkObj (o_seed o) (o_filters o) (o_runs o) r.

(** enumerate(species) *)
Definition enum (sp : list string) : list (nat * string) := combine (seq 0 (length sp)) sp.

(** partial.py:30-36 *)
Definition partial_init1 (sp : list string) : list (string * obj) :=
  fold_left (fun d x => dict_set String.eqb d (snd x) (mkObj (fst x) [snd x] 0 None)) (enum sp) [].

(** partial.py:74-77 *)
Definition partial_compute1 (sp : list string) (d : list (string * obj)) : res (list (string * obj)) :=
  foldM (fun d isp => o <- dict_at String.eqb d isp ;; o' <- obj_compute o ;; Ok (dict_set String.eqb d isp o')) d sp.

(** partial.py:42-46: the filters of a pair *)
Definition pair_filters (isp jsp : string) : list string := if String.eqb isp jsp then [isp] else [isp; jsp].

(** partial.py:38-48; the objects are built in the order of the two loops *)
Definition partial_init2 (sp : list string) : list ((string * string) * obj) :=
  fold_left (fun d p => let '((i, isp), (j, jsp)) := p in
    dict_set pair_eqb d (isp, jsp) (mkObj (i * length sp + j) (pair_filters isp jsp) 0 None))
    (list_prod (enum sp) (enum sp)) [].

(** partial.py:79-91; [sym] is the class attribute _symmetric *)
Definition partial_step2 (sym : bool) (d : list ((string * string) * obj)) (p : (nat * string) * (nat * string))
  : res (list ((string * string) * obj)) :=
  let '((i, isp), (j, jsp)) := p in
  o <- dict_at pair_eqb d (isp, jsp) ;;
  if (i <=? j) || negb sym then
    o' <- obj_compute o ;; Ok (dict_set pair_eqb d (isp, jsp) o')
  else
    q <- dict_at pair_eqb d (jsp, isp) ;; Ok (dict_set pair_eqb d (isp, jsp) (obj_set o (o_result q))).
Definition partial_compute2 (sym : bool) (sp : list string) (d : list ((string * string) * obj))
  : res (list ((string * string) * obj)) :=
  foldM (partial_step2 sym) d (list_prod (enum sp) (enum sp)).
End Partial.
Arguments mkObj {Res}.
Arguments o_seed {Res}.
Arguments o_filters {Res}.
Arguments o_runs {Res}.
Arguments o_result {Res}.
Arguments obj_compute {Res}.
Arguments obj_set {Res}.
Arguments partial_init1 {Res}.
Arguments partial_compute1 {Res}.
Arguments partial_init2 {Res}.
Arguments partial_step2 {Res}.
Arguments partial_compute2 {Res}.
