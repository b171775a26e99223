(** Model of filters and of the groups of particles of two-body correlations:
    correlation.py add_filter and _setup_arrays_twobody, filter.py, partial.py. *)
From Coq Require Import Ascii String List ZArith Bool Arith.
From Verif Require Import PyBase Num M_Helpers M_Correlation M_Dynamics M_Realspace.
Import ListNotations.

Section Groups.
Variable P : Type.
(** A filter callback maps the particles of a system to those kept. *)
Definition callback := list P -> list P.

(** correlation.py:291-297 add_filter on the list of callbacks: the test is
    len(self._cbk) > self.nbodies. *)
Definition add_filter (nbodies : nat) (cbk : list callback) (f : callback) : res (list callback) :=
  if (nbodies <? length cbk)%nat then Err ValueError else Ok (cbk ++ [f]).

(** correlation.py:331-332, 366-367: the callback applied by one-body correlations *)
Definition one_body (cbk : list callback) (ps : list P) : list P :=
  match cbk with [] => ps | f :: _ => f ps end.

(** correlation.py:447-491 _setup_arrays_twobody for one frame: whether the two
    groups are the same object, and the two groups. *)
Definition two_body (cbk : list callback) (ps : list P) : bool * (list P * list P) :=
  match cbk with
  | f :: g :: _ => (false, (f ps, g ps))
  | _ => let p := one_body cbk ps in (true, (p, p))
  end.

(** filter.py:48-64 Filter on a correlation without filters: the conditions are
    predicates (eval on the particle).  A one-body correlation evaluates the whole text;
    two or more conditions are a tuple, which is true.  M_Filter.v models the text. *)
Definition filter_generic (c : P -> bool) : callback := List.filter c.
Definition Filter (nbodies : nat) (conds : list (P -> bool)) : res (list callback) :=
  match nbodies, conds with
  | 1, [c] => add_filter 1 [] (filter_generic c)
  | 1, _ => add_filter 1 [] (fun ps => ps)
  | 2, [c] => l <- add_filter 2 [] (filter_generic c) ;; add_filter 2 l (fun ps => ps)
  | 2, [c0; c1] => l <- add_filter 2 [] (filter_generic c0) ;; add_filter 2 l (filter_generic c1)
  | 2, _ => Err ValueError
  | _, _ => Ok []
  end.
End Groups.
Arguments add_filter {P}.
Arguments one_body {P}.
Arguments two_body {P}.
Arguments Filter {P}.
Arguments filter_generic {P}.

(** partial.py:36-48 filters of the pair (isp, jsp) *)
Definition partial_filters {D} (isp jsp : string) : res (list (callback (particle D))) :=
  l <- add_filter 2 [] (fun ps => filter_species ps (Some isp)) ;;
  if String.eqb isp jsp then Ok l else add_filter 2 l (fun ps => filter_species ps (Some jsp)).

(** gr.py:147-155 histogram of one frame *)
Definition frame_histogram (A : arith) {P} (pos : P -> list (num A)) (cbk : list (callback P)) (ps : list P)
  (side : list (num A)) (edges : list (num A)) : res (list nat) :=
  let '(same, (g0, g1)) := two_body cbk ps in
  let f := fun x y => img_dist A x y side in
  if same then pairs_newton_hist A f (map pos g0) (map pos g1) edges
  else pairs_hist A f (map pos g0) (map pos g1) edges.
