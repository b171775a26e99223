(** The radial distribution function of exact distances. *)
From Coq Require Import List ZArith Bool Arith Reals.
From Verif Require Import PyBase Num Spec_Stats P_Text F64Round F64Ops F64Facts M_GrObject Spec_Correlation Spec_Pairs Spec_Norm64.
Import ListNotations.
Local Open Scope R_scope.

(** The pairs of a frame: every pair of one group once, or every (particle of group 0,
    particle of group 1). *)
Definition pairs_of (same : bool) (f : gframe F64ops) : list (list f64 * list f64) :=
  if same then map (fun p => (nth (fst p) (f_0 f) [], nth (snd p) (f_0 f) [])) (index_pairs (length (f_0 f)))
  else list_prod (f_0 f) (f_1 f).

(** Those in bin k of width [dr], by their exact minimum-image distances. *)
Definition true_count (same : bool) (D : list R -> list R -> list R -> R) (side : list f64) (dr : R) (f : gframe F64ops) (k : nat) : nat :=
  length (filter (fun p => slot dr k (D (map fval side) (map fval (fst p)) (map fval (snd p)))) (pairs_of same f)).

(** g(r) in bin k over the frames [fs]. *)
Definition true_gr (d : nat) (same : bool) (D : list R -> list R -> list R -> R) (side : list f64) (dr : R) (fs : list (gframe F64ops)) (k : nat) : R :=
  let N0 := rmean (map (fun f => INR (length (f_0 f))) fs) in
  let N1 := rmean (map (fun f => INR (length (f_1 f))) fs) in
  let V := fold_right Rmult 1 (map fval side) in
  rmean (map (fun f => INR (true_count same D side dr f k)) fs) / (N1 / V * exact_shell d dr k * N0 / (if same then 2 else 1)).

(** The frames used: one every [skip]. *)
Definition used_frames (skip : nat) (frames : list (gframe F64ops)) (d : gframe F64ops) : list (gframe F64ops) :=
  map (fun i => nth i frames d) (origins 0 skip (length frames)).

(** A periodic cell of d sides. *)
Definition good_cell (d : nat) (c : gcell F64ops) : Prop :=
  length (c_side c) = d /\ c_periodic c = repeat true d /\ Forall (fun L => ok L /\ p2 (-60) <= fval L <= p2 60) (c_side c).
