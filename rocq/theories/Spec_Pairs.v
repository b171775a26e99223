(** Specification vocabulary for pair distances and histograms. *)
From Coq Require Import List ZArith Reals Bool Arith.
From Coq Require Import Sorting.Sorted.
From Verif Require Import Num Spec_Stats Spec_Dynamics Spec_Correlation.
Import ListNotations.
Local Open Scope R_scope.

(** Euclidean distance. *)
Definition euclid (x y : list R) : R := sqrt (dist2 x y).

(** The periodic image of y displaced by k_i cell sides along each direction. *)
Fixpoint shifted (y : list R) (ks : list Z) (side : list R) : list R :=
  match y, ks, side with
  | a :: y', k :: ks', L :: side' => (a + IZR k * L) :: shifted y' ks' side'
  | _, _, _ => []
  end.

(** d is the smallest distance between x and the periodic images of y. *)
Definition min_image (x y side : list R) (d : R) : Prop :=
  (exists ks, length ks = length side /\ d = euclid x (shifted y ks side)) /\
  (forall ks, length ks = length side -> d <= euclid x (shifted y ks side)).

Definition positive (side : list R) : Prop := forall L, In L side -> 0 < L.

(** Every coordinate difference is at most 3/2 of the side. *)
Fixpoint near (x y side : list R) : Prop :=
  match x, y, side with
  | a :: x', b :: y', L :: side' => Rabs (a - b) <= 3 / 2 * L /\ near x' y' side'
  | _, _, _ => True
  end.

(** Inside the cell centered at the origin. *)
Fixpoint inside (x side : list R) : Prop :=
  match x, side with
  | a :: x', L :: side' => - (L / 2) <= a <= L / 2 /\ inside x' side'
  | _, _ => True
  end.

(** Index pairs (i, j) with i < j < n: the unordered pairs of n particles. *)
Definition index_pairs (n : nat) : list (nat * nat) :=
  filter (fun p => (fst p <? snd p)%nat) (list_prod (seq 0 n) (seq 0 n)).

(** Number of index pairs i < j satisfying P, and of ordered pairs of two groups. *)
Definition count_pairs {X} (P : X -> X -> bool) (xs : list X) (d : X) : nat :=
  length (filter (fun p => P (nth (fst p) xs d) (nth (snd p) xs d)) (index_pairs (length xs))).
Definition count_prod {X Y} (P : X -> Y -> bool) (xs : list X) (ys : list Y) : nat :=
  length (filter (fun p => P (fst p) (snd p)) (list_prod xs ys)).

(** Membership in bin k of edges e_0, ..., e_n: [e_k, e_k+1), the last bin being closed. *)
Definition in_bin {T} (z : T) (le lt : T -> T -> bool) (edges : list T) (k : nat) (v : T) : bool :=
  (le (nth k edges z) v && (if (k + 2 =? length edges)%nat then le v (nth (k + 1) edges z) else lt v (nth (k + 1) edges z)))%bool.

(** Number of ordered pairs of distinct particles of one group satisfying P. *)
Definition ordered_pairs {X} (P : X -> X -> bool) (xs : list X) (d : X) : nat :=
  length (filter (fun p => negb (fst p =? snd p)%nat && P (nth (fst p) xs d) (nth (snd p) xs d))%bool
    (list_prod (seq 0 (length xs)) (seq 0 (length xs)))).

(** D gives minimum-image distances. *)
Definition is_distance (D : list R -> list R -> list R -> R) : Prop :=
  forall side x y, positive side -> length x = length side -> length y = length side ->
  min_image x y side (D side x y).

(** Number of (particle of group 0, neighbour of group 1) with distance satisfying P;
    [same] when the two groups are one group. *)
Definition neighbours (same : bool) (D : list R -> list R -> list R -> R) (P : R -> bool)
  (side : list R) (p0 p1 : list (list R)) : nat :=
  if same then ordered_pairs (fun a b => P (D side a b)) p0 []
  else count_prod (fun a b => P (D side a b)) p0 p1.

(** A non-empty group of particles with the dimension of the cell. *)
Definition fits (side : list R) (p : list (list R)) : Prop :=
  p <> [] /\ forall r, In r p -> length r = length side.

(** Within the first K bins. *)
Definition within (edges : list R) (K : nat) (v : R) : bool :=
  (Rleb (nth 0 edges 0) v && (if (K + 1 =? length edges)%nat then Rleb v (nth K edges 0) else Rltb v (nth K edges 0)))%bool.

Definition center (edges : list R) (k : nat) : R := (nth k edges 0 + nth (k + 1) edges 0) / 2.

(** Bins whose center does not exceed r. *)
Definition bins_upto (edges : list R) (r : R) : list nat :=
  filter (fun k => Rleb (center edges k) r) (seq 0 (length edges - 1)).

(** Mean over frames of the number of particles. *)
Definition mean_number (pos : list (list (list R))) : R := rmean (map (fun p => INR (length p)) pos).

(** Mean over the frames used (every skip-th) of the number of pairs (particle,
    neighbour) with distance satisfying P. *)
Definition mean_neighbours (D : list R -> list R -> list R -> R) (same : bool) (skip : nat)
  (pos0 pos1 : list (list (list R))) (sides : list (list R)) (P : R -> bool) : R :=
  rmean (map (fun i => INR (neighbours same D P (nth i sides []) (nth i pos0 []) (nth i pos1 [])))
    (origins 0 skip (length pos0))).

(** Mean over the frames used of the number of particles. *)
Definition mean_used (skip : nat) (pos : list (list (list R))) : R :=
  rmean (map (fun i => INR (length (nth i pos []))) (origins 0 skip (length pos))).

(** Frames and cells of a calculation of g(r): non-empty groups in every frame. *)
Record gr_input (same : bool) (skip : nat) (pos0 pos1 : list (list (list R))) (sides : list (list R)) : Prop := {
  gi_skip : (1 <= skip)%nat;
  gi_len1 : length pos1 = length pos0;
  gi_len2 : length sides = length pos0;
  gi_same : same = true -> pos1 = pos0;
  gi_pos : forall s, In s sides -> positive s;
  gi_fit : forall i, (i < length pos0)%nat ->
    fits (nth i sides []) (nth i pos0 []) /\ fits (nth i sides []) (nth i pos1 []) }.

(** Bin k of width dr: k dr <= d < (k+1) dr. *)
Definition slot (dr : R) (k : nat) (d : R) : bool := (Rleb (INR k * dr) d && Rltb d (INR (k + 1) * dr))%bool.

(** Volume of the d-dimensional ball: V_0 = 1, V_1 = 2 r, V_d = (2 pi / d) r^2 V_(d-2). *)
Fixpoint ball_pair (d : nat) (r : R) : R * R :=
  match d with
  | O => (1, 2 * r)
  | S d => let (v, w) := ball_pair d r in (w, 2 * PI / INR (d + 2) * (r * r) * v)
  end.
Definition ball (d : nat) (r : R) : R := fst (ball_pair d r).
