(** Specification vocabulary for grids, roots, extrema and straight-line fits. *)
From Coq Require Import Reals List Sorting.Sorted.
From Verif Require Import Spec_Stats.
Import ListNotations.
Local Open Scope R_scope.

(** Strictly increasing abscissae. *)
Definition increasing (x : list R) : Prop := StronglySorted Rlt x.

(** Sum of squared residuals of the line a*x + b. *)
Definition residuals (x y : list R) (a b : R) : R :=
  rsum (map (fun p => (snd p - a * fst p - b) * (snd p - a * fst p - b)) (combine x y)).

(** Straight line through two points, evaluated at u. *)
Definition line_through (x1 y1 x2 y2 u : R) : R := y1 + (y2 - y1) * (u - x1) / (x2 - x1).

(** i is the first index where f is smallest. *)
Definition first_min (f : list R) (i : nat) : Prop :=
  (i < length f)%nat /\
  (forall j, (j < length f)%nat -> nth i f 0 <= nth j f 0) /\
  (forall j, (j < i)%nat -> nth i f 0 < nth j f 0).

(** i is the first index where f is largest. *)
Definition first_max (f : list R) (i : nat) : Prop :=
  (i < length f)%nat /\
  (forall j, (j < length f)%nat -> nth j f 0 <= nth i f 0) /\
  (forall j, (j < i)%nat -> nth j f 0 < nth i f 0).

(** Residuals per degree of freedom of a line fitted to [length y] points. *)
Definition resid_var (x y : list R) (a b : R) : R :=
  if (2 <? length y)%nat then residuals x y a b / INR (length y - 2) else 0.

(** f - fstar has at index i the opposite sign of its first entry. *)
Definition crossing (f : list R) (fstar : R) (i : nat) : Prop :=
  (nth i f 0 - fstar) * (nth 0 f 0 - fstar) < 0.

(** The extremum reported around the extremal sample i, sg = 1 for a minimum and
    -1 for a maximum: the sample itself at the ends, otherwise a point between
    the midpoints to the neighbours, at least as extreme as the sample, and the
    vertex of any parabola through the three samples. *)
Definition extremum_at (sg : R) (x f : list R) (i : nat) (p : R * R) : Prop :=
  ((i = 0 \/ i = length f - 1)%nat -> p = (nth i x 0, nth i f 0)) /\
  ((0 < i < length f - 1)%nat ->
     (nth (i - 1) x 0 + nth i x 0) / 2 < fst p <= (nth i x 0 + nth (i + 1) x 0) / 2 /\
     sg * snd p <= sg * nth i f 0 /\
     (forall a b c, 
        nth (i - 1) f 0 = a * nth (i - 1) x 0 * nth (i - 1) x 0 + b * nth (i - 1) x 0 + c ->
        nth i f 0 = a * nth i x 0 * nth i x 0 + b * nth i x 0 + c ->
        nth (i + 1) f 0 = a * nth (i + 1) x 0 * nth (i + 1) x 0 + b * nth (i + 1) x 0 + c ->
        p = (- b / (2 * a), c - b * b / (4 * a)))).
