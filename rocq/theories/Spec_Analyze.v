(** Specification vocabulary for the analysis of correlation functions. *)
From Coq Require Import List Reals Arith.
From Verif Require Import Spec_Stats Spec_Fit.
Import ListNotations.
Local Open Scope R_scope.

(** The points of a curve above a threshold. *)
Definition points_above (s : R) (x y : list R) : list (R * R) :=
  filter (fun p => if Rlt_dec s (snd p) then true else false) (combine x y).

(** t is the first place where the broken line through the points meets the target
    after having strictly crossed it. *)
Definition first_crossing (x y : list R) (target t : R) : Prop :=
  exists k, (1 <= k < length x)%nat /\ crossing y target k /\ (forall j, (j < k)%nat -> ~ crossing y target j) /\
    nth (k - 1) x 0 <= t < nth k x 0 /\
    line_through (nth (k - 1) x 0) (nth (k - 1) y 0) (nth k x 0) (nth k y 0) t = target.

(** a is the slope of the only line closest to the points in the sense of least squares. *)
Definition fitted_slope (pts : list (R * R)) (a : R) : Prop :=
  exists b, forall a' b',
    residuals (map fst pts) (map snd pts) a b <= residuals (map fst pts) (map snd pts) a' b' /\
    (residuals (map fst pts) (map snd pts) a' b' <= residuals (map fst pts) (map snd pts) a b -> a' = a /\ b' = b).

(** (t, h) is at or above every point; t lies within the cell of a highest point. *)
Definition peak (x y : list R) (t h : R) : Prop :=
  (forall e, In e y -> e <= h) /\
  exists i, (i < length y)%nat /\ (forall j, (j < length y)%nat -> nth j y 0 <= nth i y 0) /\
    ((i = 0 \/ i = length y - 1)%nat -> t = nth i x 0 /\ h = nth i y 0) /\
    ((0 < i < length y - 1)%nat -> (nth (i - 1) x 0 + nth i x 0) / 2 < t <= (nth i x 0 + nth (i + 1) x 0) / 2).
