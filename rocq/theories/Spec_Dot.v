(** Scalar products of frames of doubles and of their values: C114. *)
From Coq Require Import List ZArith Reals Floats.SpecFloat.
From Verif Require Import PyBase Num Spec_Stats M_Helpers M_Correlation M_Dynamics Spec_Dynamics Spec_Doubles.
Import ListNotations.
Local Open Scope R_scope.

(** All the products of components of two frames. *)
Definition products (x y : frame F64ops) : list f64 :=
  flat_map (fun p => map (fun q => SFmul fprec femax (fst q) (snd q)) (combine (fst p) (snd p))) (combine x y).

(** Mean over the particles of the scalar products, and of the products of the sizes of the components. *)
Definition mean_dot (x y : list (list R)) : R := rmean (map (fun p => dotv (fst p) (snd p)) (combine x y)).
Definition mean_size (x y : list (list R)) : R := rmean (map (fun p => dotv (map Rabs (fst p)) (map Rabs (snd p))) (combine x y)).

