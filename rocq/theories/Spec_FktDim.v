(** What the collective scattering function averages in dimensions other than two and three. *)
From Coq Require Import List ZArith Bool Reals.
From Verif Require Import PyBase Num M_KGrid Spec_KGrid Spec_Fourier Spec_Stats P_KGrid P_KGrid2 P_Sk.
Import ListNotations.
Local Open Scope R_scope.

Fixpoint addz (a b : list Z) : list Z :=
  match a, b with
  | x :: a', y :: b' => (x + y)%Z :: addz a' b'
  | _, _ => []
  end.

(** The vector whose exponential is computed for [n] after the vectors of [done]: the
    components after the first one pile up over the vectors with the same first component. *)
Definition piled (done : list (list Z)) (n : list Z) : list Z :=
  hd 0%Z n :: fold_right addz (tl n) (map (@tl Z) (filter (fun m => (hd 0 m =? hd 0 n)%Z) done)).

(** The vectors that precede [t]. *)
Fixpoint upto (t : list Z) (l : list (list Z)) : list (list Z) :=
  match l with
  | [] => []
  | a :: r => if list_eq_dec Z.eq_dec a t then [] else a :: upto t r
  end.

(** The vector used for the table entry [t] of an object with wave-vectors. *)
Definition piled_vector (K : kstate Rops) (t : list Z) : list R :=
  wave (ks_k0 K) (piled (map (unshift (ks_offset K)) (upto t (concat (ks_vectors K)))) (unshift (ks_offset K) t)).

(** The real parts of the two densities, multiplied. *)
Definition re_product (v : list R) (p q : list (list R)) : R := rho_re v p (unit_weights p) * rho_re v q (unit_weights q).
