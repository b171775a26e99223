(** Vocabulary for velocity and stress autocorrelations. *)
From Coq Require Import List Reals.
From Verif Require Import Spec_Stats Spec_Dynamics.
Import ListNotations.
Local Open Scope R_scope.

(** Mean over the particles of v^2, and of v.v'. *)
Definition mean_square (x : list (list R)) : R := rmean (map (fun r => dotv r r) x).
Definition velocity_overlap (x y : list (list R)) : R := rmean (map (fun p => dotv (fst p) (snd p)) (combine x y)).

(** The components xy, xz, yz of the stress: virial plus sum_p m_p v_j v_k. *)
Definition off_diagonal (mass : list R) (virial vel : list (list R)) : list R :=
  map (fun jk => nth (snd jk) (nth (fst jk) virial []) 0 +
                 rsum (map (fun mv => fst mv * nth (fst jk) (snd mv) 0 * nth (snd jk) (snd mv) 0) (combine mass vel)))
      [(0, 1); (0, 2); (1, 2)]%nat.
