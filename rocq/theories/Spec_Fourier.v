(** Densities in Fourier space, said with sines and cosines. *)
From Coq Require Import List ZArith Reals.
From Verif Require Import Spec_Stats Spec_BondAngle.
Import ListNotations.
Local Open Scope R_scope.

(** Real and imaginary part of sum_p w_p exp(i k.r_p). *)
Definition rho_re (k : list R) (pos : list (list R)) (w : list R) : R :=
  rsum (map (fun p => snd p * cos (dot k (fst p))) (combine pos w)).
Definition rho_im (k : list R) (pos : list (list R)) (w : list R) : R :=
  rsum (map (fun p => snd p * sin (dot k (fst p))) (combine pos w)).

(** Weights 1. *)
Definition unit_weights (pos : list (list R)) : list R := map (fun _ => 1) pos.

(** |sum_p exp(i k.r_p)|^2 *)
Definition density_sq (k : list R) (pos : list (list R)) : R :=
  rho_re k pos (unit_weights pos) * rho_re k pos (unit_weights pos) +
  rho_im k pos (unit_weights pos) * rho_im k pos (unit_weights pos).

(** Re (sum_p exp(i k.r_p)) (sum_q exp(i k.s_q))^* *)
Definition density_cross (k : list R) (pos pos' : list (list R)) : R :=
  rho_re k pos (unit_weights pos) * rho_re k pos' (unit_weights pos') +
  rho_im k pos (unit_weights pos) * rho_im k pos' (unit_weights pos').

(** Every position displaced by the same vector. *)
Definition vplus (x d : list R) : list R := map (fun p => fst p + snd p) (combine x d).
Definition translate (d : list R) (pos : list (list R)) : list (list R) := map (fun x => vplus x d) pos.
