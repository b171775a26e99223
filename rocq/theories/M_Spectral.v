(** Model of the spectral density (atooms/postprocessing/ik.py) over the reals and of the
    four-point dynamic structure factor (s4kt.py). *)
From Coq Require Import List ZArith Bool Arith Reals.
From Verif Require Import PyBase Num M_Helpers M_KGrid M_Fourier M_Dynamics.
Import ListNotations.
Local Open Scope R_scope.

(** ** Spectral density *)
(** ik.py:56 [numpy.dot(kvec, kvec)**0.5]: kvec is the tuple of table indices. *)
Definition index_norm (kvec : list Z) : R :=
  sqrt (nsum Rops (map (fun z => IZR (z * z)) kvec)).

(** ik.py:58-59 for one radius (numpy divides by zero without raising; the division of the
    reals is total) *)
Definition form_factor (knorm Ri : R) : R :=
  4 * PI / (knorm * knorm * knorm) * (sin (knorm * Ri) - knorm * Ri * cos (knorm * Ri)).

(** ik.py:52-65 for frame [i]: three dimensions, [mk] an array with one entry per radius.
    Its product with arrays of another length raises ValueError (numpy's broadcasting of
    length-one arrays is not modelled).  Only the count and rho2_av of the accumulators are
    used. *)
Definition ik_step (kst : nat -> kstate Rops) (pos : list (list (list R))) (radius : list (list R))
  (accs : list sk_acc) (i : nat) : res (list sk_acc) :=
  p <- get pos i ;;
  tab <- expo_sphere (ks_k0 (kst i)) (ks_offset (kst i)) p ;;
  sk_shells (fun kvec =>
      Ri <- get radius i ;;
      _ <- get kvec 2 ;;
      r <- density 3 tab (Some (map (form_factor (index_norm kvec)) Ri)) kvec ;; Ok (r, r))
    accs (ks_vectors (kst i)).

(** ik.py:41-74 _compute.  [kst] as for the structure factor; [volumes] of all the frames.
    The result lists, per shell, value and value_nonorm. *)
Definition spectral_density (kst : nat -> kstate Rops) (skip : nat) (pos : list (list (list R)))
  (radius : list (list R)) (volumes : list R) : res (list (R * R)) :=
  rng <- py_range 0 (length pos) skip ;;
  accs <- foldM (ik_step kst pos radius) (map (fun _ => sk_acc0) (ks_grid (kst 0%nat))) rng ;;
  let volume := nmean Rops volumes in
  mapM (fun a => v <- sk_value false a ;; Ok (v / volume, v)) accs.

(** ** Four-point dynamic structure factor *)
(** s4kt.py:31-81: __init__ prepares the discrete time grid; _compute reads
    self.selection, which no class defines, in the first turn of the loop over it. *)
Definition s4kt_compute (A : arith) (tr : traj A) (tgrid kgrid : list (num A)) (n : norigins A)
  : res (list (num A) * list (num A) * list (list (num A))) :=
  _ <- adjust_skip A (length (t_steps tr)) (t_npart tr) (t_bs tr) n ;;
  dg <- setup_t_grid A (t_steps tr) (t_bs tr) (t_dt tr) tgrid (not_str_1 A n) ;;
  match dg with
  | [] => Ok ([], kgrid, [])
  | _ => Err AttributeError
  end.
