(** Model of ba.py (BondAngleDistribution._compute) and of the Fortran kernels
    neighbors and bond_angle.  [acosd c] stands for acos(c)*180.0/pi.  Particle
    species are given as indices into the matrix of cutoffs.  Writing beyond the
    buffer of 50 neighbours, or reading beyond an array, is undefined behaviour
    in the Fortran code and modelled as [Err IndexError].  Not modelled: default
    cutoffs (ba.py:20-46), progress bar, attribute [analysis]. *)
From Coq Require Import List ZArith Bool Arith.
From Verif Require Import PyBase Num M_Helpers M_Dynamics M_Realspace.
Import ListNotations.
Local Open Scope nat_scope.

Section Angles.
Variable A : arith.
Variable acosd : num A -> num A.
Notation vec := (list (num A)).

(** realspace.f90:94-95 and 226-229: center - position, folded *)
Definition wrapv (c x side : vec) : vec := map2 (wrap A) (map2 (nsub A) c x) side.
Definition vdot (u v : vec) : num A := nsum A (map2 (nmul A) u v).
Definition vnorm (u : vec) : num A := nsqrt A (nsum A (map (nsq A) u)).

(** ba.py:98: size of the buffer *)
Definition max_neighbors : nat := 50.

(** realspace.f90:210-241 neighbors, offset 'C': indices from 0 *)
Definition ba_neighbors (side center : vec) (pos : list vec) (ids : list nat) (rcut : vec) : res (list nat) :=
  ns <- foldM (fun ns j =>
    x <- get pos j ;; jsp <- get ids j ;; rc <- get rcut jsp ;;
    let rij := wrapv center x side in
    Ok (if nlt A (vdot rij rij) (nsq A rc) then ns ++ [j] else ns)) [] (seq 0 (length pos)) ;;
  if length ns <=? max_neighbors then Ok ns else Err IndexError.

(** realspace.f90:107-115: clamp to [-1, 1] *)
Definition clamp (c : num A) : num A :=
  let c := if nle A c (n0 A) then (if nlt A c (nofZ A (-1)) then nofZ A (-1) else c) else c in
  if nlt A (n0 A) c then (if nlt A (n1 A) c then n1 A else c) else c.

(** realspace.f90:102-116: None where the loop cycles *)
Definition angle (u v : vec) : option (num A) :=
  let prod := nmul A (vnorm u) (vnorm v) in
  if neq A prod (n0 A) then None else Some (acosd (clamp (ndiv A (vdot u v) prod))).

(** realspace.f90:120-121 *)
Definition angle_add (dtheta : num A) (h : list nat) (theta : num A) : res (list nat) :=
  match nfloor A (ndiv A theta dtheta) with
  | Some z => if (z <? Z.of_nat (length h))%Z
              then (if (0 <=? z)%Z then Ok (incr h (Z.to_nat z)) else Err IndexError)
              else Ok h
  | None => Err IndexError
  end.

(** realspace.f90:74-125 bond_angle *)
Definition bond_angle (center : vec) (pos : list vec) (neigh : list nat) (side : vec) (dtheta : num A) (n : nat)
  : res (list nat) :=
  foldM (fun h j =>
    pj <- get pos j ;;
    let rij := wrapv center pj side in
    foldM (fun h k =>
      if k =? j then Ok h
      else pk <- get pos k ;;
           match angle rij (wrapv center pk side) with
           | None => Ok h
           | Some theta => angle_add dtheta h theta
           end) h neigh) (repeat 0 n) neigh.

(** One frame as seen by the loop of ba.py:92-111. *)
Record frame : Type := mkFrame {
  f_side : vec; f_pos0 : list vec; f_ids0 : list nat; f_pos1 : list vec; f_ids1 : list nat }.

(** ba.py:99-111: the histograms of one frame *)
Definition ba_frame (rcut : list vec) (dtheta : num A) (n : nat) (f : frame) : res (list (list nat)) :=
  mapM (fun idx =>
    isp <- get (f_ids0 f) idx ;; row <- get rcut isp ;; c <- get (f_pos0 f) idx ;;
    ns <- ba_neighbors (f_side f) c (f_pos1 f) (f_ids1 f) row ;;
    bond_angle c (f_pos1 f) ns (f_side f) dtheta n) (seq 0 (length (f_pos0 f))).

(** ba.py:62 and 65-117: grid of angles and distribution *)
Definition ba_compute (rcut : list vec) (delta : grid_delta A) (skip : nat) (frames : list frame)
  : res (list (num A) * list (num A)) :=
  grid <- linear_grid A (n0 A) (nofZ A 180) delta ;;
  g0 <- get grid 0 ;; g1 <- get grid 1 ;;
  let dtheta := nsub A g1 g0 in
  origins <- py_range 0 (length frames) skip ;;
  hs <- mapM (fun i => f <- get frames i ;; ba_frame rcut dtheta (length grid) f) origins ;;
  match concat hs with
  | [] => Err IndexError
  | h0 :: hr =>
      let hist := fold_left hadd hr h0 in
      let inner := firstn (length hist - 1) hist in
      let norm := nofnat A (list_sum inner) in
      Ok (map2 (fun a b => ndiv A (nadd A a b) (nofZ A 2)) (firstn (length grid - 1) grid) (tl grid),
          map (fun h => ndiv A (nofnat A h) (nmul A norm dtheta)) inner)
  end.
End Angles.
Arguments mkFrame {A}.
Arguments f_side {A}.
Arguments f_pos0 {A}.
Arguments f_ids0 {A}.
Arguments f_pos1 {A}.
Arguments f_ids1 {A}.
