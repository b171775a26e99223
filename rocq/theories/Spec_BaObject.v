(** Specification vocabulary for bond angles with cutoffs given per pair of species. *)
From Coq Require Import Ascii String List ZArith Bool Arith Reals.
From Verif Require Import PyBase Num M_Groups M_Arrays Spec_Correlation Spec_BondAngle Spec_Positions.
Import ListNotations.
Local Open Scope R_scope.

(** Particles of g closer to p than the cutoff of the two species. *)
Definition no_part : part Rops := mkPart (A:=Rops) ""%string 0 [] [] None.
Definition bonded (rc : string -> string -> R) (side : list R) (p : part Rops) (g : system Rops) : list nat :=
  filter (fun j => let q := nth j g no_part in let u := min_vec (p_pos p) (p_pos q) side in
                   Rltb (dot u u) (rc (p_species p) (p_species q) * rc (p_species p) (p_species q))) (seq 0 (length g)).
(** Angles of the bonds from the particles of g0 to those of g1; of all frames used. *)
Definition named_angles (rc : string -> string -> R) (side : list R) (g0 g1 : system Rops) : list R :=
  flat_map (fun p : part Rops => bond_angles side (p_pos p) (map (p_pos (A:=Rops)) g1) (bonded rc side p g1)) g0.
Definition trajectory_angles (rc : string -> string -> R) (cbk : list (callback (part Rops))) (skip : nat)
  (frames : list (system Rops)) (sides : list (list R)) : list R :=
  flat_map (fun i => named_angles rc (nth i sides []) (first_group cbk (nth i frames [])) (second_group cbk (nth i frames [])))
    (origins 0 skip (length frames)).

(** One entry for every pair of species of the list. *)
Definition cutoff_matrix (rc : string -> string -> R) (l : list string) : list (list R) := map (fun a => map (rc a) l) l.
