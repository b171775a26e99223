(** Specification vocabulary for the positions and species used by a calculation. *)
From Coq Require Import Ascii String List ZArith Bool Arith Reals Sorting.Sorted.
From Verif Require Import PyBase Num Spec_Stats M_Dynamics M_Groups M_Arrays Spec_Correlation Spec_Dynamics.
Import ListNotations.
Local Open Scope nat_scope.

(** The unfolded position recorded in the trajectory. *)
Definition recorded_pos {A} (p : part A) : list (num A) := match p_unf p with Some u => u | None => [] end.
Definition recorded {A} (s : system A) : Prop := forall p, In p s -> p_unf p <> None.

(** A filter keeps some of the particles. *)
Definition selects {P} (f : callback P) : Prop := forall s p, In p (f s) -> In p s.

(** A filter that keeps or drops a particle whatever its unfolded position. *)
Definition with_unf {A} (p : part A) (u : list (num A)) : part A :=
  mkPart (p_species p) (p_mass p) (p_pos p) (p_vel p) (Some u).
Definition blind {A} (q : part A -> bool) : Prop := forall p u, q (with_unf p u) = q p.

(** Positions relative to the center of mass of all the particles of the frame. *)
Definition weighted (s : system Rops) : list (R * list R) := map (fun p : part Rops => (p_mass p : R, recorded_pos p : list R)) s.
Definition relative_pos (d : nat) (s : system Rops) (p : part Rops) : list R :=
  map (fun k => nth k (recorded_pos p : list R) 0 - moment (weighted s) k / total_mass (weighted s))%R (seq 0 d).
Definition relative (d : nat) (s : system Rops) : system Rops :=
  map (fun p => with_unf (A:=Rops) p (relative_pos d s p)) s.

(** Particles with recorded positions of d coordinates, total mass not zero. *)
Definition usable_frame (d : nat) (s : system Rops) : Prop :=
  s <> [] /\ (forall p, In p s -> exists u : list R, p_unf p = Some u /\ length u = d) /\ total_mass (weighted s) <> 0%R.

(** All the particles of a frame displaced by c. *)
Definition drifted (c : list R) (s : system Rops) : system Rops :=
  map (fun p => with_unf (A:=Rops) p (plusv (recorded_pos p) c)) s.

(** Species of a frame, each once, in alphabetical order; there is only one such list. *)
Definition species_list {A} (s : system A) (l : list string) : Prop :=
  StronglySorted (fun a b => String.ltb a b = true) l /\ forall x, In x l <-> exists p, In p s /\ p_species p = x.

(** Groups of particles of a two-body correlation. *)
Definition first_group {P} (cbk : list (callback P)) (s : list P) : list P :=
  match cbk with [] => s | f :: _ => f s end.
Definition second_group {P} (cbk : list (callback P)) (s : list P) : list P :=
  match cbk with [] => s | [f] => f s | _ :: g :: _ => g s end.
