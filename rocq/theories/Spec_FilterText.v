(** Specification vocabulary for the decorator Filter. *)
From Coq Require Import Ascii String List Bool.
From Verif Require Import PyBase.
Import ListNotations.

Definition chars (s : string) : list ascii := list_ascii_of_string s.
Definition without (c : ascii) (s : string) : Prop := ~ In c (chars s).

(** On each of the particles the condition has the truth value [t]. *)
Definition decides {P} (eval : string -> P -> res bool) (c : string) (t : P -> bool) (ps : list P) : Prop :=
  forall p, In p ps -> eval c p = Ok (t p).
