(** Specification vocabulary: decimal digit strings. *)
From Coq Require Import Ascii String ZArith.
From Verif Require Import M_Helpers.

(** All characters are decimal digits. *)
Fixpoint all_digits (s : string) : bool :=
  match s with
  | EmptyString => true
  | String c r => match digit c with Some _ => all_digits r | None => false end
  end.

(** The number written by the digits, continuing from [acc]. *)
Fixpoint digval (s : string) (acc : Z) : Z :=
  match s with
  | EmptyString => acc
  | String c r => match digit c with Some d => digval r (acc * 10 + d)%Z | None => acc end
  end.
