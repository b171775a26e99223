(** Specification vocabulary: subsequences. *)
From Coq Require Import List.
Import ListNotations.

(** [subseq l m]: l is obtained from m by deleting entries (order kept). *)
Inductive subseq {X : Type} : list X -> list X -> Prop :=
| subseq_nil : subseq [] []
| subseq_skip : forall x l m, subseq l m -> subseq l (x :: m)
| subseq_keep : forall x l m, subseq l m -> subseq (x :: l) (x :: m).
