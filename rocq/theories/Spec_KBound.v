(** Well separated wave-numbers (C141). *)
From Coq Require Import List Reals.
Import ListNotations.
Local Open Scope R_scope.

(** Later wave-numbers exceed earlier ones by at least c. *)
Definition apart (c : R) (l : list R) : Prop := forall i j x y, (i < j)%nat -> nth_error l i = Some x -> nth_error l j = Some y -> x + c <= y.
