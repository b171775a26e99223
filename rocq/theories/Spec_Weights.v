(** Specification vocabulary for weights. *)
From Coq Require Import String List Reals.
From Verif Require Import PyBase Num Spec_Stats M_Weights.
Import ListNotations.
Local Open Scope R_scope.

(** The number an attribute stands for. *)
Definition weight_of (field : string) (p : wpart Rops) : R :=
  match getattr p field with Ok (VNum x) => x | Ok (VInt z) => IZR z | Err _ => 0 end.

(** An array of floats. *)
Definition floats (l : list R) : array Rops := ANums (A:=Rops) l.

(** The particles of a frame that have the attribute as a float. *)
Definition float_field (field : string) (s : list (wpart Rops)) : Prop :=
  forall p, In p s -> exists x, getattr p field = Ok (VNum (x : num Rops)).

(** The frames hold the attribute minus a constant, and the average over the frames of
    the frame mean is zero. *)
Definition centred (field : string) (groups : list (list (wpart Rops))) (w : list (list R)) : Prop :=
  (exists c, w = map (map (fun p => weight_of field p - c)) groups) /\ rmean (map rmean w) = 0.

(** [s'] holds the particles of [s] in order, each with the attribute [field] of the
    particle of [so] at the same place. *)
Definition field_taken {A} (field : string) (s so s' : list (wpart A)) : Prop :=
  length s' = length s /\
  forall j p, nth_error s j = Some p -> exists po p',
    nth_error so j = Some po /\ nth_error s' j = Some p' /\
    wp_species p' = wp_species p /\ getattr p' field = getattr po field /\
    forall k, k <> field -> getattr p' k = getattr p k.
