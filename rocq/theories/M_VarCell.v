(** Model of the wave-vectors of StructureFactorLegacy when the cell changes
    (sk.py:58-75, 145-163; fourierspace.py:183-240). *)
From Coq Require Import List ZArith Bool Arith.
From Verif Require Import PyBase Num M_Helpers M_KGrid.
Import ListNotations.
Local Open Scope nat_scope.

Section VarCell.
Variable A : arith.
Variables (fuel : nat) (two_pi : num A) (g : rng) (p : kparams A).

(** sk.py:71-75: the wave-vectors in force at each of the frames [idx] visited by the
    loop.  [K] are those in force before, [grid] is the content of the list self.grid
    (None if no grid was given).  _setup(0) returns at once (fourierspace.py:193). *)
Fixpoint frame_states (sides : list (list (num A))) (variable : bool) (s : rng_state g) (K : kstate A)
  (grid : option (list (num A))) (idx : list nat) : res (list (kstate A) * option (list (num A))) :=
  match idx with
  | [] => Ok ([], grid)
  | i :: r =>
      if variable && (0 <? i) then
        side <- get sides i ;;
        x <- setup A fuel two_pi g p side s grid ;;
        y <- frame_states sides variable (snd x) (fst (fst x)) (snd (fst x)) r ;;
        Ok (fst (fst x) :: fst y, snd y)
      else
        y <- frame_states sides variable s K grid r ;;
        Ok (K :: fst y, snd y)
  end.

(** compute(): _setup() unless the wave-vectors have been assigned, then the loop.  The
    result is the k reported in the attribute grid and the wave-vectors of each frame.
    The local variable kgrid of _compute is the list of self.kgrid after _setup(): the
    list given by the user, which every later _setup overwrites, or one of its own. *)
Definition sk_wavevectors (sides : list (list (num A))) (variable : bool) (s : rng_state g)
  (assigned : option (kstate A)) (grid : option (list (num A))) (idx : list nat)
  : res (list (num A) * list (kstate A)) :=
  match assigned with
  | Some K =>
      y <- frame_states sides variable s K grid idx ;; Ok (ks_grid K, fst y)
  | None =>
      side <- get sides 0 ;;
      x <- setup A fuel two_pi g p side s grid ;;
      y <- frame_states sides variable (snd x) (fst (fst x)) (snd (fst x)) idx ;;
      Ok (match snd y with Some l => l | None => ks_grid (fst (fst x)) end, fst y)
  end.
End VarCell.
