(** Normalisation of RadialDistributionFunctionFast (gr.py:328-362) for any arithmetic, with
    the powers [r**2], [r**3] of numpy left to a function [pow]: [fast_values] of M_GrObject
    uses repeated products. *)
From Coq Require Import List ZArith Bool Arith.
From Verif Require Import PyBase Num M_Helpers M_Correlation M_Dynamics M_Realspace M_LinkedCells M_GrObject.
Import ListNotations.
Local Open Scope nat_scope.

Section Norm.
Variable A : arith.
Variable pow : num A -> nat -> num A.

(** gr.py:341-348 *)
Definition shell_by (pi : num A) (ndims : nat) (r0 r1 : num A) : num A :=
  match ndims with
  | 2 => nmul A pi (nsub A (pow r1 2) (pow r0 2))
  | 3 => nmul A (ndiv A (nmul A (nofZ A 4) pi) (nofZ A 3)) (nsub A (pow r1 3) (pow r0 3))
  | _ => let n2 := Nat.div2 ndims in
         ndiv A (nmul A (pow pi n2) (nsub A (pow r1 ndims) (pow r0 ndims))) (nofnat A (fact n2))
  end.

(** gr.py:331 (r, the boundaries of the bins) *)
Definition edges_by (dr : num A) (n : nat) : res (list (num A)) :=
  let bins := fbins A dr n in
  b0 <- get bins 0 ;; b1 <- get bins 1 ;;
  let half := ndiv A (nsub A b1 b0) (nofZ A 2) in
  Ok (map (fun b => nsub A b half) bins).

(** gr.py:328-360, without the correction for cells that are not periodic *)
Definition fast_values_by (pi : num A) (ndims : nat) (distinct : bool) (dr : num A) (n : nat)
  (acc : list (list nat * (nat * nat))) (volume : num A) : res (list (num A) * list (num A)) :=
  r <- edges_by dr n ;;
  let N0 := nmean A (map (fun s => nofnat A (fst (snd s))) acc) in
  let N1 := nmean A (map (fun s => nofnat A (snd (snd s))) acc) in
  let rho := ndiv A N1 volume in
  let pairs := combine r (tl r) in
  let vals := map2 (fun g e =>
      let norm := nmul A (nmul A rho (shell_by pi ndims (fst e) (snd e))) N0 in
      ndiv A g (if distinct then norm else ndiv A norm (nofZ A 2)))
    (hist_average A (length pairs) (map fst acc)) pairs in
  Ok (fbins A dr n, vals).
End Norm.

Lemma fast_values_products : forall (A : arith) pi d distinct dr n acc volume,
  fast_values A pi d distinct false dr n acc volume = fast_values_by A (npow A) pi d distinct dr n acc volume.
Proof.
  intros. unfold fast_values, fast_values_by, edges_by. destruct (get (fbins A dr n) 0); [|reflexivity]. destruct (get (fbins A dr n) 1); reflexivity.
Qed.
