(** The cosine of a bond angle in double precision: C35. *)
From Coq Require Import Ascii String List ZArith Bool Arith Reals Lia Lra Floats.SpecFloat.
From Verif Require Import PyBase Num P_Text F64Round F64Ops F64Facts M_BondAngle.
Import ListNotations.
Local Open Scope R_scope.

(** Rounding may give cosines beyond -1 or 1.  The cosine passed to the arc cosine is
    the nearest number between -1 and 1, and the computed one if it lies there. *)
Theorem C35_cosine : forall c : f64, ok c ->
  ok (clamp F64ops c) /\ fval (clamp F64ops c) = Rmax (-1) (Rmin 1 (fval c)).
Proof.
  intros c Hc.
  destruct (ofZ_exact 0 ltac:(lia)) as [K0 V0]. destruct (ofZ_exact 1 ltac:(lia)) as [K1 V1]. destruct (ofZ_exact (-1) ltac:(lia)) as [Km Vm].
  unfold clamp. cbv zeta. change (n0 F64ops) with (f64_ofZ 0). change (n1 F64ops) with (f64_ofZ 1).
  change (nofZ F64ops (-1)) with (f64_ofZ (-1)).
  change (nle F64ops) with SFleb. change (nlt F64ops) with SFltb.
  assert (LE : forall x y, ok x -> ok y -> SFleb x y = true /\ fval x <= fval y \/ SFleb x y = false /\ fval y < fval x).
  { intros x y Hx Hy. pose proof (leb_spec x y Hx Hy) as I. destruct (SFleb x y); [left|right]; (split; [reflexivity|]).
    - apply I. reflexivity.
    - apply Rnot_le_lt. intros H. apply I in H. discriminate. }
  assert (LT : forall x y, ok x -> ok y -> SFltb x y = true /\ fval x < fval y \/ SFltb x y = false /\ fval y <= fval x).
  { intros x y Hx Hy. pose proof (ltb_spec x y Hx Hy) as I. destruct (SFltb x y); [left|right]; (split; [reflexivity|]).
    - apply I. reflexivity.
    - apply Rnot_lt_le. intros H. apply I in H. discriminate. }
  assert (MM : forall v w, (v < -1 /\ w = -1 \/ 1 < v /\ w = 1 \/ -1 <= v <= 1 /\ w = v) -> w = Rmax (-1) (Rmin 1 v)).
  { intros v w H. unfold Rmax, Rmin. destruct (Rle_dec 1 v); [destruct (Rle_dec (-1) 1)|destruct (Rle_dec (-1) v)]; lra. }
  destruct (LE c (f64_ofZ 0) Hc K0) as [[-> L]|[-> L]].
  - destruct (LT c (f64_ofZ (-1)) Hc Km) as [[-> M]|[-> M]].
    + destruct (LT (f64_ofZ 0) (f64_ofZ (-1)) K0 Km) as [[-> P]|[-> P]]; [rewrite V0, Vm in P; lra|].
      split; [exact Km|]. apply MM. left. split; [|exact Vm]. rewrite Vm in M. exact M.
    + destruct (LT (f64_ofZ 0) c K0 Hc) as [[-> P]|[-> P]]; [lra|].
      split; [exact Hc|]. apply MM. right. right. rewrite Vm in M. rewrite V0 in L. lra.
  - destruct (LT (f64_ofZ 0) c K0 Hc) as [[-> P]|[-> P]]; [|lra].
    destruct (LT (f64_ofZ 1) c K1 Hc) as [[-> Q]|[-> Q]].
    + split; [exact K1|]. apply MM. right. left. rewrite V1 in Q. split; [exact Q|exact V1].
    + split; [exact Hc|]. apply MM. right. right. rewrite V1 in Q. rewrite V0 in P. lra.
Qed.
Print Assumptions C35_cosine.

(** A straight chain along the diagonal: the cosine computed is beyond -1. *)
Example C35_cosine_nonvacuous :
  clamp F64ops (f64_frac 1 3) = f64_frac 1 3 /\
  exists c, SFltb c (f64_ofZ (-1)) = true /\ clamp F64ops c = f64_ofZ (-1).
Proof. split; [vm_compute; reflexivity|]. exists (S754_finite true 4503599627370497 (-52)). split; vm_compute; reflexivity. Qed.
