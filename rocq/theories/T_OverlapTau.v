(** Theorems about the relaxation time of the self overlap function: C119. *)
From Coq Require Import Ascii String List ZArith Bool Arith Reals Lia Lra Sorting.Sorted.
From Verif Require Import PyBase PyBaseFacts Num Spec_Stats NumFacts Spec_Fit Spec_Correlation Spec_Time Spec_Dynamics
  Spec_Analyze M_Helpers M_Correlation M_Dynamics M_Analyze P_Helpers P_Dynamics P_Dynamics2 P_Overlap P_Analyze P_Analyze2 T_Dynamics.
Import ListNotations.
Local Open Scope R_scope.

(** ** Specification *)
(** t is where the broken line through the points goes below the level for the first
    time. *)
Definition falls_below (x y : list R) (level t : R) : Prop :=
  exists k, (1 <= k < length x)%nat /\ (forall j, (j < k)%nat -> level <= nth j y 0) /\ nth k y 0 < level /\
    nth (k - 1) x 0 <= t < nth k x 0 /\
    line_through (nth (k - 1) x 0) (nth (k - 1) y 0) (nth k x 0) (nth k y 0) t = level.

Lemma inv_e : 0 < / exp 1 < 1.
Proof.
  pose proof (exp_pos 1). split; [apply Rinv_0_lt_compat; assumption|].
  pose proof (exp_increasing 0 1 ltac:(lra)) as K. rewrite exp_0 in K. rewrite <- Rinv_1 at 2. apply Rinv_lt_contravar; lra.
Qed.

(** ** C119 *)
(** The overlap function starts from 1 at time 0; its relaxation time is where it falls
    below 1/e for the first time, and None stands for a function that stays above. *)
Theorem C119_overlap_tau :
  forall (tr : traj Rops) grid n a (unf : list (list (list R))) N (g v : list R),
  length (t_steps tr) = length unf -> (forall x, In x unf -> length x = N) -> (1 <= N)%nat -> a <> 0 ->
  StronglySorted Z.lt (t_steps tr) -> 0 < t_dt tr ->
  self_overlap_compute Rops tr grid n a unf = Ok (g, v) -> v <> [] -> nth 0 g 0 = 0 ->
  exists tau, overlap_analyze g v = Ok tau /\
    match tau with
    | Some t => falls_below g v (/ exp 1) t /\ 0 <= t <= last g 0
    | None => forall e, In e v -> / exp 1 <= e
    end.
Proof.
  intros tr grid n a unf N g v Hl HN N1 Ha Hs Hdt E Hv Hg0.
  pose proof inv_e as [e0 e1].
  assert (increasing g /\ length g = length v) as [Hi Hlen].
  { unfold self_overlap_compute in E. destruct (grid_compute_inv _ _ _ _ _ _ _ _ E) as [skip [dg [_ [_ E']]]].
    exact (offset_compute_increasing _ _ tr dg skip unf [] g v Hdt Hl E'). }
  assert (V0 : nth 0 v 0 = 1).
  { destruct (C19_self_overlap tr grid n a unf N g v Hl HN N1 Ha E) as [dts [ps [_ [_ [_ [_ H]]]]]].
    apply H; try assumption; [lra|]. destruct v; [congruence|cbn; lia]. }
  clear E. assert (g <> []) as Hg by (destruct g, v; try discriminate; congruence).
  destruct (first_root_spec g v (/ exp 1) Hi Hlen Hg) as [r [Er H]]. exists r. split; [exact Er|].
  destruct r as [t|].
  - destruct H as [k [Hk [C [F [T L]]]]]. unfold crossing in C, F. rewrite V0 in C, F. split.
    + exists k. split; [exact Hk|]. split; [|split; [|split; assumption]].
      * intros j Hj. specialize (F j Hj). apply Rnot_lt_le. intros K. apply F.
        assert (0 < (/ exp 1 - nth j v 0) * (1 - / exp 1)) by (apply Rmult_lt_0_compat; lra). lra.
      * apply Rnot_le_lt. intros K.
        assert (0 <= (nth k v 0 - / exp 1) * (1 - / exp 1)) by (apply Rmult_le_pos; lra). lra.
    + assert (forall q q', (q <= q' < length g)%nat -> nth q g 0 <= nth q' g 0) as Q.
      { intros q q' Hq. destruct (Nat.eq_dec q q') as [->|]; [lra|]. left. apply increasing_nth; [exact Hi|lia]. }
      rewrite (last_nth _ g) by exact Hg.
      pose proof (Q 0%nat (k - 1)%nat ltac:(lia)). pose proof (Q k (length g - 1)%nat ltac:(lia)). lra.
  - intros e He. apply (In_nth _ _ 0) in He. destruct He as [j [Hj <-]]. specialize (H j Hj). unfold crossing in H. rewrite V0 in H.
    apply Rnot_lt_le. intros K. apply H.
    assert (0 < (/ exp 1 - nth j v 0) * (1 - / exp 1)) by (apply Rmult_lt_0_compat; lra). lra.
Qed.
Print Assumptions C119_overlap_tau.

(** One particle that jumps: the overlap goes from 1 to 0 within one interval of time,
    and the relaxation time is 1 - 1/e of it. *)
Example C119_nonvacuous :
  (forall t, falls_below [0; 1] [1; 0] (/ exp 1) t <-> t = 1 - / exp 1) /\
  (exists g v, self_overlap_compute F64ops (mkTraj (A:=F64ops) [0; 1]%Z 1 (f64_ofZ 1) (f64_ofZ 1) 1) (map f64_ofZ [0; 1]%Z) (NoInt (-1)) (f64_frac 3 10)
     [[[f64_ofZ 0]]; [[f64_ofZ 1]]] = Ok (g, v) /\ v = map f64_ofZ [1; 0]%Z).
Proof.
  pose proof inv_e as [e0 e1]. split.
  - intros t. split.
    + intros [k [Hk [_ [_ [T L]]]]]. cbn [length] in Hk. assert (k = 1)%nat as -> by lia. cbn [nth Nat.sub] in L. unfold line_through in L. lra.
    + intros ->. exists 1%nat. cbn [length nth Nat.sub]. split; [lia|]. split; [intros j Hj; assert (j = 0)%nat as -> by lia; cbn [nth]; lra|].
      split; [lra|]. split; [lra|]. unfold line_through. lra.
  - eexists _, _. split; [vm_compute; reflexivity|vm_compute; reflexivity].
Qed.
