(** Theorems on the velocity and stress autocorrelations: C82, C83. *)
From Coq Require Import Ascii String List ZArith Bool Arith Reals Lia Lra Sorting.Sorted.
From Coq Require Import Floats.SpecFloat.
From Verif Require Import PyBase PyBaseFacts Num Spec_Stats NumFacts M_Helpers M_Correlation M_Dynamics
  Spec_Correlation P_Correlation Spec_Time P_Time P_Acf P_Helpers Spec_Dynamics P_Dynamics P_Dynamics2 P_Chi4 Spec_Velocity P_Vacf P_Symmetry.
Import ListNotations.
Local Open Scope R_scope.

(** ** C82 *)
Section VACF.
Variables (tr : traj Rops) (tgrid : list R) (n : norigins Rops) (vel : list (list (list R))) (N : nat) (g v : list R).
Hypothesis Hl : length (t_steps tr) = length vel.
Hypothesis HN : forall x, In x vel -> length x = N.
Hypothesis E : vacf_compute Rops tr (Some tgrid) n vel = Ok (g, v).

Lemma vacf_pairs : exists dts dg, g = times_of tr dts /\
  grouped_mean (A := Rops) velocity_overlap (t_steps tr) vel [] (admitted dg (t_bs tr) (length vel)) dts v /\
  in_range (length vel) (admitted dg (t_bs tr) (length vel)).
Proof.
  destruct (vacf_spec tr tgrid n vel N g v Hl HN E) as [dts [dg [Eg [_ G]]]]. exists dts, dg.
  split; [exact Eg|]. split; [exact G|]. intros p Hp. apply (admitted_range _ _ _ _ Hp).
Qed.

(** Z(t) never exceeds in modulus the largest mean square velocity of a frame. *)
Lemma vacf_bounded : forall c, (forall x, In x vel -> mean_square x <= c) -> forall e, In e v -> Rabs e <= c.
Proof.
  intros c Hc e He. destruct vacf_pairs as [dts [dg [_ [G R]]]].
  assert (B : forall x y, In x vel -> In y vel -> - c <= velocity_overlap x y <= c).
  { intros x y Hx Hy. pose proof (overlap_bound x y N (HN x Hx) (HN y Hy)). pose proof (Hc x Hx). pose proof (Hc y Hy). lra. }
  apply Rabs_le. split.
  - apply (value_ge _ _ _ _ _ _ _ _ G R); [|exact He]. intros x y Hx Hy. apply B; assumption.
  - apply (value_le _ _ _ _ _ _ _ _ G R); [|exact He]. intros x y Hx Hy. apply B; assumption.
Qed.

(** At time zero: the mean over some frames of the mean square velocity. *)
Lemma vacf_zero : forall k, StronglySorted Z.lt (t_steps tr) -> t_dt tr <> 0 -> (k < length v)%nat -> nth k g 0 = 0 ->
  exists is, is <> [] /\ (forall i, In i is -> (i < length vel)%nat) /\
    nth k v 0 = rmean (map (fun i => mean_square (nth i vel [])) is).
Proof.
  intros k Hs Hd Hk H0. destruct vacf_pairs as [dts [dg [Eg [G R]]]]. rewrite Eg in H0.
  destruct (value_at_zero _ _ _ _ _ _ _ _ _ _ G R Hs Hl Hd Hk H0) as [is [I1 [I2 I3]]].
  exists is. split; [exact I1|]. split; [intros i Hi; apply I2; exact Hi|].
  refine (eq_trans I3 _). f_equal. apply map_ext. intros i. apply overlap_self.
Qed.

(** Velocities that do not change. *)
Lemma vacf_constant : forall w, (forall x, In x vel -> x = w) -> forall e, In e v -> e = mean_square w.
Proof.
  intros w Hw e He. destruct vacf_pairs as [dts [dg [_ [G R]]]]. apply Rle_antisym.
  - apply (value_le _ _ _ _ _ _ _ _ G R); [|exact He]. intros x y Hx Hy. rewrite (Hw x Hx), (Hw y Hy), overlap_self. lra.
  - apply (value_ge _ _ _ _ _ _ _ _ G R); [|exact He]. intros x y Hx Hy. rewrite (Hw x Hx), (Hw y Hy), overlap_self. lra.
Qed.
End VACF.

Theorem C82_bounded : forall (tr : traj Rops) tgrid n (vel : list (list (list R))) N g v c,
  length (t_steps tr) = length vel -> (forall x, In x vel -> length x = N) ->
  vacf_compute Rops tr (Some tgrid) n vel = Ok (g, v) ->
  (forall x, In x vel -> mean_square x <= c) -> forall e, In e v -> Rabs e <= c.
Proof. intros tr tgrid n vel N g v c Hl HN E. exact (vacf_bounded tr tgrid n vel N g v Hl HN E c). Qed.
Print Assumptions C82_bounded.

Theorem C82_time_zero : forall (tr : traj Rops) tgrid n (vel : list (list (list R))) N g v k,
  length (t_steps tr) = length vel -> (forall x, In x vel -> length x = N) ->
  vacf_compute Rops tr (Some tgrid) n vel = Ok (g, v) ->
  StronglySorted Z.lt (t_steps tr) -> t_dt tr <> 0 -> (k < length v)%nat -> nth k g 0 = 0 ->
  0 <= nth k v 0 /\
  exists is, is <> [] /\ (forall i, In i is -> (i < length vel)%nat) /\
    nth k v 0 = rmean (map (fun i => mean_square (nth i vel [])) is).
Proof.
  intros tr tgrid n vel N g v k Hl HN E Hs Hd Hk H0.
  destruct (vacf_zero tr tgrid n vel N g v Hl HN E k Hs Hd Hk H0) as [is [I1 [I2 I3]]]. split; [|eauto].
  match goal with |- _ <= ?a => replace a with (rmean (map (fun i => mean_square (nth i vel [])) is)) by (symmetry; exact I3) end. apply rmean_ge; [destruct is; [congruence|discriminate]|]. intros e He. apply in_map_iff in He.
  destruct He as [i [<- _]]. apply mean_square_nonneg.
Qed.
Print Assumptions C82_time_zero.

Theorem C82_constant : forall (tr : traj Rops) tgrid n (vel : list (list (list R))) N g v w,
  length (t_steps tr) = length vel -> (forall x, In x vel -> length x = N) ->
  vacf_compute Rops tr (Some tgrid) n vel = Ok (g, v) ->
  (forall x, In x vel -> x = w) -> forall e, In e v -> e = mean_square w.
Proof. intros tr tgrid n vel N g v w Hl HN E. exact (vacf_constant tr tgrid n vel N g v Hl HN E w). Qed.
Print Assumptions C82_constant.

(** Inverting all the velocities changes nothing. *)
Theorem C82_reversal : forall (tr : traj Rops) tgrid n (vel : list (list (list R))) N,
  length (t_steps tr) = length vel -> (forall x, In x vel -> length x = N) ->
  vacf_compute Rops tr tgrid n (map (map (map Ropp)) vel) = vacf_compute Rops tr tgrid n vel.
Proof.
  intros tr tgrid n vel N Hl HN. apply (vacf_compute_map Rops (map (map Ropp))); [exact Hl|].
  intros x y Hx Hy. rewrite !vacf_f_R by (rewrite ?map_length, (HN x Hx), (HN y Hy); reflexivity).
  unfold rmean. rewrite !map_length, !combine_length, !map_length. f_equal. clear Hx Hy. revert y.
  induction x as [|r x IH]; intros [|s y]; cbn [map combine rsum fst snd]; try reflexivity. rewrite IH. f_equal.
  clear. revert s. induction r as [|a r IH]; intros [|b s]; cbn [map dotv]; try reflexivity. rewrite IH. ring.
Qed.
Print Assumptions C82_reversal.

(** Two particles in two dimensions, three frames. *)
Definition vel_frames : list (frame F64ops) :=
  map (map (map f64_ofZ)) [[[1; 0]; [0; 1]]; [[0; 2]; [1; 0]]; [[-1; 0]; [0; 3]]]%Z.
Example C82_nonvacuous :
  vacf_compute F64ops (mkTraj (A:=F64ops) [0; 1; 2]%Z 1 (f64_ofZ 1) (f64_ofZ 2) 2) (Some (map f64_ofZ [0; 2]%Z)) (NoInt (-1)) vel_frames
  = Ok (map f64_ofZ [0; 2]%Z, [f64_frac 17 6; f64_ofZ 1]).
Proof. vm_compute. reflexivity. Qed.

(** ** C83 *)
(** In three dimensions: the average of the mean product of the three off-diagonal
    components of the stress, over the volume. *)
Lemma sacf_spec : forall (tr : traj Rops) tgrid n volume mass (virial vel : list (list (list R))) g v,
  length (t_steps tr) = length vel -> length virial = length vel ->
  (forall s, In s virial -> length s = 3%nat /\ forall r, In r s -> length r = 3%nat) ->
  (forall x r, In x vel -> In r x -> length r = 3%nat) ->
  sacf_compute Rops tr tgrid n volume mass virial vel = Ok (g, v) ->
  exists dts dg v0, g = times_of tr dts /\
    setup_t_grid Rops (t_steps tr) (t_bs tr) (t_dt tr) tgrid (not_str_1 Rops n) = Ok dg /\
    grouped_mean (A := Rops) (fun a b => dotv a b / 3) (t_steps tr)
      (map (fun sv => off_diagonal mass (fst sv) (snd sv)) (combine virial vel)) []
      (admitted dg (t_bs tr) (length vel)) dts v0 /\
    v = map (fun e => e / volume) v0.
Proof.
  intros tr tgrid n volume mass virial vel g v Hl Hlv Hs Hv E. unfold sacf_compute in E.
  apply bind_Ok_inv in E. destruct E as [sk [_ E]]. apply bind_Ok_inv in E. destruct E as [dg [Edg E]].
  apply bind_Ok_inv in E. destruct E as [st [Est E]]. apply bind_Ok_inv in E. destruct E as [r [Er E]].
  apply Ok_inj in E. injection E as <- <-. destruct r as [g v0]. cbn [fst snd].
  assert (st = map (fun sv => off_diagonal mass (fst sv) (snd sv)) (combine virial vel)) as Hst.
  { rewrite (mapM_pure _ _ _ (fun sv => off_diagonal mass (fst sv) (snd sv))) in Est; [apply Ok_inj in Est; symmetry; exact Est|].
    intros [s x] H. cbn [fst snd]. pose proof (in_combine_l _ _ _ _ H) as H1. pose proof (in_combine_r _ _ _ _ H) as H2.
    apply stress_frame_R; [apply (proj2 (Hs s H1))|apply (Hs s H1)|intros q Hq; apply (Hv x); assumption]. }
  assert (Ls : length st = length vel) by (rewrite Hst, map_length, combine_length, Hlv; apply Nat.min_id).
  destruct (offset_compute_spec _ _ _ _ _ _ _ [] _ _ (eq_trans Hl (eq_sym Ls)) Er) as [dts [Eg G]].
  exists dts, dg, v0. split; [exact Eg|]. split; [exact Edg|]. split; [|reflexivity].
  rewrite <- Hst. change (num Rops) with R in *. rewrite <- Ls.
  eapply grouped_mean_ext; [|exact G]. intros p Hp. apply admitted_range in Hp.
  assert (L3 : forall q, In q st -> length q = 3%nat).
  { intros q Hq. rewrite Hst in Hq. apply in_map_iff in Hq. destruct Hq as [z [<- _]]. reflexivity. }
  cbv beta. rewrite sacf_f_R by (rewrite !L3; [reflexivity| |]; apply nth_In; lia).
  rewrite (L3 (nth (fst p) st [])) by (apply nth_In; lia). f_equal. cbn. lra.
Qed.
Theorem C83_average_partial : forall (tr : traj Rops) tgrid n volume mass (virial vel : list (list (list R))) g v,
  length (t_steps tr) = length vel -> length virial = length vel ->
  (forall s, In s virial -> length s = 3%nat /\ forall r, In r s -> length r = 3%nat) ->
  (forall x r, In x vel -> In r x -> length r = 3%nat) ->
  sacf_compute Rops tr tgrid n volume mass virial vel = Ok (g, v) ->
  exists dts dg v0, g = times_of tr dts /\
    setup_t_grid Rops (t_steps tr) (t_bs tr) (t_dt tr) tgrid (not_str_1 Rops n) = Ok dg /\
    grouped_mean (A := Rops) (fun a b => dotv a b / 3) (t_steps tr)
      (map (fun sv => off_diagonal mass (fst sv) (snd sv)) (combine virial vel)) []
      (admitted dg (t_bs tr) (length vel)) dts v0 /\
    v = map (fun e => e / volume) v0.
Proof. exact sacf_spec. Qed.
Print Assumptions C83_average_partial.

(** Not negative at time zero, and bounded by the largest mean square stress of a frame. *)
Theorem C83_bounds_partial : forall (tr : traj Rops) tgrid n volume mass (virial vel : list (list (list R))) g v c,
  length (t_steps tr) = length vel -> length virial = length vel ->
  (forall s, In s virial -> length s = 3%nat /\ forall r, In r s -> length r = 3%nat) ->
  (forall x r, In x vel -> In r x -> length r = 3%nat) ->
  sacf_compute Rops tr tgrid n volume mass virial vel = Ok (g, v) -> 0 < volume ->
  (forall s x, In (s, x) (combine virial vel) -> dotv (off_diagonal mass s x) (off_diagonal mass s x) / 3 <= c) ->
  (forall e, In e v -> Rabs e <= c / volume) /\
  (forall k, StronglySorted Z.lt (t_steps tr) -> t_dt tr <> 0 -> (k < length v)%nat -> nth k g 0 = 0 -> 0 <= nth k v 0).
Proof.
  intros tr tgrid n volume mass virial vel g v c Hl Hlv Hs Hv E V Hc.
  destruct (sacf_spec tr tgrid n volume mass virial vel g v Hl Hlv Hs Hv E) as [dts [dg [v0 [Eg [_ [G ->]]]]]].
  set (st := map (fun sv => off_diagonal mass (fst sv) (snd sv)) (combine virial vel)) in *.
  assert (Ls : length st = length vel) by (unfold st; rewrite map_length, combine_length, Hlv; apply Nat.min_id).
  assert (R : in_range (length st) (admitted dg (t_bs tr) (length vel))).
  { rewrite Ls. intros p Hp. apply (admitted_range _ _ _ _ Hp). }
  assert (C1 : forall a, In a st -> dotv a a / 3 <= c).
  { intros a Ha. apply in_map_iff in Ha. destruct Ha as [[s x] [<- H]]. apply Hc. exact H. }
  assert (IV : 0 < / volume) by (apply Rinv_0_lt_compat; exact V).
  split.
  - intros e He. apply in_map_iff in He. destruct He as [e0 [<- He0]]. unfold Rdiv.
    rewrite Rabs_mult, (Rabs_right (/ volume)) by lra. apply Rmult_le_compat_r; [lra|]. apply Rabs_le. split.
    + apply (value_ge _ _ _ _ _ _ _ _ G R); [|exact He0]. intros a b Ha Hb. pose proof (dotv_amgm a b).
      pose proof (C1 a Ha). pose proof (C1 b Hb). lra.
    + apply (value_le _ _ _ _ _ _ _ _ G R); [|exact He0]. intros a b Ha Hb. pose proof (dotv_amgm a b).
      pose proof (C1 a Ha). pose proof (C1 b Hb). lra.
  - intros k Hst Hd Hk H0. rewrite map_length in Hk. rewrite Eg in H0.
    destruct (value_at_zero _ _ _ _ _ _ _ _ _ _ G R Hst (eq_trans Hl (eq_sym Ls)) Hd Hk H0) as [is [I1 [I2 I3]]].
    rewrite (nth_map_lt _ _ _ _ _ _ 0) by exact Hk. apply Rmult_le_pos; [|lra].
    match goal with |- _ <= ?a => replace a with (rmean (map (fun i => dotv (nth i st []) (nth i st []) / 3) is)) by (symmetry; exact I3) end.
    apply rmean_ge; [destruct is; [congruence|discriminate]|]. intros e He. apply in_map_iff in He. destruct He as [i [<- _]].
    pose proof (dotv_sq_nonneg (nth i st [])). lra.
Qed.
Print Assumptions C83_bounds_partial.

(** In two dimensions the calculation fails for every trajectory. *)
Theorem C83_two_dimensions_refuted : forall (A : arith) (tr : traj A) tgrid n volume mass virial vel,
  virial <> [] -> length virial = length vel ->
  (forall s, In s virial -> length s = 2%nat /\ forall r, In r s -> length r = 2%nat) ->
  (forall x r, In x vel -> In r x -> length r = 2%nat) ->
  exists e, sacf_compute A tr tgrid n volume mass virial vel = Err e.
Proof.
  intros A tr tgrid n volume mass virial vel Hne Hl Hs Hv. unfold sacf_compute.
  destruct (adjust_skip A (length (t_steps tr)) (t_npart tr) (t_bs tr) n) as [sk|e]; [|eexists; reflexivity]. cbn [bind].
  destruct (setup_t_grid A (t_steps tr) (t_bs tr) (t_dt tr) tgrid (not_str_1 A n)) as [dg|e]; [|eexists; reflexivity]. cbn [bind].
  destruct virial as [|s virial]; [congruence|]. destruct vel as [|x vel]; [discriminate|]. cbn [combine mapM fst snd].
  rewrite stress_2d; [eexists; reflexivity| | |].
  - apply (Hs s). left. reflexivity.
  - apply (Hs s). left. reflexivity.
  - intros r Hr. apply (Hv x); [left; reflexivity|exact Hr].
Qed.
Print Assumptions C83_two_dimensions_refuted.

Example C83_nonvacuous :
  sacf_compute F64ops (mkTraj (A:=F64ops) [0; 1]%Z 1 (f64_ofZ 1) (f64_ofZ 1) 1) (map f64_ofZ [0; 1]%Z) (NoInt (-1)) (f64_ofZ 2)
    [f64_ofZ 1] (map (map (map f64_ofZ)) [[[0; 1; 0]; [1; 0; 0]; [0; 0; 0]]; [[0; 2; 0]; [2; 0; 0]; [0; 0; 0]]]%Z)
    (map (map (map f64_ofZ)) [[[1; 2; 0]]; [[1; 1; 0]]]%Z)
  = Ok (map f64_ofZ [0; 1]%Z, [f64_frac 3 2; f64_frac 3 2]) /\
  sacf_compute F64ops (mkTraj (A:=F64ops) [0; 1]%Z 1 (f64_ofZ 1) (f64_ofZ 1) 1) (map f64_ofZ [0; 1]%Z) (NoInt (-1)) (f64_ofZ 2)
    [f64_ofZ 1] (map (map (map f64_ofZ)) [[[0; 1]; [1; 0]]; [[0; 2]; [2; 0]]]%Z)
    (map (map (map f64_ofZ)) [[[1; 2]]; [[1; 1]]]%Z) = Err IndexError.
Proof. vm_compute. split; reflexivity. Qed.
