(** The time grid of the scattering functions starts at time zero. *)
From Coq Require Import List ZArith Bool Arith Reals Lra Lia Sorting.Sorted.
From Verif Require Import PyBase PyBaseFacts Num NumFacts M_Helpers M_KGrid M_Fourier M_Fkt Spec_Stats
  Spec_Correlation Spec_Fkt P_BondAngle P_Sk P_Sk3 P_Tcf P_Fkt P_Dynamics.
From Verif Require Spec_Time P_Time.
Import ListNotations.
Local Open Scope R_scope.

Lemma sorted_diff_pos : forall t i j, StronglySorted Z.lt t -> (i < j < length t)%nat -> (0 < pair_dt t (j, i))%Z.
Proof.
  intros t i j HS. revert i j. induction HS as [|x t HS IH F]; intros i j H; [cbn in H; lia|].
  unfold pair_dt in *. cbn [fst snd] in *. destruct j as [|j]; [lia|]. destruct i as [|i].
  - cbn [nth]. rewrite Forall_forall in F. specialize (F (nth j t 0%Z)). cbn in H.
    assert (x < nth j t 0)%Z by (apply F; apply nth_In; lia). lia.
  - cbn [nth length] in *. apply IH. lia.
Qed.

Lemma lag_dt_nonneg : forall steps p, StronglySorted Z.lt steps -> (fst p + snd p < length steps)%nat ->
  (0 <= Spec_Time.lag_dt steps p)%Z /\ (Spec_Time.lag_dt steps p = 0 -> snd p = 0%nat)%Z.
Proof.
  intros steps [o i] HS H. cbn [fst snd] in H. unfold Spec_Time.lag_dt, Spec_Time.lag_pair. cbn [fst snd].
  destruct i as [|i].
  - rewrite Nat.add_0_r. unfold pair_dt. cbn [fst snd]. lia.
  - pose proof (sorted_diff_pos steps o (o + S i) HS ltac:(lia)). lia.
Qed.

Lemma grid_starts_at_zero : forall steps bs dt tg offset g, StronglySorted Z.lt steps -> steps <> [] -> (1 <= bs)%nat ->
  0 < dt -> (exists t, In t tg /\ t <= 0) ->
  setup_t_grid Rops steps bs dt tg offset = Ok g ->
  exists r, g = (0, 0)%nat :: r /\ forall p, In p r -> (0 < snd p)%nat.
Proof.
  intros steps bs dt tg offset g HS Hne Hb Hdt [t [Ht Ht0]] E.
  destruct (P_Time.setup_t_grid_correct steps Rops dt bs tg offset g E) as [reqs [Er [Sg [Hu [Hr Hr']]]]].
  change (P_Time.the_offsets bs offset) with (if offset then seq 0 bs else [0%nat]) in *.
  set (offs := if offset then seq 0 bs else [0%nat]) in *.
  assert (H0 : In 0%nat offs) by (unfold offs; destruct offset; [apply in_seq; lia|left; reflexivity]).
  assert (Hl : (0 < length steps)%nat) by (destruct steps; [congruence|cbn; lia]).
  assert (U0 : Spec_Time.usable steps offs (0, 0)%nat) by (split; cbn; [assumption|lia]).
  assert (Z0 : Spec_Time.lag_dt steps (0, 0)%nat = 0%Z) by (unfold Spec_Time.lag_dt, pair_dt; cbn; lia).
  assert (Hreq : exists r, In r reqs /\ (r <= 0)%Z).
  { destruct (P_Time.to_step_R dt t ltac:(lra)) as [r [E1 B]]. exists r. split.
    - destruct (mapM_Ok_inv _ _ _ _ _ Er) as [_ HI] || idtac.
      revert Er. clear - Ht E1. revert reqs. induction tg as [|x tg IH]; intros reqs Er; [destruct Ht|].
      cbn [mapM] in Er. apply bind_Ok_inv in Er. destruct Er as [y [Ey Er]]. apply bind_Ok_inv in Er. destruct Er as [ys [Eys Er]].
      apply Ok_inj in Er. subst reqs. destruct Ht as [->|Ht].
      + left. change (num Rops) with R in *. rewrite E1 in Ey. apply Ok_inj in Ey. congruence.
      + right. apply IH; assumption.
    - assert (t / dt <= 0). { unfold Rdiv. rewrite <- (Rmult_0_l (/ dt)). apply Rmult_le_compat_r; [apply Rlt_le, Rinv_0_lt_compat; assumption|assumption]. }
      assert (IZR r < 1). { unfold Rabs in B. destruct (Rcase_abs (t / dt - IZR r)); lra. }
      apply lt_IZR in H1. lia. }
  destruct Hreq as [r [Hin Hr0]]. destruct (Hr r Hin) as [p [Hp [Ap Np]]].
  destruct (Hu p Hp) as [Up Ep].
  assert (Lp : (0 <= Spec_Time.lag_dt steps p)%Z) by (apply lag_dt_nonneg; [assumption|destruct Up; lia]).
  assert (Ez : Spec_Time.lag_dt steps p = 0%Z).
  { specialize (Np 0%Z (ex_intro _ _ (conj U0 Z0))). lia. }
  assert (P0 : p = (0, 0)%nat).
  { specialize (Ep _ U0). rewrite Z0, Ez in Ep. specialize (Ep eq_refl). destruct p as [a b]. cbn in Ep. f_equal; lia. }
  subst p. destruct g as [|q g]; [destruct Hp|].
  assert (Sq : forall p, In p g -> (Spec_Time.lag_dt steps q < Spec_Time.lag_dt steps p)%Z).
  { intros p Hpg. cbn [map] in Sg. inversion Sg as [|? ? _ F]. rewrite Forall_forall in F. apply F. apply in_map. assumption. }
  assert (Hq : (0 <= Spec_Time.lag_dt steps q)%Z).
  { destruct (Hu q (or_introl eq_refl)) as [[_ Uq] _]. apply lag_dt_nonneg; [assumption|lia]. }
  destruct Hp as [->|Hp].
  - exists g. split; [reflexivity|]. intros p Hpg. specialize (Sq p Hpg).
    destruct (snd p) eqn:Es; [|lia]. exfalso.
    rewrite Z0 in Sq. unfold Spec_Time.lag_dt, Spec_Time.lag_pair in Sq. rewrite Es, Nat.add_0_r in Sq. unfold pair_dt in Sq. cbn [fst snd] in Sq. lia.
  - exfalso. specialize (Sq _ Hp). lia.
Qed.

Lemma pairs_at_zero : forall steps r skip n, StronglySorted Z.lt steps -> length steps = n -> (forall p, In p r -> (0 < snd p)%nat) ->
  pairs_at steps 0 (admitted ((0, 0)%nat :: r) skip n) = map (fun i => (i, i)) (origins 0 skip n).
Proof.
  intros steps r skip n HS Ln Hr. unfold admitted, pairs_at. cbn [flat_map fst snd]. rewrite filter_app, Nat.sub_0_r.
  rewrite (map_ext (fun i0 => ((i0 + 0)%nat, i0)) (fun i => (i, i))) by (intros; rewrite Nat.add_0_r; reflexivity).
  rewrite <- (app_nil_r (map (fun i => (i, i)) (origins 0 skip n))) at 2. f_equal.
  - generalize (origins 0 skip n). intros l. induction l as [|i l IH]; [reflexivity|]. cbn [map filter].
    unfold pair_dt at 1. cbn [fst snd]. rewrite Z.sub_diag. cbn [Z.eqb]. f_equal. exact IH.
  - assert (G : forall p, In p (flat_map (fun p => map (fun i0 => ((i0 + snd p)%nat, i0)) (origins (fst p) skip (n - snd p))) r) ->
               (pair_dt steps p =? 0)%Z = false).
    { intros p Hp. apply in_flat_map in Hp. destruct Hp as [q [Hq Hp]]. apply in_map_iff in Hp. destruct Hp as [i [<- Hi]].
      apply origins_In in Hi. specialize (Hr q Hq). apply Z.eqb_neq.
      pose proof (sorted_diff_pos steps i (i + snd q) HS ltac:(lia)). lia. }
    induction (flat_map (fun p => map (fun i0 => ((i0 + snd p)%nat, i0)) (origins (fst p) skip (n - snd p))) r) as [|p l IH]; [reflexivity|].
    cbn [filter]. rewrite (G p) by (left; reflexivity). apply IH. intros; apply G; right; assumption.
Qed.

Lemma reported_head : forall steps r skip dts, StronglySorted Z.lt steps -> steps <> [] -> (1 <= skip)%nat ->
  reported steps (admitted ((0, 0)%nat :: r) skip (length steps)) dts -> exists ds, dts = 0%Z :: ds.
Proof.
  intros steps r skip dts HS Hne Hs [Sd Hd].
  assert (Hn : (1 <= length steps)%nat) by (destruct steps; [congruence|cbn; lia]).
  assert (In0 : In 0%Z dts).
  { apply Hd. exists (0, 0)%nat. split; [|unfold pair_dt; cbn; lia]. unfold admitted. cbn [flat_map fst snd].
    apply in_or_app. left. apply in_map_iff. exists 0%nat. split; [reflexivity|].
    rewrite Nat.sub_0_r. unfold origins. apply filter_In. split; [apply in_seq; lia|]. rewrite Nat.mod_0_l by lia. reflexivity. }
  destruct dts as [|d ds]; [destruct In0|]. destruct In0 as [->|In0]; [eauto|]. exfalso.
  inversion Sd as [|? ? _ F]. rewrite Forall_forall in F. specialize (F _ In0).
  destruct (proj1 (Hd d) (or_introl eq_refl)) as [p [Hp Ep]].
  assert (Hle : (snd p <= fst p < length steps)%nat).
  { unfold admitted in Hp. apply in_flat_map in Hp. destruct Hp as [q [_ Hp]]. apply in_map_iff in Hp. destruct Hp as [i [<- Hi]].
    apply origins_In in Hi. cbn. lia. }
  destruct (Nat.eq_dec (fst p) (snd p)) as [Eq|Nq].
  - unfold pair_dt in Ep. rewrite Eq in Ep. lia.
  - pose proof (sorted_diff_pos steps (snd p) (fst p) HS ltac:(lia)) as Q. destruct p as [pa pb]. cbn [fst snd] in *. lia.
Qed.

Lemma scatter_times_zero : forall total ts user tg, scatter_times total ts user true = Ok tg -> exists t, In t tg /\ t <= 0.
Proof.
  intros total ts user tg E. unfold scatter_times in E. destruct user as [g|].
  - apply bind_Ok_inv in E. destruct E as [t0 [E0 E]]. apply Ok_inj in E. subst tg.
    destruct (Rlt_dec 0 t0).
    + exists 0. split; [left; reflexivity|lra].
    + exists t0. split; [|lra]. destruct g as [|x g]; [discriminate|]. cbn in E0. apply Ok_inj in E0. left. congruence.
  - unfold logx_grid in E. destruct (ts =? 0)%nat; [discriminate|]. exists 0. split; [|lra].
    destruct (Rltb 0 0); apply Ok_inj in E; subst tg; left; reflexivity.
Qed.

Lemma scatter_grid_zero : forall steps bs dt total ts user single g, StronglySorted Z.lt steps -> steps <> [] -> (1 <= bs)%nat ->
  0 < dt -> scatter_grid steps bs dt total ts user true single = Ok g ->
  exists r, g = (0, 0)%nat :: r /\ forall p, In p r -> (0 < snd p)%nat.
Proof.
  intros steps bs dt total ts user single g HS Hne Hb Hdt E. unfold scatter_grid in E.
  apply bind_Ok_inv in E. destruct E as [tg [Et E]].
  eapply grid_starts_at_zero; try eassumption. eapply scatter_times_zero; eassumption.
Qed.
