(** Time grids in double precision: the times of a result, used as the time grid
    of another calculation, select the same frames (C98). *)
From Coq Require Import List ZArith Bool Arith Reals Lia Lra Psatz Sorting.Sorted Floats.SpecFloat.
From Verif Require Import PyBase PyBaseFacts Num P_Text F64Round F64Ops F64Facts M_Helpers M_Correlation M_Dynamics
  Spec_Correlation Spec_Time P_Time P_Skip P_Dynamics.
Import ListNotations.
Local Open Scope R_scope.

Lemma p2_small : p2 51 = IZR (2 ^ 51) /\ u * p2 51 = / 4.
Proof.
  split; [apply p2_Z; lia|]. unfold u. rewrite <- p2_add. unfold p2. replace (powerRZ 2 (-53 + 51)) with (/ (2 * (2 * 1)))%R by reflexivity. lra.
Qed.

Lemma format_p2 : forall e, (-1074 <= e)%Z -> format (p2 e).
Proof. intros e H. exists 1%Z, e. split; [ring|]. split; [reflexivity|exact H]. Qed.

(** Requests within a quarter of a step are understood as that step. *)
Lemma to_step_near : forall dt t k, ok dt -> ok t -> fval dt <> 0 -> (Z.abs k < 2 ^ 51)%Z ->
  Rabs (fval t - IZR k * fval dt) <= Rabs (fval dt) / 4 -> to_step F64ops dt t = Ok k.
Proof.
  intros dt t k Kd Kt Hd Hk H. unfold to_step, pydiv. cbn [neq n0 F64ops].
  destruct (SFeqb dt (S754_zero false)) eqn:E.
  { apply eqb_spec in E; [|assumption|apply ok_zero]. cbn in E. contradiction. }
  cbn [bind ndiv nrint F64ops]. set (d := fval dt) in *. set (v := fval t) in *.
  assert (P : 0 < Rabs d) by (apply Rabs_pos_lt; assumption).
  assert (Q : Rabs (v / d - IZR k) <= / 4).
  { replace (v / d - IZR k) with ((v - IZR k * d) / d) by (field; assumption). unfold Rdiv. rewrite Rabs_mult, Rabs_inv.
    apply Rmult_le_reg_r with (Rabs d); [exact P|]. rewrite Rmult_assoc, Rinv_l by lra. lra. }
  assert (Z1 : Rabs (IZR k) <= p2 51 - 1).
  { destruct p2_small as [-> _]. rewrite <- abs_IZR. rewrite <- minus_IZR. apply IZR_le. lia. }
  assert (B : Rabs (v / d) < p2 51).
  { replace (v / d) with (IZR k + (v / d - IZR k)) by ring. pose proof (Rabs_triang (IZR k) (v / d - IZR k)). lra. }
  assert (R1 : rounded (v / d) (SFdiv fprec femax t dt)) by (apply div_spec; try apply Kd; try apply Kt; assumption).
  destruct (rounded_bounded _ _ (p2 51) R1) as [Kq _]; [apply format_p2; lia|lra|apply p2_lt; lia|].
  assert (Hq : Rabs (fval (SFdiv fprec femax t dt) - v / d) < / 4).
  { apply Rle_lt_trans with (1 := proj2 (rounded_value _ _ R1 (proj2 Kq))). unfold half_ulp. apply Rmax_lub_lt.
    - fold u. destruct p2_small as [_ <-]. apply Rmult_lt_compat_l; [apply u_pos|exact B].
    - destruct p2_small as [_ <-]. unfold u. rewrite <- p2_add. apply p2_lt. lia. }
  rewrite (rint_exact _ k Kq); [reflexivity|].
  replace (fval (SFdiv fprec femax t dt) - IZR k) with ((fval (SFdiv fprec femax t dt) - v / d) + (v / d - IZR k)) by ring.
  pose proof (Rabs_triang (fval (SFdiv fprec femax t dt) - v / d) (v / d - IZR k)). lra.
Qed.

(** The reported time of k steps. *)
Lemma time_near : forall dt k, ok dt -> (Z.abs k < 2 ^ 51)%Z -> Rabs (IZR k * fval dt) <= p2 1023 ->
  let t := nmul F64ops (nofZ F64ops k) dt in ok t /\ Rabs (fval t - IZR k * fval dt) <= u * Rabs (IZR k * fval dt).
Proof.
  intros dt k Kd Hk B t. destruct (ofZ_exact k) as [Kk Ek]; [lia|].
  assert (R1 : rounded (IZR k * fval dt) t).
  { unfold t. cbn [nmul nofZ F64ops]. rewrite <- Ek. apply mul_spec; try apply Kd; apply Kk. }
  destruct (rounded_bounded _ _ (p2 1023) R1) as [Kt _]; [apply format_p2; lia|exact B|apply p2_lt; lia|].
  split; [exact Kt|]. destruct (format_multiple _ (ok_format _ Kd)) as [j Ej].
  apply (multiple_relative (k * j)); [|assumption|assumption]. rewrite Ej, mult_IZR. ring.
Qed.

Lemma quarter : forall dt k, (Z.abs k < 2 ^ 51)%Z -> u * Rabs (IZR k * fval dt) <= Rabs (fval dt) / 4.
Proof.
  intros dt k Hk. rewrite Rabs_mult, <- Rmult_assoc. unfold Rdiv. rewrite (Rmult_comm (Rabs (fval dt))).
  apply Rmult_le_compat_r; [apply Rabs_pos|]. destruct p2_small as [E <-]. apply Rmult_le_compat_l; [left; apply u_pos|].
  rewrite E, <- abs_IZR. apply IZR_le. lia.
Qed.

Lemma to_step_time : forall dt k, ok dt -> fval dt <> 0 -> (Z.abs k < 2 ^ 51)%Z -> Rabs (IZR k * fval dt) <= p2 1023 ->
  to_step F64ops dt (nmul F64ops (nofZ F64ops k) dt) = Ok k.
Proof.
  intros dt k Kd Hd Hk B. destruct (time_near dt k Kd Hk B) as [Kt E]. apply to_step_near; try assumption.
  apply Rle_trans with (1 := E). apply quarter. exact Hk.
Qed.

(** ** The same grid again, in any arithmetic *)
Lemma sorted_ext : forall (l m : list Z), StronglySorted Z.lt l -> StronglySorted Z.lt m -> (forall z, In z l <-> In z m) -> l = m.
Proof.
  induction l as [|a l IH]; intros m Hl Hm E.
  - destruct m as [|b m]; [reflexivity|]. exfalso. apply (proj2 (E b)). left. reflexivity.
  - destruct m as [|b m]; [exfalso; apply (proj1 (E a)); left; reflexivity|].
    inversion Hl as [|? ? Hl' Fl]; subst. inversion Hm as [|? ? Hm' Fm]; subst. rewrite Forall_forall in Fl, Fm.
    assert (a = b).
    { destruct (proj1 (E a) (or_introl eq_refl)) as [A|A]; [congruence|]. destruct (proj2 (E b) (or_introl eq_refl)) as [B|B]; [congruence|].
      specialize (Fl _ B). specialize (Fm _ A). lia. }
    subst b. f_equal. apply IH; [assumption|assumption|]. intros z. split; intros Hz.
    + destruct (proj1 (E z) (or_intror Hz)) as [A|A]; [|assumption]. subst z. specialize (Fl _ Hz). lia.
    + destruct (proj2 (E z) (or_intror Hz)) as [A|A]; [|assumption]. subst z. specialize (Fm _ Hz). lia.
Qed.

Lemma earliest_unique : forall steps offs p q, usable steps offs p -> usable steps offs q -> earliest steps offs p -> earliest steps offs q ->
  lag_dt steps p = lag_dt steps q -> p = q.
Proof.
  intros steps offs [a b] [c d] Up Uq Ep Eq E. specialize (Ep _ Uq (eq_sym E)). specialize (Eq _ Up E). cbn [fst snd] in *. f_equal; lia.
Qed.

Lemma map_lag_unique : forall steps offs g g', (forall p, In p g -> usable steps offs p /\ earliest steps offs p) ->
  (forall p, In p g' -> usable steps offs p /\ earliest steps offs p) -> map (lag_dt steps) g = map (lag_dt steps) g' -> g = g'.
Proof.
  intros steps offs. induction g as [|p g IH]; intros [|q g'] H H' E; cbn in E; try discriminate; [reflexivity|].
  injection E as E1 E2. f_equal.
  - destruct (H p (or_introl eq_refl)). destruct (H' q (or_introl eq_refl)). apply (earliest_unique steps offs); assumption.
  - apply IH; [intros; apply H; right; assumption|intros; apply H'; right; assumption|exact E2].
Qed.

Lemma setup_again : forall (A : arith) steps bs timestep grid grid' offset g, (1 <= bs)%nat ->
  setup_t_grid A steps bs timestep grid offset = Ok g ->
  mapM (to_step A timestep) grid' = Ok (map (lag_dt steps) g) ->
  setup_t_grid A steps bs timestep grid' offset = Ok g.
Proof.
  intros A steps bs timestep grid grid' offset g Hb H M.
  destruct (setup_t_grid_correct steps A timestep bs grid offset g H) as [reqs [_ [S [U _]]]].
  destruct steps as [|s0 steps'].
  { assert (g = []) as ->.
    { destruct g as [|p g]; [reflexivity|]. destruct (U p (or_introl eq_refl)) as [[_ L] _]. cbn in L. lia. }
    destruct grid'; [|cbn in M; destruct (to_step A timestep n); [cbn in M; destruct (mapM (to_step A timestep) grid'); discriminate|discriminate]].
    assert (grid = [] \/ grid <> []) as [-> | Ng] by (destruct grid; [left; reflexivity|right; discriminate]); [exact H|].
    revert H. unfold setup_t_grid. destruct (off_samp [] (if offset then seq 0 bs else [0%nat])) as [d|] eqn:Ed; [|discriminate]. intros _.
    reflexivity. }
  set (steps := s0 :: steps') in *.
  destruct (setup_t_grid_total steps A timestep bs grid' offset (map (lag_dt steps) g)) as [g' H']; [discriminate|exact Hb|exact M|].
  rewrite H'. f_equal.
  destruct (setup_t_grid_correct steps A timestep bs grid' offset g' H') as [reqs' [M' [S' [U' [N1 N2]]]]].
  rewrite M in M'. apply Ok_inj in M'. subst reqs'. symmetry. apply (map_lag_unique steps (the_offsets bs offset)); [exact U|exact U'|].
  assert (X : forall p r, In p g -> r = lag_dt steps p -> forall d, nearest steps (the_offsets bs offset) r d -> d = r).
  { intros p r Hp -> d [_ Hn]. specialize (Hn (lag_dt steps p)). destruct Hn as [Hn|Hn]; [exists p; split; [apply U; assumption|reflexivity]|lia|lia]. }
  apply sorted_ext; [exact S|exact S'|]. intros z. split; intros Hz.
  - destruct (N1 z Hz) as [q [Hq Nq]]. apply in_map_iff in Hz. destruct Hz as [p [Ep Hp]].
    rewrite <- (X p z Hp (eq_sym Ep) _ Nq). apply in_map. exact Hq.
  - apply in_map_iff in Hz. destruct Hz as [q [Eq Hq]]. destruct (N2 q Hq) as [r [Hr Nr]].
    pose proof Hr as Hr'. apply in_map_iff in Hr. destruct Hr as [p [Ep Hp]]. rewrite <- Eq, (X p r Hp (eq_sym Ep) _ Nr). exact Hr'.
Qed.

(** ** The times of a result *)
From Verif Require Import Spec_Doubles.

Definition reported (dt : f64) (k : Z) : f64 := nmul F64ops (nofZ F64ops k) dt.

Lemma lag_moderate : forall steps dt offs p, moderate_steps steps dt -> usable steps offs p ->
  (Z.abs (lag_dt steps p) < 2 ^ 51)%Z /\ Rabs (IZR (lag_dt steps p) * fval dt) <= p2 1023.
Proof. intros steps dt offs p [_ [_ H]] [_ U]. unfold lag_dt, lag_pair, pair_dt. cbn [fst snd]. apply H; lia. Qed.

Lemma mapM_steps : forall dt ks (ts : list f64), Forall2 (fun t k => to_step F64ops dt t = Ok k) ts ks -> mapM (to_step F64ops dt) ts = Ok ks.
Proof. intros dt ks ts H. induction H as [|t k ts ks E H IH]; [reflexivity|]. cbn [mapM]. rewrite E. cbn [bind]. rewrite IH. reflexivity. Qed.

Lemma reported_steps : forall steps dt offs g, moderate_steps steps dt -> (forall p, In p g -> usable steps offs p) ->
  Forall2 (fun t k => to_step F64ops dt t = Ok k) (map (reported dt) (map (lag_dt steps) g)) (map (lag_dt steps) g).
Proof.
  intros steps dt offs g M U. induction g as [|p g IH]; cbn [map]; constructor.
  - destruct (lag_moderate steps dt offs p M (U p (or_introl eq_refl))). destruct M as [K [N _]]. apply to_step_time; assumption.
  - apply IH. intros q Hq. apply U. right. exact Hq.
Qed.

Lemma close_steps : forall steps dt offs g ts, moderate_steps steps dt -> (forall p, In p g -> usable steps offs p) ->
  (forall p, In p g -> (Z.abs (lag_dt steps p) <= 40000)%Z) ->
  Forall2 six_digits_close ts (map (reported dt) (map (lag_dt steps) g)) ->
  Forall2 (fun t k => to_step F64ops dt t = Ok k) ts (map (lag_dt steps) g).
Proof.
  intros steps dt offs g ts M U L. revert ts. induction g as [|p g IH]; intros ts F; cbn [map] in F; inversion F as [|t' t ts' ts0 C F']; subst; constructor.
  - destruct (lag_moderate steps dt offs p M (U p (or_introl eq_refl))) as [B1 B2]. specialize (L p (or_introl eq_refl)).
    destruct M as [K [N _]]. set (k := lag_dt steps p) in *. destruct (time_near dt k K B1 B2) as [Kt E]. cbv zeta in E. fold (reported dt k) in E, Kt.
    destruct C as [Kt' C]. apply to_step_near; try assumption.
    assert (KB : Rabs (IZR k * fval dt) <= 40000 * Rabs (fval dt)).
    { rewrite Rabs_mult. apply Rmult_le_compat_r; [apply Rabs_pos|]. rewrite <- abs_IZR. apply IZR_le. exact L. }
    assert (UB : u <= / 1000000000).
    { apply Rle_trans with (p2 (-30)); [apply p2_le; lia|]. unfold p2. simpl. lra. }
    set (w := IZR k * fval dt) in *. set (d := fval dt) in *. pose proof (Rabs_pos d) as Pd. pose proof (Rabs_pos w) as Pw. pose proof u_pos as Pu.
    assert (T : Rabs (fval (reported dt k)) <= Rabs w + u * Rabs w).
    { replace (fval (reported dt k)) with (w + (fval (reported dt k) - w)) by ring. pose proof (Rabs_triang w (fval (reported dt k) - w)). lra. }
    replace (fval t' - w) with ((fval t' - fval (reported dt k)) + (fval (reported dt k) - w)) by ring.
    pose proof (Rabs_triang (fval t' - fval (reported dt k)) (fval (reported dt k) - w)) as TT.
    assert (UW : u * Rabs w <= / 1000000000 * Rabs w) by (apply Rmult_le_compat_r; assumption). lra.
  - apply IH; [intros q Hq; apply U; right; exact Hq|intros q Hq; apply L; right; exact Hq|exact F'].
Qed.

Lemma reported_increasing : forall steps dt offs g, moderate_steps steps dt -> 0 < fval dt -> (forall p, In p g -> usable steps offs p) ->
  StronglySorted Z.lt (map (lag_dt steps) g) -> increasing (map (reported dt) (map (lag_dt steps) g)).
Proof.
  intros steps dt offs g M P U S i j Hij. rewrite !map_length in Hij. set (ks := map (lag_dt steps) g) in *.
  assert (G : forall i, (i < length g)%nat -> exists p, In p g /\ nth i ks 0%Z = lag_dt steps p).
  { intros m Hm. exists (nth m g (0%nat, 0%nat)). split; [apply nth_In; exact Hm|]. unfold ks. rewrite <- (map_nth (lag_dt steps)). apply nth_indep. rewrite map_length. exact Hm. }
  assert (L : (nth i ks 0 < nth j ks 0)%Z).
  { assert (Hl : (j < length ks)%nat) by (unfold ks; rewrite map_length; lia). clear - S Hij Hl. revert i j Hij Hl. induction S as [|a l S IH F]; intros i j Hij Hl; [cbn in Hl; lia|].
    destruct j as [|j]; [lia|]. destruct i as [|i]; cbn [nth].
    - rewrite Forall_forall in F. apply F. apply nth_In. cbn in Hl. lia.
    - apply (IH i j); [|cbn in Hl; lia]. destruct Hij. split; [lia|]. cbn in Hl. lia. }
  rewrite (nth_indep _ _ (reported dt 0)) by (unfold ks; rewrite !map_length; lia). rewrite (nth_indep (map (reported dt) ks) (S754_zero false) (reported dt 0)) by (unfold ks; rewrite !map_length; lia).
  rewrite !map_nth. destruct (G i ltac:(lia)) as [p [Hp Ep]]. destruct (G j ltac:(lia)) as [q [Hq Eq]].
  destruct (lag_moderate steps dt offs p M (U p Hp)) as [A1 A2]. destruct (lag_moderate steps dt offs q M (U q Hq)) as [B1 B2]. destruct M as [K [N _]].
  rewrite Ep, Eq in *. set (k := lag_dt steps p) in *. set (k' := lag_dt steps q) in *.
  destruct (time_near dt k K A1 A2) as [Kt E]. destruct (time_near dt k' K B1 B2) as [Kt' E']. cbv zeta in E, E'. fold (reported dt k) in *. fold (reported dt k') in *.
  assert (T : forall z, ok (reported dt z) -> (Z.abs z < 2 ^ 51)%Z -> rounded (IZR z * fval dt) (reported dt z)).
  { intros z _ Hz. destruct (ofZ_exact z) as [Kz Ez]; [lia|]. rewrite <- Ez. apply mul_spec; try apply Kz; apply K. }
  assert (Le : fval (reported dt k) <= fval (reported dt k')).
  { apply rounded_lt_mono with (IZR k * fval dt) (IZR k' * fval dt); try (apply T; assumption); try assumption. apply Rmult_lt_compat_r; [exact P|]. apply IZR_lt. exact L. }
  destruct Le as [Lt|Eqq]; [exact Lt|exfalso].
  assert (X : to_step F64ops dt (reported dt k) = Ok k') by (apply to_step_near; try assumption; rewrite Eqq; apply Rle_trans with (1 := E'); apply quarter; assumption).
  pose proof (to_step_time dt k K N A1 A2) as Y. fold (reported dt k) in Y. rewrite X in Y. apply Ok_inj in Y. lia.
Qed.
