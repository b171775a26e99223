(** Theorems about susceptibilities in double precision: C135. *)
From Coq Require Import List ZArith Bool Arith Reals Lia Lra Sorting.Sorted Floats.SpecFloat.
From Verif Require Import PyBase PyBaseFacts Num Spec_Stats NumFacts P_Text F64Round F64Ops F64Facts P_F64Mean P_F64Time P_F64Dot P_F64Order P_F64Overlap M_Helpers M_Analysis P_Suscept T_Analysis Spec_Doubles Spec_Fit64 P_Fit64 Spec_Suscept64 P_Suscept64.
Import ListNotations.
Local Open Scope R_scope.

(** ** C135 *)
(** The values ys of a correlation function of N particles, none above Y: N times their variance, from
    the values multiplied by N, any order of the sums, and a division by N. *)
Theorem C135_variance : forall (ys : list f64) N Y v, (1 <= length ys)%nat -> (Z.of_nat (length ys) <= 2 ^ 26)%Z -> (1 <= N)%nat -> (Z.of_nat N <= 2 ^ 30)%Z -> p2 (-400) <= Y <= p2 25 ->
  (forall y, In y ys -> ok y /\ Rabs (fval y) <= Y) -> variance_by (map (fun y => SFmul fprec femax y (f64_ofZ (Z.of_nat N))) ys) v ->
  let r := SFdiv fprec femax v (f64_ofZ (Z.of_nat N)) in
  ok r /\ 0 <= fval r /\ Rabs (fval r - INR N * variance (map fval ys)) <= 24 * (INR (length ys) + 4) * u * (INR N * (Y * Y)).
Proof. exact susceptibility_error. Qed.
Print Assumptions C135_variance.

Lemma np_var_by : forall l : list f64, variance_by l (np_var F64ops l).
Proof.
  intros l. exists (nsum F64ops l), (nsum F64ops (map (fun y => let d := SFsub fprec femax y (nmean F64ops l) in SFmul fprec femax d d) l)).
  split; [apply nsum_sum_of|]. cbv zeta. split; [apply (nsum_sum_of (map (fun y => let d := SFsub fprec femax y (nmean F64ops l) in SFmul fprec femax d d) l))|].
  unfold np_var, nmean, nofnat. cbv zeta. rewrite map_length. reflexivity.
Qed.

Lemma time_eq : forall x y, time_like x -> time_like y -> SFeqb x y = true <-> x = y.
Proof.
  intros x y [Kx Zx] [Ky Zy]. rewrite (eqb_spec x y Kx Ky). split; [|intros ->; reflexivity]. intros E. destruct (val_unique x y Kx Ky E) as [|[E1 E2]]; [assumption|].
  assert (Z : forall x, ok x -> x <> S754_zero true -> fval x = 0 -> x = S754_zero false).
  { intros [s|s| |s m e] K Nz E0; [destruct s; [contradiction|reflexivity]|destruct K as [_ []]|destruct K as [_ []]|]. exfalso. revert E0. unfold fval. fold (p2 e). pose proof (p2_pos e). assert (0 < IZR (Zpos m)) by (apply IZR_lt; lia).
    assert (0 < IZR (Zpos m) * p2 e) by (apply Rmult_lt_0_compat; assumption). destruct s; cbn [sgn]; intros E0; [assert (IZR (Zpos m) * p2 e = 0) by lra|]; lra. }
  rewrite (Z x Kx Zx E1), (Z y Ky Zy E2). reflexivity.
Qed.

(** The object's grid and values: each time found by a calculation with a single origin is reported
    once, in increasing order, with N times the variance of the values found at that time. *)
Theorem C135_susceptibility : forall N nsteps skip tgrid total corr grid value Y, (1 <= N)%nat -> (Z.of_nat N <= 2 ^ 30)%Z -> p2 (-400) <= Y <= p2 25 ->
  (forall i x y, corr i = Ok (x, y) -> Forall time_like x /\ Forall (fun v => ok v /\ Rabs (fval v) <= Y) y) ->
  susceptibility F64ops N nsteps skip tgrid total corr = Ok (grid, value) ->
  exists tlast n origins xys, getZ tgrid (-1) = Ok tlast /\ pyint F64ops (SFmul fprec femax (f64_ofZ (Z.of_nat nsteps)) (SFdiv fprec femax tlast total)) = Ok n /\
    (forall i, In i origins <-> (exists j, i = Z.of_nat (j * skip)) /\ (i < n - Z.of_nat skip)%Z) /\ NoDup origins /\ mapM corr origins = Ok xys /\
    Forall time_like grid /\ StronglySorted (fun a b => fval a < fval b) grid /\ (forall x, time_like x -> (In x grid <-> at_time x (all_pairs xys) <> [])) /\ length value = length grid /\
    forall k x v, nth_error grid k = Some x -> nth_error value k = Some v -> (Z.of_nat (length (at_time x (all_pairs xys))) <= 2 ^ 26)%Z ->
      ok v /\ 0 <= fval v /\ Rabs (fval v - INR N * variance (map fval (at_time x (all_pairs xys)))) <= 24 * (INR (length (at_time x (all_pairs xys))) + 4) * u * (INR N * (Y * Y)).
Proof.
  intros N nsteps skip tgrid total corr grid value Y HN HN30 HY Hc H. unfold susceptibility in H.
  apply bind_Ok_inv in H. destruct H as [tlast [E1 H]]. apply bind_Ok_inv in H. destruct H as [frac [E2 H]].
  apply bind_Ok_inv in H. destruct H as [origins [E3 H]]. apply bind_Ok_inv in H. destruct H as [xys [E4 H]].
  apply Ok_inj in H. destruct (suscept_origins_spec _ _ _ _ _ E3) as [n [En [_ [Ho No]]]]. apply pair_equal_spec in H. destruct H as [Hg Hv].
  assert (Fx : forall xy, In xy xys -> Forall time_like (fst xy) /\ Forall (fun v => ok v /\ Rabs (fval v) <= Y) (snd xy)).
  { clear - E4 Hc. revert xys E4. induction origins as [|o origins IH]; intros xys E4; [cbn in E4; apply Ok_inj in E4; subst xys; intros ? []|].
    cbn [mapM] in E4. apply bind_Ok_inv in E4. destruct E4 as [[x y] [Eo E4]]. apply bind_Ok_inv in E4. destruct E4 as [rest [Er E4]]. apply Ok_inj in E4. subst xys.
    intros xy [<-|I]; [exact (Hc _ _ _ Eo)|exact (IH rest Er xy I)]. }
  destruct (table_spec (neq F64ops) (nle F64ops) fval time_like time_eq
     (fun x y Dx Dy => leb_spec x y (proj1 Dx) (proj1 Dy)) (fun x y Dx Dy E => proj1 (time_eq x y Dx Dy) (proj2 (eqb_spec x y (proj1 Dx) (proj1 Dy)) E))
     (fun y => nmul F64ops y (nofnat F64ops N)) xys (fun xy I => proj1 (Fx xy I))) as [So [Fd [Ik Iv]]].
  exists tlast, n, origins, xys. split; [assumption|]. split; [unfold pydiv in E2; destruct (neq F64ops total (n0 F64ops)); [inversion E2|apply Ok_inj in E2; subst frac; exact En]|].
  split; [exact Ho|]. split; [exact No|]. split; [exact E4|]. split; [rewrite <- Hg; exact Fd|]. split; [rewrite <- Hg; exact So|]. split; [intros x Dx; rewrite <- Hg; exact (Ik x Dx)|].
  split; [rewrite <- Hg, <- Hv, !map_length; reflexivity|].
  intros k x v Ex Evv Hl. rewrite <- Hg in Ex. rewrite <- Hv in Evv. rewrite nth_error_map in Ex, Evv.
  match type of Ex with option_map _ (nth_error ?s k) = _ => destruct (nth_error s k) as [[x' l]|] eqn:Es; [|inversion Ex] end. cbn [option_map fst snd] in Ex, Evv.
  assert (x' = x) by (inversion Ex; reflexivity). subst x'. apply nth_error_In in Es. destruct (Iv x l Es) as [-> Nn].
  assert (v = fdiv (np_var F64ops (map (fun y => nmul F64ops y (nofnat F64ops N)) (found (neq F64ops) x (all_pairs xys)))) (f64_ofZ (Z.of_nat N))) by (inversion Evv; reflexivity). subst v.
  apply (susceptibility_error (at_time x (all_pairs xys)) N Y); [|exact Hl|exact HN|exact HN30|exact HY| |exact (np_var_by (map (fun y => fmul y (f64_ofZ (Z.of_nat N))) (at_time x (all_pairs xys))))].
  - destruct (at_time x (all_pairs xys)) eqn:Ea; [exfalso; apply Nn; exact Ea|cbn [length]; lia].
  - intros y Hy. unfold at_time in Hy. apply in_map_iff in Hy. destruct Hy as [[x' y'] [<- Hp]]. apply filter_In in Hp. destruct Hp as [Hp _]. unfold all_pairs in Hp. apply in_flat_map in Hp. destruct Hp as [xy [Ixy Hp]].
    apply in_combine_r in Hp. destruct (Fx xy Ixy) as [_ F]. rewrite Forall_forall in F. exact (F _ Hp).
Qed.
Print Assumptions C135_susceptibility.

(** Two particles, four frames, all origins; the values found at times 0 and 1 are 1, 2, 3. *)
Example C135_nonvacuous : let corr i := Ok ([f64_ofZ 0; f64_ofZ 1], [f64_ofZ (i + 1); f64_ofZ (i + 1)]) in
  exists grid value, susceptibility F64ops 2 4 1 [f64_ofZ 0; f64_ofZ 3] (f64_ofZ 3) corr = Ok (grid, value) /\ length grid = 2%nat /\
  value = [SFdiv fprec femax (f64_ofZ 4) (f64_ofZ 3); SFdiv fprec femax (f64_ofZ 4) (f64_ofZ 3)].
Proof. cbv zeta. eexists. eexists. split; [vm_compute; reflexivity|]. split; [reflexivity|]. vm_compute. reflexivity. Qed.
