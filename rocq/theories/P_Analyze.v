(** Proofs about default grids, analyses and default cutoffs. *)
From Coq Require Import Ascii String List ZArith Bool Arith Reals Lia Lra Psatz Sorting.Sorted.
From Verif Require Import PyBase PyBaseFacts Num Spec_Stats NumFacts Spec_Fit Spec_Correlation Spec_Time Spec_Dynamics
  Spec_Analyze M_Helpers M_Correlation M_Dynamics M_Analyze P_Skip P_Helpers P_Fit P_Time P_Correlation P_Dynamics P_Dynamics2 P_Overlap.
Import ListNotations.
Local Open Scope R_scope.

(** ** Roots *)
Lemma first_root_spec : forall (g v : list R) (s : R), increasing g -> length g = length v -> g <> [] ->
  exists r, first_root Rops g v s = Ok r /\
    match r with
    | Some t => first_crossing g v s t
    | None => forall j, (j < length v)%nat -> ~ crossing v s j
    end.
Proof.
  intros g v s Hg Hl H0. assert (v <> []) as Hv by (destruct v, g; try discriminate; congruence).
  destruct (feqc_spec g v s Hg Hv H0) as [r [E H]]. unfold first_root. rewrite E.
  rewrite <- Hl, Nat.min_id in H.
  destruct r as [[t k]|]; cbn [fst]; eexists; (split; [reflexivity|]).
  - exists k. exact H.
  - rewrite <- Hl. exact H.
Qed.

(** ** Slopes *)
Lemma points_above_model : forall s (g v : list R),
  filter (fun p => nlt Rops s (snd p)) (combine g v) = points_above s g v.
Proof. intros s g v. unfold points_above. apply filter_ext. intros p. cbn. unfold Rltb. destruct (Rlt_dec s (snd p)); reflexivity. Qed.

Lemma filter_fst_sorted : forall (f : R * R -> bool) (g v : list R), increasing g ->
  increasing (map fst (filter f (combine g v))).
Proof.
  intros f g. induction g as [|x g IH]; intros v H; [constructor|].
  destruct v as [|y v]; [constructor|]. cbn. inversion H as [|? ? H1 H2]; subst.
  specialize (IH v H1). destruct (f (x, y)); [|exact IH].
  cbn. constructor; [exact IH|]. rewrite Forall_forall in *. intros z Hz.
  apply in_map_iff in Hz. destruct Hz as [p [<- Hp]]. apply filter_In in Hp. destruct Hp as [Hp _].
  apply H2. destruct p. apply in_combine_l in Hp. exact Hp.
Qed.

Lemma increasing_two : forall x : list R, increasing x -> (2 <= length x)%nat -> exists u v, In u x /\ In v x /\ u <> v.
Proof.
  intros [|a [|b x]] H Hl; cbn in Hl; try lia. exists a, b. inversion H as [|? ? _ F]; subst.
  inversion F; subst. cbn. repeat split; auto; lra.
Qed.

Lemma msd_analyze_spec : forall ndim sigma (g v : list R), increasing g -> length g = length v -> g <> [] -> (0 < ndim)%nat ->
  exists tau D, msd_analyze Rops ndim sigma g v = Ok (tau, D) /\
    match tau with
    | Some t => first_crossing g v (sigma * sigma) t
    | None => forall j, (j < length v)%nat -> ~ crossing v (sigma * sigma) j
    end /\
    match D with
    | Some d => (2 <= length (points_above (sigma * sigma) g v))%nat /\
                fitted_slope (points_above (sigma * sigma) g v) (2 * INR ndim * d)
    | None => (length (points_above (sigma * sigma) g v) < 2)%nat
    end.
Proof.
  intros ndim sigma g v Hg Hl H0 Hn. unfold msd_analyze.
  destruct (first_root_spec g v (sigma * sigma) Hg Hl H0) as [r [E H]].
  change (nsq Rops sigma) with (sigma * sigma). rewrite E. cbn [bind]. rewrite points_above_model.
  set (pts := points_above (sigma * sigma) g v).
  destruct (le_lt_dec 2 (length pts)) as [L|L].
  2:{ exists r, None. match goal with |- context [if ?b then _ else _] => replace b with true by (symmetry; apply Nat.ltb_lt; exact L) end. auto. }
  match goal with |- context [if ?b then _ else _] => replace b with false by (symmetry; apply Nat.ltb_ge; exact L) end.
  {
    assert (increasing (map fst pts)) as Hi by (apply filter_fst_sorted; exact Hg).
    destruct (linear_fit_spec (map fst pts) (map snd pts)) as [a [b [ea [eb [F [M [U _]]]]]]].
    + rewrite !map_length. reflexivity.
    + apply increasing_two; [exact Hi|rewrite map_length; exact L].
    + match goal with |- context [linear_fit Rops ?a ?b] => change (linear_fit Rops a b) with (linear_fit Rops (map fst pts) (map snd pts)) end.
      rewrite F. cbn [bind fst]. eexists _, _. split; [reflexivity|]. split; [exact H|]. cbn [fst snd]. split; [exact L|].
      exists b. assert (2 * INR ndim * ndiv Rops a (nofZ Rops (2 * Z.of_nat ndim)) = a) as ->.
      { cbn [ndiv nofZ Rops]. rewrite mult_IZR, <- INR_IZR_INZ. assert (0 < INR ndim) by (apply lt_0_INR; exact Hn).
        field. lra. }
      intros a' b'. split; [apply M|apply U]. }
Qed.

(** Data on a straight line through the origin *)
Lemma line_through_linear : forall c x1 x2 u, x1 <> x2 -> line_through x1 (c * x1) x2 (c * x2) u = c * u.
Proof. intros c x1 x2 u H. unfold line_through. field. lra. Qed.

Lemma combine_map_r : forall X Y (f : X -> Y) l, combine l (map f l) = map (fun x => (x, f x)) l.
Proof. intros X Y f l. induction l as [|a l IH]; [reflexivity|]. cbn. rewrite IH. reflexivity. Qed.
Lemma map_filter : forall X Y (h : X -> Y) (p : Y -> bool) l, filter p (map h l) = map h (filter (fun x => p (h x)) l).
Proof. intros X Y h p l. induction l as [|a l IH]; [reflexivity|]. cbn. rewrite IH. destruct (p (h a)); reflexivity. Qed.

Lemma crossing_value : forall (g v : list R) s t c, increasing g -> v = map (fun x => c * x) g -> c <> 0 ->
  first_crossing g v s t -> t = s / c.
Proof.
  intros g v s t c Hg -> Hc [k [Hk [_ [_ [_ L]]]]].
  rewrite !(nth_map_lt _ _ (fun x => c * x) _ _ 0 0) in L by lia.
  rewrite line_through_linear in L.
  - rewrite <- L. field. exact Hc.
  - apply Rlt_not_eq. apply increasing_nth; [exact Hg|lia].
Qed.

Lemma msd_analyze_exact : forall ndim D sigma (g : list R), (0 < ndim)%nat -> 0 < D -> sigma <> 0 -> increasing g ->
  nth 0 g 0 = 0 ->
  let v := map (fun t => 2 * INR ndim * D * t) g in
  (2 <= length (points_above (sigma * sigma) g v))%nat ->
  msd_analyze Rops ndim sigma g v = Ok (Some (sigma * sigma / (2 * INR ndim * D)), Some D).
Proof.
  intros ndim D sigma g Hn HD Hs Hg H0 v L.
  assert (0 < INR ndim) as Hn' by (apply lt_0_INR; exact Hn).
  set (c := 2 * INR ndim * D) in *. assert (0 < c) as Hc by (unfold c; nra).
  assert (g <> []) as Hne by (intros ->; cbn in L; lia).
  assert (length g = length v) as Hl by (unfold v; rewrite map_length; reflexivity).
  destruct (msd_analyze_spec ndim sigma g v Hg Hl Hne Hn) as [tau [d [E [Ht Hd]]]].
  assert (0 < sigma * sigma) as Hss by nra.
  (* tau *)
  assert (tau = Some (sigma * sigma / c)) as ->.
  { destruct tau as [t|].
    - f_equal. apply (crossing_value g v); auto. lra.
    - exfalso. destruct (points_above (sigma * sigma) g v) as [|p pts] eqn:Ep; [cbn in L; lia|].
      assert (In p (points_above (sigma * sigma) g v)) as Hp by (rewrite Ep; left; reflexivity).
      apply filter_In in Hp. destruct Hp as [Hp B]. destruct (Rlt_dec (sigma * sigma) (snd p)) as [Hgt|]; [|discriminate].
      apply (In_nth _ _ (0, 0)) in Hp. destruct Hp as [j [Hj Ej]]. rewrite combine_length, <- Hl, Nat.min_id in Hj.
      rewrite combine_nth in Ej by exact Hl. subst p. cbn in Hgt.
      apply (Ht j); [lia|]. unfold crossing.
      assert (nth 0 v 0 = 0) as ->.
      { unfold v. rewrite (nth_map_lt _ _ _ _ _ _ 0) by lia. rewrite H0. ring. }
      nra. }
  (* slope *)
  rewrite E. apply (f_equal Ok). apply pair_equal_spec. split; [reflexivity|].
  unfold msd_analyze in E.
  apply bind_Ok_inv in E. destruct E as [r [_ E]].
  change (nsq Rops sigma) with (sigma * sigma) in E. rewrite points_above_model in E.
  match type of E with context [if ?b then _ else _] => replace b with false in E by (symmetry; apply Nat.ltb_ge; exact L) end.
  assert (points_above (sigma * sigma) g v = map (fun x => (x, c * x)) (map fst (points_above (sigma * sigma) g v))) as Ep.
  { unfold points_above, v. rewrite combine_map_r, map_filter, map_map, map_map. reflexivity. }
  assert (map snd (points_above (sigma * sigma) g v) = map (fun u => c * u + 0) (map fst (points_above (sigma * sigma) g v))) as Es.
  { rewrite Ep at 1. rewrite map_map. apply map_ext. intros x. cbn. ring. }
  match type of E with context [linear_fit Rops ?a ?b] =>
    change (linear_fit Rops a b) with (linear_fit Rops (map fst (points_above (sigma * sigma) g v)) (map snd (points_above (sigma * sigma) g v))) in E end.
  rewrite Es, linear_fit_exact in E.
  - cbn [bind fst] in E. apply Ok_inj in E. injection E as _ <-. f_equal.
    change (c / IZR (2 * Z.of_nat ndim) = D). rewrite mult_IZR, <- INR_IZR_INZ. unfold c. field. lra.
  - apply increasing_two; [apply filter_fst_sorted; exact Hg|rewrite map_length; exact L].
Qed.

(** ** Peaks *)
Lemma peak_spec : forall g v : list R, increasing g -> length g = length v -> v <> [] ->
  exists t h, peak_analyze Rops g v = Ok (Some (t, h)) /\ peak g v t h.
Proof.
  intros g v Hg Hl Hv. destruct (ifabsmm_spec g v Hg Hl Hv) as [imin [imax [pmin [pmax [E [_ [M [_ X]]]]]]]].
  unfold peak_analyze. rewrite E. destruct pmax as [t h]. exists t, h. split; [reflexivity|].
  destruct M as [Hi [M _]]. destruct X as [X1 X2]. split.
  - intros e He. apply (In_nth _ _ 0) in He. destruct He as [j [Hj <-]]. specialize (M j Hj).
    destruct (Nat.eq_dec imax 0) as [Z|Z]; [|destruct (Nat.eq_dec imax (length v - 1)) as [Z'|Z']].
    + specialize (X1 (or_introl Z)). injection X1 as _ ->. exact M.
    + specialize (X1 (or_intror Z')). injection X1 as _ ->. exact M.
    + destruct X2 as [_ [X2 _]]; [lia|]. cbn in X2. lra.
  - exists imax. split; [exact Hi|]. split; [exact M|]. split.
    + intros Z. specialize (X1 Z). injection X1 as -> ->. auto.
    + intros Z. destruct (X2 Z) as [Y _]. exact Y.
Qed.

(** ** Results of compute can be analysed *)
Lemma times_increasing : forall (tr : traj Rops) dts, 0 < t_dt tr -> StronglySorted Z.lt dts -> increasing (times_of tr dts).
Proof.
  intros tr dts H. unfold times_of. induction dts as [|a dts IH]; intros S0; [constructor|].
  inversion S0 as [|? ? S1 F]; subst. cbn. constructor; [apply IH; exact S1|].
  rewrite Forall_forall in *. intros y Hy. apply in_map_iff in Hy. destruct Hy as [z [<- Hz]].
  apply Rmult_lt_compat_r; [exact H|]. apply IZR_lt. apply F. exact Hz.
Qed.

Lemma offset_compute_increasing : forall X (f : X -> X -> R) (tr : traj Rops) dg skip (x : list X) (dflt : X) g v,
  0 < t_dt tr -> length (t_steps tr) = length x -> offset_compute Rops f tr dg skip x = Ok (g, v) ->
  increasing g /\ length g = length v.
Proof.
  intros X f tr dg skip x dflt g v Hd Hl E.
  destruct (offset_compute_spec Rops X f tr dg skip x dflt g v Hl E) as [dts [-> [S0 [_ ->]]]].
  split; [apply (times_increasing tr dts Hd S0)|]. rewrite !map_length. reflexivity.
Qed.

(** ** Cutoffs *)
Lemma get_out : forall X (l : list X) i, (length l <= i)%nat -> get l i = Err IndexError.
Proof. intros X l i H. unfold get. rewrite (proj2 (nth_error_None l i) H). reflexivity. Qed.

Lemma rise_loop_spec : forall (g v : list R) (m : R), increasing g -> length g = length v ->
  forall left i, (i + left = length g)%nat ->
  (exists k, rise_loop Rops g v m i left = Ok (Some (nth k g 0)) /\ (i <= k)%nat /\ (S k < length g)%nat /\
     m <= nth k g 0 /\ nth k v 0 <= nth (S k) v 0 /\
     (forall j, (i <= j < k)%nat -> m <= nth j g 0 -> nth (S j) v 0 < nth j v 0)) \/
  (rise_loop Rops g v m i left = Err IndexError /\
     (exists j, (i <= j < length g)%nat /\ m <= nth j g 0) /\
     (forall j, (i <= j)%nat -> (S j < length g)%nat -> m <= nth j g 0 -> nth (S j) v 0 < nth j v 0)) \/
  (rise_loop Rops g v m i left = Ok None /\ forall j, (i <= j < length g)%nat -> nth j g 0 < m).
Proof.
  intros g v m Hg Hl. induction left as [|left IH]; intros i Hi.
  - right. right. split; [reflexivity|]. intros j Hj. lia.
  - cbn [rise_loop]. change (num Rops) with R. rewrite (get_Ok _ g i 0) by lia. cbn [bind].
    specialize (IH (S i) ltac:(lia)).
    cbn [nle Rops]. destruct (Rleb_spec m (nth i g 0)) as [Hm|Hm].
    + destruct (Nat.eq_dec (S i) (length g)) as [Last|NL].
      * rewrite (get_out _ v (S i)) by lia. cbn [bind]. right. left. split; [reflexivity|].
        split; [exists i; split; [lia|exact Hm]|]. intros j J1 J2. lia.
      * rewrite (get_Ok _ v (S i) 0), (get_Ok _ v i 0) by lia. cbn [bind].
        cbn [nle nsub n0 Rops]. destruct (Rleb_spec 0 (nth (S i) v 0 - nth i v 0)) as [Hr|Hr].
        -- left. exists i. split; [reflexivity|]. split; [lia|]. split; [lia|]. split; [exact Hm|].
           split; [lra|]. intros j J. lia.
        -- assert (nth (S i) v 0 < nth i v 0) as D by lra.
           destruct IH as [[k [E [K1 [K2 [K3 [K4 K5]]]]]]|[[E [[j [J1 J2]] K]]|[E K]]]; rewrite E.
           ++ left. exists k. split; [reflexivity|]. split; [lia|]. split; [exact K2|]. split; [exact K3|]. split; [exact K4|].
              intros j J M. destruct (Nat.eq_dec j i) as [->|]; [exact D|]. apply K5; [lia|exact M].
           ++ right. left. split; [reflexivity|]. split; [exists j; split; [lia|exact J2]|].
              intros j' J M1 M2. destruct (Nat.eq_dec j' i) as [->|]; [exact D|]. apply K; [lia|exact M1|exact M2].
           ++ exfalso. specialize (K (S i) ltac:(lia)).
              pose proof (increasing_nth g i (S i) Hg ltac:(lia)). lra.
    + destruct IH as [[k [E [K1 [K2 [K3 [K4 K5]]]]]]|[[E [[j [J1 J2]] K]]|[E K]]]; rewrite E.
      * left. exists k. split; [reflexivity|]. split; [lia|]. split; [exact K2|]. split; [exact K3|]. split; [exact K4|].
        intros j J M. destruct (Nat.eq_dec j i) as [->|]; [lra|]. apply K5; [lia|exact M].
      * right. left. split; [reflexivity|]. split; [exists j; split; [lia|exact J2]|].
        intros j' J M1 M2. destruct (Nat.eq_dec j' i) as [->|]; [lra|]. apply K; [lia|exact M1|exact M2].
      * right. right. split; [reflexivity|]. intros j J. destruct (Nat.eq_dec j i) as [->|]; [lra|]. apply K. lia.
Qed.

(** The loop always finds a point of the grid at or after the maximum. *)
Lemma pair_rcut_spec : forall g v : list R, increasing g -> length g = length v -> v <> [] ->
  exists t h, peak g v t h /\
  ((exists k, pair_rcut Rops g v = Ok (Some (nth k g 0)) /\ (S k < length g)%nat /\
     t <= nth k g 0 /\ nth k v 0 <= nth (S k) v 0 /\
     (forall j, (j < k)%nat -> t <= nth j g 0 -> nth (S j) v 0 < nth j v 0) /\
     (forall i, first_max v i -> (0 < i)%nat -> (i < k)%nat)) \/
   (pair_rcut Rops g v = Err IndexError /\
     (forall j, (S j < length g)%nat -> t <= nth j g 0 -> nth (S j) v 0 < nth j v 0))).
Proof.
  intros g v Hg Hl Hv.
  destruct (peak_spec g v Hg Hl Hv) as [t [h [E P]]]. exists t, h. split; [exact P|].
  unfold peak_analyze in E. unfold pair_rcut.
  destruct (ifabsmm_spec g v Hg Hl Hv) as [imin [imax [pmin [pmax [E' [_ [M [_ X]]]]]]]].
  rewrite E' in E. apply Ok_inj in E. injection E as ->. rewrite E'. cbn [bind fst snd].
  destruct M as [Hi [M1 M2]].
  destruct (rise_loop_spec g v t Hg Hl (length g) 0 eq_refl) as [[k [E [_ [K2 [K3 [K4 K5]]]]]]|[[E [_ K]]|[E K]]];
    match goal with |- context [rise_loop Rops ?a ?b ?c 0 ?d] => change (rise_loop Rops a b c 0 d) with (rise_loop Rops g v t 0 (length g)) end; rewrite E.
  - left. exists k. split; [reflexivity|]. split; [exact K2|]. split; [exact K3|]. split; [exact K4|]. split.
    + intros j J. apply K5. lia.
    + intros i [F1 [F2 F3]] Hpos.
      assert (i = imax) as ->.
      { destruct (Nat.lt_total i imax) as [C|[C|C]]; [|exact C|].
        - specialize (M2 i C). specialize (F2 imax Hi). lra.
        - specialize (F3 imax C). specialize (M1 i F1). lra. }
      destruct X as [X1 X2].
      assert (imax <> length v - 1)%nat as NL.
      { intros C. specialize (X1 (or_intror C)). injection X1 as Et _. rewrite Et in K3.
        assert (k < imax)%nat as Hk by lia. pose proof (increasing_nth g k imax Hg ltac:(lia)). lra. }
      destruct X2 as [[V1 V2] [_ V3]]; [lia|]. cbn [fst] in V1, V2.
      destruct (le_lt_dec k imax) as [C|C]; [exfalso|exact C].
      destruct (Nat.eq_dec k imax) as [->|C'].
      2:{ pose proof (increasing_nth g k imax Hg ltac:(lia)) as G1.
          assert (nth k g 0 <= nth (imax - 1) g 0) as G2.
          { destruct (Nat.eq_dec k (imax - 1)) as [->|]; [lra|]. left. apply increasing_nth; [exact Hg|lia]. }
          pose proof (increasing_nth g (imax - 1) imax Hg ltac:(lia)). lra. }
      (* the vertex is not beyond the sample, so the next sample is strictly lower *)
      set (x1 := nth (imax - 1) g 0) in *. set (x2 := nth imax g 0) in *.
      set (y1 := nth (imax - 1) v 0) in *. set (y2 := nth imax v 0) in *.
      specialize (M1 (S imax) ltac:(lia)). fold y2 in M1.
      replace (S imax) with (imax + 1)%nat in * by lia.
      assert (nth (imax + 1) v 0 = y2) as Y3 by (unfold y2 in *; lra).
      set (x3 := nth (imax + 1) g 0) in *.
      assert (y1 < y2) as Y1 by (apply M2; lia).
      assert (x1 < x2) as G1 by (apply increasing_nth; [exact Hg|lia]).
      assert (x2 < x3) as G2 by (apply increasing_nth; [exact Hg|lia]).
      (* parabola through the three samples *)
      set (a := (y1 - y2) / ((x1 - x2) * (x1 - x3))).
      specialize (V3 a (- a * (x2 + x3)) (y2 + a * x2 * x3)).
      rewrite Y3 in V3.
      assert ((t, h) = (- (- a * (x2 + x3)) / (2 * a), y2 + a * x2 * x3 - - a * (x2 + x3) * (- a * (x2 + x3)) / (4 * a))) as Q.
      { apply V3.
        - unfold a. field. split; lra.
        - ring.
        - ring. }
      injection Q as Qt _.
      assert (a < 0) as Ha.
      { unfold a. apply Rmult_lt_reg_r with ((x1 - x2) * (x1 - x3)); [nra|].
        unfold Rdiv. rewrite Rmult_assoc, Rinv_l by nra. lra. }
      assert (@eq R t ((x2 + x3) / 2)) as Qt' by (change (@eq R t (- (- a * (x2 + x3)) / (2 * a))) in Qt; rewrite Qt; field; apply Rlt_not_eq; exact Ha). lra.
  - right. split; [reflexivity|]. intros j J1 J2. apply K; [lia|exact J1|exact J2].
  - exfalso. assert (t <= nth (length g - 1) g 0) as T.
    { destruct P as [_ [i [I1 [_ [I3 I4]]]]].
      assert (forall q, (q < length g)%nat -> nth q g 0 <= nth (length g - 1) g 0) as Q.
      { intros q Hq. destruct (Nat.eq_dec q (length g - 1)) as [->|]; [lra|]. left. apply increasing_nth; [exact Hg|lia]. }
      destruct (Nat.eq_dec i 0) as [Z|Z]; [|destruct (Nat.eq_dec i (length v - 1)) as [Z'|Z']].
      - destruct (I3 (or_introl Z)) as [-> _]. apply Q. lia.
      - destruct (I3 (or_intror Z')) as [-> _]. apply Q. lia.
      - destruct I4 as [_ I4]; [lia|]. pose proof (Q i ltac:(lia)). pose proof (Q (i + 1)%nat ltac:(lia)). lra. }
    assert (0 < length g)%nat as Hpos by (destruct v; [congruence|cbn in Hl; lia]).
    specialize (K (length g - 1)%nat ltac:(lia)). lra.
Qed.
