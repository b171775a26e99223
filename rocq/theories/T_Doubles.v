(** Results in double precision: C98, C99. *)
From Coq Require Import Ascii String List ZArith Bool Arith Reals Lia Lra Sorting.Sorted Floats.SpecFloat.
From Verif Require Import PyBase PyBaseFacts Num P_Text F64Round F64Ops F64Facts M_Helpers M_Correlation M_Dynamics
  Spec_Correlation Spec_Time P_Time P_Skip P_Dynamics Spec_Doubles P_F64Time P_F64Mean P_F64Overlap T_Dynamics.
Import ListNotations.
Local Open Scope R_scope.

(** ** C98 *)
Section Again.
Variable tr : traj F64ops.
Variable period : Z.
Hypothesis M : moderate_steps (t_steps tr) (t_dt tr).
Hypothesis P : 0 < fval (t_dt tr).
Hypothesis Hb : (1 <= t_bs tr)%nat.
Hypothesis Hs : t_steps tr <> [].
Hypothesis Hp : block_periodic (t_steps tr) (t_bs tr) period.

Definition short (steps : list Z) : Prop :=
  forall i j, (i < length steps)%nat -> (j < length steps)%nat -> (Z.abs (nth i steps 0 - nth j steps 0) <= 40000)%Z.

Lemma times_again : forall grid offset dg,
  setup_t_grid F64ops (t_steps tr) (t_bs tr) (t_dt tr) grid offset = Ok dg ->
  let t := map (reported (t_dt tr)) (map (lag_dt (t_steps tr)) dg) in
  increasing t /\
  setup_t_grid F64ops (t_steps tr) (t_bs tr) (t_dt tr) t offset = Ok dg /\
  forall t', Forall2 six_digits_close t' t -> short (t_steps tr) ->
    setup_t_grid F64ops (t_steps tr) (t_bs tr) (t_dt tr) t' offset = Ok dg.
Proof.
  intros grid offset dg E t.
  destruct (setup_t_grid_correct (t_steps tr) F64ops (t_dt tr) (t_bs tr) grid offset dg E) as [reqs [_ [So [U _]]]].
  assert (U' : forall p, In p dg -> usable (t_steps tr) (the_offsets (t_bs tr) offset) p) by (intros p H; apply U; exact H).
  split; [apply (reported_increasing _ _ (the_offsets (t_bs tr) offset)); assumption|]. split.
  - apply (setup_again F64ops _ _ _ grid); [exact Hb|exact E|]. apply mapM_steps. apply (reported_steps _ _ (the_offsets (t_bs tr) offset)); assumption.
  - intros t' C Sh. apply (setup_again F64ops _ _ _ grid); [exact Hb|exact E|]. apply mapM_steps.
    apply (close_steps _ _ (the_offsets (t_bs tr) offset)); try assumption.
    intros p H. destruct (U' p H) as [_ L]. unfold lag_dt, lag_pair, pair_dt. cbn [fst snd]. apply Sh; lia.
Qed.

Lemma offset_times : forall X (f : X -> X -> f64) grid offset dg n skip (x : list X) t v,
  length (t_steps tr) = length x ->
  setup_t_grid F64ops (t_steps tr) (t_bs tr) (t_dt tr) grid offset = Ok dg ->
  adjust_skip F64ops (length (t_steps tr)) (t_npart tr) (t_bs tr) n = Ok skip -> t_bs tr = 1%nat \/ skip <> 1%nat ->
  offset_compute F64ops f tr dg skip x = Ok (t, v) -> t = map (reported (t_dt tr)) (map (lag_dt (t_steps tr)) dg).
Proof.
  intros X f grid offset dg n skip x t v Hl E Ek Ho H.
  destruct (periodic_pipeline F64ops X f (t_steps tr) (t_bs tr) period (t_dt tr) grid offset dg (t_npart tr) n skip x Hb Hs Hp Hl E Ek Ho) as [v' [G _]].
  unfold offset_compute in H. rewrite G in H. cbn [bind fst snd] in H. apply Ok_inj in H. injection H as <- _. reflexivity.
Qed.
End Again.

(** Overlaps, non-Gaussian parameter, and every other average on a time grid: the
    times are in increasing order; the same calculation on the time grid just
    reported gives the same times and the same values, and so does the time grid
    read from the text of an output file if the trajectory has at most 40000 steps. *)
Theorem C98_times_again :
  forall (tr : traj F64ops) period X (f : X -> X -> f64) grid n skip (x : list X) t v,
  moderate_steps (t_steps tr) (t_dt tr) -> 0 < fval (t_dt tr) ->
  (1 <= t_bs tr)%nat -> t_steps tr <> [] -> block_periodic (t_steps tr) (t_bs tr) period -> length (t_steps tr) = length x ->
  adjust_skip F64ops (length (t_steps tr)) (t_npart tr) (t_bs tr) n = Ok skip -> t_bs tr = 1%nat \/ skip <> 1%nat ->
  grid_compute F64ops f tr grid n x = Ok (t, v) ->
  increasing t /\
  grid_compute F64ops f tr t n x = Ok (t, v) /\
  forall t', Forall2 six_digits_close t' t -> short (t_steps tr) -> grid_compute F64ops f tr t' n x = Ok (t, v).
Proof.
  intros tr period X f grid n skip x t v M P Hb Hs Hp Hl Ek Ho H.
  destruct (grid_compute_inv _ _ _ _ _ _ _ _ H) as [sk [dg [E1 [E2 E3]]]]. rewrite Ek in E1. apply Ok_inj in E1. subst sk.
  pose proof (offset_times tr period Hb Hs Hp X f grid _ dg n skip x t v Hl E2 Ek Ho E3) as Et.
  destruct (times_again tr M P Hb grid _ dg E2) as [I [S1 S2]]. rewrite <- Et in *. cbv zeta in *.
  split; [exact I|]. split.
  - unfold grid_compute. rewrite Ek. cbn [bind]. rewrite S1. exact E3.
  - intros t' C Sh. unfold grid_compute. rewrite Ek. cbn [bind]. rewrite (S2 t' C Sh). exact E3.
Qed.
Print Assumptions C98_times_again.

(** The mean square displacement, including its default time grids. *)
Theorem C98_msd_again :
  forall (tr : traj F64ops) period grid rmax ts n no skip (x : list (frame F64ops)) t v,
  moderate_steps (t_steps tr) (t_dt tr) -> 0 < fval (t_dt tr) ->
  (1 <= t_bs tr)%nat -> t_steps tr <> [] -> block_periodic (t_steps tr) (t_bs tr) period -> length (t_steps tr) = length x ->
  adjust_skip F64ops (length (t_steps tr)) (t_npart tr) (t_bs tr) n = Ok skip -> t_bs tr = 1%nat \/ skip <> 1%nat ->
  msd_compute F64ops tr grid rmax ts n no x = Ok (t, v) ->
  increasing t /\
  msd_compute F64ops tr (Some t) rmax ts n no x = Ok (t, v) /\
  forall t', Forall2 six_digits_close t' t -> short (t_steps tr) -> msd_compute F64ops tr (Some t') rmax ts n no x = Ok (t, v).
Proof.
  intros tr period grid rmax ts n no skip x t v M P Hb Hs Hp Hl Ek Ho H.
  destruct (msd_compute_inv _ _ _ _ _ _ _ _ _ H) as [sk [dg [g [E1 [E0 [E2 E3]]]]]]. rewrite Ek in E1. apply Ok_inj in E1. subst sk.
  pose proof (offset_times tr period Hb Hs Hp _ _ g _ dg n skip x t v Hl E2 Ek Ho E3) as Et.
  destruct (times_again tr M P Hb g _ dg E2) as [I [S1 S2]]. rewrite <- Et in *. cbv zeta in *.
  split; [exact I|]. split.
  - unfold msd_compute. rewrite Ek. cbn [bind msd_grid]. rewrite S1. exact E3.
  - intros t' C Sh. unfold msd_compute. rewrite Ek. cbn [bind msd_grid]. rewrite (S2 t' C Sh). exact E3.
Qed.
Print Assumptions C98_msd_again.

Lemma mapM_fst : forall X (h : X -> res (f64 * f64)) (k : X -> f64) l r,
  (forall p q, In p l -> h p = Ok q -> fst q = k p) -> mapM h l = Ok r -> map fst r = map k l.
Proof.
  intros X h k. induction l as [|p l IH]; intros r Hk H; cbn [mapM] in H; [apply Ok_inj in H; subst; reflexivity|].
  destruct (h p) as [q|] eqn:E; [|discriminate]. cbn [bind] in H. destruct (mapM h l) as [r'|] eqn:E'; [|discriminate]. cbn [bind] in H.
  apply Ok_inj in H. subst r. cbn [map]. f_equal; [apply Hk; [left; reflexivity|exact E]|]. apply IH; [|reflexivity]. intros p' q' Hp. apply Hk. right. exact Hp.
Qed.

(** chi4: no assumption about blocks, the times are those of the grid. *)
Theorem C98_chi4_again :
  forall (tr : traj F64ops) grid n a (x : list (frame F64ops)) r,
  moderate_steps (t_steps tr) (t_dt tr) -> 0 < fval (t_dt tr) -> (1 <= t_bs tr)%nat -> 
  chi4_compute F64ops tr grid n a x = Ok r ->
  let t := map fst r in
  increasing t /\
  chi4_compute F64ops tr t n a x = Ok r /\
  forall t', Forall2 six_digits_close t' t -> short (t_steps tr) -> chi4_compute F64ops tr t' n a x = Ok r.
Proof.
  intros tr grid n a x r M P Hb H. unfold chi4_compute in H.
  apply bind_Ok_inv in H. destruct H as [skip [Ek H]]. apply bind_Ok_inv in H. destruct H as [dg [E2 H]].
  destruct (setup_t_grid_correct (t_steps tr) F64ops (t_dt tr) (t_bs tr) grid _ dg E2) as [reqs [_ [_ [U _]]]].
  assert (Et : map fst r = map (reported (t_dt tr)) (map (lag_dt (t_steps tr)) dg)).
  { rewrite map_map. apply (mapM_fst _ (chi4_point F64ops (nsq F64ops a) tr skip x)); [|exact H].
    intros p q Hq E. unfold chi4_point in E. apply bind_Ok_inv in E. destruct E as [s [_ E]].
    apply bind_Ok_inv in E. destruct E as [ta [Ea E]]. apply bind_Ok_inv in E. destruct E as [tb [Eb E]]. apply bind_Ok_inv in E. destruct E as [x0 [_ E]].
    apply Ok_inj in E. subst q. cbn [fst]. unfold reported. f_equal. f_equal. destruct (U p Hq) as [[_ L] _].
    unfold lag_dt, lag_pair, pair_dt. cbn [fst snd]. rewrite (get_Ok _ _ _ 0%Z) in Ea by lia. rewrite (get_Ok _ _ _ 0%Z) in Eb by lia. apply Ok_inj in Ea. apply Ok_inj in Eb. subst. reflexivity. }
  destruct (times_again tr M P Hb grid _ dg E2) as [I [S1 S2]]. cbv zeta in *. rewrite <- Et in *.
  split; [exact I|]. split.
  - unfold chi4_compute. rewrite Ek. cbn [bind]. rewrite S1. exact H.
  - intros t' C Sh. unfold chi4_compute. rewrite Ek. cbn [bind]. rewrite (S2 t' C Sh). exact H.
Qed.
Print Assumptions C98_chi4_again.

(** A time step of 0.1, not a double: 0.3 is reported as 3 * 0.1, which is not the
    double 0.3, yet the grid is found again. *)
Definition tenth_tr : traj F64ops := mkTraj (A:=F64ops) [0; 1; 2; 3]%Z 1 (f64_frac 1 10) (f64_frac 3 10) 2.
Example C98_nonvacuous :
  moderate_steps (t_steps tenth_tr) (t_dt tenth_tr) /\ 0 < fval (t_dt tenth_tr) /\ short (t_steps tenth_tr) /\
  block_periodic (t_steps tenth_tr) (t_bs tenth_tr) 1 /\
  adjust_skip F64ops 4 2 1 (NoInt (-1)) = Ok 1%nat /\
  self_overlap_compute F64ops tenth_tr (map (fun z => f64_frac z 10) [0; 1; 3]%Z) (NoInt (-1)) (f64_frac 3 2) demo_frames
  = Ok ([f64_ofZ 0; f64_frac 1 10; nmul F64ops (f64_ofZ 3) (f64_frac 1 10)], [f64_ofZ 1; f64_frac 5 6; f64_ofZ 0]) /\
  nmul F64ops (f64_ofZ 3) (f64_frac 1 10) <> f64_frac 3 10.
Proof.
  assert (V : f64_frac 1 10 = S754_finite false 7205759403792794 (-56)) by (vm_compute; reflexivity).
  assert (P : 0 < fval (f64_frac 1 10) < 1).
  { rewrite V. cbn [fval sgn]. assert (E : powerRZ 2 (-56) = / IZR (2 ^ 56)).
    { fold (p2 (-56)). pose proof (p2_Z 56 ltac:(lia)) as Q. assert (p2 (-56) * p2 56 = 1) by (rewrite <- p2_add; reflexivity).
      rewrite <- Q. apply Rmult_eq_reg_r with (p2 56); [|pose proof (p2_pos 56); lra]. rewrite Rinv_l; [assumption|pose proof (p2_pos 56); lra]. }
    rewrite E, Rmult_1_l. assert (0 < IZR (2 ^ 56)) by (apply IZR_lt; lia).
    split; [apply Rmult_lt_0_compat; [apply IZR_lt; lia|apply Rinv_0_lt_compat; assumption]|].
    apply Rmult_lt_reg_r with (IZR (2 ^ 56)); [assumption|]. rewrite Rmult_assoc, Rinv_l, Rmult_1_r, Rmult_1_l by lra. apply IZR_lt. reflexivity. }
  assert (B : forall i, (0 <= nth i [0; 1; 2; 3]%Z 0 <= 3)%Z) by (intros [|[|[|[|[|i]]]]]; cbn; lia).
  split; [|split; [|split; [|split; [|split; [|split]]]]].
  - cbn [t_dt tenth_tr]. split; [rewrite V; split; [reflexivity|exact I]|]. split; [lra|].
    intros i j _ _ k. pose proof (B i). pose proof (B j). cbn [t_steps tenth_tr] in k. cbn [t_dt tenth_tr]. assert (Hk : (Z.abs k <= 3)%Z) by (unfold k; lia). clearbody k.
    split; [lia|]. rewrite Rabs_mult, <- abs_IZR, (Rabs_right (fval _)) by lra.
    assert (K : 0 <= IZR (Z.abs k) <= 3) by (split; apply IZR_le; lia).
    apply Rle_trans with (p2 2); [|apply p2_le; lia]. unfold p2. simpl. nra.
  - apply P.
  - intros i j _ _. cbn [t_steps tenth_tr]. pose proof (B i). pose proof (B j). lia.
  - intros i. cbn. destruct i as [|[|[|i]]]; cbn; lia.
  - vm_compute. reflexivity.
  - vm_compute. reflexivity.
  - vm_compute. discriminate.
Qed.

(** ** C99 *)
Lemma admitted_frames : forall dg skip (frames : list (frame F64ops)) p, In p (admitted dg skip (length frames)) ->
  In (nth (fst p) frames []) frames /\ In (nth (snd p) frames []) frames.
Proof. intros dg skip frames p H. apply admitted_range in H. split; apply nth_In; lia. Qed.

(** Self overlap: between 0 and 1 for all inputs, finite or not; exactly 1 at time
    zero. *)
Theorem C99_self_overlap :
  forall (tr : traj F64ops) grid n a (unf : list (frame F64ops)) N g v,
  length (t_steps tr) = length unf -> (forall x, In x unf -> length x = N) -> (1 <= N)%nat -> (Z.of_nat N <= 2 ^ 53)%Z -> few_pairs tr ->
  self_overlap_compute F64ops tr grid n a unf = Ok (g, v) ->
  (forall e : f64, In e v -> ok e /\ 0 <= fval e <= 1) /\
  (StronglySorted Z.lt (t_steps tr) -> moderate_steps (t_steps tr) (t_dt tr) -> finite_frames unf ->
   ok a -> p2 (-500) <= Rabs (fval a) <= p2 500 ->
   forall k, (k < length v)%nat -> fval (nth k g (S754_zero false)) = 0 -> fval (nth k v (S754_zero false)) = 1).
Proof.
  intros tr grid n a unf N g v Hl HN N1 N2 Few H. unfold self_overlap_compute in H.
  destruct (grid_compute_inv _ _ _ _ _ _ _ _ H) as [skip [dg [_ [E2 E3]]]].
  destruct (offset_compute_spec F64ops _ _ tr dg skip unf [] g v Hl E3) as [dts [Eg G]].
  assert (LQ : forall d, (Z.of_nat (length (pairs_at (t_steps tr) d (admitted dg skip (length unf)))) <= 2 ^ 53)%Z).
  { intros d. pose proof (pairs_le F64ops _ _ _ _ _ _ skip d (length unf) E2) as B. unfold few_pairs in Few. rewrite <- Hl in *. lia. }
  assert (V : forall x y, In x unf -> In y unf -> ok (self_overlap_f F64ops (nsq F64ops a) x y) /\ 0 <= fval (self_overlap_f F64ops (nsq F64ops a) x y) <= p2 0).
  { intros x y Hx _. unfold self_overlap_f. rewrite (HN x Hx). destruct (frac_spec (self_count F64ops (nsq F64ops a) x y) N) as [K [_ B]]; try assumption; [|split; assumption].
    rewrite <- (HN x Hx). apply self_count_le. }
  split.
  - intros e He. apply (In_nth _ _ (S754_zero false)) in He. destruct He as [k [Hk Ek]].
    destruct (grouped_values F64ops _ _ _ _ _ _ _ _ k (S754_zero false) G Hk) as [_ [Nq [Ev Hq]]]. cbv zeta in *. rewrite (eq_trans (eq_sym Ek) Ev).
    replace 1 with (p2 0) by reflexivity. apply fmean_bounds; [lia|intros C; apply map_eq_nil in C; contradiction|rewrite map_length; apply LQ|].
    intros w Hw. apply in_map_iff in Hw. destruct Hw as [p [<- Hp]]. destruct (admitted_frames _ _ _ _ (proj1 (Hq p Hp))). apply V; assumption.
  - intros So Mod Fin Ka Ba k Hk Zk.
    destruct (grouped_values F64ops _ _ _ _ _ _ _ _ k (S754_zero false) G Hk) as [Lv [Nq [Ev Hq]]]. cbv zeta in *.
    assert (Zd : nth k dts 0%Z = 0%Z).
    { subst g. rewrite Lv in Hk.
      rewrite (nth_indep _ _ (nmul F64ops (nofZ F64ops 0) (t_dt tr))) in Zk by (rewrite map_length; exact Hk). rewrite (map_nth (fun ti => nmul F64ops (nofZ F64ops ti) (t_dt tr))) in Zk.
      set (d := nth k dts 0%Z) in *. assert (X : exists p, In p (admitted dg skip (length unf)) /\ pair_dt (t_steps tr) p = d) by (apply (proj1 (proj2 G)); apply nth_In; exact Hk).
      destruct X as [p [Hp Ep]]. apply admitted_range in Hp. destruct Mod as [Kd [Nd Md]]. destruct (Md (fst p) (snd p)) as [M1 M2]; [lia|lia|]. fold (pair_dt (t_steps tr) p) in M1, M2. rewrite Ep in M1, M2.
      destruct (time_near (t_dt tr) d Kd M1 M2) as [_ E]. cbv zeta in E. rewrite Zk in E. rewrite Rminus_0_l, Rabs_Ropp in E.
      pose proof u_small. pose proof (Rabs_pos (IZR d * fval (t_dt tr))) as Pp. assert (Z0 : Rabs (IZR d * fval (t_dt tr)) = 0) by nra.
      destruct (Req_dec (IZR d * fval (t_dt tr)) 0) as [Z1|Z1]; [|apply Rabs_pos_lt in Z1; lra]. apply Rmult_integral in Z1. destruct Z1 as [Z1|Z1]; [apply eq_IZR in Z1; exact Z1|contradiction]. }
    rewrite Zd in *. refine (eq_trans (f_equal fval Ev) _). apply mean_one; [intros C; apply map_eq_nil in C; contradiction|rewrite map_length; apply LQ|].
    intros w Hw. apply in_map_iff in Hw. destruct Hw as [p [<- Hp]]. destruct (Hq p Hp) as [Hp1 Hp2]. pose proof (admitted_range _ _ _ _ Hp1) as Rg.
    apply (pair_dt_zero _ p So) in Hp2; [|lia]. unfold pair_val. rewrite Hp2. assert (Hx : In (nth (snd p) unf []) unf) by (apply nth_In; lia).
    destruct (V _ _ Hx Hx) as [K _]. split; [exact K|]. unfold self_overlap_f. destruct (square_pos a Ka Ba) as [K2 P2].
    rewrite count_self; [|exact K2|exact P2|intros r c Hr Hc; exact (Fin _ r c Hx Hr Hc)]. apply frac_one; rewrite (HN _ Hx); assumption.
Qed.
Print Assumptions C99_self_overlap.

(** A larger threshold never gives a smaller overlap, self or collective. *)
Theorem C99_monotone :
  forall (tr : traj F64ops) grid n a b (unf : list (frame F64ops)) N g v g' v',
  length (t_steps tr) = length unf -> (forall x, In x unf -> length x = N) -> (1 <= N)%nat -> (Z.of_nat (N * N) <= 2 ^ 53)%Z -> few_pairs tr ->
  finite_frames unf -> ok a -> ok b -> 0 <= fval a <= fval b -> fval b <= p2 500 ->
  (self_overlap_compute F64ops tr grid n a unf = Ok (g, v) -> self_overlap_compute F64ops tr grid n b unf = Ok (g', v') ->
   g = g' /\ Forall2 (fun e e' : f64 => fval e <= fval e') v v') /\
  (coll_overlap_compute F64ops tr grid n a unf = Ok (g, v) -> coll_overlap_compute F64ops tr grid n b unf = Ok (g', v') ->
   g = g' /\ Forall2 (fun e e' : f64 => fval e <= fval e') v v').
Proof.
  intros tr grid n a b unf N g v g' v' Hl HN N1 N2 Few Fin Ka Kb Hab Hb.
  destruct (sq_mono a b Ka Kb Hab Hb) as [Ka2 [Kb2 Hab2]].
  assert (Gen : forall (count : f64 -> frame F64ops -> frame F64ops -> nat),
    (forall x y, In x unf -> In y unf -> (count (nsq F64ops a) x y <= count (nsq F64ops b) x y)%nat) ->
    (forall c x y, In x unf -> In y unf -> (count c x y <= N * N)%nat) ->
    let F c x y := ndiv F64ops (nofnat F64ops (count c x y)) (nofnat F64ops (length x)) in
    grid_compute F64ops (F (nsq F64ops a)) tr grid n unf = Ok (g, v) -> grid_compute F64ops (F (nsq F64ops b)) tr grid n unf = Ok (g', v') ->
    g = g' /\ Forall2 (fun e e' : f64 => fval e <= fval e') v v').
  { intros count Hm Hc F H H'.
    destruct (grid_compute_inv _ _ _ _ _ _ _ _ H) as [skip [dg [E1 [E2 E3]]]]. destruct (grid_compute_inv _ _ _ _ _ _ _ _ H') as [skip' [dg' [E1' [E2' E3']]]].
    rewrite E1 in E1'. apply Ok_inj in E1'. subst skip'. rewrite E2 in E2'. apply Ok_inj in E2'. subst dg'.
    destruct (offset_compute_spec F64ops _ _ tr dg skip unf [] g v Hl E3) as [dts [Eg G]]. destruct (offset_compute_spec F64ops _ _ tr dg skip unf [] g' v' Hl E3') as [dts' [Eg' G']].
    pose proof (grouped_same F64ops _ _ _ _ _ _ _ _ _ _ _ G G') as Ed. subst dts'. split; [congruence|].
    destruct G as [_ [I Ev]]. destruct G' as [_ [_ Ev']]. subst v v'.
    assert (LQ : forall d, (Z.of_nat (length (pairs_at (t_steps tr) d (admitted dg skip (length unf)))) <= 2 ^ 53)%Z).
    { intros d. pose proof (pairs_le F64ops _ _ _ _ _ _ skip d (length unf) E2) as B. unfold few_pairs in Few. rewrite <- Hl in *. lia. }
    assert (NN : (Z.of_nat N <= 2 ^ 53)%Z) by nia.
    assert (Q : forall c p, In p (admitted dg skip (length unf)) -> ok (pair_val (F c) unf [] p) /\ 0 <= fval (pair_val (F c) unf [] p) <= p2 53).
    { intros c p Hp. destruct (admitted_frames _ _ _ _ Hp) as [P1 P2]. unfold pair_val, F. rewrite (HN _ P1). specialize (Hc c _ _ P1 P2).
      destruct (frac_gen (count c (nth (fst p) unf []) (nth (snd p) unf [])) N) as [K [_ B]]; [lia|assumption|assumption|]. split; assumption. }
    assert (In1 : forall d, In d dts -> exists p, In p (admitted dg skip (length unf)) /\ pair_dt (t_steps tr) p = d) by (intros d; apply I).
    clear I Eg Eg' H H' E3 E3'. induction dts as [|d dts IH]; cbn [map]; constructor.
    - set (qs := pairs_at (t_steps tr) d (admitted dg skip (length unf))).
      assert (Hqs : forall p, In p qs -> In p (admitted dg skip (length unf))) by (intros p Hp; apply filter_In in Hp; apply Hp).
      apply fmean_mono with 53%Z; [lia| |rewrite map_length; apply LQ| | |].
      + destruct (In1 d (or_introl eq_refl)) as [p [Hp1 Hp2]]. assert (In p qs) as C by (apply filter_In; split; [exact Hp1|apply Z.eqb_eq; exact Hp2]).
        intros E. apply map_eq_nil in E. rewrite E in C. destruct C.
      + clear IH. induction qs as [|p qs IHq]; cbn [map]; constructor; [|apply IHq; intros q Hq; apply Hqs; right; exact Hq].
        destruct (admitted_frames _ _ _ _ (Hqs p (or_introl eq_refl))) as [P1 P2]. unfold pair_val, F. apply frac_mono; [apply Hm; assumption| |rewrite (HN _ P1); assumption|rewrite (HN _ P1); assumption].
        specialize (Hc (nsq F64ops b) _ _ P1 P2). lia.
      + intros w Hw. apply in_map_iff in Hw. destruct Hw as [p [<- Hp]]. apply Q. apply Hqs. exact Hp.
      + intros w Hw. apply in_map_iff in Hw. destruct Hw as [p [<- Hp]]. apply Q. apply Hqs. exact Hp.
    - apply IH. intros d' Hd'. apply In1. right. exact Hd'. }
  assert (Fx : forall x r c, In x unf -> In r x -> In c r -> valid c) by (intros x r c Hx Hr Hc; exact (proj1 (Fin x r c Hx Hr Hc))).
  split.
  - apply (Gen (self_count F64ops)).
    + intros x y Hx Hy. apply self_count_mono; try assumption; intros r c; [apply (Fx x)|apply (Fx y)]; assumption.
    + intros c x y Hx _. pose proof (self_count_le F64ops c x y) as B. rewrite (HN x Hx) in B. nia.
  - apply (Gen (coll_count F64ops)).
    + intros x y Hx Hy. apply coll_count_mono; try assumption; intros r c; [apply (Fx x)|apply (Fx y)]; assumption.
    + intros c x y Hx Hy. unfold coll_count. apply Nat.le_trans with (1 := filter_le _ _ _).
      rewrite <- (HN x Hx) at 1. rewrite <- (HN y Hy). clear. induction y as [|r y IH]; cbn [flat_map length]; [lia|]. rewrite app_length, map_length. lia.
Qed.
Print Assumptions C99_monotone.

Definition okb (x : f64) : bool := valid_binary fprec femax x && match x with S754_zero _ | S754_finite _ _ _ => true | _ => false end.
Lemma okb_ok : forall x, okb x = true -> ok x.
Proof. intros x H. unfold okb in H. apply andb_true_iff in H. destruct H as [V F]. split; [exact V|]. destruct x; try discriminate; exact I. Qed.
Lemma finite_check : forall frames : list (frame F64ops), forallb (forallb (forallb okb)) frames = true -> finite_frames frames.
Proof.
  intros frames H x r c Hx Hr Hc. rewrite forallb_forall in H. specialize (H x Hx). rewrite forallb_forall in H. specialize (H r Hr). rewrite forallb_forall in H.
  apply okb_ok. apply H. exact Hc.
Qed.

(** Two particles, four frames: values 1, 0.8333... and 0; with a threshold of 3.5 the
    overlaps are larger. *)
Example C99_nonvacuous :
  few_pairs tenth_tr /\ finite_frames demo_frames /\ (forall x, In x demo_frames -> length x = 2%nat) /\ ok (f64_frac 3 2) /\
  p2 (-500) <= Rabs (fval (f64_frac 3 2)) <= p2 500 /\
  self_overlap_compute F64ops tenth_tr (map (fun z => f64_frac z 10) [0; 1; 3]%Z) (NoInt (-1)) (f64_frac 3 2) demo_frames
  = Ok ([f64_ofZ 0; f64_frac 1 10; nmul F64ops (f64_ofZ 3) (f64_frac 1 10)], [f64_ofZ 1; f64_frac 5 6; f64_ofZ 0]) /\
  self_overlap_compute F64ops tenth_tr (map (fun z => f64_frac z 10) [0; 1; 3]%Z) (NoInt (-1)) (f64_frac 7 2) demo_frames
  = Ok ([f64_ofZ 0; f64_frac 1 10; nmul F64ops (f64_ofZ 3) (f64_frac 1 10)], [f64_ofZ 1; f64_ofZ 1; f64_ofZ 1]).
Proof.
  split; [unfold few_pairs; cbn; lia|]. split; [apply finite_check; vm_compute; reflexivity|].
  split; [intros x [<-|[<-|[<-|[<-|[]]]]]; reflexivity|]. split; [apply okb_ok; vm_compute; reflexivity|]. split.
  - assert (V : f64_frac 3 2 = S754_finite false 6755399441055744 (-52)) by (vm_compute; reflexivity). rewrite V. cbn [fval sgn].
    fold (p2 (-52)). assert (B : p2 51 <= 6755399441055744 <= p2 54) by (rewrite !p2_Z by lia; split; apply IZR_le; lia).
    pose proof (p2_pos (-52)) as P52. rewrite Rabs_right by nra. rewrite Rmult_1_l. split.
    + apply Rle_trans with (p2 51 * p2 (-52)); [rewrite <- p2_add; apply p2_le; lia|]. apply Rmult_le_compat_r; lra.
    + apply Rle_trans with (p2 54 * p2 (-52)); [apply Rmult_le_compat_r; lra|rewrite <- p2_add; apply p2_le; lia].
  - split; vm_compute; reflexivity.
Qed.
