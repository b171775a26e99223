(** Theorems about default time grids, analyses and default cutoffs: C76 - C79. *)
From Coq Require Import Ascii String List ZArith Bool Arith Reals Lia Lra Sorting.Sorted.
From Coq Require Import Floats.SpecFloat.
From Verif Require Import PyBase PyBaseFacts Num Spec_Stats NumFacts Spec_Fit Spec_Correlation Spec_Time Spec_Dynamics
  Spec_Analyze M_Helpers M_Correlation M_Dynamics M_Text M_Output M_Analyze P_Helpers P_Dynamics P_Dynamics2 P_Overlap P_Analyze P_Analyze2.
Import ListNotations.
Local Open Scope R_scope.

(** ** C76 *)
(** The non-Gaussian parameter asks for times from 0 to three quarters of the total time. *)
Theorem C76_alpha2_default_partial : forall (tr : traj Rops) ts, (2 <= ts)%Z ->
  exists g, alpha2_grid Rops tr None ts = Ok g /\ length g = Z.to_nat ts /\
    nth 0 g 0 = 0 /\ nth (length g - 1) g 0 = 3 / 4 * t_total tr.
Proof. exact alpha2_grid_default. Qed.
Print Assumptions C76_alpha2_default_partial.

(** The mean square displacement asks for times up to the whole duration, not half of it. *)
Theorem C76_msd_half_refuted : forall (tr : traj Rops) rmax ts (frames : list (list (list R))),
  rmax <= 0 -> (2 <= ts)%Z -> 0 < t_total tr ->
  exists g, msd_grid Rops tr None rmax ts frames = Ok g /\ nth 0 g 0 = 0 /\
    nth (length g - 1) g 0 = t_total tr /\ t_total tr / 2 < nth (length g - 1) g 0.
Proof.
  intros tr rmax ts frames Hr Hts HT. destruct (msd_grid_default tr rmax ts frames Hr Hts) as [g [E [L [F1 F2]]]].
  exists g. rewrite F2. repeat split; auto. lra.
Qed.
Print Assumptions C76_msd_half_refuted.

(** With rmax the grid ends where a displacement growing in proportion to time would reach
    rmax. *)
Theorem C76_msd_rmax_partial : forall (tr : traj Rops) rmax ts (frames : list (list (list R))) N c,
  0 < rmax -> (2 <= ts)%Z -> frames <> [] -> (forall x, In x frames -> length x = N) -> 0 < c -> 0 < t_total tr ->
  mean_over (fun d => d) (last frames []) (nth 0 frames []) = c * t_total tr ->
  exists g, msd_grid Rops tr None rmax ts frames = Ok g /\ length g = Z.to_nat ts /\ nth 0 g 0 = 0 /\
    nth (length g - 1) g 0 <= t_total tr /\
    (rmax * rmax <= c * t_total tr -> c * nth (length g - 1) g 0 = rmax * rmax).
Proof.
  intros tr rmax ts frames N c Hr Hts Hne HN Hc HT Em.
  destruct (msd_grid_rmax tr rmax ts frames N Hr Hts Hne HN) as [g [E [L [F1 F2]]]].
  exists g. split; [exact E|]. split; [exact L|]. split; [exact F1|]. rewrite F2, Em.
  assert (rmax * rmax / (c * t_total tr) * t_total tr = rmax * rmax / c) as -> by (field; lra).
  split; [apply Rmin_l|]. intros Q. rewrite Rmin_right; [field; lra|].
  apply Rmult_le_reg_r with c; [exact Hc|]. unfold Rdiv. rewrite Rmult_assoc, Rinv_l by lra. lra.
Qed.
Print Assumptions C76_msd_rmax_partial.

(** One particle moving at speed 1 for 4 time units reaches rmax = 2 at time 2; the grid
    stops at time 1, where the root mean square displacement is 1. *)
Theorem C76_msd_rmax_refuted :
  exists (tr : traj F64ops) (frames : list (frame F64ops)) g t v,
    msd_compute F64ops tr None (f64_ofZ 2) 2 (NoInt (-1)) false frames = Ok (g, v) /\
    g = [f64_ofZ 0; f64_ofZ 1] /\ v = [f64_ofZ 0; f64_ofZ 1] /\
    msd_compute F64ops tr (Some [t]) (f64_ofZ 2) 2 (NoInt (-1)) false frames = Ok ([t], [f64_ofZ 4]) /\ t = f64_ofZ 2.
Proof.
  exists (mkTraj (A:=F64ops) [0; 1; 2; 3; 4]%Z 1 (f64_ofZ 1) (f64_ofZ 4) 1),
    (map (fun z => [[f64_ofZ z]]) [0; 1; 2; 3; 4]%Z), [f64_ofZ 0; f64_ofZ 1], (f64_ofZ 2), [f64_ofZ 0; f64_ofZ 1].
  vm_compute. repeat split; reflexivity.
Qed.
Print Assumptions C76_msd_rmax_refuted.

(** Overlap functions (the same grid serves SelfOverlap, CollectiveOverlap and
    Chi4SelfOverlap) ask for times up to 3/4 of the duration minus one time unit, ... *)
Theorem C76_overlap_default_partial : forall (tr : traj Rops) ts, 4 / 3 <= t_total tr -> (2 <= ts)%nat ->
  exists g, overlap_grid tr None ts = Ok g /\ length g = ts /\ nth 0 g 0 = 0 /\
    nth (ts - 1) g 0 = 3 / 4 * t_total tr - 1 /\ (forall i j, (i <= j < ts)%nat -> nth i g 0 <= nth j g 0).
Proof.
  intros tr ts HT Hts. unfold overlap_grid.
  destruct (logx_grid_zero_ge1 (t_total tr * (3 / 4)) ts) as [g [E [L [F1 [F2 F3]]]]]; [lra|exact Hts|].
  exists g. split; [exact E|]. split; [exact L|]. split; [exact F1|]. split; [|exact F3]. rewrite F2. ring.
Qed.
Print Assumptions C76_overlap_default_partial.

(** ... which leaves nothing but time zero for trajectories shorter than 4/3 time units:
    the result is the single row (0, 1) whatever the motion. *)
Theorem C76_overlap_short_refuted : forall (tr : traj Rops) ts n a (unf : list (list (list R))) N skip,
  0 < t_total tr < 4 / 3 -> (2 <= ts)%nat -> 0 < t_dt tr -> (1 <= t_bs tr)%nat -> a <> 0 ->
  StronglySorted Z.lt (t_steps tr) -> t_steps tr <> [] -> length (t_steps tr) = length unf ->
  (forall x, In x unf -> length x = N) -> (1 <= N)%nat ->
  adjust_skip Rops (length (t_steps tr)) (t_npart tr) (t_bs tr) n = Ok skip ->
  self_overlap_run tr None ts n a unf = Ok ([0], [1]).
Proof. exact self_overlap_short. Qed.
Print Assumptions C76_overlap_short_refuted.

(** Eleven frames 0.1 apart. *)
Example C76_nonvacuous :
  let tr := mkTraj (A:=Rops) [0; 1; 2; 3; 4; 5; 6; 7; 8; 9; 10]%Z 1 (1 / 10) 1 1 in
  0 < t_total tr < 4 / 3 /\ 0 < t_dt tr /\ (1 <= t_bs tr)%nat /\ StronglySorted Z.lt (t_steps tr) /\
  adjust_skip Rops (length (t_steps tr)) (t_npart tr) (t_bs tr) (NoInt (-1)) = Ok 1%nat.
Proof.
  cbn [t_total t_dt t_bs t_steps t_npart]. split; [lra|]. split; [lra|]. split; [lia|]. split.
  - repeat constructor.
  - apply P_Skip.adjust_skip_neg; lia.
Qed.

(** ** C77 *)
(** tau_D and D of the analysis of the mean square displacement. *)
Theorem C77_diffusion_partial : forall ndim sigma (g v : list R),
  increasing g -> length g = length v -> g <> [] -> (0 < ndim)%nat ->
  exists tau D, msd_analyze Rops ndim sigma g v = Ok (tau, D) /\
    match tau with
    | Some t => first_crossing g v (sigma * sigma) t
    | None => forall j, (j < length v)%nat -> ~ crossing v (sigma * sigma) j
    end /\
    match D with
    | Some d => (2 <= length (points_above (sigma * sigma) g v))%nat /\
                fitted_slope (points_above (sigma * sigma) g v) (2 * INR ndim * d)
    | None => (length (points_above (sigma * sigma) g v) < 2)%nat
    end.
Proof. exact msd_analyze_spec. Qed.
Print Assumptions C77_diffusion_partial.

(** For diffusive data MSD = 2 ndim D t both are exact. *)
Theorem C77_diffusion_exact_partial : forall ndim D sigma (g : list R),
  (0 < ndim)%nat -> 0 < D -> sigma <> 0 -> increasing g -> nth 0 g 0 = 0 ->
  let v := map (fun t => 2 * INR ndim * D * t) g in
  (2 <= length (points_above (sigma * sigma) g v))%nat ->
  msd_analyze Rops ndim sigma g v = Ok (Some (sigma * sigma / (2 * INR ndim * D)), Some D).
Proof. exact msd_analyze_exact. Qed.
Print Assumptions C77_diffusion_exact_partial.

(** Over the reals the analysis of a computed mean square displacement never fails. *)
Theorem C77_msd_analyzed_partial : forall (tr : traj Rops) grid rmax ts n no (frames : list (list (list R))) g v ndim sigma,
  length (t_steps tr) = length frames -> 0 < t_dt tr -> (0 < ndim)%nat ->
  msd_compute Rops tr grid rmax ts n no frames = Ok (g, v) -> g <> [] ->
  exists r, msd_analyze Rops ndim sigma g v = Ok r.
Proof.
  intros tr grid rmax ts n no frames g v ndim sigma Hl Hdt Hn E Hne.
  destruct (msd_compute_inv _ _ _ _ _ _ _ _ _ E) as [skip [dg [g' [_ [_ [_ E']]]]]].
  destruct (offset_compute_increasing _ (msd Rops) tr dg skip frames [] g v Hdt Hl E') as [Hi Hlen].
  destruct (msd_analyze_spec ndim sigma g v Hi Hlen Hne Hn) as [tau [D [Er _]]]. eauto.
Qed.
Print Assumptions C77_msd_analyzed_partial.

(** In double precision a mean square displacement that is exactly linear makes the fit
    raise ValueError, which nobody catches: do() fails and no file is written.  Three
    particles, one of which moves; default sigma = 1; one time origin. *)
Definition line_tr : traj F64ops := mkTraj (A:=F64ops) [0; 1; 2; 3; 4]%Z 1 (f64_ofZ 1) (f64_ofZ 4) 3.
Definition line_frames : list (frame F64ops) :=
  map (fun p => [map f64_ofZ p; map f64_ofZ [5; 5; 5]; map f64_ofZ [7; 7; 7]]%Z)
    [[0; 0; 0]; [2; 0; 0]; [2; 2; 0]; [2; 2; 2]; [4; 0; 0]]%Z.
Theorem C77_linear_msd_refuted :
  exists g v, msd_compute F64ops line_tr (Some (map f64_ofZ [0; 1; 2; 3; 4]%Z)) (f64_ofZ (-1)) 30 (NoInt 1) false line_frames
      = Ok (g, v) /\
    g = map f64_ofZ [0; 1; 2; 3; 4]%Z /\ v = map (fun z => f64_frac z 3) [0; 4; 8; 12; 16]%Z /\
    msd_analyze F64ops 3 (f64_ofZ 1) g v = Err ValueError /\
    forall s now traj path comments,
      do_ false s now traj path comments
        (r <- msd_analyze F64ops 3 (f64_ofZ 1) g v ;; Ok (Data1 g v, [])) = (true, Err ValueError).
Proof.
  exists (map f64_ofZ [0; 1; 2; 3; 4]%Z), (map (fun z => f64_frac z 3) [0; 4; 8; 12; 16]%Z).
  split; [vm_compute; reflexivity|]. split; [reflexivity|]. split; [reflexivity|].
  assert (msd_analyze F64ops 3 (f64_ofZ 1) (map f64_ofZ [0; 1; 2; 3; 4]%Z) (map (fun z => f64_frac z 3) [0; 4; 8; 12; 16]%Z)
          = Err ValueError) as E by (vm_compute; reflexivity).
  split; [exact E|]. intros s now tj path comments. rewrite E. reflexivity.
Qed.
Print Assumptions C77_linear_msd_refuted.

(** Four times, of which the last two lie above sigma^2 = 4. *)
Example C77_nonvacuous :
  increasing [0; 1; 2; 3] /\ nth 0 [0; 1; 2; 3] 0 = 0 /\
  length (points_above (2 * 2) [0; 1; 2; 3] (map (fun t => 2 * INR 3 * (1 / 2) * t) [0; 1; 2; 3])) = 2%nat.
Proof.
  split; [repeat constructor; lra|]. split; [reflexivity|]. unfold points_above. cbn.
  repeat (destruct (Rlt_dec _ _); try lra). reflexivity.
Qed.

(** ** C78 *)
(** The peak of the non-Gaussian parameter and of chi4: at or above every value, in the
    cell of the highest one, exact where the data are a parabola (C14). *)
Theorem C78_peak : forall g v : list R, increasing g -> length g = length v -> v <> [] ->
  exists t h, peak_analyze Rops g v = Ok (Some (t, h)) /\ peak g v t h.
Proof. exact peak_spec. Qed.
Print Assumptions C78_peak.

(** The computed non-Gaussian parameter always has one. *)
Theorem C78_alpha2_peak : forall (tr : traj Rops) grid n (unf : list (list (list R))) (g v : list R),
  length (t_steps tr) = length unf -> 0 < t_dt tr ->
  alpha2_compute Rops tr grid n unf = Ok (g, v) -> v <> [] ->
  exists t h, peak_analyze Rops g v = Ok (Some (t, h)) /\ peak g v t h /\ 
    nth 0 g 0 <= t <= last g 0.
Proof.
  intros tr grid n unf g v Hl Hdt E Hv. unfold alpha2_compute in E.
  destruct (grid_compute_inv _ _ _ _ _ _ _ _ E) as [skip [dg [_ [_ E']]]].
  destruct (offset_compute_increasing _ (alpha_2 Rops) tr dg skip (with_id Rops unf) (0%nat, []) g v Hdt) as [Hi Hlen]; auto.
  { rewrite with_id_length. exact Hl. }
  destruct (peak_spec g v Hi Hlen Hv) as [t [h [Ep P]]]. exists t, h. split; [exact Ep|]. split; [exact P|].
  clear E E' Ep. revert g v Hv Hi Hlen t h P. change (num Rops) with R.
  intros g v Hv Hi Hlen t h P. destruct P as [_ [i [I1 [_ [I3 I4]]]]].
  assert (0 < length g)%nat as Hg by (rewrite Hlen; lia).
  rewrite (last_nth _ g) by (intros ->; cbn in Hg; lia).
  assert (forall q q', (q <= q' < length g)%nat -> nth q g 0 <= nth q' g 0) as Q.
  { intros q q' Hq. destruct (Nat.eq_dec q q') as [->|]; [lra|]. left. apply increasing_nth; [exact Hi|lia]. }
  destruct (Nat.eq_dec i 0) as [Z|Z]; [|destruct (Nat.eq_dec i (length v - 1)) as [Z'|Z']].
  - destruct (I3 (or_introl Z)) as [-> _]. split; apply Q; lia.
  - destruct (I3 (or_intror Z')) as [-> _]. split; apply Q; lia.
  - destruct I4 as [I4 I5]; [lia|].
    pose proof (Q 0%nat (i - 1)%nat ltac:(lia)). pose proof (Q 0%nat i ltac:(lia)).
    pose proof (Q i (length g - 1)%nat ltac:(lia)). pose proof (Q (i + 1)%nat (length g - 1)%nat ltac:(lia)). lra.
Qed.
Print Assumptions C78_alpha2_peak.

(** chi4 computes pairs (time, value). *)
Theorem C78_chi4_peak : forall (tr : traj Rops) grid n a (unf : list (list (list R))) r,
  length (t_steps tr) = length unf -> 0 < t_dt tr ->
  chi4_compute Rops tr grid n a unf = Ok r -> r <> [] ->
  exists t h, peak_analyze Rops (map fst r) (map snd r) = Ok (Some (t, h)) /\ peak (map fst r) (map snd r) t h.
Proof.
  intros tr grid n a unf r Hl Hdt E Hr. unfold chi4_compute in E.
  apply bind_Ok_inv in E. destruct E as [skip [_ E]]. apply bind_Ok_inv in E. destruct E as [dg [Eg E]].
  apply peak_spec; [|rewrite !map_length; reflexivity|destruct r; [congruence|discriminate]].
  destruct (P_Time.setup_t_grid_correct _ _ _ _ _ _ _ Eg) as [reqs [_ [S0 [Hu _]]]].
  assert (map fst r = times_of tr (map (lag_dt (t_steps tr)) dg)) as Em.
  { clear - E Hu. revert r E. induction dg as [|p dg IH]; intros r E.
    - cbn in E. apply Ok_inj in E. subst r. reflexivity.
    - cbn [mapM] in E. apply bind_Ok_inv in E. destruct E as [y [E1 E]]. apply bind_Ok_inv in E. destruct E as [m [E2 E]].
      apply Ok_inj in E. subst r. cbn [map times_of]. unfold times_of in IH. cbn [map]. f_equal.
      + unfold chi4_point in E1. apply bind_Ok_inv in E1. destruct E1 as [s [_ E1]].
        apply bind_Ok_inv in E1. destruct E1 as [ta [Ta E1]]. apply bind_Ok_inv in E1. destruct E1 as [tb [Tb E1]].
        apply bind_Ok_inv in E1. destruct E1 as [x0 [_ E1]]. apply Ok_inj in E1. subst y. cbn [fst].
        destruct (Hu p (or_introl eq_refl)) as [[_ U] _].
        rewrite (get_Ok _ _ _ 0%Z) in Ta by lia. rewrite (get_Ok _ _ _ 0%Z) in Tb by lia.
        apply Ok_inj in Ta. apply Ok_inj in Tb. subst ta tb. reflexivity.
      + apply IH; [|exact E2]. intros q Hq. apply Hu. right. exact Hq. }
  rewrite Em. apply times_increasing; assumption.
Qed.
Print Assumptions C78_chi4_peak.

Example C78_nonvacuous :
  peak_analyze F64ops (map f64_ofZ [0; 1; 2; 3]%Z) (map f64_ofZ [0; 6; 6; 0]%Z) = Ok (Some (f64_frac 3 2, f64_frac 27 4)) /\
  (exists g v, alpha2_compute F64ops line_tr (map f64_ofZ [1; 2; 4]%Z) (NoInt (-1)) line_frames = Ok (g, v) /\ length v = 3%nat).
Proof. split; [vm_compute; reflexivity|]. eexists _, _. split; [vm_compute; reflexivity|reflexivity]. Qed.

(** ** C79 *)
(** When the cutoff exists it is a point of the grid after the main peak of g(r), followed
    by a rise and preceded, from the peak on, by a strict fall: the first minimum. *)
Theorem C79_cutoff_partial : forall g v : list R, increasing g -> length g = length v -> v <> [] ->
  exists t h, peak g v t h /\
  ((exists k, pair_rcut Rops g v = Ok (Some (nth k g 0)) /\ (S k < length g)%nat /\
     t <= nth k g 0 /\ nth k v 0 <= nth (S k) v 0 /\
     (forall j, (j < k)%nat -> t <= nth j g 0 -> nth (S j) v 0 < nth j v 0) /\
     (forall i, first_max v i -> (0 < i)%nat -> (i < k)%nat)) \/
   (pair_rcut Rops g v = Err IndexError /\
     (forall j, (S j < length g)%nat -> t <= nth j g 0 -> nth (S j) v 0 < nth j v 0))).
Proof. exact pair_rcut_spec. Qed.
Print Assumptions C79_cutoff_partial.

(** No cutoff can be found, and IndexError is raised, when g(r) is highest in its last bin. *)
Theorem C79_no_minimum_refuted : forall g v : list R, increasing g -> length g = length v -> v <> [] ->
  first_max v (length v - 1) -> pair_rcut Rops g v = Err IndexError.
Proof.
  intros g v Hg Hl Hv M. destruct (pair_rcut_spec g v Hg Hl Hv) as [t [h [_ [[k [_ [K1 [_ [_ [_ K]]]]]]|[E _]]]]]; [exfalso|exact E].
  specialize (K _ M). lia.
Qed.
Print Assumptions C79_no_minimum_refuted.

(** If one pair of species fails, the whole calculation does. *)
Theorem C79_one_pair_refuted : forall (A : arith) n gr i j e, (i < n)%nat -> (j < n)%nat ->
  pair_rcut A (fst (gr i j)) (snd (gr i j)) = Err e -> exists e', default_rcut A n gr = Err e'.
Proof.
  intros A n gr i j e Hi Hj E. destruct (default_rcut A n gr) as [m|e'] eqn:D; [exfalso|eauto].
  unfold default_rcut in D.
  assert (forall X Y (f : X -> res Y) l m x, mapM f l = Ok m -> In x l -> exists y, f x = Ok y) as Q.
  { intros X Y f l. induction l as [|a l IH]; intros m' x Em Hx; [destruct Hx|].
    cbn in Em. apply bind_Ok_inv in Em. destruct Em as [b [E1 Em]]. apply bind_Ok_inv in Em. destruct Em as [m2 [E2 _]].
    destruct Hx as [<-|Hx]; [eauto|]. apply (IH m2); assumption. }
  destruct (Q _ _ _ _ _ i D) as [row Er]; [apply in_seq; lia|].
  destruct (Q _ _ _ _ _ j Er) as [y Ey]; [apply in_seq; lia|]. congruence.
Qed.
Print Assumptions C79_one_pair_refuted.

(** A g(r) with a peak at 1.5 and a minimum at 3; one with its maximum in the last bin. *)
Example C79_nonvacuous :
  pair_rcut F64ops (map f64_ofZ [0; 1; 2; 3; 4]%Z) (map f64_ofZ [0; 6; 6; 2; 3]%Z) = Ok (Some (f64_ofZ 3)) /\
  pair_rcut F64ops (map f64_ofZ [0; 1; 2]%Z) (map f64_ofZ [0; 1; 3]%Z) = Err IndexError /\
  first_max [0; 1; 3] (length [0; 1; 3] - 1).
Proof.
  split; [vm_compute; reflexivity|]. split; [vm_compute; reflexivity|]. cbn. split; [cbn; lia|]. split.
  - intros [|[|[|j]]] Hj; cbn in *; try lra; lia.
  - intros [|[|j]] Hj; cbn in *; try lra; lia.
Qed.
