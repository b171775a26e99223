(** Theorems about dynamic correlation functions: C17 - C23, C66. *)
From Coq Require Import Ascii String List ZArith Bool Arith Reals Lia Lra Sorting.Sorted.
From Coq Require Import Floats.SpecFloat.
From Verif Require Import PyBase PyBaseFacts Num Spec_Stats NumFacts M_Helpers M_Correlation M_Dynamics
  Spec_Correlation Spec_Time P_Time P_Skip Spec_Dynamics P_Dynamics P_Dynamics2 P_FixCM P_Overlap P_Chi4.
Import ListNotations.
Local Open Scope R_scope.

(** ** C17 *)
(** The values are averages, over the pairs of frames selected by the grid and
    by norigins, of the mean squared displacement between the two frames. *)
Theorem C17_msd_average :
  forall (tr : traj Rops) grid rmax ts n no (frames : list (list (list R))) N g v,
  length (t_steps tr) = length frames -> (forall x, In x frames -> length x = N) ->
  msd_compute Rops tr grid rmax ts n no frames = Ok (g, v) ->
  exists dts ps grid', g = times_of tr dts /\ in_range (length frames) ps /\
    grouped_mean (A := Rops) (mean_over (fun d => d)) (t_steps tr) frames [] ps dts v /\
    msd_grid Rops tr grid rmax ts frames = Ok grid' /\
    planned tr grid' n (not_str_1 Rops n && negb no) (length frames) ps.
Proof. exact msd_average. Qed.
Print Assumptions C17_msd_average.

Theorem C17_msd_nonnegative :
  forall (tr : traj Rops) grid rmax ts n no (frames : list (list (list R))) N g v,
  length (t_steps tr) = length frames -> (forall x, In x frames -> length x = N) ->
  msd_compute Rops tr grid rmax ts n no frames = Ok (g, v) ->
  forall e : R, In e v -> 0 <= e.
Proof. exact msd_nonneg. Qed.
Print Assumptions C17_msd_nonnegative.

Theorem C17_msd_zero_at_zero :
  forall (tr : traj Rops) grid rmax ts n no (frames : list (list (list R))) N g v k,
  length (t_steps tr) = length frames -> (forall x, In x frames -> length x = N) -> (1 <= N)%nat ->
  StronglySorted Z.lt (t_steps tr) -> t_dt tr <> 0 ->
  msd_compute Rops tr grid rmax ts n no frames = Ok (g, v) ->
  (k < length v)%nat -> nth k g 0 = 0 -> nth k v 0 = 0.
Proof. exact msd_zero. Qed.
Print Assumptions C17_msd_zero_at_zero.

Theorem C17_msd_translation :
  forall (tr : traj Rops) grid rmax ts n no (frames : list (list (list R))) N (c : list R),
  length (t_steps tr) = length frames -> (forall x, In x frames -> shaped N (length c) x) ->
  msd_compute Rops tr grid rmax ts n no (map (map (fun r => plusv r c)) frames)
  = msd_compute Rops tr grid rmax ts n no frames.
Proof. exact msd_translation. Qed.
Print Assumptions C17_msd_translation.

Theorem C17_msd_ballistic :
  forall (tr : traj Rops) grid rmax ts n no r0 vel d g v k,
  length r0 = length vel -> shaped (length r0) d r0 -> shaped (length vel) d vel ->
  let frames := map (fun s => moved r0 vel (IZR s * t_dt tr)) (t_steps tr) in
  msd_compute Rops tr grid rmax ts n no frames = Ok (g, v) ->
  (k < length v)%nat -> nth k v 0 = rmean (map norm2 vel) * (nth k g 0 * nth k g 0).
Proof. exact msd_ballistic. Qed.
Print Assumptions C17_msd_ballistic.

Definition demo_tr : traj F64ops := mkTraj (A:=F64ops) [0; 1; 2; 3]%Z 1 (f64_frac 1 2) (f64_frac 3 2) 2.
Definition demo_frames : list (frame F64ops) :=
  map (map (map f64_ofZ)) [[[0; 0]; [1; 1]]; [[1; 0]; [1; 1]]; [[2; 0]; [1; 2]]; [[3; 0]; [1; 4]]]%Z.
Example C17_nonvacuous :
  msd_compute F64ops demo_tr (Some (map (fun z => f64_frac z 2) [0; 1; 3]%Z)) (f64_ofZ (-1)) 30 (NoInt (-1)) false demo_frames
  = Ok ([f64_ofZ 0; f64_frac 1 2; f64_frac 3 2], [f64_ofZ 0; f64_frac 4 3; f64_ofZ 9]).
Proof. vm_compute. reflexivity. Qed.

(** ** C18 *)
Theorem C18_fix_cm :
  forall d ps, ps <> [] -> of_dim d ps -> total_mass ps <> 0 ->
  exists ps', fix_cm_frame Rops ps = Ok ps' /\ of_dim d ps' /\ map fst ps' = map fst ps /\
    (forall k, (k < d)%nat -> moment ps' k = 0) /\
    (forall i j k, (i < length ps)%nat -> (j < length ps)%nat -> (k < d)%nat ->
       nth k (snd (nth i ps' (0, []))) 0 - nth k (snd (nth j ps' (0, []))) 0
       = nth k (snd (nth i ps (0, []))) 0 - nth k (snd (nth j ps (0, []))) 0) /\
    fix_cm_frame Rops ps' = Ok ps'.
Proof. exact fix_cm_centered. Qed.
Print Assumptions C18_fix_cm.

Theorem C18_fix_cm_drift :
  forall c ps, ps <> [] -> of_dim (length c) ps -> total_mass ps <> 0 ->
  fix_cm_frame Rops (displaced c ps) = fix_cm_frame Rops ps.
Proof. exact fix_cm_invariant. Qed.
Print Assumptions C18_fix_cm_drift.

Example C18_nonvacuous :
  fix_cm_frame F64ops [(f64_ofZ 1, map f64_ofZ [0; 4]%Z); (f64_ofZ 3, map f64_ofZ [4; 0]%Z)]
  = Ok [(f64_ofZ 1, map f64_ofZ [-3; 3]%Z); (f64_ofZ 3, map f64_ofZ [1; -1]%Z)].
Proof. vm_compute. reflexivity. Qed.

(** ** C19 *)
Theorem C19_self_overlap :
  forall (tr : traj Rops) grid n a (unf : list (list (list R))) N g v,
  length (t_steps tr) = length unf -> (forall x, In x unf -> length x = N) -> (1 <= N)%nat -> a <> 0 ->
  self_overlap_compute Rops tr grid n a unf = Ok (g, v) ->
  exists dts ps, g = times_of tr dts /\ planned tr grid n (not_str_1 Rops n) (length unf) ps /\
    grouped_mean (A := Rops) (fun x y => INR (slow (a * a) x y) / INR N) (t_steps tr) unf [] ps dts v /\
    (forall e : R, In e v -> 0 <= e <= 1) /\
    (StronglySorted Z.lt (t_steps tr) -> t_dt tr <> 0 ->
     forall k, (k < length v)%nat -> nth k g 0 = 0 -> nth k v 0 = 1).
Proof. exact self_overlap_spec. Qed.
Print Assumptions C19_self_overlap.

Theorem C19_collective_overlap :
  forall (tr : traj Rops) grid n a (pos : list (list (list R))) N g v,
  length (t_steps tr) = length pos -> (forall x, In x pos -> length x = N) -> (1 <= N)%nat ->
  coll_overlap_compute Rops tr grid n a pos = Ok (g, v) ->
  exists dts ps, g = times_of tr dts /\ planned tr grid n (not_str_1 Rops n) (length pos) ps /\
    grouped_mean (A := Rops) (fun x y => INR (overlapping (a * a) x y) / INR N) (t_steps tr) pos [] ps dts v /\
    (forall e : R, In e v -> 0 <= e <= INR N).
Proof. exact coll_overlap_spec. Qed.
Print Assumptions C19_collective_overlap.

(** Collective is at least self when both see the same coordinates, e.g. when no
    particle crosses the cell boundary. *)
Theorem C19_collective_ge_self_partial :
  forall (tr : traj Rops) grid n a (pos : list (list (list R))) g v g' v',
  length (t_steps tr) = length pos -> (forall x, In x pos -> x <> []) ->
  self_overlap_compute Rops tr grid n a pos = Ok (g, v) ->
  coll_overlap_compute Rops tr grid n a pos = Ok (g', v') ->
  g' = g /\ Forall2 Rle v v'.
Proof. exact coll_ge_self. Qed.
Print Assumptions C19_collective_ge_self_partial.

(** One particle crosses the boundary of a cell of side 2: SelfOverlap works on
    unfolded, CollectiveOverlap on folded coordinates. *)
Theorem C19_collective_ge_self_refuted :
  exists (tr : traj F64ops) grid n a (pos unf : list (frame F64ops)) side g v v',
    pos = [[[f64_frac 3 4]]; [[nsub F64ops (f64_frac 5 4) side]]] /\
    unf = [[[f64_frac 3 4]]; [[f64_frac 5 4]]] /\ side = f64_ofZ 2 /\
    self_overlap_compute F64ops tr grid n a unf = Ok (g, [v]) /\
    coll_overlap_compute F64ops tr grid n a pos = Ok (g, [v']) /\
    nlt F64ops v' v = true.
Proof.
  exists (mkTraj (A:=F64ops) [0; 1]%Z 1 (f64_ofZ 1) (f64_ofZ 1) 1), [f64_ofZ 1], (NoInt (-1)), (f64_ofZ 1).
  do 2 eexists. exists (f64_ofZ 2), [f64_ofZ 1], (f64_ofZ 1), (f64_ofZ 0).
  split; [reflexivity|]. split; [reflexivity|]. split; [reflexivity|]. vm_compute. repeat split; reflexivity.
Qed.
Print Assumptions C19_collective_ge_self_refuted.

Example C19_nonvacuous :
  self_overlap_compute F64ops demo_tr (map (fun z => f64_frac z 2) [0; 1; 2]%Z) (NoInt (-1)) (f64_frac 3 2) demo_frames
  = Ok ([f64_ofZ 0; f64_frac 1 2; f64_ofZ 1], [f64_ofZ 1; f64_frac 5 6; f64_frac 1 4]) /\
  coll_overlap_compute F64ops demo_tr (map (fun z => f64_frac z 2) [0; 1; 2]%Z) (NoInt (-1)) (f64_frac 3 2) demo_frames
  = Ok ([f64_ofZ 0; f64_frac 1 2; f64_ofZ 1], [f64_frac 3 2; f64_frac 4 3; f64_frac 1 2]).
Proof. vm_compute. repeat split; reflexivity. Qed.

(** ** C20 *)
Theorem C20_non_gaussian :
  forall (tr : traj Rops) grid n (unf : list (list (list R))) N g v,
  length (t_steps tr) = length unf -> (forall x, In x unf -> length x = N) ->
  StronglySorted Z.lt (t_steps tr) ->
  alpha2_compute Rops tr grid n unf = Ok (g, v) ->
  exists dts ps, g = times_of tr dts /\ length v = length dts /\
    planned tr grid n (not_str_1 Rops n) (length unf) ps /\
    StronglySorted Z.lt dts /\
    (forall d, In d dts <-> exists p, In p ps /\ pair_dt (t_steps tr) p = d) /\
    forall k, (k < length v)%nat ->
      let qs := pairs_at (t_steps tr) (nth k dts 0%Z) ps in
      (nth k dts 0%Z = 0%Z -> nth k v 0 = 0) /\
      (nth k dts 0%Z <> 0%Z ->
       nth k v 0 = rmean (map (fun p => non_gaussian (nth (fst p) unf []) (nth (snd p) unf [])) qs)) /\
      (nth k dts 0%Z <> 0%Z ->
       (forall p, In p qs -> exists q, In q (combine (nth (fst p) unf []) (nth (snd p) unf [])) /\
                                       dist2 (fst q) (snd q) <> 0) ->
       - (2 / 5) <= nth k v 0).
Proof. exact alpha2_spec. Qed.
Print Assumptions C20_non_gaussian.

Example C20_nonvacuous :
  alpha2_compute F64ops demo_tr (map (fun z => f64_frac z 2) [0; 3]%Z) (NoInt (-1)) demo_frames
  = Ok ([f64_ofZ 0; f64_frac 3 2],
        [f64_ofZ 0; nsub F64ops (ndiv F64ops (f64_ofZ 243) (f64_ofZ 405)) (f64_ofZ 1)]).
Proof. vm_compute. reflexivity. Qed.

(** ** C21 *)
(** One value per point of the time grid: the variance over the origins of the
    number of slow particles, per particle. *)
Theorem C21_chi4_variance :
  forall (tr : traj Rops) grid n a (unf : list (list (list R))) N skip dg,
  unf <> [] -> length (t_steps tr) = length unf -> (forall x, In x unf -> length x = N) ->
  adjust_skip Rops (length (t_steps tr)) (t_npart tr) (t_bs tr) n = Ok skip ->
  setup_t_grid Rops (t_steps tr) (t_bs tr) (t_dt tr) grid (not_str_1 Rops n) = Ok dg ->
  chi4_compute Rops tr grid n a unf
  = Ok (map (fun p => (IZR (lag_dt (t_steps tr) p) * t_dt tr,
                       variance (counts (a * a) unf p (origins (fst p) skip (length unf - snd p - skip))) / INR N)) dg).
Proof. exact chi4_compute_spec. Qed.
Print Assumptions C21_chi4_variance.

Theorem C21_chi4_sign :
  forall (tr : traj Rops) grid n a (unf : list (list (list R))) N r,
  unf <> [] -> length (t_steps tr) = length unf -> (forall x, In x unf -> length x = N) -> (1 <= N)%nat ->
  chi4_compute Rops tr grid n a unf = Ok r ->
  forall t v, In (t, v) r ->
    0 <= v /\ (StronglySorted Z.lt (t_steps tr) -> t_dt tr <> 0 -> a <> 0 -> t = 0 -> v = 0).
Proof.
  intros tr grid n a unf N r Hne Hl HN HN1 H t v Hin.
  assert (chi4_compute Rops tr grid n a unf = Ok r) as H' by exact H. unfold chi4_compute in H'.
  apply bind_Ok_inv in H'. destruct H' as [skip [E1 H']]. apply bind_Ok_inv in H'. destruct H' as [dg [E2 _]].
  rewrite (chi4_compute_spec tr grid n a unf N skip dg Hne Hl HN E1 E2) in H. apply Ok_inj in H. subst r.
  apply in_map_iff in Hin. destruct Hin as [p [E Hp]]. injection E as Et Ev. split.
  - rewrite <- Ev. apply Rle_mult_inv_pos; [apply variance_nonneg|apply lt_0_INR; lia].
  - intros Ht Hd Ha E0. rewrite <- Et in E0. apply Rmult_integral in E0. destruct E0 as [E0|E0]; [|contradiction].
    apply eq_IZR in E0. destruct (setup_t_grid_correct _ _ _ _ _ _ _ E2) as [reqs [_ [_ [Hu _]]]].
    destruct (Hu p Hp) as [U _]. apply usable_range in U.
    assert (fst p + snd p = fst p)%nat as Es.
    { pose proof (pair_dt_zero (t_steps tr) (lag_pair p) Ht) as P. unfold lag_pair in P. cbn [fst snd] in P.
      apply P; [lia|exact E0]. }
    destruct p as [off lag]. cbn [fst snd] in *. assert (lag = 0)%nat as -> by lia.
    rewrite <- Ev. rewrite (counts_self a unf N); [unfold Rdiv; apply Rmult_0_l|exact Ha|exact HN|].
    intros i0 Hi. unfold origins in Hi. apply filter_In in Hi. destruct Hi as [Hi _]. apply in_seq in Hi. lia.
Qed.
Print Assumptions C21_chi4_sign.

Example C21_nonvacuous :
  chi4_compute F64ops demo_tr (map (fun z => f64_frac z 2) [0; 1]%Z) (NoInt (-1)) (f64_frac 5 4) demo_frames
  = Ok [(f64_ofZ 0, f64_ofZ 0); (f64_frac 1 2, f64_ofZ 0)] /\
  chi4_compute F64ops demo_tr (map (fun z => f64_frac z 2) [0; 1]%Z) (NoInt (-1)) (f64_frac 3 4) demo_frames
  = Ok [(f64_ofZ 0, f64_ofZ 0); (f64_frac 1 2, f64_frac 1 8)].
Proof. vm_compute. repeat split; reflexivity. Qed.

(** ** C22 *)
(** Exact set of origins with norigins=-1 and no blocks: all the frames from
    which the lag can be measured, except the last one. *)
Theorem C22_chi4_origins_partial :
  forall (tr : traj Rops) grid a (unf : list (list (list R))) N dg,
  unf <> [] -> length (t_steps tr) = length unf -> (forall x, In x unf -> length x = N) -> t_bs tr = 1%nat ->
  setup_t_grid Rops (t_steps tr) (t_bs tr) (t_dt tr) grid true = Ok dg ->
  chi4_compute Rops tr grid (NoInt (-1)) a unf
  = Ok (map (fun p => (IZR (lag_dt (t_steps tr) p) * t_dt tr,
                       variance (counts (a * a) unf p (seq 0 (length unf - snd p - 1))) / INR N)) dg).
Proof.
  intros tr grid a unf N dg Hne Hl HN Hb E.
  assert (adjust_skip Rops (length (t_steps tr)) (t_npart tr) (t_bs tr) (NoInt (-1)) = Ok 1%nat) as Ea.
  { rewrite Hb, adjust_skip_neg by lia. rewrite Hl. destruct unf; [congruence|]. cbn [length]. rewrite Nat.min_r by lia. reflexivity. }
  rewrite (chi4_compute_spec tr grid _ a unf N 1 dg Hne Hl HN Ea E). f_equal. apply map_ext_in. intros p Hp.
  destruct (setup_t_grid_correct _ _ _ _ _ _ _ E) as [reqs [_ [_ [Hu _]]]].
  destruct (Hu p Hp) as [[U _] _]. rewrite Hb in U. cbn in U. destruct U as [U|[]]. rewrite <- U.
  rewrite P_Acf.origins_all. reflexivity.
Qed.
Print Assumptions C22_chi4_origins_partial.

(** Three frames, lag 1, two origins with counts 1 and 0: chi4 comes out as 0, the
    variance of the first count alone. *)
Theorem C22_chi4_all_origins_refuted :
  exists (tr : traj Rops) grid a (unf : list (list (list R))) t v,
    t_bs tr = 1%nat /\ length (t_steps tr) = length unf /\ (forall x, In x unf -> length x = 1%nat) /\
    chi4_compute Rops tr grid (NoInt (-1)) a unf = Ok [(t, v)] /\
    t = 1 /\ v <> variance (counts (a * a) unf (0, 1)%nat (seq 0 (length unf - 1))) / INR 1.
Proof.
  exists (mkTraj (A:=Rops) [0; 1; 2]%Z 1 1 2 1), [1], 1, [[[0]]; [[0]]; [[5]]].
  assert (setup_t_grid Rops [0; 1; 2]%Z 1 1 [1] true = Ok [(0, 1)]%nat) as E.
  { unfold setup_t_grid. cbn [mapM]. unfold to_step, pydiv. cbn [neq n0 Rops ndiv nrint].
    rewrite Reqb_false by lra. cbn [bind]. replace (1 / 1) with (IZR 1) by (unfold Rdiv; lra). rewrite Rrint_IZR.
    vm_compute. reflexivity. }
  do 2 eexists. split; [reflexivity|]. split; [reflexivity|]. split.
  { intros x [<-|[<-|[<-|[]]]]; reflexivity. }
  split.
  { erewrite C22_chi4_origins_partial with (N := 1%nat); [|discriminate|reflexivity| |reflexivity|exact E].
    2: { intros x [<-|[<-|[<-|[]]]]; reflexivity. }
    reflexivity. }
  unfold lag_dt, pair_dt, lag_pair. cbn [t_steps t_dt fst snd nth Nat.add length Nat.sub seq counts map].
  assert (slow (1 * 1) [[0]] [[0]] = 1%nat) as S1.
  { unfold slow. cbn. destruct (Rlt_dec _ _); [reflexivity|lra]. }
  assert (slow (1 * 1) [[0]] [[5]] = 0%nat) as S2.
  { unfold slow. cbn. destruct (Rlt_dec _ _); [lra|reflexivity]. }
  rewrite S1, S2. split; [cbn; lra|]. unfold variance, rmean. cbn. lra.
Qed.
Print Assumptions C22_chi4_all_origins_refuted.

(** ** C23 *)
(** Whatever norigins, the origins are block_size frames apart. *)
Theorem C23_vacf_average_partial :
  forall (tr : traj Rops) tgrid n (vel : list (list (list R))) N g v,
  length (t_steps tr) = length vel -> (forall x, In x vel -> length x = N) ->
  vacf_compute Rops tr (Some tgrid) n vel = Ok (g, v) ->
  exists dts dg, g = times_of tr dts /\
    setup_t_grid Rops (t_steps tr) (t_bs tr) (t_dt tr) tgrid (not_str_1 Rops n) = Ok dg /\
    grouped_mean (A := Rops) (fun x y => rmean (map (fun p => dotv (fst p) (snd p)) (combine x y)))
      (t_steps tr) vel [] (admitted dg (t_bs tr) (length vel)) dts v.
Proof. exact vacf_spec. Qed.
Print Assumptions C23_vacf_average_partial.

(** norigins has no influence on the result, and without a time grid the
    constructor always fails. *)
Theorem C23_vacf_norigins_refuted :
  forall (A : arith) (tr : traj A) g n n' vel s s',
  adjust_skip A (length (t_steps tr)) (t_npart tr) (t_bs tr) n = Ok s ->
  adjust_skip A (length (t_steps tr)) (t_npart tr) (t_bs tr) n' = Ok s' ->
  not_str_1 A n = not_str_1 A n' ->
  vacf_compute A tr g n vel = vacf_compute A tr g n' vel.
Proof. exact vacf_ignores. Qed.
Print Assumptions C23_vacf_norigins_refuted.
Theorem C23_sacf_norigins_refuted :
  forall (A : arith) (tr : traj A) g n n' vol m w vel s s',
  adjust_skip A (length (t_steps tr)) (t_npart tr) (t_bs tr) n = Ok s ->
  adjust_skip A (length (t_steps tr)) (t_npart tr) (t_bs tr) n' = Ok s' ->
  not_str_1 A n = not_str_1 A n' ->
  sacf_compute A tr g n vol m w vel = sacf_compute A tr g n' vol m w vel.
Proof. exact sacf_ignores. Qed.
Print Assumptions C23_sacf_norigins_refuted.
Theorem C23_vacf_no_grid_refuted :
  forall (A : arith) (tr : traj A) n vel, exists e, vacf_compute A tr None n vel = Err e.
Proof. exact vacf_none. Qed.
Print Assumptions C23_vacf_no_grid_refuted.

(** One origin and ten origins requested, same numbers; the mean over the single
    origin would be 1. *)
Example C23_nonvacuous :
  adjust_skip F64ops 4 2 1 (NoInt 1) = Ok 4%nat /\ adjust_skip F64ops 4 2 1 (NoInt 2) = Ok 2%nat /\
  vacf_compute F64ops demo_tr (Some [f64_ofZ 0]) (NoInt 1) demo_frames = Ok ([f64_ofZ 0], [f64_ofZ 5]) /\
  vacf_compute F64ops demo_tr (Some [f64_ofZ 0]) (NoInt 2) demo_frames = Ok ([f64_ofZ 0], [f64_ofZ 5]).
Proof. vm_compute. repeat split; reflexivity. Qed.

(** ** C66 *)
Theorem C66_optimized_agrees_partial :
  forall (A : arith) (tr : traj A) grid n a unf r,
  chi4_opt_compute A tr grid n a unf = Ok r -> chi4_compute A tr grid n a unf = Ok r.
Proof. exact chi4_opt_agree. Qed.
Print Assumptions C66_optimized_agrees_partial.
Theorem C66_optimized_total_partial :
  forall (tr : traj Rops) grid n a (unf : list (list (list R))) skip dg,
  unf <> [] -> length (t_steps tr) = length unf ->
  adjust_skip Rops (length (t_steps tr)) (t_npart tr) (t_bs tr) n = Ok skip ->
  setup_t_grid Rops (t_steps tr) (t_bs tr) (t_dt tr) grid (not_str_1 Rops n) = Ok dg ->
  (forall p, In p dg -> fst p + snd p + skip < length unf)%nat ->
  exists r, chi4_opt_compute Rops tr grid n a unf = Ok r.
Proof. exact chi4_opt_total. Qed.
Print Assumptions C66_optimized_total_partial.
(** It raises as soon as one point of the grid has no origin. *)
Theorem C66_optimized_refuted :
  forall (tr : traj Rops) grid n a (unf : list (list (list R))) skip dg p,
  unf <> [] -> length (t_steps tr) = length unf ->
  adjust_skip Rops (length (t_steps tr)) (t_npart tr) (t_bs tr) n = Ok skip ->
  setup_t_grid Rops (t_steps tr) (t_bs tr) (t_dt tr) grid (not_str_1 Rops n) = Ok dg ->
  In p dg -> (length unf <= fst p + snd p + skip)%nat ->
  chi4_opt_compute Rops tr grid n a unf = Err ZeroDivisionError.
Proof. exact chi4_opt_fails. Qed.
Print Assumptions C66_optimized_refuted.
Example C66_nonvacuous :
  chi4_opt_compute F64ops demo_tr (map (fun z => f64_frac z 2) [0; 1]%Z) (NoInt (-1)) (f64_frac 3 4) demo_frames
  = Ok [(f64_ofZ 0, f64_ofZ 0); (f64_frac 1 2, f64_frac 1 8)] /\
  chi4_opt_compute F64ops demo_tr (map (fun z => f64_frac z 2) [0; 3]%Z) (NoInt (-1)) (f64_frac 3 4) demo_frames
  = Err ZeroDivisionError /\
  chi4_compute F64ops demo_tr (map (fun z => f64_frac z 2) [0; 3]%Z) (NoInt (-1)) (f64_frac 3 4) demo_frames
  = Ok [(f64_ofZ 0, f64_ofZ 0); (f64_frac 3 2, f64_ofZ 0)].
Proof. vm_compute. repeat split; reflexivity. Qed.
