(** Proofs about the default time grids. *)
From Coq Require Import Ascii String List ZArith Bool Arith Reals Lia Lra Psatz Sorting.Sorted.
From Verif Require Import PyBase PyBaseFacts Num Spec_Stats NumFacts Spec_Fit Spec_Correlation Spec_Time Spec_Dynamics
  Spec_Analyze M_Helpers M_Correlation M_Dynamics M_Analyze P_Skip P_Helpers P_Fit P_Time P_Correlation P_Dynamics P_Dynamics2 P_Overlap.
Import ListNotations.
Local Open Scope R_scope.

Lemma mapM_In : forall X Y (f : X -> res Y) l m y, mapM f l = Ok m -> In y m -> exists x, In x l /\ f x = Ok y.
Proof.
  intros X Y f l. induction l as [|a l IH]; intros m y E H.
  - cbn in E. apply Ok_inj in E. subst m. destruct H.
  - cbn in E. apply bind_Ok_inv in E. destruct E as [b [E1 E]]. apply bind_Ok_inv in E. destruct E as [m' [E2 E]].
    apply Ok_inj in E. subst m. destruct H as [<-|H].
    + exists a. split; [left; reflexivity|exact E1].
    + destruct (IH m' y E2 H) as [x [Hx Ex]]. exists x. split; [right; exact Hx|exact Ex].
Qed.

Lemma mapM_length : forall X Y (f : X -> res Y) l m, mapM f l = Ok m -> length m = length l.
Proof.
  intros X Y f l. induction l as [|a l IH]; intros m E; cbn in E.
  - apply Ok_inj in E. subst m. reflexivity.
  - apply bind_Ok_inv in E. destruct E as [b [E1 E]]. apply bind_Ok_inv in E. destruct E as [m' [E2 E]].
    apply Ok_inj in E. subst m. cbn. rewrite (IH m' E2). reflexivity.
Qed.

(** Requests at or before time zero select the time difference zero only. *)
Lemma nonpositive_requests : forall steps bs h (grid : list R) offset dg,
  StronglySorted Z.lt steps -> steps <> [] -> (1 <= bs)%nat -> 0 < h -> grid <> [] -> (forall t, In t grid -> t <= 0) ->
  setup_t_grid Rops steps bs h grid offset = Ok dg -> dg = [(0, 0)]%nat.
Proof.
  intros steps bs h grid offset dg HS Hne Hbs Hh Hg Hneg E.
  destruct (setup_t_grid_correct steps Rops h bs grid offset dg E) as [reqs [Er [Ss [Hu [Hr1 Hr2]]]]].
  assert (0 < length steps)%nat as Hlen by (destruct steps; [congruence|cbn; lia]).
  assert (usable steps (the_offsets bs offset) (0, 0)%nat) as U0.
  { split; cbn [fst snd]; [|lia]. unfold the_offsets. destruct offset; [apply in_seq; lia|left; reflexivity]. }
  assert (forall r, In r reqs -> (r <= 0)%Z) as Hr.
  { intros r Hin. destruct (mapM_In _ _ _ _ _ _ Er Hin) as [t [Ht Et]].
    destruct (to_step_R h t) as [r' [Er' N]]; [lra|]. rewrite Et in Er'. apply Ok_inj in Er'. subst r'.
    specialize (Hneg t Ht). assert (t / h <= 0) as Q.
    { unfold Rdiv. assert (0 < / h) by (apply Rinv_0_lt_compat; exact Hh). nra. }
    apply Rabs_def2_le in N || idtac.
    assert (IZR r < 1) as B.
    { unfold Rabs in N. destruct (Rcase_abs (t / h - IZR r)); lra. }
    apply lt_IZR in B. lia. }
  assert (forall p, In p dg -> p = (0, 0)%nat) as All.
  { intros p Hp. destruct (Hu p Hp) as [[U1 U2] Ea]. destruct (Hr2 p Hp) as [r [Hin [_ Nr]]].
    specialize (Hr r Hin). specialize (Nr 0%Z).
    assert (available steps (the_offsets bs offset) 0%Z) as A0.
    { exists (0, 0)%nat. split; [exact U0|]. unfold lag_dt, pair_dt, lag_pair. cbn. lia. }
    specialize (Nr A0).
    assert (0 <= lag_dt steps p)%Z as Pos.
    { unfold lag_dt, pair_dt, lag_pair. cbn [fst snd]. destruct (snd p) as [|q]; [rewrite Nat.add_0_r; lia|].
      assert (nth (fst p) steps 0 < nth (fst p + S q) steps 0)%Z; [|lia].
      clear - HS U2. revert U2. generalize (fst p) as i. intros i Hi.
      revert i Hi. induction HS as [|a l S0 IH F]; intros i Hi; [cbn in Hi; lia|].
      destruct i as [|i]; cbn.
      - rewrite Forall_forall in F. apply F. apply nth_In. cbn in Hi. lia.
      - apply IH. cbn in Hi. lia. }
    assert (lag_dt steps p = 0)%Z as Z0 by lia.
    destruct (Ea (0, 0)%nat U0) as [C|[C1 C2]].
    - rewrite Z0. unfold lag_dt, pair_dt, lag_pair. cbn. lia.
    - cbn in C. lia.
    - cbn in C1, C2. destruct p as [a b]. cbn in C1, C2. f_equal; lia. }
  destruct dg as [|p dg].
  - exfalso. destruct reqs as [|r reqs].
    + apply mapM_length in Er. destruct grid; [congruence|discriminate].
    + destruct (Hr1 r (or_introl eq_refl)) as [p [[] _]].
  - rewrite (All p (or_introl eq_refl)). f_equal. destruct dg as [|q dg]; [reflexivity|]. exfalso.
    cbn in Ss. inversion Ss as [|? ? _ F]; subst. inversion F as [|? ? L _]; subst.
    rewrite (All p (or_introl eq_refl)), (All q (or_intror (or_introl eq_refl))) in L. lia.
Qed.

Lemma overlap_grid_short : forall (tr : traj Rops) ts, 0 < t_total tr < 4 / 3 -> (2 <= ts)%nat ->
  exists g, overlap_grid tr None ts = Ok g /\ length g = ts /\ forall t, In t g -> t <= 0.
Proof.
  intros tr ts [H1 H2] Hts. unfold overlap_grid.
  destruct (logx_grid_zero_lt1 (t_total tr * (3 / 4)) ts) as [g [E [Hl Hn]]]; [lra|exact Hts|].
  exists g. split; [exact E|]. split; [exact Hl|]. intros t Ht.
  apply (In_nth _ _ 0) in Ht. destruct Ht as [i [Hi <-]]. destruct i as [|i].
  - unfold logx_grid in E. destruct ts as [|ts]; [lia|]. cbn [Nat.eqb] in E.
    rewrite Rltb_false in E by lra. apply Ok_inj in E. rewrite <- E. cbn. lra.
  - left. apply Hn. lia.
Qed.

(** A short trajectory analysed without a time grid: one row, at time zero. *)
Lemma self_overlap_short : forall (tr : traj Rops) ts n a (unf : list (list (list R))) N skip,
  0 < t_total tr < 4 / 3 -> (2 <= ts)%nat -> 0 < t_dt tr -> (1 <= t_bs tr)%nat -> a <> 0 ->
  StronglySorted Z.lt (t_steps tr) -> t_steps tr <> [] -> length (t_steps tr) = length unf ->
  (forall x, In x unf -> length x = N) -> (1 <= N)%nat ->
  adjust_skip Rops (length (t_steps tr)) (t_npart tr) (t_bs tr) n = Ok skip ->
  self_overlap_run tr None ts n a unf = Ok ([0], [1]).
Proof.
  intros tr ts n a unf N skip HT Hts Hdt Hbs Ha HS Hne Hl HN HN1 Esk.
  destruct (overlap_grid_short tr ts HT Hts) as [g [Eg [Lg Ng]]].
  unfold self_overlap_run. rewrite Eg. cbn [bind].
  assert (exists reqs, mapM (to_step Rops (t_dt tr)) g = Ok reqs) as [reqs Er].
  { apply mapM_all_Ok. intros t _. destruct (to_step_R (t_dt tr) t) as [r [Er _]]; [lra|]. eauto. }
  destruct (setup_t_grid_total (t_steps tr) Rops (t_dt tr) (t_bs tr) g (not_str_1 Rops n) reqs Hne Hbs Er) as [dg Edg].
  assert (dg = [(0, 0)]%nat) as ->.
  { apply (nonpositive_requests (t_steps tr) (t_bs tr) (t_dt tr) g (not_str_1 Rops n)); auto.
    intros ->. cbn in Lg. lia. }
  assert (0 < length (t_steps tr))%nat as Hlen by (destruct (t_steps tr); [congruence|cbn; lia]).
  assert (1 <= skip)%nat as Hsk.
  { pose proof (adjust_skip_range _ _ _ _ _ _ Hlen Esk). lia. }
  destruct (gcf_offset_correct Rops _ (self_overlap_f Rops (nsq Rops a)) (t_steps tr) unf [] Hl [(0, 0)]%nat skip Hsk) as [dts [v [Ev Gm]]].
  assert (self_overlap_compute Rops tr g n a unf = Ok (times_of tr dts, v)) as E.
  { unfold self_overlap_compute, grid_compute. rewrite Esk. cbn [bind].
    match goal with |- context [setup_t_grid ?A ?b ?c ?d ?e ?f] => change (setup_t_grid A b c d e f) with (setup_t_grid Rops (t_steps tr) (t_bs tr) (t_dt tr) g (not_str_1 Rops n)) end.
    rewrite Edg. cbn [bind]. unfold offset_compute. rewrite Ev. reflexivity. }
  assert (dts = [0%Z]) as Ed.
  { destruct Gm as [S0 [I _]].
    assert (forall d, In d dts <-> d = 0%Z) as I0.
    { intros d. rewrite I. unfold admitted. cbn [flat_map fst snd]. rewrite app_nil_r. split.
      - intros [p [Hp <-]]. apply in_map_iff in Hp. destruct Hp as [i [<- _]]. unfold pair_dt. cbn [fst snd].
        rewrite Nat.add_0_r. lia.
      - intros ->. exists (0 + 0, 0)%nat. split; [|unfold pair_dt; cbn [fst snd Nat.add]; lia].
        apply in_map_iff. exists 0%nat. split; [reflexivity|]. unfold origins. apply filter_In. split.
        + apply in_seq. split; [lia|]. rewrite Nat.sub_0_r. revert Hlen. rewrite Hl. exact (fun h => h).
        + cbn [Nat.leb Nat.sub]. rewrite Nat.mod_0_l by lia. reflexivity. }
    destruct dts as [|d dts]; [exfalso; apply (proj2 (I0 0%Z) eq_refl)|].
    rewrite (proj1 (I0 d) (or_introl eq_refl)). f_equal. destruct dts as [|e dts]; [reflexivity|exfalso].
    inversion S0 as [|? ? _ F]; subst. inversion F as [|? ? L _]; subst.
    rewrite (proj1 (I0 d) (or_introl eq_refl)), (proj1 (I0 e) (or_intror (or_introl eq_refl))) in L. lia. }
  rewrite E. subst dts.
  destruct (self_overlap_spec tr g n a unf N (times_of tr [0%Z]) v Hl HN HN1 Ha E) as [dts' [ps [_ [_ [_ [_ Z1]]]]]].
  assert (length v = 1)%nat as Lv by (destruct Gm as [_ [_ ->]]; reflexivity).
  specialize (Z1 HS ltac:(lra) 0%nat ltac:(lia) ltac:(cbn; ring)).
  apply (f_equal Ok). apply pair_equal_spec. split.
  - cbn. f_equal. ring.
  - destruct v as [|e [|]]; try discriminate. cbn in Z1. rewrite Z1. reflexivity.
Qed.

(** ** Linear grids *)
Lemma last_nth : forall X (l : list X) d, l <> [] -> last l d = nth (length l - 1) l d.
Proof.
  intros X l d. induction l as [|a l IH]; [congruence|]. intros _. destruct l as [|b l]; [reflexivity|].
  change (last (a :: b :: l) d) with (last (b :: l) d). rewrite IH by discriminate. cbn [length Nat.sub].
  rewrite Nat.sub_0_r. destruct (length l) as [|n]; reflexivity.
Qed.

Lemma msd_grid_default : forall (tr : traj Rops) rmax ts (frames : list (list (list R))), rmax <= 0 -> (2 <= ts)%Z ->
  exists g, msd_grid Rops tr None rmax ts frames = Ok g /\ length g = Z.to_nat ts /\
    nth 0 g 0 = 0 /\ nth (length g - 1) g 0 = t_total tr.
Proof.
  intros tr rmax ts frames Hr Hts. unfold msd_grid. cbn [nlt n0 Rops]. rewrite Rltb_false by exact Hr.
  destruct (linear_grid_int 0 (t_total tr) ts Hts) as [g [E [L [_ [F1 F2]]]]].
  exists g. split; [exact E|]. auto.
Qed.

Lemma msd_grid_rmax : forall (tr : traj Rops) rmax ts (frames : list (list (list R))) N, 0 < rmax -> (2 <= ts)%Z ->
  frames <> [] -> (forall x, In x frames -> length x = N) ->
  let total := mean_over (fun d => d) (last frames []) (nth 0 frames []) in
  exists g, msd_grid Rops tr None rmax ts frames = Ok g /\ length g = Z.to_nat ts /\
    nth 0 g 0 = 0 /\ nth (length g - 1) g 0 = Rmin (t_total tr) (rmax * rmax / total * t_total tr).
Proof.
  intros tr rmax ts frames N Hr Hts Hne HN total. unfold msd_grid. cbn [nlt n0 Rops]. rewrite Rltb_true by exact Hr.
  assert (0 < length frames)%nat as Hlen by (destruct frames; [congruence|cbn; lia]).
  assert (getZ frames (-1) = Ok (last frames [])) as E1.
  { unfold getZ. cbn [Z.ltb Z.compare]. replace (-1 + Z.of_nat (length frames) <? 0)%Z with false by (symmetry; apply Z.ltb_ge; lia).
    replace (Z.to_nat (-1 + Z.of_nat (length frames))) with (length frames - 1)%nat by lia.
    rewrite (get_Ok _ frames _ []) by lia. rewrite (last_nth _ frames) by exact Hne. reflexivity. }
  flatR. rewrite E1. cbn [bind]. rewrite (get_Ok _ frames 0 []) by exact Hlen. cbn [bind].
  rewrite msd_R.
  2:{ rewrite (HN (last frames [])), (HN (nth 0 frames [])); [reflexivity|apply nth_In; exact Hlen|].
      clear - Hne. induction frames as [|a f IH]; [congruence|]. destruct f as [|b f]; [left; reflexivity|].
      right. apply IH. discriminate. }
  fold total.
  destruct (linear_grid_int 0 (Rmin (t_total tr) (rmax * rmax / total * t_total tr)) ts Hts) as [g [E [L [_ [F1 F2]]]]].
  exists g. split; [|auto]. refine (eq_trans _ E). f_equal.
  change (nmul Rops (ndiv Rops (nsq Rops rmax) total) (t_total tr)) with (rmax * rmax / total * t_total tr).
  cbn [nlt Rops]. unfold Rmin. destruct (Rltb_spec (rmax * rmax / total * t_total tr) (t_total tr));
    destruct (Rle_dec (t_total tr) (rmax * rmax / total * t_total tr)); try lra; try reflexivity.
Qed.

Lemma alpha2_grid_default : forall (tr : traj Rops) ts, (2 <= ts)%Z ->
  exists g, alpha2_grid Rops tr None ts = Ok g /\ length g = Z.to_nat ts /\
    nth 0 g 0 = 0 /\ nth (length g - 1) g 0 = 3 / 4 * t_total tr.
Proof.
  intros tr ts Hts. unfold alpha2_grid.
  destruct (linear_grid_int 0 (t_total tr * (3 / 4)) ts Hts) as [g [E [L [_ [F1 F2]]]]].
  exists g. split; [exact E|]. split; [exact L|]. split; [exact F1|]. rewrite F2. change (@eq R (t_total tr * (3 / 4)) (3 / 4 * t_total tr)). ring.
Qed.
