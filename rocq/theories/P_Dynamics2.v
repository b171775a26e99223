(** Proofs about the dynamic correlation functions: properties C17 - C23. *)
From Coq Require Import Ascii String List ZArith Bool Arith Reals Lia Lra Psatz Sorting.Sorted Sorting.Permutation.
From Verif Require Import PyBase PyBaseFacts Num Spec_Stats NumFacts M_Helpers M_Correlation M_Dynamics
  Spec_Correlation P_Correlation Spec_Time P_Time P_Skip P_Acf P_Helpers Spec_Dynamics P_Dynamics.
Import ListNotations.
Local Open Scope R_scope.

Lemma grouped_mean_ext : forall X (f f' : X -> X -> R) t (x : list X) dflt ps dts v,
  (forall p, In p ps -> f (nth (fst p) x dflt) (nth (snd p) x dflt) = f' (nth (fst p) x dflt) (nth (snd p) x dflt)) ->
  grouped_mean (A := Rops) f t x dflt ps dts v -> grouped_mean (A := Rops) f' t x dflt ps dts v.
Proof.
  intros X f f' t x dflt ps dts v H [H1 [H2 H3]]. split; [assumption|]. split; [assumption|].
  rewrite H3. apply map_ext. intros d. f_equal. apply map_ext_in. intros p Hp.
  apply filter_In in Hp. apply H. apply Hp.
Qed.


Lemma msd_average : forall (tr : traj Rops) grid rmax ts n no frames N g v,
  length (t_steps tr) = length frames -> (forall x, In x frames -> length x = N) ->
  msd_compute Rops tr grid rmax ts n no frames = Ok (g, v) ->
  exists dts ps grid', g = map (fun ti => IZR ti * t_dt tr) dts /\ in_range (length frames) ps /\
    grouped_mean (A := Rops) (mean_over (fun d => d)) (t_steps tr) frames [] ps dts v /\
    msd_grid Rops tr grid rmax ts frames = Ok grid' /\
    planned tr grid' n (not_str_1 Rops n && negb no) (length frames) ps.
Proof.
  intros tr grid rmax ts n no frames N g v Hl HN H.
  destruct (msd_compute_inv _ _ _ _ _ _ _ _ _ H) as [skip [dg [g' [E1 [E2 [E3 E]]]]]].
  destruct (offset_compute_spec _ _ _ _ _ _ _ [] _ _ Hl E) as [dts [Hg G]].
  exists dts, (admitted dg skip (length frames)), g'. split; [exact Hg|].
  split; [intros p Hp; apply (admitted_range _ _ _ _ Hp)|].
  split; [|split; [exact E2|exists skip, dg; auto]].
  eapply grouped_mean_ext; [|exact G]. intros p Hp. apply admitted_range in Hp.
  apply msd_R. rewrite !HN; [reflexivity| |]; apply nth_In; change (num Rops) with R in *; unfold frame in *; change (num Rops) with R in *; lia.
Qed.

Lemma mean_over_nonneg : forall f x y, (forall d, 0 <= d -> 0 <= f d) -> 0 <= mean_over f x y.
Proof.
  intros f x y Hf. unfold mean_over.
  destruct (combine x y) as [|p l] eqn:E; [unfold rmean; cbn; lra|].
  apply rmean_ge; [discriminate|]. intros v Hv. apply in_map_iff in Hv. destruct Hv as [q [<- _]].
  apply Hf. apply dist2_nonneg.
Qed.

Lemma combine_self : forall X (x : list X), combine x x = map (fun a => (a, a)) x.
Proof. induction x; cbn; congruence. Qed.

Lemma mean_over_refl : forall f x, x <> [] -> mean_over f x x = f 0.
Proof.
  intros f x Hx. unfold mean_over. rewrite combine_self, map_map. apply rmean_const.
  - destruct x; [congruence|discriminate].
  - intros v Hv. apply in_map_iff in Hv. destruct Hv as [r [<- _]]. cbn. rewrite dist2_refl. reflexivity.
Qed.

Lemma nth_map_lt : forall X Y (f : X -> Y) l k d d', (k < length l)%nat -> nth k (map f l) d = f (nth k l d').
Proof.
  intros. rewrite (nth_indep _ d (f d')) by (rewrite map_length; assumption). apply map_nth.
Qed.

(** Values of an average: bounds and the value at time zero. *)
Section Values.
Variables (X : Type) (f : X -> X -> R) (t : list Z) (x : list X) (dflt : X) (ps : list (nat * nat))
  (dts : list Z) (v : list R) (h : R).
Hypothesis G : grouped_mean (A := Rops) f t x dflt ps dts v.
Hypothesis Hr : in_range (length x) ps.

Lemma value_ge : forall c, (forall a b, In a x -> In b x -> c <= f a b) -> forall e, In e v -> c <= e.
Proof.
  intros c Hc e He. destruct (In_nth _ _ 0 He) as [k [Hk <-]].
  destruct (grouped_mean_nth _ _ _ _ _ _ _ _ _ G Hk) as [_ [qs [Hq [Hp ->]]]].
  apply rmean_ge; [apply map_nonnil; exact Hq|]. intros w Hw. apply in_map_iff in Hw.
  destruct Hw as [p [<- Hpq]]. destruct (Hp p Hpq) as [Hin _]. apply Hr in Hin. apply Hc; apply nth_In; lia.
Qed.
Lemma value_le : forall c, (forall a b, In a x -> In b x -> f a b <= c) -> forall e, In e v -> e <= c.
Proof.
  intros c Hc e He. destruct (In_nth _ _ 0 He) as [k [Hk <-]].
  destruct (grouped_mean_nth _ _ _ _ _ _ _ _ _ G Hk) as [_ [qs [Hq [Hp ->]]]].
  apply rmean_le; [apply map_nonnil; exact Hq|]. intros w Hw. apply in_map_iff in Hw.
  destruct Hw as [p [<- Hpq]]. destruct (Hp p Hpq) as [Hin _]. apply Hr in Hin. apply Hc; apply nth_In; lia.
Qed.

(** All pairs at a time difference give the same value. *)
Lemma value_const : forall k c, (k < length v)%nat ->
  (forall p, In p ps -> pair_dt t p = nth k dts 0%Z -> f (nth (fst p) x dflt) (nth (snd p) x dflt) = c) ->
  nth k v 0 = c.
Proof.
  intros k c Hk Hc. destruct (grouped_mean_nth _ _ _ _ _ _ _ _ _ G Hk) as [_ [qs [Hq [Hp ->]]]].
  apply rmean_const; [apply map_nonnil; exact Hq|]. intros w Hw. apply in_map_iff in Hw.
  destruct Hw as [p [<- Hpq]]. destruct (Hp p Hpq). apply Hc; assumption.
Qed.

Lemma value_zero_time : forall k c, StronglySorted Z.lt t -> length t = length x -> h <> 0 ->
  (k < length v)%nat -> nth k (map (fun ti => IZR ti * h) dts) 0 = 0 ->
  (forall i, (i < length x)%nat -> f (nth i x dflt) (nth i x dflt) = c) ->
  nth k v 0 = c.
Proof.
  intros k c Ht Hl Hh Hk H0 Hc.
  destruct (grouped_mean_nth _ _ _ _ _ _ _ _ _ G Hk) as [Hlen _].
  apply value_const; [assumption|]. intros p Hp Hd.
  assert (nth k dts 0%Z = 0%Z) as E0.
  { rewrite (nth_map_lt _ _ _ _ _ _ 0%Z) in H0 by (rewrite <- Hlen; exact Hk).
    apply Rmult_integral in H0. destruct H0 as [H0|H0]; [|contradiction]. apply eq_IZR. exact H0. }
  rewrite E0 in Hd. pose proof (Hr p Hp).
  rewrite (pair_dt_zero t p Ht ltac:(lia) Hd). apply Hc. lia.
Qed.
End Values.

Ltac flatR := unfold frame in *; change (num Rops) with R in *.

Lemma msd_nonneg : forall (tr : traj Rops) grid rmax ts n no frames N g v,
  length (t_steps tr) = length frames -> (forall x, In x frames -> length x = N) ->
  msd_compute Rops tr grid rmax ts n no frames = Ok (g, v) ->
  forall e : R, In e v -> 0 <= e.
Proof.
  intros tr grid rmax ts n no frames N g v Hl HN H.
  destruct (msd_average _ _ _ _ _ _ _ _ _ _ Hl HN H) as [dts [ps [_ [_ [Hr [G _]]]]]].
  eapply value_ge; [exact G|exact Hr|]. intros. apply mean_over_nonneg. auto.
Qed.

Lemma msd_zero : forall (tr : traj Rops) grid rmax ts n no frames N g v k,
  length (t_steps tr) = length frames -> (forall x, In x frames -> length x = N) -> (1 <= N)%nat ->
  StronglySorted Z.lt (t_steps tr) -> t_dt tr <> 0 ->
  msd_compute Rops tr grid rmax ts n no frames = Ok (g, v) ->
  (k < length v)%nat -> nth k g 0 = 0 -> nth k v 0 = 0.
Proof.
  intros tr grid rmax ts n no frames N g v k Hl HN HN1 Ht Hh H Hk Hg.
  destruct (msd_average _ _ _ _ _ _ _ _ _ _ Hl HN H) as [dts [ps [_ [-> [Hr [G _]]]]]].
  eapply value_zero_time with (h := t_dt tr); [exact G|exact Hr|exact Ht|exact Hl|exact Hh|exact Hk|exact Hg|].
  intros i Hi. apply mean_over_refl. intros E.
  assert (length (nth i frames []) = N) as L by (apply HN, nth_In; exact Hi). flatR. rewrite E in L. cbn in L. lia.
Qed.

(** Translation. *)
Lemma combine_map_both : forall X Y (h : X -> Y) x y,
  combine (map h x) (map h y) = map (fun p => (h (fst p), h (snd p))) (combine x y).
Proof. induction x as [|a x IH]; intros [|b y]; cbn; try reflexivity. rewrite IH. reflexivity. Qed.

Lemma mean_over_shift : forall f c N x y, shaped N (length c) x -> shaped N (length c) y ->
  mean_over f (map (fun r => plusv r c) x) (map (fun r => plusv r c) y) = mean_over f x y.
Proof.
  intros f c N x y [_ Hx] [_ Hy]. unfold mean_over. rewrite combine_map_both, map_map. f_equal.
  apply map_ext_in. intros [r s] Hin. cbn. rewrite dist2_shift; [reflexivity| |].
  - apply Hx. eapply in_combine_l. exact Hin.
  - apply Hy. eapply in_combine_r. exact Hin.
Qed.

Lemma getZ_map : forall X Y (f : X -> Y) l z,
  getZ (map f l) z = match getZ l z with Ok a => Ok (f a) | Err e => Err e end.
Proof.
  intros. unfold getZ, get. rewrite map_length. destruct (z <? 0)%Z.
  - destruct (z + Z.of_nat (length l) <? 0)%Z; [reflexivity|]. rewrite nth_error_map.
    destruct (nth_error l _); reflexivity.
  - rewrite nth_error_map. destruct (nth_error l _); reflexivity.
Qed.
Lemma get_map : forall X Y (f : X -> Y) l i,
  get (map f l) i = match get l i with Ok a => Ok (f a) | Err e => Err e end.
Proof. intros. unfold get. rewrite nth_error_map. destruct (nth_error l i); reflexivity. Qed.

Lemma getZ_In : forall X (l : list X) z a, getZ l z = Ok a -> In a l.
Proof.
  intros X l z a. unfold getZ, get.
  destruct (z <? 0)%Z; [destruct (_ <? 0)%Z; [discriminate|]|];
  (destruct (nth_error l _) eqn:E; [|discriminate]); intros H; apply Ok_inj in H; subst; eapply nth_error_In; eauto.
Qed.
Lemma get_In : forall X (l : list X) i a, get l i = Ok a -> In a l.
Proof.
  intros X l i a. unfold get. destruct (nth_error l _) eqn:E; [|discriminate].
  intros H; apply Ok_inj in H; subst; eapply nth_error_In; eauto.
Qed.

Lemma msd_shift : forall (c : list R) N (x y : list (list R)),
  shaped N (length c) x -> shaped N (length c) y ->
  msd Rops (map (fun r => plusv r c) x) (map (fun r => plusv r c) y) = msd Rops x y.
Proof.
  intros c N x y Hx Hy. rewrite !msd_R.
  - apply (mean_over_shift _ c N); assumption.
  - destruct Hx, Hy. congruence.
  - rewrite !map_length. destruct Hx, Hy. congruence.
Qed.

Lemma msd_translation : forall (tr : traj Rops) grid rmax ts n no (frames : list (list (list R))) N (c : list R),
  length (t_steps tr) = length frames -> (forall x, In x frames -> shaped N (length c) x) ->
  msd_compute Rops tr grid rmax ts n no (map (map (fun r => plusv r c)) frames)
  = msd_compute Rops tr grid rmax ts n no frames.
Proof.
  intros tr grid rmax ts n no frames N c Hl Hs. unfold msd_compute. flatR.
  destruct (adjust_skip Rops _ _ _ n) as [skip|]; cbn [bind]; [|reflexivity].
  assert (msd_grid Rops tr grid rmax ts (map (map (fun r => plusv r c)) frames)
          = msd_grid Rops tr grid rmax ts frames) as ->.
  { unfold msd_grid. destruct grid as [g|]; [reflexivity|].
    destruct (nlt Rops (n0 Rops) rmax); [|reflexivity]. flatR.
    rewrite getZ_map, get_map.
    destruct (getZ frames (-1)) as [l|] eqn:E1; cbn [bind]; [|reflexivity].
    destruct (get frames 0) as [f0|] eqn:E2; cbn [bind]; [|reflexivity].
    rewrite (msd_shift c N); [reflexivity| |].
    - apply Hs. eapply getZ_In; eauto.
    - apply Hs. eapply get_In; eauto. }
  destruct (msd_grid Rops tr grid rmax ts frames) as [g|]; cbn [bind]; [|reflexivity].
  destruct (setup_t_grid Rops _ _ _ g _) as [dg|]; cbn [bind]; [|reflexivity].
  apply (offset_compute_ext Rops _ _ (msd Rops) (msd Rops) tr dg skip _ _ [] []).
  - apply map_length.
  - rewrite map_length. exact Hl.
  - intros i j Hi Hj. rewrite map_length in Hi, Hj.
    rewrite !(nth_map_lt _ _ _ _ _ _ []) by assumption.
    apply (msd_shift c N); apply Hs, nth_In; assumption.
Qed.

(** Ballistic motion. *)
Lemma dist2_ballistic : forall r v s1 s2, length r = length v ->
  dist2 (plusv r (timesv s1 v)) (plusv r (timesv s2 v)) = norm2 v * ((s1 - s2) * (s1 - s2)).
Proof.
  unfold norm2. induction r as [|a r IH]; intros [|b v] s1 s2 H; cbn in H; try discriminate; [cbn; ring|].
  cbn [plusv timesv map dist2 length repeat]. fold (timesv s1 v) (timesv s2 v).
  rewrite IH by congruence. ring.
Qed.


Lemma combine_map_map : forall X Y W (f : X -> Y) (g : X -> W) l,
  combine (map f l) (map g l) = map (fun a => (f a, g a)) l.
Proof. induction l; cbn; congruence. Qed.

Lemma mean_over_ballistic : forall r0 vel d s1 s2, length r0 = length vel ->
  shaped (length r0) d r0 -> shaped (length vel) d vel ->
  mean_over (fun d => d) (moved r0 vel s1) (moved r0 vel s2)
  = rmean (map norm2 vel) * ((s1 - s2) * (s1 - s2)).
Proof.
  intros r0 vel d s1 s2 Hl [_ H1] [_ H2]. unfold mean_over, moved. rewrite combine_map_map, map_map.
  rewrite (map_ext_in _ (fun p => norm2 (snd p) * ((s1 - s2) * (s1 - s2)))).
  - assert (map norm2 vel = map (fun p => norm2 (snd p)) (combine r0 vel)) as ->.
    { clear - Hl. revert vel Hl. induction r0 as [|a r IH]; intros [|b v] H; cbn in *; try discriminate; [reflexivity|].
      rewrite (IH v) by congruence. reflexivity. }
    unfold rmean. rewrite !map_length.
    rewrite (map_ext _ (fun p => ((s1 - s2) * (s1 - s2)) * norm2 (snd p))) by (intros; ring).
    rewrite rsum_scal. unfold Rdiv. ring.
  - intros [r v] Hin. cbn. apply dist2_ballistic.
    rewrite (H1 r (in_combine_l _ _ _ _ Hin)), (H2 v (in_combine_r _ _ _ _ Hin)). reflexivity.
Qed.

Lemma msd_ballistic : forall (tr : traj Rops) grid rmax ts n no r0 vel d g v k,
  length r0 = length vel -> shaped (length r0) d r0 -> shaped (length vel) d vel ->
  let frames := map (fun s => moved r0 vel (IZR s * t_dt tr)) (t_steps tr) in
  msd_compute Rops tr grid rmax ts n no frames = Ok (g, v) ->
  (k < length v)%nat -> nth k v 0 = rmean (map norm2 vel) * (nth k g 0 * nth k g 0).
Proof.
  intros tr grid rmax ts n no r0 vel d g v k Hl H1 H2 frames H Hk.
  assert (length (t_steps tr) = length frames) as HL by (unfold frames; rewrite map_length; reflexivity).
  assert (forall x, In x frames -> length x = length r0) as HN.
  { intros x Hx. unfold frames in Hx. apply in_map_iff in Hx. destruct Hx as [s [<- _]].
    unfold moved. rewrite map_length, combine_length. lia. }
  destruct (msd_average _ _ _ _ _ _ _ _ _ _ HL HN H) as [dts [ps [_ [-> [Hr [G _]]]]]].
  destruct (grouped_mean_nth _ _ _ _ _ _ _ _ _ G Hk) as [Hlen _].
  rewrite (nth_map_lt _ _ _ _ _ _ 0%Z) by (rewrite <- Hlen; exact Hk).
  eapply value_const; [exact G|exact Hk|]. intros p Hp Hd. pose proof (Hr p Hp) as Hb. flatR.
  unfold frames. rewrite !(nth_map_lt _ _ _ _ _ _ 0%Z) by (rewrite HL; flatR; lia).
  rewrite (mean_over_ballistic r0 vel d) by assumption. rewrite <- Hd. unfold pair_dt. rewrite minus_IZR. ring.
Qed.
