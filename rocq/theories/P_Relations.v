(** Relations between results: sums over species. *)
From Coq Require Import Ascii String List ZArith Bool Arith Reals Lia Lra Sorting.Sorted Sorting.Permutation.
From Verif Require Import PyBase PyBaseFacts Num Spec_Stats NumFacts M_Helpers M_Correlation M_Dynamics
  Spec_Correlation P_Correlation Spec_Time P_Time P_Acf P_Helpers Spec_Dynamics P_Dynamics P_Dynamics2 P_Overlap P_Chi4
  Spec_Velocity Spec_Relations.
Import ListNotations.
Local Open Scope R_scope.

(** ** Sums over particles are sums over species of sums over their particles *)
Lemma split_kinds : forall X (h : X -> R) (l : list (string * X)) kinds, NoDup kinds ->
  (forall p, In p l -> In (fst p) kinds) ->
  rsum (map (fun p => h (snd p)) l) =
  rsum (map (fun a => rsum (map (fun p => h (snd p)) (filter (fun p => String.eqb (fst p) a) l))) kinds).
Proof.
  intros X h l kinds ND. induction l as [|p l IH]; intros Hin.
  - cbn. rewrite (rsum_const _ 0 kinds). lra.
  - cbn [map rsum]. rewrite IH by (intros q Hq; apply Hin; right; exact Hq). clear IH.
    assert (Hp : In (fst p) kinds) by (apply Hin; left; reflexivity). clear Hin.
    symmetry. rewrite (rsum_ext _ _ (fun a => (if String.eqb (fst p) a then h (snd p) else 0) +
      rsum (map (fun p0 => h (snd p0)) (filter (fun p0 => String.eqb (fst p0) a) l))) kinds).
    2: { intros a _. cbn [filter]. destruct (String.eqb (fst p) a); cbn [map rsum]. all: lra. }
    rewrite rsum_plus. f_equal. symmetry.
    induction kinds as [|a kinds IH]; [destruct Hp|]. cbn [map rsum]. inversion_clear ND as [|? ? Ha ND'].
    destruct (String.eqb_spec (fst p) a) as [E|E].
    + rewrite (rsum_ext _ _ (fun _ => 0)), rsum_const; [lra|].
      intros b Hb. destruct (String.eqb_spec (fst p) b) as [E'|E']; [|reflexivity]. subst b. congruence.
    + destruct Hp as [Hp|Hp]; [congruence|]. rewrite <- IH by assumption. lra.
Qed.

Lemma of_species_length : forall X sp a (x : list X), length sp = length x -> length (of_species sp a x) = population sp a.
Proof.
  intros X sp a. unfold of_species, population. induction sp as [|s sp IH]; intros [|r x] L; try discriminate; [reflexivity|].
  cbn [combine filter fst count_occ]. destruct (String.eqb_spec s a) as [E|E]; destruct (string_dec s a); try congruence; cbn [map length];
    rewrite IH by (cbn in L; lia); reflexivity.
Qed.

Lemma of_species_combine : forall X Y sp a (x : list X) (y : list Y), length sp = length x -> length sp = length y ->
  combine (of_species sp a x) (of_species sp a y) = of_species sp a (combine x y).
Proof.
  intros X Y sp a. unfold of_species. induction sp as [|s sp IH]; intros [|r x] [|t y] L L'; try discriminate; [reflexivity|].
  cbn [combine filter fst]. destruct (String.eqb s a); cbn [map combine snd]; rewrite IH by (cbn in *; lia); reflexivity.
Qed.

Lemma of_species_In : forall X sp a (x : list X) r, In r (of_species sp a x) -> In r x.
Proof.
  intros X sp a x r H. unfold of_species in H. apply in_map_iff in H. destruct H as [[s q] [<- H]].
  apply filter_In in H. destruct H as [H _]. apply in_combine_r in H. exact H.
Qed.

Lemma species_sum : forall X (h : X -> R) sp kinds (x : list X), length sp = length x -> NoDup kinds -> incl sp kinds ->
  rsum (map h x) = rsum (map (fun a => rsum (map h (of_species sp a x))) kinds).
Proof.
  intros X h sp kinds x L ND I.
  assert (E : x = map snd (combine sp x)).
  { clear -L. revert x L. induction sp; intros [|r x] L; try discriminate; [reflexivity|]. cbn. rewrite <- IHsp by (cbn in L; lia). reflexivity. }
  rewrite E at 1. rewrite map_map. rewrite (split_kinds X h (combine sp x) kinds ND).
  - apply rsum_ext. intros a _. unfold of_species. rewrite map_map. reflexivity.
  - intros [s r] H. apply in_combine_l in H. apply I. exact H.
Qed.

Lemma INR_rmean : forall (l : list R) n, length l = n -> INR n * rmean l = rsum l.
Proof.
  intros l n <-. unfold rmean. destruct l as [|a l]; [cbn; lra|]. field. apply not_0_INR. cbn. lia.
Qed.

(** A mean over the particles of a function of two frames. *)
Definition particle_mean (h : list R * list R -> R) (x y : list (list R)) : R := rmean (map h (combine x y)).

Lemma particle_mean_species : forall h sp kinds x y, length sp = length x -> length sp = length y -> NoDup kinds -> incl sp kinds ->
  INR (length sp) * particle_mean h x y =
  rsum (map (fun a => INR (population sp a) * particle_mean h (of_species sp a x) (of_species sp a y)) kinds).
Proof.
  intros h sp kinds x y Lx Ly ND I. unfold particle_mean.
  rewrite INR_rmean by (rewrite map_length, combine_length; lia).
  rewrite (species_sum _ h sp kinds (combine x y)) by (rewrite ?combine_length; try assumption; lia).
  apply rsum_ext. intros a _. rewrite <- of_species_combine by assumption.
  rewrite INR_rmean; [reflexivity|]. rewrite map_length, combine_length, !of_species_length by assumption. lia.
Qed.

(** ** Averages over pairs of frames are linear *)
Lemma offset_both : forall X Y (f : X -> X -> R) (h : Y -> Y -> R) (tr : traj Rops) dg skip (x : list X) (y : list Y) dx dy g v,
  length (t_steps tr) = length x -> length y = length x ->
  offset_compute Rops f tr dg skip x = Ok (g, v) ->
  exists w dts, offset_compute Rops h tr dg skip y = Ok (g, w) /\ g = times_of tr dts /\
    grouped_mean (A:=Rops) f (t_steps tr) x dx (admitted dg skip (length x)) dts v /\
    grouped_mean (A:=Rops) h (t_steps tr) y dy (admitted dg skip (length x)) dts w.
Proof.
  intros X Y f h tr dg skip x y dx dy g v L Lxy E.
  destruct (offset_compute_spec _ _ _ _ _ _ _ dx _ _ L E) as [dts [Hg G]].
  assert (S : exists r, offset_compute Rops h tr dg skip y = Ok r).
  { unfold offset_compute in *. destruct (Nat.eq_dec skip 0) as [->|Hs].
    - apply bind_Ok_inv in E. destruct E as [r [E _]]. pose proof (gcf_offset_skip0 _ _ _ _ _ _ _ E) as ->. cbn. eexists; reflexivity.
    - destruct (gcf_offset_correct Rops Y h (t_steps tr) y dy ltac:(congruence) dg skip ltac:(lia)) as [dt [w [E' _]]].
      rewrite E'. cbn. eexists; reflexivity. }
  destruct S as [[g' w] E'].
  destruct (offset_compute_spec _ _ _ _ _ _ _ dy _ _ (eq_trans L (eq_sym Lxy)) E') as [dts' [Hg' G']]. rewrite Lxy in G'.
  assert (dts = dts') as <-.
  { apply sorted_lt_irr_ext; [apply G|apply G'|]. intros d. rewrite (proj1 (proj2 G)), (proj1 (proj2 G')). reflexivity. }
  exists w, dts. split; [congruence|]. split; [exact Hg|]. auto.
Qed.

Lemma grouped_value : forall X (f : X -> X -> R) t (x : list X) dflt ps dts (v : list R) k,
  grouped_mean (A:=Rops) f t x dflt ps dts v -> (k < length v)%nat ->
  nth k v 0 = rmean (map (fun p => f (nth (fst p) x dflt) (nth (snd p) x dflt)) (pairs_at t (nth k dts 0%Z) ps)).
Proof.
  intros X f t x dflt ps dts v k [_ [_ ->]] Hk. flatR. rewrite map_length in Hk.
  rewrite (nth_map_lt _ _ _ _ _ 0 0%Z) by exact Hk. rewrite nmean_R. reflexivity.
Qed.

Lemma grouped_length : forall X (f : X -> X -> R) t (x : list X) dflt ps dts (v : list R),
  grouped_mean (A:=Rops) f t x dflt ps dts v -> length v = length dts.
Proof. intros X f t x dflt ps dts v [_ [_ ->]]. apply map_length. Qed.

Lemma rmean_linear : forall X Y (c : Y -> R) (h : Y -> X -> R) c0 (h0 : X -> R) (l : list X) (ys : list Y),
  (forall p, In p l -> c0 * h0 p = rsum (map (fun y => c y * h y p) ys)) ->
  c0 * rmean (map h0 l) = rsum (map (fun y => c y * rmean (map (h y) l)) ys).
Proof.
  intros X Y c h c0 h0 l ys H. unfold rmean. rewrite map_length.
  rewrite (rsum_ext _ _ (fun y => / INR (length l) * (c y * rsum (map (h y) l))) ys).
  2: { intros y _. rewrite map_length. unfold Rdiv. ring. }
  rewrite rsum_scal. rewrite (rsum_ext _ (fun y => c y * rsum (map (h y) l)) (fun y => rsum (map (fun p => c y * h y p) l))).
  2: { intros y _. rewrite rsum_scal. reflexivity. }
  rewrite rsum_swap. rewrite <- (rsum_ext _ (fun p => c0 * h0 p) (fun p => rsum (map (fun y => c y * h y p) ys))) by exact H. rewrite rsum_scal. unfold Rdiv. ring.
Qed.

(** The common argument: [f] is, on frames with as many particles as [sp], a mean
    over particles. *)
Lemma offset_species : forall (f : list (list R) -> list (list R) -> R) (h : list R * list R -> R) (tr : traj Rops) dg skip
    (frames : list (list (list R))) sp kinds g v,
  (forall x y, length x = length y -> f x y = particle_mean h x y) ->
  length (t_steps tr) = length frames -> (forall x, In x frames -> length x = length sp) ->
  NoDup kinds -> incl sp kinds ->
  offset_compute Rops f tr dg skip frames = Ok (g, v) ->
  exists vs, (forall a, In a kinds -> offset_compute Rops f tr dg skip (map (of_species sp a) frames) = Ok (g, vs a)) /\
    composition sp kinds v vs.
Proof.
  intros f h tr dg skip frames sp kinds g v Hf L HN ND I E.
  set (vs := fun a => match offset_compute Rops f tr dg skip (map (of_species sp a) frames) with Ok r => snd r | Err _ => [] end).
  assert (B : forall a, exists dts, offset_compute Rops f tr dg skip (map (of_species sp a) frames) = Ok (g, vs a) /\ g = times_of tr dts /\
     grouped_mean (A:=Rops) f (t_steps tr) frames [] (admitted dg skip (length frames)) dts v /\
     grouped_mean (A:=Rops) f (t_steps tr) (map (of_species sp a) frames) [] (admitted dg skip (length frames)) dts (vs a)).
  { intros a. destruct (offset_both _ _ f f tr dg skip frames (map (of_species sp a) frames) [] [] g v L (map_length _ _) E) as [w [dts [E' G]]].
    exists dts. unfold vs. rewrite E'. auto. }
  exists vs. split; [intros a _; destruct (B a) as [dts [H _]]; exact H|].
  assert (Ln : forall a, length (vs a) = length v).
  { intros a. destruct (B a) as [dts [_ [_ [G G']]]]. exact (eq_trans (grouped_length _ _ _ _ _ _ _ _ G') (eq_sym (grouped_length _ _ _ _ _ _ _ _ G))). }
  split; [intros; apply Ln|]. intros k Hk.
  destruct (B ""%string) as [dts [_ [_ [G _]]]]. rewrite (grouped_value _ _ _ _ _ _ _ _ k G Hk).
  rewrite (rsum_ext _ _ (fun a => INR (population sp a) * rmean (map (fun p => f (of_species sp a (nth (fst p) frames [])) (of_species sp a (nth (snd p) frames [])))
     (pairs_at (t_steps tr) (nth k dts 0%Z) (admitted dg skip (length frames)))))).
  2: { intros a _. destruct (B a) as [dts' [_ [_ [G1 G2]]]].
       assert (dts = dts') as <-.
       { apply sorted_lt_irr_ext; [apply G|apply G1|]. intros d. rewrite (proj1 (proj2 G)), (proj1 (proj2 G1)). reflexivity. }
       rewrite (grouped_value _ _ _ _ _ _ _ _ k G2) by (rewrite Ln; exact Hk). f_equal. f_equal. apply map_ext_in. intros p Hp.
       apply filter_In in Hp. destruct Hp as [Hp _]. apply admitted_range in Hp.
       rewrite !(nth_map_lt _ _ _ _ _ [] []) by lia. reflexivity. }
  apply rmean_linear. intros p Hp. apply filter_In in Hp. destruct Hp as [Hp _]. apply admitted_range in Hp.
  assert (L1 : length (nth (fst p) frames []) = length sp) by (apply HN, nth_In; lia).
  assert (L2 : length (nth (snd p) frames []) = length sp) by (apply HN, nth_In; lia).
  rewrite Hf by congruence. rewrite (particle_mean_species h sp kinds) by (try assumption; congruence).
  apply rsum_ext. intros a _. rewrite Hf; [reflexivity|]. rewrite !of_species_length by congruence. reflexivity.
Qed.

(** ** The classes *)
Lemma msd_particle : forall x y : list (list R), length x = length y -> msd Rops x y = particle_mean (fun p => dist2 (fst p) (snd p)) x y.
Proof. intros x y L. rewrite msd_R by exact L. reflexivity. Qed.

Lemma vacf_particle : forall x y : list (list R), length x = length y -> vacf_f Rops x y = particle_mean (fun p => dotv (fst p) (snd p)) x y.
Proof. intros x y L. rewrite vacf_f_R by exact L. reflexivity. Qed.

Definition near (a2 : R) (p : list R * list R) : R := if Rlt_dec (dist2 (fst p) (snd p)) a2 then 1 else 0.

Lemma slow_near : forall a2 x y, INR (slow a2 x y) = rsum (map (near a2) (combine x y)).
Proof.
  intros a2 x y. unfold slow. induction (combine x y) as [|p l IH]; [reflexivity|]. cbn [filter map rsum]. unfold near at 1.
  destruct (Rlt_dec (dist2 (fst p) (snd p)) a2); [|lra]. cbn [length]. rewrite S_INR. lra.
Qed.

Lemma self_particle : forall a2 (x y : list (list R)), length x = length y -> self_overlap_f Rops a2 x y = particle_mean (near a2) x y.
Proof.
  intros a2 x y L. rewrite self_overlap_f_R. unfold particle_mean, rmean. rewrite slow_near, map_length, combine_length, L, Nat.min_id. reflexivity.
Qed.

Lemma grid_species : forall (f : list (list R) -> list (list R) -> R) h (tr : traj Rops) grid n frames sp kinds g v,
  (forall x y, length x = length y -> f x y = particle_mean h x y) ->
  length (t_steps tr) = length frames -> (forall x, In x frames -> length x = length sp) ->
  NoDup kinds -> incl sp kinds ->
  grid_compute Rops f tr grid n frames = Ok (g, v) ->
  exists vs, (forall a, In a kinds -> grid_compute Rops f tr grid n (map (of_species sp a) frames) = Ok (g, vs a)) /\
    composition sp kinds v vs.
Proof.
  intros f h tr grid n frames sp kinds g v Hf L HN ND I E.
  destruct (grid_compute_inv _ _ _ _ _ _ _ _ E) as [skip [dg [E1 [E2 E3]]]].
  destruct (offset_species f h tr dg skip frames sp kinds g v Hf L HN ND I E3) as [vs [H1 H2]].
  exists vs. split; [|exact H2]. intros a Ha. unfold grid_compute. rewrite E1. cbn [bind]. rewrite E2. cbn [bind]. apply H1. exact Ha.
Qed.
