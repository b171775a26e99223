(** Proofs about overlaps, the non-Gaussian parameter and chi4. *)
From Coq Require Import Ascii String List ZArith Bool Arith Reals Lia Lra Psatz Sorting.Sorted Sorting.Permutation.
From Verif Require Import PyBase PyBaseFacts Num Spec_Stats NumFacts M_Helpers M_Correlation M_Dynamics
  Spec_Correlation P_Correlation Spec_Time P_Time P_Skip P_Acf P_Helpers Spec_Dynamics P_Dynamics P_Dynamics2.
Import ListNotations.
Local Open Scope R_scope.

Lemma grid_average : forall X (f : X -> X -> R) (tr : traj Rops) grid n (x : list X) dflt g v,
  length (t_steps tr) = length x ->
  grid_compute Rops f tr grid n x = Ok (g, v) ->
  exists dts ps, g = map (fun ti => IZR ti * t_dt tr) dts /\ in_range (length x) ps /\
    grouped_mean (A := Rops) f (t_steps tr) x dflt ps dts v /\
    planned tr grid n (not_str_1 Rops n) (length x) ps.
Proof.
  intros X f tr grid n x dflt g v Hl H.
  destruct (grid_compute_inv _ _ _ _ _ _ _ _ H) as [skip [dg [E1 [E2 E]]]].
  destruct (offset_compute_spec _ _ _ _ _ _ _ dflt _ _ Hl E) as [dts [Hg G]].
  exists dts, (admitted dg skip (length x)). split; [exact Hg|].
  split; [intros p Hp; apply (admitted_range _ _ _ _ Hp)|]. split; [exact G|exists skip, dg; auto].
Qed.

(** ** Overlaps *)
Lemma self_count_slow : forall a2 (x y : list (list R)), self_count Rops a2 x y = slow a2 x y.
Proof.
  intros. unfold self_count, slow. f_equal. apply filter_ext. intros p. cbn [nlt Rops]. unfold Rltb.
  rewrite sqdist_R. reflexivity.
Qed.

Lemma filter_perm : forall X (f : X -> bool) l m, Permutation l m -> Permutation (filter f l) (filter f m).
Proof.
  induction 1; cbn; try constructor.
  - destruct (f x); [constructor|]; assumption.
  - destruct (f x), (f y); try apply Permutation_refl; constructor.
  - eapply Permutation_trans; eauto.
Qed.

Lemma prod_perm : forall X Y (x : list X) (y : list Y),
  Permutation (flat_map (fun yi => map (fun xj => (xj, yi)) x) y) (list_prod x y).
Proof.
  intros X Y x y. revert x. induction y as [|b y IH]; intros x; cbn.
  - induction x; cbn; [constructor|assumption].
  - eapply Permutation_trans; [apply Permutation_app_head, IH|].
    clear IH. induction x as [|a x IH]; cbn; [constructor|]. constructor.
    rewrite app_assoc. eapply Permutation_trans.
    + apply Permutation_app_tail. apply Permutation_app_comm.
    + rewrite <- app_assoc. apply Permutation_app_head. exact IH.
Qed.

Lemma coll_count_overlapping : forall a2 (x y : list (list R)), coll_count Rops a2 x y = overlapping a2 x y.
Proof.
  intros. unfold coll_count, overlapping.
  rewrite (Permutation_length (filter_perm _ _ _ _ (prod_perm _ _ x y))). f_equal. apply filter_ext.
  intros p. cbn [nlt Rops]. unfold Rltb. rewrite sqdist_R. reflexivity.
Qed.

Lemma filter_length_le : forall X (f : X -> bool) l, (length (filter f l) <= length l)%nat.
Proof. induction l as [|a l IH]; cbn; [lia|]. destruct (f a); cbn; lia. Qed.

Lemma slow_le : forall a2 x y, (slow a2 x y <= length x)%nat.
Proof. intros. unfold slow. etransitivity; [apply filter_length_le|]. rewrite combine_length. lia. Qed.

Lemma slow_refl : forall a2 x, 0 < a2 -> slow a2 x x = length x.
Proof.
  intros a2 x Ha. unfold slow. rewrite filter_all_true; [rewrite combine_length; lia|].
  intros [r s] Hp. rewrite combine_self in Hp. apply in_map_iff in Hp. destruct Hp as [r' [E _]].
  injection E as <- <-. cbn. rewrite dist2_refl. destruct (Rlt_dec 0 a2); [reflexivity|contradiction].
Qed.

Lemma filter_app' : forall X (f : X -> bool) l m, filter f (l ++ m) = filter f l ++ filter f m.
Proof. intros. apply filter_app. Qed.

Lemma slow_overlapping : forall a2 x y, (slow a2 x y <= overlapping a2 x y)%nat.
Proof.
  intros a2. unfold slow, overlapping. set (f := fun p : list R * list R => if Rlt_dec (dist2 (fst p) (snd p)) a2 then true else false).
  induction x as [|a x IH]; intros [|b y]; cbn [combine filter list_prod]; try (cbn; lia).
  cbn [map]. rewrite <- app_comm_cons. cbn [filter].
  assert (length (filter f (combine x y)) <= length (filter f (map (fun y0 => (a, y0)) y ++ list_prod x (b :: y))))%nat.
  { rewrite filter_app', app_length. etransitivity; [apply IH|].
    assert (length (filter f (list_prod x y)) <= length (filter f (list_prod x (b :: y))))%nat; [|lia].
    clear IH. induction x as [|c x IH]; [cbn; lia|]. cbn [list_prod map]. rewrite <- app_comm_cons. cbn [filter].
    rewrite !filter_app'. destruct (f (c, b)); cbn [length]; rewrite !app_length; lia. }
  destruct (f (a, b)); cbn [length]; lia.
Qed.

Lemma overlapping_le : forall a2 x y, (overlapping a2 x y <= length x * length y)%nat.
Proof. intros. unfold overlapping. etransitivity; [apply filter_length_le|]. rewrite prod_length. lia. Qed.

Lemma Rdiv_in_01 : forall a b, (a <= b)%nat -> (1 <= b)%nat -> 0 <= INR a / INR b <= 1.
Proof.
  intros a b H Hb. assert (0 < INR b) by (apply lt_0_INR; lia). split.
  - apply Rle_mult_inv_pos; [apply pos_INR|assumption].
  - apply Rmult_le_reg_r with (INR b); [assumption|]. unfold Rdiv. rewrite Rmult_assoc, Rinv_l by lra.
    rewrite Rmult_1_l, Rmult_1_r. apply le_INR. exact H.
Qed.

Lemma self_overlap_f_R : forall a2 (x y : list (list R)),
  self_overlap_f Rops a2 x y = INR (slow a2 x y) / INR (length x).
Proof. intros. unfold self_overlap_f. rewrite !nofnat_R, self_count_slow. reflexivity. Qed.
Lemma coll_overlap_f_R : forall a2 (x y : list (list R)),
  coll_overlap_f Rops a2 x y = INR (overlapping a2 x y) / INR (length x).
Proof. intros. unfold coll_overlap_f. rewrite !nofnat_R, coll_count_overlapping. reflexivity. Qed.

Lemma self_overlap_spec : forall (tr : traj Rops) grid n a (unf : list (list (list R))) N g v,
  length (t_steps tr) = length unf -> (forall x, In x unf -> length x = N) -> (1 <= N)%nat -> a <> 0 ->
  self_overlap_compute Rops tr grid n a unf = Ok (g, v) ->
  exists dts ps, g = map (fun ti => IZR ti * t_dt tr) dts /\ planned tr grid n (not_str_1 Rops n) (length unf) ps /\
    grouped_mean (A := Rops) (fun x y => INR (slow (a * a) x y) / INR N) (t_steps tr) unf [] ps dts v /\
    (forall e : R, In e v -> 0 <= e <= 1) /\
    (StronglySorted Z.lt (t_steps tr) -> t_dt tr <> 0 ->
     forall k, (k < length v)%nat -> nth k g 0 = 0 -> nth k v 0 = 1).
Proof.
  intros tr grid n a unf N g v Hl HN HN1 Ha H.
  destruct (grid_average _ _ _ _ _ _ [] _ _ Hl H) as [dts [ps [-> [Hr [G HP]]]]].
  assert (grouped_mean (A := Rops) (fun x y => INR (slow (a * a) x y) / INR N) (t_steps tr) unf [] ps dts v) as G'.
  { eapply grouped_mean_ext; [|exact G]. intros p Hp. rewrite self_overlap_f_R. unfold nsq. cbn [nmul Rops].
    rewrite (HN (nth (fst p) unf [])); [reflexivity|]. apply nth_In. apply Hr in Hp. flatR. lia. }
  exists dts, ps. split; [reflexivity|]. split; [exact HP|]. split; [exact G'|]. split.
  - intros e He.
    assert (forall x y, In x unf -> In y unf -> 0 <= INR (slow (a * a) x y) / INR N <= 1) as B.
    { intros x y Hx Hy. apply Rdiv_in_01; [|exact HN1]. rewrite <- (HN x Hx). apply slow_le. }
    split.
    + eapply value_ge; [exact G'|exact Hr| |exact He]. intros x y Hx Hy. apply B; assumption.
    + eapply value_le; [exact G'|exact Hr| |exact He]. intros x y Hx Hy. apply B; assumption.
  - intros Ht Hh k Hk Hg. eapply value_zero_time with (h := t_dt tr); [exact G'|exact Hr|exact Ht|exact Hl|exact Hh|exact Hk|exact Hg|].
    intros i Hi. assert (0 < a * a) by nra. cbv beta. rewrite slow_refl by assumption.
    rewrite (HN (nth i unf [])) by (apply nth_In; exact Hi). field. apply not_0_INR. lia.
Qed.

Lemma coll_overlap_spec : forall (tr : traj Rops) grid n a (pos : list (list (list R))) N g v,
  length (t_steps tr) = length pos -> (forall x, In x pos -> length x = N) -> (1 <= N)%nat ->
  coll_overlap_compute Rops tr grid n a pos = Ok (g, v) ->
  exists dts ps, g = map (fun ti => IZR ti * t_dt tr) dts /\ planned tr grid n (not_str_1 Rops n) (length pos) ps /\
    grouped_mean (A := Rops) (fun x y => INR (overlapping (a * a) x y) / INR N) (t_steps tr) pos [] ps dts v /\
    (forall e : R, In e v -> 0 <= e <= INR N).
Proof.
  intros tr grid n a pos N g v Hl HN HN1 H.
  destruct (grid_average _ _ _ _ _ _ [] _ _ Hl H) as [dts [ps [-> [Hr [G HP]]]]].
  assert (grouped_mean (A := Rops) (fun x y => INR (overlapping (a * a) x y) / INR N) (t_steps tr) pos [] ps dts v) as G'.
  { eapply grouped_mean_ext; [|exact G]. intros p Hp. rewrite coll_overlap_f_R. unfold nsq. cbn [nmul Rops].
    rewrite (HN (nth (fst p) pos [])); [reflexivity|]. apply nth_In. apply Hr in Hp. flatR. lia. }
  exists dts, ps. split; [reflexivity|]. split; [exact HP|]. split; [exact G'|].
  assert (0 < INR N) as HNp by (apply lt_0_INR; lia).
  assert (forall x y, In x pos -> In y pos -> 0 <= INR (overlapping (a * a) x y) / INR N <= INR N) as B.
  { intros x y Hx Hy. split; [apply Rle_mult_inv_pos; [apply pos_INR|assumption]|].
    apply Rmult_le_reg_r with (INR N); [assumption|]. unfold Rdiv. rewrite Rmult_assoc, Rinv_l by lra.
    rewrite Rmult_1_r, <- mult_INR. apply le_INR. rewrite <- (HN x Hx) at 1. rewrite <- (HN y Hy). apply overlapping_le. }
  intros e He. split.
  - eapply value_ge; [exact G'|exact Hr| |exact He]. intros x y Hx Hy. apply B; assumption.
  - eapply value_le; [exact G'|exact Hr| |exact He]. intros x y Hx Hy. apply B; assumption.
Qed.

Lemma Forall2_map_same : forall X (f g : X -> R) l, (forall d, In d l -> f d <= g d) -> Forall2 Rle (map f l) (map g l).
Proof. induction l; intros H; cbn; constructor; [apply H; left; reflexivity|]. apply IHl. intros; apply H; right; assumption. Qed.

(** Same trajectory, same grid: collective overlap is at least self overlap at
    every time. *)
Lemma coll_ge_self : forall (tr : traj Rops) grid n a (pos : list (list (list R))) g v g' v',
  length (t_steps tr) = length pos -> (forall x, In x pos -> x <> []) ->
  self_overlap_compute Rops tr grid n a pos = Ok (g, v) ->
  coll_overlap_compute Rops tr grid n a pos = Ok (g', v') ->
  g' = g /\ Forall2 Rle v v'.
Proof.
  intros tr grid n a pos g v g' v' Hl HN H1 H2.
  destruct (grid_compute_inv _ _ _ _ _ _ _ _ H1) as [skip [dg [E1 [E2 E3]]]].
  destruct (grid_compute_inv _ _ _ _ _ _ _ _ H2) as [skip' [dg' [E1' [E2' E3']]]].
  rewrite E1 in E1'. apply Ok_inj in E1'. subst skip'.
  rewrite E2 in E2'. apply Ok_inj in E2'. subst dg'.
  destruct (offset_compute_spec _ _ _ _ _ _ _ [] _ _ Hl E3) as [dts [Hg [S1 [D1 V1]]]].
  destruct (offset_compute_spec _ _ _ _ _ _ _ [] _ _ Hl E3') as [dts' [Hg' [S2 [D2 V2]]]].
  assert (dts = dts') as <-.
  { apply sorted_lt_irr_ext; try assumption. intros d. rewrite D1, D2. reflexivity. }
  split; [congruence|]. rewrite V1, V2. apply Forall2_map_same.
  intros d Hd. apply D1 in Hd. rewrite !nmean_R, !map_length. unfold Rdiv. apply Rmult_le_compat_r.
  - apply Rlt_le, Rinv_0_lt_compat. apply INR_pos_length. apply pairs_at_nonempty. exact Hd.
  - apply rsum_le. intros p Hp. apply filter_In in Hp. destruct Hp as [Hp _]. apply admitted_range in Hp.
    unfold pair_val. rewrite self_overlap_f_R, coll_overlap_f_R. unfold Rdiv. apply Rmult_le_compat_r.
    + apply Rlt_le, Rinv_0_lt_compat, INR_pos_length, HN, nth_In. flatR. lia.
    + apply le_INR, slow_overlapping.
Qed.

(** ** Non-Gaussian parameter *)
Lemma alpha_2_R : forall i j (x y : list (list R)), i <> j -> length x = length y ->
  alpha_2 Rops (i, x) (j, y)
  = non_gaussian x y.
Proof.
  intros i j x y Hij Hl. unfold alpha_2, non_gaussian. cbn [fst snd].
  destruct (Nat.eqb_spec i j); [contradiction|].
  rewrite (msd_R x y Hl), nsum_R, nofnat_R. unfold nsq.
  assert (mean_over (fun d => d * d) x y
    = rsum (map (fun a : R => a * a) (map (fun x0 => sqdist Rops (fst x0) (snd x0)) (combine x y))) / INR (length x)) as E.
  { unfold mean_over, rmean. rewrite map_length, combine_length, <- Hl, Nat.min_id. f_equal.
    change (num Rops) with R. rewrite map_map.
    apply rsum_ext. intros p _. rewrite sqdist_R. reflexivity. }
  rewrite E. reflexivity.
Qed.

Lemma mean_square_ge : forall x y, mean_over (fun d => d) x y * mean_over (fun d => d) x y <= mean_over (fun d => d * d) x y.
Proof.
  intros x y. unfold mean_over, rmean. rewrite !map_length. set (l := combine x y).
  assert (l = [] \/ l <> []) as [E|E] by (destruct l; [left; reflexivity|right; discriminate]).
  { rewrite E. cbn. unfold Rdiv. lra. }
  assert (0 < INR (length l)) as Hn by (apply INR_pos_length; exact E).
  pose proof (rsum_sq_le (map (fun p => dist2 (fst p) (snd p)) l)) as H.
  rewrite map_length, map_map in H.
  set (S := rsum (map (fun p => dist2 (fst p) (snd p)) l)) in *.
  set (Q := rsum (map (fun p => dist2 (fst p) (snd p) * dist2 (fst p) (snd p)) l)) in *.
  apply Rmult_le_reg_r with (INR (length l) * INR (length l)); [apply Rmult_lt_0_compat; assumption|].
  replace (S / INR (length l) * (S / INR (length l)) * (INR (length l) * INR (length l))) with (S * S) by (field; lra).
  replace (Q / INR (length l) * (INR (length l) * INR (length l))) with (INR (length l) * Q) by (field; lra).
  exact H.
Qed.

Lemma alpha_2_lower : forall i j (x y : list (list R)), i <> j -> length x = length y ->
  mean_over (fun d => d) x y <> 0 -> - (2 / 5) <= alpha_2 Rops (i, x) (j, y).
Proof.
  intros i j x y Hij Hl H0. rewrite alpha_2_R by assumption. unfold non_gaussian.
  pose proof (mean_square_ge x y) as H. set (m := mean_over (fun d => d) x y) in *.
  set (q := mean_over (fun d => d * d) x y) in *.
  assert (0 < m * m) by (apply Rsqr_pos_lt in H0; exact H0).
  assert (3 / 5 <= 3 * q / (5 * (m * m))); [|lra].
  apply Rmult_le_reg_r with (5 * (m * m)); [lra|]. unfold Rdiv at 2. rewrite Rmult_assoc, Rinv_l by lra. lra.
Qed.

Lemma with_id_nth : forall (fr : list (list (list R))) i, (i < length fr)%nat ->
  nth i (with_id Rops fr) (0%nat, []) = (i, nth i fr []).
Proof.
  intros fr i Hi. unfold with_id. rewrite combine_nth by (rewrite seq_length; reflexivity).
  rewrite seq_nth by exact Hi. reflexivity.
Qed.
Lemma with_id_length : forall (fr : list (list (list R))), length (with_id Rops fr) = length fr.
Proof. intros. unfold with_id. rewrite combine_length, seq_length. flatR. lia. Qed.

Lemma with_id_In : forall (fr : list (list (list R))) p dfl, (fst p < length fr)%nat -> (snd p < length fr)%nat ->
  nth (fst p) (with_id Rops fr) dfl = (fst p, nth (fst p) fr []) /\
  nth (snd p) (with_id Rops fr) dfl = (snd p, nth (snd p) fr []).
Proof.
  intros fr p dfl H1 H2. split; rewrite (nth_indep _ dfl (0%nat, [])) by (rewrite with_id_length; assumption);
    apply with_id_nth; assumption.
Qed.

Lemma alpha2_spec : forall (tr : traj Rops) grid n (unf : list (list (list R))) N g v,
  length (t_steps tr) = length unf -> (forall x, In x unf -> length x = N) ->
  StronglySorted Z.lt (t_steps tr) ->
  alpha2_compute Rops tr grid n unf = Ok (g, v) ->
  exists dts ps, g = map (fun ti => IZR ti * t_dt tr) dts /\ length v = length dts /\
    planned tr grid n (not_str_1 Rops n) (length unf) ps /\
    StronglySorted Z.lt dts /\
    (forall d, In d dts <-> exists p, In p ps /\ pair_dt (t_steps tr) p = d) /\
    forall k, (k < length v)%nat ->
      let qs := pairs_at (t_steps tr) (nth k dts 0%Z) ps in
      (nth k dts 0%Z = 0%Z -> nth k v 0 = 0) /\
      (nth k dts 0%Z <> 0%Z ->
       nth k v 0 = rmean (map (fun p => non_gaussian (nth (fst p) unf []) (nth (snd p) unf [])) qs)) /\
      (nth k dts 0%Z <> 0%Z ->
       (forall p, In p qs -> exists q, In q (combine (nth (fst p) unf []) (nth (snd p) unf [])) /\
                                       dist2 (fst q) (snd q) <> 0) ->
       - (2 / 5) <= nth k v 0).
Proof.
  intros tr grid n unf N g v Hl HN Ht H. unfold alpha2_compute in H.
  assert (length (t_steps tr) = length (with_id Rops unf)) as Hl' by (rewrite with_id_length; exact Hl).
  destruct (grid_average _ _ _ _ _ _ (0%nat, []) _ _ Hl' H) as [dts [ps [-> [Hr [G HP]]]]].
  rewrite with_id_length in Hr, HP.
  exists dts, ps. split; [reflexivity|].
  destruct G as [S1 [D1 V1]]. assert (length v = length dts) as Hv by (rewrite V1; apply map_length).
  split; [exact Hv|]. split; [exact HP|]. split; [exact S1|]. split; [exact D1|].
  intros k Hk qs.
  assert (qs <> []) as Hq. { apply pairs_at_nonempty. apply D1. apply nth_In. rewrite <- Hv. exact Hk. }
  assert (forall p, In p qs -> (snd p <= fst p < length unf)%nat /\ pair_dt (t_steps tr) p = nth k dts 0%Z) as Hp.
  { intros p Hp. apply filter_In in Hp. destruct Hp as [Hp E]. apply Z.eqb_eq in E. split; [apply Hr; exact Hp|exact E]. }
  assert (nth k v 0 = rmean (map (fun p => alpha_2 Rops (fst p, nth (fst p) unf []) (snd p, nth (snd p) unf [])) qs)) as EV.
  { rewrite V1. change (num Rops) with R. rewrite (nth_map_lt _ _ _ _ _ _ 0%Z) by (rewrite <- Hv; exact Hk).
    rewrite nmean_R. unfold rmean. rewrite !map_length. f_equal. apply rsum_ext. intros p Hpq.
    destruct (Hp p Hpq) as [Hpr _]. unfold pair_val.
    destruct (with_id_In unf p (0%nat, []) ltac:(lia) ltac:(lia)) as [E1 E2]. flatR. rewrite E1, E2. reflexivity. }
  assert (nth k dts 0%Z <> 0%Z -> forall p, In p qs -> fst p <> snd p) as Hne.
  { intros Hd p Hpq E. destruct (Hp p Hpq) as [_ E']. apply Hd. rewrite <- E'. unfold pair_dt. rewrite E. lia. }
  assert (forall p, In p qs -> length (nth (fst p) unf []) = length (nth (snd p) unf [])) as HL.
  { intros p Hpq. destruct (Hp p Hpq) as [Hpr _]. rewrite !HN; [reflexivity| |]; apply nth_In; lia. }
  split; [|split].
  - intros Hd. rewrite EV. apply rmean_const; [apply map_nonnil; exact Hq|]. intros w Hw.
    apply in_map_iff in Hw. destruct Hw as [p [<- Hpq]]. destruct (Hp p Hpq) as [Hpr E].
    rewrite Hd in E. rewrite (pair_dt_zero (t_steps tr) p Ht ltac:(lia) E).
    unfold alpha_2. cbn [fst]. rewrite Nat.eqb_refl. reflexivity.
  - intros Hd. rewrite EV. f_equal. apply map_ext_in. intros p Hpq.
    apply alpha_2_R; [apply Hne; assumption|apply HL; exact Hpq].
  - intros Hd Hm. rewrite EV. apply rmean_ge; [apply map_nonnil; exact Hq|]. intros w Hw.
    apply in_map_iff in Hw. destruct Hw as [p [<- Hpq]].
    apply alpha_2_lower; [apply Hne; assumption|apply HL; exact Hpq|].
    destruct (Hm p Hpq) as [q [Hq1 Hq2]]. intros E. unfold mean_over in E.
    assert (0 < INR (length (combine (nth (fst p) unf []) (nth (snd p) unf [])))) as HI.
    { apply INR_pos_length. intros E0. rewrite E0 in Hq1. destruct Hq1. }
    unfold rmean in E. rewrite map_length in E.
    assert (rsum (map (fun p0 => dist2 (fst p0) (snd p0)) (combine (nth (fst p) unf []) (nth (snd p) unf []))) = 0) as E2.
    { apply Rmult_eq_reg_r with (/ INR (length (combine (nth (fst p) unf []) (nth (snd p) unf [])))).
      - rewrite Rmult_0_l. exact E.
      - apply Rinv_neq_0_compat. lra. }
    apply Hq2. eapply rsum_nonneg_zero; [|exact E2|].
    + intros z Hz. apply in_map_iff in Hz. destruct Hz as [r [<- _]]. apply dist2_nonneg.
    + apply in_map_iff. exists q. auto.
Qed.
