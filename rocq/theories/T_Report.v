(** C110: the report of the wave-vectors in use. *)
From Coq Require Import List ZArith Bool Arith Reals Lra Lia.
From Verif Require Import PyBase PyBaseFacts Num NumFacts M_Helpers M_KGrid M_Report Spec_Stats Spec_BondAngle
  P_BondAngle Spec_KGrid P_KGrid P_KGrid2 P_KGrid3 P_KGrid4 P_Dynamics P_Chi4 P_Arrays T_KGrid.
Import ListNotations.
Local Open Scope R_scope.

(** The grid of k values is the list of the mean norms of the shells. *)
Definition mean_grid {A} (st : kstate A) : Prop :=
  ks_grid st = map (mean_norm A (ks_k0 st) (ks_offset st)) (ks_vectors st).

Lemma setup_mean_grid : forall A fuel tp g p side s grid st u s',
  setup A fuel tp g p side s grid = Ok (st, u, s') -> mean_grid st.
Proof.
  intros A fuel tp g p side s grid st u s' H. unfold setup in H. cbv zeta in H.
  apply bind_Ok_inv in H. destruct H as [kg [_ H]]. apply bind_Ok_inv in H. destruct H as [r [_ H]].
  apply bind_Ok_inv in H. destruct H as [d [_ H]]. apply Ok_inj in H. apply pair_equal_spec in H. destruct H as [H _].
  apply pair_equal_spec in H. destruct H as [<- _]. reflexivity.
Qed.

Lemma set_mean_grid : forall A tp side kv st, set_kvectors A tp side kv = Ok st -> mean_grid st.
Proof.
  intros A tp side kv st H. unfold set_kvectors in H. cbv zeta in H.
  apply bind_Ok_inv in H. destruct H as [r [_ H]]. apply bind_Ok_inv in H. destruct H as [sh [_ H]]. apply Ok_inj in H. subst st. reflexivity.
Qed.

Lemma mapM_all : forall X Y (f : X -> res Y) (h : X -> Y) l, (forall x, In x l -> f x = Ok (h x)) -> mapM f l = Ok (map h l).
Proof.
  intros X Y f h. induction l as [|x l IH]; intros H; [reflexivity|]. cbn [mapM map].
  rewrite (H x (or_introl eq_refl)). cbn [bind]. rewrite IH by (intros y Hy; apply H; right; exact Hy). reflexivity.
Qed.

Lemma combine_seq_map : forall X Y (f : X -> Y) l n, map (fun p => f (snd p)) (combine (seq n (length l)) l) = map f l.
Proof. intros X Y f. induction l as [|x l IH]; intros n; [reflexivity|]. cbn. rewrite IH. reflexivity. Qed.

Lemma combine_seq_nth : forall X (l : list X) n p, In p (combine (seq n (length l)) l) -> nth_error l (fst p - n) = Some (snd p) /\ (n <= fst p < n + length l)%nat.
Proof.
  intros X. induction l as [|x l IH]; intros n p H; cbn in H; [destruct H|]. destruct H as [<-|H].
  - cbn [fst snd length]. rewrite Nat.sub_diag. split; [reflexivity|lia].
  - apply IH in H. destruct H as [E L]. cbn [length]. split; [|lia]. replace (fst p - n)%nat with (S (fst p - S n)) by lia. exact E.
Qed.

Lemma report_value : forall A (st : kstate A), mean_grid st ->
  report A st = Ok (map (fun vs => let ns := map (fun v => nsqrt A (self_dot A v)) vs in
    mkRow A (nmean A ns) (nmean A ns) (nstd A ns) (length vs)) (kvectors A st)).
Proof.
  intros A st H. unfold report. rewrite (mapM_all _ _ _ (fun ivs => let ns := map (fun v => nsqrt A (self_dot A v)) (snd ivs) in
    mkRow A (nmean A ns) (nmean A ns) (nstd A ns) (length (snd ivs)))).
  - f_equal. apply (combine_seq_map _ _ (fun vs => let ns := map (fun v => nsqrt A (self_dot A v)) vs in
      mkRow A (nmean A ns) (nmean A ns) (nstd A ns) (length vs))).
  - intros p Hp. cbv zeta. apply combine_seq_nth in Hp. destruct Hp as [E _]. rewrite Nat.sub_0_r in E.
    assert (G : get (ks_grid st) (fst p) = Ok (nmean A (map (fun v => nsqrt A (self_dot A v)) (snd p)))).
    { unfold get, kvectors in *. rewrite nth_error_map in E. rewrite H, nth_error_map.
      destruct (nth_error (ks_vectors st) (fst p)) as [vs|]; [|discriminate]. cbn [option_map] in *. injection E as <-.
      unfold mean_norm. rewrite map_map. reflexivity. }
    rewrite G. reflexivity.
Qed.

(** For every arithmetic, doubles included: after compute() or after kvectors have been
    assigned the report succeeds, with one line per shell, the first two numbers of each line
    are the same and the last one is the number of vectors of the shell. *)
Theorem C110_lines : forall A (st : kstate A),
  (exists fuel tp g p side s grid u s', setup A fuel tp g p side s grid = Ok (st, u, s')) \/
  (exists tp side kv, set_kvectors A tp side kv = Ok st) ->
  exists rows, report A st = Ok rows /\ length rows = length (kvectors A st) /\ map r_k rows = ks_grid st /\
    map r_mean rows = ks_grid st /\ map r_count rows = map (@length _) (kvectors A st).
Proof.
  intros A st H.
  assert (M : mean_grid st).
  { destruct H as [[fuel [tp [g [p [side [s [grid [u [s' H]]]]]]]]]|[tp [side [kv H]]]];
      [eapply setup_mean_grid; exact H|eapply set_mean_grid; exact H]. }
  eexists. split; [apply report_value, M|]. rewrite map_length, !map_map. cbn [r_k r_mean r_count].
  assert (G : map (fun vs => nmean A (map (fun v => nsqrt A (self_dot A v)) vs)) (kvectors A st) = ks_grid st).
  { rewrite M. unfold kvectors. rewrite map_map. apply map_ext. intros vs. unfold mean_norm. rewrite map_map. reflexivity. }
  split; [reflexivity|]. split; [exact G|]. split; [exact G|reflexivity].
Qed.
Print Assumptions C110_lines.

(** ** Over the real numbers *)
Lemma nstd_R : forall l : list R, nstd Rops l = sqrt (variance l).
Proof.
  intros l. unfold nstd. change (nsqrt Rops) with sqrt. f_equal. rewrite nmean_R, map_length. unfold variance, rmean.
  f_equal. apply rsum_ext. intros x _. unfold nsq. cbn [nmul nsub Rops]. rewrite nmean_R. reflexivity.
Qed.

Lemma norms_R : forall vs : list (list R), map (fun v => nsqrt Rops (self_dot Rops v)) vs = map norm vs.
Proof.
  intros vs. apply map_ext. intros v. unfold norm. change (nsqrt Rops) with sqrt. f_equal.
  exact (self_dot_R v).
Qed.

Lemma within_mean : forall l k d, l <> [] -> (forall x, In x l -> Rabs (x - k) < d) -> Rabs (rmean l - k) < d.
Proof.
  intros l k d Hl H. pose proof (INR_pos_length _ l Hl) as P.
  assert (E : rmean l - k = rsum (map (fun x => x - k) l) / INR (length l)).
  { unfold rmean. rewrite (rsum_minus R (fun x => x) (fun _ => k) l), rsum_const, map_id. field. lra. }
  rewrite E. assert (S : forall m, m <> [] -> (forall x, In x m -> Rabs (x - k) < d) -> Rabs (rsum (map (fun x => x - k) m)) < INR (length m) * d).
  { induction m as [|x m IH]; intros Hm Hx; [congruence|]. cbn [map rsum length]. rewrite S_INR.
    eapply Rle_lt_trans; [apply Rabs_triang|]. pose proof (Hx x (or_introl eq_refl)) as X.
    destruct m as [|y m]; [cbn [map rsum length INR]; rewrite Rabs_R0; lra|].
    assert (Y : Rabs (rsum (map (fun x => x - k) (y :: m))) < INR (length (y :: m)) * d) by (apply IH; [discriminate|intros z Hz; apply Hx; right; exact Hz]).
    lra. }
  unfold Rdiv. rewrite Rabs_mult, (Rabs_right (/ _)) by (apply Rle_ge, Rlt_le, Rinv_0_lt_compat, P).
  apply Rmult_lt_reg_r with (INR (length l)); [exact P|]. rewrite Rmult_assoc, Rinv_l, Rmult_1_r by lra. specialize (S l Hl H). lra.
Qed.

(** The deviations from the mean are smallest in the mean square. *)
Lemma std_within : forall l k d, l <> [] -> (forall x, In x l -> Rabs (x - k) < d) -> sqrt (variance l) < d.
Proof.
  intros l k d Hl H. pose proof (INR_pos_length _ l Hl) as P.
  assert (D : 0 < d). { destruct l as [|x l]; [congruence|]. pose proof (H x (or_introl eq_refl)). pose proof (Rabs_pos (x - k)). lra. }
  assert (V : variance l < d * d).
  { assert (E : rsum (map (fun x => (x - k) * (x - k)) l) = rsum (map (fun x => (x - rmean l) * (x - rmean l)) l) + INR (length l) * ((rmean l - k) * (rmean l - k))).
    { rewrite <- (rsum_const R), <- rsum_plus.
      assert (Z : rsum (map (fun x => (x - rmean l) * (2 * (rmean l - k))) l) = 0).
      { rewrite (rsum_ext _ _ (fun x => 2 * (rmean l - k) * (x - rmean l))) by (intros; ring). rewrite rsum_scal, (rsum_minus R (fun x => x) (fun _ => rmean l) l), rsum_const, map_id.
        unfold rmean at 2. field. lra. }
      rewrite <- (Rplus_0_r (rsum (map (fun x => (x - rmean l) * (x - rmean l) + _) l))), <- Z, <- rsum_plus. apply rsum_ext. intros x _. ring. }
    assert (S : forall m, m <> [] -> (forall x, In x m -> Rabs (x - k) < d) -> rsum (map (fun x => (x - k) * (x - k)) m) < INR (length m) * (d * d)).
    { induction m as [|x m IH]; intros Hm Hx; [congruence|]. cbn [map rsum length]. rewrite S_INR.
      assert (X : (x - k) * (x - k) < d * d).
      { pose proof (Hx x (or_introl eq_refl)) as Y. apply Rabs_def2 in Y. destruct Y as [Y1 Y2].
        assert (Q : 0 < (d - (x - k)) * (d + (x - k))) by (apply Rmult_lt_0_compat; lra). nra. }
      destruct m as [|y m]; [cbn [map rsum length INR]; lra|].
      assert (Y : rsum (map (fun x => (x - k) * (x - k)) (y :: m)) < INR (length (y :: m)) * (d * d)) by (apply IH; [discriminate|intros z Hz; apply Hx; right; exact Hz]).
      lra. }
    specialize (S l Hl H). unfold variance. apply Rmult_lt_reg_r with (INR (length l)); [exact P|].
    unfold Rdiv. rewrite Rmult_assoc, Rinv_l, Rmult_1_r by lra.
    assert (0 <= INR (length l) * ((rmean l - k) * (rmean l - k))) by (apply Rmult_le_pos; [lra|apply Rle_0_sqr]). lra. }
  rewrite <- (sqrt_square d) by lra. apply sqrt_lt_1_alt. split; [apply variance_nonneg|exact V].
Qed.

Lemma std_zero : forall l, l <> [] -> (sqrt (variance l) = 0 <-> forall x, In x l -> x = rmean l).
Proof.
  intros l Hl. pose proof (INR_pos_length _ l Hl) as P. split.
  - intros H x Hx. apply sqrt_eq_0 in H; [|apply variance_nonneg]. unfold variance in H.
    assert (Z : rsum (map (fun v => (v - rmean l) * (v - rmean l)) l) = 0).
    { apply Rmult_eq_reg_r with (/ INR (length l)); [rewrite Rmult_0_l; exact H|]. apply Rinv_neq_0_compat. lra. }
    assert (Y : (x - rmean l) * (x - rmean l) = 0).
    { apply (rsum_nonneg_zero (map (fun v => (v - rmean l) * (v - rmean l)) l)); [|exact Z|apply in_map with (f := fun v => (v - rmean l) * (v - rmean l)), Hx].
      intros y Hy. apply in_map_iff in Hy. destruct Hy as [v [<- _]]. apply Rle_0_sqr. }
    apply Rsqr_0_uniq in Y. lra.
  - intros H. rewrite (variance_const l (rmean l) H). apply sqrt_0.
Qed.

(** After the selection of the wave-vectors, with the widths [dks] of the shells (each dk times
    a power of 1.2): the number in line i is at most nk and is not zero; the average is the mean
    of the norms and differs from the k value requested by less than the width; the standard
    deviation is that of the norms, is smaller than the width, and vanishes only if all the
    vectors have the same norm. *)
Theorem C110_shells : forall fuel tp (g : rng) p (side : list R) s grid st u s' kgrid,
  sampler_ok g -> (1 <= kp_nk Rops p)%Z -> 0 < tp -> (forall L, In L side -> 0 < L) -> 0 < kp_dk Rops p ->
  setup Rops fuel tp g p side s grid = Ok (st, u, s') ->
  initial_kgrid Rops p (cell_k0 Rops tp side) grid = Ok kgrid -> (forall k, In k kgrid -> 0 <= k) ->
  exists rows dks, report Rops st = Ok rows /\ length rows = length kgrid /\ length dks = length kgrid /\
    (forall d, In d dks -> exists w : nat, d = kp_dk Rops p * (12 / 10) ^ w) /\
    forall i row k d vs, nth_error rows i = Some row -> nth_error kgrid i = Some k -> nth_error dks i = Some d ->
      nth_error (kvectors Rops st) i = Some vs ->
      r_count row = length vs /\ (1 <= r_count row)%nat /\ (Z.of_nat (r_count row) <= kp_nk Rops p)%Z /\
      r_mean row = rmean (map norm vs) /\ r_k row = r_mean row /\ Rabs (r_mean row - k) < d /\
      r_std row * r_std row = variance (map norm vs) /\ 0 <= r_std row < d /\
      (r_std row = 0 <-> forall v, In v vs -> norm v = r_mean row).
Proof.
  intros fuel tp g p side s grid st u s' kgrid G Hnk Htp Hside Hdk H Eg Hpos.
  destruct (C39_decimation fuel tp g p side s grid st u s' G Hnk H) as [_ [Hgrid [kg [shells [Eg' [Es F]]]]]].
  rewrite Eg in Eg'. apply Ok_inj in Eg'. subst kg.
  assert (Hk0 : forall k, In k (cell_k0 Rops tp side) -> 0 < k).
  { intros k Hk. unfold cell_k0 in Hk. apply in_map_iff in Hk. destruct Hk as [L [<- HL]]. apply Rdiv_lt_0_compat; [exact Htp|apply Hside, HL]. }
  destruct (C37_shells fuel (kp_dk Rops p) kgrid (cell_k0 Rops tp side) shells (ks_offset st) Hk0 Hpos Hdk Es) as [dks [Ld [Hw [Lk [Hdim [Hsh _]]]]]].
  assert (M : mean_grid st) by (eapply setup_mean_grid; exact H).
  assert (K0 : ks_k0 st = cell_k0 Rops tp side).
  { clear - H. unfold setup in H. cbv zeta in H. apply bind_Ok_inv in H. destruct H as [kg [_ H]]. apply bind_Ok_inv in H. destruct H as [r [_ H]].
    apply bind_Ok_inv in H. destruct H as [d [_ H]]. apply Ok_inj in H. apply pair_equal_spec in H. destruct H as [H _].
    apply pair_equal_spec in H. destruct H as [<- _]. reflexivity. }
  assert (Lv : length (ks_vectors st) = length kgrid) by (transitivity (length shells); [clear - F; induction F; cbn; congruence|exact Lk]).
  eexists. exists dks. split; [apply report_value, M|].
  split; [rewrite map_length; unfold kvectors; rewrite map_length; exact Lv|]. split; [exact Ld|]. split; [exact Hw|].
  intros i row k d vs Er Ek Ed Ev. rewrite nth_error_map in Er.
  match type of Er with option_map _ ?m = _ => replace m with (Some vs) in Er by (symmetry; exact Ev) end.
  cbn [option_map] in Er.
  assert (Hrow : forall x y : shell_row Rops, Some x = Some y -> y = x) by (intros x y X; congruence).
  apply Hrow in Er. clear Hrow. subst row. cbv zeta. cbn [r_k r_mean r_std r_count].
  assert (Mean : nmean Rops (map (fun v => nsqrt Rops (self_dot Rops v)) vs) = rmean (map norm vs)).
  { etransitivity; [apply nmean_R|]. unfold rmean. pose proof (norms_R vs) as N. rewrite <- N. reflexivity. }
  assert (Std : nstd Rops (map (fun v => nsqrt Rops (self_dot Rops v)) vs) = sqrt (variance (map norm vs))).
  { etransitivity; [apply nstd_R|]. do 2 f_equal. exact (norms_R vs). }
  match goal with |- context [nstd Rops ?l] => replace (nstd Rops l) with (sqrt (variance (map norm vs))) by (symmetry; exact Std) end.
  match goal with |- context [nmean Rops ?l] => replace (nmean Rops l) with (rmean (map norm vs)) by (symmetry; exact Mean) end.
  unfold kvectors in Ev. rewrite nth_error_map in Ev. destruct (nth_error (ks_vectors st) i) as [kept|] eqn:Ekept; [|discriminate].
  cbn [option_map] in Ev. injection Ev as Ev.
  assert (X : exists sh, nth_error shells i = Some sh /\ kept <> [] /\ Z.of_nat (length kept) = Z.min (kp_nk Rops p) (Z.of_nat (length sh)) /\ incl kept sh).
  { clear - F Ekept. revert i Ekept. induction F as [|a b la lb [N [L [_ I]]] F IH]; intros i E; [destruct i; discriminate|].
    destruct i as [|i]; [injection E as <-; exists b; repeat split; assumption|]. apply IH, E. }
  destruct X as [sh [Esh [Hne [Hlen Hincl]]]]. destruct (Hsh i sh Esh) as [_ [_ Hin]].
  assert (Hvs : vs <> []) by (subst vs; destruct kept; [congruence|discriminate]).
  assert (Hns : map norm vs <> []) by (destruct vs; [congruence|discriminate]).
  assert (Hw' : forall x, In x (map norm vs) -> Rabs (x - k) < d).
  { intros x Hx. apply in_map_iff in Hx. destruct Hx as [v [<- Hv]]. subst vs. apply in_map_iff in Hv. destruct Hv as [t [<- Ht]].
    destruct (proj1 (Hin t) (Hincl t Ht)) as [_ [[[k' [d' [Ek' [Ed' W]]]] _] _]]. 
    assert (X : Some k' = Some k) by exact (eq_trans (eq_sym Ek') Ek). injection X as ->.
    assert (X : Some d' = Some d) by exact (eq_trans (eq_sym Ed') Ed). injection X as ->. rewrite K0. exact W. }
  assert (Lvs : length vs = length kept) by (subst vs; apply map_length).
  split; [reflexivity|]. split; [destruct vs; [congruence|cbn; lia]|]. split; [rewrite Lvs, Hlen; lia|].
  split; [reflexivity|]. split; [reflexivity|]. split; [apply within_mean; assumption|].
  split; [apply sqrt_sqrt, variance_nonneg|]. split; [split; [apply sqrt_pos|eapply std_within; eassumption]|].
  etransitivity; [apply std_zero, Hns|]. split; intros Z.
  - intros v Hv. apply Z, in_map, Hv.
  - intros x Hx. apply in_map_iff in Hx. destruct Hx as [v [<- Hv]]. apply Z, Hv.
Qed.
Print Assumptions C110_shells.

(** Verbose: each vector in use is listed, with the k value of its shell, and nothing else. *)
Theorem C110_vectors : forall A (st : kstate A),
  (exists fuel tp g p side s grid u s', setup A fuel tp g p side s grid = Ok (st, u, s')) \/
  (exists tp side kv, set_kvectors A tp side kv = Ok st) ->
  exists l, report_vectors A st = Ok l /\ map snd l = concat (kvectors A st) /\
    forall k v, In (k, v) l <-> exists i vs, nth_error (kvectors A st) i = Some vs /\ In v vs /\ nth_error (ks_grid st) i = Some k.
Proof.
  intros A st H.
  assert (M : mean_grid st).
  { destruct H as [[fuel [tp [g [p [side [s [grid [u [s' H]]]]]]]]]|[tp [side [kv H]]]];
      [eapply setup_mean_grid; exact H|eapply set_mean_grid; exact H]. }
  clear H. pose (kv := kvectors A st). pose (kf := fun i => nth i (ks_grid st) (n0 A)).
  assert (L : length (ks_grid st) = length kv) by (unfold kv, kvectors; rewrite M, !map_length; reflexivity).
  exists (concat (map (fun p => map (fun v => (kf (fst p), v)) (snd p)) (combine (seq 0 (length kv)) kv))).
  assert (E : forall p, In p (combine (seq 0 (length kv)) kv) -> nth_error kv (fst p) = Some (snd p) /\ nth_error (ks_grid st) (fst p) = Some (kf (fst p))).
  { intros p Hp. apply combine_seq_nth in Hp. rewrite Nat.sub_0_r in Hp. destruct Hp as [Hp Hl]. split; [exact Hp|].
    unfold kf. apply nth_error_nth'. lia. }
  split; [|split].
  - unfold report_vectors. fold kv. rewrite (mapM_all _ _ _ (fun p => map (fun v => (kf (fst p), v)) (snd p))); [reflexivity|].
    intros p Hp. apply mapM_all. intros v _. unfold get. rewrite (proj2 (E p Hp)). reflexivity.
  - rewrite concat_map, map_map. f_equal. transitivity (map (fun p => snd p) (combine (seq 0 (length kv)) kv)).
    + apply map_ext. intros p. rewrite map_map. cbn [snd]. apply map_id.
    + etransitivity; [apply (combine_seq_map _ _ (fun x => x))|]. apply map_id.
  - intros k v. rewrite in_concat. split.
    + intros [c [Hc Hk]]. apply in_map_iff in Hc. destruct Hc as [p [<- Hp]]. apply in_map_iff in Hk. destruct Hk as [v' [X Hv]].
      injection X as <- <-. destruct (E p Hp) as [E1 E2]. exists (fst p), (snd p). auto.
    + intros [i [vs [E1 [Hv E2]]]]. exists (map (fun v => (k, v)) vs). split; [|apply in_map_iff; exists v; auto].
      apply in_map_iff. exists (i, vs). cbn [fst snd].
      assert (Hp : In (i, vs) (combine (seq 0 (length kv)) kv)).
      { clear - E1. fold kv in E1. assert (G : forall l n j, nth_error l j = Some vs -> In ((n + j)%nat, vs) (combine (seq n (length l)) l)).
        { induction l as [|x l IH]; intros n j Hj; [destruct j; discriminate|]. destruct j as [|j]; cbn.
          - injection Hj as <-. left. f_equal. lia.
          - right. replace (n + S j)%nat with (S n + j)%nat by lia. apply IH, Hj. }
        exact (G kv 0%nat i E1). }
      split; [|exact Hp]. destruct (E _ Hp) as [_ E3]. cbn [fst] in E3. rewrite E3 in E2. injection E2 as ->. reflexivity.
Qed.
Print Assumptions C110_vectors.

(** A square cell, one k value: the set-up and the report exist. *)
Example C110_nonvacuous : exists fuel st u s' rows,
  setup Rops fuel (2 * PI) first_n p_example [1; 1; 1] 7%nat (Some [7]) = Ok (st, u, s') /\
  initial_kgrid Rops p_example (cell_k0 Rops (2 * PI) [1; 1; 1]) (Some [7]) = Ok [7] /\
  report Rops st = Ok rows /\ length rows = 1%nat.
Proof.
  destruct C39_nonvacuous as [fuel [[[st u] s'] E]]. exists fuel, st, u, s'.
  assert (I : initial_kgrid Rops p_example (cell_k0 Rops (2 * PI) [1; 1; 1]) (Some [7]) = Ok [7]).
  { unfold initial_kgrid. cbn [cell_k0 map kmin0 bind sort_num fold_right insert_num].
    change (nlt Rops 7 (n0 Rops)) with (Rltb 7 0). destruct (Rltb_spec 7 0); [lra|reflexivity]. }
  destruct (C110_shells fuel (2 * PI) first_n p_example [1; 1; 1] 7%nat (Some [7]) st u s' [7]) as [rows [dks [Er [Lr _]]]].
  - exact first_n_ok.
  - cbn. lia.
  - pose proof PI_RGT_0. lra.
  - intros L HL. cbn in HL. destruct HL as [<-|[<-|[<-|[]]]]; lra.
  - cbn. lra.
  - exact E.
  - exact I.
  - intros k [<-|[]]. lra.
  - exists rows. auto.
Qed.
