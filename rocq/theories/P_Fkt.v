(** The intermediate scattering functions. *)
From Coq Require Import List ZArith Bool Arith Reals Lra Lia Sorting.Sorted.
From Verif Require Import PyBase PyBaseFacts Num NumFacts M_Helpers M_KGrid M_Fourier M_Fkt Spec_Stats
  Spec_BondAngle P_BondAngle Spec_KGrid P_KGrid P_KGrid2 P_KGrid4 P_Expo Spec_Fourier Spec_Correlation Spec_Fkt
  P_Sk P_Sk2 P_Sk3 P_Tcf.
Import ListNotations.
Local Open Scope R_scope.

(** ** One particle at two times *)
Lemma pair_wave_cis : forall nd k0 nk x y ra rb n, row_ok k0 nk x ra -> row_ok k0 nk y rb ->
  length x = nd -> length y = nd -> length k0 = nd ->
  length n = nd -> Forall (fun z => (- nk <= z <= nk)%Z) n ->
  pair_wave nd ra rb (map (fun z => (z + nk)%Z) n) = Ok (cis (dot (wave k0 n) x - dot (wave k0 n) y)).
Proof.
  intros nd k0 nk x y ra rb n [Lr Rr] [Ls Rs] Lx Ly Lk Ln Fn. unfold pair_wave.
  assert (G : forall m a w, (a + m = nd)%nat ->
    foldM (fun acc d => a <- get ra d ;; b <- get rb d ;; k <- get (map (fun z => (z + nk)%Z) n) d ;;
              ea <- getZ a k ;; eb <- getZ b k ;; Ok (cmul acc (cmul ea (cconj eb))))
        w (seq a m) = Ok (cmul w (cis (dot (wave (skipn a k0) (skipn a n)) (skipn a x) - dot (wave (skipn a k0) (skipn a n)) (skipn a y))))).
  { intros m. induction m as [|m IH]; intros a w0 Ha.
    - cbn [seq foldM]. rewrite (skipn_all2 x) by lia. rewrite (skipn_all2 y) by lia. rewrite (skipn_all2 k0) by lia. cbn.
      rewrite Rminus_0_r, cis_0, cmul_1_r. reflexivity.
    - cbn [seq foldM].
      assert (Hn : (- nk <= nth a n 0 <= nk)%Z).
      { rewrite Forall_forall in Fn. apply Fn. apply nth_In. lia. }
      destruct (Rr a (nth a n 0%Z)) as [La Na]; [lia|assumption|].
      destruct (Rs a (nth a n 0%Z)) as [Lb Nb]; [lia|assumption|].
      rewrite (get_Ok _ ra a []) by lia. cbn [bind]. rewrite (get_Ok _ rb a []) by lia. cbn [bind].
      rewrite (get_Ok _ (map (fun z => (z + nk)%Z) n) a (0 + nk)%Z) by (rewrite map_length; lia).
      rewrite (map_nth (fun z => (z + nk)%Z)). cbn [bind].
      rewrite (getZ_pos C _ _ c0) by (rewrite La; lia). cbn [bind].
      rewrite (getZ_pos C _ _ c0) by (rewrite Lb; lia). cbn [bind].
      replace (nth a n 0 + nk)%Z with (nk + nth a n 0)%Z by lia. rewrite Na, Nb.
      rewrite IH by lia. f_equal. rewrite cis_conj, cis_add. rewrite <- cmul_assoc. f_equal. rewrite cis_add. f_equal.
      rewrite (skipn_nth R k0 a 0), (skipn_nth Z n a 0%Z), (skipn_nth R x a 0), (skipn_nth R y a 0) by lia.
      cbn [wave combine map dot fst snd]. unfold wave. ring. }
  rewrite (G nd 0%nat c1) by lia. cbn [skipn]. rewrite cmul_1_l. reflexivity.
Qed.

Lemma fget_getZ : forall X (l : list X) z, (0 <= z)%Z -> fget l (z + 1) = getZ l z.
Proof.
  intros X l z Hz. unfold fget, getZ. destruct (Z.leb_spec (z + 1) 0); [lia|]. destruct (Z.ltb_spec z 0); [lia|].
  f_equal. f_equal. lia.
Qed.

Lemma pair_wave_f_eq : forall nd ra rb t, (forall z, In z t -> (0 <= z)%Z) ->
  pair_wave_f nd ra rb (map (fun z => (z + 1)%Z) t) = pair_wave nd ra rb t.
Proof.
  intros nd ra rb t H. unfold pair_wave_f, pair_wave. apply foldM_ext_in. intros acc d _.
  destruct (get ra d) as [a|]; [cbn [bind]|reflexivity]. destruct (get rb d) as [b|]; [cbn [bind]|reflexivity].
  unfold get. rewrite nth_error_map. destruct (nth_error t d) as [z|] eqn:E; [|reflexivity]. cbn [option_map bind].
  apply nth_error_In in E. rewrite !fget_getZ by auto. reflexivity.
Qed.

Lemma mapM_ext_in : forall X Y (f g : X -> res Y) l, (forall x, In x l -> f x = g x) -> mapM f l = mapM g l.
Proof.
  intros X Y f g l H. induction l as [|x l IH]; [reflexivity|]. cbn [mapM].
  rewrite (H x) by (left; reflexivity). rewrite IH by (intros; apply H; right; assumption). reflexivity.
Qed.

(** ** A block of particles *)
Definition in_table (off : Z) (nd : nat) (t : list Z) : Prop :=
  length t = nd /\ (forall z, In z t -> (0 <= z <= 2 * off)%Z).

Lemma pair_sum_cos : forall nd k0 off fa fb xa xb t, Forall2 (row_ok k0 off) fa xa -> Forall2 (row_ok k0 off) fb xb ->
  (forall x, In x fa -> length x = nd) -> (forall x, In x fb -> length x = nd) -> length k0 = nd -> in_table off nd t ->
  mapM (fun p => pair_wave nd (fst p) (snd p) t) (combine xa xb) =
  Ok (map (fun p => cis (dot (wave k0 (unshift off t)) (fst p) - dot (wave k0 (unshift off t)) (snd p))) (combine fa fb)).
Proof.
  intros nd k0 off fa fb xa xb t Fa. revert fb xb. induction Fa as [|a ra fa xa Ha Fa IH]; intros fb xb Fb La Lb Lk [Lt Bt].
  - reflexivity.
  - destruct Fb as [|b rb fb xb Hb Fb]; [reflexivity|]. cbn [combine mapM map fst snd].
    eapply bind_intro.
    + rewrite <- (shift_unshift off t) at 1. eapply pair_wave_cis; try eassumption.
      * apply La. left. reflexivity.
      * apply Lb. left. reflexivity.
      * rewrite unshift_length. assumption.
      * apply Forall_forall. intros z Hz. apply in_map_iff in Hz. destruct Hz as [y [<- Hy]]. specialize (Bt y Hy). lia.
    + eapply bind_intro; [apply (IH fb xb Fb); [intros; apply La; right; assumption|intros; apply Lb; right; assumption|assumption|split; assumption]|].
      reflexivity.
Qed.

Definition cos_sum (v : list R) (fa fb : list (list R)) : R :=
  rsum (map (fun p => cos (dot v (fst p) - dot v (snd p))) (combine fa fb)).

Lemma nfactors_len : forall nd t, length t = nd -> nfactors nd t = nd.
Proof. intros nd t <-. unfold nfactors. destruct ((length t =? 3) || (length t =? 2))%nat%bool; reflexivity. Qed.

Definition table_ok (k0 : list R) (off : Z) (part : list (list (list R))) (x : list (list (list (list C)))) : Prop :=
  Forall2 (Forall2 (row_ok k0 off)) part x.

Lemma Forall2_nth_error : forall X Y (P : X -> Y -> Prop) l m i d, Forall2 P l m -> (i < length l)%nat ->
  exists y, nth_error m i = Some y /\ P (nth i l d) y.
Proof.
  intros X Y P l m i d F. revert i. induction F as [|a b l m H F IH]; intros [|i] Hi; cbn in *; try lia; eauto.
  apply IH. lia.
Qed.

(** What a kernel must compute. *)
Definition kernel_ok (sum : nat -> list (list (list (list C))) -> list Z -> nat -> nat -> res R) : Prop :=
  forall k0 off part x t a b, table_ok k0 off part x -> in_table off (length k0) t ->
  (forall f y, In f part -> In y f -> length y = length k0) -> (a < length part)%nat -> (b < length part)%nat ->
  sum (length k0) x t a b = Ok (cos_sum (wave k0 (unshift off t)) (nth a part []) (nth b part [])).

Lemma self_sum_ok : kernel_ok self_sum.
Proof.
  intros k0 off part x t a b T It Ld Ha Hb. unfold self_sum.
  destruct (Forall2_nth_error _ _ _ _ _ a [] T Ha) as [xa [Ea Fa]]. destruct (Forall2_nth_error _ _ _ _ _ b [] T Hb) as [xb [Eb Fb]].
  unfold get. rewrite Ea, Eb. cbn [bind]. rewrite nfactors_len by apply It.
  rewrite (pair_sum_cos (length k0) k0 off (nth a part []) (nth b part [])); auto.
  - cbn [bind]. rewrite fst_csum, map_map. reflexivity.
  - intros y Hy. exact (Ld _ y (nth_In _ _ Ha) Hy).
  - intros y Hy. exact (Ld _ y (nth_In _ _ Hb) Hy).
Qed.

Lemma cos_sum_swap : forall v fa fb, cos_sum v fa fb = cos_sum v fb fa.
Proof.
  intros v fa. unfold cos_sum. induction fa as [|a fa IH]; intros [|b fb]; try reflexivity.
  cbn [combine map rsum fst snd]. rewrite (IH fb). f_equal. rewrite <- cos_neg. f_equal. ring.
Qed.

Lemma self_sum_fast_ok : kernel_ok self_sum_fast.
Proof.
  intros k0 off part x t a b T It Ld Ha Hb. unfold self_sum_fast, fskt_kernel.
  destruct (Forall2_nth_error _ _ _ _ _ a [] T Ha) as [xa [Ea Fa]]. destruct (Forall2_nth_error _ _ _ _ _ b [] T Hb) as [xb [Eb Fb]].
  rewrite !fget_getZ by lia. unfold getZ. destruct (Z.ltb_spec (Z.of_nat b) 0); [lia|]. destruct (Z.ltb_spec (Z.of_nat a) 0); [lia|].
  rewrite !Nat2Z.id. unfold get. rewrite Ea, Eb. cbn [bind].
  erewrite mapM_ext_in.
  2: { intros p _. apply pair_wave_f_eq. intros z Hz. destruct It as [_ Hz']. specialize (Hz' z Hz). lia. }
  rewrite (pair_sum_cos (length k0) k0 off (nth b part []) (nth a part [])); auto.
  - cbn [bind]. rewrite fst_csum, map_map. rewrite cos_sum_swap. reflexivity.
  - intros y Hy. exact (Ld _ y (nth_In _ _ Hb) Hy).
  - intros y Hy. exact (Ld _ y (nth_In _ _ Ha) Hy).
Qed.

(** ** Blocks cover all particles once *)
Lemma blocks_concat : forall X (l : list X) b m,
  concat (map (fun k => firstn b (skipn (k * b) l)) (seq 0 m)) = firstn (m * b) l.
Proof.
  intros X l b m. induction m as [|m IH]; [reflexivity|].
  rewrite seq_S, map_app, concat_app, IH. cbn [map concat Nat.add]. rewrite app_nil_r.
  rewrite <- (firstn_skipn (m * b) (firstn (S m * b) l)). rewrite firstn_firstn, skipn_firstn_comm.
  f_equal; [f_equal; lia|f_equal; lia].
Qed.

Lemma blocks_all : forall X (l : list X) b, (1 <= b)%nat ->
  concat (map (fun j => firstn b (skipn j l)) (map (fun k => 0 + k * b)%nat (seq 0 ((length l - 0 + (b - 1)) / b)))) = l.
Proof.
  intros X l b Hb. rewrite map_map. cbn [Nat.add]. rewrite blocks_concat. apply firstn_all2.
  pose proof (Nat.div_mod (length l - 0 + (b - 1)) b ltac:(lia)). pose proof (Nat.mod_upper_bound (length l - 0 + (b - 1)) b ltac:(lia)). lia.
Qed.

Lemma rsum_blocks : forall X (g : X -> R) (l : list X) b n, (1 <= b)%nat -> length l = n ->
  rsum (map (fun j => rsum (map g (firstn b (skipn j l)))) (map (fun k => 0 + k * b)%nat (seq 0 ((n - 0 + (b - 1)) / b)))) = rsum (map g l).
Proof.
  intros X g l b n Hb <-. etransitivity; [|exact (f_equal (fun z => rsum (map g z)) (blocks_all X l b Hb))]. cbv beta.
  rewrite <- flat_map_concat_map, rsum_flat_map. reflexivity.
Qed.

Lemma combine_skipn : forall X Y (l : list X) (m : list Y) n, combine (skipn n l) (skipn n m) = skipn n (combine l m).
Proof.
  intros X Y l. induction l as [|x l IH]; intros [|y m] [|n]; try reflexivity.
  - cbn. rewrite combine_nil. reflexivity.
  - cbn. apply IH.
Qed.

Lemma nth_map_lt : forall X Y (g : X -> Y) l i d e, (i < length l)%nat -> nth i (map g l) e = g (nth i l d).
Proof.
  intros X Y g l i d e H. rewrite (nth_indep _ e (g d)) by (rewrite map_length; assumption). apply map_nth.
Qed.

(** ** The self part *)
Lemma kvectors_wave : forall K, kvectors Rops K = map (map (fun t => wave (ks_k0 K) (unshift (ks_offset K) t))) (ks_vectors K).
Proof. reflexivity. Qed.

Lemma pair_mean_map : forall Key (key : Key -> list R) (f : Key -> nat -> nat -> R) (s : list R -> nat -> nat -> R) steps ps kl d,
  (forall k p, In k kl -> In p ps -> f k (fst p) (snd p) = s (key k) (fst p) (snd p)) ->
  rmean (flat_map (fun k => map (fun p => f k (fst p) (snd p)) (pairs_at steps d ps)) kl) = pair_mean s steps ps (map key kl) d.
Proof.
  intros Key key f s steps ps kl d H. unfold pair_mean. f_equal.
  rewrite (flat_map_concat_map _ (map key kl)), map_map, <- flat_map_concat_map.
  apply flat_map_ext_in. intros k Hk. apply map_ext_in. intros p Hp. apply filter_In in Hp. apply H; [assumption|apply Hp].
Qed.

Lemma admitted_lt : forall g skip n p, In p (admitted g skip n) -> (fst p < n)%nat /\ (snd p < n)%nat.
Proof.
  intros g skip n p H. unfold admitted in H. apply in_flat_map in H. destruct H as [q [_ H]].
  apply in_map_iff in H. destruct H as [i [<- Hi]]. apply origins_In in Hi. cbn. lia.
Qed.

(** The same particles in every frame, at least one, in as many dimensions as
    the cell. *)
Definition same_particles (nd : nat) (pos : list (list (list R))) (N : nat) : Prop :=
  (1 <= N)%nat /\ pos <> [] /\ (forall f, In f pos -> length f = N /\ forall x, In x f -> length x = nd).

Lemma self_loop_ok : forall sum block K steps dgrid skip pos N,
  kernel_ok sum -> usable K -> (1 <= skip)%nat -> length steps = length pos -> same_particles (length (ks_k0 K)) pos N ->
  (1 <= block N)%nat ->
  let js := map (fun k => 0 + k * block N)%nat (seq 0 ((N - 0 + (block N - 1)) / block N)) in
  let blk j (f : list (list R)) := firstn (block N) (skipn j f) in
  let vv j t a b := cos_sum (wave (ks_k0 K) (unshift (ks_offset K) t)) (blk j (nth a pos [])) (blk j (nth b pos [])) in
  self_loop sum block K steps dgrid skip pos =
  Ok (map (fun kl => ev_st (all_events nat (list Z) vv (fun j => INR (length (blk j (nth 0 pos [])))) steps
                              (admitted dgrid skip (length pos)) js kl) tcf_state0) (ks_vectors K)).
Proof.
  intros sum block K steps dgrid skip pos N Hsum U Hs Ls [HN [Hp Hf]] Hb js blk vv.
  assert (L0 : length (nth 0 pos []) = N).
  { apply Hf. apply nth_In. destruct pos; [congruence|cbn; lia]. }
  unfold self_loop. rewrite (get_Ok _ pos 0 []) by (destruct pos; [congruence|cbn; lia]). cbn [bind].
  assert (St : stacked pos = true).
  { unfold stacked. apply forallb_forall. intros f Hin. rewrite L0. apply Nat.eqb_eq. apply Hf. assumption. }
  rewrite St, L0. unfold py_range. destruct (Nat.eqb_spec (block N) 0); [lia|]. cbn [bind]. fold js.
  change (num Rops) with R in *.
  assert (Eg : map (fun _ : R => tcf_state0) (ks_grid K) = map (fun kl : list (list Z) => ev_st [] tcf_state0) (ks_vectors K)).
  { pose proof (us_shells K U) as L. change (num Rops) with R in *. revert L. generalize (ks_grid K).
    induction (ks_vectors K) as [|a r IH]; intros [|b l] L; cbn in *; try discriminate; [reflexivity|].
    f_equal. apply IH. lia. }
  rewrite Eg. clear Eg.
  set (w := fun j => INR (length (blk j (nth 0 pos [])))).
  set (ps := admitted dgrid skip (length pos)).
  assert (G : forall l pre, (forall j, In j l -> (j < N)%nat) ->
    foldM (fun sts j =>
      x <- expo_frames (ks_k0 K) (ks_offset K) (map (fun f => firstn (block N) (skipn j f)) pos) ;;
      over_shells (fun st kvec =>
        tcf_vector (sum (length (ks_k0 K)) x kvec) (INR (length (firstn (block N) (skipn j (nth 0 pos []))))) steps (length pos) dgrid skip st)
        sts (ks_vectors K))
     (map (fun kl => ev_st (all_events nat (list Z) vv w steps ps pre kl) tcf_state0) (ks_vectors K)) l =
    Ok (map (fun kl => ev_st (all_events nat (list Z) vv w steps ps (pre ++ l) kl) tcf_state0) (ks_vectors K))).
  { intros l. induction l as [|j l IH]; intros pre Hl; [rewrite app_nil_r; reflexivity|].
    cbn [foldM].
    destruct (expo_frames_ok (ks_k0 K) (ks_offset K) (map (fun f => firstn (block N) (skipn j f)) pos)) as [x [Ex Fx]].
    { apply U. }
    { destruct pos; [congruence|discriminate]. }
    { intros f y Hin Hy. apply in_map_iff in Hin. destruct Hin as [f' [<- Hin]].
      destruct (Hf f' Hin) as [_ Hd]. rewrite (Hd y); [lia|].
      rewrite <- (firstn_skipn j f'). apply in_or_app. right. rewrite <- (firstn_skipn (block N) (skipn j f')).
      apply in_or_app. left. assumption. }
    rewrite Ex. cbn [bind].
    rewrite (over_shells_ev _ _ (fun t => pair_events (vv j t) (w j) steps ps)).
    2: { intros kl t st Hkl Ht. apply tcf_vector_ok; try assumption. intros a b Ha Hb'.
         etransitivity; [apply (Hsum (ks_k0 K) (ks_offset K) (map (fun f => firstn (block N) (skipn j f)) pos) x t a b); try assumption|].
         5: { f_equal. unfold vv, blk.
           rewrite !(nth_map_lt _ _ (fun f : list (list R) => firstn (block N) (skipn j f)) pos _ [] []) by assumption.
           reflexivity. }
         - split; [eapply us_len; eassumption|intros; eapply us_idx; eassumption].
         - intros f y Hin Hy. apply in_map_iff in Hin. destruct Hin as [f' [<- Hin]].
           destruct (Hf f' Hin) as [_ Hd]. apply Hd.
           rewrite <- (firstn_skipn j f'). apply in_or_app. right. rewrite <- (firstn_skipn (block N) (skipn j f')).
           apply in_or_app. left. assumption.
         - rewrite map_length. assumption.
         - rewrite map_length. assumption. }
    cbn [bind]. replace (pre ++ j :: l) with ((pre ++ [j]) ++ l) by (rewrite <- app_assoc; reflexivity).
    rewrite <- IH by (intros; apply Hl; right; assumption). f_equal. apply map_ext. intros kl. f_equal.
    unfold all_events. rewrite flat_map_app. cbn [flat_map]. rewrite app_nil_r. reflexivity. }
  apply (G js []).
  intros j Hj. unfold js in Hj. apply in_map_iff in Hj. destruct Hj as [k [<- Hk]]. apply in_seq in Hk.
  pose proof (Nat.div_mod (N - 0 + (block N - 1)) (block N) ltac:(lia)).
  assert (k * block N <= ((N - 0 + (block N - 1)) / block N - 1) * block N)%nat by (apply Nat.mul_le_mono_r; lia).
  nia.
Qed.

Lemma self_values_ok : forall sum block K steps dgrid skip pos N,
  kernel_ok sum -> usable K -> ks_vectors K <> [] -> (1 <= skip)%nat -> length steps = length pos ->
  same_particles (length (ks_k0 K)) pos N -> (1 <= block N)%nat ->
  exists dts, reported steps (admitted dgrid skip (length pos)) dts /\
    (sts <- self_loop sum block K steps dgrid skip pos ;; tcf_values sts) =
    Ok (dts, map (fun vs => map (pair_mean (fun v a b => fs_pair v (nth a pos []) (nth b pos [])) steps
                                   (admitted dgrid skip (length pos)) vs) dts) (kvectors Rops K)).
Proof.
  intros sum block K steps dgrid skip pos N Hsum U Hv Hs Ls SP Hb.
  rewrite (self_loop_ok sum block K steps dgrid skip pos N) by assumption. cbn [bind].
  destruct SP as [HN [Hp Hf]].
  set (js := map (fun k => 0 + k * block N)%nat (seq 0 ((N - 0 + (block N - 1)) / block N))).
  set (ps := admitted dgrid skip (length pos)).
  assert (L0 : length (nth 0 pos []) = N).
  { apply Hf. apply nth_In. destruct pos; [congruence|cbn; lia]. }
  match goal with |- context [all_events _ _ ?v ?w _ _ _ _] =>
    destruct (tcf_values_all nat (list Z) v w steps ps js (INR N)) with (shells := ks_vectors K) as [dts [Rd Ev]] end.
  - rewrite (rsum_ext _ _ (fun j => rsum (map (fun _ : list R => 1) (firstn (block N) (skipn j (nth 0 pos [])))))).
    2: { intros j _. rewrite rsum_const. ring. }
    unfold js. rewrite rsum_blocks by assumption. rewrite rsum_const, L0. ring.
  - apply not_0_INR. lia.
  - assumption.
  - intros kl Hkl. eapply us_nonempty; eassumption.
  - exists dts. split; [exact Rd|]. rewrite Ev. do 2 f_equal. rewrite kvectors_wave, map_map. apply map_ext_in. intros kl Hkl.
    apply map_ext. intros d. unfold tcf_mean.
    apply (pair_mean_map _ (fun t => wave (ks_k0 K) (unshift (ks_offset K) t))
      (fun k a b => rsum (map (fun j => cos_sum (wave (ks_k0 K) (unshift (ks_offset K) k))
           (firstn (block N) (skipn j (nth a pos []))) (firstn (block N) (skipn j (nth b pos [])))) js) / INR N)).
    intros t p Ht Hin. apply admitted_lt in Hin. destruct Hin as [Ha Hb'].
    destruct (Hf _ (nth_In pos [] Ha)) as [La _]. destruct (Hf _ (nth_In pos [] Hb')) as [Lb _].
    unfold fs_pair, rmean. rewrite map_length, combine_length, La, Lb, Nat.min_id. f_equal.
    unfold cos_sum.
    rewrite <- (rsum_blocks _ _ (combine (nth (fst p) pos []) (nth (snd p) pos [])) (block N) N)
      by (try assumption; rewrite combine_length; lia).
    fold js. apply rsum_ext. intros j _. rewrite <- combine_skipn, <- combine_firstn. reflexivity.
Qed.
