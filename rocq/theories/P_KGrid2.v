(** Selection of wave-vectors over the reals: what a pass selects. *)
From Coq Require Import List ZArith Bool Arith Reals Lra Lia.
From Verif Require Import PyBase PyBaseFacts Num NumFacts M_Helpers M_KGrid Spec_Stats Spec_BondAngle
  P_BondAngle Spec_KGrid P_KGrid.
Import ListNotations.
Local Open Scope R_scope.

Lemma self_dot_R : forall v : list R, self_dot Rops v = dot v v.
Proof.
  intros v. unfold self_dot. rewrite nsum_R. induction v as [|x r IH]; cbn; [reflexivity|].
  f_equal. exact IH.
Qed.

Lemma kscale_R : forall (k0 : list R) n, kscale Rops k0 n = wave k0 n.
Proof. reflexivity. Qed.

Lemma norm_nonneg : forall v, 0 <= norm v.
Proof. intros v. apply sqrt_pos. Qed.

Lemma norm_sq : forall v, norm v * norm v = dot v v.
Proof. intros v. unfold norm. apply sqrt_sqrt. apply dot_self_nonneg. Qed.

Lemma find_shell_R : forall x (kgrid dk : list R) i, find_shell Rops x kgrid dk = Some i <->
  (exists k d, nth_error kgrid i = Some k /\ nth_error dk i = Some d /\ Rabs (x - k) < d) /\
  forall j k d, (j < i)%nat -> nth_error kgrid j = Some k -> nth_error dk j = Some d ->
    ~ Rabs (x - k) < d.
Proof.
  intros x kgrid. induction kgrid as [|k kr IH]; intros dk i; cbn.
  - split; [discriminate|]. intros [[k [d [H _]]] _]. destruct i; discriminate.
  - destruct dk as [|d dr]; cbn.
    + split; [discriminate|]. intros [[k' [d' [_ [H _]]]] _]. destruct i; discriminate.
    + destruct (Rltb_spec (Rabs (x - k)) d) as [L|L].
      * split.
        -- intros H. injection H as <-. split; [exists k, d; auto|]. intros j; lia.
        -- intros [_ H]. destruct i as [|i]; [reflexivity|]. exfalso.
           apply (H 0%nat k d); [lia|reflexivity|reflexivity|assumption].
      * split.
        -- intros H. destruct (find_shell Rops x kr dr) as [j|] eqn:E; [|discriminate].
           injection H as <-. apply IH in E. destruct E as [[k' [d' [H1 [H2 H3]]]] H4].
           split; [exists k', d'; auto|]. intros [|m] k2 d2 Hm Hk Hd; cbn in Hk, Hd.
           ++ injection Hk as <-. injection Hd as <-. assumption.
           ++ apply (H4 m k2 d2); [lia|assumption|assumption].
        -- intros [[k' [d' [H1 [H2 H3]]]] H4]. destruct i as [|i]; cbn in H1, H2.
           ++ injection H1 as <-. injection H2 as <-. contradiction.
           ++ assert (E : find_shell Rops x kr dr = Some i).
              { apply IH. split; [exists k', d'; auto|]. intros m k2 d2 Hm Hk Hd.
                apply (H4 (S m) k2 d2); [lia|assumption|assumption]. }
              change (num Rops) with R in *. rewrite E. reflexivity.
Qed.

Lemma in_shell_unique : forall kgrid dk v i j, in_shell kgrid dk v i -> in_shell kgrid dk v j -> i = j.
Proof.
  intros kgrid dk v i j [[k [d [A1 [A2 A3]]]] A4] [[k' [d' [B1 [B2 B3]]]] B4].
  destruct (lt_eq_lt_dec i j) as [[H|H]|H]; [|assumption|]; exfalso.
  - exact (B4 i k d H A1 A2 A3).
  - exact (A4 j k' d' H B1 B2 B3).
Qed.

Lemma in_some_shell : forall kgrid dk v i k d, nth_error kgrid i = Some k -> nth_error dk i = Some d ->
  within v k d -> exists j, (j <= i)%nat /\ in_shell kgrid dk v j.
Proof.
  intros kgrid dk v i. induction i as [i IH] using lt_wf_ind. intros k d Hk Hd Hw.
  destruct (find_shell Rops (norm v) (firstn i kgrid) (firstn i dk)) as [j|] eqn:E.
  - pose proof (find_shell_bound Rops _ _ _ _ E) as [B _]. apply find_shell_R in E.
    destruct E as [[k' [d' [H1 [H2 H3]]]] _].
    rewrite firstn_length in B.
    assert (Hj : (j < i)%nat) by lia.
    assert (N : forall X (l : list X) (x : X), nth_error (firstn i l) j = Some x -> nth_error l j = Some x).
    { intros X l x H. rewrite <- (firstn_skipn i l). rewrite nth_error_app1; [assumption|].
      apply nth_error_Some. congruence. }
    destruct (IH j Hj k' d' (N _ _ _ H1) (N _ _ _ H2) H3) as [m [Hm Hs]].
    exists m. split; [lia|assumption].
  - exists i. split; [lia|]. split; [exists k, d; auto|].
    intros j. induction j as [j IHj] using lt_wf_ind. intros k' d' Hj H1 H2 C.
    assert (N : forall X (l : list X) (x : X), nth_error l j = Some x -> nth_error (firstn i l) j = Some x).
    { intros X l x H. assert (B : (j < length l)%nat) by (apply nth_error_Some; congruence).
      rewrite <- (firstn_skipn i l) in H. rewrite nth_error_app1 in H; [assumption|].
      rewrite firstn_length. lia. }
    assert (F : find_shell Rops (norm v) (firstn i kgrid) (firstn i dk) = Some j).
    { apply find_shell_R. split.
      - exists k', d'. split; [apply N; assumption|]. split; [apply N; assumption|assumption].
      - intros m k2 d2 Hm Hk2 Hd2.
        apply (IHj m Hm k2 d2); [lia| |].
        + rewrite <- (firstn_skipn i kgrid). rewrite nth_error_app1; [assumption|].
          apply nth_error_Some. congruence.
        + rewrite <- (firstn_skipn i dk). rewrite nth_error_app1; [assumption|].
          apply nth_error_Some. congruence. }
    congruence.
Qed.

Lemma getZ_last : forall X (l : list X) x, getZ l (-1) = Ok x <-> l <> [] /\ last l x = x /\ nth_error l (length l - 1) = Some x.
Proof.
  intros X l x. unfold getZ. cbn [Z.ltb Z.compare].
  destruct (Z.ltb_spec (-1 + Z.of_nat (length l)) 0).
  - split; [discriminate|]. intros [H1 _]. destruct l; [congruence|cbn [length] in H; lia].
  - replace (Z.to_nat (-1 + Z.of_nat (length l))) with (length l - 1)%nat by lia.
    unfold get. destruct (nth_error l (length l - 1)) as [y|] eqn:E.
    + split.
      * intros H1. injection H1 as <-. split; [destruct l; [cbn [length] in H; lia|congruence]|].
        split; [|reflexivity].
        destruct (exists_last (l:=l)) as [l' [z ->]]; [destruct l; [cbn [length] in H; lia|congruence]|].
        rewrite last_last. rewrite app_length in E. cbn in E.
        rewrite nth_error_app2 in E by lia. replace (length l' + 1 - 1 - length l')%nat with 0%nat in E by lia.
        cbn in E. congruence.
      * intros [_ [_ H1]]. congruence.
    + split; [discriminate|]. intros [_ [_ H1]]. congruence.
Qed.

Lemma list_best_R : forall (l : list R) b, let m := list_best Rops (nlt Rops) b l in
  In m (b :: l) /\ forall x, In x (b :: l) -> m <= x.
Proof.
  intros l. induction l as [|y r IH]; intros b; cbn.
  - split; [auto|]. intros x [->|[]]. lra.
  - cbn in IH. destruct (Rltb_spec y b).
    + destruct (IH y) as [I M]. split; [destruct I; auto|].
      intros x [->|[->|H]]; [|apply M; auto|apply M; auto].
      specialize (M y (or_introl eq_refl)). cbn in M. lra.
    + destruct (IH b) as [I M]. split; [destruct I; auto|].
      intros x [->|[->|H]]; [apply M; auto| |apply M; auto].
      specialize (M b (or_introl eq_refl)). cbn in M. lra.
Qed.

Lemma kmin0_R : forall (k0 : list R) km, kmin0 Rops k0 = Ok km -> In km k0 /\ forall x, In x k0 -> km <= x.
Proof.
  intros k0 km H. unfold kmin0 in H. destruct k0 as [|x r]; [discriminate|]. apply Ok_inj in H.
  subst km. apply list_best_R.
Qed.

Lemma component_le_norm : forall (k0 : list R) n j (k : R) z, nth_error k0 j = Some k -> nth_error n j = Some z ->
  Rabs (k * IZR z) <= norm (wave k0 n).
Proof.
  intros k0 n j k z Hk Hz.
  assert (H : (k * IZR z) * (k * IZR z) <= dot (wave k0 n) (wave k0 n)).
  { revert n j Hk Hz. induction k0 as [|a r IH]; intros n j Hk Hz; [destruct j; discriminate|].
    destruct n as [|m n]; [destruct j; discriminate|]. cbn.
    pose proof (dot_self_nonneg (wave r n)) as P. unfold wave in *.
    destruct j as [|j]; cbn in Hk, Hz.
    - injection Hk as ->. injection Hz as ->. lra.
    - specialize (IH n j Hk Hz). pose proof (Rle_0_sqr (a * IZR m)) as Q. unfold Rsqr in Q. lra. }
  rewrite <- sqrt_Rsqr_abs. apply sqrt_le_1_alt. exact H.
Qed.

Definition posk (k0 : list R) : Prop := forall x, In x k0 -> 0 < x.

Lemma cube_cover : forall (k0 : list R) km kmax n, posk k0 -> In km k0 -> (forall x, In x k0 -> km <= x) ->
  length n = length k0 -> norm (wave k0 n) <= kmax ->
  in_cube (length k0) (1 + Rtrunc (kmax / km)) n.
Proof.
  intros k0 km kmax n Pk Ikm Mkm L N. split; [assumption|]. apply Forall_forall. intros z Hz.
  apply In_nth_error in Hz. destruct Hz as [j Hj].
  assert (B : (j < length k0)%nat) by (rewrite <- L; apply nth_error_Some; congruence).
  destruct (nth_error k0 j) as [k|] eqn:Ek; [|apply nth_error_None in Ek; lia].
  pose proof (component_le_norm k0 n j k z Ek Hj) as C.
  assert (Hkm : 0 < km) by (apply Pk; assumption).
  assert (Hk : km <= k) by (apply Mkm; eapply nth_error_In; eassumption).
  rewrite Rabs_mult in C. rewrite (Rabs_pos_eq k) in C by lra.
  pose proof (Rabs_pos (IZR z)) as Az.
  assert (D : Rabs (IZR z) <= kmax / km).
  { apply Rmult_le_reg_r with km; [assumption|]. unfold Rdiv. rewrite Rmult_assoc, Rinv_l by lra.
    rewrite Rmult_1_r. apply Rle_trans with (k * Rabs (IZR z)); [|lra].
    rewrite Rmult_comm. apply Rmult_le_compat_r; lra. }
  assert (P : 0 <= kmax / km) by lra.
  pose proof (Rtrunc_bounds_nonneg _ P) as T.
  rewrite <- abs_IZR in D.
  assert (IZR (Z.abs z) < IZR (Rtrunc (kmax / km) + 1)) by (rewrite plus_IZR; lra).
  apply lt_IZR in H. lia.
Qed.

Lemma dot_sq_le : forall v kmax, dot v v <= kmax * kmax <-> norm v <= Rabs kmax.
Proof.
  intros v kmax. rewrite <- norm_sq. pose proof (norm_nonneg v) as P. split; intros H.
  - destruct (Rle_dec (norm v) (Rabs kmax)) as [L|L]; [assumption|]. exfalso.
    assert (Q : kmax * kmax = Rabs kmax * Rabs kmax).
    { rewrite <- Rabs_mult. rewrite Rabs_pos_eq; [reflexivity|]. pose proof (Rle_0_sqr kmax). unfold Rsqr in H0. lra. }
    pose proof (Rabs_pos kmax). rewrite Q in H. nra.
  - assert (Q : kmax * kmax = Rabs kmax * Rabs kmax).
    { rewrite <- Rabs_mult. rewrite Rabs_pos_eq; [reflexivity|]. pose proof (Rle_0_sqr kmax). unfold Rsqr in H0. lra. }
    rewrite Q. nra.
Qed.

Lemma unshift_shift : forall off n, unshift off (map (fun z => (z + off)%Z) n) = n.
Proof. intros off n. unfold unshift. rewrite map_map. rewrite <- map_id. apply map_ext. intros; lia. Qed.
Lemma shift_unshift : forall off t, map (fun z => (z + off)%Z) (unshift off t) = t.
Proof. intros off n. unfold unshift. rewrite map_map. rewrite <- map_id. apply map_ext. intros; lia. Qed.
Lemma unshift_length : forall off t, length (unshift off t) = length t.
Proof. intros. apply map_length. Qed.

(** What one pass selects. *)
Lemma pass_In : forall (dk kgrid k0 : list R) kvec kb, grid_pass Rops dk kgrid k0 = Ok (kvec, kb) ->
  exists kl dl km, getZ kgrid (-1) = Ok kl /\ getZ dk (-1) = Ok dl /\ kmin0 Rops k0 = Ok km /\
    kb = (1 + Rtrunc ((kl + dl) / km))%Z /\ length kvec = length kgrid /\
    (length k0 = 2 \/ length k0 = 3)%nat /\
    (forall i, NoDup (nth i kvec [])) /\
    forall i t, In t (nth i kvec []) <->
      (in_cube (length k0) kb (unshift kb t) /\ norm (wave k0 (unshift kb t)) <= Rabs (kl + dl) /\
       in_shell kgrid dk (wave k0 (unshift kb t)) i).
Proof.
  intros dk kgrid k0 kvec kb H. apply grid_pass_spec in H.
  destruct H as [kl [dl [km [q [pts [E1 [E2 [E3 [E4 [E5 [E6 [E7 E8]]]]]]]]]]]].
  cbn in E4. apply (f_equal (fun o => match o with Some z => z | None => 0%Z end)) in E4. cbn in E4.
  apply lattice_points_spec in E6. destruct E6 as [D [ND IN]].
  exists kl, dl, km.
  split; [assumption|]. split; [assumption|]. split; [assumption|].
  split; [rewrite E5, <- E4; reflexivity|]. split; [assumption|]. split; [assumption|].
  split.
  - intros i. rewrite E8. apply FinFun.Injective_map_NoDup; [|apply NoDup_filter; assumption].
    intros x y Hxy. rewrite <- (unshift_shift kb x), <- (unshift_shift kb y). f_equal. exact Hxy.
  - intros i t. rewrite E8. rewrite in_map_iff.
    assert (AS : forall n, assigned Rops k0 kgrid dk
        (nmul Rops (nadd Rops kl dl) (nadd Rops kl dl)) i n = true <->
        norm (wave k0 n) <= Rabs (kl + dl) /\ in_shell kgrid dk (wave k0 n) i).
    { intros n. unfold assigned, assign. cbn [nlt nmul nadd Rops].
      rewrite (self_dot_R (kscale Rops k0 n)), kscale_R. rewrite <- dot_sq_le.
      destruct (Rltb_spec ((kl + dl) * (kl + dl)) (dot (wave k0 n) (wave k0 n))) as [C|C].
      - split; [discriminate|]. intros [? _]. lra.
      - destruct (find_shell Rops _ kgrid dk) as [j|] eqn:F.
        + apply find_shell_R in F. cbn [nsqrt Rops] in F.
          destruct (Nat.eqb_spec j i) as [->|Hne].
          * split; [|reflexivity]. intros _. split; [lra|exact F].
          * split; [discriminate|]. intros [_ Hi]. exfalso. apply Hne.
            eapply in_shell_unique; [exact F|exact Hi].
        + split; [discriminate|]. intros [_ Hi]. exfalso.
          apply (proj2 (find_shell_R (norm (wave k0 n)) kgrid dk i)) in Hi.
          unfold norm in Hi. cbn [nsqrt Rops] in F. change (num Rops) with R in *. congruence. }
    split.
    + intros [n [<- Hn]]. rewrite unshift_shift. apply filter_In in Hn. destruct Hn as [Hn Ha].
      apply IN in Hn. apply AS in Ha. tauto.
    + intros [Hc [Hn Hs]]. exists (unshift kb t). split; [apply shift_unshift|].
      apply filter_In. split; [apply IN; assumption|]. apply AS. tauto.
Qed.
