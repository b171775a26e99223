(** Facts about densities; which wave-vectors are usable. *)
From Coq Require Import List ZArith Bool Arith Reals Lra Lia Permutation.
From Verif Require Import PyBase PyBaseFacts Num NumFacts M_Helpers M_KGrid M_Fourier Spec_Stats
  Spec_BondAngle P_BondAngle Spec_KGrid P_KGrid P_KGrid2 P_KGrid3 P_KGrid4 P_Expo Spec_Fourier Spec_Correlation P_Sk.
Import ListNotations.
Local Open Scope R_scope.

(** ** Usable wave-vectors *)
Lemma setup_usable : forall fuel tp (g : rng) p (side : list R) s grid st u s',
  (forall k, In k (cell_k0 Rops tp side) -> 0 < k) -> sampler_ok g -> (1 <= kp_nk Rops p)%Z ->
  setup Rops fuel tp g p side s grid = Ok (st, u, s') ->
  usable st /\ ks_k0 st = cell_k0 Rops tp side /\ (length side = 2 \/ length side = 3)%nat.
Proof.
  intros fuel tp g p side s grid st u s' Pk G Hnk H.
  unfold setup in H. cbv zeta in H.
  apply bind_Ok_inv in H. destruct H as [kgrid [E1 H]].
  apply bind_Ok_inv in H. destruct H as [[shells off] [E2 H]].
  apply bind_Ok_inv in H. destruct H as [[kept s2] [E3 H]]. cbn [fst snd] in H.
  apply Ok_inj in H.
  assert (Est : st = mkK (A:=Rops) (cell_k0 Rops tp side) kept off (map (mean_norm Rops (cell_k0 Rops tp side) off) kept))
    by congruence.
  subst st.
  apply decimate_spec in E3; [|assumption]. cbn [fst] in E3.
  apply setup_grid_result in E2; [|apply map_length]. destruct E2 as [dk' [Wd [P N]]].
  apply pass_In in P. destruct P as [kl [dl [km [B1 [B2 [B3 [Eo [Lk [D [ND IN]]]]]]]]]].
  change (num Rops) with R in *.
  assert (LS : length (cell_k0 Rops tp side) = length side) by apply map_length.
  assert (X : forall l, In l kept -> l <> [] /\ exists i, incl l (nth i shells [])).
  { intros l Hl. apply In_nth_error in Hl. destruct Hl as [i Hi].
    assert (Y : exists sh, nth_error shells i = Some sh /\ Z.of_nat (length l) = Z.min (kp_nk Rops p) (Z.of_nat (length sh)) /\
                exists rest, Permutation sh (l ++ rest)).
    { clear - E3 Hi. revert i Hi. induction E3 as [|a b la lb Hab F IH]; intros [|i] Hi; try discriminate.
      - injection Hi as <-. exists b. split; [reflexivity|exact Hab].
      - apply (IH i Hi). }
    destruct Y as [sh [Hs [L [rest Pm]]]].
    assert (Bi : (i < length kgrid)%nat) by (rewrite <- Lk; apply nth_error_Some; congruence).
    pose proof (N i Bi) as Ni. pose proof (nth_error_nth shells i [] Hs) as Es. rewrite Es in Ni.
    split.
    - intros ->. cbn in L. destruct sh; [congruence|]. cbn [length] in L. lia.
    - exists i. rewrite Es. intros a Ha. apply Permutation_in with (l := l ++ rest); [apply Permutation_sym; assumption|].
      apply in_or_app. left. assumption. }
  assert (Off : (1 <= off)%Z).
  { apply getZ_last in B1, B2. destruct B1 as [Nk [_ B1]], B2 as [_ [_ B2]].
    assert (Bl : (length kgrid - 1 < length kgrid)%nat) by (destruct kgrid; [congruence|cbn [length]; lia]).
    specialize (N _ Bl). destruct (nth (length kgrid - 1) shells []) as [|t r] eqn:Es; [congruence|].
    assert (It : In t (nth (length kgrid - 1) shells [])) by (rewrite Es; left; reflexivity).
    apply IN in It. destruct It as [_ [_ [[k [d [Hk [Hd Hw]]]] _]]].
    assert (k = kl) by congruence. subst k.
    destruct Wd as [Lw _]. rewrite map_length in Lw.
    rewrite Lw in B2. assert (d = dl) by congruence. subst d.
    unfold within in Hw. apply Rabs_def2 in Hw.
    pose proof (norm_nonneg (wave (cell_k0 Rops tp side) (unshift off t))) as NN.
    apply kmin0_R in B3. destruct B3 as [I3 _]. specialize (Pk km I3).
    assert (Q : 0 <= (kl + dl) / km) by (apply Rlt_le, Rdiv_lt_0_compat; lra).
    rewrite (Rtrunc_nonneg _ Q) in Eo. pose proof (Rfloor_nonneg _ Q). lia. }
  split; [|split; [reflexivity|change (length (cell_k0 Rops tp side) = 2 \/ length (cell_k0 Rops tp side) = 3)%nat in D; lia]].
  split; cbn [ks_offset ks_grid ks_vectors ks_k0].
  - assumption.
  - apply map_length.
  - intros l Hl. apply X. assumption.
  - intros l t Hl Ht. destruct (X l Hl) as [_ [i Hi]]. apply Hi in Ht. apply IN in Ht.
    destruct Ht as [[Lt _] _]. rewrite unshift_length in Lt. assumption.
  - intros l t z Hl Ht Hz. destruct (X l Hl) as [_ [i Hi]]. apply Hi in Ht. apply IN in Ht.
    destruct Ht as [[_ Ft] _]. rewrite Forall_forall in Ft.
    specialize (Ft (z - off)%Z). lapply Ft; [lia|]. apply in_map_iff. exists z. auto.
Qed.

Lemma set_kvectors_usable : forall tp (side : list R) ns, posk (cell_k0 Rops tp side) -> side <> [] ->
  (forall l n, In l ns -> In n l -> length n = length side) -> (forall l, In l ns -> l <> []) ->
  (forall s l n z, lowest ns s -> In l ns -> In n l -> In z n -> (z <= - s + 1)%Z) ->
  exists q, set_kvectors Rops tp side (map (map (wave (cell_k0 Rops tp side))) ns) = Ok q /\ usable q.
Proof.
  intros tp side ns Pk Hne L Nl B.
  assert (Lk : length (cell_k0 Rops tp side) = length side) by apply map_length.
  destruct (set_kvectors_R tp side ns Pk) as [s [Low E]].
  - intros C. rewrite C in Lk. destruct side; [congruence|discriminate].
  - intros l n Hl Hn. rewrite Lk. eapply L; eassumption.
  - eexists. split; [exact E|]. pose proof Low as [S0 [S1 _]].
    split; cbn [ks_offset ks_grid ks_vectors ks_k0].
    + lia.
    + rewrite !map_length. reflexivity.
    + intros l Hl. apply in_map_iff in Hl. destruct Hl as [m [<- Hm]]. specialize (Nl m Hm).
      destruct m; [congruence|discriminate].
    + intros l t Hl Ht. apply in_map_iff in Hl. destruct Hl as [m [<- Hm]].
      apply in_map_iff in Ht. destruct Ht as [n [<- Hn]]. rewrite map_length, Lk. eapply L; eassumption.
    + intros l t z Hl Ht Hz. apply in_map_iff in Hl. destruct Hl as [m [<- Hm]].
      apply in_map_iff in Ht. destruct Ht as [n [<- Hn]]. apply in_map_iff in Hz. destruct Hz as [y [<- Hy]].
      specialize (S1 m n y Hm Hn Hy). specialize (B s m n y Low Hm Hn Hy). lia.
Qed.

(** ** Densities *)
Lemma rho_mul_conj : forall v p w p' w',
  fst (cmul (rho v p w) (cconj (rho v p' w'))) = rho_re v p w * rho_re v p' w' + rho_im v p w * rho_im v p' w'.
Proof. intros. unfold rho, cmul, cconj. cbn. ring. Qed.

Lemma unit_weights_length : forall pos, length (unit_weights pos) = length pos.
Proof. intros. apply map_length. Qed.

Lemma rho_re_unit : forall v pos, rho_re v pos (unit_weights pos) = rsum (map (fun x => cos (dot v x)) pos).
Proof.
  intros v pos. unfold rho_re, unit_weights. induction pos as [|x r IH]; [reflexivity|].
  cbn [map combine rsum fst snd] in *. rewrite IH. ring.
Qed.
Lemma rho_im_unit : forall v pos, rho_im v pos (unit_weights pos) = rsum (map (fun x => sin (dot v x)) pos).
Proof.
  intros v pos. unfold rho_im, unit_weights. induction pos as [|x r IH]; [reflexivity|].
  cbn [map combine rsum fst snd] in *. rewrite IH. ring.
Qed.

Lemma dot_vplus : forall k x d, length x = length k -> length d = length k -> dot k (vplus x d) = dot k x + dot k d.
Proof.
  intros k. induction k as [|a k IH]; intros x d Lx Ld; [cbn; lra|].
  destruct x as [|b x]; [discriminate|]. destruct d as [|c d]; [discriminate|].
  unfold vplus. cbn [combine map dot fst snd]. fold (vplus x d). rewrite IH by (cbn in *; lia). ring.
Qed.

Lemma rho_translate : forall k d pos, length d = length k -> (forall x, In x pos -> length x = length k) ->
  rho_re k (translate d pos) (unit_weights (translate d pos)) =
    cos (dot k d) * rho_re k pos (unit_weights pos) - sin (dot k d) * rho_im k pos (unit_weights pos) /\
  rho_im k (translate d pos) (unit_weights (translate d pos)) =
    sin (dot k d) * rho_re k pos (unit_weights pos) + cos (dot k d) * rho_im k pos (unit_weights pos).
Proof.
  intros k d pos Ld. rewrite !rho_re_unit, !rho_im_unit. unfold translate. rewrite !map_map.
  induction pos as [|x r IH]; intros Lx; cbn [map rsum]; [split; lra|].
  destruct IH as [A B]; [intros; apply Lx; right; assumption|]. rewrite A, B.
  rewrite dot_vplus by (assumption || (apply Lx; left; reflexivity)).
  rewrite cos_plus, sin_plus. split; ring.
Qed.

Lemma density_sq_nonneg : forall k pos, 0 <= density_sq k pos.
Proof. intros. unfold density_sq. nra. Qed.

Lemma density_sq_cross : forall k pos, density_cross k pos pos = density_sq k pos.
Proof. reflexivity. Qed.

Lemma density_cross_sym : forall k p q, density_cross k p q = density_cross k q p.
Proof. intros. unfold density_cross. ring. Qed.

Lemma density_cross_app : forall k p1 p2 q,
  density_cross k (p1 ++ p2) q = density_cross k p1 q + density_cross k p2 q.
Proof.
  intros. unfold density_cross. rewrite !rho_re_unit, !rho_im_unit, !map_app, !rsum_app. ring.
Qed.

Lemma density_cross_translate : forall k d p q, length d = length k ->
  (forall x, In x p -> length x = length k) -> (forall x, In x q -> length x = length k) ->
  density_cross k (translate d p) (translate d q) = density_cross k p q.
Proof.
  intros k d p q Ld Lp Lq. unfold density_cross.
  destruct (rho_translate k d p Ld Lp) as [-> ->]. destruct (rho_translate k d q Ld Lq) as [-> ->].
  pose proof (sin2_cos2 (dot k d)) as T. unfold Rsqr in T.
  set (a := rho_re k p _). set (b := rho_im k p _). set (a' := rho_re k q _). set (b' := rho_im k q _).
  set (s := sin (dot k d)) in *. set (c := cos (dot k d)) in *.
  replace ((c * a - s * b) * (c * a' - s * b') + (s * a + c * b) * (s * a' + c * b'))
    with ((s * s + c * c) * (a * a' + b * b')) by ring.
  rewrite T. ring.
Qed.

Lemma density_sq_one : forall k x, density_sq k [x] = 1.
Proof.
  intros. unfold density_sq. rewrite rho_re_unit, rho_im_unit. cbn [map rsum].
  pose proof (sin2_cos2 (dot k x)) as T. unfold Rsqr in T. lra.
Qed.

Lemma density_cross_perm : forall k p p' q, Permutation p p' -> density_cross k p q = density_cross k p' q.
Proof.
  intros k p p' q Pm. unfold density_cross. rewrite !rho_re_unit, !rho_im_unit.
  rewrite (rsum_perm (map (fun x => cos (dot k x)) p) (map (fun x => cos (dot k x)) p')) by (apply Permutation_map; assumption).
  rewrite (rsum_perm (map (fun x => sin (dot k x)) p) (map (fun x => sin (dot k x)) p')) by (apply Permutation_map; assumption).
  reflexivity.
Qed.

(** At most N^2. *)
Lemma density_sq_le : forall k pos, density_sq k pos <= INR (length pos) * INR (length pos).
Proof.
  intros k pos. unfold density_sq. rewrite rho_re_unit, rho_im_unit.
  pose proof (rsum_sq_le (map (fun x => cos (dot k x)) pos)) as A.
  pose proof (rsum_sq_le (map (fun x => sin (dot k x)) pos)) as B.
  rewrite map_length, map_map in A, B.
  assert (S : rsum (map (fun x => cos (dot k x) * cos (dot k x)) pos) + rsum (map (fun x => sin (dot k x) * sin (dot k x)) pos)
              = INR (length pos)).
  { rewrite <- rsum_plus. rewrite (rsum_ext _ _ (fun _ => 1)).
    - rewrite rsum_const. ring.
    - intros x _. pose proof (sin2_cos2 (dot k x)) as T. unfold Rsqr in T. lra. }
  pose proof (pos_INR (length pos)). nra.
Qed.
