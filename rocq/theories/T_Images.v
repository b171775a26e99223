(** Theorems on periodic images in Fourier space: C69. *)
From Coq Require Import List ZArith Bool Arith Reals Lra Lia Sorting.Sorted.
From Verif Require Import PyBase PyBaseFacts Num NumFacts M_Helpers M_KGrid M_Fourier M_Fkt Spec_Stats
  Spec_BondAngle P_BondAngle Spec_KGrid P_KGrid P_KGrid2 P_KGrid4 Spec_Fourier Spec_Correlation Spec_Fkt
  P_Sk P_Sk2 P_Sk3 P_Tcf P_Fkt P_Fkt2 P_Fkt3 T_Fourier T_Fkt P_Images.
Import ListNotations.
Local Open Scope R_scope.

(** The vectors of [K] fit in the cell [side]. *)
Definition fits (K : kstate Rops) (side : list R) : Prop :=
  ks_k0 K = cell_k0 Rops (2 * PI) side /\ (forall L, In L side -> L <> 0).

Lemma fits_vector : forall K side vs v, usable K -> fits K side -> In vs (kvectors Rops K) -> In v vs ->
  exists n, length n = length side /\ v = wave (cell_k0 Rops (2 * PI) side) n.
Proof.
  intros K side vs v U [E _] Hvs Hv. rewrite kvectors_wave in Hvs. apply in_map_iff in Hvs. destruct Hvs as [kl [<- Hkl]].
  apply in_map_iff in Hv. destruct Hv as [t [<- Ht]]. exists (unshift (ks_offset K) t). split.
  - rewrite unshift_length, (us_len K U kl t Hkl Ht), E. unfold cell_k0. apply map_length.
  - rewrite <- E. reflexivity.
Qed.

Lemma fits_len : forall K side, fits K side -> length (ks_k0 K) = length side.
Proof. intros K side [E _]. rewrite E. unfold cell_k0. apply map_length. Qed.

(** The structure factor. *)
Theorem C69_structure_factor : forall K side skip a a', usable K -> fits K side -> (1 <= skip)%nat -> a <> [] ->
  group_ok (length side) a -> images side a a' ->
  structure_factor true false (fun _ => K) skip (pair_frames a' a') = structure_factor true false (fun _ => K) skip (pair_frames a a).
Proof.
  intros K side skip a a' U F Hs Ha G I. pose proof (fits_len K side F) as LK.
  pose proof (images_length _ _ _ I) as LI.
  rewrite !pairs_value; auto; try (rewrite LK; assumption); try (rewrite LK; eapply images_group; eassumption).
  2: { intros ->. destruct a; [congruence|discriminate]. }
  f_equal. apply map_ext_in. intros vs Hvs. cbv zeta. rewrite LI, (images_mean_N _ _ _ I).
  assert (E : shell_mean (fun v i => density_cross v (nth i a' []) (nth i a' [])) skip (length a) vs =
              shell_mean (fun v i => density_cross v (nth i a []) (nth i a [])) skip (length a) vs).
  { apply shell_mean_ext. intros v i Hv _. destruct (fits_vector K side vs v U F Hvs Hv) as [n [Ln ->]].
    apply density_cross_images; [apply F|assumption| |]; apply images_nth; assumption. }
  rewrite E. reflexivity.
Qed.
Print Assumptions C69_structure_factor.

(** The self intermediate scattering function: folded and unfolded coordinates give
    the same result. *)
Theorem C69_self : forall nb K side steps dgrid skip normalize pos pos' N,
  usable K -> fits K side -> ks_vectors K <> [] -> (1 <= skip)%nat -> length steps = length pos ->
  same_particles (length side) pos N -> images side pos pos' ->
  fskt_legacy K steps dgrid skip normalize pos' = fskt_legacy K steps dgrid skip normalize pos /\
  fskt_fast nb K steps dgrid skip normalize pos' = fskt_fast nb K steps dgrid skip normalize pos.
Proof.
  intros nb K side steps dgrid skip normalize pos pos' N U F Hv Hs Ls SP I.
  pose proof (fits_len K side F) as LK. pose proof (images_length _ _ _ I) as LI.
  pose proof (images_same _ _ _ _ I SP) as SP'. rewrite <- LK in SP, SP'.
  assert (E0 : fskt_legacy K steps dgrid skip false pos' = fskt_legacy K steps dgrid skip false pos).
  { destruct (C46_value K steps dgrid skip pos N U Hv Hs Ls SP) as [d1 [[S1 R1] [_ [E1 _]]]].
    destruct (C46_value K steps dgrid skip pos' N U Hv Hs ltac:(congruence) SP') as [d2 [[S2 R2] [_ [E2 _]]]].
    rewrite LI in *. assert (d2 = d1) as ->. { apply sorted_lt_irr_ext; try assumption. intros d. rewrite R1, R2. reflexivity. }
    rewrite E1, E2. do 2 f_equal. unfold self_values. apply map_ext_in. intros vs Hvs. apply map_ext. intros d.
    unfold pair_mean. f_equal. apply flat_map_ext_in. intros v Hvv. apply map_ext. intros p.
    destruct (fits_vector K side vs v U F Hvs Hvv) as [n [Ln ->]].
    apply fs_pair_images; [apply F|assumption| |]; apply images_nth; assumption. }
  assert (E1 : fskt_legacy K steps dgrid skip normalize pos' = fskt_legacy K steps dgrid skip normalize pos).
  { destruct normalize; [|assumption]. destruct (C46_value K steps dgrid skip pos N U Hv Hs Ls SP) as [d1 [_ [_ [E1 _]]]].
    rewrite E1 in E0. unfold fskt_legacy, self_compute in *.
    destruct (self_loop self_sum legacy_block K steps dgrid skip pos) as [s1|]; cbn [bind] in *; [|discriminate].
    destruct (self_loop self_sum legacy_block K steps dgrid skip pos') as [s2|]; cbn [bind] in *; [|discriminate].
    destruct (tcf_values s1) as [t1|]; cbn [bind] in *; [|discriminate]. destruct (tcf_values s2) as [t2|]; cbn [bind] in *; [|discriminate].
    apply Ok_inj in E0. apply Ok_inj in E1. rewrite E0, E1. reflexivity. }
  split; [exact E1|]. rewrite !(C46_fast_is_legacy nb K steps dgrid skip _ N) by (try assumption; congruence). exact E1.
Qed.
Print Assumptions C69_self.

(** The intermediate scattering function, total or partial, in two and three
    dimensions. *)
Theorem C69_collective : forall K side steps dgrid skip normalize pos0 pos0' pos1 pos1',
  usable K -> fits K side -> ks_vectors K <> [] -> (length side = 2 \/ length side = 3)%nat -> (1 <= skip)%nat ->
  length steps = length pos0 -> length pos1 = length pos0 ->
  group_ok (length side) pos0 -> group_ok (length side) pos1 -> images side pos0 pos0' -> images side pos1 pos1' ->
  fkt_compute K steps dgrid skip normalize pos0' (Some pos1') = fkt_compute K steps dgrid skip normalize pos0 (Some pos1) /\
  fkt_compute K steps dgrid skip normalize pos0' None = fkt_compute K steps dgrid skip normalize pos0 None.
Proof.
  intros K side steps dgrid skip normalize pos0 pos0' pos1 pos1' U F Hv Hnd Hs Ls L1 G0 G1 I0 I1.
  pose proof (fits_len K side F) as LK. pose proof (images_length _ _ _ I0) as LI0. pose proof (images_length _ _ _ I1) as LI1.
  assert (M : forall q q' same, group_ok (length side) q -> images side q q' -> length q = length pos0 ->
            (same = true -> q = pos0 /\ q' = pos0') ->
            fkt_compute K steps dgrid skip normalize pos0' (second same q') = fkt_compute K steps dgrid skip normalize pos0 (second same q)).
  { intros q q' same Gq Iq Lq Hsame. pose proof (images_length _ _ _ Iq) as LIq.
    destruct (fkt_values_ok K steps dgrid skip pos0 q same) as [d1 [[S1 R1] E1]]; auto; try (rewrite LK; assumption).
    { intros H. apply Hsame. assumption. }
    destruct (fkt_values_ok K steps dgrid skip pos0' q' same) as [d2 [[S2 R2] E2]]; auto; try (rewrite LK; assumption);
      try (rewrite LK; eapply images_group; eassumption); try congruence.
    { intros H. apply Hsame. assumption. }
    unfold second. rewrite E1, E2. rewrite LI0 in *.
    assert (d2 = d1) as ->. { apply sorted_lt_irr_ext; try assumption. intros d. rewrite R1, R2. reflexivity. }
    cbv zeta.
    assert (X : map (fun vs => map (pair_mean (fun v a b => density_cross v (nth a pos0' []) (nth b q' [])) steps (admitted dgrid skip (length pos0)) vs) d1) (kvectors Rops K) =
                map (fun vs => map (pair_mean (fun v a b => density_cross v (nth a pos0 []) (nth b q [])) steps (admitted dgrid skip (length pos0)) vs) d1) (kvectors Rops K)).
    { apply map_ext_in. intros vs Hvs. apply map_ext. intros d. unfold pair_mean. f_equal. apply flat_map_ext_in. intros v Hvv. apply map_ext. intros p.
      destruct (fits_vector K side vs v U F Hvs Hvv) as [n [Ln ->]].
      apply density_cross_images; [apply F|assumption| |]; apply images_nth; assumption. }
    rewrite X. reflexivity. }
  split.
  - apply (M pos1 pos1' false); auto. discriminate.
  - apply (M pos0 pos0' true); auto.
Qed.
Print Assumptions C69_collective.

Example C69_nonvacuous : usable K48 /\ fits K48 [1; 1; 1] /\
  images [1; 1; 1] [[[0; / 2; / 3]]; [[/ 7; 0; 0]]] [[[-1; / 2; / 3 + 2]]; [[/ 7; 0; 5]]].
Proof.
  split; [exact K48_usable|]. split.
  - split; [|intros L [<-|[<-|[<-|[]]]]; lra]. cbn. replace (2 * PI / 1) with (2 * PI) by field. reflexivity.
  - assert (Z : forall x y n, y = x + IZR n * 1 -> exists m : Z, y = x + IZR m * 1) by (intros; eauto).
    repeat constructor; cbn; intros j Hj; destruct j as [|[|[|j]]]; try lia; cbn.
    + apply (Z _ _ (-1)%Z). ring.
    + apply (Z _ _ 0%Z). ring.
    + apply (Z _ _ 2%Z). ring.
    + apply (Z _ _ 0%Z). ring.
    + apply (Z _ _ 0%Z). ring.
    + apply (Z _ _ 5%Z). ring.
Qed.
