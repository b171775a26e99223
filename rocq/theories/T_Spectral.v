(** Theorems on the spectral density and on the four-point structure factor: C80, C81. *)
From Coq Require Import List ZArith Bool Arith Reals Lra Lia.
From Verif Require Import PyBase PyBaseFacts Num NumFacts M_Helpers M_KGrid M_Fourier M_Dynamics M_Spectral Spec_Stats
  Spec_BondAngle P_BondAngle Spec_KGrid P_KGrid P_KGrid2 P_KGrid4 P_Expo Spec_Fourier Spec_Correlation Spec_Time P_Time P_Dynamics
  P_Sk P_Sk2 P_Sk3 Spec_Spectral P_Spectral.
Import ListNotations.
Local Open Scope R_scope.

(** ** C80 *)
(** What is computed: the mean of |sum_p m(R_p) exp(i k.r_p)|^2 over vectors and frames,
    divided by the mean volume, where m is the transform of a sphere, taken however at the
    norm of the table indices of the vector and not at the norm of the vector. *)
Theorem C80_value_partial : forall K skip pos radius volumes,
  usable K -> length (ks_k0 K) = 3%nat -> (1 <= skip)%nat -> pos <> [] -> group_ok 3 pos ->
  length radius = length pos ->
  (forall i, (i < length pos)%nat -> length (nth i radius []) = length (nth i pos [])) ->
  spectral_density (fun _ => K) skip pos radius volumes =
  Ok (map (fun shell =>
        let m := rmean (flat_map (fun i =>
                   map (fun t => filled_sq (sqrt (rsum (map (fun z => IZR z * IZR z) t)))
                                           (wave (ks_k0 K) (unshift (ks_offset K) t)) (nth i pos []) (nth i radius []))
                       shell) (origins 0 skip (length pos))) in
        (m / rmean volumes, m)) (ks_vectors K)).
Proof.
  intros K skip pos radius volumes U D Hs Hne G Lr Lri. rewrite spectral_density_spec by assumption.
  f_equal. unfold indexed. rewrite map_map. apply map_ext. intros kl. cbv zeta.
  assert (E : ik_mean skip pos radius (fun v => index_norm (snd v)) (map (fun t => (wave (ks_k0 K) (unshift (ks_offset K) t), t)) kl) =
    rmean (flat_map (fun i => map (fun t => filled_sq (sqrt (rsum (map (fun z => IZR z * IZR z) t)))
       (wave (ks_k0 K) (unshift (ks_offset K) t)) (nth i pos []) (nth i radius [])) kl) (origins 0 skip (length pos)))).
  { unfold ik_mean. f_equal. apply flat_map_ext. intros i. rewrite map_map. apply map_ext. intros t. cbn [fst snd].
    unfold index_norm. rewrite nsum_R.
    rewrite (map_ext (fun z => IZR (z * z)) (fun z => IZR z * IZR z)) by (intros z; apply mult_IZR). reflexivity. }
  rewrite E. reflexivity.
Qed.
Print Assumptions C80_value_partial.

(** It is never negative. *)
Theorem C80_nonneg_partial : forall K skip pos radius volumes r,
  usable K -> length (ks_k0 K) = 3%nat -> (1 <= skip)%nat -> pos <> [] -> group_ok 3 pos ->
  length radius = length pos ->
  (forall i, (i < length pos)%nat -> length (nth i radius []) = length (nth i pos [])) ->
  0 < rmean volumes ->
  spectral_density (fun _ => K) skip pos radius volumes = Ok r ->
  length r = length (ks_vectors K) /\ forall v, In v r -> 0 <= fst v /\ 0 <= snd v.
Proof.
  intros K skip pos radius volumes r U D Hs Hne G Lr Lri V. rewrite spectral_density_spec by assumption.
  intros E. apply Ok_inj in E. subst r. unfold indexed. split; [rewrite !map_length; reflexivity|].
  intros v Hv. apply in_map_iff in Hv. destruct Hv as [vs [<- _]]. cbn [fst snd].
  pose proof (ik_mean_nonneg skip pos radius (fun v => index_norm (snd v)) vs) as P. split; [|exact P].
  apply Rmult_le_pos; [exact P|]. apply Rlt_le, Rinv_0_lt_compat. exact V.
Qed.
Print Assumptions C80_nonneg_partial.

(** It does not change if all the particles are displaced by the same vector. *)
Theorem C80_translation_partial : forall K skip pos radius volumes d,
  usable K -> length (ks_k0 K) = 3%nat -> (1 <= skip)%nat -> pos <> [] -> group_ok 3 pos ->
  length radius = length pos ->
  (forall i, (i < length pos)%nat -> length (nth i radius []) = length (nth i pos [])) -> length d = 3%nat ->
  spectral_density (fun _ => K) skip (map (translate d) pos) radius volumes = spectral_density (fun _ => K) skip pos radius volumes.
Proof.
  intros K skip pos radius volumes d U D Hs Hne G Lr Lri Ld.
  assert (NT : forall i, nth i (map (translate d) pos) [] = translate d (nth i pos [])).
  { intros i. change (@nil (list R)) with (translate d []) at 1. apply map_nth. }
  rewrite !spectral_density_spec; try assumption.
  - f_equal. apply map_ext_in. intros vs Hvs. cbv zeta.
    assert (E : ik_mean skip (map (translate d) pos) radius (fun v => index_norm (snd v)) vs =
                ik_mean skip pos radius (fun v => index_norm (snd v)) vs).
    { unfold ik_mean. rewrite map_length. f_equal. apply flat_map_ext_in. intros i Hi. apply map_ext_in. intros v Hv.
      rewrite NT. apply origins_lt in Hi.
      unfold indexed in Hvs. apply in_map_iff in Hvs. destruct Hvs as [kl [<- Hkl]]. apply in_map_iff in Hv.
      destruct Hv as [t [<- Ht]]. cbn [fst snd].
      assert (LW : length (wave (ks_k0 K) (unshift (ks_offset K) t)) = 3%nat).
      { unfold wave. rewrite map_length, combine_length, unshift_length. rewrite (us_len K U kl t Hkl Ht). rewrite Nat.min_id. exact D. }
      apply filled_sq_translate; rewrite LW; [exact Ld|]. intros x Hx. apply (G (nth i pos [])); [apply nth_In; exact Hi|exact Hx]. }
    rewrite E. reflexivity.
  - destruct pos; [congruence|discriminate].
  - intros f Hf. apply in_map_iff in Hf. destruct Hf as [f0 [<- Hf0]]. destruct (G f0 Hf0) as [N0 N1]. split.
    + destruct f0; [congruence|discriminate].
    + intros x Hx. apply in_map_iff in Hx. destruct Hx as [y [<- Hy]]. unfold vplus.
      rewrite map_length, combine_length, (N1 y Hy), Ld. reflexivity.
  - rewrite map_length. exact Lr.
  - intros i Hi. rewrite map_length in Hi. rewrite NT. unfold translate. rewrite map_length. apply Lri. exact Hi.
Qed.
Print Assumptions C80_translation_partial.

(** One sphere of radius PI in a cell of side 2 PI, asking for the vector (1, 0, 0): the
    right value is the square of the transform of the sphere at 1 over the volume. *)
Theorem C80_wave_number_refuted :
  exists K v, set_kvectors Rops (2 * PI) [2 * PI; 2 * PI; 2 * PI] [[[1; 0; 0]]] = Ok K /\
    kvectors Rops K = [[[1; 0; 0]]] /\
    spectral_density (fun _ => K) 1 [[[0; 0; 0]]] [[PI]] [2 * PI * (2 * PI) * (2 * PI)] = Ok [v] /\
    fst v < filled_sq (norm [1; 0; 0]) [1; 0; 0] [[0; 0; 0]] [PI] / (2 * PI * (2 * PI) * (2 * PI)).
Proof.
  pose proof PI_RGT_0 as HP.
  assert (K0 : cell_k0 Rops (2 * PI) [2 * PI; 2 * PI; 2 * PI] = [1; 1; 1]).
  { unfold cell_k0. cbn [map]. change (ndiv Rops) with Rdiv. replace (2 * PI / (2 * PI)) with 1 by (field; lra). reflexivity. }
  assert (W : map (map (wave (cell_k0 Rops (2 * PI) [2 * PI; 2 * PI; 2 * PI]))) [[[1; 0; 0]%Z]] = [[[1; 0; 0]]]).
  { rewrite K0. unfold wave. cbn. repeat f_equal; ring. }
  destruct (set_kvectors_R (2 * PI) [2 * PI; 2 * PI; 2 * PI] [[[1; 0; 0]%Z]]) as [s [[L1 [L2 L3]] E]].
  { rewrite K0. intros k [<-|[<-|[<-|[]]]]; lra. }
  { rewrite K0. discriminate. }
  { rewrite K0. intros l n [<-|[]] [<-|[]]. reflexivity. }
  assert (s = 0%Z) as ->. { destruct L3 as [L3|[l [n [[<-|[]] [[<-|[]] H]]]]]; [exact L3|]. cbn in H. lia. }
  rewrite W in E. rewrite K0 in E. cbn [Z.abs Z.add map] in E. change (1 + 1)%Z with 2%Z in E.
  set (K := mkK (A:=Rops) [1; 1; 1] _ _ _) in E.
  assert (U : usable K).
  { split; cbn [K ks_offset ks_grid ks_vectors ks_k0].
    - lia.
    - reflexivity.
    - intros l [<-|[]]. discriminate.
    - intros l t [<-|[]] [<-|[]]. reflexivity.
    - intros l t z [<-|[]] [<-|[]] [<-|[<-|[<-|[]]]]; lia. }
  assert (KV : kvectors Rops K = [[[1; 0; 0]]]).
  { unfold kvectors, K. cbn [ks_vectors ks_k0 ks_offset map]. unfold kscale. cbn. repeat f_equal; ring. }
  exists K. eexists. split; [exact E|]. split; [exact KV|]. split.
  { rewrite (C80_value_partial K 1); [|exact U|reflexivity|lia|discriminate| |reflexivity|].
    - unfold K. cbn [ks_vectors map]. reflexivity.
    - intros f [<-|[]]. split; [discriminate|]. intros x [<-|[]]. reflexivity.
    - intros [|i] Hi; [reflexivity|cbn in Hi; lia]. }
  cbn [fst]. replace (origins 0 1 (length [[[0; 0; 0]]])) with [0%nat] by reflexivity.
  unfold rmean. cbn [flat_map map app length nth rsum INR ks_k0 ks_offset K].
  unfold filled_sq, rho_re, rho_im. cbn [map combine rsum fst snd].
  assert (Z0 : forall v, dot v [0; 0; 0] = 0).
  { intros v. destruct v as [|a [|b [|c v]]]; cbn; try ring. try (destruct v; cbn; ring). }
  rewrite !Z0, cos_0, sin_0. unfold norm. cbn [dot].
  replace (sqrt (1 * 1 + (0 * 0 + (0 * 0 + 0)))) with 1 by (rewrite <- sqrt_1 at 1; f_equal; ring).
  change (unshift 1 [2; 1; 1]%Z) with [1; 0; 0]%Z.
  change (Z.pos (1 + 1)) with 2%Z. replace (2 * 2 + (1 * 1 + (1 * 1 + 0))) with 6 by ring.
  set (q := sqrt 6). assert (Q : q * q = 6) by (apply sqrt_sqrt; lra).
  assert (Qp : 0 < q) by (apply sqrt_lt_R0; lra).
  assert (T1 : sphere_transform 1 PI = 4 * PI * PI).
  { unfold sphere_transform. rewrite Rmult_1_l, sin_PI, cos_PI. field. }
  rewrite T1. set (m := sphere_transform q PI).
  assert (B : - (4 * PI * PI) < m < 4 * PI * PI).
  { unfold m, sphere_transform. replace (q * q * q) with (6 * q) by (rewrite Q; ring).
    pose proof (SIN_bound (q * PI)) as S1. pose proof (COS_bound (q * PI)) as S2.
    assert (QP : 0 < q * PI) by (apply Rmult_lt_0_compat; assumption).
    assert (Q2 : 2 < q). { apply Rnot_le_lt. intros H. assert (q * q <= 2 * 2) by (apply Rmult_le_compat; lra). lra. }
    assert (B1 : -1 - q * PI <= sin (q * PI) - q * PI * cos (q * PI) <= 1 + q * PI) by nra.
    set (z := sin (q * PI) - q * PI * cos (q * PI)) in *.
    assert (B2 : - (6 * q * PI) < z < 6 * q * PI).
    { assert (1 < 5 * q * PI) by (pose proof PI2_1; nra). nra. }
    replace (4 * PI * z / (6 * q)) with (4 * PI * (z / (6 * q))) by (field; lra).
    assert (B3 : - PI < z / (6 * q) < PI).
    { split; apply Rmult_lt_reg_r with (6 * q); try lra; unfold Rdiv; rewrite Rmult_assoc, Rinv_l by lra; nra. }
    split; [replace (- (4 * PI * PI)) with (4 * PI * - PI) by ring|]; apply Rmult_lt_compat_l; lra. }
  assert (V : 0 < 2 * PI * (2 * PI) * (2 * PI)) by (apply Rmult_lt_0_compat; [apply Rmult_lt_0_compat|]; lra).
  assert (M : m * m < 4 * PI * PI * (4 * PI * PI)) by nra.
  unfold Rdiv. rewrite !Rplus_0_r, !Rmult_1_r, !Rmult_0_r, !Rplus_0_r, !Rinv_1, !Rmult_1_r. rewrite ?Rmult_0_r, ?Rplus_0_r.
  apply Rmult_lt_compat_r; [apply Rinv_0_lt_compat; exact V|exact M].
Qed.
Print Assumptions C80_wave_number_refuted.

(** ** C81 *)
(** S4ktOverlap fails for every trajectory, every kgrid and every non-empty grid of times. *)
Theorem C81_always_fails_refuted : forall (A : arith) (tr : traj A) tgrid kgrid n, tgrid <> [] ->
  exists e, s4kt_compute A tr tgrid kgrid n = Err e.
Proof.
  intros A tr tgrid kgrid n Ht. unfold s4kt_compute.
  destruct (adjust_skip A (length (t_steps tr)) (t_npart tr) (t_bs tr) n) as [sk|e]; [|eexists; reflexivity]. cbn [bind].
  destruct (setup_t_grid A (t_steps tr) (t_bs tr) (t_dt tr) tgrid (not_str_1 A n)) as [dg|e] eqn:E; [|eexists; reflexivity]. cbn [bind].
  destruct (setup_t_grid_correct _ _ _ _ _ _ _ E) as [reqs [Er [_ [_ [H _]]]]].
  destruct dg; [exfalso|eexists; reflexivity]. destruct tgrid as [|t tg]; [congruence|]. cbn [mapM] in Er.
  apply bind_Ok_inv in Er. destruct Er as [z [_ Er]]. apply bind_Ok_inv in Er. destruct Er as [zs [_ Er]].
  apply Ok_inj in Er. subst reqs. destruct (H z (or_introl eq_refl)) as [p [[] _]].
Qed.
Print Assumptions C81_always_fails_refuted.

(** Over the reals, with frames and a positive timestep, the failure is the undefined
    attribute. *)
Theorem C81_attribute_refuted : forall (tr : traj Rops) tgrid kgrid skip n, tgrid <> [] -> t_steps tr <> [] -> (1 <= t_bs tr)%nat ->
  t_dt tr <> 0 -> adjust_skip Rops (length (t_steps tr)) (t_npart tr) (t_bs tr) n = Ok skip ->
  s4kt_compute Rops tr tgrid kgrid n = Err AttributeError.
Proof.
  intros tr tgrid kgrid skip n Ht Hs Hb Hd Es.
  assert (R : exists reqs, mapM (to_step Rops (t_dt tr)) tgrid = Ok reqs).
  { clear - Hd. induction tgrid as [|t tg [r IH]]; [exists []; reflexivity|].
    destruct (to_step_R (t_dt tr) t Hd) as [z [E _]]. exists (z :: r). cbn [mapM]. rewrite E. cbn [bind]. rewrite IH. reflexivity. }
  destruct R as [reqs Er].
  destruct (setup_t_grid_total (t_steps tr) Rops (t_dt tr) (t_bs tr) tgrid (not_str_1 Rops n) reqs Hs Hb Er) as [g Eg].
  destruct (C81_always_fails_refuted Rops tr tgrid kgrid n Ht) as [e Ee].
  unfold s4kt_compute in *. rewrite Es, Eg in *. cbn [bind] in *. destruct g; [discriminate|]. congruence.
Qed.
Print Assumptions C81_attribute_refuted.

(** With no times at all it returns empty arrays. *)
Theorem C81_empty_partial : forall (A : arith) (tr : traj A) kgrid n skip, t_steps tr <> [] -> (1 <= t_bs tr)%nat ->
  adjust_skip A (length (t_steps tr)) (t_npart tr) (t_bs tr) n = Ok skip ->
  s4kt_compute A tr [] kgrid n = Ok ([], kgrid, []).
Proof.
  intros A tr kgrid n skip Hs Hb Es. unfold s4kt_compute. rewrite Es. cbn [bind].
  destruct (setup_t_grid_total (t_steps tr) A (t_dt tr) (t_bs tr) [] (not_str_1 A n) [] Hs Hb eq_refl) as [g Eg].
  rewrite Eg. cbn [bind]. destruct (setup_t_grid_correct _ _ _ _ _ _ _ Eg) as [reqs [Er [_ [_ [_ H]]]]].
  destruct g as [|p g]; [reflexivity|]. destruct (H p (or_introl eq_refl)) as [r [Hr _]]. cbn in Er. apply Ok_inj in Er. subst reqs. destruct Hr.
Qed.
Print Assumptions C81_empty_partial.

Example C81_nonvacuous : s4kt_compute F64ops (mkTraj (A:=F64ops) [0; 10; 20]%Z 1 (f64_ofZ 1) (f64_ofZ 20) 5)
  [f64_ofZ 10] [f64_ofZ 1] (NoInt (-1)) = Err AttributeError.
Proof. vm_compute. reflexivity. Qed.

(** Two spheres in a cubic cell, one vector. *)
Example C80_nonvacuous :
  let K := mkK (A:=Rops) [1; 1; 1] [[[2; 1; 1]%Z]] 1 [1] in
  usable K /\ length (ks_k0 K) = 3%nat /\ group_ok 3 [[[0; 0; 0]; [1; 2; 3]]].
Proof.
  cbv zeta. split; [|split; [reflexivity|]].
  - split; cbn [ks_offset ks_grid ks_vectors ks_k0].
    + lia.
    + reflexivity.
    + intros l [<-|[]]. discriminate.
    + intros l t [<-|[]] [<-|[]]. reflexivity.
    + intros l t z [<-|[]] [<-|[]] [<-|[<-|[<-|[]]]]; lia.
  - intros f [<-|[]]. split; [discriminate|]. intros x [<-|[<-|[]]]; reflexivity.
Qed.
