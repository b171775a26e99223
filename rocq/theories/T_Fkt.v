(** Theorems on the intermediate scattering functions: C46-C48. *)
From Coq Require Import List ZArith Bool Arith Reals Lra Lia Sorting.Sorted.
From Verif Require Import PyBase PyBaseFacts Num NumFacts M_Helpers M_KGrid M_Fourier M_Fkt Spec_Stats
  Spec_BondAngle P_BondAngle Spec_KGrid P_KGrid P_KGrid2 P_KGrid4 P_Expo Spec_Fourier Spec_Correlation Spec_Fkt
  P_Sk P_Sk2 P_Sk3 P_Tcf P_Fkt P_Fkt2 P_Fkt3 P_Dynamics T_Fourier.
Import ListNotations.
Local Open Scope R_scope.

(** ** C46 *)
(** The values of F_s(k,t): per shell and time difference, the mean over vectors
    and admitted pairs of frames of the mean over particles of
    cos(k.(r(later) - r(earlier))). *)
Definition self_values (pos : list (list (list R))) (steps : list Z) (ps : list (nat * nat))
  (shells : list (list (list R))) (dts : list Z) : list (list R) :=
  map (fun vs => map (pair_mean (fun v a b => fs_pair v (nth a pos []) (nth b pos [])) steps ps vs) dts) shells.

(** Whatever the size of the blocks, and for both kernels. *)
Theorem C46_value : forall K steps dgrid skip pos N,
  usable K -> ks_vectors K <> [] -> (1 <= skip)%nat -> length steps = length pos ->
  same_particles (length (ks_k0 K)) pos N ->
  exists dts, reported steps (admitted dgrid skip (length pos)) dts /\
    (forall block, (1 <= block N)%nat ->
       self_compute self_sum block K steps dgrid skip false pos =
       Ok (dts, self_values pos steps (admitted dgrid skip (length pos)) (kvectors Rops K) dts)) /\
    fskt_legacy K steps dgrid skip false pos =
       Ok (dts, self_values pos steps (admitted dgrid skip (length pos)) (kvectors Rops K) dts) /\
    (forall nb, fskt_fast nb K steps dgrid skip false pos =
       Ok (dts, self_values pos steps (admitted dgrid skip (length pos)) (kvectors Rops K) dts)).
Proof.
  intros K steps dgrid skip pos N U Hv Hs Ls SP.
  assert (Uniq : forall d1 d2, reported steps (admitted dgrid skip (length pos)) d1 ->
            reported steps (admitted dgrid skip (length pos)) d2 -> d1 = d2).
  { intros d1 d2 [S1 H1] [S2 H2]. apply sorted_lt_irr_ext; try assumption. intros d. rewrite H1, H2. reflexivity. }
  destruct (self_values_ok self_sum (fun _ => 1%nat) K steps dgrid skip pos N self_sum_ok U Hv Hs Ls SP (le_n 1)) as [dts [Rd _]].
  assert (G : forall sum block, kernel_ok sum -> (1 <= block N)%nat ->
     self_compute sum block K steps dgrid skip false pos =
       Ok (dts, self_values pos steps (admitted dgrid skip (length pos)) (kvectors Rops K) dts)).
  { intros sum block Hsum Hb. destruct (self_values_ok sum block K steps dgrid skip pos N Hsum U Hv Hs Ls SP Hb) as [d2 [R2 E2]].
    rewrite (Uniq _ _ Rd R2). unfold self_compute.
    destruct (self_loop sum block K steps dgrid skip pos) as [sts|e]; cbn [bind] in *; [|discriminate].
    rewrite E2. reflexivity. }
  exists dts. split; [exact Rd|]. split; [intros; apply G; [apply self_sum_ok|assumption]|]. split.
  - apply G; [apply self_sum_ok|]. unfold legacy_block. lia.
  - intros nb. apply G; [apply self_sum_fast_ok|]. unfold fast_block. destruct SP as [HN _]. lia.
Qed.
Print Assumptions C46_value.

Corollary C46_fast_is_legacy : forall nb K steps dgrid skip pos N normalize,
  usable K -> ks_vectors K <> [] -> (1 <= skip)%nat -> length steps = length pos ->
  same_particles (length (ks_k0 K)) pos N ->
  fskt_fast nb K steps dgrid skip normalize pos = fskt_legacy K steps dgrid skip normalize pos.
Proof.
  intros nb K steps dgrid skip pos N normalize U Hv Hs Ls SP.
  destruct (C46_value K steps dgrid skip pos N U Hv Hs Ls SP) as [dts [_ [_ [El Ef]]]]. specialize (Ef nb).
  destruct normalize; [|congruence].
  unfold fskt_fast, fskt_legacy, self_compute in *.
  destruct (self_loop self_sum legacy_block K steps dgrid skip pos) as [s1|]; cbn [bind] in *; [|discriminate].
  destruct (self_loop self_sum_fast (fast_block nb) K steps dgrid skip pos) as [s2|]; cbn [bind] in *; [|discriminate].
  destruct (tcf_values s1) as [t1|]; cbn [bind] in *; [|discriminate]. destruct (tcf_values s2) as [t2|]; cbn [bind] in *; [|discriminate].
  apply Ok_inj in El. apply Ok_inj in Ef. rewrite El, Ef. reflexivity.
Qed.
Print Assumptions C46_fast_is_legacy.

Lemma fs_pair_bounds : forall v a b, combine a b <> [] -> -1 <= fs_pair v a b <= 1.
Proof.
  intros v a b H. unfold fs_pair. split; [apply rmean_ge|apply rmean_le]; try (apply map_nonnil; assumption);
    intros x Hx; apply in_map_iff in Hx; destruct Hx as [p [<- _]]; apply COS_bound.
Qed.

Lemma pair_mean_bounds : forall s steps ps vs d lo hi, vs <> [] -> (exists p, In p ps /\ pair_dt steps p = d) ->
  (forall v p, In v vs -> In p ps -> pair_dt steps p = d -> lo <= s v (fst p) (snd p) <= hi) ->
  lo <= pair_mean s steps ps vs d <= hi.
Proof.
  intros s steps ps vs d lo hi Hv [p [Hp Hd]] H. unfold pair_mean.
  assert (Hin : In p (pairs_at steps d ps)) by (apply filter_In; split; [assumption|apply Z.eqb_eq; assumption]).
  assert (Hne : flat_map (fun v => map (fun p => s v (fst p) (snd p)) (pairs_at steps d ps)) vs <> []).
  { destruct vs as [|v vs]; [congruence|]. cbn [flat_map]. destruct (pairs_at steps d ps); [destruct Hin|]. discriminate. }
  assert (Hall : forall x, In x (flat_map (fun v => map (fun p => s v (fst p) (snd p)) (pairs_at steps d ps)) vs) -> lo <= x <= hi).
  { intros x Hx. apply in_flat_map in Hx. destruct Hx as [v [Hvv Hx]]. apply in_map_iff in Hx. destruct Hx as [q [<- Hq]].
    apply filter_In in Hq. destruct Hq as [Hq Hqd]. apply Z.eqb_eq in Hqd. auto. }
  split; [apply rmean_ge|apply rmean_le]; try assumption; intros x Hx; apply Hall; assumption.
Qed.

(** All values lie between -1 and 1, and the value at time difference 0 is 1 when
    the steps increase. *)
Theorem C46_bounds : forall nb K steps dgrid skip pos N dts vals,
  usable K -> ks_vectors K <> [] -> (1 <= skip)%nat -> length steps = length pos ->
  same_particles (length (ks_k0 K)) pos N ->
  fskt_legacy K steps dgrid skip false pos = Ok (dts, vals) \/ fskt_fast nb K steps dgrid skip false pos = Ok (dts, vals) ->
  (forall row x, In row vals -> In x row -> -1 <= x <= 1) /\
  (StronglySorted Z.lt steps -> forall row i, In row vals -> nth_error dts i = Some 0%Z -> nth_error row i = Some 1).
Proof.
  intros nb K steps dgrid skip pos N dts vals U Hv Hs Ls SP E.
  destruct (C46_value K steps dgrid skip pos N U Hv Hs Ls SP) as [d2 [[_ Rd] [_ [El Ef]]]]. specialize (Ef nb).
  assert (X : (dts, vals) = (d2, self_values pos steps (admitted dgrid skip (length pos)) (kvectors Rops K) d2)).
  { destruct E as [E|E]; [rewrite El in E|rewrite Ef in E]; apply Ok_inj in E; congruence. }
  injection X as -> ->. destruct SP as [HN [Hp Hf]].
  assert (Hvs : forall vs, In vs (kvectors Rops K) -> vs <> []).
  { intros vs Hvs. rewrite kvectors_wave in Hvs. apply in_map_iff in Hvs. destruct Hvs as [kl [<- Hkl]].
    pose proof (us_nonempty K U kl Hkl). destruct kl; [congruence|discriminate]. }
  assert (Hc : forall i, (i < length pos)%nat -> length (nth i pos []) = N) by (intros; apply Hf; apply nth_In; assumption).
  split.
  - intros row x Hrow Hx. unfold self_values in Hrow. apply in_map_iff in Hrow. destruct Hrow as [vs [<- Hvv]].
    apply in_map_iff in Hx. destruct Hx as [d [<- Hd]]. apply pair_mean_bounds; [apply Hvs; assumption|apply Rd; assumption|].
    intros v p _ Hin _. apply admitted_lt in Hin. apply fs_pair_bounds. intros C.
    apply (f_equal (@length _)) in C. rewrite combine_length, !Hc in C by apply Hin. cbn in C. lia.
  - intros St row i Hrow Hi. unfold self_values in Hrow. apply in_map_iff in Hrow. destruct Hrow as [vs [<- Hvv]].
    rewrite nth_error_map, Hi. cbn [option_map]. f_equal.
    assert (B : 1 <= pair_mean (fun v a b => fs_pair v (nth a pos []) (nth b pos [])) steps (admitted dgrid skip (length pos)) vs 0 <= 1).
    { apply pair_mean_bounds; [apply Hvs; assumption|apply Rd; eapply nth_error_In; eassumption|].
      intros v p _ Hin Hz.
      assert (fst p = snd p).
      { apply (pair_dt_zero steps); try assumption. destruct (admitted_lt _ _ _ _ Hin).
        unfold admitted in Hin. apply in_flat_map in Hin. destruct Hin as [q [_ Hin]]. apply in_map_iff in Hin. destruct Hin as [k [<- _]].
        cbn in *. lia. }
      apply admitted_lt in Hin.
      assert (fs_pair v (nth (fst p) pos []) (nth (snd p) pos []) = 1); [|lra].
      rewrite H. unfold fs_pair. apply rmean_const.
      - apply map_nonnil. intros C. apply (f_equal (@length _)) in C. rewrite combine_length, !Hc in C by apply Hin. cbn in C. lia.
      - intros x Hx. apply in_map_iff in Hx. destruct Hx as [[a b] [<- Hab]].
        assert (a = b). { clear - Hab. induction (nth (snd p) pos []) as [|y l IH]; [destruct Hab|]. destruct Hab as [Hab|Hab]; [congruence|auto]. }
        subst. cbn. rewrite Rminus_diag_eq by reflexivity. apply cos_0. }
    lra.
Qed.
Print Assumptions C46_bounds.

(** With normalize=True the time grid includes t = 0, and normalisation, which
    divides in place, changes nothing. *)
Theorem C46_normalized : forall nb K steps bs dt total tsamples user single dgrid skip pos N,
  usable K -> ks_vectors K <> [] -> (1 <= skip)%nat -> length steps = length pos ->
  same_particles (length (ks_k0 K)) pos N -> StronglySorted Z.lt steps -> (1 <= bs)%nat -> 0 < dt ->
  scatter_grid steps bs dt total tsamples user true single = Ok dgrid ->
  fskt_legacy K steps dgrid skip true pos = fskt_legacy K steps dgrid skip false pos /\
  fskt_fast nb K steps dgrid skip true pos = fskt_fast nb K steps dgrid skip false pos /\
  exists dts vals, fskt_legacy K steps dgrid skip true pos = Ok (0%Z :: dts, vals) /\
    forall row, In row vals -> nth_error row 0 = Some 1.
Proof.
  intros nb K steps bs dt total tsamples user single dgrid skip pos N U Hv Hs Ls SP St Hb Hdt Eg.
  assert (Hne : steps <> []). { destruct SP as [_ [Hp _]]. destruct steps; [destruct pos; [congruence|discriminate]|discriminate]. }
  destruct (scatter_grid_zero _ _ _ _ _ _ _ _ St Hne Hb Hdt Eg) as [r [-> Hr]].
  destruct (C46_value K steps ((0, 0)%nat :: r) skip pos N U Hv Hs Ls SP) as [dts [Rd [_ [El Ef]]]]. specialize (Ef nb).
  rewrite <- Ls in Rd. destruct (reported_head _ _ _ _ St Hne Hs Rd) as [ds ->]. 
  destruct (C46_bounds nb K steps ((0, 0)%nat :: r) skip pos N _ _ U Hv Hs Ls SP (or_introl El)) as [_ B].
  specialize (B St).
  assert (El' : fskt_legacy K steps ((0%nat, 0%nat) :: r) skip true pos = fskt_legacy K steps ((0%nat, 0%nat) :: r) skip false pos).
  { revert El B. unfold fskt_legacy, self_compute.
    destruct (self_loop self_sum legacy_block K steps ((0%nat, 0%nat) :: r) skip pos) as [s1|]; cbn [bind]; [|reflexivity].
    destruct (tcf_values s1) as [[t1 vals]|]; cbn [bind fst snd]; [|reflexivity].
    intros E B. apply Ok_inj in E. pose proof (f_equal snd E) as Ev. cbn [snd] in Ev. rewrite <- Ev in B. clear Ev E.
    rewrite (mapM_pure _ _ _ (fun row => row)); [cbn [bind]; rewrite map_id; reflexivity|].
    intros row Hrow. specialize (B row 0%nat Hrow eq_refl). destruct row as [|x row]; [discriminate|].
    cbn in B. injection B as ->. apply normalize_inplace_cons. lra. }
  split; [exact El'|]. split.
  - rewrite !(C46_fast_is_legacy nb K steps _ skip pos N) by assumption. exact El'.
  - exists ds. eexists. rewrite El'. split; [exact El|]. intros row Hrow. apply (B row 0%nat Hrow eq_refl).
Qed.
Print Assumptions C46_normalized.

Definition pos46 : list (list (list R)) := [[[0; 0; 0]; [1; 2; 3]]; [[5; 0; 1]; [1; 1; 1]]; [[1; 1; 1]; [0; 0; 7]]].
Lemma pos46_ok : same_particles 3 pos46 2.
Proof.
  split; [lia|]. split; [discriminate|].
  intros f [<-|[<-|[<-|[]]]]; (split; [reflexivity|]); intros x [<-|[<-|[]]]; reflexivity.
Qed.
Example C46_nonvacuous : usable K43 /\ same_particles (length (ks_k0 K43)) pos46 2 /\
  exists dgrid, scatter_grid [0; 10; 20]%Z 1 (/ 2) 10 5 (Some [5]) true false = Ok dgrid /\
  exists vals, fskt_legacy K43 [0; 10; 20]%Z dgrid 1 true pos46 = Ok ([0; 10]%Z, vals).
Proof.
  split; [exact K43_usable|]. split; [exact pos46_ok|].
  assert (Eg : scatter_grid [0; 10; 20]%Z 1 (/ 2) 10 5 (Some [5]) true false = Ok [(0, 0); (0, 1)]%nat).
  { unfold scatter_grid, scatter_times. cbn [get nth_error bind].
    destruct (Rlt_dec 0 5) as [_|C]; [|exfalso; lra]. cbn [bind negb].
    unfold setup_t_grid.
    replace (off_samp [0; 10; 20]%Z (seq 0 1)) with (Ok [(0%Z, (0, 0)%nat); (10%Z, (0, 1)%nat); (20%Z, (0, 2)%nat)]) by reflexivity.
    cbn [bind mapM].
    assert (T : forall t z, t / / 2 = IZR z -> to_step Rops (/ 2) t = Ok z).
    { intros t z E. unfold to_step, pydiv. cbn. unfold Reqb. destruct (Req_EM_T (/ 2) 0); [lra|]. cbn [bind].
      rewrite E. rewrite (Rrint_unique (IZR z) z); [reflexivity|]. rewrite Rminus_diag_eq, Rabs_R0 by reflexivity. lra. }
    rewrite (T 0 0%Z) by field. rewrite (T 5 10%Z) by field. reflexivity. }
  eexists. split; [exact Eg|].
  destruct (C46_normalized 1 K43 [0; 10; 20]%Z 1 (/ 2) 10 5 (Some [5]) false [(0, 0); (0, 1)]%nat 1 pos46 2) as [E [_ _]];
    [exact K43_usable|discriminate|lia|reflexivity|exact pos46_ok|repeat constructor; lia|lia|lra|exact Eg|].
  destruct (C46_value K43 [0; 10; 20]%Z [(0, 0); (0, 1)]%nat 1 pos46 2) as [dts [Rd [_ [El _]]]];
    [exact K43_usable|discriminate|lia|reflexivity|exact pos46_ok|].
  assert (dts = [0; 10]%Z) as ->.
  { destruct Rd as [Sd Hd]. apply sorted_lt_irr_ext; [assumption|repeat constructor; lia|]. intros d. rewrite Hd.
    change (admitted [(0, 0); (0, 1)]%nat 1 (length pos46)) with [(0, 0); (1, 1); (2, 2); (1, 0); (2, 1)]%nat. split.
    - intros [p [Hp <-]]. cbn in Hp. destruct Hp as [<-|[<-|[<-|[<-|[<-|[]]]]]]; cbn; auto.
    - intros [<-|[<-|[]]]; [exists (0, 0)%nat|exists (1, 0)%nat]; (split; [cbn; tauto|reflexivity]). }
  eexists. rewrite E. exact El.
Qed.

(** ** C47 *)
(** The unnormalised values of F(k,t): per shell and time difference, the mean over
    vectors and admitted pairs of Re rho_0(k, later) rho_1(k, earlier)^*. *)
Definition collective_values (pos0 pos1 : list (list (list R))) (steps : list Z) (ps : list (nat * nat))
  (shells : list (list (list R))) (dts : list Z) : list (list R) :=
  map (fun vs => map (pair_mean (fun v a b => density_cross v (nth a pos0 []) (nth b pos1 [])) steps ps vs) dts) shells.

(** [same] is the case of a single group; otherwise [pos1] is the second group. *)
Definition second (same : bool) (pos1 : list (list (list R))) := if same then None else Some pos1.

Theorem C47_value_partial : forall K steps dgrid skip pos0 pos1 same,
  usable K -> ks_vectors K <> [] -> (length (ks_k0 K) = 2 \/ length (ks_k0 K) = 3)%nat -> (1 <= skip)%nat ->
  length steps = length pos0 -> length pos1 = length pos0 ->
  group_ok (length (ks_k0 K)) pos0 -> group_ok (length (ks_k0 K)) pos1 -> (same = true -> pos1 = pos0) ->
  exists dts, reported steps (admitted dgrid skip (length pos0)) dts /\
    let un := collective_values pos0 pos1 steps (admitted dgrid skip (length pos0)) (kvectors Rops K) dts in
    fkt_compute K steps dgrid skip false pos0 (second same pos1) = Ok (dts, un, un).
Proof.
  intros K steps dgrid skip pos0 pos1 same U Hv Hnd Hs Ls L1 G0 G1 Hsame.
  destruct (fkt_values_ok K steps dgrid skip pos0 pos1 same U Hv Hnd Hs Ls L1 G0 G1 Hsame) as [dts [Rd E]].
  exists dts. split; [exact Rd|]. exact (E false).
Qed.
Print Assumptions C47_value_partial.

(** With normalize=True the grid includes t = 0; the unnormalised function is kept;
    every value is divided by the value at t = 0, so that the function starts from
    1 wherever that value is not zero. *)
Theorem C47_normalized_partial : forall K steps bs dt total tsamples user single dgrid skip pos0 pos1 same,
  usable K -> ks_vectors K <> [] -> (length (ks_k0 K) = 2 \/ length (ks_k0 K) = 3)%nat -> (1 <= skip)%nat ->
  length steps = length pos0 -> length pos1 = length pos0 ->
  group_ok (length (ks_k0 K)) pos0 -> group_ok (length (ks_k0 K)) pos1 -> (same = true -> pos1 = pos0) ->
  StronglySorted Z.lt steps -> steps <> [] -> (1 <= bs)%nat -> 0 < dt ->
  scatter_grid steps bs dt total tsamples user true single = Ok dgrid ->
  exists dts v un, fkt_compute K steps dgrid skip true pos0 (second same pos1) = Ok (0%Z :: dts, v, un) /\
    fkt_compute K steps dgrid skip false pos0 (second same pos1) = Ok (0%Z :: dts, un, un) /\
    length v = length un /\
    forall k row u, nth_error v k = Some row -> nth_error un k = Some u ->
      exists u0, nth_error u 0 = Some u0 /\ row = map (fun x => x / u0) u /\ (u0 <> 0 -> nth_error row 0 = Some 1).
Proof.
  intros K steps bs dt total tsamples user single dgrid skip pos0 pos1 same U Hv Hnd Hs Ls L1 G0 G1 Hsame St Hne Hb Hdt Eg.
  destruct (scatter_grid_zero _ _ _ _ _ _ _ _ St Hne Hb Hdt Eg) as [r [-> Hr]].
  destruct (fkt_values_ok K steps ((0, 0)%nat :: r) skip pos0 pos1 same U Hv Hnd Hs Ls L1 G0 G1 Hsame) as [dts [Rd E]].
  rewrite <- Ls in Rd. destruct (reported_head _ _ _ _ St Hne Hs Rd) as [ds ->]. rewrite Ls in Rd.
  pose proof (E false) as Ef. specialize (E true). cbv zeta in E, Ef. cbn [bind] in Ef.
  change (if same then None else Some pos1) with (second same pos1) in *.
  match type of Ef with _ = Ok (_, ?u, _) => set (un := u) in * end.
  rewrite (mapM_pure _ _ _ (fun row => map (fun x => x / nth 0 row 0) row)) in E.
  - cbn [bind] in E. exists ds. eexists. exists un. split; [exact E|]. split; [exact Ef|]. split; [apply map_length|].
    intros k row u Hrow Hu. rewrite nth_error_map, Hu in Hrow. cbn in Hrow. injection Hrow as <-.
    apply nth_error_In in Hu. unfold un in Hu. apply in_map_iff in Hu. destruct Hu as [vs [<- _]]. cbn [map nth].
    eexists. split; [reflexivity|]. split; [reflexivity|]. intros Hz. cbn. f_equal. field. exact Hz.
  - intros row Hrow. unfold un in Hrow. apply in_map_iff in Hrow. destruct Hrow as [vs [<- _]].
    apply normalize_first_ok. discriminate.
Qed.
Print Assumptions C47_normalized_partial.

Lemma rmean_swap : forall X Y (f : X -> Y -> R) l m,
  rmean (flat_map (fun x => map (fun y => f x y) m) l) = rmean (flat_map (fun y => map (fun x => f x y) l) m).
Proof.
  intros X Y f l m. unfold rmean.
  rewrite (flat_map_length_const _ _ _ (length m)) by (intros; apply map_length).
  rewrite (flat_map_length_const _ _ _ (length l)) by (intros; apply map_length).
  rewrite (Nat.mul_comm (length m)). f_equal.
  rewrite <- (map_id (flat_map (fun x => map (fun y => f x y) m) l)), <- (map_id (flat_map (fun y => map (fun x => f x y) l) m)).
  rewrite !rsum_flat_map. rewrite (rsum_ext _ _ (fun x => rsum (map (fun y => f x y) m))) by (intros; rewrite map_id; reflexivity).
  rewrite rsum_swap. apply rsum_ext. intros y _. rewrite map_id. reflexivity.
Qed.

(** The unnormalised value at t = 0 is the structure factor of the same frames and
    wave-vectors times the mean number of particles (geometric mean of the two
    groups). *)
Theorem C47_start_partial : forall K steps bs dt total tsamples user single dgrid skip pos0 pos1 same,
  usable K -> ks_vectors K <> [] -> (length (ks_k0 K) = 2 \/ length (ks_k0 K) = 3)%nat -> (1 <= skip)%nat ->
  length steps = length pos0 -> length pos1 = length pos0 ->
  group_ok (length (ks_k0 K)) pos0 -> group_ok (length (ks_k0 K)) pos1 -> (same = true -> pos1 = pos0) ->
  StronglySorted Z.lt steps -> steps <> [] -> (1 <= bs)%nat -> 0 < dt ->
  scatter_grid steps bs dt total tsamples user true single = Ok dgrid ->
  exists dts v un S, fkt_compute K steps dgrid skip true pos0 (second same pos1) = Ok (0%Z :: dts, v, un) /\
    structure_factor same false (fun _ => K) skip (pair_frames pos0 pos1) = Ok S /\
    length S = length un /\
    forall k s u, nth_error S k = Some s -> nth_error un k = Some u ->
      nth_error u 0 = Some (sqrt (mean_N pos0 * mean_N pos1) * fst s).
Proof.
  intros K steps bs dt total tsamples user single dgrid skip pos0 pos1 same U Hv Hnd Hs Ls L1 G0 G1 Hsame St Hne Hb Hdt Eg.
  destruct (C47_normalized_partial K steps bs dt total tsamples user single dgrid skip pos0 pos1 same U Hv Hnd Hs Ls L1 G0 G1 Hsame St Hne Hb Hdt Eg)
    as [ds [v [un [E [Ef _]]]]].
  destruct (scatter_grid_zero _ _ _ _ _ _ _ _ St Hne Hb Hdt Eg) as [r [-> Hr]].
  destruct (C47_value_partial K steps ((0, 0)%nat :: r) skip pos0 pos1 same U Hv Hnd Hs Ls L1 G0 G1 Hsame) as [d2 [_ E2]].
  cbv zeta in E2. rewrite Ef in E2. apply Ok_inj in E2.
  assert (Ed : 0%Z :: ds = d2) by exact (f_equal (fun q => fst (fst q)) E2).
  assert (Eu : un = collective_values pos0 pos1 steps (admitted ((0, 0)%nat :: r) skip (length pos0)) (kvectors Rops K) d2)
    by exact (f_equal snd E2).
  clear E2. subst d2.
  assert (Hp0 : pos0 <> []) by (intros ->; destruct steps; [congruence|discriminate]).
  exists ds, v, un. eexists. split; [exact E|]. split.
  { apply pairs_value; auto. }
  assert (M : forall a, a <> [] -> group_ok (length (ks_k0 K)) a -> 0 < mean_N a).
  { intros a Ha Ga. eapply mean_N_pos; eassumption. }
  assert (Hp1 : pos1 <> []) by (intros ->; destruct pos0; [congruence|discriminate]).
  rewrite Eu. unfold collective_values. split; [rewrite !map_length; reflexivity|].
  intros k s u Hk Hu. apply nth_error_map_inv in Hk. destruct Hk as [vs [Hvs ->]].
  apply nth_error_map_inv in Hu. destruct Hu as [vs' [Hvs' ->]]. assert (vs' = vs) by congruence. subst vs'.
  cbn [map nth_error fst]. f_equal.
  replace (pair_mean (fun v0 a b => density_cross v0 (nth a pos0 []) (nth b pos1 [])) steps (admitted ((0%nat, 0%nat) :: r) skip (length pos0)) vs 0)
    with (shell_mean (fun v i => density_cross v (nth i pos0 []) (nth i pos1 [])) skip (length pos0) vs).
  - assert (0 < sqrt (mean_N pos0 * mean_N pos1)).
    { apply sqrt_lt_R0. apply Rmult_lt_0_compat; apply M; assumption. }
    field. lra.
  - unfold pair_mean, shell_mean. rewrite pairs_at_zero by assumption. rewrite rmean_swap. f_equal.
    apply flat_map_ext. intros w. rewrite map_map. reflexivity.
Qed.
Print Assumptions C47_start_partial.

Example C47_nonvacuous : usable K43 /\ group_ok (length (ks_k0 K43)) a43 /\
  exists dts v un, fkt_compute K43 [0; 10]%Z [(0, 0); (0, 1)]%nat 1 true a43 (second true a43) = Ok (dts, v, un) /\ length un = 1%nat.
Proof.
  split; [exact K43_usable|]. split; [exact a43_ok|].
  destruct (fkt_values_ok K43 [0; 10]%Z [(0, 0); (0, 1)]%nat 1 a43 a43 true) as [dts [[Sd Hd] E]];
    [exact K43_usable|discriminate|right; reflexivity|lia|reflexivity|reflexivity|exact a43_ok|exact a43_ok|reflexivity|].
  specialize (E true). cbv zeta in E.
  assert (Hne : dts <> []).
  { intros ->. destruct (proj2 (Hd 0%Z)). exists (0, 0)%nat. split; [left; reflexivity|reflexivity]. }
  rewrite (mapM_pure _ _ _ (fun row => map (fun x => x / nth 0 row 0) row)) in E.
  - eexists _, _, _. split; [exact E|]. reflexivity.
  - intros row Hrow. apply in_map_iff in Hrow. destruct Hrow as [vs [<- _]]. apply normalize_first_ok.
    destruct dts; [congruence|discriminate].
Qed.

(** In one dimension (with wave-vectors given by the user) only the real part of the
    density is kept: one particle at a quarter of the cell and k = 2 pi / L have
    N S(k) = 1, but F(k,0) = 0. *)
Theorem C47_one_dimension_refuted : exists K,
  set_kvectors Rops (2 * PI) [1] [[wave (cell_k0 Rops (2 * PI) [1]) [1%Z]]] = Ok K /\
  structure_factor true false (fun _ => K) 1 (pair_frames [[[/ 4]]] [[[/ 4]]]) = Ok [(1, 1)] /\
  fkt_compute K [0]%Z [(0, 0)]%nat 1 false [[[/ 4]]] None = Ok ([0%Z], [[0]], [[0]]).
Proof.
  assert (PP : 0 < 2 * PI / 1) by (pose proof PI_RGT_0; lra).
  assert (Pk : forall k, In k (cell_k0 Rops (2 * PI) [1]) -> 0 < k) by (cbn; intros k [<-|[]]; exact PP).
  destruct (set_kvectors_R (2 * PI) [1] [[[1%Z]]] Pk) as [s [[S0 [S1 S2]] E]].
  { discriminate. }
  { intros l n [<-|[]] [<-|[]]. reflexivity. }
  assert (s = 0%Z).
  { destruct S2 as [->|[l [m [[<-|[]] [[<-|[]] [Hm|[]]]]]]]; lia. }
  subst s. cbn [Z.abs Z.add] in E.
  match type of E with _ = Ok ?q => set (K := q) in * end. exists K. split; [exact E|].
  assert (U : usable K).
  { split; cbn.
    - lia.
    - reflexivity.
    - intros l [<-|[]]. discriminate.
    - intros l t [<-|[]] [<-|[]]. reflexivity.
    - intros l t z [<-|[]] [<-|[]] [<-|[]]. lia. }
  assert (T1 : 2 * PI / 1 * 1 * / 4 + 0 = PI / 2) by field.
  assert (G : group_ok 1 [[[/ 4]]]).
  { intros f [<-|[]]. split; [discriminate|]. intros x [<-|[]]. reflexivity. }
  split.
  - rewrite C43_value; [|exact U|lia|discriminate|exact G].
    rewrite kvectors_R. cbn [K ks_vectors ks_k0 ks_offset map].
    assert (D : density_sq [2 * PI / 1 * 1] [[/ 4]] = 1).
    { unfold density_sq, rho_re, rho_im, unit_weights. cbn [map combine rsum fst snd dot]. rewrite T1, cos_PI2, sin_PI2. ring. }
    match goal with |- Ok [(?a / ?b, _)] = _ => assert (Ea : a = 1); [|assert (Eb : b = 1)] end.
    + unfold shell_mean. change (origins 0 1 (length [[[/ 4]]])) with [0%nat]. cbn [flat_map map app nth].
      change (unshift (1) [(1 + 1)%Z]) with [1%Z] || idtac. cbn. 
      replace (density_sq _ _) with 1 by (symmetry; exact D). unfold rmean. cbn. field.
    + unfold mean_N, rmean. cbn. field.
    + rewrite Ea, Eb. do 3 f_equal. field.
  - destruct (expo_sphere_ok (ks_k0 K) (ks_offset K) [[/ 4]]) as [tab [Et Ft]].
    { cbn. lia. } { discriminate. } { intros w [<-|[]]. cbn. lia. }
    inversion Ft as [|? rows ? tl [Lr Rr] F2]; subst. inversion F2; subst.
    cbn in Lr. destruct rows as [|row [|]]; try discriminate Lr.
    destruct (Rr 0%nat 1%Z) as [Lrow Erow]; [cbn; lia|cbn; lia|]. cbn [nth] in Lrow, Erow.
    assert (Gr : getZ row 2 = Ok (cis (PI / 2))).
    { change 2%Z with (ks_offset K + 1)%Z at 1. rewrite (getZ_pos C _ _ c0) by (rewrite Lrow; cbn; lia).
      rewrite Erow. do 2 f_equal. cbn. field. }
    assert (Dd : densities K [[[/ 4]]] = Ok [[([2%Z], c0)]]).
    { unfold densities. cbn [mapM]. change (num Rops) with R in *. rewrite Et. cbn [bind].
      unfold tabulate. change (length (ks_k0 K)) with 1%nat. cbn [Nat.eqb orb].
      change (concat (ks_vectors K)) with [[2%Z]]. cbn [foldM fst snd mapM].
      unfold view_product. cbn [get nth_error bind]. rewrite Gr. cbn [bind length Nat.sub seq foldM].
      destruct (setidx_pos C row 2 (cis (PI / 2))) as [row' [Es _]]; [rewrite Lrow; cbn; lia|].
      rewrite Es. cbn [bind map snd fst]. unfold csum. cbn [fold_left kget kset]. rewrite !cadd_0_l.
      cbn [cis fst]. rewrite cos_PI2. reflexivity. }
    unfold fkt_compute. rewrite Dd. cbn [bind]. change (ks_vectors K) with [[[2%Z]]].
    change (map (fun _ : num Rops => tcf_state0) (ks_grid K)) with [tcf_state0].
    cbn [over_shells foldM]. unfold tcf_vector. cbn [foldM fst snd length Nat.sub].
    change (py_range 0 1 1) with (Ok [0%nat]). cbn [bind foldM get nth_error Nat.add].
    unfold collective_sum. cbn [get nth_error bind kget]. 
    destruct (same_key_spec [2%Z] [2%Z]) as [_|C']; [|congruence].
    cbn [bind]. unfold tcf_values. cbn [get nth_error bind fst snd tcf_state0 mapM].
    cbn [dupd dget dset Z.sub Z.opp Z.add keys map fst sortZ insertZ mapM].
    unfold tcf_ratio. cbn [fst snd dget dset Z.eqb]. cbn.
    destruct (Req_EM_T (0 + 1) 0) as [C'|_]; [lra|]. cbn. 
    replace ((0 + (0 * 0 - 0 * - 0)) / (0 + 1)) with 0 by field. reflexivity.
Qed.
Print Assumptions C47_one_dimension_refuted.

(** ** C48 *)
(** F_AB and F_BA agree at t = 0 ... *)
Theorem C48_start_partial : forall K steps dgrid skip pos0 pos1 dtsA vA dtsB vB,
  usable K -> ks_vectors K <> [] -> (length (ks_k0 K) = 2 \/ length (ks_k0 K) = 3)%nat -> (1 <= skip)%nat ->
  length steps = length pos0 -> length pos1 = length pos0 -> StronglySorted Z.lt steps ->
  group_ok (length (ks_k0 K)) pos0 -> group_ok (length (ks_k0 K)) pos1 ->
  fkt_compute K steps dgrid skip false pos0 (Some pos1) = Ok (dtsA, vA, vA) ->
  fkt_compute K steps dgrid skip false pos1 (Some pos0) = Ok (dtsB, vB, vB) ->
  dtsA = dtsB /\ length vA = length vB /\
  forall i k, nth_error dtsA i = Some 0%Z -> 
    forall ra rb, nth_error vA k = Some ra -> nth_error vB k = Some rb -> nth_error ra i = nth_error rb i.
Proof.
  intros K steps dgrid skip pos0 pos1 dtsA vA dtsB vB U Hv Hnd Hs Ls L1 St G0 G1 EA EB.
  destruct (C47_value_partial K steps dgrid skip pos0 pos1 false U Hv Hnd Hs Ls L1 G0 G1 ltac:(discriminate)) as [d1 [[S1 H1] E1]].
  destruct (C47_value_partial K steps dgrid skip pos1 pos0 false U Hv Hnd Hs ltac:(congruence) ltac:(congruence) G1 G0 ltac:(discriminate)) as [d2 [[S2 H2] E2]].
  cbn [second] in E1, E2. cbv zeta in E1, E2. rewrite L1 in *.
  rewrite EA in E1. rewrite EB in E2. apply Ok_inj in E1. apply Ok_inj in E2.
  assert (dtsA = d1) by exact (f_equal (fun q => fst (fst q)) E1). assert (dtsB = d2) by exact (f_equal (fun q => fst (fst q)) E2).
  pose proof (f_equal snd E1) as VA. pose proof (f_equal snd E2) as VB. cbn [snd] in VA, VB. subst dtsA dtsB.
  rewrite VA, VB. clear E1 E2 EA EB VA VB vA vB.
  assert (d1 = d2) as ->. { apply sorted_lt_irr_ext; try assumption. intros d. rewrite H1, H2. reflexivity. }
  split; [reflexivity|]. unfold collective_values. split; [rewrite !map_length; reflexivity|].
  intros i k Hi ra rb Ha Hb. apply nth_error_map_inv in Ha. destruct Ha as [vs [Hvs ->]].
  apply nth_error_map_inv in Hb. destruct Hb as [vs' [Hvs' ->]]. assert (vs' = vs) by congruence. subst vs'.
  rewrite !nth_error_map, Hi. cbn [option_map]. f_equal. unfold pair_mean. f_equal. apply flat_map_ext. intros v.
  apply map_ext_in. intros p Hp. apply filter_In in Hp. destruct Hp as [Hp Hz]. apply Z.eqb_eq in Hz.
  assert (fst p = snd p) as ->.
  { apply (pair_dt_zero steps); try assumption. destruct (admitted_lt _ _ _ _ Hp).
    unfold admitted in Hp. apply in_flat_map in Hp. destruct Hp as [q [_ Hp]]. apply in_map_iff in Hp. destruct Hp as [m [<- _]].
    cbn in *. lia. }
  apply density_cross_sym.
Qed.
Print Assumptions C48_start_partial.

(** ... but not later.  Unit cell, one A and one B, both at the origin in the first
    frame; in the second A has moved by half the cell.  With k = 2 pi / L,
    F_AB(k, 1) = -1 and F_BA(k, 1) = 1. *)
Definition K48 : kstate Rops := mkK (A:=Rops) [2 * PI; 2 * PI; 2 * PI] [[[2; 1; 1]]]%Z 1 [2 * PI].
Lemma K48_usable : usable K48.
Proof.
  split; cbn.
  - lia.
  - reflexivity.
  - intros l [<-|[]]. discriminate.
  - intros l t [<-|[]] [<-|[]]; reflexivity.
  - intros l t z [<-|[]] [<-|[]] Hz; cbn in Hz; lia.
Qed.
Theorem C48_refuted :
  let A := [[[0; 0; 0]]; [[/ 2; 0; 0]]] in
  let B := [[[0; 0; 0]]; [[0; 0; 0]]] in
  fkt_compute K48 [0; 1]%Z [(0, 0); (0, 1)]%nat 2 true A (Some B) = Ok ([0; 1]%Z, [[1; -1]], [[1; -1]]) /\
  fkt_compute K48 [0; 1]%Z [(0, 0); (0, 1)]%nat 2 true B (Some A) = Ok ([0; 1]%Z, [[1; 1]], [[1; 1]]).
Proof.
  intros A B.
  assert (GA : group_ok 3 A) by (intros f [<-|[<-|[]]]; (split; [discriminate|]); intros x [<-|[]]; reflexivity).
  assert (GB : group_ok 3 B) by (intros f [<-|[<-|[]]]; (split; [discriminate|]); intros x [<-|[]]; reflexivity).
  assert (Dts : forall dts, reported [0; 1]%Z (admitted [(0, 0); (0, 1)]%nat 2 2) dts -> dts = [0; 1]%Z).
  { intros dts [Sd Hd]. apply sorted_lt_irr_ext; [assumption|repeat constructor; lia|]. intros d. rewrite Hd.
    change (admitted [(0, 0); (0, 1)]%nat 2 2) with [(0, 0); (1, 0)]%nat. split.
    - intros [p [Hp <-]]. cbn in Hp. destruct Hp as [<-|[<-|[]]]; cbn; auto.
    - intros [<-|[<-|[]]]; [exists (0, 0)%nat|exists (1, 0)%nat]; (split; [cbn; tauto|reflexivity]). }
  assert (V : kvectors Rops K48 = [[[2 * PI * 1; 2 * PI * 0; 2 * PI * 0]]]) by reflexivity.
  assert (D : forall x y, (x = 0 \/ x = / 2) -> (y = 0 \/ y = / 2) ->
     density_cross [2 * PI * 1; 2 * PI * 0; 2 * PI * 0] [[x; 0; 0]] [[y; 0; 0]] = (if Req_EM_T x y then 1 else -1)).
  { intros x y Hx Hy. unfold density_cross, rho_re, rho_im, unit_weights. cbn [map combine rsum fst snd dot].
    assert (T : forall z, 2 * PI * 1 * z + (2 * PI * 0 * 0 + (2 * PI * 0 * 0 + 0)) = 2 * PI * z) by (intros; ring).
    rewrite !T.
    assert (T0 : 2 * PI * 0 = 0) by ring. assert (T2 : 2 * PI * / 2 = PI) by field.
    destruct Hx as [-> | ->], Hy as [-> | ->]; rewrite ?T0, ?T2, ?cos_0, ?sin_0, ?cos_PI, ?sin_PI;
      destruct (Req_EM_T _ _); try lra. }
  assert (Main : forall P Q w0 w1, group_ok 3 P -> group_ok 3 Q -> length P = 2%nat -> length Q = 2%nat -> w0 = 1 ->
     density_cross [2 * PI * 1; 2 * PI * 0; 2 * PI * 0] (nth 0 P []) (nth 0 Q []) = w0 ->
     density_cross [2 * PI * 1; 2 * PI * 0; 2 * PI * 0] (nth 1 P []) (nth 0 Q []) = w1 ->
     fkt_compute K48 [0; 1]%Z [(0, 0); (0, 1)]%nat 2 true P (Some Q) = Ok ([0; 1]%Z, [[w0; w1]], [[w0; w1]])).
  { intros P Q w0 w1 GP GQ LP LQ W E0 E1.
    destruct (fkt_values_ok K48 [0; 1]%Z [(0, 0); (0, 1)]%nat 2 P Q false) as [dts [Rd E]];
      [exact K48_usable|discriminate|right; reflexivity|lia|rewrite LP; reflexivity|congruence|assumption|assumption|discriminate|].
    rewrite LP in *. apply Dts in Rd. subst dts. rewrite (E true). rewrite V. cbv zeta. cbn [map].
    unfold pair_mean. change (admitted [(0, 0); (0, 1)]%nat 2 2) with [(0, 0); (1, 0)]%nat.
    change (pairs_at [0; 1]%Z 0 [(0, 0); (1, 0)]%nat) with [(0, 0)]%nat.
    change (pairs_at [0; 1]%Z 1 [(0, 0); (1, 0)]%nat) with [(1, 0)]%nat.
    cbn [flat_map map app fst snd]. rewrite E0, E1. unfold rmean. cbn [rsum length INR].
    replace ((w0 + 0) / 1) with w0 by field. replace ((w1 + 0) / 1) with w1 by field.
    cbn [mapM]. rewrite normalize_first_ok by discriminate. cbn [bind map nth].
    subst w0. replace (1 / 1) with 1 by field. replace (w1 / 1) with w1 by field. reflexivity. }
  split; apply Main; try assumption; try reflexivity; cbn [nth A B].
  - rewrite D by auto. destruct (Req_EM_T 0 0); lra.
  - rewrite D by auto. destruct (Req_EM_T (/ 2) 0); lra.
  - rewrite D by auto. destruct (Req_EM_T 0 0); lra.
  - rewrite D by auto. destruct (Req_EM_T 0 0); lra.
Qed.
Print Assumptions C48_refuted.

Example C48_nonvacuous : exists dtsA vA dtsB vB,
  fkt_compute K43 [0; 10]%Z [(0, 0); (0, 1)]%nat 1 false a44 (Some b44) = Ok (dtsA, vA, vA) /\
  fkt_compute K43 [0; 10]%Z [(0, 0); (0, 1)]%nat 1 false b44 (Some a44) = Ok (dtsB, vB, vB).
Proof.
  assert (GA : group_ok 3 a44) by (intros f [<-|[<-|[]]]; (split; [discriminate|]); intros x [<-|[]]; reflexivity).
  assert (GB : group_ok 3 b44) by (intros f [<-|[<-|[]]]; (split; [discriminate|]); intros x [<-|[]]; reflexivity).
  destruct (C47_value_partial K43 [0; 10]%Z [(0, 0); (0, 1)]%nat 1 a44 b44 false) as [d1 [_ E1]];
    [exact K43_usable|discriminate|right; reflexivity|lia|reflexivity|reflexivity|exact GA|exact GB|discriminate|].
  destruct (C47_value_partial K43 [0; 10]%Z [(0, 0); (0, 1)]%nat 1 b44 a44 false) as [d2 [_ E2]];
    [exact K43_usable|discriminate|right; reflexivity|lia|reflexivity|reflexivity|exact GB|exact GA|discriminate|].
  eexists _, _, _, _. split; [exact E1|exact E2].
Qed.
