(** Relations between different results of the same trajectory: C102, C103. *)
From Coq Require Import Ascii String List ZArith Bool Arith Reals Lia Lra Sorting.Sorted Sorting.Permutation.
From Coq Require Import Floats.SpecFloat.
From Verif Require Import PyBase PyBaseFacts Num Spec_Stats NumFacts M_Helpers M_Correlation M_Dynamics M_Chi4Object M_KGrid M_Fourier M_Fkt
  Spec_BondAngle P_BondAngle Spec_KGrid P_KGrid2 P_KGrid4 Spec_Fourier Spec_Correlation P_Correlation Spec_Time P_Time P_Skip P_Acf P_Helpers Spec_Dynamics
  Spec_Fkt P_Sk P_Sk2 P_Sk3 P_Tcf P_Fkt P_Fkt3 P_Dynamics P_Dynamics2 P_Overlap P_Chi4 T_Dynamics T_Fourier T_Fkt T_Chi4Object
  Spec_Relations P_Relations P_Relations2 P_Relations3.
Import ListNotations.
Local Open Scope R_scope.

(** ** C102 *)
(** Single-particle functions: the result for all the particles is the average of
    those of the species, weighted with their populations, at every time; the
    computation for a species succeeds whenever that for all particles does, and
    reports the same times.  The default grid of the MSD with rmax > 0 depends on
    the particles: it is excluded. *)
Theorem C102_msd : forall (tr : traj Rops) grid rmax ts n no (frames : list (list (list R))) sp kinds g v,
  length (t_steps tr) = length frames -> (forall x, In x frames -> length x = length sp) ->
  NoDup kinds -> incl sp kinds -> (grid <> None \/ rmax <= 0) ->
  msd_compute Rops tr grid rmax ts n no frames = Ok (g, v) ->
  exists vs, (forall a, In a kinds -> msd_compute Rops tr grid rmax ts n no (map (of_species sp a) frames) = Ok (g, vs a)) /\
    composition sp kinds v vs.
Proof.
  intros tr grid rmax ts n no frames sp kinds g v L HN ND I Hg E.
  destruct (msd_compute_inv _ _ _ _ _ _ _ _ _ E) as [skip [dg [g' [E1 [E2 [E3 E4]]]]]].
  destruct (offset_species (msd Rops) _ tr dg skip frames sp kinds g v msd_particle L HN ND I E4) as [vs [H1 H2]].
  exists vs. split; [|exact H2]. intros a Ha. unfold msd_compute. rewrite E1. cbn [bind].
  assert (msd_grid Rops tr grid rmax ts (map (of_species sp a) frames) = Ok g') as ->.
  { destruct grid as [gr|]; [exact E2|]. destruct Hg as [Hg|Hg]; [congruence|]. unfold msd_grid in *.
    cbn [nlt Rops n0] in *. destruct (Rltb_spec 0 rmax); [lra|]. exact E2. }
  cbn [bind]. rewrite E3. cbn [bind]. apply H1. exact Ha.
Qed.
Print Assumptions C102_msd.

Theorem C102_self_overlap : forall (tr : traj Rops) grid n a (unf : list (list (list R))) sp kinds g v,
  length (t_steps tr) = length unf -> (forall x, In x unf -> length x = length sp) -> NoDup kinds -> incl sp kinds ->
  self_overlap_compute Rops tr grid n a unf = Ok (g, v) ->
  exists vs, (forall s, In s kinds -> self_overlap_compute Rops tr grid n a (map (of_species sp s) unf) = Ok (g, vs s)) /\
    composition sp kinds v vs.
Proof.
  intros tr grid n a unf sp kinds g v L HN ND I E.
  exact (grid_species (self_overlap_f Rops (nsq Rops a)) _ tr grid n unf sp kinds g v (self_particle (nsq Rops a)) L HN ND I E).
Qed.
Print Assumptions C102_self_overlap.

Theorem C102_vacf : forall (tr : traj Rops) grid n (vel : list (list (list R))) sp kinds g v,
  length (t_steps tr) = length vel -> (forall x, In x vel -> length x = length sp) -> NoDup kinds -> incl sp kinds ->
  vacf_compute Rops tr grid n vel = Ok (g, v) ->
  exists vs, (forall s, In s kinds -> vacf_compute Rops tr grid n (map (of_species sp s) vel) = Ok (g, vs s)) /\
    composition sp kinds v vs.
Proof.
  intros tr grid n vel sp kinds g v L HN ND I E. unfold vacf_compute in *.
  destruct (adjust_skip Rops (length (t_steps tr)) (t_npart tr) (t_bs tr) n) as [s|]; [cbn [bind] in *|discriminate].
  destruct grid as [gr|]; [|discriminate].
  destruct (setup_t_grid Rops (t_steps tr) (t_bs tr) (t_dt tr) gr (not_str_1 Rops n)) as [dg|]; [cbn [bind] in *|discriminate].
  exact (offset_species (vacf_f Rops) _ tr dg (t_bs tr) vel sp kinds g v vacf_particle L HN ND I E).
Qed.
Print Assumptions C102_vacf.

(** Self intermediate scattering function, both kernels, shell by shell. *)
Theorem C102_self_scattering : forall nb K steps dgrid skip pos sp kinds,
  usable K -> ks_vectors K <> [] -> (1 <= skip)%nat -> length steps = length pos ->
  same_particles (length (ks_k0 K)) pos (length sp) -> NoDup kinds -> (forall a, In a kinds <-> In a sp) ->
  exists dts rows vs,
    fskt_legacy K steps dgrid skip false pos = Ok (dts, rows) /\ fskt_fast nb K steps dgrid skip false pos = Ok (dts, rows) /\
    (forall a, In a kinds ->
       fskt_legacy K steps dgrid skip false (map (of_species sp a) pos) = Ok (dts, vs a) /\
       fskt_fast nb K steps dgrid skip false (map (of_species sp a) pos) = Ok (dts, vs a)) /\
    length rows = length (ks_vectors K) /\
    forall j, (j < length rows)%nat -> length (nth j rows []) = length dts /\ composition sp kinds (nth j rows []) (fun a => nth j (vs a) []).
Proof.
  intros nb K steps dgrid skip pos sp kinds U Hv Hs Ls SP ND I.
  destruct (C46_value K steps dgrid skip pos _ U Hv Hs Ls SP) as [dts [Rd [_ [El Ef]]]].
  assert (Lk : length (kvectors Rops K) = length (ks_vectors K)) by (rewrite kvectors_wave; apply map_length).
  exists dts, (self_values pos steps (admitted dgrid skip (length pos)) (kvectors Rops K) dts),
    (fun a => self_values (map (of_species sp a) pos) steps (admitted dgrid skip (length pos)) (kvectors Rops K) dts).
  split; [exact El|]. split; [exact (Ef nb)|]. split.
  - intros a Ha. apply I in Ha.
    destruct (C46_value K steps dgrid skip (map (of_species sp a) pos) _ U Hv Hs ltac:(rewrite map_length; exact Ls)
       (same_particles_species _ _ _ _ SP Ha)) as [d2 [R2 [_ [El2 Ef2]]]].
    rewrite map_length in R2, El2, Ef2. rewrite (reported_unique _ _ _ _ Rd R2). split; [exact El2|exact (Ef2 nb)].
  - assert (LR : length (self_values pos steps (admitted dgrid skip (length pos)) (kvectors Rops K) dts) = length (kvectors Rops K)) by apply map_length.
    split; [congruence|]. intros j Hj. rewrite LR in Hj. split.
    + unfold self_values. flatR. rewrite (nth_map_lt _ _ _ _ _ [] []) by exact Hj. apply map_length.
    + destruct SP as [_ [_ HN]]. apply self_values_composition; try assumption.
      * intros p Hp. apply admitted_range in Hp. lia.
      * intros f Hf. apply HN. exact Hf.
      * intros a Ha. apply I. exact Ha.
Qed.
Print Assumptions C102_self_scattering.

(** Collective scattering functions: those of the pairs of species, before
    normalisation, add up to that of all the particles. *)
Theorem C102_scattering : forall K steps dgrid skip pos sp kinds,
  usable K -> ks_vectors K <> [] -> (length (ks_k0 K) = 2 \/ length (ks_k0 K) = 3)%nat -> (1 <= skip)%nat ->
  length steps = length pos -> group_ok (length (ks_k0 K)) pos -> (forall x, In x pos -> length x = length sp) ->
  NoDup kinds -> (forall a, In a kinds <-> In a sp) ->
  exists dts un uns,
    fkt_compute K steps dgrid skip false pos None = Ok (dts, un, un) /\
    (forall a b, In a kinds -> In b kinds ->
       fkt_compute K steps dgrid skip false (map (of_species sp a) pos)
         (if String.eqb a b then None else Some (map (of_species sp b) pos)) = Ok (dts, uns a b, uns a b)) /\
    length un = length (ks_vectors K) /\
    forall j k, (j < length un)%nat -> (k < length dts)%nat ->
      nth k (nth j un []) 0 = rsum (map (fun a => rsum (map (fun b => nth k (nth j (uns a b) []) 0) kinds)) kinds).
Proof.
  intros K steps dgrid skip pos sp kinds U Hv Hnd Hs Ls G HN ND I.
  destruct (C47_value_partial K steps dgrid skip pos pos true U Hv Hnd Hs Ls eq_refl G G ltac:(reflexivity)) as [dts [Rd E]].
  cbv zeta in E. cbn [second] in E.
  exists dts, (collective_values pos pos steps (admitted dgrid skip (length pos)) (kvectors Rops K) dts),
    (fun a b => collective_values (map (of_species sp a) pos) (map (of_species sp b) pos) steps (admitted dgrid skip (length pos)) (kvectors Rops K) dts).
  assert (Lk : length (kvectors Rops K) = length (ks_vectors K)) by (rewrite kvectors_wave; apply map_length).
  assert (LR : length (collective_values pos pos steps (admitted dgrid skip (length pos)) (kvectors Rops K) dts) = length (kvectors Rops K)) by apply map_length.
  split; [exact E|]. split; [|split; [congruence|]].
  - intros a b Ha Hb. apply I in Ha, Hb.
    destruct (C47_value_partial K steps dgrid skip (map (of_species sp a) pos) (map (of_species sp b) pos) (String.eqb a b) U Hv Hnd Hs
      ltac:(rewrite map_length; exact Ls) ltac:(rewrite !map_length; reflexivity)
      (group_ok_species _ _ _ _ G HN Ha) (group_ok_species _ _ _ _ G HN Hb)) as [d2 [R2 E2]].
    { intros Q. apply String.eqb_eq in Q. subst b. reflexivity. }
    cbv zeta in E2. rewrite map_length in R2, E2. rewrite <- (reported_unique _ _ _ _ Rd R2) in E2. exact E2.
  - intros j k Hj Hk. rewrite LR in Hj.
    rewrite (collective_values_species pos steps (admitted dgrid skip (length pos)) (kvectors Rops K) dts sp kinds); try assumption.
    + apply rsum_list_prod.
    + intros p Hp. apply admitted_range in Hp. lia.
    + intros a Ha. apply I. exact Ha.
Qed.
Print Assumptions C102_scattering.

(** Two species, three particles: the averages differ from species to species. *)
Definition demo3 : list (frame F64ops) :=
  map (map (map f64_ofZ)) [[[0; 0]; [1; 1]; [2; 2]]; [[1; 0]; [1; 1]; [2; 5]]; [[2; 0]; [1; 2]; [2; 2]]; [[3; 0]; [1; 4]; [2; 2]]]%Z.
Example C102_nonvacuous :
  let run := fun x => msd_compute F64ops demo_tr (Some [f64_ofZ 0; f64_frac 3 2]) (f64_ofZ (-1)) 30 (NoInt (-1)) false x in
  let sp := ["A"; "B"; "A"]%string in
  NoDup ["A"; "B"]%string /\ incl sp ["A"; "B"]%string /\ population sp "A" = 2%nat /\ population sp "B" = 1%nat /\
  run demo3 = Ok ([f64_ofZ 0; f64_frac 3 2], [f64_ofZ 0; f64_ofZ 6]) /\
  run (map (of_species sp "A") demo3) = Ok ([f64_ofZ 0; f64_frac 3 2], [f64_ofZ 0; f64_frac 9 2]) /\
  run (map (of_species sp "B") demo3) = Ok ([f64_ofZ 0; f64_frac 3 2], [f64_ofZ 0; f64_ofZ 9]).
Proof.
  split; [repeat constructor; cbn; intuition discriminate|]. split; [intros a Ha; cbn in *; tauto|].
  split; [reflexivity|]. split; [reflexivity|]. split; [vm_compute; reflexivity|]. split; vm_compute; reflexivity.
Qed.
Example C102_nonvacuous_scattering : usable K43 /\ ks_vectors K43 <> [] /\ same_particles (length (ks_k0 K43)) pos46 2 /\
  group_ok (length (ks_k0 K43)) pos46 /\ NoDup ["A"; "B"]%string /\ (forall a, In a ["A"; "B"]%string <-> In a ["B"; "A"]%string).
Proof.
  split; [exact K43_usable|]. split; [discriminate|]. split; [exact pos46_ok|]. split.
  - intros f Hf. destruct pos46_ok as [_ [_ H]]. destruct (H f Hf) as [L D]. split; [|exact D]. intros ->. discriminate.
  - split; [repeat constructor; cbn; intuition discriminate|]. intros a. cbn. tauto.
Qed.

(** ** C103 *)
(** The fraction of slow particles against the mean square displacement. *)
Theorem C103_overlap_msd : forall (tr : traj Rops) grid rmax ts n a (unf : list (list (list R))) N g v g' w,
  length (t_steps tr) = length unf -> (forall x, In x unf -> length x = N) -> (1 <= N)%nat -> a <> 0 ->
  msd_compute Rops tr (Some grid) rmax ts n false unf = Ok (g, v) ->
  self_overlap_compute Rops tr grid n a unf = Ok (g', w) ->
  g' = g /\ length w = length v /\ forall k, (k < length v)%nat -> 1 - nth k v 0 / (a * a) <= nth k w 0.
Proof.
  intros tr grid rmax ts n a unf N g v g' w L HN N1 Ha E E'.
  destruct (msd_compute_inv _ _ _ _ _ _ _ _ _ E) as [skip [dg [g0 [E1 [E2 [E3 E4]]]]]].
  apply Ok_inj in E2. subst g0. cbn [negb] in E3. rewrite andb_true_r in E3.
  destruct (grid_compute_inv _ _ _ _ _ _ _ _ E') as [skip' [dg' [E1' [E3' E4']]]].
  rewrite E1 in E1'. apply Ok_inj in E1'. subst skip'. rewrite E3 in E3'. apply Ok_inj in E3'. subst dg'.
  destruct (offset_both _ _ (msd Rops) (self_overlap_f Rops (nsq Rops a)) tr dg skip unf unf [] [] g v L eq_refl E4) as [w' [dts [Ew [Hg [G G']]]]].
  assert (X : (g', w) = (g, w')) by (rewrite E4' in Ew; apply Ok_inj in Ew; exact Ew). injection X as -> ->.
  split; [reflexivity|]. split; [exact (eq_trans (grouped_length _ _ _ _ _ _ _ _ G') (eq_sym (grouped_length _ _ _ _ _ _ _ _ G)))|].
  intros k Hk. replace (1 - nth k v 0 / (a * a)) with (1 + - / (a * a) * nth k v 0) by (unfold Rdiv; ring).
  refine (grouped_affine _ _ _ _ _ _ _ _ _ _ 1 (- / (a * a)) G G' _ _ k Hk).
  - intros p Hp. apply (admitted_range _ _ _ _ Hp).
  - intros x y Hx Hy. assert (Lxy : length x = length y) by (rewrite !HN by assumption; reflexivity).
    rewrite msd_particle, self_particle by exact Lxy. change (nsq Rops a) with (a * a). apply particle_affine; [exact Lxy| |].
    + intros ->. specialize (HN _ Hx). cbn in HN. lia.
    + intros p. apply near_markov. apply Rsqr_pos_lt in Ha. exact Ha.
Qed.
Print Assumptions C103_overlap_msd.

(** F_s(k,t) stays above the parabola 1 - k^2 MSD(t)/2, k being the largest modulus
    among the vectors of the shell. *)
Theorem C103_scattering_msd : forall nb K (tr : traj Rops) grid rmax ts n no (pos : list (list (list R))) N g v skip dg,
  usable K -> ks_vectors K <> [] -> length (t_steps tr) = length pos -> same_particles (length (ks_k0 K)) pos N ->
  msd_compute Rops tr (Some grid) rmax ts n no pos = Ok (g, v) ->
  adjust_skip Rops (length (t_steps tr)) (t_npart tr) (t_bs tr) n = Ok skip ->
  setup_t_grid Rops (t_steps tr) (t_bs tr) (t_dt tr) grid (not_str_1 Rops n && negb no) = Ok dg ->
  exists dts rows, fskt_legacy K (t_steps tr) dg skip false pos = Ok (dts, rows) /\
    fskt_fast nb K (t_steps tr) dg skip false pos = Ok (dts, rows) /\ g = times_of tr dts /\
    length rows = length (kvectors Rops K) /\
    forall j k q, (j < length rows)%nat -> (k < length v)%nat -> (forall u : list R, In u (nth j (kvectors Rops K) []) -> dot u u <= q) ->
      1 - q * nth k v 0 / 2 <= nth k (nth j rows []) 0 <= 1.
Proof.
  intros nb K tr grid rmax ts n no pos N g v skip dg U Hv L SP E Es Ed.
  destruct (msd_compute_inv _ _ _ _ _ _ _ _ _ E) as [skip0 [dg0 [g0 [E1 [E2 [E3 E4]]]]]].
  apply Ok_inj in E2. subst g0. rewrite Es in E1. apply Ok_inj in E1. subst skip0. rewrite Ed in E3. apply Ok_inj in E3. subst dg0.
  destruct SP as [HN [Hne HD]].
  assert (Hs : (1 <= skip)%nat).
  { apply adjust_skip_range in Es; [lia|]. rewrite L. destruct pos; [congruence|cbn; lia]. }
  destruct (C46_value K (t_steps tr) dg skip pos N U Hv Hs L (conj HN (conj Hne HD))) as [dts [Rd [_ [El Ef]]]].
  destruct (offset_compute_spec _ _ _ _ _ _ _ [] _ _ L E4) as [d2 [Hg G]].
  assert (d2 = dts) as ->. { apply (reported_unique (t_steps tr) (admitted dg skip (length pos))); [split; apply G|exact Rd]. }
  exists dts, (self_values pos (t_steps tr) (admitted dg skip (length pos)) (kvectors Rops K) dts).
  split; [exact El|]. split; [exact (Ef nb)|]. split; [exact Hg|].
  assert (LR : length (self_values pos (t_steps tr) (admitted dg skip (length pos)) (kvectors Rops K) dts) = length (kvectors Rops K)) by apply map_length.
  split; [exact LR|]. intros j k q Hj Hk Hq. rewrite LR in Hj.
  pose proof (grouped_length _ _ _ _ _ _ _ _ G) as Lv. flatR.
  assert (Hk' : (k < length dts)%nat) by (rewrite <- Lv; exact Hk).
  unfold self_values. rewrite (nth_map_lt _ _ _ _ _ [] []) by exact Hj. rewrite (nth_map_lt _ _ _ _ _ 0 0%Z) by exact Hk'.
  set (vs := nth j (kvectors Rops K) []) in *.
  assert (Vin : In vs (kvectors Rops K)) by (apply nth_In; exact Hj).
  assert (Vok : vs <> [] /\ forall u, In u vs -> length u = length (ks_k0 K)).
  { rewrite kvectors_wave in Vin. apply in_map_iff in Vin. destruct Vin as [kl [<- Hkl]]. split.
    - pose proof (us_nonempty K U kl Hkl). destruct kl; [congruence|discriminate].
    - intros u Hu. apply in_map_iff in Hu. destruct Hu as [t [<- Ht]]. pose proof (us_len K U kl t Hkl Ht) as Lt.
      unfold wave, unshift. rewrite map_length, combine_length, map_length. flatR. lia. }
  destruct Vok as [Vne Vlen].
  assert (Ql : list_prod vs (pairs_at (t_steps tr) (nth k dts 0%Z) (admitted dg skip (length pos))) <> []).
  { assert (P : pairs_at (t_steps tr) (nth k dts 0%Z) (admitted dg skip (length pos)) <> []).
    { apply pairs_at_nonempty. apply (proj2 Rd). apply nth_In. exact Hk'. }
    destruct vs; [congruence|]. destruct (pairs_at _ _ _); [congruence|]. discriminate. }
  assert (Hp : forall u p, In (u, p) (list_prod vs (pairs_at (t_steps tr) (nth k dts 0%Z) (admitted dg skip (length pos)))) ->
    In u vs /\ length (nth (fst p) pos []) = N /\ length (nth (snd p) pos []) = N /\
    (forall r, In r (nth (fst p) pos []) -> length r = length u) /\ (forall r, In r (nth (snd p) pos []) -> length r = length u)).
  { intros u p Q. apply in_prod_iff in Q. destruct Q as [Qu Q]. apply filter_In in Q. destruct Q as [Q _]. apply admitted_range in Q.
    destruct (HD (nth (fst p) pos [])) as [X1 Y1]; [apply nth_In; lia|]. destruct (HD (nth (snd p) pos [])) as [X2 Y2]; [apply nth_In; lia|].
    rewrite (Vlen u Qu). repeat split; assumption. }
  split.
  - replace (nth k v 0) with (pair_mean (fun _ a b => mean_over (fun d => d) (nth a pos []) (nth b pos [])) (t_steps tr) (admitted dg skip (length pos)) vs (nth k dts 0%Z)).
    2: { rewrite pair_mean_const by exact Vne. rewrite (grouped_value _ _ _ _ _ _ _ _ k G) by exact Hk. f_equal. apply map_ext_in. intros p Hin.
         apply filter_In in Hin. destruct Hin as [Hin _]. apply admitted_range in Hin. symmetry. apply msd_R.
         rewrite !(fun f Hf => proj1 (HD f Hf)); [reflexivity| |]; apply nth_In; lia. }
    rewrite !pair_mean_prod. set (l := list_prod _ _) in *.
    pose proof (rmean_affine _ (fun q0 => mean_over (fun d => d) (nth (fst (snd q0)) pos []) (nth (snd (snd q0)) pos []))
      (fun q0 => fs_pair (fst q0) (nth (fst (snd q0)) pos []) (nth (snd (snd q0)) pos [])) 1 (- (q / 2)) l Ql) as Q.
    cbn beta in Q |- *.
    assert (forall m, 1 - q * m / 2 = 1 + - (q / 2) * m) as -> by (intros; field). apply Q.
    intros [u p] Hin. destruct (Hp u p Hin) as [Hu [X1 [X2 [Y1 Y2]]]]. cbn [fst snd].
    apply fs_pair_quadratic; try assumption; [apply Hq; exact Hu|congruence|].
    intros Z. rewrite Z in X1. cbn in X1. lia.
  - rewrite pair_mean_prod. apply rmean_le; [apply map_nonnil; exact Ql|]. intros e He. apply in_map_iff in He. destruct He as [[u p] [<- Hin]].
    destruct (Hp u p Hin) as [Hu [X1 [X2 _]]]. cbn [fst snd]. apply fs_pair_le_1; [congruence|]. intros Z. rewrite Z in X1. cbn in X1. lia.
Qed.
Print Assumptions C103_scattering_msd.

(** chi4 against the average overlap kept beside it: N chi4 <= Q (N - Q), so that
    chi4 never exceeds N/4. *)
Theorem C103_chi4_average : forall (tr : traj Rops) grid n a (unf : list (list (list R))) N rows,
  unf <> [] -> length (t_steps tr) = length unf -> (forall x, In x unf -> length x = N) -> (1 <= N)%nat ->
  chi4_rows Rops tr grid n a unf = Ok rows ->
  forall r, In r rows -> 0 <= c_average r <= INR N /\ INR N * c_value r <= c_average r * (INR N - c_average r) /\ c_value r <= INR N / 4.
Proof.
  intros tr grid n a unf N rows Hne Hl HN H1 E r Hr.
  assert (exists skip dg, adjust_skip Rops (length (t_steps tr)) (t_npart tr) (t_bs tr) n = Ok skip /\
    setup_t_grid Rops (t_steps tr) (t_bs tr) (t_dt tr) grid (not_str_1 Rops n) = Ok dg) as [skip [dg [E1 E2]]].
  { unfold chi4_rows in E. destruct (adjust_skip _ _ _ _ _) as [s|]; [cbn [bind] in E|discriminate].
    destruct (setup_t_grid _ _ _ _ _ _) as [d|]; [|discriminate]. eauto. }
  destruct (C96_values tr grid n a unf N skip dg Hne Hl HN E1 E2) as [rows' [E' [Ln [_ V]]]].
  rewrite E in E'. apply Ok_inj in E'. subst rows'.
  destruct (In_nth_error _ _ Hr) as [k Hk].
  assert (exists p, nth_error dg k = Some p) as [p Hp].
  { destruct (nth_error dg k) eqn:Q; [eauto|]. apply nth_error_None in Q. assert (k < length rows)%nat by (apply nth_error_Some; congruence). lia. }
  destruct (V k p r Hp Hk) as [_ [Va [Vs Vv]]]. cbv zeta in *.
  set (w := counts (a * a) unf p (origins (fst p) skip (length unf - snd p - skip))) in *.
  assert (P : 0 < INR N) by (apply lt_0_INR; lia).
  assert (W : forall x, In x w -> 0 <= x <= INR N).
  { intros x Hx. unfold w, counts in Hx. apply in_map_iff in Hx. destruct Hx as [i0 [<- Hi]]. split; [apply pos_INR|]. apply le_INR.
    destruct (Nat.lt_ge_cases i0 (length unf)) as [Q|Q].
    - rewrite <- (HN (nth i0 unf [])) by (apply nth_In; exact Q). apply slow_le.
    - unfold origins in Hi. apply filter_In in Hi. destruct Hi as [Hi _]. apply in_seq in Hi. lia. }
  assert (B : 0 <= c_average r <= INR N /\ c_second r - c_average r * c_average r <= c_average r * (INR N - c_average r)).
  { destruct w as [|x w'] eqn:Q.
    - rewrite Va, Vs. unfold rmean. cbn. unfold Rdiv. rewrite Rmult_0_l. lra.
    - rewrite Va, Vs. split; [split; [apply rmean_ge|apply rmean_le]; try discriminate; intros; apply W; assumption|].
      apply variance_bhatia; [discriminate|exact W]. }
  destruct B as [B1 B2]. split; [exact B1|].
  assert (M : INR N * c_value r = c_second r - c_average r * c_average r) by (rewrite Vv; field; lra).
  split; [lra|].
  apply Rmult_le_reg_l with (INR N); [exact P|]. rewrite M.
  assert (0 <= (INR N / 2 - c_average r) * (INR N / 2 - c_average r)) by apply Rle_0_sqr. lra.
Qed.
Print Assumptions C103_chi4_average.

(** Overlaps grow with the distance below which a particle counts as slow. *)
Theorem C103_overlap_grows : forall (tr : traj Rops) grid n a b (x : list (list (list R))) N g v g' w,
  length (t_steps tr) = length x -> (forall f, In f x -> length f = N) -> (1 <= N)%nat -> 0 <= a <= b ->
  self_overlap_compute Rops tr grid n a x = Ok (g, v) /\ self_overlap_compute Rops tr grid n b x = Ok (g', w) \/
  coll_overlap_compute Rops tr grid n a x = Ok (g, v) /\ coll_overlap_compute Rops tr grid n b x = Ok (g', w) ->
  g' = g /\ length w = length v /\ forall k, (k < length v)%nat -> nth k v 0 <= nth k w 0.
Proof.
  intros tr grid n a b x N g v g' w L HN N1 Hab H.
  assert (A2 : a * a <= b * b) by nra.
  assert (Gen : forall f h : list (list R) -> list (list R) -> R, grid_compute Rops f tr grid n x = Ok (g, v) ->
    grid_compute Rops h tr grid n x = Ok (g', w) -> (forall p q, In p x -> In q x -> f p q <= h p q) ->
    g' = g /\ length w = length v /\ forall k, (k < length v)%nat -> nth k v 0 <= nth k w 0).
  { intros f h E E' Hfh.
    destruct (grid_compute_inv _ _ _ _ _ _ _ _ E) as [skip [dg [E1 [E2 E3]]]].
    destruct (grid_compute_inv _ _ _ _ _ _ _ _ E') as [skip' [dg' [E1' [E2' E3']]]].
    rewrite E1 in E1'. apply Ok_inj in E1'. subst skip'. rewrite E2 in E2'. apply Ok_inj in E2'. subst dg'.
    destruct (offset_both _ _ f h tr dg skip x x [] [] g v L eq_refl E3) as [w' [dts [Ew [Hg [G G']]]]].
    assert (X : (g', w) = (g, w')) by (rewrite E3' in Ew; apply Ok_inj in Ew; exact Ew). injection X as -> ->.
    split; [reflexivity|]. split; [exact (eq_trans (grouped_length _ _ _ _ _ _ _ _ G') (eq_sym (grouped_length _ _ _ _ _ _ _ _ G)))|].
    intros k Hk. replace (nth k v 0) with (0 + 1 * nth k v 0) by ring.
    refine (grouped_affine _ _ _ _ _ _ _ _ _ _ 0 1 G G' _ _ k Hk).
    - intros p Hp. apply (admitted_range _ _ _ _ Hp).
    - intros p q Hp Hq. rewrite Rplus_0_l, Rmult_1_l. apply Hfh; assumption. }
  assert (Sub : forall (P : list (list R) -> list (list R) -> list (list R * list R)) p q,
    (length (filter (fun c => if Rlt_dec (dist2 (fst c) (snd c)) (a * a) then true else false) (P p q)) <=
     length (filter (fun c => if Rlt_dec (dist2 (fst c) (snd c)) (b * b) then true else false) (P p q)))%nat).
  { intros P p q. induction (P p q) as [|c l IH]; [apply le_n|]. cbn [filter].
    destruct (Rlt_dec (dist2 (fst c) (snd c)) (a * a)); destruct (Rlt_dec (dist2 (fst c) (snd c)) (b * b)); cbn [length]; try lia. exfalso. lra. }
  assert (Div : forall (p : list (list R)) (m m' : nat), In p x -> (m <= m')%nat -> INR m / INR (length p) <= INR m' / INR (length p)).
  { intros p m m' Hp Hm. apply Rmult_le_compat_r; [left; apply Rinv_0_lt_compat, lt_0_INR; rewrite HN by exact Hp; lia|apply le_INR; exact Hm]. }
  destruct H as [[E E']|[E E']].
  - apply (Gen _ _ E E'). intros p q Hp _. change (nsq Rops a) with (a * a). change (nsq Rops b) with (b * b).
    rewrite !self_overlap_f_R. apply Div; [exact Hp|]. exact (Sub (fun p q => combine p q) p q).
  - apply (Gen _ _ E E'). intros p q Hp _. change (nsq Rops a) with (a * a). change (nsq Rops b) with (b * b).
    rewrite !coll_overlap_f_R. apply Div; [exact Hp|]. exact (Sub (fun p q => list_prod p q) p q).
Qed.
Print Assumptions C103_overlap_grows.

(** The non-Gaussian parameter never exceeds 3N/5 - 1, where one particle alone moves. *)
Theorem C103_non_gaussian : forall (tr : traj Rops) grid n (unf : list (list (list R))) N g v,
  length (t_steps tr) = length unf -> (forall x, In x unf -> length x = N) -> (1 <= N)%nat ->
  StronglySorted Z.lt (t_steps tr) -> t_dt tr <> 0 ->
  (forall x y i j, nth_error unf i = Some x -> nth_error unf j = Some y -> i <> j -> exists q, In q (combine x y) /\ dist2 (fst q) (snd q) <> 0) ->
  alpha2_compute Rops tr grid n unf = Ok (g, v) ->
  forall k, (k < length v)%nat -> nth k g 0 <> 0 -> - (2 / 5) <= nth k v 0 <= 3 * INR N / 5 - 1.
Proof.
  intros tr grid n unf N g v L HN N1 St Hdt Hmove E k Hk Hg.
  destruct (C20_non_gaussian tr grid n unf N g v L HN St E) as [dts [ps [-> [Lv [HP [Sd [Hd V]]]]]]].
  destruct (V k Hk) as [_ [V2 V3]]. cbv zeta in *. clear V.
  destruct HP as [skip [dg [_ [_ ->]]]].
  assert (Hk' : (k < length dts)%nat) by (rewrite <- Lv; exact Hk).
  assert (D : nth k dts 0%Z <> 0%Z).
  { intros Z. apply Hg. unfold times_of. rewrite (nth_map_lt _ _ _ _ _ 0 0%Z) by exact Hk'. rewrite Z. exact (Rmult_0_l (t_dt tr : R)). }
  specialize (V2 D). specialize (V3 D).
  assert (Hq : forall p, In p (pairs_at (t_steps tr) (nth k dts 0%Z) (admitted dg skip (length unf))) ->
     (snd p <= fst p < length unf)%nat /\ fst p <> snd p).
  { intros p Hp. apply filter_In in Hp. destruct Hp as [Hp Q]. apply admitted_range in Hp. split; [exact Hp|].
    apply Z.eqb_eq in Q. intros X. apply D. rewrite <- Q. unfold pair_dt. rewrite X. lia. }
  assert (Mv : forall p, In p (pairs_at (t_steps tr) (nth k dts 0%Z) (admitted dg skip (length unf))) ->
     exists q, In q (combine (nth (fst p) unf []) (nth (snd p) unf [])) /\ dist2 (fst q) (snd q) <> 0).
  { intros p Hp. destruct (Hq p Hp) as [B Ne]. apply (Hmove _ _ (fst p) (snd p)); [apply nth_error_nth'; lia|apply nth_error_nth'; lia|exact Ne]. }
  split; [exact (V3 Mv)|]. rewrite V2. apply rmean_le.
  - apply map_nonnil, pairs_at_nonempty, Hd, nth_In. exact Hk'.
  - intros e He. apply in_map_iff in He. destruct He as [p [<- Hp]]. destruct (Hq p Hp) as [B Ne].
    assert (L1 : length (nth (fst p) unf []) = N) by (apply HN, nth_In; lia).
    assert (L2 : length (nth (snd p) unf []) = N) by (apply HN, nth_In; lia).
    rewrite <- L1. apply non_gaussian_upper; [congruence|intros Z; rewrite Z in L1; cbn in L1; lia|].
    destruct (Mv p Hp) as [q [Hin Hne]]. unfold mean_over, rmean. intros Z.
    assert (P : 0 < INR (length (map (fun p0 => dist2 (fst p0) (snd p0)) (combine (nth (fst p) unf []) (nth (snd p) unf []))))).
    { apply INR_pos_length. intros C. apply map_eq_nil in C. rewrite C in Hin. destruct Hin. }
    apply Rmult_integral in Z. destruct Z as [Z|Z]; [|exfalso; apply (Rinv_neq_0_compat _ (Rgt_not_eq _ _ P)); exact Z].
    apply Hne. apply (rsum_nonneg_zero _ (fun x Hx => ltac:(apply in_map_iff in Hx; destruct Hx as [c [<- _]]; apply dist2_nonneg)) Z).
    apply in_map_iff. exists q. split; [reflexivity|exact Hin].
Qed.
Print Assumptions C103_non_gaussian.

(** One particle: the collective scattering function, before normalisation, is the
    self one. *)
Theorem C103_single_particle : forall nb K steps dgrid skip pos,
  usable K -> ks_vectors K <> [] -> (length (ks_k0 K) = 2 \/ length (ks_k0 K) = 3)%nat -> (1 <= skip)%nat ->
  length steps = length pos -> same_particles (length (ks_k0 K)) pos 1 ->
  exists dts v, fkt_compute K steps dgrid skip false pos None = Ok (dts, v, v) /\
    fskt_legacy K steps dgrid skip false pos = Ok (dts, v) /\ fskt_fast nb K steps dgrid skip false pos = Ok (dts, v).
Proof.
  intros nb K steps dgrid skip pos U Hv Hnd Hs Ls SP.
  destruct (C46_value K steps dgrid skip pos 1 U Hv Hs Ls SP) as [dts [Rd [_ [El Ef]]]].
  destruct SP as [_ [_ HD]].
  assert (G : group_ok (length (ks_k0 K)) pos).
  { intros f Hf. destruct (HD f Hf) as [A B]. split; [intros ->; discriminate|exact B]. }
  destruct (C47_value_partial K steps dgrid skip pos pos true U Hv Hnd Hs Ls eq_refl G G ltac:(reflexivity)) as [d2 [R2 E]].
  cbv zeta in E. cbn [second] in E. rewrite <- (reported_unique _ _ _ _ Rd R2) in E.
  assert (X : collective_values pos pos steps (admitted dgrid skip (length pos)) (kvectors Rops K) dts =
              self_values pos steps (admitted dgrid skip (length pos)) (kvectors Rops K) dts).
  { unfold collective_values, self_values. apply map_ext. intros vs. apply map_ext. intros d. rewrite !pair_mean_prod. f_equal.
    apply map_ext_in. intros [u p] Q. apply in_prod_iff in Q. destruct Q as [_ Q]. apply filter_In in Q. destruct Q as [Q _]. apply admitted_range in Q.
    cbn [fst snd]. destruct (HD (nth (fst p) pos [])) as [A _]; [apply nth_In; lia|]. destruct (HD (nth (snd p) pos [])) as [B _]; [apply nth_In; lia|].
    destruct (nth (fst p) pos []) as [|r [|? ?]]; try discriminate. destruct (nth (snd p) pos []) as [|s [|? ?]]; try discriminate.
    apply single_particle. }
  rewrite X in E. eexists _, _. split; [exact E|]. split; [exact El|exact (Ef nb)].
Qed.
Print Assumptions C103_single_particle.

(** The example of C17 and C19: half of the particles are slow, and 1 - MSD/a^2 is 1/9. *)
Example C103_nonvacuous :
  msd_compute F64ops demo_tr (Some [f64_frac 1 2]) (f64_ofZ (-1)) 30 (NoInt (-1)) false demo_frames = Ok ([f64_frac 1 2], [f64_frac 4 3]) /\
  self_overlap_compute F64ops demo_tr [f64_frac 1 2] (NoInt (-1)) (f64_frac 3 2) demo_frames = Ok ([f64_frac 1 2], [f64_frac 5 6]) /\
  self_overlap_compute F64ops demo_tr [f64_frac 1 2] (NoInt (-1)) (f64_frac 1 2) demo_frames = Ok ([f64_frac 1 2], [f64_frac 1 6]) /\
  nlt F64ops (nsub F64ops (f64_ofZ 1) (ndiv F64ops (f64_frac 4 3) (f64_frac 9 4))) (f64_frac 5 6) = true.
Proof. split; [vm_compute; reflexivity|]. split; [vm_compute; reflexivity|]. split; vm_compute; reflexivity. Qed.
Example C103_nonvacuous_single : same_particles (length (ks_k0 K43)) [[[1; 2; 3]]; [[0; 0; 7]]] 1 /\ usable K43 /\ ks_vectors K43 <> [].
Proof.
  split; [|split; [exact K43_usable|discriminate]]. split; [lia|]. split; [discriminate|]. intros f [<-|[<-|[]]]; split; try reflexivity; intros r [<-|[]]; reflexivity.
Qed.
(** The moved particles of C20's example, and chi4 with its average. *)
Example C103_nonvacuous_chi4 :
  (rows <- chi4_rows F64ops demo_tr [f64_frac 1 2] (NoInt (-1)) (f64_frac 3 4) demo_frames ;;
   Ok (map (fun r => (c_time r, c_value r, c_average r, c_second r)) rows)) =
    Ok [(f64_frac 1 2, f64_frac 1 8, f64_frac 1 2, f64_frac 1 2)].
Proof. vm_compute. reflexivity. Qed.
