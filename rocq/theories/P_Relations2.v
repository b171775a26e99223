(** Relations between results: sums over species of the scattering functions. *)
From Coq Require Import Ascii String List ZArith Bool Arith Reals Lia Lra Sorting.Sorted Sorting.Permutation.
From Verif Require Import PyBase PyBaseFacts Num Spec_Stats NumFacts M_Helpers M_KGrid M_Fourier M_Fkt Spec_BondAngle P_BondAngle
  Spec_KGrid P_KGrid2 P_KGrid4 Spec_Fourier Spec_Correlation P_Correlation P_Acf Spec_Fkt P_Sk P_Sk2 P_Sk3 P_Tcf P_Fkt P_Fkt3
  P_Dynamics P_Dynamics2 T_Fourier T_Fkt Spec_Relations P_Relations.
Import ListNotations.
Local Open Scope R_scope.

Lemma reported_unique : forall steps ps d d', reported steps ps d -> reported steps ps d' -> d = d'.
Proof. intros steps ps d d' [S D] [S' D']. apply sorted_lt_irr_ext; try assumption. intros z. rewrite D, D'. reflexivity. Qed.

Lemma same_particles_species : forall nd pos sp a, same_particles nd pos (length sp) -> In a sp ->
  same_particles nd (map (of_species sp a) pos) (population sp a).
Proof.
  intros nd pos sp a [H1 [H2 H3]] Ha. split; [|split].
  - unfold population. pose proof (proj1 (count_occ_In string_dec sp a) Ha). lia.
  - destruct pos; [congruence|discriminate].
  - intros f Hf. apply in_map_iff in Hf. destruct Hf as [x [<- Hx]]. destruct (H3 x Hx) as [L D]. split.
    + apply of_species_length. congruence.
    + intros r Hr. apply of_species_In in Hr. auto.
Qed.

Lemma self_values_composition : forall pos steps ps shells dts sp kinds,
  (forall p, In p ps -> (fst p < length pos)%nat /\ (snd p < length pos)%nat) ->
  (forall f, In f pos -> length f = length sp) -> NoDup kinds -> incl sp kinds ->
  forall j, (j < length shells)%nat ->
  composition sp kinds (nth j (self_values pos steps ps shells dts) [])
    (fun a => nth j (self_values (map (of_species sp a) pos) steps ps shells dts) []).
Proof.
  intros pos steps ps shells dts sp kinds Hp HN ND I j Hj. unfold self_values.
  rewrite (nth_map_lt _ _ _ _ _ _ []) by exact Hj. split.
  - intros a _. rewrite (nth_map_lt _ _ _ _ _ _ []) by exact Hj. rewrite !map_length. reflexivity.
  - intros k Hk. rewrite map_length in Hk. rewrite (nth_map_lt _ _ _ _ _ _ 0%Z) by exact Hk.
    rewrite (rsum_ext _ _ (fun a => INR (population sp a) * pair_mean (fun v a0 b => fs_pair v (of_species sp a (nth a0 pos [])) (of_species sp a (nth b pos []))) steps ps (nth j shells []) (nth k dts 0%Z))).
    2: { intros a _. rewrite (nth_map_lt _ _ _ _ _ _ []) by exact Hj. rewrite (nth_map_lt _ _ _ _ _ _ 0%Z) by exact Hk. f_equal.
         unfold pair_mean. f_equal. rewrite !flat_map_concat_map. f_equal. apply map_ext. intros v. apply map_ext_in. intros p Q.
         apply filter_In in Q. destruct (Hp p (proj1 Q)) as [B1 B2]. rewrite !(nth_map_lt _ _ _ _ _ [] []) by assumption. reflexivity. }
    unfold pair_mean.
    assert (FM : forall h : list R -> nat * nat -> R, flat_map (fun v => map (h v) (pairs_at steps (nth k dts 0%Z) ps)) (nth j shells [])
       = map (fun q => h (fst q) (snd q)) (list_prod (nth j shells []) (pairs_at steps (nth k dts 0%Z) ps))).
    { intros h. induction (nth j shells []) as [|v vs IH]; [reflexivity|]. cbn [flat_map list_prod]. rewrite map_app, map_map, IH. reflexivity. }
    rewrite (FM (fun v p => fs_pair v (nth (fst p) pos []) (nth (snd p) pos []))).
    rewrite (rsum_ext _ _ (fun a => INR (population sp a) * rmean (map (fun q => (fun q => fs_pair (fst q) (of_species sp a (nth (fst (snd q)) pos [])) (of_species sp a (nth (snd (snd q)) pos []))) q)
       (list_prod (nth j shells []) (pairs_at steps (nth k dts 0%Z) ps))))).
    2: { intros a _. rewrite (FM (fun v p => fs_pair v (of_species sp a (nth (fst p) pos [])) (of_species sp a (nth (snd p) pos [])))). reflexivity. }
    apply (rmean_linear _ _ (fun a => INR (population sp a)) (fun a q => fs_pair (fst q) (of_species sp a (nth (fst (snd q)) pos [])) (of_species sp a (nth (snd (snd q)) pos [])))).
    intros [v p] Q. apply in_prod_iff in Q. destruct Q as [_ Q]. apply filter_In in Q. destruct (Hp p (proj1 Q)) as [B1 B2]. cbn [fst snd].
    unfold fs_pair. apply (particle_mean_species (fun p => cos (dot v (fst p) - dot v (snd p)))); try assumption; symmetry; apply HN, nth_In; assumption.
Qed.

(** ** Collective functions *)
Lemma rho_re_species : forall k sp kinds x, length sp = length x -> NoDup kinds -> incl sp kinds ->
  rho_re k x (unit_weights x) = rsum (map (fun a => rho_re k (of_species sp a x) (unit_weights (of_species sp a x))) kinds).
Proof.
  intros. rewrite rho_re_unit. rewrite (species_sum _ _ sp kinds) by assumption. apply rsum_ext. intros a _. rewrite rho_re_unit. reflexivity.
Qed.
Lemma rho_im_species : forall k sp kinds x, length sp = length x -> NoDup kinds -> incl sp kinds ->
  rho_im k x (unit_weights x) = rsum (map (fun a => rho_im k (of_species sp a x) (unit_weights (of_species sp a x))) kinds).
Proof.
  intros. rewrite rho_im_unit. rewrite (species_sum _ _ sp kinds) by assumption. apply rsum_ext. intros a _. rewrite rho_im_unit. reflexivity.
Qed.

Lemma rsum_prod : forall X Y (f : X -> R) (g : Y -> R) l m,
  rsum (map f l) * rsum (map g m) = rsum (map (fun q => f (fst q) * g (snd q)) (list_prod l m)).
Proof.
  intros X Y f g l m. induction l as [|a l IH]; [cbn; lra|]. cbn [map rsum list_prod]. rewrite map_app, rsum_app, map_map, <- IH.
  cbn [fst snd]. rewrite rsum_scal. ring.
Qed.

Lemma density_cross_species : forall k sp kinds x y, length sp = length x -> length sp = length y -> NoDup kinds -> incl sp kinds ->
  density_cross k x y = rsum (map (fun q => density_cross k (of_species sp (fst q) x) (of_species sp (snd q) y)) (list_prod kinds kinds)).
Proof.
  intros k sp kinds x y Lx Ly ND I. unfold density_cross. rewrite (rsum_plus _ (fun q => _ * _) (fun q => _ * _)).
  rewrite (rho_re_species k sp kinds x), (rho_re_species k sp kinds y), (rho_im_species k sp kinds x), (rho_im_species k sp kinds y) by assumption.
  rewrite !rsum_prod. reflexivity.
Qed.

Lemma group_ok_species : forall nd pos sp a, group_ok nd pos -> (forall f, In f pos -> length f = length sp) -> In a sp ->
  group_ok nd (map (of_species sp a) pos).
Proof.
  intros nd pos sp a G HN Ha f Hf. apply in_map_iff in Hf. destruct Hf as [x [<- Hx]]. destruct (G x Hx) as [_ D]. split.
  - intros E. pose proof (of_species_length _ sp a x (eq_sym (HN x Hx))) as L. rewrite E in L. cbn in L. unfold population in L.
    pose proof (proj1 (count_occ_In string_dec sp a) Ha). lia.
  - intros r Hr. apply of_species_In in Hr. auto.
Qed.

Lemma collective_values_species : forall pos steps ps shells dts sp kinds,
  (forall p, In p ps -> (fst p < length pos)%nat /\ (snd p < length pos)%nat) ->
  (forall f, In f pos -> length f = length sp) -> NoDup kinds -> incl sp kinds ->
  forall j k, (j < length shells)%nat -> (k < length dts)%nat ->
  nth k (nth j (collective_values pos pos steps ps shells dts) []) 0 =
  rsum (map (fun q => nth k (nth j (collective_values (map (of_species sp (fst q)) pos) (map (of_species sp (snd q)) pos) steps ps shells dts) []) 0) (list_prod kinds kinds)).
Proof.
  intros pos steps ps shells dts sp kinds Hp HN ND I j k Hj Hk. unfold collective_values.
  rewrite (nth_map_lt _ _ _ _ _ _ []) by exact Hj. rewrite (nth_map_lt _ _ _ _ _ _ 0%Z) by exact Hk.
  unfold pair_mean.
  assert (FM : forall h : list R -> nat * nat -> R, flat_map (fun v => map (h v) (pairs_at steps (nth k dts 0%Z) ps)) (nth j shells [])
     = map (fun q => h (fst q) (snd q)) (list_prod (nth j shells []) (pairs_at steps (nth k dts 0%Z) ps))).
  { intros h. induction (nth j shells []) as [|v vs IH]; [reflexivity|]. cbn [flat_map list_prod]. rewrite map_app, map_map, IH. reflexivity. }
  rewrite (FM (fun v p => density_cross v (nth (fst p) pos []) (nth (snd p) pos []))).
  rewrite (rsum_ext _ _ (fun c => 1 * rmean (map (fun q => (fun q => density_cross (fst q) (of_species sp (fst c) (nth (fst (snd q)) pos [])) (of_species sp (snd c) (nth (snd (snd q)) pos []))) q)
       (list_prod (nth j shells []) (pairs_at steps (nth k dts 0%Z) ps))))).
  2: { intros c _. rewrite (nth_map_lt _ _ _ _ _ _ []) by exact Hj. rewrite (nth_map_lt _ _ _ _ _ _ 0%Z) by exact Hk. rewrite Rmult_1_l.
       rewrite (FM (fun v p => density_cross v (nth (fst p) (map (of_species sp (fst c)) pos) []) (nth (snd p) (map (of_species sp (snd c)) pos) []))).
       f_equal. apply map_ext_in. intros [v p] Q. apply in_prod_iff in Q. destruct Q as [_ Q]. apply filter_In in Q. destruct (Hp p (proj1 Q)) as [B1 B2].
       cbn [fst snd]. rewrite !(nth_map_lt _ _ _ _ _ [] []) by assumption. reflexivity. }
  rewrite <- (rmean_linear _ _ (fun _ => 1) (fun c q => density_cross (fst q) (of_species sp (fst c) (nth (fst (snd q)) pos [])) (of_species sp (snd c) (nth (snd (snd q)) pos [])))
     1 (fun q => density_cross (fst q) (nth (fst (snd q)) pos []) (nth (snd (snd q)) pos []))); [ring|].
  intros [v p] Q. apply in_prod_iff in Q. destruct Q as [_ Q]. apply filter_In in Q. destruct (Hp p (proj1 Q)) as [B1 B2]. cbn [fst snd].
  rewrite Rmult_1_l. rewrite (density_cross_species v sp kinds) by (try assumption; symmetry; apply HN, nth_In; assumption).
  apply rsum_ext. intros c _. ring.
Qed.

Lemma rsum_list_prod : forall X Y (f : X * Y -> R) l m,
  rsum (map f (list_prod l m)) = rsum (map (fun a => rsum (map (fun b => f (a, b)) m)) l).
Proof.
  intros X Y f l m. induction l as [|a l IH]; [reflexivity|]. cbn [list_prod map rsum]. rewrite map_app, rsum_app, map_map, IH. reflexivity.
Qed.
