(** Reversing the direction of time, continued (C109): stress autocorrelation, scattering
    functions, other numbers of time origins. *)
From Coq Require Import Ascii String List ZArith Bool Arith Reals Lia Lra Sorting.Sorted Sorting.Permutation Floats.SpecFloat.
From Verif Require Import PyBase PyBaseFacts Num Spec_Stats NumFacts M_Helpers M_Correlation M_Dynamics M_KGrid M_Fourier M_Fkt
  Spec_BondAngle P_BondAngle Spec_KGrid P_KGrid P_KGrid2 P_KGrid4 P_Expo Spec_Fourier Spec_Correlation Spec_Fkt
  P_Sk P_Sk2 P_Sk3 P_Tcf P_Fkt P_Fkt2 P_Fkt3 P_Correlation P_Time P_Skip P_Dynamics P_Dynamics2 P_Symmetry P_Uniform P_Analyze2 P_Relations2 T_Fourier T_Fkt T_Reversal.
Import ListNotations.
Local Open Scope R_scope.

(** ** Stress autocorrelation *)
Lemma opposite_stress : forall mass s (v : list (list R)), stress_frame Rops mass s (opposite v) = stress_frame Rops mass s v.
Proof.
  intros mass s v. unfold stress_frame. apply mapM_ext_in. intros [j k] _. cbn [fst snd].
  destruct (entry Rops s j k) as [sjk|]; [|reflexivity]. cbn [bind].
  replace (mapM _ (combine mass (opposite v))) with
    (mapM (fun mv : R * list R => vj <- get (snd mv) j ;; vk <- get (snd mv) k ;; Ok (nmul Rops (nmul Rops (fst mv) vj) vk)) (combine mass v)); [reflexivity|].
  revert v. induction mass as [|m mass IH]; intros [|r v]; try reflexivity. cbn [combine opposite map mapM fst snd].
  unfold get. rewrite !nth_error_map. destruct (nth_error r j) as [a|]; [|reflexivity]. cbn [option_map bind].
  destruct (nth_error r k) as [b|]; [|reflexivity]. cbn [option_map bind].
  replace (nmul Rops (nmul Rops m (- a)) (- b)) with (nmul Rops (nmul Rops m a) b) by (cbn; ring).
  rewrite IH. reflexivity.
Qed.

Lemma combine_rev : forall X Y (a : list X) (b : list Y), length a = length b -> combine (rev a) (rev b) = rev (combine a b).
Proof.
  intros X Y a. induction a as [|x a IH]; intros [|y b] H; try discriminate H; [reflexivity|].
  cbn [rev combine]. rewrite <- IH by (cbn in H; lia). assert (L : length (rev a) = length (rev b)) by (rewrite !rev_length; cbn in H; lia).
  clear IH H. revert L. generalize (rev b). induction (rev a) as [|u l IH]; intros [|w m] L; try discriminate L; [reflexivity|].
  cbn [app combine]. rewrite IH by (cbn in L; lia). reflexivity.
Qed.

Lemma mapM_app_Ok : forall X Y (f : X -> res Y) l m l' m', mapM f l = Ok l' -> mapM f m = Ok m' -> mapM f (l ++ m) = Ok (l' ++ m').
Proof.
  intros X Y f l. induction l as [|a l IH]; intros m l' m' H1 H2.
  - apply Ok_inj in H1. subst l'. exact H2.
  - cbn [mapM app] in *. destruct (f a) as [y|]; [|discriminate H1]. cbn [bind] in *. destruct (mapM f l) as [ys|] eqn:E; [|discriminate H1].
    cbn [bind] in *. apply Ok_inj in H1. subst l'. rewrite (IH m ys m' eq_refl H2). reflexivity.
Qed.
Lemma mapM_rev : forall X Y (f : X -> res Y) l l', mapM f l = Ok l' -> mapM f (rev l) = Ok (rev l').
Proof.
  intros X Y f l. induction l as [|a l IH]; intros l' H.
  - apply Ok_inj in H. subst l'. reflexivity.
  - cbn [mapM] in H. destruct (f a) as [y|] eqn:Ea; [|discriminate H]. cbn [bind] in H. destruct (mapM f l) as [ys|] eqn:E; [|discriminate H].
    cbn [bind] in H. apply Ok_inj in H. subst l'. cbn [rev]. apply mapM_app_Ok; [apply IH; reflexivity|]. cbn [mapM]. rewrite Ea. reflexivity.
Qed.

Lemma mapM_mapped : forall X Y Z (f : Y -> res Z) (g : X -> Y) l, mapM f (map g l) = mapM (fun x => f (g x)) l.
Proof. intros X Y Z f g l. induction l as [|a l IH]; [reflexivity|]. cbn [map mapM]. rewrite IH. reflexivity. Qed.

Lemma sacf_sym : forall x y : list R, length x = length y -> sacf_f Rops x y = sacf_f Rops y x.
Proof. intros x y L. unfold sacf_f. f_equal; [|exact (f_equal (nofnat Rops) L)]. f_equal. apply map2_sym. intros a b. cbn. ring. Qed.

Lemma stress_length : forall mass s (v : list (list R)) l, stress_frame Rops mass s v = Ok l -> length l = 3%nat.
Proof. intros mass s v l H. unfold stress_frame in H. apply P_Analyze2.mapM_length in H. exact H. Qed.

(** The virial does not change when time is reversed, the velocities change sign. *)
Theorem C109_stress_partial : forall e (tr : traj Rops) grid n volume mass virial (vel : list (list (list R))) g v,
  regular e tr vel -> length virial = length vel ->
  sacf_compute Rops tr grid n volume mass virial vel = Ok (g, v) ->
  sacf_compute Rops (backwards tr) grid n volume mass (rev virial) (rev (map opposite vel)) = Ok (g, v).
Proof.
  intros e tr grid n volume mass virial vel g v [Ev [He [Hb [Hl [N HN]]]]] Lv H. rewrite (backwards_every _ e) by exact Ev.
  unfold sacf_compute in *. destruct (adjust_skip Rops (length (t_steps tr)) (t_npart tr) (t_bs tr) n) as [sk|]; [|discriminate H]. cbn [bind] in *.
  destruct (setup_t_grid Rops (t_steps tr) (t_bs tr) (t_dt tr) grid (not_str_1 Rops n)) as [dg|] eqn:Ed; [|discriminate H]. cbn [bind] in *.
  assert (Eq : mapM (fun sv => stress_frame Rops mass (fst sv) (snd sv)) (combine (rev virial) (rev (map opposite vel)))
             = mapM (fun sv => stress_frame Rops mass (fst sv) (snd sv)) (rev (combine virial vel))).
  { rewrite combine_rev by (rewrite map_length; exact Lv).
    assert (Ec : combine virial (map opposite vel) = map (fun p => (fst p, opposite (snd p))) (combine virial vel)).
    { clear. revert vel. induction virial as [|s virial IH]; intros [|x vel]; try reflexivity. cbn [map combine fst snd]. rewrite IH. reflexivity. }
    rewrite Ec, <- map_rev, mapM_mapped. apply mapM_ext_in. intros [s x] _. cbn [fst snd]. apply opposite_stress. }
  match type of H with bind ?m _ = _ => destruct m as [st|] eqn:Es; [|discriminate H] end.
  pose proof (eq_trans Eq (mapM_rev _ _ _ _ _ Es)) as Er. clear Eq.
  match goal with |- bind ?m _ = _ => replace m with (Ok (rev st)) by (symmetry; exact Er) end.
  cbn [bind] in *. rewrite Hb in *.
  destruct (setup_regular tr grid (not_str_1 Rops n) dg Hb) as [U S]. { rewrite Hb. exact Ed. }
  assert (Ls : length st = length vel). { apply P_Analyze2.mapM_length in Es. rewrite Es, combine_length. pose proof (Nat.min_id (length vel)) as M. rewrite <- Lv in M at 1. exact M. }
  rewrite (offset_reverse (list R) (sacf_f Rops) st [] ) with (e := e); try assumption; [|exact (eq_trans Hl (eq_sym Ls))].
  intros a b Ha Hb'. apply sacf_sym.
  destruct (P_Analyze2.mapM_In _ _ _ _ _ _ Es Ha) as [pa [_ Ea]]. destruct (P_Analyze2.mapM_In _ _ _ _ _ _ Es Hb') as [pb [_ Eb]].
  apply stress_length in Ea. apply stress_length in Eb. exact (eq_trans Ea (eq_sym Eb)).
Qed.
Print Assumptions C109_stress_partial.

(** ** Scattering functions *)
Lemma rmean_permutation : forall a b, Permutation a b -> rmean a = rmean b.
Proof. intros a b P. unfold rmean. rewrite (rsum_perm a b P), (Permutation_length P). reflexivity. Qed.

Lemma fkt_normalize_same : forall K steps dg skip a b a' b' r,
  fkt_compute K steps dg skip false a b = Ok r -> fkt_compute K steps dg skip false a' b' = Ok r ->
  fkt_compute K steps dg skip true a' b' = fkt_compute K steps dg skip true a b.
Proof.
  intros K steps dg skip a b a' b' r H H'. unfold fkt_compute in *.
  destruct (densities K a) as [ra|]; [|discriminate H]. destruct (densities K a') as [ra'|]; [|discriminate H']. cbn [bind] in *.
  destruct (match b with None => Ok ra | Some q => densities K q end) as [rb|]; [|discriminate H].
  destruct (match b' with None => Ok ra' | Some q => densities K q end) as [rb'|]; [|discriminate H']. cbn [bind] in *.
  destruct (over_shells (fun st kvec => tcf_vector (collective_sum ra rb kvec) 1 steps (length ra) dg skip st) _ _) as [s|]; [|discriminate H].
  destruct (over_shells (fun st kvec => tcf_vector (collective_sum ra' rb' kvec) 1 steps (length ra') dg skip st) _ _) as [s'|]; [|discriminate H'].
  cbn [bind] in *. destruct (tcf_values s) as [[t v]|]; [|discriminate H]. destruct (tcf_values s') as [[t' v']|]; [|discriminate H'].
  cbn [bind fst snd] in *. apply Ok_inj in H. apply Ok_inj in H'. subst r. injection H' as -> _ ->. reflexivity.
Qed.

Lemma pair_mean_reverse : forall (s s' : list R -> nat -> nat -> R) e steps dg vs d,
  every e steps -> (0 < e)%Z -> (forall p, In p dg -> Spec_Time.usable steps [0%nat] p) -> StronglySorted Z.lt (map (Spec_Time.lag_dt steps) dg) ->
  (exists p, In p (admitted dg 1 (length steps)) /\ pair_dt steps p = d) ->
  (forall v i j, (i < length steps)%nat -> (j < length steps)%nat ->
     s' v (length steps - 1 - i)%nat (length steps - 1 - j)%nat = s v j i) ->
  pair_mean s' steps (admitted dg 1 (length steps)) vs d = pair_mean s steps (admitted dg 1 (length steps)) vs d.
Proof.
  intros s s' e steps dg vs d Ev He U S Hd Hs. unfold pair_mean.
  assert (Hd' : exists k, In (0%nat, k) dg /\ d = (Z.of_nat k * e)%Z).
  { assert (P : forall dt, In dt [d] -> exists p, In p (admitted dg 1 (length steps)) /\ pair_dt steps p = dt) by (intros dt [<-|[]]; exact Hd).
    destruct Hd as [p [Hp Ep]]. unfold admitted in Hp. apply in_flat_map in Hp. destruct Hp as [[o k] [Hq Hp]]. destruct (U _ Hq) as [[Ho|[]] L].
    cbn [fst snd] in *. subst o. exists k. split; [exact Hq|]. rewrite origins_all in Hp. apply in_map_iff in Hp. destruct Hp as [i [<- Hi]]. apply in_seq in Hi.
    rewrite <- Ep, every_dt with (c := e) by (try assumption; lia). f_equal. lia. }
  destruct Hd' as [k [Hk ->]]. rewrite every_pairs by assumption. destruct (U _ Hk) as [_ L]. cbn [fst snd] in L.
  apply rmean_permutation. induction vs as [|v vs IH]; [constructor|]. cbn [flat_map]. apply Permutation_app; [|exact IH].
  assert (E : map (fun p => s' v (fst p) (snd p)) (apart (length steps) k) = rev (map (fun p => s v (fst p) (snd p)) (apart (length steps) k))).
  { unfold apart. rewrite !map_map. cbn [fst snd]. rewrite <- map_flip_seq. apply map_ext_in. intros i Hi. apply in_seq in Hi.
    rewrite <- (Hs v (length steps - k - 1 - i)%nat (length steps - k - 1 - i + k)%nat) by lia. f_equal; lia. }
  rewrite E. apply Permutation_sym, Permutation_rev.
Qed.

Lemma fs_pair_sym : forall v a b, length a = length b -> fs_pair v a b = fs_pair v b a.
Proof.
  intros v a b L. unfold fs_pair. f_equal. apply (combine_sym_map _ _ (fun x y => cos (dot v x - dot v y))). intros x y.
  rewrite <- (cos_neg (dot v x - dot v y)). f_equal. ring.
Qed.
Lemma density_cross_sym : forall v a b, density_cross v a b = density_cross v b a.
Proof. intros v a b. unfold density_cross. ring. Qed.

Lemma scatter_regular : forall steps dt total ts user normalize single dg, scatter_grid steps 1 dt total ts user normalize single = Ok dg ->
  (forall p, In p dg -> Spec_Time.usable steps [0%nat] p) /\ StronglySorted Z.lt (map (Spec_Time.lag_dt steps) dg).
Proof.
  intros steps dt total ts user normalize single dg H. unfold scatter_grid in H.
  destruct (scatter_times total ts user normalize) as [g|]; [|discriminate H]. cbn [bind] in H.
  exact (setup_regular (mkTraj (A:=Rops) steps 1 dt total 0) g _ dg eq_refl H).
Qed.

(** Self part: both implementations, normalised or not. *)
Theorem C109_self_scattering_partial : forall nb K e steps dt total ts user normalize single dg pos N,
  P_Sk.usable K -> ks_vectors K <> [] -> length steps = length pos -> same_particles (length (ks_k0 K)) pos N ->
  every e steps -> (0 < e)%Z -> scatter_grid steps 1 dt total ts user normalize single = Ok dg ->
  fskt_legacy K steps dg 1 normalize (rev pos) = fskt_legacy K steps dg 1 normalize pos /\
  fskt_fast nb K steps dg 1 normalize (rev pos) = fskt_fast nb K steps dg 1 normalize pos.
Proof.
  intros nb K e steps dt total ts user normalize single dg pos N U Hv Ls SP Ev He Hg.
  destruct (scatter_regular _ _ _ _ _ _ _ _ Hg) as [Ud Sd].
  assert (SP' : same_particles (length (ks_k0 K)) (rev pos) N).
  { destruct SP as [H1 [H2 H3]]. split; [exact H1|]. split.
    - intros X. apply H2. rewrite <- (rev_involutive pos), X. reflexivity.
    - intros f Hf. apply H3. apply in_rev. exact Hf. }
  assert (Ls' : length steps = length (rev pos)) by (rewrite rev_length; exact Ls).
  destruct (C46_value K steps dg 1 pos N U Hv (le_n 1) Ls SP) as [d1 [R1 [_ [L1 F1]]]].
  destruct (C46_value K steps dg 1 (rev pos) N U Hv (le_n 1) Ls' SP') as [d2 [R2 [_ [L2 F2]]]].
  rewrite rev_length in R2, L2, F2. rewrite (P_Relations2.reported_unique _ _ _ _ R2 R1) in *. clear R2 d2.
  assert (E : self_values (rev pos) steps (admitted dg 1 (length pos)) (kvectors Rops K) d1 = self_values pos steps (admitted dg 1 (length pos)) (kvectors Rops K) d1).
  { unfold self_values. apply map_ext. intros vs. apply map_ext_in. intros d Hd. rewrite <- Ls in R1 |- *. apply (pair_mean_reverse _ _ e); try assumption.
    - apply R1. exact Hd.
    - intros v i j Hi Hj. rewrite !rev_nth by lia. rewrite <- Ls.
      replace (length steps - S (length steps - 1 - i))%nat with i by lia. replace (length steps - S (length steps - 1 - j))%nat with j by lia.
      apply fs_pair_sym. destruct SP as [_ [_ H3]].
      destruct (H3 (nth i pos [])) as [Hi' _]; [apply nth_In; lia|]. destruct (H3 (nth j pos [])) as [Hj' _]; [apply nth_In; lia|]. congruence. }
  rewrite E in L2, F2.
  assert (G : fskt_legacy K steps dg 1 normalize (rev pos) = fskt_legacy K steps dg 1 normalize pos).
  { rewrite <- L1 in L2. destruct normalize; [|exact L2]. unfold fskt_legacy, self_compute in *.
    destruct (self_loop self_sum legacy_block K steps dg 1 pos) as [s1|]; cbn [bind] in *; [|discriminate L1].
    destruct (self_loop self_sum legacy_block K steps dg 1 (rev pos)) as [s2|]; cbn [bind] in *; [|rewrite L1 in L2; discriminate L2].
    destruct (tcf_values s1) as [t1|]; cbn [bind] in *; [|discriminate L1]. destruct (tcf_values s2) as [t2|]; cbn [bind] in *; [|discriminate L2].
    apply Ok_inj in L2. rewrite L2. reflexivity. }
  split; [exact G|].
  rewrite (C46_fast_is_legacy nb K steps dg 1 (rev pos) N normalize), (C46_fast_is_legacy nb K steps dg 1 pos N normalize); try assumption; auto.
Qed.
Print Assumptions C109_self_scattering_partial.

(** Two groups of particles: reversing the direction of time exchanges them.  For a single
    group nothing changes. *)
Theorem C109_scattering_partial : forall K e steps dt total ts user normalize single dg pos0 pos1,
  P_Sk.usable K -> ks_vectors K <> [] -> (length (ks_k0 K) = 2 \/ length (ks_k0 K) = 3)%nat ->
  length steps = length pos0 -> length pos1 = length pos0 ->
  group_ok (length (ks_k0 K)) pos0 -> group_ok (length (ks_k0 K)) pos1 ->
  every e steps -> (0 < e)%Z -> scatter_grid steps 1 dt total ts user normalize single = Ok dg ->
  fkt_compute K steps dg 1 normalize (rev pos0) (Some (rev pos1)) = fkt_compute K steps dg 1 normalize pos1 (Some pos0) /\
  fkt_compute K steps dg 1 normalize (rev pos0) None = fkt_compute K steps dg 1 normalize pos0 None.
Proof.
  intros K e steps dt total ts user normalize single dg pos0 pos1 U Hv H23 L0 L1 G0 G1 Ev He Hg.
  destruct (scatter_regular _ _ _ _ _ _ _ _ Hg) as [Ud Sd].
  assert (Rv : forall g, group_ok (length (ks_k0 K)) g -> group_ok (length (ks_k0 K)) (rev g)).
  { intros g Gg f Hf. apply Gg. apply in_rev. exact Hf. }
  assert (Main : forall a b same, length a = length steps -> length b = length steps -> group_ok (length (ks_k0 K)) a -> group_ok (length (ks_k0 K)) b ->
    (same = true -> b = a) ->
    fkt_compute K steps dg 1 normalize (rev a) (second same (rev b)) = fkt_compute K steps dg 1 normalize b (second same a)).
  { intros a b same La Lb Ga Gb Sm.
    destruct (C47_value_partial K steps dg 1 b a same U Hv H23 (le_n 1) (eq_sym Lb) (eq_trans La (eq_sym Lb)) Gb Ga) as [d1 [R1 E1]]; [intros X; symmetry; auto|].
    assert (LA : length steps = length (rev a)) by (rewrite rev_length; symmetry; exact La).
    assert (LB : length (rev b) = length (rev a)) by (rewrite !rev_length; congruence).
    destruct (C47_value_partial K steps dg 1 (rev a) (rev b) same U Hv H23 (le_n 1) LA LB (Rv _ Ga) (Rv _ Gb)) as [d2 [R2 E2]]; [intros X; rewrite (Sm X); reflexivity|].
    rewrite rev_length in R2, E2. rewrite La in R2, E2. rewrite Lb in R1, E1. rewrite (P_Relations2.reported_unique _ _ _ _ R2 R1) in *. clear R2 d2.
    cbv zeta in E1, E2.
    assert (E : collective_values (rev a) (rev b) steps (admitted dg 1 (length steps)) (kvectors Rops K) d1
              = collective_values b a steps (admitted dg 1 (length steps)) (kvectors Rops K) d1).
    { unfold collective_values. apply map_ext. intros vs. apply map_ext_in. intros d Hd. apply (pair_mean_reverse _ _ e); try assumption.
      - apply R1. exact Hd.
      - intros v i j Hi Hj. rewrite !rev_nth by lia. rewrite La, Lb.
        replace (length steps - S (length steps - 1 - i))%nat with i by lia. replace (length steps - S (length steps - 1 - j))%nat with j by lia.
        apply density_cross_sym. }
    rewrite E in E2. rewrite <- E1 in E2. destruct normalize; [|exact E2].
    apply fkt_normalize_same with (1 := E1). rewrite E2. exact E1. }
  split.
  - apply (Main pos0 pos1 false); try assumption; [symmetry; exact L0|congruence|discriminate].
  - apply (Main pos0 pos0 true); try assumption; try (symmetry; exact L0). reflexivity.
Qed.
Print Assumptions C109_scattering_partial.

(** With fewer time origins the result depends on the direction of time: a single origin,
    first a short, then a long step. *)
Theorem C109_origins_refuted :
  let tr := mkTraj (A:=F64ops) [0; 1; 2]%Z 1 (f64_ofZ 1) (f64_ofZ 2) 1 in
  let x := map (map (map f64_ofZ)) [[[0]]; [[1]]; [[3]]]%Z in
  let grid := Some (map f64_ofZ [0; 1]%Z) in
  every 1 (t_steps tr) /\
  msd_compute F64ops tr grid (f64_ofZ (-1)) 30 (NoInt 1) false x = Ok (map f64_ofZ [0; 1]%Z, map f64_ofZ [0; 1]%Z) /\
  msd_compute F64ops (backwards tr) grid (f64_ofZ (-1)) 30 (NoInt 1) false (rev x) = Ok (map f64_ofZ [0; 1]%Z, map f64_ofZ [0; 4]%Z).
Proof. repeat split; try (vm_compute; reflexivity). intros [|[|[|i]]] H; cbn in H |- *; lia. Qed.
Print Assumptions C109_origins_refuted.

(** The two groups of C48, seen backwards: F_AB is the F_BA of before. *)
Example C109_nonvacuous_scattering :
  let A := [[[0; 0; 0]]; [[/ 2; 0; 0]]] in
  let B := [[[0; 0; 0]]; [[0; 0; 0]]] in
  exists dg, scatter_grid [0; 1]%Z 1 1 1 5 (Some [0; 1]) true false = Ok dg /\ In (0, 1)%nat dg /\
  group_ok (length (ks_k0 K48)) A /\ group_ok (length (ks_k0 K48)) B /\ same_particles (length (ks_k0 K48)) A 1 /\
  fkt_compute K48 [0; 1]%Z dg 1 true (rev A) (Some (rev B)) = fkt_compute K48 [0; 1]%Z dg 1 true B (Some A) /\
  fskt_legacy K48 [0; 1]%Z dg 1 true (rev A) = fskt_legacy K48 [0; 1]%Z dg 1 true A.
Proof.
  intros A B.
  assert (Gr : scatter_grid [0; 1]%Z 1 1 1 5 (Some [0; 1]) true false = Ok [(0, 0); (0, 1)]%nat).
  { unfold scatter_grid, scatter_times, get. cbn [nth_error bind]. destruct (Rlt_dec 0 0) as [H|_]; [lra|].
    assert (T : forall t z, t = IZR z -> to_step Rops 1 t = Ok z).
    { intros t z ->. unfold to_step, pydiv. cbn. unfold Reqb. destruct (Req_EM_T 1 0); [lra|]. cbn [bind].
      rewrite (Rrint_unique (IZR z / 1) z); [reflexivity|]. replace (IZR z / 1 - IZR z) with 0 by field. rewrite Rabs_R0. lra. }
    cbn [bind]. unfold setup_t_grid. cbn [mapM]. rewrite (T 0 0%Z), (T 1 1%Z) by reflexivity. reflexivity. }
  exists [(0, 0); (0, 1)]%nat.
  assert (GA : group_ok (length (ks_k0 K48)) A).
  { intros f [<-|[<-|[]]]; (split; [discriminate|]); intros x [<-|[]]; reflexivity. }
  assert (GB : group_ok (length (ks_k0 K48)) B).
  { intros f [<-|[<-|[]]]; (split; [discriminate|]); intros x [<-|[]]; reflexivity. }
  assert (SP : same_particles (length (ks_k0 K48)) A 1).
  { split; [lia|]. split; [discriminate|]. intros f [<-|[<-|[]]]; (split; [reflexivity|]); intros x [<-|[]]; reflexivity. }
  assert (Ev : every 1 [0; 1]%Z) by (intros [|[|i]] H; cbn in H |- *; lia).
  repeat (split; [first [exact Gr|exact GA|exact GB|exact SP|right; left; reflexivity]|]). split.
  - apply (C109_scattering_partial K48 1 [0; 1]%Z 1 1 5 (Some [0; 1]) true false); try assumption; try reflexivity; try lia; try exact K48_usable; try discriminate; right; reflexivity.
  - apply (C109_self_scattering_partial 1%Z K48 1 [0; 1]%Z 1 1 5 (Some [0; 1]) true false _ A 1); try assumption; try reflexivity; try lia; try exact K48_usable; discriminate.
Qed.
