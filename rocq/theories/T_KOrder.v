(** Theorems on the order of the reported wave-numbers: C139. *)
From Coq Require Import List ZArith Bool Arith Reals Lra Lia Permutation Floats.SpecFloat.
From Verif Require Import PyBase PyBaseFacts Num NumFacts P_Text F64Round F64Ops F64Facts M_Helpers M_KGrid Spec_Stats Spec_BondAngle
  P_BondAngle Spec_KGrid P_KGrid P_KGrid2 P_KGrid3 P_KGrid4 T_KGrid.
Import ListNotations.
Local Open Scope R_scope.

Lemma rsum_strict : forall (l : list R) a b, l <> [] -> (forall v, In v l -> a < v < b) -> INR (length l) * a < rsum l < INR (length l) * b.
Proof.
  intros l a b Hn H. induction l as [|x r IH]; [congruence|]. cbn [length rsum fold_right]. rewrite S_INR. destruct r as [|y r].
  - specialize (H x (or_introl eq_refl)). cbn. lra.
  - assert (B : INR (length (y :: r)) * a < rsum (y :: r) < INR (length (y :: r)) * b) by (apply IH; [congruence|intros; apply H; right; assumption]).
    specialize (H x (or_introl eq_refl)). change (fold_right Rplus 0 (y :: r)) with (rsum (y :: r)). lra.
Qed.
Lemma rmean_strict : forall (l : list R) a b, l <> [] -> (forall v, In v l -> a < v < b) -> a < rmean l < b.
Proof.
  intros l a b Hn H. destruct (rsum_strict l a b Hn H) as [A B]. assert (0 < INR (length l)) by (apply lt_0_INR; destruct l; [congruence|cbn; lia]).
  unfold rmean. split; apply Rmult_lt_reg_l with (INR (length l)); try assumption; unfold Rdiv; rewrite <- Rmult_assoc, Rinv_r_simpl_m; lra.
Qed.

(** Each reported wave-number is the mean norm of some vectors of its shell. *)
Lemma reported_means : forall fuel tp (g : rng) p (side : list R) s grid st u s' kgrid, sampler_ok g -> (1 <= kp_nk Rops p)%Z ->
  initial_kgrid Rops p (cell_k0 Rops tp side) grid = Ok kgrid -> setup Rops fuel tp g p side s grid = Ok (st, u, s') ->
  exists shells off, setup_grid_sphere Rops fuel (map (fun _ => kp_dk Rops p) kgrid) kgrid (cell_k0 Rops tp side) = Ok (shells, off) /\
    length (ks_grid st) = length shells /\
    forall i K, nth_error (ks_grid st) i = Some K -> exists shell kept, nth_error shells i = Some shell /\ kept <> [] /\ incl kept shell /\
      K = rmean (map (fun t => norm (wave (cell_k0 Rops tp side) (unshift off t))) kept).
Proof.
  intros fuel tp g p side s grid st u s' kgrid G Hnk E H. destruct (C39_decimation fuel tp g p side s grid st u s' G Hnk H) as [_ [Eg [kg [shells [E1 [E2 F]]]]]].
  rewrite E in E1. apply Ok_inj in E1. subst kg. exists shells, (ks_offset st). split; [exact E2|].
  assert (K0 : ks_k0 st = cell_k0 Rops tp side).
  { unfold setup in H. cbv zeta in H. apply bind_Ok_inv in H. destruct H as [? [_ H]]. apply bind_Ok_inv in H. destruct H as [? [_ H]]. apply bind_Ok_inv in H. destruct H as [? [_ H]]. apply Ok_inj in H.
    assert (X : st = fst (fst (st, u, s'))) by reflexivity. rewrite <- H in X. rewrite X. reflexivity. }
  rewrite kvectors_R, K0, map_map in Eg. clear H E E2. change (num Rops) with R in *. rewrite Eg, map_length. clear Eg. set (o := ks_offset st). generalize dependent (ks_vectors st). intros vs F.
  split; [induction F; cbn; [reflexivity|lia]|]. intros i K Hi. rewrite nth_error_map in Hi. destruct (nth_error vs i) as [kept|] eqn:Ek; [|discriminate]. injection Hi as Hi.
  revert i Ek Hi. induction F as [|kp sh ks ss HF F IH]; intros [|i] Ek Hi; cbn in Ek; try discriminate.
  - injection Ek as <-. exists sh, kp. destruct HF as [N [_ [_ I]]]. split; [reflexivity|]. split; [exact N|]. split; [exact I|]. rewrite <- Hi, map_map. reflexivity.
  - cbn [nth_error]. eapply IH; eassumption.
Qed.

(** ** C139 *)
(** With the final widths: a reported wave-number is within the width of the requested one, hence not zero if the
    width is not larger than the requested wave-number; and two wave-numbers are reported in the order in which
    they are requested if their shells, as finally widened, do not overlap.  Missing: the case of overlapping
    shells, see C139_order_refuted and C139_zero_refuted. *)
Theorem C139_separated_partial : forall fuel tp (g : rng) p (side : list R) s grid st u s' kgrid, sampler_ok g -> (1 <= kp_nk Rops p)%Z ->
  (forall L, In L side -> 0 < L) -> 0 < tp -> 0 < kp_dk Rops p ->
  initial_kgrid Rops p (cell_k0 Rops tp side) grid = Ok kgrid -> (forall k, In k kgrid -> 0 <= k) -> setup Rops fuel tp g p side s grid = Ok (st, u, s') ->
  exists dks, length dks = length kgrid /\ (forall d, In d dks -> exists w : nat, d = kp_dk Rops p * (12 / 10) ^ w) /\ length (ks_grid st) = length kgrid /\
    (forall i K k d, nth_error (ks_grid st) i = Some K -> nth_error kgrid i = Some k -> nth_error dks i = Some d -> Rabs (K - k) < d /\ (d <= k -> 0 < K)) /\
    (forall i j Ki Kj ki kj di dj, nth_error (ks_grid st) i = Some Ki -> nth_error (ks_grid st) j = Some Kj -> nth_error kgrid i = Some ki -> nth_error kgrid j = Some kj ->
       nth_error dks i = Some di -> nth_error dks j = Some dj -> ki + di <= kj - dj -> Ki < Kj).
Proof.
  intros fuel tp g p side s grid st u s' kgrid G Hnk Ps Pt Pd E Pg H. destruct (reported_means _ _ _ _ _ _ _ _ _ _ _ G Hnk E H) as [shells [off [Es [Lg M]]]].
  assert (Pk : forall k, In k (cell_k0 Rops tp side) -> 0 < k) by (intros k Hk; apply in_map_iff in Hk; destruct Hk as [L [<- HL]]; cbn; apply Rdiv_lt_0_compat; [exact Pt|apply Ps; exact HL]).
  destruct (C37_shells _ _ _ _ _ _ Pk Pg Pd Es) as [dks [Ld [W [Lk [_ [S _]]]]]]. change (num Rops) with R in *. exists dks. split; [exact Ld|]. split; [exact W|]. split; [exact (eq_trans Lg Lk)|].
  assert (B : forall i K k d, nth_error (ks_grid st) i = Some K -> nth_error kgrid i = Some k -> nth_error dks i = Some d -> k - d < K < k + d).
  { intros i K k d HK Hk Hd. destruct (M i K HK) as [shell [kept [Hs [N [I ->]]]]]. apply rmean_strict; [destruct kept; [congruence|discriminate]|].
    intros v Hv. apply in_map_iff in Hv. destruct Hv as [t [<- Ht]]. apply I in Ht. apply (S i shell Hs) in Ht. destruct Ht as [_ [[[k' [d' [Hk' [Hd' Hw]]]] _] _]].
    rewrite Hk in Hk'. rewrite Hd in Hd'. injection Hk' as <-. injection Hd' as <-. unfold within in Hw. apply Rabs_def2 in Hw. lra. }
  split.
  - intros i K k d HK Hk Hd. pose proof (B i K k d HK Hk Hd) as Q. split; [apply Rabs_def1; lra|lra].
  - intros i j Ki Kj ki kj di dj HKi HKj Hki Hkj Hdi Hdj Hs. pose proof (B i Ki ki di HKi Hki Hdi). pose proof (B j Kj kj dj HKj Hkj Hdj). lra.
Qed.
Print Assumptions C139_separated_partial.

(** If no shell has to be widened, the wave-numbers are reported in strictly increasing order, however much the
    shells overlap.  Missing: grids for which a shell is widened. *)
Theorem C139_increasing_partial : forall fuel tp (g : rng) p (side : list R) s grid st u s' kgrid, sampler_ok g -> (1 <= kp_nk Rops p)%Z ->
  (forall L, In L side -> 0 < L) -> 0 < tp -> 0 < kp_dk Rops p -> (length side = 2 \/ length side = 3)%nat ->
  initial_kgrid Rops p (cell_k0 Rops tp side) grid = Ok kgrid -> kgrid <> [] -> ascending kgrid -> (forall k, In k kgrid -> 0 <= k) ->
  (forall i, (i < length kgrid)%nat -> exists n, length n = length side /\ in_shell kgrid (map (fun _ => kp_dk Rops p) kgrid) (wave (cell_k0 Rops tp side) n) i) ->
  setup Rops fuel tp g p side s grid = Ok (st, u, s') ->
  (forall i K k, nth_error (ks_grid st) i = Some K -> nth_error kgrid i = Some k -> Rabs (K - k) < kp_dk Rops p) /\
  forall i j Ki Kj, (i < j)%nat -> nth_error (ks_grid st) i = Some Ki -> nth_error (ks_grid st) j = Some Kj -> Ki < Kj.
Proof.
  intros fuel tp g p side s grid st u s' kgrid G Hnk Ps Pt Pd D E Ne As Pg Pop H. destruct (reported_means _ _ _ _ _ _ _ _ _ _ _ G Hnk E H) as [shells [off [Es [Lg M]]]].
  set (k0 := cell_k0 Rops tp side) in *. set (dk := kp_dk Rops p) in *.
  assert (Lk0 : length k0 = length side) by (unfold k0, cell_k0; apply map_length).
  assert (Pk : forall k, In k k0 -> 0 < k) by (intros k Hk; apply in_map_iff in Hk; destruct Hk as [L [<- HL]]; cbn; apply Rdiv_lt_0_compat; [exact Pt|apply Ps; exact HL]).
  assert (CS : forall i shell, nth_error shells i = Some shell -> forall t, In t shell -> in_shell kgrid (map (fun _ => dk) kgrid) (wave k0 (unshift off t)) i).
  { rewrite <- Lk0 in D, Pop. destruct (complete_shells fuel dk kgrid k0 Pk Pg Pd D Ne As Pop) as [kvec [off' [E' C]]].
    pose proof (setup_grid_more fuel (S fuel) _ _ _ _ ltac:(lia) Es) as E2. assert (X : Ok (shells, off) = Ok (kvec, off')) by exact (eq_trans (eq_sym E2) E'). apply Ok_inj in X. injection X as <- <-. intros i shell Hi t Ht. apply (C i shell Hi t) in Ht. apply Ht. }
  destruct (C37_shells _ _ _ _ _ _ Pk Pg Pd Es) as [_ [_ [_ [Lk _]]]].
  assert (Lm : length (ks_grid st) = length kgrid) by exact (eq_trans Lg Lk). change (num Rops) with R in *.
  assert (KG : forall i K, nth_error (ks_grid st) i = Some K -> exists k, nth_error kgrid i = Some k).
  { intros i K HK. destruct (nth_error kgrid i) as [k|] eqn:X; [eauto|]. apply nth_error_None in X. assert (Y : nth_error (ks_grid st) i <> None) by (rewrite HK; discriminate). apply nth_error_Some in Y. exfalso. exact (Nat.lt_irrefl _ (Nat.lt_le_trans _ _ _ Y (Nat.le_trans _ _ _ (Nat.eq_le_incl _ _ Lm) X))). }
  assert (IN : forall i k t shell, nth_error shells i = Some shell -> In t shell -> nth_error kgrid i = Some k -> k - dk < norm (wave k0 (unshift off t)) < k + dk).
  { intros i k t shell Hs Ht Hk. destruct (CS i shell Hs t Ht) as [[k' [d' [Hk' [Hd' Hw]]]] _]. rewrite Hk in Hk'. injection Hk' as <-. apply nth_error_In in Hd'. apply in_map_iff in Hd'. destruct Hd' as [? [<- _]]. unfold within in Hw. apply Rabs_def2 in Hw. lra. }
  assert (UP : forall i j k t shell, (i < j)%nat -> nth_error shells j = Some shell -> In t shell -> nth_error kgrid i = Some k -> k + dk <= norm (wave k0 (unshift off t))).
  { intros i j k t shell Hij Hs Ht Hk. destruct (CS j shell Hs t Ht) as [[k' [d' [Hk' [Hd' Hw]]]] No]. specialize (No i k dk Hij Hk). apply nth_error_In in Hd'. apply in_map_iff in Hd'. destruct Hd' as [? [<- _]]. pose proof (As i j k k' Hij Hk Hk').
    unfold within in *. apply Rabs_def2 in Hw. destruct (Rle_or_lt (k + dk) (norm (wave k0 (unshift off t)))) as [Q|Q]; [exact Q|]. exfalso. apply No; [rewrite nth_error_map, Hk; reflexivity|apply Rabs_def1; lra]. }
  split.
  - intros i K k HK Hk. destruct (M i K HK) as [shell [kept [Hs [N [I ->]]]]]. assert (k - dk < rmean (map (fun t => norm (wave k0 (unshift off t))) kept) < k + dk).
    { apply rmean_strict; [destruct kept; [congruence|discriminate]|]. intros v Hv. apply in_map_iff in Hv. destruct Hv as [t [<- Ht]]. apply (IN i k t shell Hs); [apply I; exact Ht|exact Hk]. }
    apply Rabs_def1; lra.
  - intros i j Ki Kj Hij HKi HKj. destruct (KG i Ki HKi) as [k Hk]. apply Rlt_le_trans with (k + dk).
    + destruct (M i Ki HKi) as [shell [kept [Hs [N [I ->]]]]]. apply (rmean_strict _ (k - dk)); [destruct kept; [congruence|discriminate]|]. intros v Hv. apply in_map_iff in Hv. destruct Hv as [t [<- Ht]]. apply (IN i k t shell Hs); [apply I; exact Ht|exact Hk].
    + destruct (M j Kj HKj) as [shell [kept [Hs [N [I ->]]]]]. apply Rnot_lt_le. intros Q.
      destruct kept as [|t0 r] eqn:Ek; [congruence|]. rewrite <- Ek in *.
      assert (X : forall e, 0 < e -> k + dk - e < rmean (map (fun t => norm (wave k0 (unshift off t))) kept)).
      { intros e He. destruct (KG j _ HKj) as [k' Hk']. apply (rmean_strict _ (k + dk - e) (k' + dk)); [rewrite Ek; discriminate|]. intros v Hv. apply in_map_iff in Hv. destruct Hv as [t [<- Ht]]. apply I in Ht.
        pose proof (UP i j k t shell Hij Hs Ht Hk). pose proof (IN j k' t shell Hs Ht Hk'). lra. }
      specialize (X (k + dk - rmean (map (fun t => norm (wave k0 (unshift off t))) kept)) ltac:(lra)). lra.
Qed.
Print Assumptions C139_increasing_partial.

(** The wave-numbers 1.715 and 1.72 in a cubic cell whose smallest wave-number is 1, with dk = 0.02: the first shell
    has the vectors of norm 1.732; the second is widened until it has those of norm 1.414 and 2.  All vectors are
    kept, and the reported wave-numbers decrease. *)
Theorem C139_order_refuted : let one := f64_ofZ 1 in
  let p := mkP (A := F64ops) (f64_frac 2 100) 100 (f64_ofZ (-1)) (f64_ofZ 10) 20 in
  exists st u s K1 K2, setup F64ops 20 one first_n p [one; one; one] 0%nat (Some [f64_frac 1715 1000; f64_frac 172 100]) = Ok (st, u, s) /\
    ks_grid st = [K1; K2] /\ SFltb K2 (f64_frac 161 100) = true /\ SFltb (f64_frac 173 100) K1 = true.
Proof.
  intros one p.
  assert (C : match setup F64ops 20 one first_n p [one; one; one] 0%nat (Some [f64_frac 1715 1000; f64_frac 172 100]) with
              | Ok r => match ks_grid (fst (fst r)) with [K1; K2] => SFltb K2 (f64_frac 161 100) && SFltb (f64_frac 173 100) K1 | _ => false end
              | Err _ => false end = true) by (vm_compute; reflexivity).
  destruct (setup F64ops 20 one first_n p [one; one; one] 0%nat (Some [f64_frac 1715 1000; f64_frac 172 100])) as [[[st u] s]|e]; [|discriminate]. cbn [fst] in C.
  destruct (ks_grid st) as [|K1 [|K2 [|K3 l]]] eqn:Eg; try discriminate. apply andb_prop in C. exists st, u, s, K1, K2. split; [reflexivity|]. split; [exact Eg|exact C].
Qed.
Print Assumptions C139_order_refuted.

(** No grid is given, and kmax = 1/2 is below the smallest wave-number 1 of the cell: the wave-numbers reported are
    1 and 0, the latter with the zero vector in its shell. *)
Definition same_lists (a b : list (list Z)) : bool := if list_eq_dec (list_eq_dec Z.eq_dec) a b then true else false.
Theorem C139_zero_refuted : let one := f64_ofZ 1 in
  let p := mkP (A := F64ops) (f64_frac 1 10) 8 (f64_ofZ (-1)) (f64_frac 1 2) 2 in
  exists st u s K1 K2 shell, setup F64ops 20 one first_n p [one; one; one] 0%nat None = Ok (st, u, s) /\
    ks_grid st = [K1; K2] /\ SFeqb K1 one = true /\ SFeqb K2 (f64_ofZ 0) = true /\ ks_vectors st = [shell; [[2%Z; 2%Z; 2%Z]]] /\ ks_offset st = 2%Z.
Proof.
  intros one p.
  assert (C : match setup F64ops 20 one first_n p [one; one; one] 0%nat None with
              | Ok r => match ks_grid (fst (fst r)), ks_vectors (fst (fst r)) with [K1; K2], [s1; s2] => SFeqb K1 one && SFeqb K2 (f64_ofZ 0) && (same_lists s2 [[2%Z; 2%Z; 2%Z]] && (ks_offset (fst (fst r)) =? 2)%Z) | _, _ => false end
              | Err _ => false end = true) by (vm_compute; reflexivity).
  destruct (setup F64ops 20 one first_n p [one; one; one] 0%nat None) as [[[st u] s]|e]; [|discriminate]. cbn [fst] in C.
  destruct (ks_grid st) as [|K1 [|K2 [|K3 l]]] eqn:Eg; try discriminate. destruct (ks_vectors st) as [|s1 [|s2 [|s3 l]]] eqn:Ev; try discriminate.
  apply andb_prop in C. destruct C as [C1 C2]. apply andb_prop in C1. apply andb_prop in C2. destruct C2 as [C2 C3]. apply Z.eqb_eq in C3. unfold same_lists in C2. destruct (list_eq_dec _ s2 _) as [->|]; [|discriminate].
  exists st, u, s, K1, K2, s1. split; [reflexivity|]. split; [exact Eg|]. split; [apply C1|]. split; [apply C1|]. split; [exact Ev|exact C3].
Qed.
Print Assumptions C139_zero_refuted.

(** A square cell, wave-numbers 1 and 2, width 1/2: no shell is widened, and the hypotheses of C139 hold. *)
Definition p_order : kparams Rops := mkP (A := Rops) (/ 2) 8 (-1) 10 20.
Example C139_nonvacuous : let k0 := cell_k0 Rops 1 [1; 1] in sampler_ok first_n /\ (1 <= kp_nk Rops p_order)%Z /\ 0 < kp_dk Rops p_order /\
  initial_kgrid Rops p_order k0 (Some [1; 2]) = Ok [1; 2] /\ ascending [1; 2] /\
  (forall i, (i < length [1; 2])%nat -> exists n, length n = length [1; 1] /\ in_shell [1; 2] (map (fun _ => kp_dk Rops p_order) [1; 2]) (wave k0 n) i) /\
  exists fuel r, setup Rops fuel 1 first_n p_order [1; 1] 7%nat (Some [1; 2]) = Ok r.
Proof.
  intros k0. split; [exact first_n_ok|]. split; [cbn; lia|]. split; [cbn; lra|].
  assert (E : initial_kgrid Rops p_order k0 (Some [1; 2]) = Ok [1; 2]).
  { eapply bind_intro; [reflexivity|]. unfold sort_num. cbn [fold_right insert_num nle nlt n0 Rops]. unfold Rleb, Rltb. destruct (Rle_dec 1 2); [|exfalso; lra]. destruct (Rlt_dec 1 0); [exfalso; lra|reflexivity]. }
  split; [exact E|]. split; [intros [|[|[|i]]] [|[|[|j]]] x y Hij; cbn; try lia; try discriminate; intros [= <-] [= <-]; lra|]. split.
  - assert (W : forall z, norm (wave k0 [z; 0%Z]) = Rabs (IZR z)).
    { intros z. unfold norm, wave, k0, cell_k0. cbn [map combine fst snd dot ndiv Rops]. rewrite <- sqrt_Rsqr_abs. f_equal. unfold Rsqr, dot, rsum. cbn. field. }
    intros [|[|i]] Hi; [exists [1%Z; 0%Z]|exists [2%Z; 0%Z]|cbn in Hi; lia]; (split; [reflexivity|]); split.
    + exists 1, (/ 2). split; [reflexivity|]. split; [reflexivity|]. unfold within. rewrite W. apply Rabs_def1; rewrite Rabs_right; lra.
    + intros j k d Hj. lia.
    + exists 2, (/ 2). split; [reflexivity|]. split; [reflexivity|]. unfold within. rewrite W. apply Rabs_def1; rewrite Rabs_right; lra.
    + intros [|j] k d Hj; [|lia]. intros [= <-] [= <-] Hw. unfold within in Hw. rewrite W in Hw. apply Rabs_def2 in Hw. rewrite Rabs_right in Hw; lra.
  - eapply (C38_setup 1 first_n p_order [1; 1] 7%nat (Some [1; 2])); [cbn; intros L [<-|[<-|[]]]; lra|lra|left; reflexivity|cbn; lra|cbn; lia|exact E|congruence].
Qed.
