(** Structure factor when every frame has its own wave-vectors. *)
From Coq Require Import List ZArith Bool Arith Reals Lra Lia Permutation.
From Verif Require Import PyBase PyBaseFacts Num NumFacts M_Helpers M_KGrid M_Fourier Spec_Stats
  Spec_BondAngle P_BondAngle Spec_KGrid P_KGrid P_KGrid2 P_KGrid3 P_KGrid4 P_Expo Spec_Fourier Spec_Correlation P_Sk P_Sk2 P_Sk3.
Import ListNotations.
Local Open Scope R_scope.

Lemma nth_map_in : forall X Y (f : X -> Y) l i d e, (i < length l)%nat -> nth i (map f l) e = f (nth i l d).
Proof. intros X Y f l. induction l as [|a l IH]; intros [|i] d e H; cbn in *; try lia; [reflexivity|]. apply IH. lia. Qed.

Lemma sk_loop_var : forall n (step : list sk_acc -> nat -> res (list sk_acc)) (g : nat -> list Z -> C * C) (shells : nat -> list (list (list Z))) rng,
  (forall ls i, In i rng -> length ls = n ->
     step (map sk_fold ls) i = Ok (map sk_fold (map (fun p => fst p ++ map (g i) (snd p)) (combine ls (shells i))))) ->
  (forall i, In i rng -> length (shells i) = n) ->
  foldM step (map (fun _ => sk_acc0) (seq 0 n)) rng =
  Ok (map (fun j => sk_fold (flat_map (fun i => map (g i) (nth j (shells i) [])) rng)) (seq 0 n)).
Proof.
  intros n step g shells rng H HL.
  assert (G : forall rng pre, (forall i, In i rng -> length (shells i) = n /\ forall ls, length ls = n ->
     step (map sk_fold ls) i = Ok (map sk_fold (map (fun p => fst p ++ map (g i) (snd p)) (combine ls (shells i))))) ->
    foldM step (map (fun j => sk_fold (flat_map (fun i => map (g i) (nth j (shells i) [])) pre)) (seq 0 n)) rng =
    Ok (map (fun j => sk_fold (flat_map (fun i => map (g i) (nth j (shells i) [])) (pre ++ rng))) (seq 0 n))).
  { clear. intros rng. induction rng as [|i r IH]; intros pre H.
    - rewrite app_nil_r. reflexivity.
    - cbn [foldM]. destruct (H i (or_introl eq_refl)) as [Ln Hs].
      rewrite <- (map_map (fun j => flat_map (fun i => map (g i) (nth j (shells i) [])) pre) sk_fold).
      rewrite Hs; [|rewrite map_length, seq_length; reflexivity]. cbn [bind].
      replace (pre ++ i :: r) with ((pre ++ [i]) ++ r) by (rewrite <- app_assoc; reflexivity).
      rewrite <- IH by (intros; apply H; right; assumption). f_equal.
      rewrite map_map. apply (nth_ext _ _ (sk_fold []) (sk_fold [])).
      + rewrite !map_length, combine_length, map_length, !seq_length. lia.
      + intros j Hj. rewrite map_length, combine_length, map_length, seq_length in Hj.
        rewrite (nth_map_in _ _ _ _ _ (([] : list (C * C)), ([] : list (list Z))) _) by (rewrite combine_length, map_length, seq_length; lia).
        rewrite combine_nth by (rewrite map_length, seq_length; lia).
        rewrite (nth_map_in _ _ _ _ _ 0%nat _) by (rewrite seq_length; lia).
        rewrite (nth_map_in _ _ _ _ _ 0%nat _) by (rewrite seq_length; lia).
        rewrite seq_nth by lia. cbn [fst snd Nat.add]. rewrite flat_map_app. cbn [flat_map]. rewrite app_nil_r. reflexivity. }
  specialize (G rng [] ltac:(intros; split; [apply HL|intros; apply H]; assumption)). exact G.
Qed.

(** All the samples of shell [j]: frames used, then the vectors of the shell in that frame. *)
Definition samples_var (frames : list sk_frame) (kst : nat -> kstate Rops) (skip j : nat) : list (C * C) :=
  flat_map (fun i => map (rhos (frame_at frames i)) (nth j (kvectors Rops (kst i)) [])) (origins 0 skip (length frames)).

Lemma origins_first : forall skip n, (1 <= skip)%nat -> (1 <= n)%nat -> In 0%nat (origins 0 skip n).
Proof.
  intros skip n Hs Hn. unfold origins. apply filter_In. split; [apply in_seq; lia|].
  rewrite Nat.sub_0_r, Nat.mod_0_l by lia. reflexivity.
Qed.

Lemma structure_factor_var : forall same weighted kst skip frames n nd,
  (1 <= skip)%nat -> frames <> [] ->
  (forall i, In i (origins 0 skip (length frames)) ->
     usable (kst i) /\ length (ks_k0 (kst i)) = nd /\ length (ks_vectors (kst i)) = n) ->
  (forall f, In f frames -> sk_frame_ok nd same f) ->
  (same = true \/ nd = 2%nat \/ nd = 3%nat) ->
  structure_factor same weighted kst skip frames =
  Ok (map (fun j =>
        let l := samples_var frames kst skip j in
        let v := rmean (map (fun r => fst (cmul (fst r) (cconj (snd r)))) l) -
                 (if weighted then
                    rmean (map (fun r => fst (fst r)) l) * rmean (map (fun r => fst (snd r)) l) +
                    rmean (map (fun r => snd (fst r)) l) * rmean (map (fun r => snd (snd r)) l)
                  else 0) in
        (v / sqrt (rmean (map (fun f => INR (length (sf_pos0 f))) frames) *
                   rmean (map (fun f => INR (length (sf_pos1 f))) frames)), v))
      (seq 0 n)).
Proof.
  intros same weighted kst skip frames n nd Hs Hne HU Hf Hd. unfold structure_factor.
  assert (Hlen : (1 <= length frames)%nat) by (destruct frames; [congruence|cbn; lia]).
  pose proof (origins_first skip (length frames) Hs Hlen) as I0.
  destruct (HU _ I0) as [U0 [D0 N0]].
  rewrite py_range_spec by assumption. cbn [bind]. fold (origins 0 skip (length frames)).
  set (vec := fun i t => wave (ks_k0 (kst i)) (unshift (ks_offset (kst i)) t)).
  set (g := fun i t => rhos (frame_at frames i) (vec i t)).
  change (num Rops) with R in *. rewrite D0.
  replace (map (fun _ : R => sk_acc0) (ks_grid (kst 0%nat))) with (map (fun _ : nat => sk_acc0) (seq 0 n)).
  2: { pose proof (us_shells _ U0) as L. change (num Rops) with R in *. rewrite N0 in L. rewrite <- L. clear.
       generalize (ks_grid (kst 0%nat)) as gr. intros gr. generalize 0%nat. induction gr as [|a r IH]; intros m; cbn; [reflexivity|]. f_equal. apply IH. }
  rewrite (sk_loop_var n _ g (fun i => ks_vectors (kst i))).
  3: { intros i Hi. apply HU. assumption. }
  2: { intros ls i Hi Ll. unfold sk_step.
       destruct (HU i Hi) as [U [Dk Nk]].
       assert (Hil : (i < length frames)%nat) by (eapply origins_lt; eassumption).
       rewrite (get_Ok _ frames i no_sk_frame) by assumption. cbn [bind]. fold (frame_at frames i).
       assert (FO : sk_frame_ok nd same (frame_at frames i)) by (apply Hf; apply nth_In; assumption).
       set (f := frame_at frames i) in *. set (K := kst i) in *.
       change (num Rops) with R in *.
       destruct (expo_sphere_ok (ks_k0 K) (ks_offset K) (sf_pos0 f) (us_off K U) (so_ne0 _ _ _ FO)) as [tab0 [E0 F0]].
       { intros x Hx. rewrite (so_d0 _ _ _ FO x Hx), <- Dk. apply le_n. }
       rewrite E0. cbn [bind].
       assert (X : exists tab1, (if same then Ok tab0 else expo_sphere (ks_k0 K) (ks_offset K) (sf_pos1 f)) = Ok tab1 /\
                   (same = false -> Forall2 (row_ok (ks_k0 K) (ks_offset K)) (sf_pos1 f) tab1)).
       { destruct same.
         - exists tab0. split; [reflexivity|discriminate].
         - destruct (expo_sphere_ok (ks_k0 K) (ks_offset K) (sf_pos1 f) (us_off K U) (so_ne1 _ _ _ FO)) as [tab1 [E1 F1]].
           { intros x Hx. rewrite (so_d1 _ _ _ FO x Hx), <- Dk. apply le_n. }
           exists tab1. auto. }
       destruct X as [tab1 [E1 F1]]. rewrite E1. cbn [bind].
       apply sk_shells_pure; [congruence|].
       intros l t Hl Ht. unfold rho_pair.
       assert (Q0 : density nd tab0 (sf_w0 f) t = Ok (rho (vec i t) (sf_pos0 f) (wts (sf_w0 f) (sf_pos0 f)))).
       { eapply density_rho; [exact F0|apply FO|exact Dk| | |apply FO].
         - rewrite <- Dk. eapply us_len; eassumption.
         - intros z Hz. eapply us_idx; eassumption. }
       destruct same.
       - rewrite Q0. cbn [bind]. unfold g, rhos. fold f.
         destruct (so_same _ _ _ FO eq_refl) as [-> ->]. reflexivity.
       - assert (Q1 : density nd tab1 (sf_w1 f) t = Ok (rho (vec i t) (sf_pos1 f) (wts (sf_w1 f) (sf_pos1 f)))).
         { eapply density_rho; [exact (F1 eq_refl)|apply FO|exact Dk| | |apply FO].
           - rewrite <- Dk. eapply us_len; eassumption.
           - intros z Hz. eapply us_idx; eassumption. }
         destruct Hd as [Hd|[Hd|Hd]]; [discriminate| |]; rewrite Hd in *; cbn [Nat.eqb orb];
           rewrite Q0, Q1; reflexivity. }
  cbn [bind].
  assert (NE : forall j, In j (seq 0 n) ->
    flat_map (fun i => map (g i) (nth j (ks_vectors (kst i)) [])) (origins 0 skip (length frames)) <> []).
  { intros j Hj C. apply in_seq in Hj.
    assert (In (nth j (ks_vectors (kst 0%nat)) []) (ks_vectors (kst 0%nat))) as Hin by (apply nth_In; lia).
    pose proof (us_nonempty _ U0 _ Hin) as N.
    destruct (nth j (ks_vectors (kst 0%nat)) []) as [|t kl] eqn:E; [congruence|].
    assert (In (g 0%nat t) (flat_map (fun i => map (g i) (nth j (ks_vectors (kst i)) [])) (origins 0 skip (length frames)))) as G.
    { apply in_flat_map. exists 0%nat. split; [assumption|]. rewrite E. left. reflexivity. }
    rewrite C in G. destruct G. }
  rewrite (mapM_pure _ _ _ (fun a => match sk_value weighted a with
             | Ok v => (v / sqrt (mean_number (map sf_pos0 frames) * mean_number (map sf_pos1 frames)), v)
             | Err _ => (0, 0) end)).
  2: { intros a Ha. apply in_map_iff in Ha. destruct Ha as [j [<- Hj]].
       rewrite sk_value_fold; [reflexivity|]. apply NE. assumption. }
  f_equal. rewrite !map_map. apply map_ext_in. intros j Hj.
  rewrite sk_value_fold by (apply NE; assumption).
  assert (SM : samples_var frames kst skip j =
               flat_map (fun i => map (g i) (nth j (ks_vectors (kst i)) [])) (origins 0 skip (length frames))).
  { unfold samples_var. apply flat_map_ext. intros i. rewrite kvectors_R.
    pose proof (map_nth (map (fun t => wave (ks_k0 (kst i)) (unshift (ks_offset (kst i)) t))) (ks_vectors (kst i)) [] j) as E.
    cbn [map] in E. change (num Rops) with R in *. rewrite E, map_map. reflexivity. }
  cbv zeta. rewrite SM. unfold mean_number. rewrite !nmean_R. unfold rmean. rewrite !map_map. rewrite !map_length.
  reflexivity.
Qed.

(** Average over the frames used and the vectors that shell [j] has in the frame. *)
Definition shell_mean_var (s : list R -> nat -> R) (vs : nat -> list (list R)) (skip n : nat) : R :=
  rmean (flat_map (fun i => map (fun v => s v i) (vs i)) (origins 0 skip n)).

Lemma pairs_value_var : forall same kst skip n nd a b,
  (1 <= skip)%nat -> a <> [] -> length a = length b ->
  (forall i, In i (origins 0 skip (length a)) ->
     usable (kst i) /\ length (ks_k0 (kst i)) = nd /\ length (ks_vectors (kst i)) = n) ->
  group_ok nd a -> group_ok nd b -> (same = true -> b = a) ->
  (same = true \/ nd = 2%nat \/ nd = 3%nat) ->
  structure_factor same false kst skip (pair_frames a b) =
  Ok (map (fun j => let m := shell_mean_var (fun v i => density_cross v (nth i a []) (nth i b []))
                               (fun i => nth j (kvectors Rops (kst i)) []) skip (length a) in
                    (m / sqrt (mean_N a * mean_N b), m)) (seq 0 n)).
Proof.
  intros same kst skip n nd a b Hs Ha L HU Ga Gb Hsame Hd.
  assert (LP : length (pair_frames a b) = length a) by (unfold pair_frames; rewrite map_length, combine_length; lia).
  rewrite (structure_factor_var same false kst skip (pair_frames a b) n nd); try assumption.
  - f_equal. apply map_ext. intros j. cbv zeta.
    assert (E1 : rmean (map (fun r : C * C => fst (cmul (fst r) (cconj (snd r)))) (samples_var (pair_frames a b) kst skip j)) =
                 shell_mean_var (fun v i => density_cross v (nth i a []) (nth i b [])) (fun i => nth j (kvectors Rops (kst i)) []) skip (length a)).
    { unfold samples_var, shell_mean_var. rewrite LP, map_flat_map. f_equal. apply flat_map_ext_in. intros i Hi.
      apply origins_lt in Hi. rewrite frame_at_pair by assumption. rewrite map_map. apply map_ext. intros v.
      unfold rhos. cbn [sf_pos0 sf_pos1 sf_w0 sf_w1 wts fst snd]. apply rho_mul_conj. }
    rewrite E1.
    assert (E2 : map (fun f => INR (length (sf_pos0 f))) (pair_frames a b) = map (fun f => INR (length f)) a).
    { clear - L. revert b L. induction a as [|x a IH]; intros [|y b] L; try discriminate; [reflexivity|].
      unfold pair_frames in *. cbn [combine map sf_pos0 fst]. f_equal. apply IH. cbn in L; lia. }
    assert (E3 : map (fun f => INR (length (sf_pos1 f))) (pair_frames a b) = map (fun f => INR (length f)) b).
    { clear - L. revert b L. induction a as [|x a IH]; intros [|y b] L; try discriminate; [reflexivity|].
      unfold pair_frames in *. cbn [combine map sf_pos1 snd]. f_equal. apply IH. cbn in L; lia. }
    rewrite E2, E3. unfold mean_N. f_equal; [f_equal|]; ring.
  - intros C. rewrite C in LP. destruct a; [congruence|discriminate].
  - rewrite LP. assumption.
  - intros f Hf. unfold pair_frames in Hf. apply in_map_iff in Hf. destruct Hf as [[x y] [<- Hxy]].
    pose proof (in_combine_l _ _ _ _ Hxy) as Hx. pose proof (in_combine_r _ _ _ _ Hxy) as Hy.
    destruct (Ga x Hx) as [Nx Lx]. destruct (Gb y Hy) as [Ny Ly].
    split; cbn [sf_pos0 sf_pos1 sf_w0 sf_w1 wts fst snd]; try assumption; try apply unit_weights_length.
    intros E. split; [|reflexivity]. specialize (Hsame E). subst b. clear - Hxy.
    induction a as [|z a IH]; [destruct Hxy|]. destruct Hxy as [E|H]; [congruence|auto].
Qed.
