(** The structure factor. *)
From Coq Require Import List ZArith Bool Arith Reals Lra Lia.
From Verif Require Import PyBase PyBaseFacts Num NumFacts M_Helpers M_KGrid M_Fourier Spec_Stats
  Spec_BondAngle P_BondAngle Spec_KGrid P_KGrid P_KGrid2 P_KGrid4 P_Expo Spec_Fourier Spec_Correlation.
Import ListNotations.
Local Open Scope R_scope.

(** Wave-vectors that compute() can use: indices inside the table, as many
    components as the cell has, no empty shell. *)
Record usable (K : kstate Rops) : Prop := {
  us_off : (1 <= ks_offset K)%Z;
  us_shells : length (ks_grid K) = length (ks_vectors K);
  us_nonempty : forall l, In l (ks_vectors K) -> l <> [];
  us_len : forall l t, In l (ks_vectors K) -> In t l -> length t = length (ks_k0 K);
  us_idx : forall l t z, In l (ks_vectors K) -> In t l -> In z t -> (0 <= z <= 2 * ks_offset K)%Z
}.

Definition wts (w : option (list R)) (pos : list (list R)) : list R :=
  match w with None => unit_weights pos | Some l => l end.

Lemma Forall2_len : forall X Y (P : X -> Y -> Prop) l m, Forall2 P l m -> length l = length m.
Proof. intros X Y P l m F. induction F; cbn; congruence. Qed.

(** The complex density. *)
Definition rho (v : list R) (pos : list (list R)) (w : list R) : C := (rho_re v pos w, rho_im v pos w).

Lemma weights_wts : forall w pos n, n = length pos ->
  weights w n = map (fun x => (x, 0)) (wts w pos).
Proof.
  intros w pos n ->. destruct w as [l|]; [reflexivity|]. cbn. unfold unit_weights. rewrite map_map.
  induction pos as [|x r IH]; [reflexivity|]. cbn. rewrite IH. reflexivity.
Qed.

Lemma density_rho : forall nd k0 off pos tab w t, Forall2 (row_ok k0 off) pos tab ->
  (forall x, In x pos -> length x = nd) -> length k0 = nd -> length t = nd ->
  (forall z, In z t -> (0 <= z <= 2 * off)%Z) -> length (wts w pos) = length pos ->
  density nd tab w t = Ok (rho (wave k0 (unshift off t)) pos (wts w pos)).
Proof.
  intros nd k0 off pos tab w t F Lx Lk Lt Bt Lw.
  assert (LT : length tab = length pos) by (symmetry; eapply Forall2_len; exact F).
  unfold density. rewrite (weights_wts w pos) by congruence.
  rewrite map_length, Lw, LT, Nat.eqb_refl.
  assert (G : forall ws, length ws = length pos ->
    mapM (fun p => plane_wave nd (fst p) t (snd p)) (combine tab (map (fun x => (x, 0)) ws)) =
    Ok (map (fun p => cmul (snd p, 0) (cis (dot (wave k0 (unshift off t)) (fst p)))) (combine pos ws))).
  { clear LT Lw w. induction F as [|x rows pos tab Hr F IH]; intros ws Lw.
    - destruct ws; [reflexivity|discriminate].
    - destruct ws as [|w ws]; [discriminate|]. cbn [map combine mapM fst snd].
      eapply bind_intro.
      + rewrite <- (shift_unshift off t) at 1. eapply plane_wave_cis; try eassumption.
        * apply Lx. left. reflexivity.
        * rewrite unshift_length. assumption.
        * apply Forall_forall. intros z Hz. apply in_map_iff in Hz. destruct Hz as [y [<- Hy]].
          specialize (Bt y Hy). lia.
      + eapply bind_intro; [apply IH; [intros; apply Lx; right; assumption|cbn in Lw; lia]|]. reflexivity. }
  rewrite G by assumption. cbn [bind]. f_equal. apply c_eq.
  - rewrite fst_csum, map_map. unfold rho, rho_re. cbn [fst]. f_equal. apply map_ext. intros p. cbn. ring.
  - rewrite snd_csum, map_map. unfold rho, rho_im. cbn [snd]. f_equal. apply map_ext. intros p. cbn. ring.
Qed.

(** ** Accumulators *)
Definition sk_fold (l : list (C * C)) : sk_acc :=
  (length l, csum (map fst l), csum (map snd l), csum (map (fun r => cmul (fst r) (cconj (snd r))) l)).

Lemma sk_add_snoc : forall l r, sk_add (sk_fold l) r = sk_fold (l ++ [r]).
Proof.
  intros l r. unfold sk_fold, sk_add. rewrite app_length, !map_app, !csum_app. cbn [length map].
  rewrite !csum_cons. unfold csum at 5 7 9. cbn [fold_left]. rewrite !cadd_0_r.
  rewrite Nat.add_1_r. reflexivity.
Qed.

Lemma sk_fold_app : forall rs l, fold_left sk_add rs (sk_fold l) = sk_fold (l ++ rs).
Proof.
  intros rs. induction rs as [|r rs IH]; intros l; cbn [fold_left]; [rewrite app_nil_r; reflexivity|].
  rewrite sk_add_snoc, IH, <- app_assoc. reflexivity.
Qed.

Lemma sk_shells_pure : forall (f : list Z -> res (C * C)) (g : list Z -> C * C) shells ls,
  length ls = length shells -> (forall l t, In l shells -> In t l -> f t = Ok (g t)) ->
  sk_shells f (map sk_fold ls) shells =
  Ok (map sk_fold (map (fun p => fst p ++ map g (snd p)) (combine ls shells))).
Proof.
  intros f g shells. induction shells as [|kl sr IH]; intros ls L H.
  - destruct ls; [reflexivity|discriminate].
  - destruct ls as [|l ls]; [discriminate|]. cbn [map combine fst snd].
    assert (Hr : forall l0 t, In l0 sr -> In t l0 -> f t = Ok (g t)) by (intros; eapply H; [right|]; eassumption).
    assert (Hk : forall t, In t kl -> f t = Ok (g t)) by (intros; eapply H; [left; reflexivity|assumption]).
    destruct kl as [|t kl].
    + cbn [sk_shells]. rewrite (IH ls) by (assumption || (cbn in L; lia)). cbn [bind map]. rewrite app_nil_r. reflexivity.
    + unfold sk_shells. fold sk_shells.
      rewrite (foldM_pure _ _ _ (fun a t => sk_add a (g t))).
      2: { intros s x Hx. rewrite (Hk x Hx). reflexivity. }
      cbn [bind]. rewrite (IH ls) by (assumption || (cbn in L; lia)). cbn [bind]. f_equal. f_equal.
      rewrite <- sk_fold_app. clear. generalize (sk_fold l). induction (t :: kl) as [|a r IH]; intros s; [reflexivity|].
      cbn [fold_left map]. apply IH.
Qed.

Lemma sk_loop : forall (step : list sk_acc -> nat -> res (list sk_acc)) (g : nat -> list Z -> C * C) shells rng,
  (forall ls i, In i rng -> length ls = length shells ->
     step (map sk_fold ls) i = Ok (map sk_fold (map (fun p => fst p ++ map (g i) (snd p)) (combine ls shells)))) ->
  foldM step (map (fun _ => sk_acc0) shells) rng =
  Ok (map (fun kl => sk_fold (flat_map (fun i => map (g i) kl) rng)) shells).
Proof.
  intros step g shells rng H.
  assert (G : forall rng pre, (forall i, In i rng -> forall ls, length ls = length shells ->
     step (map sk_fold ls) i = Ok (map sk_fold (map (fun p => fst p ++ map (g i) (snd p)) (combine ls shells)))) ->
    foldM step (map (fun kl => sk_fold (flat_map (fun i => map (g i) kl) pre)) shells) rng =
    Ok (map (fun kl => sk_fold (flat_map (fun i => map (g i) kl) (pre ++ rng))) shells)).
  { clear. intros rng. induction rng as [|i r IH]; intros pre H.
    - rewrite app_nil_r. reflexivity.
    - cbn [foldM].
      rewrite <- (map_map (fun kl => flat_map (fun i => map (g i) kl) pre) sk_fold).
      rewrite H; [|left; reflexivity|apply map_length]. cbn [bind].
      replace (pre ++ i :: r) with ((pre ++ [i]) ++ r) by (rewrite <- app_assoc; reflexivity).
      rewrite <- IH by (intros; apply H; [right|]; assumption). f_equal.
      rewrite map_map. clear. induction shells as [|kl sr IH]; [reflexivity|].
      cbn [map combine fst snd]. f_equal; [|exact IH]. f_equal. rewrite flat_map_app. cbn. rewrite app_nil_r. reflexivity. }
  specialize (G rng [] ltac:(intros; apply H; assumption)). cbn [app flat_map] in G.
  exact G.
Qed.

Lemma sk_value_fold : forall weighted l, l <> [] ->
  sk_value weighted (sk_fold l) =
  Ok (rmean (map (fun r => fst (cmul (fst r) (cconj (snd r)))) l) -
      if weighted then
        rmean (map (fun r => fst (fst r)) l) * rmean (map (fun r => fst (snd r)) l) +
        rmean (map (fun r => snd (fst r)) l) * rmean (map (fun r => snd (snd r)) l)
      else 0).
Proof.
  intros weighted l Hl. unfold sk_value, sk_fold.
  assert (P : 0 < INR (length l)) by (apply INR_pos_length; assumption).
  destruct (Nat.eqb_spec (length l) 0) as [E|E]; [destruct l; [congruence|discriminate]|].
  f_equal. unfold rmean. rewrite !map_length. unfold csub, cdivr. cbn [fst snd].
  rewrite fst_csum, map_map. destruct weighted.
  - unfold cmul at 2, cconj at 2 3. cbn [fst snd]. rewrite !fst_csum, !snd_csum, !map_map. unfold C in *.
    match goal with |- ?a / _ - (?b * ?c - ?d * - ?e) / _ = _ => generalize a, b, c, d, e end. intros. field. lra.
  - cbn. field. lra.
Qed.

(** ** The whole function *)
Record sk_frame_ok (nd : nat) (same : bool) (f : sk_frame) : Prop := {
  so_ne0 : sf_pos0 f <> [];
  so_ne1 : sf_pos1 f <> [];
  so_d0 : forall x, In x (sf_pos0 f) -> length x = nd;
  so_d1 : forall x, In x (sf_pos1 f) -> length x = nd;
  so_w0 : length (wts (sf_w0 f) (sf_pos0 f)) = length (sf_pos0 f);
  so_w1 : length (wts (sf_w1 f) (sf_pos1 f)) = length (sf_pos1 f);
  so_same : same = true -> sf_pos1 f = sf_pos0 f /\ sf_w1 f = sf_w0 f
}.

Definition no_sk_frame : sk_frame := mkSkFrame [] [] None None.
Definition frame_at (frames : list sk_frame) (i : nat) : sk_frame := nth i frames no_sk_frame.

(** rho_0 and rho_1 of frame f and vector v *)
Definition rhos (f : sk_frame) (v : list R) : C * C :=
  (rho v (sf_pos0 f) (wts (sf_w0 f) (sf_pos0 f)), rho v (sf_pos1 f) (wts (sf_w1 f) (sf_pos1 f))).

(** All the samples of a shell: frames used, then vectors. *)
Definition samples (frames : list sk_frame) (skip : nat) (vs : list (list R)) : list (C * C) :=
  flat_map (fun i => map (rhos (frame_at frames i)) vs) (origins 0 skip (length frames)).

Lemma origins_nonempty : forall skip n, (1 <= skip)%nat -> (1 <= n)%nat -> origins 0 skip n <> [].
Proof.
  intros skip n Hs Hn C. assert (In 0%nat (origins 0 skip n)).
  { unfold origins. apply filter_In. split; [apply in_seq; lia|]. rewrite Nat.sub_0_r, Nat.mod_0_l by lia. reflexivity. }
  rewrite C in H. destruct H.
Qed.

Lemma structure_factor_spec : forall same weighted K skip frames,
  usable K -> (1 <= skip)%nat -> frames <> [] ->
  (forall f, In f frames -> sk_frame_ok (length (ks_k0 K)) same f) ->
  (same = true \/ length (ks_k0 K) = 2%nat \/ length (ks_k0 K) = 3%nat) ->
  structure_factor same weighted (fun _ => K) skip frames =
  Ok (map (fun vs =>
        let l := samples frames skip vs in
        let v := rmean (map (fun r => fst (cmul (fst r) (cconj (snd r)))) l) -
                 (if weighted then
                    rmean (map (fun r => fst (fst r)) l) * rmean (map (fun r => fst (snd r)) l) +
                    rmean (map (fun r => snd (fst r)) l) * rmean (map (fun r => snd (snd r)) l)
                  else 0) in
        (v / sqrt (rmean (map (fun f => INR (length (sf_pos0 f))) frames) *
                   rmean (map (fun f => INR (length (sf_pos1 f))) frames)), v))
      (kvectors Rops K)).
Proof.
  intros same weighted K skip frames U Hs Hne Hf Hd. unfold structure_factor.
  set (nd := length (ks_k0 K)) in *.
  rewrite py_range_spec by assumption. cbn [bind]. fold (origins 0 skip (length frames)).
  set (vec := fun t => wave (ks_k0 K) (unshift (ks_offset K) t)).
  set (g := fun i t => rhos (frame_at frames i) (vec t)).
  change (num Rops) with R in *.
  replace (map (fun _ : R => sk_acc0) (ks_grid K)) with (map (fun _ : list (list Z) => sk_acc0) (ks_vectors K)).
  2: { pose proof (us_shells K U) as L. change (num Rops) with R in *. revert L. generalize (ks_grid K).
       induction (ks_vectors K) as [|a r IH]; intros [|b l] L; cbn in *; try discriminate; [reflexivity|].
       f_equal. apply IH. lia. }
  rewrite (sk_loop _ g).
  2: { intros ls i Hi Ll. unfold sk_step.
       assert (Hil : (i < length frames)%nat).
       { unfold origins in Hi. apply filter_In in Hi. destruct Hi as [Hi _]. apply in_seq in Hi. lia. }
       rewrite (get_Ok _ frames i no_sk_frame) by assumption. cbn [bind]. fold (frame_at frames i).
       assert (FO : sk_frame_ok nd same (frame_at frames i)) by (apply Hf; apply nth_In; assumption).
       set (f := frame_at frames i) in *.
       destruct (expo_sphere_ok (ks_k0 K) (ks_offset K) (sf_pos0 f) (us_off K U) (so_ne0 _ _ _ FO)) as [tab0 [E0 F0]].
       { intros x Hx. rewrite (so_d0 _ _ _ FO x Hx). apply le_n. }
       rewrite E0. cbn [bind].
       assert (X : exists tab1, (if same then Ok tab0 else expo_sphere (ks_k0 K) (ks_offset K) (sf_pos1 f)) = Ok tab1 /\
                   (same = false -> Forall2 (row_ok (ks_k0 K) (ks_offset K)) (sf_pos1 f) tab1)).
       { destruct same.
         - exists tab0. split; [reflexivity|discriminate].
         - destruct (expo_sphere_ok (ks_k0 K) (ks_offset K) (sf_pos1 f) (us_off K U) (so_ne1 _ _ _ FO)) as [tab1 [E1 F1]].
           { intros x Hx. rewrite (so_d1 _ _ _ FO x Hx). apply le_n. }
           exists tab1. auto. }
       destruct X as [tab1 [E1 F1]]. rewrite E1. cbn [bind].
       apply sk_shells_pure; [assumption|].
       intros l t Hl Ht. unfold rho_pair.
       assert (D0 : density nd tab0 (sf_w0 f) t = Ok (rho (vec t) (sf_pos0 f) (wts (sf_w0 f) (sf_pos0 f)))).
       { eapply density_rho; [exact F0|apply FO|reflexivity| | |apply FO].
         - eapply us_len; eassumption.
         - intros z Hz. eapply us_idx; eassumption. }
       destruct same.
       - rewrite D0. cbn [bind]. unfold g, rhos. fold f.
         destruct (so_same _ _ _ FO eq_refl) as [-> ->]. reflexivity.
       - assert (D1 : density nd tab1 (sf_w1 f) t = Ok (rho (vec t) (sf_pos1 f) (wts (sf_w1 f) (sf_pos1 f)))).
         { eapply density_rho; [exact (F1 eq_refl)|apply FO|reflexivity| | |apply FO].
           - eapply us_len; eassumption.
           - intros z Hz. eapply us_idx; eassumption. }
         destruct Hd as [Hd|[Hd|Hd]]; [discriminate| |]; rewrite Hd in *; cbn [Nat.eqb orb];
           rewrite D0, D1; reflexivity. }
  cbn [bind].
  rewrite (mapM_pure _ _ _ (fun a => match sk_value weighted a with
             | Ok v => (v / sqrt (mean_number (map sf_pos0 frames) * mean_number (map sf_pos1 frames)), v)
             | Err _ => (0, 0) end)).
  2: { intros a Ha. apply in_map_iff in Ha. destruct Ha as [kl [<- Hkl]].
       rewrite sk_value_fold; [reflexivity|].
       intros C. pose proof (us_nonempty K U kl Hkl) as N.
       destruct kl as [|t kl]; [congruence|].
       pose proof (origins_nonempty skip (length frames) Hs) as O.
       destruct (origins 0 skip (length frames)) as [|i r]; [apply O; [|reflexivity]; destruct frames; [congruence|cbn; lia]|].
       discriminate C. }
  f_equal. rewrite kvectors_R. rewrite !map_map. apply map_ext_in. intros kl Hkl.
  rewrite sk_value_fold.
  2: { intros C. pose proof (us_nonempty K U kl Hkl) as N.
       destruct kl as [|t kl]; [congruence|].
       pose proof (origins_nonempty skip (length frames) Hs) as O.
       destruct (origins 0 skip (length frames)) as [|i r]; [apply O; [|reflexivity]; destruct frames; [congruence|cbn; lia]|].
       discriminate C. }
  assert (SM : samples frames skip (map (fun t => wave (ks_k0 K) (unshift (ks_offset K) t)) kl) =
               flat_map (fun i => map (g i) kl) (origins 0 skip (length frames))).
  { unfold samples. apply flat_map_ext. intros i. rewrite map_map. reflexivity. }
  cbv zeta. rewrite SM. unfold mean_number. rewrite !nmean_R. unfold rmean. rewrite !map_map. rewrite !map_length.
  reflexivity.
Qed.
