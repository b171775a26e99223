(** The spectral density. *)
From Coq Require Import List ZArith Bool Arith Reals Lra Lia.
From Verif Require Import PyBase PyBaseFacts Num NumFacts M_Helpers M_KGrid M_Fourier M_Spectral Spec_Stats
  Spec_BondAngle P_BondAngle Spec_KGrid P_KGrid P_KGrid2 P_KGrid4 P_Expo Spec_Fourier Spec_Correlation
  P_Sk P_Sk2 P_Sk3 Spec_Spectral.
Import ListNotations.
Local Open Scope R_scope.

Lemma form_factor_eq : forall q a, form_factor q a = sphere_transform q a.
Proof. intros. unfold form_factor, sphere_transform, Rdiv. ring. Qed.

(** Vectors of the table with their indices. *)
Definition indexed (K : kstate Rops) : list (list (list R * list Z)) :=
  map (map (fun t => (wave (ks_k0 K) (unshift (ks_offset K) t), t))) (ks_vectors K).

Definition ik_mean (skip : nat) (pos : list (list (list R))) (radius : list (list R)) (q : list R * list Z -> R)
  (vs : list (list R * list Z)) : R :=
  rmean (flat_map (fun i => map (fun v => filled_sq (q v) (fst v) (nth i pos []) (nth i radius [])) vs)
          (origins 0 skip (length pos))).

Lemma spectral_density_spec : forall K skip pos radius volumes,
  usable K -> length (ks_k0 K) = 3%nat -> (1 <= skip)%nat -> pos <> [] -> group_ok 3 pos ->
  length radius = length pos ->
  (forall i, (i < length pos)%nat -> length (nth i radius []) = length (nth i pos [])) ->
  spectral_density (fun _ => K) skip pos radius volumes =
  Ok (map (fun vs => let m := ik_mean skip pos radius (fun v => index_norm (snd v)) vs in (m / rmean volumes, m)) (indexed K)).
Proof.
  intros K skip pos radius volumes U D Hs Hne G Lr Lri. unfold spectral_density.
  rewrite py_range_spec by assumption. cbn [bind]. fold (origins 0 skip (length pos)).
  set (vec := fun t => wave (ks_k0 K) (unshift (ks_offset K) t)).
  set (r := fun i t => rho (vec t) (nth i pos []) (map (sphere_transform (index_norm t)) (nth i radius []))).
  set (g := fun i t => (r i t, r i t)).
  change (num Rops) with R in *.
  replace (map (fun _ : R => sk_acc0) (ks_grid K)) with (map (fun _ : list (list Z) => sk_acc0) (ks_vectors K)).
  2: { pose proof (us_shells K U) as L. change (num Rops) with R in *. revert L. generalize (ks_grid K).
       induction (ks_vectors K) as [|a l IH]; intros [|b m] L; cbn in *; try discriminate; [reflexivity|].
       f_equal. apply IH. lia. }
  rewrite (sk_loop _ g).
  2: { intros ls i Hi Ll. unfold ik_step.
       assert (Hil : (i < length pos)%nat).
       { unfold origins in Hi. apply filter_In in Hi. destruct Hi as [Hi _]. apply in_seq in Hi. lia. }
       rewrite (get_Ok _ pos i []) by assumption. cbn [bind].
       assert (Hp : In (nth i pos []) pos) by (apply nth_In; assumption).
       destruct (G _ Hp) as [N0 N1].
       destruct (expo_sphere_ok (ks_k0 K) (ks_offset K) (nth i pos []) (us_off K U) N0) as [tab [E0 F0]].
       { intros x Hx. rewrite (N1 x Hx), D. apply le_n. }
       rewrite E0. cbn [bind]. apply sk_shells_pure; [assumption|].
       intros l t Hl Ht. rewrite (get_Ok _ radius i []) by lia. cbn [bind].
       pose proof (eq_trans (us_len K U l t Hl Ht) D) as Lt.
       rewrite (get_Ok _ t 2 0%Z) by lia. cbn [bind].
       rewrite (density_rho 3 (ks_k0 K) (ks_offset K) (nth i pos []) tab _ t F0 N1 D Lt).
       - cbn [bind wts]. unfold g, r. fold (vec t).
         rewrite (map_ext (form_factor (index_norm t)) (sphere_transform (index_norm t)) (form_factor_eq _)). reflexivity.
       - intros z Hz. eapply us_idx; eassumption.
       - cbn [wts]. rewrite map_length. apply Lri. exact Hil. }
  cbn [bind].
  assert (NE : forall kl, In kl (ks_vectors K) -> flat_map (fun i => map (g i) kl) (origins 0 skip (length pos)) <> []).
  { intros kl Hkl. pose proof (us_nonempty K U kl Hkl) as N. destruct kl as [|t kl]; [congruence|].
    pose proof (origins_nonempty skip (length pos) Hs) as O.
    destruct (origins 0 skip (length pos)) as [|i q]; [exfalso; apply O; [destruct pos; [congruence|cbn; lia]|reflexivity]|].
    discriminate. }
  rewrite (mapM_pure _ _ _ (fun a => match sk_value false a with Ok v => (v / rmean volumes, v) | Err _ => (0, 0) end)).
  2: { intros a Ha. apply in_map_iff in Ha. destruct Ha as [kl [<- Hkl]].
       rewrite sk_value_fold by (apply NE; assumption). cbn [bind]. rewrite nmean_R. reflexivity. }
  f_equal. unfold indexed. rewrite !map_map. apply map_ext_in. intros kl Hkl.
  rewrite sk_value_fold by (apply NE; assumption).
  assert (E : rmean (map (fun x : C * C => fst (cmul (fst x) (cconj (snd x)))) (flat_map (fun i => map (g i) kl) (origins 0 skip (length pos)))) - 0
     = ik_mean skip pos radius (fun v => index_norm (snd v)) (map (fun t => (wave (ks_k0 K) (unshift (ks_offset K) t), t)) kl)).
  { rewrite Rminus_0_r. unfold ik_mean. f_equal. rewrite map_flat_map. apply flat_map_ext. intros i.
    rewrite !map_map. apply map_ext. intros t. unfold g, r. cbn [fst snd]. rewrite rho_mul_conj. reflexivity. }
  cbv zeta. rewrite E. reflexivity.
Qed.

Lemma filled_sq_nonneg : forall q k pos radii, 0 <= filled_sq q k pos radii.
Proof. intros. unfold filled_sq. cbv zeta. apply Rplus_le_le_0_compat; apply Rle_0_sqr. Qed.

Lemma ik_mean_nonneg : forall skip pos radius q vs, 0 <= ik_mean skip pos radius q vs.
Proof.
  intros. unfold ik_mean, rmean. set (l := flat_map _ _). assert (N : 0 <= rsum l).
  { apply rsum_nonneg. intros x Hx. unfold l in Hx. apply in_flat_map in Hx. destruct Hx as [i [_ Hx]].
    apply in_map_iff in Hx. destruct Hx as [v [<- _]]. apply filled_sq_nonneg. }
  destruct l as [|x r]; [cbn; unfold Rdiv; lra|].
  apply Rmult_le_pos; [assumption|]. apply Rlt_le, Rinv_0_lt_compat, INR_pos_length. congruence.
Qed.

(** Displacing all the particles of a frame. *)
Lemma rho_translate_w : forall k d pos w, length d = length k -> (forall x, In x pos -> length x = length k) ->
  rho_re k (translate d pos) w = cos (dot k d) * rho_re k pos w - sin (dot k d) * rho_im k pos w /\
  rho_im k (translate d pos) w = sin (dot k d) * rho_re k pos w + cos (dot k d) * rho_im k pos w.
Proof.
  intros k d pos w Ld. revert w. induction pos as [|x r IH]; intros w Lx; [unfold rho_re, rho_im; cbn; split; ring|].
  destruct w as [|c w]; [unfold rho_re, rho_im; cbn; split; ring|].
  destruct (IH w) as [A B]; [intros; apply Lx; right; assumption|].
  unfold rho_re, rho_im, translate in *. cbn [map combine rsum fst snd].
  rewrite A, B. rewrite dot_vplus by (assumption || (apply Lx; left; reflexivity)). rewrite cos_plus, sin_plus. split; ring.
Qed.

Lemma filled_sq_translate : forall q k d pos radii, length d = length k -> (forall x, In x pos -> length x = length k) ->
  filled_sq q k (translate d pos) radii = filled_sq q k pos radii.
Proof.
  intros q k d pos radii Ld Lx. unfold filled_sq. cbv zeta.
  destruct (rho_translate_w k d pos (map (sphere_transform q) radii) Ld Lx) as [-> ->].
  pose proof (sin2_cos2 (dot k d)) as T. unfold Rsqr in T.
  generalize dependent (sin (dot k d)). generalize (cos (dot k d)). generalize (rho_re k pos (map (sphere_transform q) radii)).
  generalize (rho_im k pos (map (sphere_transform q) radii)). intros b a c s T.
  replace ((c * a - s * b) * (c * a - s * b) + (s * a + c * b) * (s * a + c * b)) with ((s * s + c * c) * (a * a + b * b)) by ring.
  rewrite T. ring.
Qed.
