(** Structure factors of groups of particles; the Fortran version; variable cells. *)
From Coq Require Import List ZArith Bool Arith Reals Lra Lia Permutation.
From Verif Require Import PyBase PyBaseFacts Num NumFacts M_Helpers M_KGrid M_Fourier Spec_Stats
  Spec_BondAngle P_BondAngle Spec_KGrid P_KGrid P_KGrid2 P_KGrid3 P_KGrid4 P_Expo Spec_Fourier Spec_Correlation P_Sk P_Sk2.
Import ListNotations.
Local Open Scope R_scope.

(** Frames of two groups without weights. *)
Definition pair_frames (a b : list (list (list R))) : list sk_frame :=
  map (fun p => mkSkFrame (fst p) (snd p) None None) (combine a b).

(** Non-empty frames of dimension nd. *)
Definition group_ok (nd : nat) (a : list (list (list R))) : Prop :=
  forall f, In f a -> f <> [] /\ forall x, In x f -> length x = nd.

Definition mean_N (a : list (list (list R))) : R := rmean (map (fun f => INR (length f)) a).

(** Average over the frames used and the vectors of a shell. *)
Definition shell_mean (s : list R -> nat -> R) (skip n : nat) (vs : list (list R)) : R :=
  rmean (flat_map (fun i => map (fun v => s v i) vs) (origins 0 skip n)).

Lemma combine_nth2 : forall X Y (l : list X) (m : list Y) i dx dy, length l = length m ->
  nth i (combine l m) (dx, dy) = (nth i l dx, nth i m dy).
Proof. intros. apply combine_nth. assumption. Qed.

Lemma group_nth : forall nd a i, group_ok nd a -> (i < length a)%nat ->
  nth i a [] <> [] /\ forall x, In x (nth i a []) -> length x = nd.
Proof. intros nd a i H Hi. apply H. apply nth_In. assumption. Qed.

Lemma frame_at_pair : forall a b i, length a = length b -> (i < length a)%nat ->
  frame_at (pair_frames a b) i = mkSkFrame (nth i a []) (nth i b []) None None.
Proof.
  intros a b i L Hi. unfold frame_at, pair_frames.
  change no_sk_frame with ((fun p : list (list R) * list (list R) => mkSkFrame (fst p) (snd p) None None) ([], [])).
  rewrite map_nth, combine_nth2 by assumption. reflexivity.
Qed.

Lemma rmean_ext : forall X (f g : X -> R) l, (forall x, In x l -> f x = g x) -> rmean (map f l) = rmean (map g l).
Proof. intros X f g l H. rewrite (map_ext_in f g l H). reflexivity. Qed.

Lemma map_flat_map : forall X Y Z (f : Y -> Z) (g : X -> list Y) l, map f (flat_map g l) = flat_map (fun x => map f (g x)) l.
Proof. intros. induction l as [|x r IH]; [reflexivity|]. cbn. rewrite map_app, IH. reflexivity. Qed.

Lemma flat_map_ext_in : forall X Y (f g : X -> list Y) l, (forall x, In x l -> f x = g x) -> flat_map f l = flat_map g l.
Proof.
  intros X Y f g l. induction l as [|x r IH]; intros H; [reflexivity|]. cbn.
  rewrite H by (left; reflexivity). rewrite IH by (intros; apply H; right; assumption). reflexivity.
Qed.

Lemma origins_lt : forall skip n i, In i (origins 0 skip n) -> (i < n)%nat.
Proof. intros skip n i H. unfold origins in H. apply filter_In in H. destruct H as [H _]. apply in_seq in H. lia. Qed.

Lemma shell_mean_ext : forall s s' skip n vs, (forall v i, In v vs -> (i < n)%nat -> s v i = s' v i) ->
  shell_mean s skip n vs = shell_mean s' skip n vs.
Proof.
  intros s s' skip n vs H. unfold shell_mean. f_equal. apply flat_map_ext_in. intros i Hi.
  apply map_ext_in. intros v Hv. apply H; [assumption|eapply origins_lt; eassumption].
Qed.

Lemma pairs_value : forall same K skip a b,
  usable K -> (1 <= skip)%nat -> a <> [] -> length a = length b ->
  group_ok (length (ks_k0 K)) a -> group_ok (length (ks_k0 K)) b -> (same = true -> b = a) ->
  (same = true \/ length (ks_k0 K) = 2%nat \/ length (ks_k0 K) = 3%nat) ->
  structure_factor same false (fun _ => K) skip (pair_frames a b) =
  Ok (map (fun vs => let m := shell_mean (fun v i => density_cross v (nth i a []) (nth i b [])) skip (length a) vs in
                     (m / sqrt (mean_N a * mean_N b), m)) (kvectors Rops K)).
Proof.
  intros same K skip a b U Hs Ha L Ga Gb Hsame Hd.
  assert (LP : length (pair_frames a b) = length a) by (unfold pair_frames; rewrite map_length, combine_length; lia).
  rewrite structure_factor_spec; try assumption.
  - f_equal. apply map_ext. intros vs. cbv zeta.
    assert (E1 : rmean (map (fun r : C * C => fst (cmul (fst r) (cconj (snd r)))) (samples (pair_frames a b) skip vs)) =
                 shell_mean (fun v i => density_cross v (nth i a []) (nth i b [])) skip (length a) vs).
    { unfold samples, shell_mean. rewrite LP, map_flat_map. f_equal. apply flat_map_ext_in. intros i Hi.
      apply origins_lt in Hi. rewrite frame_at_pair by assumption. rewrite map_map. apply map_ext. intros v.
      unfold rhos. cbn [sf_pos0 sf_pos1 sf_w0 sf_w1 wts fst snd]. apply rho_mul_conj. }
    rewrite E1.
    assert (E2 : map (fun f => INR (length (sf_pos0 f))) (pair_frames a b) = map (fun f => INR (length f)) a).
    { clear - L. revert b L. induction a as [|x a IH]; intros [|y b] L; try discriminate; [reflexivity|].
      unfold pair_frames in *. cbn [combine map sf_pos0 fst]. f_equal. apply IH. cbn in L; lia. }
    assert (E3 : map (fun f => INR (length (sf_pos1 f))) (pair_frames a b) = map (fun f => INR (length f)) b).
    { clear - L. revert b L. induction a as [|x a IH]; intros [|y b] L; try discriminate; [reflexivity|].
      unfold pair_frames in *. cbn [combine map sf_pos1 snd]. f_equal. apply IH. cbn in L; lia. }
    rewrite E2, E3. unfold mean_N. f_equal; [f_equal|]; ring.
  - intros C. rewrite C in LP. destruct a; [congruence|discriminate].
  - intros f Hf. unfold pair_frames in Hf. apply in_map_iff in Hf. destruct Hf as [[x y] [<- Hxy]].
    pose proof (in_combine_l _ _ _ _ Hxy) as Hx. pose proof (in_combine_r _ _ _ _ Hxy) as Hy.
    destruct (Ga x Hx) as [Nx Lx]. destruct (Gb y Hy) as [Ny Ly].
    split; cbn [sf_pos0 sf_pos1 sf_w0 sf_w1 wts fst snd]; try assumption; try apply unit_weights_length.
    intros E. split; [|reflexivity]. specialize (Hsame E). subst b. clear - Hxy.
    induction a as [|z a IH]; [destruct Hxy|]. destruct Hxy as [E|H]; [congruence|auto].
Qed.

(** ** The Fortran version *)
(** The wave-vectors with every component one less: what a table whose first index
    is taken to be 1 gives for indices that start from 0. *)
Definition one_less (K : kstate Rops) : kstate Rops :=
  mkK (A:=Rops) (ks_k0 K) (map (map (map (fun z => (z - 1)%Z))) (ks_vectors K)) (ks_offset K) (ks_grid K).

Lemma fget_getZ : forall X (l : list X) i, (1 <= i)%Z -> fget l i = getZ l (i - 1).
Proof.
  intros X l i Hi. unfold fget, getZ. destruct (Z.leb_spec i 0); [lia|].
  destruct (Z.ltb_spec (i - 1) 0); [lia|]. destruct (Z.ltb_spec (i - 1) 0); [lia|]. reflexivity.
Qed.

Lemma sk_bare_density : forall k0 off pos tab t, Forall2 (row_ok k0 off) pos tab -> length k0 = 3%nat ->
  (forall x, In x pos -> length x = 3%nat) -> length t = 3%nat -> (forall z, In z t -> (1 <= z)%Z) ->
  sk_bare tab t = density 3 tab None (map (fun z => (z - 1)%Z) t).
Proof.
  intros k0 off pos tab t F Lk Lx Lt Bt. unfold sk_bare, density.
  cbn [weights]. rewrite repeat_length, Nat.eqb_refl.
  destruct t as [|i1 [|i2 [|i3 [|]]]]; try discriminate Lt.
  assert (B1 : (1 <= i1)%Z) by (apply Bt; cbn; auto).
  assert (B2 : (1 <= i2)%Z) by (apply Bt; cbn; auto).
  assert (B3 : (1 <= i3)%Z) by (apply Bt; cbn; auto).
  match goal with |- bind ?a _ = bind ?b _ => replace a with b; [reflexivity|] end.
  induction F as [|x rows pos tab [Lr Rr] F IH]; [reflexivity|].
  cbn [length repeat combine mapM fst snd].
  rewrite IH by (intros; apply Lx; right; assumption).
  match goal with |- bind ?a _ = bind ?b _ => replace a with b; [reflexivity|] end.
  assert (L3 : length x = 3%nat) by (apply Lx; left; reflexivity).
  change (num Rops) with R in *. rewrite L3 in Lr.
  destruct rows as [|ra [|rb [|rc [|]]]]; try discriminate Lr.
  cbn [get nth_error map bind].
  unfold plane_wave. cbn [seq foldM get nth_error bind].
  rewrite !fget_getZ by assumption.
  destruct (getZ ra (i1 - 1)) as [ea|]; [|reflexivity]. cbn [bind].
  destruct (getZ rb (i2 - 1)) as [eb|]; [|reflexivity]. cbn [bind].
  destruct (getZ rc (i3 - 1)) as [ec|]; [|reflexivity]. cbn [bind]. rewrite cmul_1_l. reflexivity.
Qed.

Lemma sk_shells_ext : forall f g shells accs, (forall l t, In l shells -> In t l -> f t = g t) ->
  sk_shells f accs shells = sk_shells g accs shells.
Proof.
  intros f g shells. induction shells as [|kl sr IH]; intros accs H; [destruct accs; reflexivity|].
  assert (Hr : forall l t, In l sr -> In t l -> f t = g t) by (intros; eapply H; [right|]; eassumption).
  assert (Hk : forall t, In t kl -> f t = g t) by (intros; eapply H; [left; reflexivity|assumption]).
  destruct kl as [|t kl]; [destruct accs; cbn [sk_shells]; rewrite IH by assumption; reflexivity|].
  destruct accs as [|a ar]; [reflexivity|].
  unfold sk_shells. fold sk_shells. rewrite IH by assumption.
  match goal with |- bind ?x _ = bind ?y _ => replace y with x; [reflexivity|] end.
  clear - Hk. revert a. induction (t :: kl) as [|u r IH]; intros a; [reflexivity|]. cbn [foldM].
  rewrite Hk by (left; reflexivity). destruct (g u); [|reflexivity]. cbn [bind].
  apply IH. intros; apply Hk; right; assumption.
Qed.

Lemma sk_shells_map : forall (h : list Z -> list Z) f shells accs,
  sk_shells (fun t => f (h t)) accs shells = sk_shells f accs (map (map h) shells).
Proof.
  intros h f shells. induction shells as [|kl sr IH]; intros accs; [destruct accs; reflexivity|].
  destruct kl as [|t kl]; [destruct accs; cbn [map sk_shells]; rewrite IH; reflexivity|].
  destruct accs as [|a ar]; [reflexivity|].
  cbn [map]. unfold sk_shells. fold sk_shells. rewrite IH.
  match goal with |- bind ?x _ = bind ?y _ => replace y with x; [reflexivity|] end.
  change (h t :: map h kl) with (map h (t :: kl)).
  clear. revert a. induction (t :: kl) as [|u r IH]; intros a; [reflexivity|]. cbn [foldM map].
  destruct (f (h u)); [|reflexivity]. cbn [bind]. apply IH.
Qed.

Lemma foldM_ext_in : forall S X (f g : S -> X -> res S) l s, (forall s x, In x l -> f s x = g s x) ->
  foldM f s l = foldM g s l.
Proof.
  intros S X f g l. induction l as [|x r IH]; intros s H; [reflexivity|]. cbn [foldM].
  rewrite H by (left; reflexivity). destruct (g s x); [|reflexivity]. cbn [bind].
  apply IH. intros; apply H; right; assumption.
Qed.

Lemma fast_is_one_less : forall K skip a,
  (1 <= ks_offset K)%Z -> (1 <= skip)%nat -> length (ks_k0 K) = 3%nat -> group_ok 3 a ->
  (forall l t, In l (ks_vectors K) -> In t l -> length t = 3%nat) ->
  (forall l t z, In l (ks_vectors K) -> In t l -> In z t -> (1 <= z)%Z) ->
  structure_factor_fast (fun _ => K) skip (pair_frames a a) =
  structure_factor true false (fun _ => one_less K) skip (pair_frames a a).
Proof.
  intros K skip a Ho Hs Hd Ga Lt Bt. unfold structure_factor_fast, structure_factor.
  destruct (py_range 0 (length (pair_frames a a)) skip) as [rng|] eqn:Er; [|reflexivity]. cbn [bind].
  cbn [one_less ks_k0 ks_grid].
  match goal with |- bind ?x _ = bind ?y _ => replace x with y; [reflexivity|] end.
  apply foldM_ext_in. intros accs i Hi. unfold sk_step, fast_step.
  destruct (get (pair_frames a a) i) as [f|] eqn:Ef; [|reflexivity]. cbn [bind].
  cbn [one_less ks_k0 ks_grid ks_offset ks_vectors].
  apply get_inv in Ef. destruct Ef as [_ Ef]. apply nth_error_In in Ef.
  unfold pair_frames in Ef. apply in_map_iff in Ef. destruct Ef as [[x y] [<- Hxy]].
  cbn [sf_pos0 sf_pos1 sf_w0 sf_w1 fst snd].
  destruct (Ga x (in_combine_l _ _ _ _ Hxy)) as [Nx Lx].
  destruct (expo_sphere_ok (ks_k0 K) (ks_offset K) x Ho Nx) as [tab [E F]].
  { intros z Hz. rewrite (Lx z Hz). change (num Rops) with R in *. lia. }
  change (num Rops) with R in *. rewrite E. cbn [bind].
  rewrite <- sk_shells_map. apply sk_shells_ext. intros l t Hl Ht.
  rewrite (Lt l t Hl Ht). cbn [Nat.eqb]. unfold rho_pair. rewrite Hd.
  rewrite (sk_bare_density (ks_k0 K) (ks_offset K) x tab t); auto.
  - eapply Lt; eassumption.
  - intros z Hz. eapply Bt; eassumption.
Qed.

(** ** Variable cells *)
Lemma foldM_or : forall (f : nat -> res bool) l (g : nat -> bool) b, (forall j, In j l -> f j = Ok (g j)) ->
  foldM (fun var j => if (var : bool) then Ok true else f j) b l = Ok (b || existsb g l).
Proof.
  intros f l g. induction l as [|j r IH]; intros b H; cbn [foldM existsb]; [rewrite orb_false_r; reflexivity|].
  destruct b.
  - cbn [bind]. rewrite IH by (intros; apply H; right; assumption). reflexivity.
  - rewrite H by (left; reflexivity). cbn [bind]. rewrite IH by (intros; apply H; right; assumption). reflexivity.
Qed.

Definition cell_skip (frames : nat) (tests : Z) : nat :=
  if (0 <? tests)%Z then Nat.max 1 (Z.to_nat (Z.of_nat frames / tests)) else 1%nat.

(** The frames compared with the first one. *)
Definition compared (frames : nat) (tests : Z) (i : nat) : Prop :=
  (0 < i < frames)%nat /\ exists j, i = (frames - 1 - j * cell_skip frames tests)%nat.

Lemma is_cell_variable_spec : forall A (sides : list (list (num A))) tests, sides <> [] ->
  exists b, is_cell_variable A sides tests = Ok b /\
    (b = true <-> exists i, compared (length sides) tests i /\
                            sides_differ A (nth 0 sides []) (nth i sides []) = true).
Proof.
  intros A sides tests Hne. unfold is_cell_variable. fold (cell_skip (length sides) tests).
  assert (Hl : (0 < length sides)%nat) by (destruct sides; [congruence|cbn; lia]).
  rewrite (get_Ok _ sides 0 []) by assumption. cbn [bind].
  set (n := length sides) in *. set (sk := cell_skip n tests).
  assert (Hsk : (1 <= sk)%nat) by (unfold sk, cell_skip; destruct (0 <? tests)%Z; lia).
  rewrite (foldM_or (fun j => L1 <- get sides (n - 1 - j * sk) ;; Ok (sides_differ A (nth 0 sides []) L1)) _
             (fun j => sides_differ A (nth 0 sides []) (nth (n - 1 - j * sk) sides []))).
  2: { intros j Hj. apply filter_In in Hj. destruct Hj as [_ Hj]. apply Nat.ltb_lt in Hj.
       rewrite (get_Ok _ sides _ []) by (unfold n in *; lia). reflexivity. }
  eexists. split; [reflexivity|]. cbn [orb]. rewrite existsb_exists. split.
  - intros [j [Hj D]]. apply filter_In in Hj. destruct Hj as [_ Hj]. apply Nat.ltb_lt in Hj.
    exists (n - 1 - j * sk)%nat. split; [|assumption]. split; [lia|]. exists j. reflexivity.
  - intros [i [[Hi [j Ej]] D]]. exists j. fold sk in Ej. split; [|rewrite <- Ej; assumption].
    apply filter_In. split; [|apply Nat.ltb_lt; lia]. apply in_seq. split; [lia|].
    assert (j * 1 <= j * sk)%nat by (apply Nat.mul_le_mono_l; assumption). lia.
Qed.
