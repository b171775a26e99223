(** The wave-vectors in force at each frame of a trajectory with a variable cell. *)
From Coq Require Import List ZArith Bool Arith Reals Lra Lia Permutation.
From Verif Require Import PyBase PyBaseFacts Num NumFacts M_Helpers M_KGrid M_Fourier M_VarCell Spec_Stats
  Spec_BondAngle P_BondAngle Spec_KGrid P_KGrid P_KGrid2 P_KGrid3 P_KGrid4 P_Expo Spec_Fourier Spec_Correlation P_Sk P_Sk2 P_Sk3 P_SkVar.
Import ListNotations.
Local Open Scope R_scope.

Lemma insert_num_length : forall A (x : num A) l, length (insert_num A x l) = S (length l).
Proof. intros A x l. induction l as [|y r IH]; [reflexivity|]. cbn. destruct (nle A x y); cbn; [reflexivity|]. rewrite IH. reflexivity. Qed.
Lemma sort_num_length : forall A (l : list (num A)), length (sort_num A l) = length l.
Proof. intros A l. induction l as [|x r IH]; [reflexivity|]. cbn. rewrite insert_num_length. f_equal. exact IH. Qed.

(** The number of shells depends on the parameters only. *)
Definition n_shells (A : arith) (p : kparams A) (grid : option (list (num A))) : nat :=
  match grid with Some l => length l | None => Z.to_nat (kp_ksamples A p) end.

Lemma initial_kgrid_length : forall A p k0 grid kg, initial_kgrid A p k0 grid = Ok kg -> length kg = n_shells A p grid.
Proof.
  intros A p k0 grid kg H. unfold initial_kgrid in H. apply bind_Ok_inv in H. destruct H as [km [_ H]].
  destruct grid as [l|]; cbn [n_shells].
  - pose proof (sort_num_length A l) as L. destruct (sort_num A l); [discriminate|]. apply Ok_inj in H. subst kg. exact L.
  - destruct (nlt A (n0 A) (kp_kmin A p)); unfold linear_grid in H; destruct (1 <? kp_ksamples A p)%Z;
      apply Ok_inj in H; subst kg; unfold grid_points; rewrite map_length, seq_length; reflexivity.
Qed.

Lemma setup_shells : forall fuel tp (g : rng) p (side : list R) s grid st u s', sampler_ok g ->
  setup Rops fuel tp g p side s grid = Ok (st, u, s') ->
  length (ks_vectors st) = n_shells Rops p grid /\ length (ks_grid st) = n_shells Rops p grid /\
  n_shells Rops p u = n_shells Rops p grid /\
  u = match grid with None => None | Some _ => Some (ks_grid st) end /\ ks_k0 st = cell_k0 Rops tp side.
Proof.
  intros fuel tp g p side s grid st u s' G H. unfold setup in H. cbv zeta in H.
  apply bind_Ok_inv in H. destruct H as [kgrid [E1 H]].
  apply bind_Ok_inv in H. destruct H as [[shells off] [E2 H]].
  apply bind_Ok_inv in H. destruct H as [[kept s2] [E3 H]]. cbn [fst snd] in H. apply Ok_inj in H.
  assert (Est : st = mkK (A:=Rops) (cell_k0 Rops tp side) kept off (map (mean_norm Rops (cell_k0 Rops tp side) off) kept)) by congruence.
  assert (Eu : u = match grid with None => None | Some _ => Some (map (mean_norm Rops (cell_k0 Rops tp side) off) kept) end) by congruence.
  pose proof (initial_kgrid_length _ _ _ _ _ E1) as L1.
  apply decimate_spec in E3; [|assumption]. cbn [fst] in E3. apply Forall2_len in E3.
  apply setup_grid_result in E2; [|apply map_length]. destruct E2 as [dk' [_ [P _]]].
  apply pass_In in P. destruct P as [kl [dl [km [_ [_ [_ [_ [Lk _]]]]]]]].
  change (num Rops) with R in *.
  assert (Lkept : length kept = n_shells Rops p grid) by congruence.
  subst st u. cbn [ks_vectors ks_grid ks_k0]. split; [assumption|]. split; [rewrite map_length; assumption|].
  split; [|split; reflexivity].
  destruct grid; cbn [n_shells] in *; [rewrite map_length; assumption|reflexivity].
Qed.

(** What holds of the wave-vectors of a frame whose cell is [side]. *)
Record frame_wave (fuel : nat) (tp : R) (g : rng) (p : kparams Rops) (fixed : Prop) (n : nat) (side : list R) (K : kstate Rops) : Prop := {
  fw_usable : usable K;
  fw_k0 : ks_k0 K = cell_k0 Rops tp side;
  fw_shells : length (ks_vectors K) = n;
  fw_from : exists s gi u s', setup Rops fuel tp g p side s gi = Ok (K, u, s') /\ (fixed -> gi = None)
}.

Section Frames.
Variables (fuel : nat) (tp : R) (g : rng) (p : kparams Rops) (sides : list (list R)).
Hypothesis tp_pos : 0 < tp.
Hypothesis G : sampler_ok g.
Hypothesis NK : (1 <= kp_nk Rops p)%Z.
Hypothesis SP : forall side L, In side sides -> In L side -> 0 < L.

Lemma setup_frame : forall (fixed : Prop) side s grid st u s', In side sides -> (fixed -> grid = None) ->
  setup Rops fuel tp g p side s grid = Ok (st, u, s') -> frame_wave fuel tp g p fixed (n_shells Rops p grid) side st.
Proof.
  intros fixed side s grid st u s' Hin Hf H.
  destruct (setup_usable fuel tp g p side s grid st u s') as [U [E _]]; try assumption.
  { intros k Hk. apply in_map_iff in Hk. destruct Hk as [L [<- HL]]. cbn. apply Rdiv_lt_0_compat; [assumption|eauto]. }
  pose proof H as H'.
  apply setup_shells in H; [|assumption]. split; try tauto. exists s, grid, u, s'. auto.
Qed.

Lemma frame_states_ok : forall (fixed : Prop) n idx s K grid ks u,
  n_shells Rops p grid = n -> (forall i, In i idx -> (0 < i)%nat) -> (fixed -> grid = None) ->
  frame_states Rops fuel tp g p sides true s K grid idx = Ok (ks, u) ->
  Forall2 (fun i K' => exists side, nth_error sides i = Some side /\ frame_wave fuel tp g p fixed n side K') idx ks /\
  n_shells Rops p u = n /\ (grid = None -> u = None) /\
  (forall l, grid = Some l -> idx <> [] -> exists K', nth_error ks (length idx - 1) = Some K' /\ u = Some (ks_grid K')) /\
  (idx = [] -> u = grid).
Proof.
  intros fixed n idx. induction idx as [|i r IH]; intros s K grid ks u Hn Hi Hf H.
  - cbn [frame_states] in H. apply Ok_inj in H. injection H as <- <-.
    split; [constructor|]. repeat split; auto. intros l _ C. congruence.
  - cbn [frame_states] in H.
    assert (P0 : (0 <? i)%nat = true) by (apply Nat.ltb_lt; apply Hi; left; reflexivity).
    rewrite P0 in H. cbn [andb] in H.
    apply bind_Ok_inv in H. destruct H as [side [Es H]].
    apply bind_Ok_inv in H. destruct H as [[[st u1] s1] [E1 H]]. cbn [fst snd] in H.
    apply bind_Ok_inv in H. destruct H as [[ks' u'] [E2 H]]. cbn [fst snd] in H.
    apply Ok_inj in H. injection H as <- <-.
    assert (Hs : nth_error sides i = Some side) by (unfold get in Es; change (num Rops) with R in *; destruct (nth_error sides i); [congruence|discriminate]).
    pose proof (setup_frame fixed side s grid st u1 s1 (nth_error_In _ _ Hs) Hf E1) as FW.
    apply setup_shells in E1; [|assumption]. destruct E1 as [_ [_ [Nu [Eu _]]]].
    apply IH in E2; [|congruence|intros; apply Hi; right; assumption|intros X; rewrite (Hf X) in Eu; exact Eu].
    destruct E2 as [F [Nu' [Un [Ul U0]]]].
    split; [constructor; [exists side; rewrite <- Hn; auto|assumption]|].
    split; [assumption|]. split; [intros ->; auto|]. split; [|discriminate].
    intros l -> _. destruct r as [|j r].
    + exists st. split; [inversion F; reflexivity|]. rewrite U0 by reflexivity. exact Eu.
    + destruct (Ul _ Eu ltac:(discriminate)) as [K' [EK Eu']]. exists K'. split; [|assumption].
      cbn [length] in *. replace (S (S (length r)) - 1)%nat with (S (S (length r) - 1)) by lia. exact EK.
Qed.

Lemma frame_states_const : forall idx s K grid,
  frame_states Rops fuel tp g p sides false s K grid idx = Ok (map (fun _ => K) idx, grid).
Proof. intros idx. induction idx as [|i r IH]; intros s K grid; [reflexivity|]. cbn [frame_states andb]. rewrite IH. reflexivity. Qed.
End Frames.

Lemma origins_split : forall skip n, (1 <= skip)%nat -> (1 <= n)%nat ->
  exists r, origins 0 skip n = 0%nat :: r /\ forall i, In i r -> (0 < i)%nat.
Proof.
  intros skip n Hs Hn. unfold origins. destruct n as [|n]; [lia|]. cbn [Nat.sub seq filter].
  rewrite Nat.mod_0_l by lia. cbn [Nat.eqb].
  eexists. split; [reflexivity|]. intros i Hi. apply filter_In in Hi. destruct Hi as [Hi _]. apply in_seq in Hi. lia.
Qed.

(** ** More shells than accumulators *)
Lemma sk_shells_length : forall rho shells accs r, sk_shells rho accs shells = Ok r -> length r = length accs.
Proof.
  intros rho shells. induction shells as [|kl sr IH]; intros accs r H.
  - apply Ok_inj in H. subst r. reflexivity.
  - destruct accs as [|a ar].
    + destruct kl; [apply (IH [] r H)|discriminate].
    + destruct kl as [|t kl].
      * cbn [sk_shells] in H. apply bind_Ok_inv in H. destruct H as [rest [E H]]. apply Ok_inj in H. subst r.
        cbn. f_equal. apply IH. assumption.
      * unfold sk_shells in H. fold sk_shells in H.
        apply bind_Ok_inv in H. destruct H as [a' [_ H]]. apply bind_Ok_inv in H. destruct H as [rest [E H]].
        apply Ok_inj in H. subst r. cbn. f_equal. apply IH. assumption.
Qed.

Lemma sk_shells_short : forall rho shells accs r, (forall l, In l shells -> l <> []) ->
  (length accs < length shells)%nat -> sk_shells rho accs shells <> Ok r.
Proof.
  intros rho shells. induction shells as [|kl sr IH]; intros accs r N L H; [cbn in L; lia|].
  destruct kl as [|t kl]; [apply (N []); [left|]; reflexivity|].
  destruct accs as [|a ar]; [discriminate|].
  unfold sk_shells in H. fold sk_shells in H.
  apply bind_Ok_inv in H. destruct H as [a' [_ H]]. apply bind_Ok_inv in H. destruct H as [rest [E H]].
  apply IH in E; [assumption|intros; apply N; right; assumption|cbn in L; lia].
Qed.

Lemma sk_fold_short : forall same nd kst frames rng accs r i, In i rng -> (forall l, In l (ks_vectors (kst i)) -> l <> []) ->
  (length accs < length (ks_vectors (kst i)))%nat -> foldM (sk_step same nd kst frames) accs rng <> Ok r.
Proof.
  intros same nd kst frames rng. induction rng as [|j rng IH]; intros accs r i Hi N L H; [destruct Hi|].
  cbn [foldM] in H. apply bind_Ok_inv in H. destruct H as [accs' [E H]].
  unfold sk_step in E. apply bind_Ok_inv in E. destruct E as [f [_ E]].
  apply bind_Ok_inv in E. destruct E as [t0 [_ E]]. apply bind_Ok_inv in E. destruct E as [t1 [_ E]].
  destruct Hi as [->|Hi].
  - apply sk_shells_short in E; assumption.
  - apply sk_shells_length in E. eapply IH; [exact Hi|exact N| |exact H]. congruence.
Qed.
