(** The widening of shells: what it returns, and that it ends. *)
From Coq Require Import List ZArith Bool Arith Reals Lra Lia Classical.
From Verif Require Import PyBase PyBaseFacts Num NumFacts M_Helpers M_KGrid Spec_Stats Spec_BondAngle
  P_BondAngle Spec_KGrid P_KGrid P_KGrid2.
Import ListNotations.
Local Open Scope R_scope.

(** ** What the loop returns *)
Lemma widen_length : forall (dk : list R) kvec, length dk = length kvec ->
  length (widen Rops dk kvec) = length dk.
Proof. intros dk kvec H. unfold widen. rewrite map_length, combine_length. change (num Rops) with R. lia. Qed.

Lemma n12_R : n12 Rops = 12 / 10. Proof. reflexivity. Qed.

Lemma widen_nth : forall (dk : list R) kvec i, length dk = length kvec -> (i < length dk)%nat ->
  nth i (widen Rops dk kvec) 0 =
    if is_empty (nth i kvec []) then nth i dk 0 * (12 / 10) else nth i dk 0.
Proof.
  intros dk. induction dk as [|d r IH]; intros [|s kvec] i L H; cbn in L, H; try lia.
  unfold widen in *. destruct i as [|i]; cbn [combine map nth fst snd].
  - destruct (is_empty s); reflexivity.
  - apply IH; lia.
Qed.

(** [dk'] is [dk] widened some number of times, shell by shell. *)
Definition widened (dk dk' : list R) : Prop :=
  length dk' = length dk /\
  forall i, (i < length dk)%nat -> exists w : nat, nth i dk' 0 = nth i dk 0 * (12 / 10) ^ w.

Lemma widened_refl : forall dk, widened dk dk.
Proof. intros dk. split; [reflexivity|]. intros i _. exists 0%nat. cbn. lra. Qed.

Lemma widened_step : forall dk kvec dk', length dk = length kvec ->
  widened (widen Rops dk kvec) dk' -> widened dk dk'.
Proof.
  intros dk kvec dk' L [L1 H]. rewrite widen_length in * by assumption. split; [assumption|].
  intros i Hi. destruct (H i Hi) as [w Hw].
  rewrite widen_nth in Hw by assumption. destruct (is_empty (nth i kvec [])).
  - exists (S w). rewrite Hw. cbn. ring.
  - exists w. assumption.
Qed.

Lemma existsb_empty_false : forall X (kvec : list (list X)), existsb is_empty kvec = false ->
  forall i, (i < length kvec)%nat -> nth i kvec [] <> [].
Proof.
  intros X kvec. induction kvec as [|s r IH]; intros H i Hi; cbn in *; [lia|].
  apply orb_false_iff in H. destruct H as [H1 H2]. destruct i as [|i].
  - destruct s; [discriminate|congruence].
  - apply IH; [assumption|lia].
Qed.

Lemma existsb_empty_true : forall X (kvec : list (list X)), existsb is_empty kvec = true ->
  exists i, (i < length kvec)%nat /\ nth i kvec [] = [].
Proof.
  intros X kvec. induction kvec as [|s r IH]; intros H; cbn in *; [discriminate|].
  apply orb_true_iff in H. destruct H as [H|H].
  - exists 0%nat. split; [lia|]. destruct s; [reflexivity|discriminate].
  - destruct (IH H) as [i [Hi E]]. exists (S i). split; [lia|assumption].
Qed.

Lemma setup_grid_result : forall fuel (dk kgrid k0 : list R) kvec kb, length dk = length kgrid ->
  setup_grid_sphere Rops fuel dk kgrid k0 = Ok (kvec, kb) ->
  exists dk', widened dk dk' /\ grid_pass Rops dk' kgrid k0 = Ok (kvec, kb) /\
    forall i, (i < length kgrid)%nat -> nth i kvec [] <> [].
Proof.
  intros fuel. induction fuel as [|f IH]; intros dk kgrid k0 kvec kb L H; cbn [setup_grid_sphere] in H; [discriminate|].
  apply bind_Ok_inv in H. destruct H as [[kv b] [E H]]. cbn [fst] in H.
  pose proof E as E'. apply pass_In in E'.
  destruct E' as [kl [dl [km [_ [_ [_ [_ [Lk _]]]]]]]].
  change (num Rops) with R in *.
  destruct (existsb is_empty kv) eqn:EX.
  - assert (L' : length dk = length kv) by congruence.
    apply IH in H; [|rewrite widen_length; congruence].
    destruct H as [dk' [W [P N]]]. exists dk'. split; [|tauto].
    eapply widened_step; eassumption.
  - apply Ok_inj in H. pose proof (f_equal fst H) as H1. pose proof (f_equal snd H) as H2. cbn in H1, H2. subst kv b.
    exists dk. split; [apply widened_refl|]. split; [assumption|].
    intros i Hi. apply existsb_empty_false; [assumption|lia].
Qed.

Lemma setup_grid_first : forall fuel (dk kgrid k0 : list R) kvec kb,
  grid_pass Rops dk kgrid k0 = Ok (kvec, kb) -> (forall i, (i < length kgrid)%nat -> nth i kvec [] <> []) ->
  setup_grid_sphere Rops (S fuel) dk kgrid k0 = Ok (kvec, kb).
Proof.
  intros fuel dk kgrid k0 kvec kb H N. cbn [setup_grid_sphere].
  eapply bind_intro; [exact H|]. cbn [fst].
  destruct (existsb is_empty kvec) eqn:E; [|reflexivity].
  apply existsb_empty_true in E. destruct E as [i [Hi Hn]].
  exfalso. apply (N i); [|assumption].
  apply pass_In in H. destruct H as [kl [dl [km [_ [_ [_ [_ [Lk _]]]]]]]].
  change (num Rops) with R in *. lia.
Qed.

Lemma setup_grid_more : forall f g (dk kgrid k0 : list R) r, (f <= g)%nat ->
  setup_grid_sphere Rops f dk kgrid k0 = Ok r -> setup_grid_sphere Rops g dk kgrid k0 = Ok r.
Proof.
  intros f. induction f as [|f IH]; intros g dk kgrid k0 r Hg H; [discriminate|].
  destruct g as [|g]; [lia|]. cbn [setup_grid_sphere] in *.
  apply bind_Ok_inv in H. destruct H as [a [E H]]. eapply bind_intro; [exact E|].
  destruct (existsb is_empty (fst a)); [|assumption]. apply IH; [lia|assumption].
Qed.

(** ** Termination *)
Section Sequence.
Variable n : nat.
Variable d : nat -> nat -> R.
Variable E : nat -> nat -> Prop.
Hypothesis d0 : forall i, (i < n)%nat -> 0 < d 0 i.
Hypothesis dE : forall t i, (i < n)%nat -> E t i -> d (S t) i = d t i * (12 / 10).
Hypothesis dN : forall t i, (i < n)%nat -> ~ E t i -> d (S t) i = d t i.

Definition io (i : nat) : Prop := forall T, exists t, (T <= t)%nat /\ E t i.

Lemma d_pos : forall i, (i < n)%nat -> forall t, 0 < d t i.
Proof.
  intros i Hi t. induction t as [|t IH]; [apply d0; assumption|].
  destruct (classic (E t i)) as [H|H]; [rewrite dE by assumption|rewrite dN by assumption]; lra.
Qed.

Lemma d_mono : forall i, (i < n)%nat -> forall t u, (t <= u)%nat -> d t i <= d u i.
Proof.
  intros i Hi t u H. induction H as [|u H IH]; [lra|].
  pose proof (d_pos i Hi u). destruct (classic (E u i)) as [C|C];
    [rewrite dE by assumption|rewrite dN by assumption]; lra.
Qed.

Lemma d_const : forall i T, (i < n)%nat -> (forall t, (T <= t)%nat -> ~ E t i) ->
  forall t, (T <= t)%nat -> d t i = d T i.
Proof.
  intros i T Hi H t Ht. induction Ht as [|t Ht IH]; [reflexivity|].
  rewrite dN; [assumption|assumption|apply H; assumption].
Qed.

Lemma not_io : forall i, ~ io i -> exists T, forall t, (T <= t)%nat -> ~ E t i.
Proof.
  intros i H. unfold io in H. apply not_all_ex_not in H. destruct H as [T H]. exists T.
  intros t Ht C. apply H. exists t. auto.
Qed.

Lemma d_pow : forall i, (i < n)%nat -> io i -> forall m, exists t, d 0 i * (12 / 10) ^ m <= d t i.
Proof.
  intros i Hi H m. induction m as [|m [t IH]].
  - exists 0%nat. cbn. lra.
  - destruct (H t) as [u [Hu C]]. exists (S u). rewrite dE by assumption.
    pose proof (d_mono i Hi t u Hu). cbn. lra.
Qed.

Lemma d_unbounded : forall i, (i < n)%nat -> io i -> forall B, exists T, forall t, (T <= t)%nat -> B < d t i.
Proof.
  intros i Hi H B. pose proof (d0 i Hi) as P.
  destruct (Pow_x_infinity (12 / 10)) with (b := Rabs B / d 0 i + 1) as [N HN].
  { rewrite Rabs_pos_eq; lra. }
  specialize (HN N (le_n N)). rewrite Rabs_pos_eq in HN by (apply pow_le; lra).
  destruct (d_pow i Hi H N) as [T HT]. exists T. intros t Ht.
  pose proof (d_mono i Hi T t Ht) as M.
  assert (Q : Rabs B + d 0 i <= d 0 i * (12 / 10) ^ N).
  { replace (Rabs B + d 0 i) with (d 0 i * (Rabs B / d 0 i + 1)) by (field; lra).
    apply Rmult_le_compat_l; lra. }
  pose proof (Rle_abs B). lra.
Qed.

Lemma finite_choice : forall (P : nat -> nat -> Prop) m,
  (forall i, (i < m)%nat -> exists T, forall t, (T <= t)%nat -> P i t) ->
  exists T, forall i t, (i < m)%nat -> (T <= t)%nat -> P i t.
Proof.
  intros P m. induction m as [|m IH]; intros H; [exists 0%nat; intros; lia|].
  destruct IH as [T HT]; [intros; apply H; lia|]. destruct (H m (Nat.lt_succ_diag_r m)) as [U HU].
  exists (Nat.max T U). intros i t Hi Ht. destruct (Nat.eq_dec i m) as [->|]; [apply HU; lia|apply HT; lia].
Qed.

Lemma first_io : (forall t, exists i, (i < n)%nat /\ E t i) ->
  exists i, (i < n)%nat /\ io i /\ forall j, (j < i)%nat -> ~ io j.
Proof.
  intros H.
  assert (X : exists i, (i < n)%nat /\ io i).
  { apply NNPP. intros C.
    destruct (finite_choice (fun i t => ~ E t i) n) as [T HT].
    { intros i Hi. apply not_io. intros Hio. apply C. eauto. }
    destruct (H T) as [i [Hi He]]. exact (HT i T Hi (le_n T) He). }
  destruct X as [i [Hi Hio]].
  revert Hi Hio. induction i as [i IH] using lt_wf_ind. intros Hi Hio.
  destruct (classic (exists j, (j < i)%nat /\ io j)) as [[j [Hj Cj]]|C].
  - apply (IH j Hj); [lia|assumption].
  - exists i. split; [assumption|]. split; [assumption|]. intros j Hj Cj. apply C. eauto.
Qed.
End Sequence.

Section Termination.
Variables (k0 kgrid dk0 : list R).
Hypothesis Pk : posk k0.
Hypothesis Dk : (length k0 = 2 \/ length k0 = 3)%nat.
Hypothesis Hne : kgrid <> [].
Hypothesis Ld : length dk0 = length kgrid.
Hypothesis Pd : forall x, In x dk0 -> 0 < x.

Definition pass_vec (dk : list R) : list (list (list Z)) :=
  match grid_pass Rops dk kgrid k0 with Ok r => fst r | Err _ => [] end.
Fixpoint dk_at (dk : list R) (t : nat) : list R :=
  match t with O => dk | S t' => widen Rops (dk_at dk t') (pass_vec (dk_at dk t')) end.

Lemma dk_at_shift : forall t dk, dk_at (widen Rops dk (pass_vec dk)) t = dk_at dk (S t).
Proof. intros t dk. induction t as [|t IH]; [reflexivity|]. cbn [dk_at] in *. rewrite IH. reflexivity. Qed.

Lemma getZ_last_nth : forall (l : list R), l <> [] -> getZ l (-1) = Ok (nth (length l - 1) l 0).
Proof.
  intros l H. unfold getZ. cbn [Z.ltb Z.compare].
  assert (B : (1 <= length l)%nat) by (destruct l; [congruence|cbn [length]; lia]).
  destruct (Z.ltb_spec (-1 + Z.of_nat (length l)) 0); [lia|].
  replace (Z.to_nat (-1 + Z.of_nat (length l))) with (length l - 1)%nat by lia.
  apply get_Ok. lia.
Qed.

Lemma pass_ok : forall dk : list R, length dk = length kgrid ->
  exists kvec kb, grid_pass Rops dk kgrid k0 = Ok (kvec, kb).
Proof.
  intros dk L. assert (Hdk : dk <> []) by (intros ->; destruct kgrid; [congruence|discriminate]).
  destruct (kmin0 Rops k0) as [km|] eqn:E.
  - destruct (grid_pass_total Rops k0 kgrid dk km (Rtrunc ((nth (length kgrid - 1) kgrid 0 + nth (length dk - 1) dk 0) / km)) E
      _ _ (getZ_last_nth kgrid Hne) (getZ_last_nth dk Hdk) eq_refl Dk) as [kvec H]. eauto.
  - unfold kmin0 in E. destruct k0; [cbn in Dk; lia|discriminate].
Qed.

Lemma pass_vec_length : forall dk : list R, length dk = length kgrid -> length (pass_vec dk) = length kgrid.
Proof.
  intros dk L. destruct (pass_ok dk L) as [kvec [kb H]]. unfold pass_vec. rewrite H. cbn [fst].
  apply pass_In in H. destruct H as [kl [dl [km [_ [_ [_ [_ [Lk _]]]]]]]]. exact Lk.
Qed.

Lemma dk_at_length : forall t, length (dk_at dk0 t) = length kgrid.
Proof.
  intros t. induction t as [|t IH]; [exact Ld|]. cbn [dk_at].
  rewrite widen_length; [assumption|]. rewrite pass_vec_length by assumption. assumption.
Qed.

Lemma pass_vec_In : forall dk : list R, length dk = length kgrid -> 
  let kmax := nth (length kgrid - 1) kgrid 0 + nth (length dk - 1) dk 0 in
  forall i, (i < length kgrid)%nat ->
  (nth i (pass_vec dk) [] <> [] -> exists v, norm v <= Rabs kmax /\ in_shell kgrid dk v i) /\
  (forall m, length m = length k0 -> norm (wave k0 m) <= kmax -> in_shell kgrid dk (wave k0 m) i ->
     nth i (pass_vec dk) [] <> []).
Proof.
  intros dk L kmax i Hi. destruct (pass_ok dk L) as [kvec [kb H]]. unfold pass_vec. rewrite H. cbn [fst].
  assert (Hdk : dk <> []) by (intros ->; destruct kgrid; [congruence|discriminate]).
  apply pass_In in H. destruct H as [kl [dl [km [E1 [E2 [E3 [E4 [Lk [_ [_ IN]]]]]]]]]].
  rewrite (getZ_last_nth kgrid Hne) in E1. rewrite (getZ_last_nth dk Hdk) in E2.
  apply Ok_inj in E1. apply Ok_inj in E2. subst kl dl. fold kmax in IN, E4.
  split.
  - intros Hn. destruct (nth i kvec []) as [|t r] eqn:Es; [congruence|].
    assert (It : In t (nth i kvec [])) by (rewrite Es; left; reflexivity).
    apply IN in It. destruct It as [_ [N S]]. eauto.
  - intros m Lm N S C.
    assert (It : In (map (fun z => (z + kb)%Z) m) (nth i kvec [])).
    { apply IN. rewrite unshift_shift. apply kmin0_R in E3. destruct E3 as [I3 M3].
      split; [|split; [|assumption]].
      - rewrite E4. apply cube_cover; assumption.
      - apply Rle_trans with kmax; [assumption|apply Rle_abs]. }
    rewrite C in It. destruct It.
Qed.

Lemma loop_at : forall t dk, length dk = length kgrid ->
  existsb is_empty (pass_vec (dk_at dk t)) = false -> (forall u, length (dk_at dk u) = length kgrid) ->
  exists f r, setup_grid_sphere Rops f dk kgrid k0 = Ok r.
Proof.
  intros t. induction t as [|t IH]; intros dk L H LL.
  - cbn [dk_at] in H. destruct (pass_ok dk L) as [kvec [kb P]]. unfold pass_vec in H. rewrite P in H. cbn [fst] in H.
    exists 1%nat, (kvec, kb). cbn [setup_grid_sphere]. eapply bind_intro; [exact P|]. cbn [fst].
    change (num Rops) with R in *. rewrite H. reflexivity.
  - destruct (pass_ok dk L) as [kvec [kb P]].
    assert (V : pass_vec dk = kvec) by (unfold pass_vec; rewrite P; reflexivity).
    destruct (existsb is_empty kvec) eqn:EX.
    + destruct (IH (widen Rops dk (pass_vec dk))) as [f [r Hr]].
      * exact (LL 1%nat).
      * rewrite dk_at_shift. assumption.
      * intros u. rewrite dk_at_shift. apply LL.
      * exists (S f), r. cbn [setup_grid_sphere]. eapply bind_intro; [exact P|]. cbn [fst].
        rewrite V in Hr. change (num Rops) with R in *. rewrite EX. assumption.
    + exists 1%nat, (kvec, kb). cbn [setup_grid_sphere]. eapply bind_intro; [exact P|]. cbn [fst].
      change (num Rops) with R in *. rewrite EX. reflexivity.
Qed.

Lemma long_wave : forall B, exists m, length m = length k0 /\ B <= norm (wave k0 m).
Proof.
  intros B. destruct k0 as [|k r] eqn:Ek; [cbn in Dk; lia|].
  assert (Hk : 0 < k) by (apply Pk; left; reflexivity).
  pose proof (Rfloor_bounds (Rabs B / k)) as F.
  set (z := (Rfloor (Rabs B / k) + 1)%Z).
  exists (z :: map (fun _ => 0%Z) r). split; [cbn; f_equal; apply map_length|].
  pose proof (component_le_norm (k :: r) (z :: map (fun _ => 0%Z) r) 0 k z eq_refl eq_refl) as C.
  assert (Rabs B / k <= IZR z) by (unfold z; rewrite plus_IZR; lra).
  assert (B <= k * IZR z).
  { apply Rle_trans with (k * (Rabs B / k)).
    - replace (k * (Rabs B / k)) with (Rabs B) by (field; lra). apply Rle_abs.
    - apply Rmult_le_compat_l; lra. }
  pose proof (Rle_abs (k * IZR z)). lra.
Qed.

Lemma nth_err : forall (l : list R) i, (i < length l)%nat -> nth_error l i = Some (nth i l 0).
Proof. intros. apply nth_error_nth'. assumption. Qed.

Theorem widening_ends : exists f r, setup_grid_sphere Rops f dk0 kgrid k0 = Ok r.
Proof.
  apply NNPP. intros NT.
  set (n := length kgrid). set (d := fun t i => nth i (dk_at dk0 t) 0).
  set (E := fun t i => nth i (pass_vec (dk_at dk0 t)) [] = []).
  assert (Hn : (1 <= n)%nat) by (unfold n; destruct kgrid; [congruence|cbn; lia]).
  assert (H0 : forall i, (i < n)%nat -> 0 < d 0%nat i).
  { intros i Hi. unfold d. cbn. apply Pd. apply nth_In. unfold n in Hi. lia. }
  assert (Lt : forall t, length (dk_at dk0 t) = n) by apply dk_at_length.
  assert (Lp : forall t, length (pass_vec (dk_at dk0 t)) = n) by (intros; apply pass_vec_length; apply Lt).
  assert (HE : forall t i, (i < n)%nat -> E t i -> d (S t) i = d t i * (12 / 10)).
  { intros t i Hi He. unfold d. cbn [dk_at]. rewrite widen_nth; [|rewrite Lt, Lp; reflexivity|rewrite Lt; assumption].
    unfold E in He. rewrite He. reflexivity. }
  assert (HN : forall t i, (i < n)%nat -> ~ E t i -> d (S t) i = d t i).
  { intros t i Hi He. unfold d. cbn [dk_at]. rewrite widen_nth; [|rewrite Lt, Lp; reflexivity|rewrite Lt; assumption].
    unfold E in He. destruct (nth i (pass_vec (dk_at dk0 t)) []); [congruence|reflexivity]. }
  assert (AE : forall t, exists i, (i < n)%nat /\ E t i).
  { intros t. destruct (existsb is_empty (pass_vec (dk_at dk0 t))) eqn:X.
    - apply existsb_empty_true in X. destruct X as [i [Hi X]]. exists i. rewrite Lp in Hi. auto.
    - exfalso. apply NT. eapply loop_at; [exact Ld|exact X|exact dk_at_length]. }
  destruct (first_io n E AE) as [i [Hi [Hio Hlow]]].
  set (kl := nth (n - 1) kgrid 0).
  assert (KM : forall t, nth (length kgrid - 1) kgrid 0 + nth (length (dk_at dk0 t) - 1) (dk_at dk0 t) 0 = kl + d t (n - 1)%nat).
  { intros t. rewrite Lt. reflexivity. }
  destruct (classic (io E (n - 1))) as [Lio|Lio].
  - (* the last shell grows forever: kmax is unbounded *)
    destruct (finite_choice (fun j t => ~ E t j) i) as [T0 HT0].
    { intros j Hj. apply not_io. apply Hlow. assumption. }
    set (B := fold_right Rmax 0 (map (fun j => nth j kgrid 0 + d T0 j) (seq 0 i))).
    assert (HB : forall j, (j < i)%nat -> nth j kgrid 0 + d T0 j <= B).
    { intros j Hj. unfold B. assert (In j (seq 0 i)) by (apply in_seq; lia).
      clear - H. induction (seq 0 i) as [|a r IH]; [destruct H|]. cbn. destruct H as [->|H].
      - apply Rmax_l.
      - eapply Rle_trans; [apply IH; assumption|apply Rmax_r]. }
    destruct (long_wave B) as [m [Lm Nm]].
    destruct (d_unbounded n d E H0 HE HN i Hi Hio (Rabs (norm (wave k0 m) - nth i kgrid 0))) as [T1 HT1].
    destruct (d_unbounded n d E H0 HE HN (n - 1)%nat ltac:(lia) Lio (norm (wave k0 m) - kl)) as [T2 HT2].
    destruct (Hio (Nat.max T0 (Nat.max T1 T2))) as [t [Ht Et]].
    apply (fun H => proj2 (pass_vec_In (dk_at dk0 t) (Lt t) i Hi) m Lm H) in Et; [assumption| |].
    + rewrite KM. specialize (HT2 t ltac:(lia)). lra.
    + split.
      * exists (nth i kgrid 0), (d t i). split; [apply nth_err; assumption|].
        split; [apply nth_err; rewrite Lt; assumption|]. apply HT1. lia.
      * intros j k dd Hj Hk Hd W. unfold within in W.
        apply nth_error_nth with (d := 0) in Hk. apply nth_error_nth with (d := 0) in Hd.
        fold (d t j) in Hd.
        rewrite (d_const n d E HN j T0) in Hd; [|lia|intros; apply HT0; lia|lia].
        specialize (HB j Hj). subst k dd. apply Rabs_def2 in W. lra.
  - (* the last shell is eventually settled and non-empty *)
    destruct (not_io E (n - 1) Lio) as [T1 HT1].
    set (km := kl + d T1 (n - 1)%nat).
    assert (Hil : (i < n - 1)%nat).
    { destruct (Nat.eq_dec i (n - 1)) as [->|]; [contradiction|lia]. }
    destruct (d_unbounded n d E H0 HE HN i Hi Hio (Rabs km + Rabs (nth i kgrid 0))) as [T2 HT2].
    set (t := Nat.max T1 T2).
    assert (Et : ~ E t (n - 1)%nat) by (apply HT1; lia).
    assert (Hl : (n - 1 < length kgrid)%nat) by (fold n; lia).
    destruct (proj1 (pass_vec_In (dk_at dk0 t) (Lt t) (n - 1)%nat Hl) Et) as [v [Nv [_ Sv]]].
    rewrite KM in Nv. rewrite (d_const n d E HN (n - 1)%nat T1) in Nv; [|lia|intros; apply HT1; lia|lia].
    fold km in Nv.
    apply (Sv i (nth i kgrid 0) (d t i)); [assumption|apply nth_err; assumption|apply nth_err; rewrite Lt; assumption|].
    unfold within. specialize (HT2 t ltac:(lia)).
    pose proof (norm_nonneg v). pose proof (Rabs_triang (norm v) (- nth i kgrid 0)) as TR.
    rewrite Rabs_Ropp in TR. rewrite (Rabs_pos_eq (norm v)) in TR by assumption. unfold Rminus. lra.
Qed.
End Termination.
