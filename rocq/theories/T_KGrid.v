(** Theorems on the selection of wave-vectors: C37-C42. *)
From Coq Require Import List ZArith Bool Arith Reals Lra Lia Permutation.
From Verif Require Import PyBase PyBaseFacts Num NumFacts M_Helpers M_KGrid Spec_Stats Spec_BondAngle
  P_BondAngle Spec_KGrid P_KGrid P_KGrid2 P_KGrid3 P_KGrid4.
Import ListNotations.
Local Open Scope R_scope.

(** ** C37 *)
(** Whatever widening took place, with the final widths [dks] (each is dk times a
    power of 1.2): shell i consists of exactly the lattice vectors of norm at most
    k_last + dks_last that are within dks_i of k_i and within no earlier shell; no
    shell is empty, none has repetitions, and all indices fit the table of
    2*off+1 exponentials. *)
Theorem C37_shells : forall fuel dk (kgrid k0 : list R) kvec off,
  (forall k, In k k0 -> 0 < k) -> (forall k, In k kgrid -> 0 <= k) -> 0 < dk ->
  setup_grid_sphere Rops fuel (map (fun _ => dk) kgrid) kgrid k0 = Ok (kvec, off) ->
  exists dks, length dks = length kgrid /\
    (forall d, In d dks -> exists w : nat, d = dk * (12 / 10) ^ w) /\
    length kvec = length kgrid /\ (length k0 = 2 \/ length k0 = 3)%nat /\
    (forall i shell, nth_error kvec i = Some shell -> shell <> [] /\ NoDup shell /\
       forall t, In t shell <->
         (length t = length k0 /\ in_shell kgrid dks (wave k0 (unshift off t)) i /\
          norm (wave k0 (unshift off t)) <= last kgrid 0 + last dks 0)) /\
    (forall i shell t z, nth_error kvec i = Some shell -> In t shell -> In z t -> (0 <= z <= 2 * off)%Z).
Proof. exact shells_spec. Qed.
Print Assumptions C37_shells.

Theorem C37_disjoint : forall fuel dk (kgrid k0 : list R) kvec off i j si sj t,
  (forall k, In k k0 -> 0 < k) -> (forall k, In k kgrid -> 0 <= k) -> 0 < dk ->
  setup_grid_sphere Rops fuel (map (fun _ => dk) kgrid) kgrid k0 = Ok (kvec, off) ->
  nth_error kvec i = Some si -> nth_error kvec j = Some sj -> In t si -> In t sj -> i = j.
Proof.
  intros fuel dk kgrid k0 kvec off i j si sj t Pk Pg Pd H Hi Hj Ti Tj.
  destruct (shells_spec _ _ _ _ _ _ Pk Pg Pd H) as [dks [_ [_ [_ [_ [S _]]]]]].
  apply (S i si Hi) in Ti. apply (S j sj Hj) in Tj.
  eapply in_shell_unique; [apply Ti|apply Tj].
Qed.
Print Assumptions C37_disjoint.

(** No widening needed: if every shell of width dk has a lattice vector of its own,
    the selection succeeds at the first pass, and every lattice vector within dk
    of some k_i is in exactly one shell. *)
Theorem C37_complete : forall fuel dk (kgrid k0 : list R),
  (forall k, In k k0 -> 0 < k) -> (forall k, In k kgrid -> 0 <= k) -> 0 < dk ->
  (length k0 = 2 \/ length k0 = 3)%nat -> kgrid <> [] -> ascending kgrid ->
  (forall i, (i < length kgrid)%nat ->
     exists n, length n = length k0 /\ in_shell kgrid (map (fun _ => dk) kgrid) (wave k0 n) i) ->
  exists kvec off,
    setup_grid_sphere Rops (S fuel) (map (fun _ => dk) kgrid) kgrid k0 = Ok (kvec, off) /\
    (forall i shell t, nth_error kvec i = Some shell -> In t shell ->
       exists k, nth_error kgrid i = Some k /\ within (wave k0 (unshift off t)) k dk) /\
    forall n k, length n = length k0 -> In k kgrid -> within (wave k0 n) k dk ->
      exists! i, exists shell, nth_error kvec i = Some shell /\ In (map (fun z => (z + off)%Z) n) shell.
Proof.
  intros fuel dk kgrid k0 Pk Pg Pd D Hne Asc Pop.
  destruct (complete_shells fuel dk kgrid k0 Pk Pg Pd D Hne Asc Pop) as [kvec [off [H S]]].
  destruct (shells_spec _ _ _ _ _ _ Pk Pg Pd H) as [_ [_ [_ [L _]]]].
  exists kvec, off. split; [assumption|]. split.
  - intros i shell t Hi Ht. apply (S i shell Hi) in Ht.
    destruct Ht as [_ [[k [d [Hk [Hd Hw]]]] _]]. exists k. split; [assumption|].
    apply nth_error_In in Hd. apply in_map_iff in Hd. destruct Hd as [? [Hd _]]. subst d. assumption.
  - intros n k Ln Hk Hw. apply In_nth_error in Hk. destruct Hk as [i Hi].
    assert (B : (i < length kgrid)%nat) by (apply nth_error_Some; congruence).
    destruct (in_some_shell kgrid (map (fun _ => dk) kgrid) (wave k0 n) i k dk Hi) as [j [Hj Sj]];
      [|assumption|].
    { rewrite nth_error_map, Hi. reflexivity. }
    exists j. split.
    + destruct (nth_error kvec j) as [shell|] eqn:E; [|apply nth_error_None in E; lia].
      exists shell. split; [reflexivity|]. apply (S j shell E). rewrite map_length, unshift_shift. tauto.
    + intros j' [shell [E Ht]]. apply (S j' shell E) in Ht. rewrite unshift_shift in Ht.
      eapply in_shell_unique; [exact Sj|apply Ht].
Qed.
Print Assumptions C37_complete.

Lemma wave_example : wave [1; 1] [1%Z; 0%Z] = [1; 0].
Proof. unfold wave. cbn. f_equal; [|f_equal]; lra. Qed.
Lemma norm_example : norm [1; 0] = 1.
Proof. unfold norm. cbn. replace (1 * 1 + (0 * 0 + 0)) with 1 by ring. apply sqrt_1. Qed.

(** A square cell, one k value, width 1/2: the hypotheses of C37 hold. *)
Example C37_nonvacuous :
  (forall k, In k [1; 1] -> 0 < k) /\ (forall k, In k [1] -> 0 <= k) /\ 0 < / 2 /\ ascending [1] /\
  (forall i, (i < length [1])%nat ->
     exists n, length n = length [1; 1] /\ in_shell [1] (map (fun _ => / 2) [1]) (wave [1; 1] n) i) /\
  exists kvec off, setup_grid_sphere Rops 1 (map (fun _ => / 2) [1]) [1] [1; 1] = Ok (kvec, off).
Proof.
  assert (H : forall i, (i < length [1])%nat ->
     exists n, length n = length [1; 1] /\ in_shell [1] (map (fun _ => / 2) [1]) (wave [1; 1] n) i).
  { intros i Hi. exists [1%Z; 0%Z]. split; [reflexivity|]. cbn in Hi.
    assert (i = 0%nat) by lia. subst i. split; [|intros; lia].
    exists 1, (/ 2). split; [reflexivity|]. split; [reflexivity|]. unfold within.
    rewrite wave_example, norm_example. rewrite Rminus_diag_eq by reflexivity. rewrite Rabs_R0. lra. }
  assert (P : forall k, In k [1; 1] -> 0 < k) by (cbn; intros k [<-|[<-|[]]]; lra).
  assert (Q : forall k, In k [1] -> 0 <= k) by (cbn; intros k [<-|[]]; lra).
  assert (As : ascending [1]) by (intros [|[|i]] [|[|j]] x y Hij; cbn; try lia; discriminate).
  split; [assumption|]. split; [assumption|]. split; [lra|]. split; [assumption|]. split; [assumption|].
  destruct (complete_shells 0 (/ 2) [1] [1; 1] P Q ltac:(lra) (or_introl eq_refl) ltac:(congruence) As H)
    as [kvec [off [E _]]]. eauto.
Qed.

(** ** C38 *)
(** For every positive cell in 2 or 3 dimensions, every non-empty list of k values
    (sorted or not, of either sign) and every dk > 0, the widening ends, with the
    same result for every larger bound on the depth of the recursion, and every
    shell of the result is non-empty. *)
Theorem C38_terminates : forall (kgrid k0 : list R) dk,
  (forall k, In k k0 -> 0 < k) -> (length k0 = 2 \/ length k0 = 3)%nat -> kgrid <> [] -> 0 < dk ->
  exists fuel r, (forall more, (fuel <= more)%nat ->
      setup_grid_sphere Rops more (map (fun _ => dk) kgrid) kgrid k0 = Ok r) /\
    length (fst r) = length kgrid /\ forall shell, In shell (fst r) -> shell <> [].
Proof.
  intros kgrid k0 dk Pk D Hne Pd.
  destruct (widening_ends k0 kgrid (map (fun _ => dk) kgrid) Pk D Hne) as [f [r H]].
  - apply map_length.
  - intros x Hx. apply in_map_iff in Hx. destruct Hx as [_ [<- _]]. assumption.
  - exists f, r. split; [intros; eapply setup_grid_more; eassumption|].
    destruct r as [kvec kb]. apply setup_grid_result in H; [|apply map_length].
    destruct H as [dk' [_ [P N]]]. apply pass_In in P.
    destruct P as [kl [dl [km [_ [_ [_ [_ [Lk _]]]]]]]].
    cbn [fst]. split; [assumption|]. intros shell Hs. apply In_nth with (d := []) in Hs.
    destruct Hs as [i [Hi <-]]. apply N. congruence.
Qed.
Print Assumptions C38_terminates.

(** Two equal k values: the second shell starves at first, and still the loop ends. *)
Example C38_nonvacuous : exists fuel r,
  setup_grid_sphere Rops fuel (map (fun _ => / 10) [2; 2]) [2; 2] [1; 1; 1] = Ok r.
Proof.
  destruct (C38_terminates [2; 2] [1; 1; 1] (/ 10)) as [f [r [H _]]].
  - cbn. intros k [<-|[<-|[<-|[]]]]; lra.
  - right. reflexivity.
  - congruence.
  - lra.
  - exists f, r. apply H. lia.
Qed.

(** ** C39 *)
(** With any sampler that returns the requested number of entries at distinct
    positions: the result does not depend on the state [s] of the random module
    before the call, every shell keeps min(nk, size) distinct vectors, at least
    one, all from the shell, and kgrid is the list of the mean norms of the
    kept wave-vectors. *)
Theorem C39_decimation : forall fuel tp (g : rng) p (side : list R) s grid st u s',
  sampler_ok g -> (1 <= kp_nk Rops p)%Z ->
  setup Rops fuel tp g p side s grid = Ok (st, u, s') ->
  (forall s2, setup Rops fuel tp g p side s2 grid = Ok (st, u, s')) /\
  ks_grid st = map (fun vs => rmean (map norm vs)) (kvectors Rops st) /\
  exists kgrid shells,
    initial_kgrid Rops p (cell_k0 Rops tp side) grid = Ok kgrid /\
    setup_grid_sphere Rops fuel (map (fun _ => kp_dk Rops p) kgrid) kgrid (cell_k0 Rops tp side)
      = Ok (shells, ks_offset st) /\
    Forall2 (fun kept shell => kept <> [] /\
               Z.of_nat (length kept) = Z.min (kp_nk Rops p) (Z.of_nat (length shell)) /\
               NoDup kept /\ incl kept shell) (ks_vectors st) shells.
Proof.
  intros fuel tp g p side s grid st u s' G Hnk H. split; [intros; exact H|].
  unfold setup in H. cbv zeta in H.
  apply bind_Ok_inv in H. destruct H as [kgrid [E1 H]].
  apply bind_Ok_inv in H. destruct H as [[shells off] [E2 H]].
  apply bind_Ok_inv in H. destruct H as [[kept s2] [E3 H]]. cbn [fst snd] in H.
  apply Ok_inj in H.
  assert (Est : st = mkK (A:=Rops) (cell_k0 Rops tp side) kept off (map (mean_norm Rops (cell_k0 Rops tp side) off) kept))
    by congruence.
  subst st. cbn [ks_grid ks_offset ks_vectors].
  split.
  - rewrite kvectors_R. cbn [ks_k0 ks_offset ks_vectors]. rewrite map_map. apply map_ext. intros l.
    rewrite mean_norm_R, map_map. reflexivity.
  - exists kgrid, shells. split; [assumption|]. split; [assumption|].
    apply decimate_spec in E3; [|assumption]. cbn [fst] in E3.
    apply setup_grid_result in E2; [|apply map_length]. destruct E2 as [dk' [_ [P N]]].
    apply pass_In in P. destruct P as [kl [dl [km [_ [_ [_ [_ [Lk [_ [ND _]]]]]]]]]].
    assert (NN : forall sh, In sh shells -> sh <> [] /\ NoDup sh).
    { intros sh Hs. apply In_nth with (d := []) in Hs. destruct Hs as [i [Hi <-]].
      split; [apply N; congruence|apply ND]. }
    clear - E3 NN Hnk. induction E3 as [|kp sh ks ss [L [rest R]] F IH]; constructor.
    + destruct (NN sh (or_introl eq_refl)) as [N1 N2].
      split.
      * intros ->. cbn in L. destruct sh; [congruence|]. cbn [length] in L. lia.
      * split; [assumption|].
        pose proof (Permutation_NoDup R N2) as ND. split.
        -- clear - ND. induction kp as [|a r IH]; [constructor|]. cbn in ND.
           inversion ND as [|? ? Ha Hr]; subst. constructor; [|auto].
           intros C. apply Ha. apply in_or_app. left. assumption.
        -- intros a Ha. apply Permutation_in with (l := kp ++ rest); [apply Permutation_sym; assumption|].
           apply in_or_app. left. assumption.
    + apply IH. intros; apply NN; right; assumption.
Qed.
Print Assumptions C39_decimation.

(** The sampler that keeps the first n entries, with a counter as state. *)
Definition first_n : rng := mkRng nat (fun _ => 0%nat) (fun s l n => (firstn n l, S s)).
Lemma first_n_ok : sampler_ok first_n.
Proof.
  intros s l n H. cbn. split; [apply firstn_length_le; assumption|].
  exists (skipn n l). rewrite firstn_skipn. apply Permutation_refl.
Qed.

(** The whole set-up succeeds (so C39 speaks about something). *)
Theorem C38_setup : forall tp (g : rng) p (side : list R) s grid kgrid,
  (forall L, In L side -> 0 < L) -> 0 < tp -> (length side = 2 \/ length side = 3)%nat ->
  0 < kp_dk Rops p -> (0 <= kp_nk Rops p)%Z ->
  initial_kgrid Rops p (cell_k0 Rops tp side) grid = Ok kgrid -> kgrid <> [] ->
  exists fuel r, setup Rops fuel tp g p side s grid = Ok r.
Proof.
  intros tp g p side s grid kgrid Ps Pt D Pd Pn E Hne.
  destruct (C38_terminates kgrid (cell_k0 Rops tp side) (kp_dk Rops p)) as [f [r [H _]]].
  - intros k Hk. apply in_map_iff in Hk. destruct Hk as [L [<- HL]]. cbn.
    apply Rdiv_lt_0_compat; [assumption|apply Ps; assumption].
  - unfold cell_k0. rewrite map_length. assumption.
  - assumption.
  - assumption.
  - exists f. unfold setup.
    assert (X : exists d, decimate g (kp_nk Rops p) (rng_seed g 1) (fst r) = Ok d).
    { unfold decimate.
      match goal with |- exists d, foldM ?f0 ?s0 ?l0 = Ok d =>
        assert (Y : forall l s1, exists d, foldM f0 s1 l = Ok d); [|apply Y] end.
      intros l. induction l as [|sh ks IH]; intros s1; cbn [foldM]; [eauto|].
      destruct (Z.ltb_spec (Z.min (kp_nk Rops p) (Z.of_nat (length sh))) 0); [lia|]. cbn [bind]. apply IH. }
    destruct X as [d X]. eexists.
    eapply bind_intro; [exact E|]. eapply bind_intro; [apply H; lia|].
    eapply bind_intro; [exact X|]. reflexivity.
Qed.
Print Assumptions C38_setup.

Definition p_example : kparams Rops := mkP (A:=Rops) (/ 10) 8 (-1) 10 20.
Example C39_nonvacuous : exists fuel r,
  setup Rops fuel (2 * PI) first_n p_example [1; 1; 1] 7%nat (Some [7]) = Ok r.
Proof.
  eapply (C38_setup (2 * PI) first_n p_example [1; 1; 1] 7%nat (Some [7])).
  - cbn. intros L [<-|[<-|[<-|[]]]]; lra.
  - pose proof PI_RGT_0. lra.
  - right. reflexivity.
  - cbn. lra.
  - cbn. lia.
  - eapply bind_intro; [reflexivity|]. cbn [sort_num fold_right insert_num]. reflexivity.
  - congruence.
Qed.

(** ** C40 *)
(** Assigning any list of lists of wave-vectors of the cell succeeds, and reading
    the property back gives the very same vectors; kgrid is the list of their
    mean norms. *)
Theorem C40_copy : forall tp (side : list R) kv,
  (forall k, In k (cell_k0 Rops tp side) -> 0 < k) -> side <> [] ->
  (forall vs v, In vs kv -> In v vs -> exists n, length n = length side /\ v = wave (cell_k0 Rops tp side) n) ->
  exists q, set_kvectors Rops tp side kv = Ok q /\ kvectors Rops q = kv /\
    ks_grid q = map (fun vs => rmean (map norm vs)) kv.
Proof.
  intros tp side kv Pk Hne H. set (k0 := cell_k0 Rops tp side) in *.
  assert (Lk : length k0 = length side) by (unfold k0, cell_k0; apply map_length).
  assert (X : exists ns, kv = map (map (wave k0)) ns /\
              forall l n, In l ns -> In n l -> length n = length k0).
  { clear - H Lk. induction kv as [|vs r IH].
    - exists []. split; [reflexivity|]. intros l n [].
    - destruct IH as [ns [E L]]; [intros vs0 v Hv; apply H; right; assumption|].
      assert (Y : exists l, vs = map (wave k0) l /\ forall n, In n l -> length n = length k0).
      { assert (Hv : forall v, In v vs -> exists n, length n = length side /\ v = wave k0 n)
          by (intros; eapply H; [left; reflexivity|assumption]).
        clear - Hv Lk. induction vs as [|v r IH]; [exists []; split; [reflexivity|intros n []]|].
        destruct IH as [l [E L]]; [intros; apply Hv; right; assumption|].
        destruct (Hv v (or_introl eq_refl)) as [n [Ln En]].
        exists (n :: l). split; [cbn; congruence|]. intros m [<-|Hm]; [congruence|auto]. }
      destruct Y as [l [El Ll]]. exists (l :: ns). split; [cbn; congruence|].
      intros l' n [<-|Hl] Hn; [auto|eauto]. }
  destruct X as [ns [-> L]].
  assert (Nk : k0 <> []) by (intros C; rewrite C in Lk; destruct side; [congruence|discriminate]).
  destruct (set_kvectors_R tp side ns Pk Nk L) as [s [_ E]]. fold k0 in E.
  eexists. split; [exact E|]. split.
  - rewrite kvectors_R. cbn [ks_k0 ks_offset ks_vectors]. rewrite map_map. apply map_ext. intros l.
    rewrite map_map. apply map_ext. intros n. rewrite unshift_shift. reflexivity.
  - cbn [ks_grid]. rewrite map_map. apply map_ext. intros l. rewrite map_map. reflexivity.
Qed.
Print Assumptions C40_copy.

(** In particular the wave-vectors selected by one correlation can be assigned to
    another one in the same cell. *)
Theorem C40_between : forall fuel tp (g : rng) p (side : list R) s grid st u s',
  (forall k, In k (cell_k0 Rops tp side) -> 0 < k) ->
  sampler_ok g -> (1 <= kp_nk Rops p)%Z ->
  setup Rops fuel tp g p side s grid = Ok (st, u, s') ->
  exists q, set_kvectors Rops tp side (kvectors Rops st) = Ok q /\ kvectors Rops q = kvectors Rops st /\
    ks_grid q = ks_grid st.
Proof.
  intros fuel tp g p side s grid st u s' Pk G Hnk H.
  pose proof (C39_decimation _ _ _ _ _ _ _ _ _ _ G Hnk H) as [_ [EG [kgrid [shells [E1 [E2 F]]]]]].
  assert (K0 : ks_k0 st = cell_k0 Rops tp side).
  { unfold setup in H. cbv zeta in H. apply bind_Ok_inv in H. destruct H as [a [_ H]].
    apply bind_Ok_inv in H. destruct H as [b [_ H]]. apply bind_Ok_inv in H. destruct H as [c [_ H]].
    apply Ok_inj in H. assert (X := f_equal (fun z => ks_k0 (fst (fst z))) H). cbn in X. congruence. }
  apply setup_grid_result in E2; [|apply map_length]. destruct E2 as [dk' [_ [P _]]].
  apply pass_In in P. destruct P as [kl [dl [km [_ [_ [_ [_ [Lk [D [_ IN]]]]]]]]]].
  assert (LS : length (cell_k0 Rops tp side) = length side) by apply map_length.
  destruct (C40_copy tp side (kvectors Rops st)) as [q [Q1 [Q2 Q3]]].
  - assumption.
  - intros ->. cbn in D. lia.
  - rewrite kvectors_R, K0. intros vs v Hvs Hv.
    apply in_map_iff in Hvs. destruct Hvs as [kept [<- Hk]].
    apply in_map_iff in Hv. destruct Hv as [t [<- Ht]].
    exists (unshift (ks_offset st) t). split; [|reflexivity].
    assert (Y : exists sh, In sh shells /\ incl kept sh).
    { clear - F Hk. induction F as [|a b la lb [_ [_ [_ Hi]]] F IH]; [destruct Hk|].
      destruct Hk as [->|Hk]; [exists b; split; [left; reflexivity|assumption]|].
      destruct (IH Hk) as [sh [H1 H2]]. exists sh. split; [right; assumption|assumption]. }
    destruct Y as [sh [Hs Hi]]. apply Hi in Ht. apply In_nth with (d := []) in Hs. destruct Hs as [i [_ <-]].
    apply IN in Ht. destruct Ht as [[Lt _] _]. change (num Rops) with R in *. lia.
  - exists q. split; [assumption|]. split; [assumption|]. congruence.
Qed.
Print Assumptions C40_between.

Example C40_nonvacuous : (forall k, In k (cell_k0 Rops 1 [1; 2]) -> 0 < k) /\
  forall vs v, In vs [[wave (cell_k0 Rops 1 [1; 2]) [3; -2]%Z]] -> In v vs ->
    exists n, length n = length [1; 2] /\ v = wave (cell_k0 Rops 1 [1; 2]) n.
Proof.
  split.
  - cbn. intros k [<-|[<-|[]]]; lra.
  - intros vs v [<-|[]] [<-|[]]. exists [3; -2]%Z. split; reflexivity.
Qed.

(** ** C41 *)
(** The table index of every assigned vector is inside the table of 2*off+1
    entries if and only if no component exceeds 1 plus the absolute value of the
    most negative component. *)
Theorem C41_partial : forall tp (side : list R) ns,
  (forall k, In k (cell_k0 Rops tp side) -> 0 < k) -> side <> [] ->
  (forall l n, In l ns -> In n l -> length n = length side) ->
  exists q s, set_kvectors Rops tp side (map (map (wave (cell_k0 Rops tp side))) ns) = Ok q /\ lowest ns s /\
    ((forall l t i, In l (ks_vectors q) -> In t l -> In i t -> (0 <= i <= 2 * ks_offset q)%Z) <->
     (forall l n z, In l ns -> In n l -> In z n -> (z <= - s + 1)%Z)).
Proof.
  intros tp side ns Pk Hne L.
  assert (Lk : length (cell_k0 Rops tp side) = length side) by apply map_length.
  assert (Nk : cell_k0 Rops tp side <> []).
  { intros C. rewrite C in Lk. destruct side; [congruence|discriminate]. }
  destruct (set_kvectors_R tp side ns Pk Nk) as [s [Low E]].
  { intros l n Hl Hn. rewrite Lk. eapply L; eassumption. }
  eexists. exists s. split; [exact E|]. split; [assumption|].
  cbn [ks_vectors ks_offset]. destruct Low as [S0 [S1 _]]. split.
  - intros H l n z Hl Hn Hz.
    assert (B := H _ _ (z + (Z.abs s + 1))%Z (in_map _ _ _ Hl) (in_map _ _ _ Hn) (in_map (fun n => (n + (Z.abs s + 1))%Z) _ _ Hz)).
    lia.
  - intros H l t i Hl Ht Hi. apply in_map_iff in Hl. destruct Hl as [l0 [<- Hl]].
    apply in_map_iff in Ht. destruct Ht as [n [<- Hn]]. apply in_map_iff in Hi. destruct Hi as [z [<- Hz]].
    specialize (H l0 n z Hl Hn Hz). specialize (S1 l0 n z Hl Hn Hz). lia.
Qed.
Print Assumptions C41_partial.

(** As stated the property is false in every cell: assigning the single wave-vector
    (2 k0, 0, ...) puts it beyond the end of the table. *)
Theorem C41_refuted : forall tp L (side : list R), 0 < tp -> 0 < L -> (forall x, In x side -> 0 < x) ->
  exists n q, length n = length (L :: side) /\
    set_kvectors Rops tp (L :: side) [[wave (cell_k0 Rops tp (L :: side)) n]] = Ok q /\
    exists t i, In [t] (ks_vectors q) /\ In i t /\ (2 * ks_offset q < i)%Z.
Proof.
  intros tp L side Ht HL Hs. set (n := 2%Z :: map (fun _ => 0%Z) side).
  assert (Pk : forall k, In k (cell_k0 Rops tp (L :: side)) -> 0 < k).
  { intros k Hk. apply in_map_iff in Hk. destruct Hk as [x [<- Hx]]. cbn.
    apply Rdiv_lt_0_compat; [assumption|]. destruct Hx as [<-|Hx]; auto. }
  destruct (set_kvectors_R tp (L :: side) [[n]] Pk) as [s [[S0 [S1 S2]] E]].
  - discriminate.
  - intros l m [<-|[]] [<-|[]]. unfold n. cbn. rewrite !map_length. reflexivity.
  - exists n. eexists. split; [unfold n; cbn; rewrite map_length; reflexivity|].
    split; [exact E|]. cbn [ks_vectors ks_offset].
    assert (s = 0%Z).
    { destruct S2 as [->|[l [m [[<-|[]] [[<-|[]] Hm]]]]]; [reflexivity|].
      unfold n in Hm. destruct Hm as [Hm|Hm]; [lia|]. apply in_map_iff in Hm. destruct Hm as [? [Hm _]]. congruence. }
    subst s. exists (map (fun n => (n + (Z.abs 0 + 1))%Z) n), 3%Z.
    split; [left; reflexivity|]. split; [left; reflexivity|]. reflexivity.
Qed.
Print Assumptions C41_refuted.

Example C41_nonvacuous : (forall k, In k (cell_k0 Rops 1 [1; 2]) -> 0 < k) /\
  (forall l n, In l [[[3; -2]; [1; 1]]]%Z -> In n l -> length n = length [1; 2]) /\ lowest [[[3; -2]; [1; 1]]]%Z (-2).
Proof.
  split; [|split].
  - cbn. intros k [<-|[<-|[]]]; lra.
  - intros l n [<-|[]] [<-|[<-|[]]]; reflexivity.
  - split; [lia|]. split.
    + intros l n z [<-|[]] [<-|[<-|[]]] Hz; cbn in Hz; lia.
    + right. exists [[3; -2]; [1; 1]]%Z, [3; -2]%Z. cbn. auto.
Qed.

(** ** C42 *)
(** False as stated: a second correlation given the same list object uses a
    different set of wave-vectors, and the caller's list is overwritten.  Doubles,
    cell with k0 = (1, 100), kgrid = [2.05], dk = 2.1, nk = 20. *)
Definition tp64 : f64 := f64_frac 7074237752028440 1125899906842624.
Definition p42 : kparams F64ops :=
  mkP (A:=F64ops) (f64_frac 21 10) 20 (f64_ofZ (-1)) (f64_ofZ 10) 20.
Definition side42 : list f64 := [tp64; ndiv F64ops tp64 (f64_ofZ 100)].
Definition setup42 (grid : list f64) : option (list (list (list Z)) * option (list f64)) :=
  match setup F64ops 100 tp64 first_n p42 side42 0%nat (Some grid) with
  | Ok r => Some (ks_vectors (fst (fst r)), snd (fst r))
  | Err _ => None
  end.

Theorem C42_refuted : exists grid v1 grid1 v2 grid2,
  setup42 grid = Some (v1, Some grid1) /\ setup42 grid1 = Some (v2, Some grid2) /\
  map (@length _) v1 = [9%nat] /\ map (@length _) v2 = [8%nat] /\
  map (fun x => neq F64ops (fst x) (snd x)) (combine grid grid1) = [false].
Proof.
  exists [f64_frac 205 100]. do 4 eexists.
  split; [vm_compute; reflexivity|]. split; [vm_compute; reflexivity|].
  split; [vm_compute; reflexivity|]. split; [vm_compute; reflexivity|]. vm_compute. reflexivity.
Qed.
Print Assumptions C42_refuted.

(** What holds, in every arithmetic and for every sampler: without a user-given k
    grid, or with the list restored to its original content, the selection
    depends only on the cell and the parameters, whatever was drawn from the
    random module in between. *)
Theorem C42_partial : forall A fuel tp (g : rng) p side s1 s2 grid st1 u1 r1 st2 u2 r2,
  setup A fuel tp g p side s1 grid = Ok (st1, u1, r1) ->
  setup A fuel tp g p side s2 grid = Ok (st2, u2, r2) ->
  ks_vectors st1 = ks_vectors st2 /\ kvectors A st1 = kvectors A st2 /\ ks_grid st1 = ks_grid st2 /\
  (grid = None -> u1 = None).
Proof.
  intros A fuel tp g p side s1 s2 grid st1 u1 r1 st2 u2 r2 H1 H2.
  assert (E : Ok (st1, u1, r1) = Ok (st2, u2, r2)) by (rewrite <- H1, <- H2; reflexivity).
  apply Ok_inj in E. assert (st1 = st2) by congruence. subst st2.
  repeat (split; [reflexivity|]). intros ->.
  unfold setup in H1. apply bind_Ok_inv in H1. destruct H1 as [a [_ H1]].
  apply bind_Ok_inv in H1. destruct H1 as [b [_ H1]]. apply bind_Ok_inv in H1. destruct H1 as [c [_ H1]].
  apply Ok_inj in H1. congruence.
Qed.
Print Assumptions C42_partial.

Example C42_nonvacuous : exists v g1, setup42 [f64_ofZ 3; f64_ofZ 1] = Some (v, Some g1).
Proof. do 2 eexists. vm_compute. reflexivity. Qed.
