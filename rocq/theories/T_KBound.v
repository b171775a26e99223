(** Theorems on the widening of well separated shells: C141. *)
From Coq Require Import List ZArith Bool Arith Reals Lra Lia Permutation Sorting.Sorted.
From Verif Require Import PyBase PyBaseFacts Num NumFacts M_Helpers M_KGrid Spec_Stats Spec_BondAngle
  P_BondAngle Spec_KGrid Spec_KBound P_KGrid P_KGrid2 P_KGrid3 P_KGrid4 P_KBound T_KGrid T_KOrder.
Import ListNotations.
Local Open Scope R_scope.

(** ** C141 *)
(** K is the smallest wave-number of the cell along any of its directions; the requested wave-numbers are at least
    1.2 K apart and the width does not exceed 0.6 K.  Then w nested calls are enough if dk 1.2^w > K/2, and every
    vector of a shell is within 0.6 K of the requested wave-number. *)
Theorem C141_widening : forall w dk K (kgrid k0 : list R), (forall k, In k k0 -> 0 < k) -> (length k0 = 2 \/ length k0 = 3)%nat -> In K k0 ->
  kgrid <> [] -> (forall k, In k kgrid -> 0 <= k) -> apart (12 / 10 * K) kgrid -> 0 < dk <= 6 / 10 * K -> K / 2 < dk * (12 / 10) ^ w ->
  exists kvec off, setup_grid_sphere Rops (S w) (map (fun _ => dk) kgrid) kgrid k0 = Ok (kvec, off) /\ length kvec = length kgrid /\
    forall i shell k, nth_error kvec i = Some shell -> nth_error kgrid i = Some k -> shell <> [] /\
      forall t, In t shell -> length t = length k0 /\ Rabs (norm (wave k0 (unshift off t)) - k) < 6 / 10 * K.
Proof.
  intros w dk K kgrid k0 Pk Dk IK Hne Pg Ap Hd Hw.
  assert (Pn : forall i, (i < length kgrid)%nat -> 0 <= nth i kgrid 0) by (intros i Hi; apply Pg, nth_In; exact Hi).
  assert (Sep : forall i j, (i < j)%nat -> (j < length kgrid)%nat -> nth i kgrid 0 + 12 / 10 * K <= nth j kgrid 0) by (intros i j Hij Hj; apply (Ap i j); [exact Hij|apply nth_err; lia|apply nth_err; exact Hj]).
  assert (L0 : length (map (fun _ : R => dk) kgrid) = length kgrid) by apply map_length.
  assert (N0 : forall i, (i < length kgrid)%nat -> nth i (map (fun _ : R => dk) kgrid) 0 = dk) by (intros i Hi; apply nth_map_const; exact Hi).
  destruct (widening_bounded k0 kgrid K Pk Dk Hne IK Pn Sep dk w 0 (map (fun _ => dk) kgrid)) as [dks [kvec [kb [E [P [[Ln Nn] NE]]]]]]; [|exact Hw|].
  { split; [split; [exact L0|intros i Hi; rewrite (N0 i Hi); exact Hd]|]. intros i Hi. left. rewrite (N0 i Hi). cbn [pow]. ring. }
  apply pass_In in P. destruct P as [kl [dl [km [_ [_ [_ [_ [Lk [_ [_ IN]]]]]]]]]].
  exists kvec, kb. split; [exact E|]. split; [exact Lk|]. intros i shell k Hi Hk. assert (B : (i < length kgrid)%nat) by (apply nth_error_Some; congruence). assert (Es : nth i kvec [] = shell) by (apply nth_error_nth; exact Hi).
  rewrite <- Es. split; [apply NE; exact B|]. intros t Ht. apply IN in Ht. destruct Ht as [[Lt _] [_ [[k' [d' [Hk' [Hd' W]]]] _]]]. split; [rewrite unshift_length in Lt; exact Lt|].
  rewrite Hk in Hk'. injection Hk' as <-. rewrite (nth_err dks i) in Hd' by lia. injection Hd' as <-. pose proof (Nn i B). unfold within in W. lra.
Qed.
Print Assumptions C141_widening.

(** With larger widths no shell has to be widened. *)
Lemma wide_own : forall dk K (kgrid k0 : list R), (forall k, In k k0 -> 0 < k) -> In K k0 -> (forall k, In k kgrid -> 0 <= k) -> apart (12 / 10 * K) kgrid -> 6 / 10 * K < dk ->
  forall i, (i < length kgrid)%nat -> exists n, length n = length k0 /\ in_shell kgrid (map (fun _ => dk) kgrid) (wave k0 n) i.
Proof.
  intros dk K kgrid k0 Pk IK Pg Ap Hd i Hi. pose proof (Pk K IK) as PK. set (k := nth i kgrid 0). assert (Hk : nth_error kgrid i = Some k) by (apply nth_err; exact Hi). assert (k0' : 0 <= k) by (apply Pg; eapply nth_error_In; exact Hk).
  assert (own : forall n, length n = length k0 -> k - dk < norm (wave k0 n) < k + dk -> (forall j, (j < i)%nat -> nth j kgrid 0 + dk <= norm (wave k0 n)) -> in_shell kgrid (map (fun _ => dk) kgrid) (wave k0 n) i).
  { intros n Ln B U. split.
    - exists k, dk. split; [exact Hk|]. split; [rewrite nth_error_map, Hk; reflexivity|]. unfold within. apply Rabs_def1; lra.
    - intros j kj d Hj Hkj Hdj W. specialize (U j Hj). rewrite nth_error_map, Hkj in Hdj. injection Hdj as <-. rewrite (nth_err kgrid j) in Hkj by lia. injection Hkj as <-. unfold within in W. apply Rabs_def2 in W. lra. }
  assert (near : (forall j, (j < i)%nat -> nth j kgrid 0 + dk <= k - K / 2) -> exists n, length n = length k0 /\ in_shell kgrid (map (fun _ => dk) kgrid) (wave k0 n) i).
  { intros U. destruct (wave_near k0 K k IK PK k0') as [n [Ln W]]. assert (- (K / 2) <= norm (wave k0 n) - k <= K / 2) by (revert W; unfold Rabs; destruct (Rcase_abs _); lra). exists n. split; [exact Ln|]. apply own; [exact Ln|lra|]. intros j Hj. specialize (U j Hj). lra. }
  destruct i as [|i]; [apply near; intros; lia|]. set (kp := nth i kgrid 0).
  assert (Hp : nth_error kgrid i = Some kp) by (apply nth_err; lia). assert (kp0 : 0 <= kp) by (apply Pg; eapply nth_error_In; exact Hp). pose proof (Ap i (S i) kp k ltac:(lia) Hp Hk) as Sp.
  assert (below : forall j, (j < S i)%nat -> nth j kgrid 0 <= kp) by (intros j Hj; destruct (Nat.eq_dec j i) as [->|Nj]; [apply Rle_refl|]; pose proof (Ap j i (nth j kgrid 0) kp ltac:(lia) (nth_err kgrid j ltac:(lia)) Hp); lra).
  destruct (Rle_or_lt (kp + dk) (k - K / 2)) as [Q|Q]; [apply near; intros j Hj; specialize (below j Hj); lra|].
  destruct (wave_from k0 K (kp + dk) IK PK) as [n [Ln [W _]]]. specialize (W ltac:(lra)). exists n. split; [exact Ln|]. apply own; [exact Ln|lra|]. intros j Hj. specialize (below j Hj). lra.
Qed.

Lemma decimate_defined : forall (g : rng) nk s kvec, (0 <= nk)%Z -> exists d, decimate g nk s kvec = Ok d.
Proof.
  intros g nk s kvec Hn. unfold decimate. match goal with |- exists d, foldM ?f0 ?s0 ?l0 = Ok d => assert (Y : forall l s1, exists d, foldM f0 s1 l = Ok d); [|apply Y] end.
  intros l. induction l as [|sh ks IH]; intros s1; cbn [foldM]; [eauto|]. destruct (Z.ltb_spec (Z.min nk (Z.of_nat (length sh))) 0); [lia|]. cbn [bind]. apply IH.
Qed.

(** Hence, for every width: the set-up succeeds within w + 1 nested calls, the wave-numbers are reported in strictly
    increasing order, and each is within the larger of dk and 0.6 K of the requested one. *)
Theorem C141_reported : forall w fuel tp (g : rng) p (side : list R) s grid kgrid K, sampler_ok g -> (1 <= kp_nk Rops p)%Z ->
  (forall L, In L side -> 0 < L) -> 0 < tp -> 0 < kp_dk Rops p -> (length side = 2 \/ length side = 3)%nat -> In K (cell_k0 Rops tp side) ->
  initial_kgrid Rops p (cell_k0 Rops tp side) grid = Ok kgrid -> kgrid <> [] -> (forall k, In k kgrid -> 0 <= k) -> apart (12 / 10 * K) kgrid ->
  K / 2 < kp_dk Rops p * (12 / 10) ^ w -> (w < fuel)%nat ->
  exists st u s', setup Rops fuel tp g p side s grid = Ok (st, u, s') /\ length (ks_grid st) = length kgrid /\
    (forall i j Ki Kj, (i < j)%nat -> nth_error (ks_grid st) i = Some Ki -> nth_error (ks_grid st) j = Some Kj -> Ki < Kj) /\
    (forall i Ki k, nth_error (ks_grid st) i = Some Ki -> nth_error kgrid i = Some k -> Rabs (Ki - k) < Rmax (kp_dk Rops p) (6 / 10 * K)).
Proof.
  intros w fuel tp g p side s grid kgrid K G Hnk Ps Pt Pd D IK E Ne Pg Ap Hw Hf. set (k0 := cell_k0 Rops tp side) in *. set (dk := kp_dk Rops p) in *.
  assert (Lk0 : length k0 = length side) by (unfold k0, cell_k0; apply map_length).
  assert (Pk : forall k, In k k0 -> 0 < k) by (intros k Hk; apply in_map_iff in Hk; destruct Hk as [L [<- HL]]; cbn; apply Rdiv_lt_0_compat; [exact Pt|apply Ps; exact HL]).
  pose proof (Pk K IK) as PK. assert (Dk : (length k0 = 2 \/ length k0 = 3)%nat) by (rewrite Lk0; exact D).
  assert (As : ascending kgrid) by (intros i j x y Hij Hx Hy; pose proof (Ap i j x y Hij Hx Hy); lra).
  assert (build : forall kvec off, setup_grid_sphere Rops fuel (map (fun _ => dk) kgrid) kgrid k0 = Ok (kvec, off) -> exists st u s', setup Rops fuel tp g p side s grid = Ok (st, u, s')).
  { intros kvec off Es. destruct (decimate_defined g (kp_nk Rops p) (rng_seed g 1) kvec ltac:(lia)) as [d Ed]. do 3 eexists. unfold setup. cbv zeta. eapply bind_intro; [exact E|]. eapply bind_intro; [exact Es|]. eapply bind_intro; [exact Ed|]. reflexivity. }
  destruct (Rle_or_lt dk (6 / 10 * K)) as [Q|Q].
  - destruct (C141_widening w dk K kgrid k0 Pk Dk IK Ne Pg Ap (conj Pd Q) Hw) as [kvec [off [Es [Lv M]]]]. apply (setup_grid_more (S w) fuel) in Es; [|lia].
    destruct (build kvec off Es) as [st [u [s' H]]]. exists st, u, s'. split; [exact H|].
    destruct (reported_means _ _ _ _ _ _ _ _ _ _ _ G Hnk E H) as [shells [off' [Es' [Lg Mn]]]]. fold k0 in Es', Mn. fold dk in Es'. assert (X : Ok (kvec, off) = Ok (shells, off')) by exact (eq_trans (eq_sym Es) Es'). apply Ok_inj in X. injection X as <- <-.
    split; [exact (eq_trans Lg Lv)|]. change (num Rops) with R in *.
    assert (B : forall i Ki k, nth_error (ks_grid st) i = Some Ki -> nth_error kgrid i = Some k -> k - 6 / 10 * K < Ki < k + 6 / 10 * K).
    { intros i Ki k HK Hk. destruct (Mn i Ki HK) as [shell [kept [Hs [N [I ->]]]]]. apply rmean_strict; [destruct kept; [congruence|discriminate]|]. intros v Hv. apply in_map_iff in Hv. destruct Hv as [t [<- Ht]].
      destruct (M i shell k Hs Hk) as [_ Mt]. destruct (Mt t (I t Ht)) as [_ W]. apply Rabs_def2 in W. lra. }
    assert (KG : forall i Ki, nth_error (ks_grid st) i = Some Ki -> exists k, nth_error kgrid i = Some k).
    { intros i Ki HK. destruct (Mn i Ki HK) as [shell [kept [Hs _]]]. assert (Y : (i < length kgrid)%nat) by (rewrite <- Lv; apply nth_error_Some; congruence). destruct (nth_error kgrid i) as [k|] eqn:X; [eauto|]. apply nth_error_None in X. lia. }
    split.
    + intros i j Ki Kj Hij Hi Hj. destruct (KG i Ki Hi) as [ki Hki]. destruct (KG j Kj Hj) as [kj Hkj]. pose proof (B i Ki ki Hi Hki). pose proof (B j Kj kj Hj Hkj). pose proof (Ap i j ki kj Hij Hki Hkj). lra.
    + intros i Ki k Hi Hk. pose proof (B i Ki k Hi Hk). apply Rlt_le_trans with (6 / 10 * K); [apply Rabs_def1; lra|apply Rmax_r].
  - pose proof (wide_own dk K kgrid k0 Pk IK Pg Ap Q) as Own. destruct fuel as [|fuel]; [lia|]. destruct (complete_shells fuel dk kgrid k0 Pk Pg Pd Dk Ne As Own) as [kvec [off [Es _]]].
    destruct (build kvec off Es) as [st [u [s' H]]]. exists st, u, s'. split; [exact H|].
    assert (Own' : forall i, (i < length kgrid)%nat -> exists n, length n = length side /\ in_shell kgrid (map (fun _ => dk) kgrid) (wave k0 n) i) by (intros i Hi; destruct (Own i Hi) as [n [Ln I]]; exists n; split; [exact (eq_trans Ln Lk0)|exact I]).
    destruct (C139_increasing_partial (S fuel) tp g p side s grid st u s' kgrid G Hnk Ps Pt Pd D E Ne As Pg Own' H) as [C1 C2].
    destruct (C139_separated_partial (S fuel) tp g p side s grid st u s' kgrid G Hnk Ps Pt Pd E Pg H) as [_ [_ [_ [Lg _]]]].
    split; [exact Lg|]. split; [exact C2|]. intros i Ki k Hi Hk. apply Rlt_le_trans with dk; [exact (C1 i Ki k Hi Hk)|apply Rmax_l].
Qed.
Print Assumptions C141_reported.

(** The limit of 1000 nested calls is not reached unless dk is smaller than the smallest wave-number by a factor of 2^100. *)
Theorem C141_limit : forall tp (g : rng) p (side : list R) s grid kgrid K, sampler_ok g -> (1 <= kp_nk Rops p)%Z ->
  (forall L, In L side -> 0 < L) -> 0 < tp -> 0 < kp_dk Rops p -> (length side = 2 \/ length side = 3)%nat -> In K (cell_k0 Rops tp side) ->
  initial_kgrid Rops p (cell_k0 Rops tp side) grid = Ok kgrid -> kgrid <> [] -> (forall k, In k kgrid -> 0 <= k) -> apart (12 / 10 * K) kgrid ->
  K <= kp_dk Rops p * 2 ^ 100 -> exists r, setup Rops 1000 tp g p side s grid = Ok r.
Proof.
  intros tp g p side s grid kgrid K G Hnk Ps Pt Pd D IK E Ne Pg Ap HK.
  destruct (C141_reported 400 1000 tp g p side s grid kgrid K G Hnk Ps Pt Pd D IK E Ne Pg Ap) as [st [u [s' [H _]]]].
  - assert (PK : 0 < K) by (apply in_map_iff in IK; destruct IK as [L [<- HL]]; cbn; apply Rdiv_lt_0_compat; [exact Pt|apply Ps; exact HL]). apply Rlt_le_trans with K; [lra|]. eapply Rle_trans; [exact HK|]. apply Rmult_le_compat_l; [lra|].
    change 400%nat with (4 * 100)%nat. rewrite pow_mult. apply pow_incr. split; [lra|]. cbn [pow]. lra.
  - apply Nat.ltb_lt. reflexivity.
  - eauto.
Qed.
Print Assumptions C141_limit.

(** Sorting. *)
Lemma insert_num_R : forall (x : R) (l : list R), Permutation (x :: l) (insert_num Rops x l) /\ (StronglySorted Rle l -> StronglySorted Rle (insert_num Rops x l)).
Proof.
  intros x l. induction l as [|y r [P S]]; [split; [apply Permutation_refl|intros _; constructor; [constructor|constructor]]|]. cbn [insert_num]. cbn [nle Rops]. destruct (Rleb_spec x y) as [C|C].
  - split; [apply Permutation_refl|]. intros H. constructor; [exact H|]. inversion H as [|? ? Hs Hf]; subst. constructor; [exact C|]. rewrite Forall_forall in *. intros z Hz. specialize (Hf z Hz). lra.
  - split; [apply perm_trans with (y :: x :: r); [apply perm_swap|apply perm_skip; exact P]|]. intros H. inversion H as [|? ? Hs Hf]; subst. constructor; [apply S; exact Hs|]. rewrite Forall_forall in *. intros z Hz. apply Permutation_in with (l' := x :: r) in Hz; [|apply Permutation_sym; exact P]. destruct Hz as [<-|Hz]; [lra|apply Hf; exact Hz].
Qed.
Lemma sort_num_R : forall l : list R, Permutation l (sort_num Rops l) /\ StronglySorted Rle (sort_num Rops l).
Proof.
  intros l. induction l as [|x r [P S]]; [split; constructor|]. unfold sort_num in *. cbn [fold_right]. destruct (insert_num_R x (fold_right (insert_num Rops) [] r)) as [P2 S2].
  split; [apply perm_trans with (x :: fold_right (insert_num Rops) [] r); [apply perm_skip; exact P|exact P2]|apply S2; exact S].
Qed.
Lemma pairs_perm : forall (Q : R -> R -> Prop) l l', (forall x y, Q x y -> Q y x) -> Permutation l l' -> ForallOrdPairs Q l -> ForallOrdPairs Q l'.
Proof.
  intros Q l l' Sy P. induction P as [|x l l' P IH|x y l|l l' l'' P1 IH1 P2 IH2]; intros H.
  - exact H.
  - inversion H as [|? ? Hf Ho]; subst. constructor; [|apply IH; exact Ho]. rewrite Forall_forall in *. intros z Hz. apply Hf. apply Permutation_in with (l := l'); [apply Permutation_sym; exact P|exact Hz].
  - inversion H as [|? ? Hf Ho]; subst. inversion Ho as [|? ? Hf2 Ho2]; subst. inversion Hf as [|? ? Hxy Hf3]; subst. constructor; [constructor; [apply Sy; exact Hxy|exact Hf2]|]. constructor; assumption.
  - apply IH2, IH1, H.
Qed.
Lemma apart_sorted : forall c (l : list R), ForallOrdPairs (fun x y => c <= Rabs (x - y)) l -> StronglySorted Rle l -> apart c l.
Proof.
  intros c l H S. induction l as [|a l IH]; intros i j x y Hij Hx Hy; [destruct i; discriminate|]. inversion H as [|? ? Hf Ho]; subst. inversion S as [|? ? Ss Sf]; subst. destruct j as [|j]; [lia|]. cbn in Hy. destruct i as [|i].
  - injection Hx as <-. apply nth_error_In in Hy. rewrite Forall_forall in Hf, Sf. specialize (Hf y Hy). specialize (Sf y Hy). cbn in Hf. rewrite Rabs_minus_sym, Rabs_right in Hf; lra.
  - exact (IH Ho Ss i j x y ltac:(lia) Hx Hy).
Qed.

(** A list of wave-numbers given by the user in any order, no two of them closer than 1.2 K: the wave-numbers of the
    result are as many, in strictly increasing order, each close to the requested one of the same rank. *)
Theorem C141_given : forall w fuel tp (g : rng) p (side : list R) s (given : list R) K, sampler_ok g -> (1 <= kp_nk Rops p)%Z ->
  (forall L, In L side -> 0 < L) -> 0 < tp -> 0 < kp_dk Rops p -> (length side = 2 \/ length side = 3)%nat -> In K (cell_k0 Rops tp side) ->
  given <> [] -> (forall k, In k given -> 0 <= k) -> ForallOrdPairs (fun x y => 12 / 10 * K <= Rabs (x - y)) given ->
  K / 2 < kp_dk Rops p * (12 / 10) ^ w -> (w < fuel)%nat ->
  exists st u s' ranked, setup Rops fuel tp g p side s (Some given) = Ok (st, u, s') /\ Permutation given ranked /\ StronglySorted Rlt ranked /\ length (ks_grid st) = length given /\
    (forall i j Ki Kj, (i < j)%nat -> nth_error (ks_grid st) i = Some Ki -> nth_error (ks_grid st) j = Some Kj -> Ki < Kj) /\
    (forall i Ki k, nth_error (ks_grid st) i = Some Ki -> nth_error ranked i = Some k -> Rabs (Ki - k) < Rmax (kp_dk Rops p) (6 / 10 * K)).
Proof.
  intros w fuel tp g p side s given K G Hnk Ps Pt Pd D IK Ne Pg Ap Hw Hf.
  assert (PK : 0 < K) by (apply in_map_iff in IK; destruct IK as [L [<- HL]]; cbn; apply Rdiv_lt_0_compat; [exact Pt|apply Ps; exact HL]).
  destruct (sort_num_R given) as [P S]. assert (X : exists ranked : list R, ranked = sort_num Rops given) by (eexists; reflexivity). destruct X as [ranked Er]. rewrite <- Er in P, S.
  assert (Nr : ranked <> []) by (intros C; rewrite C in P; apply Permutation_sym, Permutation_nil in P; contradiction).
  assert (Pr : forall k, In k ranked -> 0 <= k) by (intros k Hk; apply Pg; apply Permutation_in with (l := ranked); [apply Permutation_sym; exact P|exact Hk]).
  assert (Ar : apart (12 / 10 * K) ranked) by (apply apart_sorted; [|exact S]; eapply pairs_perm; [|exact P|exact Ap]; intros x y; rewrite Rabs_minus_sym; auto).
  assert (E : initial_kgrid Rops p (cell_k0 Rops tp side) (Some given) = Ok ranked).
  { unfold initial_kgrid. destruct (kmin0 Rops (cell_k0 Rops tp side)) as [km|] eqn:Em; [|destruct side; [cbn in D; lia|discriminate]]. cbn [bind]. rewrite <- Er. destruct ranked as [|k r]; [congruence|]. cbn [nlt n0 Rops]. destruct (Rltb_spec k 0) as [C|C]; [|reflexivity]. specialize (Pr k (or_introl eq_refl)). lra. }
  destruct (C141_reported w fuel tp g p side s (Some given) ranked K G Hnk Ps Pt Pd D IK E Nr Pr Ar Hw Hf) as [st [u [s' [H [L [C1 C2]]]]]].
  exists st, u, s', ranked. split; [exact H|]. split; [exact P|]. split.
  - clear - S Ar PK. induction S as [|a l S IH F]; constructor.
    + apply IH. intros i j x y Hij. exact (Ar (Datatypes.S i) (Datatypes.S j) x y ltac:(lia)).
    + apply Forall_forall. intros y Hy. apply In_nth_error in Hy. destruct Hy as [j Hj]. pose proof (Ar 0%nat (Datatypes.S j) a y ltac:(lia) eq_refl Hj). lra.
  - split; [rewrite (Permutation_length P); exact L|]. split; [exact C1|exact C2].
Qed.
Print Assumptions C141_given.

Lemma lin : forall (a b : R) n, (2 <= n)%Z -> linear_grid Rops a b (DInt n) = Ok (map (fun i => a + INR i * ((b - a) / IZR (n - 1))) (seq 0 (Z.to_nat n))).
Proof. intros a b n Hn. unfold linear_grid. destruct (Z.ltb_spec 1 n); [|lia]. apply f_equal. apply map_ext. intros i. rewrite nofnat_R. reflexivity. Qed.

(** The default grid: [n] wave-numbers from kmin (or from the smallest wave-number of the cell) to kmax.  If their spacing
    is at least 1.2 times the smallest wave-number of the cell, the reported wave-numbers are increasing and close to it. *)
Theorem C141_default : forall w fuel tp (g : rng) p (side : list R) s K, sampler_ok g -> (1 <= kp_nk Rops p)%Z ->
  (forall L, In L side -> 0 < L) -> 0 < tp -> 0 < kp_dk Rops p -> (length side = 2 \/ length side = 3)%nat ->
  (In K (cell_k0 Rops tp side) /\ forall x, In x (cell_k0 Rops tp side) -> K <= x) ->
  let n := kp_ksamples Rops p in let first := if Rlt_dec 0 (kp_kmin Rops p) then kp_kmin Rops p else K in let step := (kp_kmax Rops p - first) / IZR (n - 1) in
  (2 <= n)%Z -> 12 / 10 * K <= step -> K / 2 < kp_dk Rops p * (12 / 10) ^ w -> (w < fuel)%nat ->
  exists st s', setup Rops fuel tp g p side s None = Ok (st, None, s') /\ length (ks_grid st) = Z.to_nat n /\
    (forall i j Ki Kj, (i < j)%nat -> nth_error (ks_grid st) i = Some Ki -> nth_error (ks_grid st) j = Some Kj -> Ki < Kj) /\
    (forall i Ki, nth_error (ks_grid st) i = Some Ki -> Rabs (Ki - (first + INR i * step)) < Rmax (kp_dk Rops p) (6 / 10 * K)).
Proof.
  intros w fuel tp g p side s K G Hnk Ps Pt Pd D [IK MK] n first step Hn Hs Hw Hf.
  assert (PK : 0 < K) by (apply in_map_iff in IK; destruct IK as [L [<- HL]]; cbn; apply Rdiv_lt_0_compat; [exact Pt|apply Ps; exact HL]).
  assert (E : initial_kgrid Rops p (cell_k0 Rops tp side) None = Ok (map (fun i => first + INR i * step) (seq 0 (Z.to_nat n)))).
  { unfold initial_kgrid. destruct (kmin0 Rops (cell_k0 Rops tp side)) as [km|] eqn:Em; [|destruct side; [cbn in D; lia|discriminate]]. cbn [bind].
    destruct (kmin0_R _ _ Em) as [I1 M1]. assert (Ek : km = K) by (pose proof (MK km I1); pose proof (M1 K IK); change (num Rops) with R in *; lra). rewrite Ek.
    unfold first, step, first. cbn [nlt n0 Rops]. unfold Rltb. destruct (Rlt_dec 0 (kp_kmin Rops p)); apply lin; exact Hn. }
  assert (Pf : 0 < first) by (unfold first; destruct (Rlt_dec 0 (kp_kmin Rops p)); assumption).
  assert (X : exists l, l = map (fun i => first + INR i * step) (seq 0 (Z.to_nat n))) by (eexists; reflexivity). destruct X as [l El]. rewrite <- El in E.
  assert (Nth : forall i k, nth_error l i = Some k -> k = first + INR i * step).
  { intros i k Hk. assert (Li : (i < Z.to_nat n)%nat) by (assert (X : (i < length l)%nat) by (apply nth_error_Some; congruence); rewrite El, map_length, seq_length in X; exact X).
    rewrite El, nth_error_map in Hk. rewrite (nth_error_nth' _ 0%nat) in Hk by (rewrite seq_length; exact Li). rewrite seq_nth in Hk by exact Li. cbn in Hk. injection Hk as <-. reflexivity. }
  assert (Ll : length l = Z.to_nat n) by (rewrite El, map_length, seq_length; reflexivity).
  destruct (C141_reported w fuel tp g p side s None l K G Hnk Ps Pt Pd D IK E) as [st [u [s' [H [L [C1 C2]]]]]].
  - intros C. rewrite C in Ll. cbn in Ll. lia.
  - intros k Hk. apply In_nth_error in Hk. destruct Hk as [i Hi]. rewrite (Nth i k Hi). pose proof (pos_INR i) as Pi. assert (0 <= INR i * step) by (apply Rmult_le_pos; lra). lra.
  - intros i j x y Hij Hx Hy. rewrite (Nth i x Hx), (Nth j y Hy). assert (INR (i + 1) <= INR j) by (apply le_INR; lia). rewrite plus_INR in H. cbn [INR] in H.
    assert (0 <= (INR j - (INR i + 1)) * step) by (apply Rmult_le_pos; lra). lra.
  - exact Hw.
  - exact Hf.
  - assert (Eu : u = None) by (unfold setup in H; rewrite E in H; cbn [bind] in H; destruct (setup_grid_sphere Rops fuel _ l _); [|discriminate]; cbn [bind] in H; destruct (decimate g _ _ _); [|discriminate]; cbn [bind] in H; injection H as _ <- _; reflexivity). subst u.
    exists st, s'. split; [exact H|]. split; [rewrite L; exact Ll|]. split; [exact C1|]. intros i Ki HK. destruct (nth_error l i) as [k|] eqn:Ek.
    + rewrite <- (Nth i k Ek). exact (C2 i Ki k HK Ek).
    + exfalso. apply nth_error_None in Ek. assert (X : (i < length (ks_grid st))%nat) by (apply nth_error_Some; intros C; pose proof (eq_trans (eq_sym HK) C); discriminate). change (num Rops) with R in *. lia.
Qed.
Print Assumptions C141_default.

(** A square cell with smallest wave-number 1, wave-numbers 1/2 and 5/2, and widths 1/100 and 3/4. *)
Example C141_nonvacuous : let k0 := cell_k0 Rops 1 [1; 1] in (forall k, In k k0 -> 0 < k) /\ In 1 k0 /\ apart (12 / 10 * 1) [/ 2; 5 / 2] /\ 1 / 2 < / 100 * (12 / 10) ^ 22 /\
  (forall dk, initial_kgrid Rops (mkP (A := Rops) dk 8 (-1) 10 5) k0 (Some [5 / 2; / 2]) = Ok [/ 2; 5 / 2]) /\
  ForallOrdPairs (fun x y => 12 / 10 * 1 <= Rabs (x - y)) [5 / 2; / 2] /\ 12 / 10 * 1 <= (10 - 1) / IZR (5 - 1) /\ sampler_ok first_n.
Proof.
  intros k0. assert (E1 : forall k, In k k0 -> k = 1) by (unfold k0, cell_k0; cbn; intros k [<-|[<-|[]]]; field).
  split; [intros k Hk; rewrite (E1 k Hk); lra|]. split; [unfold k0, cell_k0; cbn; left; field|].
  split; [intros [|[|[|i]]] [|[|[|j]]] x y Hij; cbn; try lia; try discriminate; intros [= <-] [= <-]; lra|]. split; [cbn [pow]; lra|]. split; [|split; [|split; [replace (IZR (5 - 1)) with 4 by reflexivity; lra|exact first_n_ok]]].
  2: { constructor; [constructor; [rewrite Rabs_right; lra|constructor]|]. constructor; constructor. }
  intros dk. eapply bind_intro; [reflexivity|]. unfold sort_num. cbn [fold_right insert_num nle nlt n0 Rops]. unfold Rleb, Rltb. destruct (Rle_dec (5 / 2) (/ 2)); [exfalso; lra|]. destruct (Rlt_dec (/ 2) 0); [exfalso; lra|reflexivity].
Qed.
