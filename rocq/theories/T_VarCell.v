(** Theorems on the structure factor of a trajectory whose cell changes: C87. *)
From Coq Require Import List ZArith Bool Arith Reals Lra Lia Permutation.
From Verif Require Import PyBase PyBaseFacts Num NumFacts M_Helpers M_KGrid M_Fourier M_VarCell Spec_Stats
  Spec_BondAngle P_BondAngle Spec_KGrid P_KGrid P_KGrid2 P_KGrid3 P_KGrid4 P_Expo Spec_Fourier Spec_Correlation
  P_Sk P_Sk2 P_Sk3 P_SkVar P_VarCell T_KGrid.
Import ListNotations.
Local Open Scope R_scope.

(** ** C87 *)
Lemma nth_error_map_fun : forall X Y (f : X -> Y) l i, nth_error (map f l) i = option_map f (nth_error l i).
Proof. intros X Y f l. induction l as [|a l IH]; intros [|i]; cbn; auto. Qed.

Lemma Forall2_map_r : forall X Y (P : X -> Y -> Prop) (f : X -> Y) l, Forall2 P l (map f l) -> forall x, In x l -> P x (f x).
Proof.
  intros X Y P f l. induction l as [|a l IH]; intros H x Hx; [destruct Hx|].
  cbn in H. inversion H; subst. destruct Hx as [<-|Hx]; auto.
Qed.

Lemma wavevectors_frames : forall fuel tp (g : rng) p (sides : list (list R)) s grid n skip reported kst,
  0 < tp -> sampler_ok g -> (1 <= kp_nk Rops p)%Z -> (forall side L, In side sides -> In L side -> 0 < L) ->
  (1 <= skip)%nat -> (1 <= n)%nat ->
  sk_wavevectors Rops fuel tp g p sides true s None grid (origins 0 skip n) = Ok (reported, map kst (origins 0 skip n)) ->
  (forall i, In i (origins 0 skip n) -> exists side, nth_error sides i = Some side /\ frame_wave fuel tp g p (grid = None) (n_shells Rops p grid) side (kst i)) /\
  length reported = n_shells Rops p grid /\
  (grid = None -> reported = ks_grid (kst 0%nat)) /\
  (forall l i, grid = Some l -> nth_error (origins 0 skip n) (length (origins 0 skip n) - 1) = Some i -> reported = ks_grid (kst i)).
Proof.
  intros fuel tp g p sides s grid n skip reported kst Ht G NK SP Hs Hn H.
  destruct (origins_split skip n Hs Hn) as [r [Er Hr]]. rewrite Er in *. cbn [map] in H.
  unfold sk_wavevectors in H.
  apply bind_Ok_inv in H. destruct H as [side [Es H]].
  apply bind_Ok_inv in H. destruct H as [[[st u] s1] [E1 H]]. cbn [fst snd] in H.
  apply bind_Ok_inv in H. destruct H as [[ks u'] [E2 H]]. cbn [fst snd] in H.
  apply Ok_inj in H. injection H as Hrep Hks.
  assert (Hs0 : nth_error sides 0 = Some side) by (unfold get in Es; change (num Rops) with R in *; destruct (nth_error sides 0); [congruence|discriminate]).
  pose proof (setup_frame fuel tp g p sides Ht G NK SP (grid = None) side s grid st u s1 (nth_error_In _ _ Hs0) (fun x => x) E1) as FW.
  apply setup_shells in E1; [|assumption]. destruct E1 as [_ [Lg [Nu [Eu _]]]].
  cbn [frame_states] in E2. rewrite Nat.ltb_irrefl in E2. cbn [andb] in E2.
  apply bind_Ok_inv in E2. destruct E2 as [[ks' u2] [E2 H]]. cbn [fst snd] in H. apply Ok_inj in H.
  injection H as <- <-. injection Hks as -> ->.
  apply (frame_states_ok fuel tp g p sides Ht G NK SP (grid = None) (n_shells Rops p grid)) in E2; [|assumption|assumption|intros X; rewrite Eu, X; reflexivity].
  destruct E2 as [F [Nu2 [Un [Ul U0]]]].
  split.
  { intros i [<-|Hi]; [exists side; auto|]. apply (Forall2_map_r _ _ _ kst r F i Hi). }
  assert (LU : forall l, u2 = Some l -> length l = n_shells Rops p grid) by (intros l ->; exact Nu2).
  split; [destruct u2 as [l|]; rewrite <- Hrep; auto|].
  split.
  - intros ->. subst u. rewrite (Un eq_refl) in Hrep. symmetry. exact Hrep.
  - intros l i -> Hi. subst u.
    destruct r as [|j r].
    + rewrite (U0 eq_refl) in Hrep. cbn in Hi. injection Hi as <-. symmetry. exact Hrep.
    + destruct (Ul _ eq_refl ltac:(discriminate)) as [K' [EK Eu']]. rewrite Eu' in Hrep. subst reported.
      cbn [length] in *. replace (S (S (length r)) - 1)%nat with (S (S (length r) - 1)) in Hi by lia. cbn [nth_error] in Hi.
      assert (EK2 := nth_error_map_fun _ _ kst (j :: r) (S (length r) - 1)).
      rewrite Hi in EK2. cbn [option_map] in EK2. rewrite EK in EK2. congruence.
Qed.

(** Cells of positive sides, one per frame and all of the same dimension; no wave-vectors
    assigned by the user.  [kst i] are the wave-vectors in force at frame [i].  If the
    selection succeeds, then the number of shells is the same in all the frames, the
    vectors of each frame used are wave-vectors of the cell of that very frame, no shell
    is empty, and shell [j] of the result is the average over the frames used [i] and the
    vectors that shell [j] has in frame [i] of the product of the densities of the two groups in that
    frame, divided by the square root of the product of the average numbers of particles.
    Missing: that the vectors of a shell have the reported modulus in all the frames
    (refuted below). *)
Theorem C87_value_partial : forall fuel tp (g : rng) p (sides : list (list R)) s grid skip same (a b : list (list (list R))) reported kst nd,
  0 < tp -> sampler_ok g -> (1 <= kp_nk Rops p)%Z -> (1 <= skip)%nat ->
  (forall side L, In side sides -> In L side -> 0 < L) -> (forall side, In side sides -> length side = nd) ->
  a <> [] -> length a = length b -> group_ok nd a -> group_ok nd b -> (same = true -> b = a) ->
  sk_wavevectors Rops fuel tp g p sides true s None grid (origins 0 skip (length a)) =
    Ok (reported, map kst (origins 0 skip (length a))) ->
  structure_factor same false kst skip (pair_frames a b) =
    Ok (map (fun j => let m := rmean (flat_map (fun i => map (fun v => density_cross v (nth i a []) (nth i b []))
                                                             (nth j (kvectors Rops (kst i)) []))
                                               (origins 0 skip (length a))) in
                      (m / sqrt (mean_N a * mean_N b), m)) (seq 0 (length reported))) /\
  forall i, In i (origins 0 skip (length a)) -> exists side, nth_error sides i = Some side /\
    length (kvectors Rops (kst i)) = length reported /\
    forall vs, In vs (kvectors Rops (kst i)) -> vs <> [] /\
      forall v, In v vs -> exists n, length n = nd /\ v = map (fun x => tp / fst x * IZR (snd x)) (combine side n).
Proof.
  intros fuel tp g p sides s grid skip same a b reported kst nd Ht G NK Hs SP SD Ha Lab Ga Gb Hsame H.
  assert (Hn : (1 <= length a)%nat) by (destruct a; [congruence|cbn; lia]).
  destruct (wavevectors_frames fuel tp g p sides s grid (length a) skip reported kst Ht G NK SP Hs Hn H) as [F [Lr _]].
  assert (D : nd = 2%nat \/ nd = 3%nat).
  { unfold sk_wavevectors in H. apply bind_Ok_inv in H. destruct H as [side [Es H]].
    apply bind_Ok_inv in H. destruct H as [[[st u] s1] [E1 _]].
    assert (Hin : In side sides) by (unfold get in Es; change (num Rops) with R in *; destruct (nth_error sides 0) eqn:E; [apply nth_error_In with 0%nat; congruence|discriminate]).
    destruct (setup_usable fuel tp g p side s grid st u s1) as [_ [_ L]]; try assumption.
    - intros k Hk. apply in_map_iff in Hk. destruct Hk as [L [<- HL]]. cbn. apply Rdiv_lt_0_compat; [assumption|eauto].
    - rewrite (SD side Hin) in L. exact L. }
  split.
  - rewrite (pairs_value_var same kst skip (length reported) nd a b); try assumption; [reflexivity| |tauto].
    intros i Hi. destruct (F i Hi) as [side [Hside W]]. split; [apply W|]. split.
    + rewrite (fw_k0 _ _ _ _ _ _ _ _ W). unfold cell_k0. rewrite map_length. apply SD. eapply nth_error_In; eassumption.
    + rewrite (fw_shells _ _ _ _ _ _ _ _ W). symmetry. assumption.
  - intros i Hi. destruct (F i Hi) as [side [Hside W]]. exists side. split; [assumption|].
    rewrite kvectors_R. rewrite map_length. split; [rewrite (fw_shells _ _ _ _ _ _ _ _ W); symmetry; assumption|].
    intros vs Hvs. apply in_map_iff in Hvs. destruct Hvs as [kl [<- Hkl]].
    pose proof (fw_usable _ _ _ _ _ _ _ _ W) as U. split.
    + pose proof (us_nonempty _ U kl Hkl). destruct kl; [congruence|discriminate].
    + intros v Hv. apply in_map_iff in Hv. destruct Hv as [t [<- Ht']].
      exists (unshift (ks_offset (kst i)) t). split.
      * rewrite unshift_length, (us_len _ U kl t Hkl Ht'), (fw_k0 _ _ _ _ _ _ _ _ W). unfold cell_k0. rewrite map_length.
        apply SD. eapply nth_error_In; eassumption.
      * rewrite (fw_k0 _ _ _ _ _ _ _ _ W). unfold wave, cell_k0. generalize (unshift (ks_offset (kst i)) t). clear.
        intros n. revert n. induction side as [|L r IH]; intros [|z n]; [reflexivity..|]. cbn. f_equal. apply IH.
Qed.
Print Assumptions C87_value_partial.

(** The k reported: the mean moduli of the vectors of the first frame without a user grid,
    and those of the last frame used otherwise. *)
Theorem C87_reported_partial : forall fuel tp (g : rng) p (sides : list (list R)) s grid skip n reported kst,
  0 < tp -> sampler_ok g -> (1 <= kp_nk Rops p)%Z -> (1 <= skip)%nat -> (1 <= n)%nat ->
  (forall side L, In side sides -> In L side -> 0 < L) ->
  sk_wavevectors Rops fuel tp g p sides true s None grid (origins 0 skip n) = Ok (reported, map kst (origins 0 skip n)) ->
  (grid = None -> reported = map (fun vs => rmean (map norm vs)) (kvectors Rops (kst 0%nat))) /\
  (forall l i, grid = Some l -> nth_error (origins 0 skip n) (length (origins 0 skip n) - 1) = Some i ->
     reported = map (fun vs => rmean (map norm vs)) (kvectors Rops (kst i))).
Proof.
  intros fuel tp g p sides s grid skip n reported kst Ht G NK Hs Hn SP H.
  destruct (wavevectors_frames fuel tp g p sides s grid n skip reported kst Ht G NK SP Hs Hn H) as [F [_ [R0 R1]]].
  assert (GG : forall i, In i (origins 0 skip n) -> ks_grid (kst i) = map (fun vs => rmean (map norm vs)) (kvectors Rops (kst i))).
  { intros i Hi. destruct (F i Hi) as [side [_ W]]. destruct (fw_from _ _ _ _ _ _ _ _ W) as [s1 [gi [u [s' [E _]]]]].
    apply C39_decimation in E; [|assumption|assumption]. apply E. }
  split.
  - intros E. rewrite (R0 E). apply GG. apply origins_first; assumption.
  - intros l i E Hi. rewrite (R1 l i E Hi). apply GG. eapply nth_error_In; eassumption.
Qed.
Print Assumptions C87_reported_partial.

(** Without a user grid and with kmin > 0, the k values are the same in all the frames:
    every vector of shell [j] has a modulus within dk of the j-th value, up to the
    widening of shells that would be empty. *)
Theorem C87_kmin_partial : forall fuel tp (g : rng) p (sides : list (list R)) s skip n reported kst,
  0 < tp -> sampler_ok g -> (1 <= kp_nk Rops p)%Z -> (1 <= skip)%nat -> (1 <= n)%nat ->
  (forall side L, In side sides -> In L side -> 0 < L) ->
  0 < kp_kmin Rops p -> kp_kmin Rops p <= kp_kmax Rops p -> 0 < kp_dk Rops p -> (2 <= kp_ksamples Rops p)%Z ->
  sk_wavevectors Rops fuel tp g p sides true s None None (origins 0 skip n) = Ok (reported, map kst (origins 0 skip n)) ->
  forall i j vs v, In i (origins 0 skip n) -> nth_error (kvectors Rops (kst i)) j = Some vs -> In v vs ->
    exists w : nat,
      Rabs (norm v - (kp_kmin Rops p + INR j * ((kp_kmax Rops p - kp_kmin Rops p) / IZR (kp_ksamples Rops p - 1))))
      < kp_dk Rops p * (12 / 10) ^ w.
Proof.
  intros fuel tp g p sides s skip n reported kst Ht G NK Hs Hn SP Pm Hmm Pd Pk H i j vs v Hi Hj Hv.
  destruct (wavevectors_frames fuel tp g p sides s None n skip reported kst Ht G NK SP Hs Hn H) as [F _].
  destruct (F i Hi) as [side [Hside W]]. destruct (fw_from _ _ _ _ _ _ _ _ W) as [s1 [gi [u [s' [E Eg]]]]].
  rewrite (Eg eq_refl) in E. clear Eg.
  apply C39_decimation in E; [|assumption|assumption].
  destruct E as [_ [_ [kgrid [shells [E1 [E2 F2]]]]]].
  assert (Ek : kgrid = grid_points Rops (kp_kmin Rops p) ((kp_kmax Rops p - kp_kmin Rops p) / IZR (kp_ksamples Rops p - 1)) (kp_ksamples Rops p)).
  { unfold initial_kgrid in E1. apply bind_Ok_inv in E1. destruct E1 as [km [_ E1]].
    cbn [nlt Rops] in E1. unfold n0 in E1. cbn in E1. destruct (Rltb_spec 0 (kp_kmin Rops p)); [|lra].
    unfold linear_grid in E1. destruct (Z.ltb_spec 1 (kp_ksamples Rops p)); [|lia]. apply Ok_inj in E1. symmetry. exact E1. }
  assert (Pg : forall k, In k kgrid -> 0 <= k).
  { intros k Hk. rewrite Ek in Hk. unfold grid_points in Hk. apply in_map_iff in Hk. destruct Hk as [q [<- _]].
    cbn [nadd nmul Rops]. rewrite nofnat_R. apply Rplus_le_le_0_compat; [lra|].
    apply Rmult_le_pos; [apply pos_INR|]. apply Rmult_le_pos; [lra|]. apply Rlt_le, Rinv_0_lt_compat. apply IZR_lt. lia. }
  apply shells_spec in E2; [|intros k Hk; apply in_map_iff in Hk; destruct Hk as [L [<- HL]]; cbn;
     apply Rdiv_lt_0_compat; [assumption|eapply SP; [eapply nth_error_In; eassumption|assumption]]|assumption|assumption].
  destruct E2 as [dks [Ld [Wd [Lk [_ [SH _]]]]]].
  rewrite kvectors_R in Hj. rewrite nth_error_map_fun in Hj. destruct (nth_error (ks_vectors (kst i)) j) as [kl|] eqn:Ekl; [|discriminate].
  injection Hj as <-. apply in_map_iff in Hv. destruct Hv as [t [<- Ht']].
  assert (X : exists sh, nth_error shells j = Some sh /\ incl kl sh).
  { clear - F2 Ekl. revert j Ekl. induction F2 as [|x y l m [_ [_ [_ I]]] F2 IH]; intros [|j] E; try discriminate.
    - injection E as <-. exists y. auto.
    - apply IH. exact E. }
  destruct X as [sh [Esh I]]. destruct (SH j sh Esh) as [_ [_ IN]].
  apply I in Ht'. apply IN in Ht'. destruct Ht' as [_ [[[k [d [Hk [Hd Hw]]]] _] _]].
  destruct (Wd d) as [w ->]; [eapply nth_error_In; eassumption|]. exists w.
  rewrite (fw_k0 _ _ _ _ _ _ _ _ W). unfold within in Hw.
  assert (Ekj : k = kp_kmin Rops p + INR j * ((kp_kmax Rops p - kp_kmin Rops p) / IZR (kp_ksamples Rops p - 1))).
  { rewrite Ek in Hk. unfold grid_points in Hk. rewrite nth_error_map_fun in Hk.
    destruct (nth_error (seq 0 (Z.to_nat (kp_ksamples Rops p))) j) as [q|] eqn:Eq; [|discriminate].
    assert (q = j). { apply nth_error_nth with (d := 0%nat) in Eq as Eq2.
      assert (j < length (seq 0 (Z.to_nat (kp_ksamples Rops p))))%nat by (apply nth_error_Some; congruence).
      rewrite seq_length in H0. rewrite seq_nth in Eq2 by assumption. lia. }
    subst q. cbn [option_map] in Hk. 
    assert (Hk' : k = nadd Rops (kp_kmin Rops p) (nmul Rops (nofnat Rops j) ((kp_kmax Rops p - kp_kmin Rops p) / IZR (kp_ksamples Rops p - 1)))) by congruence.
    rewrite Hk', nofnat_R. reflexivity. }
  rewrite <- Ekj. exact Hw.
Qed.
Print Assumptions C87_kmin_partial.

(** False as stated, 1: with the default grid the shells of each frame start from the
    smallest wave-vector of that frame.  Two square cells, the second with half the side:
    the value reported at k = 1 averages wave-vectors of modulus 1 and of modulus 2.
    Doubles; 2 pi is the double of math.pi times two. *)
Definition p87 : kparams F64ops := mkP (A:=F64ops) (f64_frac 1 10) 20 (f64_ofZ (-1)) (f64_ofZ 3) 2.
Definition square87 (k : f64) : list f64 := [ndiv F64ops tp64 k; ndiv F64ops tp64 k].
Definition run87 (sides : list (list f64)) (grid : option (list f64)) : option (list f64 * list (list (list (list f64)))) :=
  match sk_wavevectors F64ops 100 tp64 first_n p87 sides true 0%nat None grid (seq 0 (length sides)) with
  | Ok r => Some (fst r, map (kvectors F64ops) (snd r))
  | Err _ => None
  end.
Definition axis87 (x : f64) : list (list f64) :=
  [[nopp F64ops x; f64_ofZ 0]; [f64_ofZ 0; nopp F64ops x]; [f64_ofZ 0; x]; [x; f64_ofZ 0]].

Theorem C87_default_grid_refuted : exists k1 rest0 rest1,
  run87 [square87 (f64_ofZ 1); square87 (f64_ofZ 2)] None =
  Some ([f64_ofZ 1; k1], [axis87 (f64_ofZ 1) :: rest0; axis87 (f64_ofZ 2) :: rest1]).
Proof. do 3 eexists. vm_compute. reflexivity. Qed.
Print Assumptions C87_default_grid_refuted.

(** False as stated, 2: a user grid drifts with the cell.  Requested k = 1, dk = 0.1; three
    square cells with smallest wave-vectors 1, 1.05 and 1.13: the third frame uses vectors
    of modulus 1.13, outside the shell requested, and the k reported is 1.13, outside the
    shell of the vectors of the first frame. *)
Theorem C87_drift_refuted : exists x,
  run87 [square87 (f64_ofZ 1); square87 (f64_frac 105 100); square87 (f64_frac 113 100)] (Some [f64_ofZ 1]) =
  Some ([x], [[axis87 (f64_ofZ 1)]; [axis87 (f64_frac 105 100)]; [axis87 x]]) /\
  nlt F64ops (f64_frac 112 100) x = true.
Proof. exists (f64_frac 5089067578928660 4503599627370496). split; vm_compute; reflexivity. Qed.
Print Assumptions C87_drift_refuted.

(** False as stated, 3: wave-vectors assigned by the user are those of the first frame
    only; the vectors of the other frames do not depend on them (every arithmetic) ... *)
Lemma frame_states_any : forall A fuel tp g p sides s K K' grid idx, (forall i, In i idx -> (0 < i)%nat) ->
  frame_states A fuel tp g p sides true s K grid idx = frame_states A fuel tp g p sides true s K' grid idx.
Proof.
  intros A fuel tp g p sides s K K' grid idx H. destruct idx as [|i r]; [reflexivity|]. cbn [frame_states].
  destruct (Nat.ltb_spec 0 i) as [|C]; [reflexivity|]. specialize (H i (or_introl eq_refl)). lia.
Qed.

Theorem C87_assigned_refuted : forall A fuel tp g p sides s grid skip n K K' ks reported,
  (1 <= skip)%nat -> (1 <= n)%nat ->
  sk_wavevectors A fuel tp g p sides true s (Some K) grid (origins 0 skip n) = Ok (reported, ks) ->
  exists others, ks = K :: others /\ reported = ks_grid K /\
    sk_wavevectors A fuel tp g p sides true s (Some K') grid (origins 0 skip n) = Ok (ks_grid K', K' :: others).
Proof.
  intros A fuel tp g p sides s grid skip n K K' ks reported Hs Hn H.
  destruct (origins_split skip n Hs Hn) as [r [Er Hr]]. rewrite Er in *.
  unfold sk_wavevectors in *. cbn [frame_states] in *. rewrite Nat.ltb_irrefl in *. cbn [andb] in *.
  apply bind_Ok_inv in H. destruct H as [y [E H]]. apply Ok_inj in H. injection H as <- <-.
  apply bind_Ok_inv in E. destruct E as [y' [E H]]. apply Ok_inj in H. subst y. cbn [fst].
  exists (fst y'). split; [reflexivity|]. split; [reflexivity|].
  rewrite (frame_states_any A fuel tp g p sides s K' K grid r Hr), E. reflexivity.
Qed.
Print Assumptions C87_assigned_refuted.

(** ... and when there are fewer assigned shells than ksamples (30 unless set), the calculation
    fails as soon as a second frame is used. *)
Theorem C87_assigned_fails_refuted : forall fuel tp (g : rng) p (sides : list (list R)) s skip frames K reported kst same weighted i r,
  0 < tp -> sampler_ok g -> (1 <= kp_nk Rops p)%Z -> (1 <= skip)%nat ->
  (forall side L, In side sides -> In L side -> 0 < L) ->
  (Z.of_nat (length (ks_grid K)) < kp_ksamples Rops p)%Z ->
  sk_wavevectors Rops fuel tp g p sides true s (Some K) None (origins 0 skip (length frames)) =
    Ok (reported, map kst (origins 0 skip (length frames))) ->
  In i (origins 0 skip (length frames)) -> (0 < i)%nat ->
  structure_factor same weighted kst skip frames <> Ok r.
Proof.
  intros fuel tp g p sides s skip frames K reported kst same weighted i r Ht G NK Hs SP L H Hi Pi C.
  assert (Hn : (1 <= length frames)%nat) by (apply origins_lt in Hi; lia).
  unfold structure_factor in C. rewrite py_range_spec in C by assumption. cbn [bind] in C. fold (origins 0 skip (length frames)) in C.
  apply bind_Ok_inv in C. destruct C as [accs [C _]].
  destruct (origins_split skip (length frames) Hs Hn) as [o [Er Hr]]. rewrite Er in *.
  unfold sk_wavevectors in H. cbn [frame_states] in H. rewrite Nat.ltb_irrefl in H. cbn [andb] in H.
  apply bind_Ok_inv in H. destruct H as [y [E H]]. apply Ok_inj in H.
  apply bind_Ok_inv in E. destruct E as [[ks u] [E Ey]]. apply Ok_inj in Ey. subst y. cbn [fst map] in H.
  injection H as _ EK Eks.
  apply (frame_states_ok fuel tp g p sides Ht G NK SP (@None (list R) = None) (n_shells Rops p None)) in E; [|reflexivity|assumption|reflexivity].
  destruct E as [F _]. subst ks. destruct Hi as [Hi|Hi]; [lia|].
  destruct (Forall2_map_r _ _ _ kst o F i Hi) as [side [_ W]].
  apply (sk_fold_short _ _ _ _ _ _ _ i) in C; [assumption|right; assumption|apply (us_nonempty _ (fw_usable _ _ _ _ _ _ _ _ W))|].
  rewrite (fw_shells _ _ _ _ _ _ _ _ W). cbn [n_shells]. rewrite map_length, <- EK. change (num Rops) with R in *. lia.
Qed.
Print Assumptions C87_assigned_fails_refuted.

(** With a constant cell the wave-vectors are those of the first frame throughout, so that
    the above describes what the change of the cell does. *)
Theorem C87_constant : forall fuel tp (g : rng) p (sides : list (list R)) s assigned grid idx reported ks,
  sk_wavevectors Rops fuel tp g p sides false s assigned grid idx = Ok (reported, ks) ->
  exists K, ks = map (fun _ => K) idx /\ reported = ks_grid K /\ (forall K', assigned = Some K' -> K = K') /\
    (assigned = None -> exists side u s', nth_error sides 0 = Some side /\ setup Rops fuel tp g p side s grid = Ok (K, u, s')).
Proof.
  intros fuel tp g p sides s assigned grid idx reported ks H. unfold sk_wavevectors in H. destruct assigned as [K|].
  - rewrite frame_states_const in H. cbn [bind fst] in H. apply Ok_inj in H. injection H as <- <-.
    exists K. repeat split; [congruence|discriminate].
  - apply bind_Ok_inv in H. destruct H as [side [Es H]].
    apply bind_Ok_inv in H. destruct H as [[[st u] s1] [E1 H]]. cbn [fst snd] in H.
    rewrite frame_states_const in H. cbn [bind fst snd] in H. apply Ok_inj in H. injection H as <- <-.
    exists st. split; [reflexivity|].
    assert (Eu : u = match grid with None => None | Some _ => Some (ks_grid st) end).
    { pose proof E1 as E. unfold setup in E. apply bind_Ok_inv in E. destruct E as [? [_ E]].
      apply bind_Ok_inv in E. destruct E as [? [_ E]]. apply bind_Ok_inv in E. destruct E as [? [_ E]].
      apply Ok_inj in E. injection E as <- <- _. reflexivity. }
    split; [subst u; destruct grid; reflexivity|]. split; [discriminate|]. intros _. exists side, u, s1. split; [|exact E1].
    unfold get in Es; change (num Rops) with R in *; destruct (nth_error sides 0); [congruence|discriminate].
Qed.
Print Assumptions C87_constant.

(** The selection succeeds for every variable cell, without a user grid. *)
Lemma setup_succeeds : forall tp (g : rng) p (side : list R),
  (forall L, In L side -> 0 < L) -> 0 < tp -> (length side = 2 \/ length side = 3)%nat ->
  0 < kp_dk Rops p -> (0 <= kp_nk Rops p)%Z -> (1 <= kp_ksamples Rops p)%Z ->
  exists f0, forall fuel s, (f0 <= fuel)%nat -> exists st s', setup Rops fuel tp g p side s None = Ok (st, None, s').
Proof.
  intros tp g p side Ps Pt D Pd Pn Pk.
  assert (X : exists kgrid, initial_kgrid Rops p (cell_k0 Rops tp side) None = Ok kgrid).
  { unfold initial_kgrid. destruct side as [|L side]; [cbn in D; lia|]. unfold cell_k0. cbn [map kmin0 bind].
    destruct (nlt _ _ _); unfold linear_grid; destruct (1 <? _)%Z; eexists; reflexivity. }
  destruct X as [kgrid E].
  pose proof (initial_kgrid_length _ _ _ _ _ E) as Lk. cbn [n_shells] in Lk.
  destruct (C38_terminates kgrid (cell_k0 Rops tp side) (kp_dk Rops p)) as [f [r [H _]]].
  - intros k Hk. apply in_map_iff in Hk. destruct Hk as [L [<- HL]]. cbn.
    apply Rdiv_lt_0_compat; [assumption|apply Ps; assumption].
  - unfold cell_k0. rewrite map_length. assumption.
  - intros ->. cbn in Lk. lia.
  - assumption.
  - exists f. intros fuel s Hf. unfold setup.
    assert (X : exists d, decimate g (kp_nk Rops p) (rng_seed g 1) (fst r) = Ok d).
    { unfold decimate.
      match goal with |- exists d, foldM ?f0 ?s0 ?l0 = Ok d =>
        assert (Y : forall l s1, exists d, foldM f0 s1 l = Ok d); [|apply Y] end.
      intros l. induction l as [|sh ks IH]; intros s1; cbn [foldM]; [eauto|].
      destruct (Z.ltb_spec (Z.min (kp_nk Rops p) (Z.of_nat (length sh))) 0); [lia|]. cbn [bind]. apply IH. }
    destruct X as [d X]. do 2 eexists.
    eapply bind_intro; [exact E|]. eapply bind_intro; [apply H; lia|].
    eapply bind_intro; [exact X|]. reflexivity.
Qed.

Theorem C87_succeeds : forall tp (g : rng) p (sides : list (list R)) assigned idx,
  0 < tp -> 0 < kp_dk Rops p -> (0 <= kp_nk Rops p)%Z -> (1 <= kp_ksamples Rops p)%Z ->
  sides <> [] -> (forall i, In i idx -> (i < length sides)%nat) ->
  (forall side, In side sides -> (length side = 2 \/ length side = 3)%nat /\ forall L, In L side -> 0 < L) ->
  exists f0, forall fuel s, (f0 <= fuel)%nat ->
    exists reported ks, sk_wavevectors Rops fuel tp g p sides true s assigned None idx = Ok (reported, ks) /\ length ks = length idx.
Proof.
  intros tp g p sides assigned idx Pt Pd Pn Pk Hne Hi SP. change (num Rops) with R in *.
  assert (X : exists f0, forall side, In side sides -> forall fuel s, (f0 <= fuel)%nat ->
              exists st s', setup Rops fuel tp g p side s None = Ok (st, None, s')).
  { clear Hne Hi. induction sides as [|side sides IH]; [exists 0%nat; intros side []|].
    destruct IH as [f1 H1]; [intros; apply SP; right; assumption|].
    destruct (SP side (or_introl eq_refl)) as [D P].
    destruct (setup_succeeds tp g p side P Pt D Pd Pn Pk) as [f2 H2].
    exists (Nat.max f1 f2). intros sd [<-|Hin] fuel s Hf; [apply H2; lia|apply H1; [assumption|lia]]. }
  destruct X as [f0 X]. exists f0. intros fuel s Hf.
  assert (Y : forall s K, exists ks, frame_states Rops fuel tp g p sides true s K None idx = Ok (ks, None) /\ length ks = length idx).
  { induction idx as [|i r IH]; intros s1 K; [exists []; split; reflexivity|]. cbn [frame_states].
    assert (IH' := IH (fun j Hj => Hi j (or_intror Hj))). clear IH.
    destruct (0 <? i)%nat; cbn [andb].
    - destruct (nth_error sides i) as [side|] eqn:Es; [|apply nth_error_None in Es; specialize (Hi i (or_introl eq_refl)); lia].
      destruct (X side (nth_error_In _ _ Es) fuel s1 Hf) as [st [s' E]].
      destruct (IH' s' st) as [ks [E2 L2]]. exists (st :: ks). split; [|cbn; congruence].
      eapply bind_intro; [unfold get; change (num Rops) with R in *; rewrite Es; reflexivity|].
      eapply bind_intro; [exact E|]. cbn [fst snd]. eapply bind_intro; [exact E2|]. reflexivity.
    - destruct (IH' s1 K) as [ks [E2 L2]]. exists (K :: ks). split; [|cbn; congruence].
      eapply bind_intro; [exact E2|]. reflexivity. }
  destruct assigned as [K|].
  { destruct (Y s K) as [ks [E2 L2]]. exists (ks_grid K), ks. split; [|exact L2].
    unfold sk_wavevectors. eapply bind_intro; [exact E2|]. reflexivity. }
  destruct sides as [|side sides']; [congruence|].
  destruct (X side (or_introl eq_refl) fuel s Hf) as [st [s' E]].
  destruct (Y s' st) as [ks [E2 L2]]. do 2 eexists. split; [|exact L2].
  unfold sk_wavevectors. eapply bind_intro; [reflexivity|]. eapply bind_intro; [exact E|]. cbn [fst snd].
  eapply bind_intro; [exact E2|]. reflexivity.
Qed.
Print Assumptions C87_succeeds.

(** Two cells, kmin = 1 and kmax = 3; one particle per frame. *)
Definition p87r : kparams Rops := mkP (A:=Rops) (/ 10) 8 1 3 3.
Example C87_nonvacuous : exists fuel reported kst,
  sk_wavevectors Rops fuel 6 first_n p87r [[5; 6]; [6; 7]] true 0%nat None None (origins 0 1 2) =
    Ok (reported, map kst (origins 0 1 2)) /\
  exists r, structure_factor true false kst 1 (pair_frames [[[0; 1]]; [[1; 2]]] [[[0; 1]]; [[1; 2]]]) = Ok r.
Proof.
  destruct (C87_succeeds 6 first_n p87r [[5; 6]; [6; 7]] None (origins 0 1 2)) as [f H].
  - lra.
  - cbn. lra.
  - cbn. lia.
  - cbn. lia.
  - discriminate.
  - cbn. intros i [<-|[<-|[]]]; lia.
  - intros side [<-|[<-|[]]]; (split; [left; reflexivity|]); intros L [<-|[<-|[]]]; lra.
  - destruct (H f 0%nat (le_n f)) as [rep [ks [E L]]]. exists f, rep.
    destruct ks as [|K0 [|K1 [|? ?]]]; try discriminate.
    exists (fun i => if (i =? 0)%nat then K0 else K1). split; [exact E|].
    assert (E' : sk_wavevectors Rops f 6 first_n p87r [[5; 6]; [6; 7]] true 0%nat None None (origins 0 1 (length [[[0; 1]]; [[1; 2]]])) =
      Ok (rep, map (fun i => if (i =? 0)%nat then K0 else K1) (origins 0 1 (length [[[0; 1]]; [[1; 2]]])))) by exact E.
    eapply C87_value_partial with (nd := 2%nat) (b := [[[0; 1]]; [[1; 2]]]) (same := true) in E'.
    + destruct E' as [E' _]. eexists. exact E'.
    + lra.
    + apply first_n_ok.
    + cbn. lia.
    + lia.
    + intros side l [<-|[<-|[]]] [<-|[<-|[]]]; lra.
    + intros side [<-|[<-|[]]]; reflexivity.
    + discriminate.
    + reflexivity.
    + intros fr [<-|[<-|[]]]; (split; [discriminate|]); intros x [<-|[]]; reflexivity.
    + intros fr [<-|[<-|[]]]; (split; [discriminate|]); intros x [<-|[]]; reflexivity.
    + reflexivity.
Qed.

(** One assigned shell with the vectors (1, 0) and (0, 1) of the first cell, where the default
    parameters p87r ask for three. *)
Definition K87 : kstate Rops := mkK (A:=Rops) [6 / 5; 1] [[[2; 1]; [1; 2]]]%Z 1 [11 / 10].
Example C87_assigned_nonvacuous : exists fuel reported kst,
  (Z.of_nat (length (ks_grid K87)) < kp_ksamples Rops p87r)%Z /\
  sk_wavevectors Rops fuel 6 first_n p87r [[5; 6]; [6; 7]] true 0%nat (Some K87) None (origins 0 1 2) =
    Ok (reported, map kst (origins 0 1 2)) /\
  forall r, structure_factor true false kst 1 (pair_frames [[[0; 1]]; [[1; 2]]] [[[0; 1]]; [[1; 2]]]) <> Ok r.
Proof.
  destruct (C87_succeeds 6 first_n p87r [[5; 6]; [6; 7]] (Some K87) (origins 0 1 2)) as [f H].
  - lra.
  - cbn. lra.
  - cbn. lia.
  - cbn. lia.
  - discriminate.
  - cbn. intros i [<-|[<-|[]]]; lia.
  - intros side [<-|[<-|[]]]; (split; [left; reflexivity|]); intros L [<-|[<-|[]]]; lra.
  - destruct (H f 0%nat (le_n f)) as [rep [ks [E L]]]. exists f, rep.
    destruct ks as [|K0 [|K1 [|? ?]]]; try discriminate.
    exists (fun i => if (i =? 0)%nat then K0 else K1). split; [cbn; lia|]. split; [exact E|]. intros r.
    set (kst := fun i => if (i =? 0)%nat then K0 else K1). set (fr := pair_frames [[[0; 1]]; [[1; 2]]] [[[0; 1]]; [[1; 2]]]).
    refine (C87_assigned_fails_refuted f 6 first_n p87r [[5; 6]; [6; 7]] 0%nat 1 fr K87 rep kst true false 1%nat r _ first_n_ok _ _ _ _ E _ _).
    + lra.
    + cbn. lia.
    + lia.
    + intros side l [<-|[<-|[]]] [<-|[<-|[]]]; lra.
    + cbn. lia.
    + right. left. reflexivity.
    + lia.
Qed.
