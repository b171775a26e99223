(** Time correlations per shell: the loops of fkt.py over shells, vectors, lags and
    origins as sums over admitted pairs. *)
From Coq Require Import List ZArith Bool Arith Reals Lra Lia Sorting.Sorted.
From Verif Require Import PyBase PyBaseFacts Num NumFacts M_Helpers M_KGrid M_Fourier M_Fkt Spec_Stats
  Spec_Correlation Spec_Fkt P_BondAngle.
Import ListNotations.
Local Open Scope R_scope.

(** An event: time difference, number added to acf, number added to cnt. *)
Definition ev_st (evs : list (Z * (R * R))) (st : tcf_state) : tcf_state :=
  (acc_from (fun u v => u + fst v) 0 (fst st) evs, acc_from (fun u v => u + snd v) 0 (snd st) evs).

Lemma ev_st_app : forall a b st, ev_st (a ++ b) st = ev_st b (ev_st a st).
Proof. intros. unfold ev_st, acc_from. cbn [fst snd]. rewrite !fold_left_app. reflexivity. Qed.

Lemma ev_st_nil : forall st, ev_st [] st = st.
Proof. intros [a b]. reflexivity. Qed.

Definition pair_events (vv : nat -> nat -> R) (w : R) (steps : list Z) (ps : list (nat * nat)) : list (Z * (R * R)) :=
  map (fun p => (pair_dt steps p, (vv (fst p) (snd p), w))) ps.

Lemma origins_In : forall a s l i, In i (origins a s l) -> (i < l)%nat.
Proof. intros a s l i H. unfold origins in H. apply filter_In in H. destruct H as [H _]. apply in_seq in H. lia. Qed.

Lemma tcf_vector_ok : forall val vv w steps n dgrid skip st, length steps = n -> (1 <= skip)%nat ->
  (forall a b, (a < n)%nat -> (b < n)%nat -> val a b = Ok (vv a b)) ->
  tcf_vector val w steps n dgrid skip st = Ok (ev_st (pair_events vv w steps (admitted dgrid skip n)) st).
Proof.
  intros val vv w steps n dgrid skip st Ls Hs Hv. unfold tcf_vector, pair_events, admitted. revert st.
  induction dgrid as [|p r IH]; intros st; [cbn; rewrite ev_st_nil; reflexivity|].
  cbn [foldM flat_map]. rewrite map_app, ev_st_app. rewrite py_range_spec by assumption. cbn [bind].
  fold (origins (fst p) skip (n - snd p)).
  assert (G : forall l st, (forall i, In i l -> (i + snd p < n)%nat) ->
    foldM (fun (st : tcf_state) i0 =>
      ta <- get steps (i0 + snd p) ;; tb <- get steps i0 ;;
      v <- val (i0 + snd p)%nat i0 ;;
      Ok (dupd (fst st) (ta - tb)%Z (fun u => u + v) 0,
          dupd (snd st) (ta - tb)%Z (fun u => u + w) 0)) st l =
    Ok (ev_st (map (fun p0 => (pair_dt steps p0, (vv (fst p0) (snd p0), w))) (map (fun i0 => ((i0 + snd p)%nat, i0)) l)) st)).
  { intros l. induction l as [|i l IHl]; intros s Hl; [cbn; rewrite ev_st_nil; reflexivity|].
    assert (Hi : (i + snd p < n)%nat) by (apply Hl; left; reflexivity).
    cbn [foldM]. rewrite (get_Ok _ steps (i + snd p) 0%Z) by lia. rewrite (get_Ok _ steps i 0%Z) by lia. cbn [bind].
    rewrite Hv by lia. cbn [bind]. rewrite IHl by (intros; apply Hl; right; assumption). reflexivity. }
  rewrite G. 2: { intros i Hi. apply origins_In in Hi. lia. }
  cbn [bind]. apply IH.
Qed.

Lemma over_shells_ev : forall K (step : tcf_state -> K -> res tcf_state) (E : K -> list (Z * (R * R)))
    (pre : list K -> list (Z * (R * R))) shells,
  (forall l k st, In l shells -> In k l -> step st k = Ok (ev_st (E k) st)) ->
  over_shells step (map (fun kl => ev_st (pre kl) tcf_state0) shells) shells =
  Ok (map (fun kl => ev_st (pre kl ++ flat_map E kl) tcf_state0) shells).
Proof.
  intros K step E pre shells H. induction shells as [|kl sr IH]; [reflexivity|].
  assert (Hr : forall l k st, In l sr -> In k l -> step st k = Ok (ev_st (E k) st)) by (intros; eapply H; [right|]; eassumption).
  specialize (IH Hr).
  assert (Hk : forall l st, incl l kl -> foldM step st l = Ok (ev_st (flat_map E l) st)).
  { clear IH Hr. intros l. induction l as [|k l IH]; intros st Hi; [cbn; rewrite ev_st_nil; reflexivity|].
    cbn [foldM flat_map]. rewrite (H kl) by (try (left; reflexivity); apply Hi; left; reflexivity). cbn [bind].
    rewrite IH by (intros x Hx; apply Hi; right; assumption). rewrite ev_st_app. reflexivity. }
  destruct kl as [|k kl].
  - cbn [map over_shells flat_map]. rewrite IH. cbn [bind]. rewrite app_nil_r. reflexivity.
  - cbn [map]. unfold over_shells. fold (@over_shells tcf_state K).
    rewrite (Hk (k :: kl)) by apply incl_refl. cbn [bind]. rewrite IH. cbn [bind]. rewrite ev_st_app. reflexivity.
Qed.

Lemma with_key_app : forall V d (a b : list (Z * V)), with_key d (a ++ b) = with_key d a ++ with_key d b.
Proof. intros V d a b. unfold with_key. rewrite filter_app, map_app. reflexivity. Qed.

Lemma with_key_flat : forall V X d (f : X -> list (Z * V)) l,
  with_key d (flat_map f l) = flat_map (fun x => with_key d (f x)) l.
Proof.
  intros V X d f l. induction l as [|x l IH]; [reflexivity|]. cbn [flat_map]. rewrite with_key_app, IH. reflexivity.
Qed.

Lemma with_key_pairs : forall vv w steps d ps,
  with_key d (pair_events vv w steps ps) = map (fun p => (vv (fst p) (snd p), w)) (pairs_at steps d ps).
Proof.
  intros vv w steps d ps. unfold pair_events, with_key, pairs_at. induction ps as [|p r IH]; [reflexivity|].
  cbn [map filter fst]. destruct (pair_dt steps p =? d)%Z; cbn [map snd]; rewrite IH; reflexivity.
Qed.

Lemma fold_plus : forall V (f : V -> R) l z, fold_left (fun u v => u + f v) l z = z + rsum (map f l).
Proof. intros V f l. induction l as [|x l IH]; intros z; cbn; [lra|]. rewrite IH. lra. Qed.

Lemma dget_acc : forall (f : R * R -> R) evs d,
  match dget (acc_from (fun u v => u + f v) 0 [] evs) d with Some x => x | None => 0 end =
  rsum (map f (with_key d evs)).
Proof.
  intros f evs d. rewrite acc_get. destruct (with_key d evs) eqn:E; [reflexivity|].
  rewrite fold_plus. rewrite Rplus_0_l. reflexivity.
Qed.

Lemma tcf_ratio_ev : forall evs d, rsum (map snd (with_key d evs)) <> 0 ->
  tcf_ratio (ev_st evs tcf_state0) d = Ok (rsum (map fst (with_key d evs)) / rsum (map snd (with_key d evs))).
Proof.
  intros evs d H. unfold tcf_ratio, ev_st, tcf_state0. cbn [fst snd]. rewrite !dget_acc.
  destruct (Req_EM_T (rsum (map snd (with_key d evs))) 0); [contradiction|reflexivity].
Qed.

Lemma flat_map_length_const : forall X Y (f : X -> list Y) n l, (forall x, In x l -> length (f x) = n) ->
  length (flat_map f l) = (length l * n)%nat.
Proof.
  intros X Y f n l H. induction l as [|x l IH]; [reflexivity|].
  cbn [flat_map length]. rewrite app_length, IH, (H x) by (intros; try apply H; cbn; auto). lia.
Qed.

Lemma rsum_div : forall X (f : X -> R) c l, rsum (map (fun x => f x / c) l) = rsum (map f l) / c.
Proof. intros X f c l. unfold Rdiv. induction l as [|x l IH]; cbn; [ring|]. rewrite IH. ring. Qed.

Section Values.
Variables (J : Type) (Key : Type).
Variable vv : J -> Key -> nat -> nat -> R.
Variable w : J -> R.
Variable steps : list Z.
Variable ps : list (nat * nat).
Variable js : list J.
Variable W : R.
Hypothesis HW : rsum (map w js) = W.
Hypothesis HW0 : W <> 0.

Definition all_events (kl : list Key) : list (Z * (R * R)) :=
  flat_map (fun j => flat_map (fun k => pair_events (vv j k) (w j) steps ps) kl) js.

(** The mean over vectors and pairs. *)
Definition tcf_mean (kl : list Key) (d : Z) : R :=
  rmean (flat_map (fun k => map (fun p => rsum (map (fun j => vv j k (fst p) (snd p)) js) / W) (pairs_at steps d ps)) kl).

Lemma all_keys : forall kl d, kl <> [] ->
  In d (map fst (all_events kl)) <-> exists p, In p ps /\ pair_dt steps p = d.
Proof.
  intros kl d Hk. assert (Hj : js <> []) by (intros ->; apply HW0; rewrite <- HW; reflexivity).
  rewrite in_map_iff. split.
  - intros [e [<- He]]. unfold all_events in He. apply in_flat_map in He. destruct He as [j [_ He]].
    apply in_flat_map in He. destruct He as [k [_ He]]. apply in_map_iff in He. destruct He as [p [<- Hp]].
    exists p. auto.
  - intros [p [Hp <-]]. destruct js as [|j0 jr] eqn:Ej; [congruence|]. destruct kl as [|k0 kr]; [congruence|].
    exists (pair_dt steps p, (vv j0 k0 (fst p) (snd p), w j0)). split; [reflexivity|].
    unfold all_events. rewrite Ej. cbn [flat_map]. apply in_or_app. left. apply in_or_app. left.
    unfold pair_events. apply in_map_iff. exists p. auto.
Qed.

Lemma sums_at : forall kl d,
  rsum (map fst (with_key d (all_events kl))) =
    rsum (map (fun k => rsum (map (fun p => rsum (map (fun j => vv j k (fst p) (snd p)) js)) (pairs_at steps d ps))) kl) /\
  rsum (map snd (with_key d (all_events kl))) = INR (length kl * length (pairs_at steps d ps)) * W.
Proof.
  intros kl d. unfold all_events. rewrite with_key_flat. split.
  - rewrite rsum_flat_map. etransitivity.
    { apply rsum_ext. intros j _. rewrite with_key_flat, rsum_flat_map. apply rsum_ext. intros k _.
      rewrite with_key_pairs, map_map. cbn [fst]. reflexivity. }
    rewrite rsum_swap. apply rsum_ext. intros k _. apply rsum_swap.
  - rewrite rsum_flat_map. etransitivity.
    { apply rsum_ext. intros j _. rewrite with_key_flat, rsum_flat_map. etransitivity.
      { apply rsum_ext. intros k _. rewrite with_key_pairs, map_map. cbn [snd]. apply rsum_const. }
      rewrite rsum_const. reflexivity. }
    rewrite <- HW, mult_INR. rewrite <- rsum_scal. apply rsum_ext. intros j _. ring.
Qed.

Lemma tcf_ratio_all : forall kl d, kl <> [] -> (exists p, In p ps /\ pair_dt steps p = d) ->
  tcf_ratio (ev_st (all_events kl) tcf_state0) d = Ok (tcf_mean kl d).
Proof.
  intros kl d Hk [p [Hp Hd]]. destruct (sums_at kl d) as [E1 E2].
  assert (Hn : (0 < length kl * length (pairs_at steps d ps))%nat).
  { assert (H : In p (pairs_at steps d ps)) by (apply filter_In; split; [assumption|apply Z.eqb_eq; assumption]).
    destruct kl; [congruence|]. destruct (pairs_at steps d ps); [destruct H|]. cbn [length]. lia. }
  assert (Hr : 0 < INR (length kl * length (pairs_at steps d ps))) by (apply lt_0_INR; assumption).
  rewrite tcf_ratio_ev.
  2: { rewrite E2. apply Rmult_integral_contrapositive. split; lra. }
  rewrite E1, E2. f_equal. unfold tcf_mean, rmean.
  rewrite (flat_map_length_const _ _ _ (length (pairs_at steps d ps))) by (intros; apply map_length).
  set (S := fun k => rsum (map (fun p => rsum (map (fun j => vv j k (fst p) (snd p)) js)) (pairs_at steps d ps))).
  assert (E3 : rsum (flat_map (fun k => map (fun p => rsum (map (fun j => vv j k (fst p) (snd p)) js) / W) (pairs_at steps d ps)) kl) =
               rsum (map S kl) / W).
  { rewrite <- (map_id (flat_map _ kl)), rsum_flat_map, <- rsum_div. apply rsum_ext. intros k _. rewrite map_id.
    unfold S. apply rsum_div. }
  rewrite E3. field. split; lra.
Qed.

Lemma tcf_values_all : forall shells, shells <> [] -> (forall kl, In kl shells -> kl <> []) ->
  exists dts, reported steps ps dts /\
  tcf_values (map (fun kl => ev_st (all_events kl) tcf_state0) shells) =
    Ok (dts, map (fun kl => map (tcf_mean kl) dts) shells).
Proof.
  intros shells Hs Hk. destruct shells as [|k0 sr] eqn:Es; [congruence|]. rewrite <- Es in *.
  exists (sortZ (keys (fst (ev_st (all_events k0) tcf_state0)))).
  assert (R : reported steps ps (sortZ (keys (fst (ev_st (all_events k0) tcf_state0))))).
  { split.
    - apply sortZ_sorted_lt. unfold ev_st. cbn [fst tcf_state0]. apply acc_NoDup. constructor.
    - intros d. rewrite sortZ_In. unfold ev_st. cbn [fst tcf_state0]. rewrite acc_keys. apply all_keys. apply Hk.
      rewrite Es. left. reflexivity. }
  split; [exact R|].
  unfold tcf_values. replace (get (map (fun kl => ev_st (all_events kl) tcf_state0) shells) 0) with (Ok (ev_st (all_events k0) tcf_state0))
    by (rewrite Es; reflexivity).
  cbn [bind]. rewrite (mapM_pure _ _ _ (fun st => map (fun d => match tcf_ratio st d with Ok x => x | Err _ => 0 end) (sortZ (keys (fst (ev_st (all_events k0) tcf_state0)))))).
  - cbn [bind]. rewrite map_map. do 2 f_equal. apply map_ext_in. intros kl Hkl. apply map_ext_in. intros d Hd.
    rewrite tcf_ratio_all; [reflexivity|apply Hk; assumption|apply R; assumption].
  - intros st Hst. apply in_map_iff in Hst. destruct Hst as [kl [<- Hkl]]. apply mapM_pure. intros d Hd.
    rewrite tcf_ratio_all; [reflexivity|apply Hk; assumption|apply R; assumption].
Qed.
End Values.
