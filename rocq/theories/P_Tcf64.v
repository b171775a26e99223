(** The loops of fkt.py over blocks, shells, vectors, lags and origins for any arithmetic:
    what is accumulated in which order (C121). *)
From Coq Require Import List ZArith Bool Arith Lia Sorting.Sorted.
From Verif Require Import PyBase PyBaseFacts Num NumFacts M_Helpers M_KGrid M_Fourier M_Fkt M_Expo64 M_Fkt64 Spec_Correlation Spec_Fkt P_Tcf P_Fkt.
Import ListNotations.

Section Any.
Variables (A : arith).

Definition ev_in (evs : list (Z * (num A * num A))) (st : tcf_in A) : tcf_in A :=
  (acc_from (fun u v => nadd A u (fst v)) (n0 A) (fst st) evs, acc_from (fun u v => nadd A u (snd v)) (n0 A) (snd st) evs).
Lemma ev_in_app : forall a b st, ev_in (a ++ b) st = ev_in b (ev_in a st).
Proof. intros. unfold ev_in, acc_from. cbn [fst snd]. rewrite !fold_left_app. reflexivity. Qed.
Lemma ev_in_nil : forall st, ev_in [] st = st.
Proof. intros [a b]. reflexivity. Qed.

Definition pair_events_in (vv : nat -> nat -> num A) (w : num A) (steps : list Z) (ps : list (nat * nat)) : list (Z * (num A * num A)) :=
  map (fun p => (pair_dt steps p, (vv (fst p) (snd p), w))) ps.

Lemma tcf_vector_in_ok : forall val vv w steps n dgrid skip st, length steps = n -> (1 <= skip)%nat ->
  (forall a b, (a < n)%nat -> (b < n)%nat -> val a b = Ok (vv a b)) ->
  tcf_vector_in A val w steps n dgrid skip st = Ok (ev_in (pair_events_in vv w steps (admitted dgrid skip n)) st).
Proof.
  intros val vv w steps n dgrid skip st Ls Hs Hv. unfold tcf_vector_in, pair_events_in, admitted. revert st.
  induction dgrid as [|p r IH]; intros st; [cbn; rewrite ev_in_nil; reflexivity|].
  cbn [foldM flat_map]. rewrite map_app, ev_in_app. rewrite py_range_spec by assumption. cbn [bind].
  fold (origins (fst p) skip (n - snd p)).
  assert (G : forall l st, (forall i, In i l -> (i + snd p < n)%nat) ->
    foldM (fun (st : tcf_in A) i0 =>
      ta <- get steps (i0 + snd p) ;; tb <- get steps i0 ;;
      v <- val (i0 + snd p)%nat i0 ;;
      Ok (dupd (fst st) (ta - tb)%Z (fun u => nadd A u v) (n0 A),
          dupd (snd st) (ta - tb)%Z (fun u => nadd A u w) (n0 A))) st l =
    Ok (ev_in (map (fun p0 => (pair_dt steps p0, (vv (fst p0) (snd p0), w))) (map (fun i0 => ((i0 + snd p)%nat, i0)) l)) st)).
  { intros l. induction l as [|i l IHl]; intros s Hl; [cbn; rewrite ev_in_nil; reflexivity|].
    assert (Hi : (i + snd p < n)%nat) by (apply Hl; left; reflexivity).
    cbn [foldM]. rewrite (get_Ok _ steps (i + snd p) 0%Z) by lia. rewrite (get_Ok _ steps i 0%Z) by lia. cbn [bind].
    rewrite Hv by lia. cbn [bind]. rewrite IHl by (intros; apply Hl; right; assumption). reflexivity. }
  rewrite G. 2: { intros i Hi. apply origins_In in Hi. lia. }
  cbn [bind]. apply IH.
Qed.

Lemma over_shells_ev_in : forall K (step : tcf_in A -> K -> res (tcf_in A)) (E : K -> list (Z * (num A * num A)))
    (pre : list K -> list (Z * (num A * num A))) shells,
  (forall l k st, In l shells -> In k l -> step st k = Ok (ev_in (E k) st)) ->
  over_shells step (map (fun kl => ev_in (pre kl) (tcf_in0 A)) shells) shells =
  Ok (map (fun kl => ev_in (pre kl ++ flat_map E kl) (tcf_in0 A)) shells).
Proof.
  intros K step E pre shells H. induction shells as [|kl sr IH]; [reflexivity|].
  assert (Hr : forall l k st, In l sr -> In k l -> step st k = Ok (ev_in (E k) st)) by (intros; eapply H; [right|]; eassumption).
  specialize (IH Hr).
  assert (Hk : forall l st, incl l kl -> foldM step st l = Ok (ev_in (flat_map E l) st)).
  { clear IH Hr. intros l. induction l as [|k l IH]; intros st Hi; [cbn; rewrite ev_in_nil; reflexivity|].
    cbn [foldM flat_map]. rewrite (H kl) by (try (left; reflexivity); apply Hi; left; reflexivity). cbn [bind].
    rewrite IH by (intros x Hx; apply Hi; right; assumption). rewrite ev_in_app. reflexivity. }
  destruct kl as [|k kl].
  - cbn [map over_shells flat_map]. rewrite IH. cbn [bind]. rewrite app_nil_r. reflexivity.
  - cbn [map]. unfold over_shells. fold (@over_shells (tcf_in A) K).
    rewrite (Hk (k :: kl)) by apply incl_refl. cbn [bind]. rewrite IH. cbn [bind]. rewrite ev_in_app. reflexivity.
Qed.

Lemma with_key_pairs_in : forall vv w steps d ps,
  with_key d (pair_events_in vv w steps ps) = map (fun p => (vv (fst p) (snd p), w)) (pairs_at steps d ps).
Proof.
  intros vv w steps d ps. unfold pair_events_in, with_key, pairs_at. induction ps as [|p r IH]; [reflexivity|].
  cbn [map filter fst]. destruct (pair_dt steps p =? d)%Z; cbn [map snd]; rewrite IH; reflexivity.
Qed.

Lemma fold_nsum : forall V (f : V -> num A) l, fold_left (fun u v => nadd A u (f v)) l (n0 A) = nsum A (map f l).
Proof. intros V f l. unfold nsum. generalize (n0 A). induction l as [|x l IH]; intros z; cbn; [reflexivity|]. apply IH. Qed.

Lemma dget_acc_in : forall (f : num A * num A -> num A) evs d,
  match dget (acc_from (fun u v => nadd A u (f v)) (n0 A) [] evs) d with Some x => x | None => n0 A end = nsum A (map f (with_key d evs)).
Proof. intros f evs d. rewrite acc_get. destruct (with_key d evs) eqn:E; [reflexivity|]. rewrite <- fold_nsum. reflexivity. Qed.

Variables (J Key : Type) (vv : J -> Key -> nat -> nat -> num A) (w : J -> num A) (steps : list Z) (ps : list (nat * nat)) (js : list J).

Definition all_events_in (l : list J) (kl : list Key) : list (Z * (num A * num A)) :=
  flat_map (fun j => flat_map (fun k => pair_events_in (vv j k) (w j) steps ps) kl) l.

(** The numbers added to acf and to cnt for one shell and one time difference, in order. *)
Definition visits (kl : list Key) (d : Z) : list (J * Key * (nat * nat)) :=
  flat_map (fun j => flat_map (fun k => map (fun p => (j, k, p)) (pairs_at steps d ps)) kl) js.
Definition acf_terms (kl : list Key) (d : Z) : list (num A) := map (fun v => vv (fst (fst v)) (snd (fst v)) (fst (snd v)) (snd (snd v))) (visits kl d).
Definition cnt_terms (kl : list Key) (d : Z) : list (num A) := map (fun v => w (fst (fst v))) (visits kl d).

Lemma map_flat_map : forall X Y V (f : Y -> V) (g : X -> list Y) l, map f (flat_map g l) = flat_map (fun x => map f (g x)) l.
Proof. intros X Y V f g l. induction l as [|x l IH]; [reflexivity|]. cbn [flat_map]. rewrite map_app, IH. reflexivity. Qed.

Lemma terms_at : forall kl d, map fst (with_key d (all_events_in js kl)) = acf_terms kl d /\ map snd (with_key d (all_events_in js kl)) = cnt_terms kl d.
Proof.
  intros kl d. unfold acf_terms, cnt_terms, visits, all_events_in. rewrite with_key_flat, !map_flat_map. split; apply flat_map_ext; intros j; rewrite with_key_flat, !map_flat_map; apply flat_map_ext; intros k;
    rewrite with_key_pairs_in, !map_map; reflexivity.
Qed.

Lemma all_keys_in : forall kl d, js <> [] -> kl <> [] -> In d (map fst (all_events_in js kl)) <-> exists p, In p ps /\ pair_dt steps p = d.
Proof.
  intros kl d Hj Hk. rewrite in_map_iff. split.
  - intros [e [<- He]]. unfold all_events_in in He. apply in_flat_map in He. destruct He as [j [_ He]].
    apply in_flat_map in He. destruct He as [k [_ He]]. apply in_map_iff in He. destruct He as [p [<- Hp]]. exists p. auto.
  - intros [p [Hp <-]]. destruct js as [|j0 jr]; [congruence|]. destruct kl as [|k0 kr]; [congruence|].
    exists (pair_dt steps p, (vv j0 k0 (fst p) (snd p), w j0)). split; [reflexivity|].
    unfold all_events_in. cbn [flat_map]. apply in_or_app. left. apply in_or_app. left.
    unfold pair_events_in. apply in_map_iff. exists p. auto.
Qed.

Lemma tcf_values_in_all : forall shells, shells <> [] -> js <> [] -> (forall kl, In kl shells -> kl <> []) ->
  (forall kl d, In kl shells -> (exists p, In p ps /\ pair_dt steps p = d) -> neq A (nsum A (cnt_terms kl d)) (n0 A) = false) ->
  exists dts, reported steps ps dts /\
  tcf_values_in A (map (fun kl => ev_in (all_events_in js kl) (tcf_in0 A)) shells) =
    Ok (dts, map (fun kl => map (fun d => ndiv A (nsum A (acf_terms kl d)) (nsum A (cnt_terms kl d))) dts) shells).
Proof.
  intros shells Hs Hj Hk Hz. destruct shells as [|k0 sr] eqn:Es; [congruence|]. rewrite <- Es in *.
  exists (sortZ (keys (fst (ev_in (all_events_in js k0) (tcf_in0 A))))).
  assert (R : reported steps ps (sortZ (keys (fst (ev_in (all_events_in js k0) (tcf_in0 A)))))).
  { split.
    - apply sortZ_sorted_lt. unfold ev_in. cbn [fst tcf_in0]. apply acc_NoDup. constructor.
    - intros d. rewrite sortZ_In. unfold ev_in. cbn [fst tcf_in0]. rewrite acc_keys. apply all_keys_in; [exact Hj|]. apply Hk.
      rewrite Es. left. reflexivity. }
  split; [exact R|].
  assert (Ra : forall kl d, In kl shells -> (exists p, In p ps /\ pair_dt steps p = d) ->
    tcf_ratio_in A (ev_in (all_events_in js kl) (tcf_in0 A)) d = Ok (ndiv A (nsum A (acf_terms kl d)) (nsum A (cnt_terms kl d)))).
  { intros kl d Hkl Hd. unfold tcf_ratio_in, ev_in, tcf_in0. cbn [fst snd]. rewrite !dget_acc_in.
    destruct (terms_at kl d) as [-> ->]. rewrite (Hz kl d Hkl Hd). reflexivity. }
  unfold tcf_values_in. replace (get (map (fun kl => ev_in (all_events_in js kl) (tcf_in0 A)) shells) 0) with (Ok (ev_in (all_events_in js k0) (tcf_in0 A)))
    by (rewrite Es; reflexivity).
  cbn [bind]. rewrite (mapM_pure _ _ _ (fun st => map (fun d => match tcf_ratio_in A st d with Ok x => x | Err _ => n0 A end) (sortZ (keys (fst (ev_in (all_events_in js k0) (tcf_in0 A))))))).
  - cbn [bind]. rewrite map_map. do 2 f_equal. apply map_ext_in. intros kl Hkl. apply map_ext_in. intros d Hd.
    rewrite Ra; [reflexivity|assumption|apply R; assumption].
  - intros st Hst. apply in_map_iff in Hst. destruct Hst as [kl [<- Hkl]]. apply mapM_pure. intros d Hd.
    rewrite Ra; [reflexivity|assumption|apply R; assumption].
Qed.
End Any.

(** The whole loop. *)
Lemma self_loop_in_ok : forall (D : carith) (A : arith) sum block (k0 : list (cph D)) nk shells steps dgrid skip (pos : list (list (list (cph D)))) N vv,
  (1 <= skip)%nat -> length steps = length pos -> pos <> [] -> (1 <= N)%nat -> (forall f, In f pos -> length f = N) -> (1 <= block N)%nat ->
  let js := map (fun k => 0 + k * block N)%nat (seq 0 ((N - 0 + (block N - 1)) / block N)) in
  let blk j (f : list (list (cph D))) := firstn (block N) (skipn j f) in
  (forall j, In j js -> exists x, expo_frames_in D k0 nk (map (blk j) pos) = Ok x /\
     forall kl t a b, In kl shells -> In t kl -> (a < length pos)%nat -> (b < length pos)%nat -> sum (length k0) x t a b = Ok (vv j t a b)) ->
  self_loop_in D A sum block k0 nk shells (length shells) steps dgrid skip pos =
  Ok (map (fun kl => ev_in A (all_events_in A nat (list Z) vv (fun j => nofZ A (Z.of_nat (length (blk j (nth 0 pos []))))) steps
                              (admitted dgrid skip (length pos)) js kl) (tcf_in0 A)) shells).
Proof.
  intros D A sum block k0 nk shells steps dgrid skip pos N vv Hs Ls Hp HN Hf Hb js blk Hx.
  assert (L0 : length (nth 0 pos []) = N) by (apply Hf; apply nth_In; destruct pos; [congruence|cbn; lia]).
  unfold self_loop_in. rewrite (get_Ok _ pos 0 []) by (destruct pos; [congruence|cbn; lia]). cbn [bind].
  assert (St : forallb (fun f => length f =? length (nth 0 pos []))%nat pos = true).
  { apply forallb_forall. intros f Hin. rewrite L0. apply Nat.eqb_eq. apply Hf. assumption. }
  rewrite St, L0. unfold py_range. destruct (Nat.eqb_spec (block N) 0); [lia|]. cbn [bind]. fold js.
  assert (Eg : repeat (tcf_in0 A) (length shells) = map (fun kl : list (list Z) => ev_in A [] (tcf_in0 A)) shells).
  { clear. induction shells as [|a r IH]; cbn [length repeat map]; [reflexivity|]. f_equal. exact IH. }
  rewrite Eg. clear Eg.
  set (w := fun j => nofZ A (Z.of_nat (length (blk j (nth 0 pos []))))).
  set (ps := admitted dgrid skip (length pos)).
  assert (G : forall l pre, (forall j, In j l -> In j js) ->
    foldM (fun sts j =>
      x <- expo_frames_in D k0 nk (map (fun f => firstn (block N) (skipn j f)) pos) ;;
      over_shells (fun st kvec =>
        tcf_vector_in A (sum (length k0) x kvec) (nofZ A (Z.of_nat (length (firstn (block N) (skipn j (nth 0 pos [])))))) steps (length pos) dgrid skip st)
        sts shells)
     (map (fun kl => ev_in A (all_events_in A nat (list Z) vv w steps ps pre kl) (tcf_in0 A)) shells) l =
    Ok (map (fun kl => ev_in A (all_events_in A nat (list Z) vv w steps ps (pre ++ l) kl) (tcf_in0 A)) shells)).
  { intros l. induction l as [|j l IH]; intros pre Hl; [rewrite app_nil_r; reflexivity|].
    cbn [foldM]. destruct (Hx j (Hl j (or_introl eq_refl))) as [x [Ex Vx]]. unfold blk in Ex. rewrite Ex. cbn [bind].
    rewrite (over_shells_ev_in A _ _ (fun t => pair_events_in A (vv j t) (w j) steps ps)).
    2: { intros kl t st Hkl Ht. apply tcf_vector_in_ok; try assumption. intros a b Ha Hb'. apply (Vx kl); assumption. }
    cbn [bind]. replace (pre ++ j :: l) with ((pre ++ [j]) ++ l) by (rewrite <- app_assoc; reflexivity).
    rewrite <- IH by (intros; apply Hl; right; assumption). f_equal. apply map_ext. intros kl. f_equal.
    unfold all_events_in. rewrite flat_map_app. cbn [flat_map]. rewrite app_nil_r. reflexivity. }
  apply (G js []). auto.
Qed.
