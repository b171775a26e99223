(** Proofs about acf, gcf, gcf_offset. *)
From Coq Require Import List ZArith Bool Arith Lia Sorting.Sorted.
From Verif Require Import PyBase PyBaseFacts Num M_Helpers M_Correlation Spec_Correlation.
Import ListNotations.
Local Open Scope nat_scope.

Section CF.
Variable A : arith.
Variable X : Type.
Variable f : X -> X -> num A.
Variable t : list Z.
Variable x : list X.
Variable dflt : X.
Hypothesis Hlen : length t = length x.

Definition event (p : nat * nat) : Z * num A := (pair_dt t p, pair_val f x dflt p).

Definition st_of (ps : list (nat * nat)) (st : cf_state A) : cf_state A :=
  (acc_from (nadd A) (n0 A) (fst st) (map event ps),
   acc_from (fun n (_ : num A) => S n) 0 (snd st) (map event ps)).

Lemma st_of_cons : forall p ps st, st_of (p :: ps) st = st_of ps (st_of [p] st).
Proof. reflexivity. Qed.

Lemma st_of_app : forall ps qs st, st_of (ps ++ qs) st = st_of qs (st_of ps st).
Proof.
  intros. unfold st_of, acc_from. cbn [fst snd]. rewrite !map_app, !fold_left_app. reflexivity.
Qed.

Lemma cf_body_ok : forall i st i0, i0 + i < length x ->
  cf_body A f t x i st i0 = Ok (st_of [(i0 + i, i0)] st).
Proof.
  intros i st i0 H. unfold cf_body.
  rewrite (get_Ok _ t (i0 + i) 0%Z) by lia. rewrite (get_Ok _ t i0 0%Z) by lia.
  rewrite (get_Ok _ x (i0 + i) dflt) by lia. rewrite (get_Ok _ x i0 dflt) by lia.
  cbn [bind]. reflexivity.
Qed.

Lemma cf_inner : forall i l st, (forall i0, In i0 l -> i0 + i < length x) ->
  foldM (cf_body A f t x i) st l = Ok (st_of (map (fun i0 => (i0 + i, i0)) l) st).
Proof.
  intros i l. induction l as [|i0 l IH]; intros st H.
  - destruct st; reflexivity.
  - cbn [foldM]. rewrite cf_body_ok by (apply H; left; reflexivity). cbn [bind].
    rewrite IH by (intros; apply H; right; assumption). reflexivity.
Qed.

Lemma cf_outer : forall G (bounds : G -> nat * nat * nat) skip (grid : list G) st,
  1 <= skip ->
  (forall g, In g grid -> let '(off, lim, i) := bounds g in lim + i <= length x \/ lim = 0) ->
  foldM (fun st g => let '(off, lim, i) := bounds g in
           rng <- py_range off lim skip ;; foldM (cf_body A f t x i) st rng) st grid
  = Ok (st_of (flat_map (fun g => let '(off, lim, i) := bounds g in
                           map (fun i0 => (i0 + i, i0)) (origins off skip lim)) grid) st).
Proof.
  intros G bounds skip grid st Hs. revert st.
  induction grid as [|g grid IH]; intros st H.
  - destruct st; reflexivity.
  - cbn [foldM flat_map].
    pose proof (H g (or_introl eq_refl)) as Hg.
    destruct (bounds g) as [[off lim] i] eqn:E.
    rewrite py_range_spec by assumption. cbn [bind]. fold (origins off skip lim).
    rewrite cf_inner.
    2: { intros i0 Hi. unfold origins in Hi. apply filter_In in Hi.
         destruct Hi as [Hi _]. apply in_seq in Hi. lia. }
    cbn [bind]. rewrite IH by (intros; apply H; right; assumption).
    rewrite st_of_app. reflexivity.
Qed.

Lemma with_key_event : forall d ps,
  with_key d (map event ps) = map (pair_val f x dflt) (pairs_at t d ps).
Proof.
  intros d ps. unfold with_key, pairs_at. induction ps as [|p ps IH]; [reflexivity|].
  cbn. destruct (pair_dt t p =? d)%Z; cbn; rewrite IH; reflexivity.
Qed.

Lemma count_fold : forall (l : list (num A)) n, fold_left (fun n (_ : num A) => S n) l n = n + length l.
Proof. induction l as [|a l IH]; intros n; cbn; [lia|]. rewrite IH. lia. Qed.

Lemma keys_st_of : forall ps d,
  In d (sortZ (keys (fst (st_of ps ([], []))))) <-> exists p, In p ps /\ pair_dt t p = d.
Proof.
  intros ps d. rewrite sortZ_In. unfold st_of; cbn [fst].
  rewrite acc_keys, map_map, in_map_iff. cbn. split; intros [p H]; exists p; tauto.
Qed.

Lemma sorted_st_of : forall ps, StronglySorted Z.lt (sortZ (keys (fst (st_of ps ([], []))))).
Proof.
  intros ps. apply sortZ_sorted_lt. unfold st_of; cbn [fst]. apply acc_NoDup. constructor.
Qed.

Lemma pairs_at_nonempty : forall ps d, (exists p, In p ps /\ pair_dt t p = d) -> pairs_at t d ps <> [].
Proof.
  intros ps d [p [Hp Hd]] E. assert (In p (pairs_at t d ps)) as H.
  { apply filter_In. split; [assumption|]. apply Z.eqb_eq. assumption. }
  rewrite E in H. destruct H.
Qed.

Lemma cf_ratio_st_of : forall ps d, (exists p, In p ps /\ pair_dt t p = d) ->
  cf_ratio A (st_of ps ([], [])) d
  = Ok (nmean A (map (pair_val f x dflt) (pairs_at t d ps))).
Proof.
  intros ps d H. apply pairs_at_nonempty in H.
  unfold cf_ratio, st_of, dgetE; cbn [fst snd]. rewrite !acc_get, !with_key_event.
  destruct (pairs_at t d ps) as [|p qs] eqn:E; [congruence|].
  cbn [map bind]. rewrite count_fold. cbn [length Nat.add Nat.eqb].
  unfold nmean, nsum. cbn [length]. reflexivity.
Qed.

Lemma cnt_st_of : forall ps d, (exists p, In p ps /\ pair_dt t p = d) ->
  dgetE (snd (st_of ps ([], []))) d = Ok (length (pairs_at t d ps)).
Proof.
  intros ps d H. apply pairs_at_nonempty in H.
  unfold st_of, dgetE; cbn [fst snd]. rewrite !acc_get, !with_key_event.
  destruct (pairs_at t d ps) as [|p qs] eqn:E; [congruence|].
  cbn [map]. rewrite count_fold. cbn [length]. rewrite map_length. reflexivity.
Qed.

Lemma grouped_st_of : forall ps,
  let st := st_of ps ([], []) in
  let dt := sortZ (keys (fst st)) in
  mapM (cf_ratio A st) dt = Ok (map (fun d => nmean A (map (pair_val f x dflt) (pairs_at t d ps))) dt)
  /\ mapM (dgetE (snd st)) dt = Ok (map (fun d => length (pairs_at t d ps)) dt)
  /\ grouped_mean f t x dflt ps dt
       (map (fun d => nmean A (map (pair_val f x dflt) (pairs_at t d ps))) dt).
Proof.
  intros ps st dt. split; [|split].
  - apply mapM_pure. intros d Hd. apply cf_ratio_st_of. apply keys_st_of. exact Hd.
  - apply mapM_pure. intros d Hd. apply cnt_st_of. apply keys_st_of. exact Hd.
  - split; [apply sorted_st_of|]. split; [|reflexivity]. intros d. apply keys_st_of.
Qed.

Lemma gcf_offset_correct : forall grid skip, 1 <= skip ->
  exists dt v, gcf_offset A f grid skip t x = Ok (dt, v) /\
    grouped_mean f t x dflt (admitted grid skip (length x)) dt v.
Proof.
  intros grid skip Hs.
  pose (bounds := fun p : nat * nat => (fst p, length x - snd p, snd p)).
  assert (forall st, foldM (fun st p =>
          rng <- py_range (fst p) (length x - snd p) skip ;;
          foldM (cf_body A f t x (snd p)) st rng) st grid
          = Ok (st_of (admitted grid skip (length x)) st)) as E.
  { intros st. apply (cf_outer _ bounds skip grid st Hs). intros g _. cbn. lia. }
  unfold gcf_offset. rewrite E. cbn [bind].
  destruct (grouped_st_of (admitted grid skip (length x))) as [H1 [_ H3]].
  rewrite H1. cbn [bind]. eauto.
Qed.

Lemma gcf_correct : forall grid skip, 1 <= skip ->
  let ps := admitted (map (fun i => (0, i)) grid) skip (length x - 1) in
  exists dt v, gcf A f grid skip t x = Ok (dt, v, map (fun d => length (pairs_at t d ps)) dt) /\
    grouped_mean f t x dflt ps dt v.
Proof.
  intros grid skip Hs ps.
  pose (bounds := fun i : nat => (0, length x - i - 1, i)).
  assert (forall st, foldM (fun st i =>
          rng <- py_range 0 (length x - i - 1) skip ;;
          foldM (cf_body A f t x i) st rng) st grid
          = Ok (st_of ps st)) as E.
  { intros st. etransitivity;
      [apply (cf_outer _ bounds skip grid st Hs); intros g _; cbn; lia|].
    do 2 f_equal. unfold ps, admitted. rewrite !flat_map_concat_map, map_map. f_equal.
    apply map_ext. intros i. cbn. replace (length x - i - 1) with (length x - 1 - i) by lia.
    reflexivity. }
  unfold gcf. rewrite E. cbn [bind].
  destruct (grouped_st_of ps) as [H1 [H2 H3]].
  rewrite H1. cbn [bind]. rewrite H2. cbn [bind]. eauto.
Qed.
End CF.

Lemma acf_correct : forall (A : arith) (t : list Z) (x : list (num A)) grid skip,
  length t = length x -> 1 <= skip ->
  let m := nmean A x in
  let f a b := nmul A (nsub A a m) (nsub A b m) in
  let ps := admitted (map (fun i => (0, i)) grid) skip (length x) in
  exists dt v, acf A grid skip t x = Ok (dt, v, map (fun d => length (pairs_at t d ps)) dt) /\
    grouped_mean f t x (n0 A) ps dt v.
Proof.
  intros A t x grid skip Hlen Hs m f ps.
  pose (bounds := fun i : nat => (0, length x - i, i)).
  assert (forall st, foldM (fun st i =>
          rng <- py_range 0 (length x - i) skip ;;
          foldM (cf_body A f t x i) st rng) st grid
          = Ok (st_of A _ f t x (n0 A) ps st)) as E.
  { intros st. etransitivity;
      [apply (cf_outer A _ f t x (n0 A) Hlen _ bounds skip grid st Hs); intros g _; cbn; lia|].
    do 2 f_equal. unfold ps, admitted. rewrite !flat_map_concat_map, map_map. reflexivity. }
  unfold acf. fold m. fold f. rewrite E. cbn [bind].
  destruct (grouped_st_of A _ f t x (n0 A) Hlen ps) as [H1 [H2 H3]].
  rewrite H1. cbn [bind]. rewrite H2. cbn [bind]. eauto.
Qed.
