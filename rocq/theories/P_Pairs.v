(** Proofs about pair histograms, for every arithmetic. *)
From Coq Require Import List ZArith Bool Arith Lia.
From Verif Require Import PyBase PyBaseFacts Num M_Helpers M_Correlation M_Dynamics M_Realspace Spec_Pairs.
Import ListNotations.
Local Open Scope nat_scope.

Section Pairs.
Variable A : arith.
Notation vec := (list (num A)).
Notation inb := (in_bin (n0 A) (nle A) (nlt A)).

Lemma hist_counts_cons : forall vs a b es, hist_counts A vs (a :: b :: es)
  = length (filter (fun v => nle A a v && (match es with [] => nle A v b | _ => nlt A v b end)) vs)
    :: hist_counts A vs (b :: es).
Proof. reflexivity. Qed.

Lemma hist_counts_length : forall vs es, length (hist_counts A vs es) = length es - 1.
Proof.
  intros vs. induction es as [|a es IH]; [reflexivity|]. destruct es as [|b es]; [reflexivity|].
  rewrite hist_counts_cons. cbn [length] in *. rewrite IH. lia.
Qed.

Lemma hist_counts_nth : forall vs es k, k + 1 < length es ->
  nth k (hist_counts A vs es) 0 = length (filter (inb es k) vs).
Proof.
  intros vs. induction es as [|a es IH]; intros k Hk; [cbn in Hk; lia|].
  destruct es as [|b es]; [cbn in Hk; lia|]. destruct k as [|k].
  - rewrite hist_counts_cons; cbn [nth]. f_equal. apply filter_ext. intros v. unfold in_bin. cbn [nth length Nat.add Nat.eqb].
    destruct es; reflexivity.
  - rewrite hist_counts_cons; cbn [nth]. rewrite IH by (cbn in *; lia). f_equal.
Qed.

Lemma map2_app_len : forall X Y Z (f : X -> Y -> Z) l m, length (map2 f l m) = Nat.min (length l) (length m).
Proof. intros. unfold map2. rewrite map_length. apply combine_length. Qed.

Lemma hist_counts_app : forall v1 v2 es,
  hist_counts A (v1 ++ v2) es = hadd (hist_counts A v1 es) (hist_counts A v2 es).
Proof.
  intros v1 v2. induction es as [|a es IH]; [reflexivity|]. destruct es as [|b es]; [reflexivity|].
  rewrite !hist_counts_cons, IH, filter_app, app_length. reflexivity.
Qed.

Lemma hist_counts_concat : forall vss es h,
  fold_left (fun h vs => hadd h (hist_counts A vs es)) vss (hist_counts A h es)
  = hist_counts A (h ++ concat vss) es.
Proof.
  induction vss as [|vs vss IH]; intros es h; cbn [fold_left concat].
  - rewrite app_nil_r. reflexivity.
  - rewrite <- hist_counts_app, IH, app_assoc. reflexivity.
Qed.

Lemma np_histogram_Ok : forall vs es, edges_ok A es = true -> np_histogram A vs es = Ok (hist_counts A vs es).
Proof. intros vs es H. unfold np_histogram. rewrite H. reflexivity. Qed.

(** The rows visited by the batches are all rows, once. *)
Lemma batch_rows : forall m bl K,
  concat (map (fun ib => seq ib (Nat.min (ib + bl) m - ib)) (map (fun k => 0 + k * bl) (seq 0 K)))
  = seq 0 (Nat.min (K * bl) m).
Proof.
  intros m bl. induction K as [|K IH]; [reflexivity|].
  rewrite seq_S, map_app, map_app, concat_app, IH. cbn [map concat Nat.add]. rewrite app_nil_r.
  destruct (le_lt_dec m (K * bl)) as [H|H].
  - replace (Nat.min (K * bl + bl) m - K * bl) with 0 by lia. cbn [seq]. rewrite app_nil_r. f_equal. cbn. lia.
  - replace (Nat.min (K * bl) m) with (K * bl) by lia.
    replace (Nat.min (S K * bl) m) with (K * bl + (Nat.min (K * bl + bl) m - K * bl)) by (cbn; lia).
    rewrite seq_app. reflexivity.
Qed.

Lemma batches_cover : forall m bl, 1 <= bl -> m <= (m - 0 + (bl - 1)) / bl * bl.
Proof.
  intros m bl H. pose proof (Nat.div_mod (m - 0 + (bl - 1)) bl ltac:(lia)) as E.
  pose proof (Nat.mod_upper_bound (m - 0 + (bl - 1)) bl ltac:(lia)). nia.
Qed.

Definition rows (f : vec -> vec -> num A) (x : list vec) (i : nat) : list (num A) :=
  map (fun xj => f xj (nth i x [])) (skipn (i + 1) x).

Lemma newton_batch_Ok : forall bl f x es, 1 <= bl -> edges_ok A es = true ->
  newton_hist_batch A bl f x x es = Ok (hist_counts A (concat (map (rows f x) (seq 0 (length x - 1)))) es).
Proof.
  intros bl f x es Hb He. unfold newton_hist_batch. rewrite np_histogram_Ok by exact He. cbn [bind].
  unfold py_range. destruct (bl =? 0) eqn:E; [apply Nat.eqb_eq in E; lia|]. cbn [bind].
  set (K := (length x - 1 - 0 + (bl - 1)) / bl).
  rewrite (foldM_pure _ _ _
    (fun h ib => hadd h (hist_counts A (concat (map (rows f x) (seq ib (Nat.min (ib + bl) (length x - 1) - ib)))) es))).
  - f_equal.
    assert (forall l h, fold_left (fun h ib => hadd h
        (hist_counts A (concat (map (rows f x) (seq ib (Nat.min (ib + bl) (length x - 1) - ib)))) es)) l (hist_counts A h es)
      = hist_counts A (h ++ concat (map (rows f x)
          (concat (map (fun ib => seq ib (Nat.min (ib + bl) (length x - 1) - ib)) l)))) es) as G.
    { induction l as [|ib l IH]; intros h; cbn [fold_left map concat].
      - rewrite app_nil_r. reflexivity.
      - rewrite <- hist_counts_app, IH, map_app, concat_app, app_assoc. reflexivity. }
    rewrite G. cbn [app]. rewrite batch_rows. f_equal. f_equal. f_equal. f_equal.
    pose proof (batches_cover (length x - 1) bl Hb). subst K. lia.
  - intros h ib _.
    rewrite (mapM_pure _ _ _ (rows f x)).
    + cbn [bind]. rewrite np_histogram_Ok by exact He. reflexivity.
    + intros i Hi. apply in_seq in Hi. rewrite (get_Ok _ _ _ []) by lia. reflexivity.
Qed.

(** The rows list the unordered index pairs. *)
Lemma skipn_nth_map : forall X (l : list X) d i, skipn i l = map (fun j => nth j l d) (seq i (length l - i)).
Proof.
  intros X l d i. destruct (le_lt_dec i (length l)) as [H|H].
  - apply nth_ext with (d := d) (d' := d).
    + rewrite skipn_length, map_length, seq_length. reflexivity.
    + intros k Hk. rewrite skipn_length in Hk.
      rewrite (nth_indep _ d (nth (length l) l d)) by (rewrite skipn_length; lia).
      rewrite (nth_indep (map _ _) d (nth (length l) l d)) by (rewrite map_length, seq_length; lia).
      rewrite (map_nth (fun j => nth j l d)), seq_nth by lia.
      rewrite <- (firstn_skipn i l) at 4. rewrite app_nth2 by (rewrite firstn_length; lia).
      rewrite firstn_length. replace (i + k - Nat.min i (length l)) with k by lia.
      apply nth_indep. rewrite skipn_length. lia.
  - rewrite skipn_all2 by lia. replace (length l - i) with 0 by lia. reflexivity.
Qed.

Lemma filter_gt_seq : forall i n a, filter (fun j => i <? j) (seq a n) = seq (Nat.max (i + 1) a) (a + n - Nat.max (i + 1) a).
Proof.
  intros i n. induction n as [|n IH]; intros a.
  - cbn. replace (a + 0 - Nat.max (i + 1) a) with 0 by lia. reflexivity.
  - cbn [seq filter]. rewrite IH. destruct (i <? a) eqn:E.
    + apply Nat.ltb_lt in E. replace (Nat.max (i + 1) a) with a by lia. replace (Nat.max (i + 1) (S a)) with (S a) by lia.
      replace (a + S n - a) with (S (S a + n - S a)) by lia. reflexivity.
    + apply Nat.ltb_ge in E. replace (Nat.max (i + 1) (S a)) with (Nat.max (i + 1) a) by lia.
      f_equal. lia.
Qed.

Lemma index_pairs_rows : forall n, index_pairs n
  = concat (map (fun i => map (fun j => (i, j)) (seq (i + 1) (n - (i + 1)))) (seq 0 n)).
Proof.
  intros n. unfold index_pairs. rewrite <- flat_map_concat_map.
  assert (forall l m, filter (fun p : nat * nat => fst p <? snd p) (list_prod l m)
    = flat_map (fun i => map (fun j => (i, j)) (filter (fun j => i <? j) m)) l) as G.
  { intros l m. induction l as [|a l IH]; [reflexivity|]. cbn [list_prod flat_map]. rewrite filter_app, IH. f_equal.
    clear. induction m as [|b m IH]; [reflexivity|]. cbn [map filter fst snd].
    destruct (a <? b); cbn [map]; rewrite IH; reflexivity. }
  rewrite G. apply flat_map_ext. intros i. rewrite filter_gt_seq. f_equal. f_equal; lia.
Qed.

Lemma filter_map_len : forall X Y (P : Y -> bool) (g : X -> Y) l,
  length (filter P (map g l)) = length (filter (fun x => P (g x)) l).
Proof.
  intros X Y P g l. induction l as [|a l IH]; [reflexivity|]. cbn [map filter].
  destruct (P (g a)); cbn [length]; congruence.
Qed.

Lemma newton_values : forall (f : vec -> vec -> num A) x,
  concat (map (rows f x) (seq 0 (length x - 1)))
  = map (fun p => f (nth (snd p) x []) (nth (fst p) x [])) (index_pairs (length x)).
Proof.
  intros f x. rewrite index_pairs_rows. destruct (length x) as [|n] eqn:En; [reflexivity|].
  replace (S n - 1) with n by lia. rewrite (seq_S n 0). rewrite map_app, concat_app, map_app. cbn [map concat].
  replace (S n - (0 + n + 1)) with 0 by lia. cbn [seq map app]. rewrite app_nil_r.
  rewrite concat_map, map_map. f_equal. apply map_ext. intros i. unfold rows.
  rewrite (skipn_nth_map _ x [] (i + 1)), !map_map, En. reflexivity.
Qed.

Lemma newton_hist_Ok : forall bl f x es, 1 <= bl -> edges_ok A es = true ->
  newton_hist_batch A bl f x x es
  = Ok (hist_counts A (map (fun p => f (nth (snd p) x []) (nth (fst p) x [])) (index_pairs (length x))) es).
Proof. intros. rewrite newton_batch_Ok by assumption. rewrite newton_values. reflexivity. Qed.

Lemma pairs_newton_Ok : forall f x es, x <> [] -> edges_ok A es = true ->
  pairs_newton_hist A f x x es
  = Ok (hist_counts A (map (fun p => f (nth (snd p) x []) (nth (fst p) x [])) (index_pairs (length x))) es).
Proof.
  intros f x es Hx He. unfold pairs_newton_hist. rewrite np_histogram_Ok by exact He. cbn [bind].
  destruct (length x =? 0) eqn:E.
  - apply Nat.eqb_eq in E. apply length_zero_iff_nil in E. contradiction.
  - apply newton_hist_Ok; [lia|exact He].
Qed.

Lemma pairs_hist_Ok : forall f x y es, edges_ok A es = true ->
  pairs_hist A f x y es = Ok (hist_counts A (map (fun p => f (snd p) (fst p)) (list_prod y x)) es).
Proof.
  intros f x y es He. unfold pairs_hist. rewrite np_histogram_Ok by exact He. cbn [bind].
  rewrite (foldM_pure _ _ _ (fun h yi => hadd h (hist_counts A (map (fun xj => f xj yi) x) es))).
  - f_equal.
    assert (forall l h, fold_left (fun h yi => hadd h (hist_counts A (map (fun xj => f xj yi) x) es)) l (hist_counts A h es)
      = hist_counts A (h ++ map (fun p => f (snd p) (fst p)) (list_prod l x)) es) as G.
    { induction l as [|yi l IH]; intros h; cbn [fold_left list_prod map].
      - rewrite app_nil_r. reflexivity.
      - rewrite <- hist_counts_app, IH, map_app, map_map, app_assoc. reflexivity. }
    rewrite G. reflexivity.
  - intros h yi _. rewrite np_histogram_Ok by exact He. reflexivity.
Qed.

(** Counts. *)
Lemma newton_hist_spec : forall bl f x es, 1 <= bl -> edges_ok A es = true ->
  exists h, newton_hist_batch A bl f x x es = Ok h /\ length h = length es - 1 /\
    forall k, k + 1 < length es ->
      nth k h 0 = count_pairs (fun xi xj => inb es k (f xj xi)) x [].
Proof.
  intros bl f x es Hb He. eexists. split; [apply newton_hist_Ok; assumption|]. split; [apply hist_counts_length|].
  intros k Hk. rewrite hist_counts_nth by exact Hk. rewrite filter_map_len. reflexivity.
Qed.

Lemma pairs_newton_spec : forall f x es, x <> [] -> edges_ok A es = true ->
  exists h, pairs_newton_hist A f x x es = Ok h /\ length h = length es - 1 /\
    forall k, k + 1 < length es ->
      nth k h 0 = count_pairs (fun xi xj => inb es k (f xj xi)) x [].
Proof.
  intros f x es Hx He. eexists. split; [apply pairs_newton_Ok; assumption|]. split; [apply hist_counts_length|].
  intros k Hk. rewrite hist_counts_nth by exact Hk. rewrite filter_map_len. reflexivity.
Qed.

Lemma pairs_hist_spec : forall f x y es, edges_ok A es = true ->
  exists h, pairs_hist A f x y es = Ok h /\ length h = length es - 1 /\
    forall k, k + 1 < length es ->
      nth k h 0 = count_prod (fun yi xj => inb es k (f xj yi)) y x.
Proof.
  intros f x y es He. eexists. split; [apply pairs_hist_Ok; assumption|]. split; [apply hist_counts_length|].
  intros k Hk. rewrite hist_counts_nth by exact Hk. rewrite filter_map_len. reflexivity.
Qed.

(** The number of index pairs. *)
Lemma index_pairs_count : forall n, 2 * length (index_pairs n) = n * (n - 1).
Proof.
  intros n. rewrite index_pairs_rows, <- flat_map_concat_map.
  assert (forall k a, k <= n -> a = n - k ->
    2 * length (flat_map (fun i => map (fun j => (i, j)) (seq (i + 1) (n - (i + 1)))) (seq a k)) = k * (k - 1)) as G.
  { induction k as [|k IH]; intros a Hk Ha; [reflexivity|]. cbn [seq flat_map]. rewrite app_length.
    rewrite Nat.mul_add_distr_l, (IH (S a)) by lia. rewrite map_length, seq_length. subst a. nia. }
  apply (G n 0); lia.
Qed.
End Pairs.
