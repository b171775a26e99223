(** Lemmas about the neighbour lists of realspace.f90 (C113). *)
From Coq Require Import List ZArith Bool Arith Lia Permutation.
From Verif Require Import PyBase PyBaseFacts Num M_Neighbors.
Import ListNotations.
Local Open Scope nat_scope.

Notation table := (list (list (option nat))).

Lemma put_length : forall X (l : list X) i x, length (put l i x) = length l.
Proof. induction l as [|a l IH]; intros [|i] x; cbn; auto. Qed.

Lemma put_nth : forall X (l : list X) i x k d, i < length l -> nth k (put l i x) d = if k =? i then x else nth k l d.
Proof.
  induction l as [|a l IH]; intros i x k d H; [cbn in H; lia|]. destruct i as [|i], k as [|k]; cbn; try reflexivity. apply IH. cbn in H. lia.
Qed.

Lemma push_Ok : forall cap t i new t', push cap t i new = Ok t' ->
  i < length t /\ length (nth i t [] ++ new) <= cap /\ length t' = length t /\ forall k, nth k t' [] = if k =? i then nth i t [] ++ new else nth k t [].
Proof.
  intros cap t i new t' H. unfold push in H. apply bind_Ok_inv in H. destruct H as [row [E H]].
  assert (E' : nth_error t i = Some row) by (unfold get in E; destruct (nth_error t i); [apply Ok_inj in E; congruence|discriminate]).
  assert (Hi : i < length t) by (apply nth_error_Some; congruence). apply nth_error_nth with (d := []) in E'.
  destruct (Nat.leb_spec (length (row ++ new)) cap) as [L|L]; [|discriminate]. apply Ok_inj in H. subst t' row.
  split; [exact Hi|]. split; [exact L|]. split; [apply put_length|]. intros k. apply put_nth. exact Hi.
Qed.

Lemma push_fits : forall cap t i new, i < length t -> length (nth i t [] ++ new) <= cap -> exists t', push cap t i new = Ok t'.
Proof.
  intros cap t i new Hi L. unfold push. unfold get. destruct (nth_error t i) as [row|] eqn:E; [|apply nth_error_None in E; lia].
  apply nth_error_nth with (d := []) in E. cbn [bind]. rewrite E in L. rewrite (proj2 (Nat.leb_le _ _) L). eexists. reflexivity.
Qed.

(** What a pair adds to row k. *)
Definition adds (c : nat * nat -> bool) (k : nat) (p : nat * nat) : list nat :=
  if c p then (if fst p =? k then [snd p] else []) ++ (if snd p =? k then [fst p] else []) else [].

Lemma note_Ok : forall cap t i j t', i <> j -> note cap t i j = Ok t' ->
  i < length t /\ j < length t /\ length t' = length t /\ (forall k, nth k t' [] = nth k t [] ++ map Some (adds (fun _ => true) k (i, j))) /\
  (forall k, length (nth k t []) <= cap -> length (nth k t' []) <= cap).
Proof.
  intros cap t i j t' Hij H. unfold note in H. rewrite (proj2 (Nat.eqb_neq i j) Hij) in H. apply bind_Ok_inv in H. destruct H as [t1 [H1 H2]].
  destruct (push_Ok _ _ _ _ _ H1) as [A1 [A2 [A3 A4]]]. destruct (push_Ok _ _ _ _ _ H2) as [B1 [B2 [B3 B4]]].
  assert (V : forall k, nth k t' [] = nth k t [] ++ map Some (adds (fun _ => true) k (i, j))).
  { intros k. rewrite B4. unfold adds. cbn [fst snd]. rewrite !(Nat.eqb_sym _ k). destruct (Nat.eqb_spec k j) as [->|Nj].
    - rewrite A4. destruct (Nat.eqb_spec j i) as [E|_]; [congruence|]. reflexivity.
    - rewrite A4. destruct (Nat.eqb_spec k i) as [->|Ni]; [reflexivity|]. cbn. rewrite app_nil_r. reflexivity. }
  split; [exact A1|]. split; [rewrite <- A3; exact B1|]. split; [congruence|]. split; [exact V|].
  intros k L. rewrite B4. destruct (Nat.eqb_spec k j) as [->|Nj]; [exact B2|]. rewrite A4. destruct (Nat.eqb_spec k i) as [->|Ni]; [exact A2|exact L].
Qed.

Lemma note_fits : forall cap t i j, i <> j -> i < length t -> j < length t -> length (nth i t []) < cap -> length (nth j t []) < cap -> exists t', note cap t i j = Ok t'.
Proof.
  intros cap t i j Hij Hi Hj Li Lj. unfold note. rewrite (proj2 (Nat.eqb_neq i j) Hij).
  destruct (push_fits cap t i [Some j] Hi) as [t1 E1]; [rewrite app_length; cbn; lia|]. rewrite E1. cbn [bind].
  destruct (push_Ok _ _ _ _ _ E1) as [_ [_ [A3 A4]]]. apply push_fits; [congruence|]. rewrite A4. destruct (Nat.eqb_spec j i) as [E|_]; [congruence|]. rewrite app_length. cbn. lia.
Qed.

(** Nested loops are one loop over the pairs. *)
Lemma foldM_app : forall S X (f : S -> X -> res S) l m s, foldM f s (l ++ m) = (s' <- foldM f s l ;; foldM f s' m).
Proof. intros S X f l. induction l as [|x l IH]; intros m s; [reflexivity|]. cbn [app foldM]. destruct (f s x); [apply IH|reflexivity]. Qed.

Lemma foldM_pairs : forall S (f : S -> nat -> nat -> res S) (js : nat -> list nat) l s,
  foldM (fun t i => foldM (fun t j => f t i j) t (js i)) s l = foldM (fun t p => f t (fst p) (snd p)) s (flat_map (fun i => map (pair i) (js i)) l).
Proof.
  intros S f js l. induction l as [|i l IH]; intros s; [reflexivity|]. cbn [flat_map foldM]. rewrite foldM_app.
  assert (E : foldM (fun t j => f t i j) s (js i) = foldM (fun t p => f t (fst p) (snd p)) s (map (pair i) (js i))).
  { generalize s. induction (js i) as [|j m IHm]; intros s0; [reflexivity|]. cbn [map foldM fst snd]. destruct (f s0 i j); [apply IHm|reflexivity]. }
  rewrite E. destruct (foldM (fun t p => f t (fst p) (snd p)) s (map (pair i) (js i))); cbn [bind]; [apply IH|reflexivity].
Qed.

(** The loop over pairs of different particles. *)
Section Loop.
Variable near : nat -> nat -> res bool.
Variable c : nat * nat -> bool.
Variable cap : nat.

Lemma loop_Ok : forall ps t t', (forall p, In p ps -> fst p <> snd p /\ near (fst p) (snd p) = Ok (c p)) ->
  foldM (fun t p => note_if near cap t (fst p) (snd p)) t ps = Ok t' ->
  length t' = length t /\ (forall k, nth k t' [] = nth k t [] ++ map Some (flat_map (adds c k) ps)) /\
  (forall k, length (nth k t []) <= cap -> length (nth k t' []) <= cap) /\
  (forall p, In p ps -> c p = true -> fst p < length t /\ snd p < length t).
Proof.
  induction ps as [|p ps IH]; intros t t' H E.
  - cbn [foldM] in E. apply Ok_inj in E. subst t'. split; [reflexivity|]. split; [intros k; cbn; rewrite app_nil_r; reflexivity|]. split; [auto|]. intros p [].
  - cbn [foldM] in E. apply bind_Ok_inv in E. destruct E as [t1 [E1 E2]]. destruct (H p (or_introl eq_refl)) as [Hd Hn].
    unfold note_if in E1. rewrite Hn in E1. cbn [bind] in E1.
    destruct (IH t1 t' (fun q Hq => H q (or_intror Hq)) E2) as [L [V [W U]]]. destruct (c p) eqn:Cp.
    + destruct (note_Ok _ _ _ _ _ Hd E1) as [N1 [N2 [N3 [N4 N5]]]]. split; [congruence|]. split; [|split].
      * intros k. rewrite V, N4. cbn [flat_map]. rewrite map_app, app_assoc. do 3 f_equal. unfold adds. rewrite Cp. reflexivity.
      * intros k Lk. apply W. apply N5. exact Lk.
      * intros q [<-|Hq] Cq; [split; assumption|]. rewrite <- N3. apply U; assumption.
    + apply Ok_inj in E1. subst t1. split; [exact L|]. split; [|split; [exact W|]].
      * intros k. rewrite V. cbn [flat_map]. unfold adds at 2. rewrite Cp. reflexivity.
      * intros q [<-|Hq] Cq; [congruence|]. apply U; assumption.
Qed.

Lemma loop_fits : forall ps t, (forall p, In p ps -> fst p <> snd p /\ near (fst p) (snd p) = Ok (c p) /\ (c p = true -> fst p < length t /\ snd p < length t)) ->
  (forall k, k < length t -> length (nth k t []) + length (flat_map (adds c k) ps) <= cap) ->
  exists t', foldM (fun t p => note_if near cap t (fst p) (snd p)) t ps = Ok t'.
Proof.
  induction ps as [|p ps IH]; intros t H B; [exists t; reflexivity|]. cbn [foldM]. destruct (H p (or_introl eq_refl)) as [Hd [Hn Hl]].
  unfold note_if at 1. rewrite Hn. cbn [bind]. cbn [flat_map] in B. destruct (c p) eqn:Cp.
  - destruct (Hl eq_refl) as [L1 L2].
    assert (B1 : length (nth (fst p) t []) < cap).
    { specialize (B _ L1). rewrite app_length in B. unfold adds in B at 1. rewrite Cp, Nat.eqb_refl in B. rewrite app_length in B. cbn [length] in B. lia. }
    assert (B2 : length (nth (snd p) t []) < cap).
    { specialize (B _ L2). rewrite app_length in B. unfold adds in B at 1. rewrite Cp, Nat.eqb_refl in B. rewrite app_length in B. cbn [length] in B. lia. }
    destruct (note_fits cap t _ _ Hd L1 L2 B1 B2) as [t1 E1]. rewrite E1. cbn [bind]. destruct (note_Ok _ _ _ _ _ Hd E1) as [_ [_ [N3 [N4 _]]]].
    apply IH.
    + intros q Hq. destruct (H q (or_intror Hq)) as [A1 [A2 A3]]. split; [exact A1|]. split; [exact A2|]. rewrite N3. exact A3.
    + intros k Hk. rewrite N3 in Hk. rewrite N4, app_length, map_length. specialize (B k Hk). rewrite app_length in B.
      replace (length (adds (fun _ => true) k (fst p, snd p))) with (length (adds c k p)); [lia|]. unfold adds. rewrite Cp. reflexivity.
  - apply IH.
    + intros q Hq. apply H. right. exact Hq.
    + intros k Hk. specialize (B k Hk). unfold adds in B at 1. rewrite Cp in B. exact B.
Qed.
End Loop.

(** All pairs i < j < n in the order of the loops. *)
Definition half_pairs (n : nat) : list (nat * nat) := flat_map (fun i => map (pair i) (seq (S i) (n - S i))) (seq 0 n).

Lemma half_pairs_In : forall n p, In p (half_pairs n) <-> fst p < snd p < n.
Proof.
  intros n [i j]. unfold half_pairs. rewrite in_flat_map. cbn [fst snd]. split.
  - intros [x [Hx H]]. apply in_map_iff in H. destruct H as [y [E H]]. injection E as -> ->. apply in_seq in Hx, H. lia.
  - intros H. exists i. split; [apply in_seq; lia|]. apply in_map_iff. exists j. split; [reflexivity|apply in_seq; lia].
Qed.

Lemma adds_before : forall c k i l, i < k -> NoDup l -> flat_map (adds c k) (map (pair i) l) = if existsb (Nat.eqb k) l && c (i, k) then [i] else [].
Proof.
  intros c k i l Hi N. induction N as [|j l Hj N IH]; [reflexivity|]. cbn [map flat_map existsb]. rewrite IH. unfold adds. cbn [fst snd].
  rewrite (proj2 (Nat.eqb_neq i k)) by lia. rewrite (Nat.eqb_sym j k). destruct (Nat.eqb_spec k j) as [<-|D].
  - replace (existsb (Nat.eqb k) l) with false. { cbn [andb orb]. destruct (c (i, k)); reflexivity. }
    symmetry. apply not_true_iff_false. intros E. apply existsb_exists in E. destruct E as [x [Hx Ex]]. apply Nat.eqb_eq in Ex. congruence.
  - cbn [orb]. destruct (c (i, j)); reflexivity.
Qed.

Lemma adds_at : forall c k l, ~ In k l -> flat_map (adds c k) (map (pair k) l) = filter (fun j => c (k, j)) l.
Proof.
  intros c k l H. induction l as [|j l IH]; [reflexivity|]. cbn [map flat_map filter]. rewrite IH by (intros X; apply H; right; exact X). unfold adds. cbn [fst snd].
  rewrite Nat.eqb_refl. rewrite (proj2 (Nat.eqb_neq j k)) by (intros E; apply H; left; congruence). destruct (c (k, j)); reflexivity.
Qed.

Lemma adds_other : forall c k i l, i <> k -> ~ In k l -> flat_map (adds c k) (map (pair i) l) = [].
Proof.
  intros c k i l Hi H. induction l as [|j l IH]; [reflexivity|]. cbn [map flat_map]. rewrite IH by (intros X; apply H; right; exact X). unfold adds. cbn [fst snd].
  rewrite (proj2 (Nat.eqb_neq i k) Hi), (proj2 (Nat.eqb_neq j k)) by (intros E; apply H; left; congruence). destruct (c (i, j)); reflexivity.
Qed.

(** Row k: the earlier particles near k, then the later ones. *)
Lemma half_row : forall c n k, k < n ->
  flat_map (adds c k) (half_pairs n) = filter (fun j => negb (j =? k) && c (Nat.min k j, Nat.max k j)) (seq 0 n).
Proof.
  intros c n k Hk. assert (Es : seq 0 n = seq 0 k ++ [k] ++ seq (S k) (n - S k)).
  { replace n with (k + S (n - S k)) at 1 by lia. rewrite seq_app. reflexivity. }
  unfold half_pairs. rewrite Es.
  rewrite !flat_map_app, !filter_app.
  assert (E1 : flat_map (adds c k) (flat_map (fun i => map (pair i) (seq (S i) (n - S i))) (seq 0 k)) = filter (fun j => negb (j =? k) && c (Nat.min k j, Nat.max k j)) (seq 0 k)).
  { assert (G : forall l, (forall i, In i l -> i < k) -> flat_map (adds c k) (flat_map (fun i => map (pair i) (seq (S i) (n - S i))) l) = filter (fun j => negb (j =? k) && c (Nat.min k j, Nat.max k j)) l).
    { induction l as [|i l IH]; intros H; [reflexivity|]. cbn [flat_map filter]. rewrite flat_map_app, IH by (intros; apply H; right; assumption).
      assert (Hi : i < k) by (apply H; left; reflexivity). rewrite adds_before by (try exact Hi; apply seq_NoDup).
      replace (existsb (Nat.eqb k) (seq (S i) (n - S i))) with true by (symmetry; apply existsb_exists; exists k; split; [apply in_seq; lia|apply Nat.eqb_refl]).
      rewrite (proj2 (Nat.eqb_neq i k)) by lia. rewrite Nat.min_r, Nat.max_l by lia. cbn [negb andb]. destruct (c (i, k)); reflexivity. }
    apply G. intros i Hi. apply in_seq in Hi. lia. }
  assert (E2 : flat_map (adds c k) (flat_map (fun i => map (pair i) (seq (S i) (n - S i))) [k]) = filter (fun j => c (k, j)) (seq (S k) (n - S k))).
  { cbn [flat_map]. rewrite app_nil_r. apply adds_at. intros H. apply in_seq in H. lia. }
  assert (E3 : flat_map (adds c k) (flat_map (fun i => map (pair i) (seq (S i) (n - S i))) (seq (S k) (n - S k))) = []).
  { assert (G : forall l, (forall i, In i l -> k < i) -> flat_map (adds c k) (flat_map (fun i => map (pair i) (seq (S i) (n - S i))) l) = []).
    { induction l as [|i l IH]; intros H; [reflexivity|]. cbn [flat_map]. rewrite flat_map_app, IH by (intros; apply H; right; assumption).
      assert (k < i) by (apply H; left; reflexivity). rewrite adds_other; [reflexivity|lia|]. intros X. apply in_seq in X. lia. }
    apply G. intros i Hi. apply in_seq in Hi. lia. }
  rewrite E1, E2, E3. rewrite app_nil_r. f_equal. cbn [filter]. rewrite Nat.eqb_refl. cbn [negb andb app]. apply filter_ext_in. intros j Hj. apply in_seq in Hj.
  rewrite (proj2 (Nat.eqb_neq j k)) by lia. rewrite Nat.min_l, Nat.max_r by lia. reflexivity.
Qed.

Lemma nth_repeat_nil : forall X n k, nth k (repeat (@nil X) n) [] = [].
Proof. intros X n. induction n as [|n IH]; intros [|k]; cbn; auto. Qed.
