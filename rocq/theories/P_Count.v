(** Counting lemmas. *)
From Coq Require Import List ZArith Bool Arith Lia Reals Lra Permutation Sorting.Sorted.
From Verif Require Import PyBase PyBaseFacts Num NumFacts Spec_Stats Spec_Pairs P_Pairs P_Overlap.
Import ListNotations.
Local Open Scope nat_scope.

Definition cnt {X} (P : X -> bool) (l : list X) : nat := length (filter P l).

Lemma cnt_app : forall X (P : X -> bool) l m, cnt P (l ++ m) = cnt P l + cnt P m.
Proof. intros. unfold cnt. rewrite filter_app, app_length. reflexivity. Qed.
Lemma cnt_map : forall X Y (P : Y -> bool) (g : X -> Y) l, cnt P (map g l) = cnt (fun x => P (g x)) l.
Proof. intros. apply filter_map_len. Qed.
Lemma cnt_perm : forall X (P : X -> bool) l m, Permutation l m -> cnt P l = cnt P m.
Proof. intros. apply Permutation_length, filter_perm. assumption. Qed.
Lemma cnt_ext : forall X (P Q : X -> bool) l, (forall x, In x l -> P x = Q x) -> cnt P l = cnt Q l.
Proof. intros. unfold cnt. f_equal. apply filter_ext_in. assumption. Qed.
Lemma cnt_split : forall X (P Q : X -> bool) l,
  cnt P l = cnt (fun x => Q x && P x) l + cnt (fun x => negb (Q x) && P x) l.
Proof.
  intros X P Q l. unfold cnt. induction l as [|a l IH]; [reflexivity|]. cbn [filter].
  destruct (Q a), (P a); cbn [andb negb length]; lia.
Qed.
Lemma cnt_filter : forall X (P Q : X -> bool) l, cnt P (filter Q l) = cnt (fun x => Q x && P x) l.
Proof.
  intros X P Q l. unfold cnt. induction l as [|a l IH]; [reflexivity|]. cbn [filter].
  destruct (Q a); cbn [andb filter]; [destruct (P a); cbn [length]|]; lia.
Qed.

Lemma list_prod_app_l : forall X Y (l m : list X) (r : list Y), list_prod (l ++ m) r = list_prod l r ++ list_prod m r.
Proof. intros X Y l m r. induction l as [|a l IH]; [reflexivity|]. cbn. rewrite IH, app_assoc. reflexivity. Qed.

Lemma list_prod_swap : forall X Y (l : list X) (m : list Y),
  Permutation (map (fun p => (snd p, fst p)) (list_prod l m)) (list_prod m l).
Proof.
  intros X Y l m. eapply Permutation_trans; [|apply (prod_perm Y X m l)].
  induction l as [|a l IH]; cbn; [constructor|]. rewrite map_app, map_map. cbn.
  apply Permutation_app; [apply Permutation_refl|exact IH].
Qed.

Lemma count_prod_swap : forall X Y (P : X -> Y -> bool) l m,
  count_prod P l m = count_prod (fun y x => P x y) m l.
Proof.
  intros X Y P l m. unfold count_prod. change (cnt (fun p => P (fst p) (snd p)) (list_prod l m)
    = cnt (fun p => P (snd p) (fst p)) (list_prod m l)).
  rewrite <- (cnt_perm _ _ _ _ (list_prod_swap X Y l m)), cnt_map. reflexivity.
Qed.

Lemma count_prod_app_l : forall X Y (P : X -> Y -> bool) l l' m,
  count_prod P (l ++ l') m = count_prod P l m + count_prod P l' m.
Proof. intros. unfold count_prod. rewrite list_prod_app_l. apply (cnt_app _ (fun p => P (fst p) (snd p))). Qed.
Lemma count_prod_app_r : forall X Y (P : X -> Y -> bool) l m m',
  count_prod P l (m ++ m') = count_prod P l m + count_prod P l m'.
Proof. intros. rewrite !(count_prod_swap _ _ P). apply count_prod_app_l. Qed.

Lemma count_prod_cons : forall X Y (P : X -> Y -> bool) a l m,
  count_prod P (a :: l) m = cnt (P a) m + count_prod P l m.
Proof.
  intros. unfold count_prod. cbn [list_prod]. rewrite filter_app, app_length. f_equal.
  apply (filter_map_len _ _ (fun p => P (fst p) (snd p)) (fun y => (a, y))).
Qed.
Lemma count_prod_perm_l : forall X Y (P : X -> Y -> bool) l l' m,
  Permutation l l' -> count_prod P l m = count_prod P l' m.
Proof.
  intros X Y P l l' m H. induction H.
  - reflexivity.
  - rewrite !count_prod_cons. congruence.
  - rewrite !count_prod_cons. lia.
  - congruence.
Qed.
Lemma count_prod_perm_r : forall X Y (P : X -> Y -> bool) l m m',
  Permutation m m' -> count_prod P l m = count_prod P l m'.
Proof. intros. rewrite !(count_prod_swap _ _ P). apply count_prod_perm_l. assumption. Qed.
Lemma count_prod_ext : forall X Y (P Q : X -> Y -> bool) l m,
  (forall x y, In x l -> In y m -> P x y = Q x y) -> count_prod P l m = count_prod Q l m.
Proof.
  intros X Y P Q l m H. unfold count_prod. f_equal. apply filter_ext_in. intros [x y] Hp.
  apply in_prod_iff in Hp. apply H; apply Hp.
Qed.

(** A group as the list of its indices. *)
Lemma nth_seq_all : forall X (l : list X) d, map (fun i => nth i l d) (seq 0 (length l)) = l.
Proof. intros X l d. pose proof (skipn_nth_map X l d 0) as H. cbn [skipn] in H. rewrite Nat.sub_0_r in H. congruence. Qed.

Lemma list_prod_map : forall X Y X' Y' (f : X -> X') (g : Y -> Y') l m,
  list_prod (map f l) (map g m) = map (fun p => (f (fst p), g (snd p))) (list_prod l m).
Proof.
  intros. induction l as [|a l IH]; [reflexivity|]. cbn. rewrite IH, map_app, !map_map. reflexivity.
Qed.

Lemma diag_cnt : forall (Q : nat -> nat -> bool) n,
  cnt (fun p => (fst p =? snd p) && Q (fst p) (snd p)) (list_prod (seq 0 n) (seq 0 n)) = cnt (fun i => Q i i) (seq 0 n).
Proof.
  intros Q n.
  assert (forall l m, NoDup m -> (forall i, In i l -> In i m) ->
    cnt (fun p => (fst p =? snd p) && Q (fst p) (snd p)) (list_prod l m) = cnt (fun i => Q i i) l) as G.
  { intros l m Hm. induction l as [|a l IH]; intros Hl; [reflexivity|]. cbn [list_prod].
    rewrite cnt_app, IH by (intros; apply Hl; right; assumption).
    rewrite cnt_map. cbn [fst snd].
    assert (cnt (fun y => (a =? y) && Q a y) m = if Q a a then 1 else 0) as ->.
    { assert (In a m) as Ha by (apply Hl; left; reflexivity). clear - Hm Ha.
      induction Hm as [|b m Hb Hm IH]; [destruct Ha|].
      change (cnt (fun y => (a =? y) && Q a y) ([b] ++ m) = if Q a a then 1 else 0). rewrite cnt_app.
      destruct (Nat.eq_dec a b) as [<-|E].
      - assert (cnt (fun y => (a =? y) && Q a y) m = 0) as ->.
        { unfold cnt. rewrite (filter_ext_in _ (fun _ => false)); [clear; induction m; auto|].
          intros y Hy. destruct (Nat.eqb_spec a y) as [<-|]; [contradiction|reflexivity]. }
        unfold cnt. cbn [filter]. rewrite Nat.eqb_refl. cbn [andb]. destruct (Q a a); reflexivity.
      - destruct Ha as [->|Ha]; [congruence|]. rewrite IH by exact Ha. unfold cnt at 1. cbn [filter].
        apply Nat.eqb_neq in E. rewrite E. reflexivity. }
    unfold cnt. cbn [filter]. destruct (Q a a); reflexivity. }
  apply G; [apply seq_NoDup|auto].
Qed.

Lemma ordered_diag : forall X (P : X -> X -> bool) xs d,
  count_prod P xs xs = ordered_pairs P xs d + cnt (fun x => P x x) xs.
Proof.
  intros X P xs d. unfold count_prod.
  change (cnt (fun p => P (fst p) (snd p)) (list_prod xs xs) = ordered_pairs P xs d + cnt (fun x => P x x) xs).
  assert (cnt (fun p => P (fst p) (snd p)) (list_prod xs xs)
    = cnt (fun p => P (nth (fst p) xs d) (nth (snd p) xs d)) (list_prod (seq 0 (length xs)) (seq 0 (length xs)))) as ->.
  { rewrite <- (nth_seq_all X xs d) at 1 2. rewrite list_prod_map, cnt_map. reflexivity. }
  assert (cnt (fun x => P x x) xs = cnt (fun i => P (nth i xs d) (nth i xs d)) (seq 0 (length xs))) as ->.
  { rewrite <- (nth_seq_all X xs d) at 1. rewrite cnt_map. reflexivity. }
  rewrite (cnt_split _ _ (fun p => fst p =? snd p)). rewrite (diag_cnt (fun i j => P (nth i xs d) (nth j xs d))).
  unfold ordered_pairs, cnt. lia.
Qed.

Lemma count_pairs_ordered : forall X (P : X -> X -> bool) xs d,
  (forall x y, In x xs -> In y xs -> P x y = P y x) ->
  2 * count_pairs P xs d = ordered_pairs P xs d.
Proof.
  intros X P xs d Hs. unfold count_pairs, ordered_pairs, index_pairs. set (n := length xs).
  set (Q := fun p : nat * nat => P (nth (fst p) xs d) (nth (snd p) xs d)).
  change (2 * cnt Q (filter (fun p => fst p <? snd p) (list_prod (seq 0 n) (seq 0 n)))
    = cnt (fun p => negb (fst p =? snd p) && Q p) (list_prod (seq 0 n) (seq 0 n))).
  rewrite cnt_filter. rewrite (cnt_split _ (fun p => negb (fst p =? snd p) && Q p) (fun p => fst p <? snd p)).
  set (L := list_prod (seq 0 n) (seq 0 n)).
  assert (forall p, In p L -> Q p = Q (snd p, fst p)) as HQ.
  { intros [i j] Hp. apply in_prod_iff in Hp. rewrite !in_seq in Hp. unfold n in Hp. apply Hs; apply nth_In; cbn [fst snd]; lia. }
  assert (cnt (fun p => (fst p <? snd p) && (negb (fst p =? snd p) && Q p)) L
    = cnt (fun p => (fst p <? snd p) && Q p) L) as ->.
  { apply cnt_ext. intros p _. destruct (Nat.ltb_spec (fst p) (snd p)); [|reflexivity].
    destruct (Nat.eqb_spec (fst p) (snd p)); [lia|reflexivity]. }
  assert (cnt (fun p => negb (fst p <? snd p) && (negb (fst p =? snd p) && Q p)) L
    = cnt (fun p => (fst p <? snd p) && Q p) L) as ->; [|lia].
  transitivity (cnt (fun p => (snd p <? fst p) && Q (snd p, fst p)) L).
  - apply cnt_ext. intros p Hp. rewrite <- (HQ p Hp).
    destruct (Nat.ltb_spec (fst p) (snd p)), (Nat.ltb_spec (snd p) (fst p)), (Nat.eqb_spec (fst p) (snd p));
      cbn [negb andb]; try lia; reflexivity.
  - pose proof (cnt_perm _ (fun p => (fst p <? snd p) && Q p) _ _ (list_prod_swap nat nat (seq 0 n) (seq 0 n))) as E.
    rewrite cnt_map in E. exact E.
Qed.

(** Composition of groups. *)
Lemma list_sum_cons : forall a l, list_sum (a :: l) = a + list_sum l.
Proof. reflexivity. Qed.
Lemma cnt_concat : forall X (P : X -> bool) ls, cnt P (concat ls) = list_sum (map (cnt P) ls).
Proof. intros. induction ls as [|l ls IH]; [reflexivity|]. cbn [concat map]. rewrite list_sum_cons, cnt_app, IH. reflexivity. Qed.
Lemma count_prod_concat_l : forall X Y (P : X -> Y -> bool) ls m,
  count_prod P (concat ls) m = list_sum (map (fun l => count_prod P l m) ls).
Proof. intros. induction ls as [|l ls IH]; [reflexivity|]. cbn [concat map]. rewrite list_sum_cons, count_prod_app_l, IH. reflexivity. Qed.
Lemma count_prod_concat_r : forall X Y (P : X -> Y -> bool) l ms,
  count_prod P l (concat ms) = list_sum (map (count_prod P l) ms).
Proof.
  intros. induction ms as [|m ms IH].
  - rewrite count_prod_swap. reflexivity.
  - cbn [concat map]. rewrite list_sum_cons, count_prod_app_r, IH. reflexivity.
Qed.

Lemma list_sum_plus : forall X (f g : X -> nat) l,
  list_sum (map (fun x => f x + g x) l) = list_sum (map f l) + list_sum (map g l).
Proof. intros. induction l as [|a l IH]; [reflexivity|]. cbn [map]. rewrite !list_sum_cons. lia. Qed.

Lemma list_sum_one : forall (f g : nat -> nat) n a, a < n ->
  list_sum (map (fun b => if a =? b then f b else g b) (seq 0 n)) + g a = list_sum (map g (seq 0 n)) + f a.
Proof.
  intros f g n a Ha.
  assert (forall l, NoDup l -> In a l ->
    list_sum (map (fun b => if a =? b then f b else g b) l) + g a = list_sum (map g l) + f a) as G.
  { induction 1 as [|b l Hb Hl IH]; intros Hin; [destruct Hin|]. cbn [map]. rewrite !list_sum_cons.
    destruct (Nat.eqb_spec a b) as [<-|E].
    - assert (map (fun b => if a =? b then f b else g b) l = map g l) as ->; [|lia].
      apply map_ext_in. intros c Hc. destruct (Nat.eqb_spec a c) as [<-|]; [contradiction|reflexivity].
    - destruct Hin as [->|Hin]; [congruence|]. specialize (IH Hin). lia. }
  apply G; [apply seq_NoDup|apply in_seq; lia].
Qed.

Lemma ordered_composition : forall X (P : X -> X -> bool) (gs : list (list X)) xs d,
  Permutation xs (concat gs) ->
  ordered_pairs P xs d = list_sum (map (fun a => list_sum (map (fun b =>
      if a =? b then ordered_pairs P (nth a gs []) d else count_prod P (nth a gs []) (nth b gs []))
    (seq 0 (length gs)))) (seq 0 (length gs))).
Proof.
  intros X P gs xs d Hp.
  pose proof (ordered_diag X P xs d) as E.
  rewrite (count_prod_perm_l _ _ P _ _ xs Hp), (count_prod_perm_r _ _ P (concat gs) _ _ Hp) in E.
  rewrite (cnt_perm _ (fun x => P x x) _ _ Hp), cnt_concat in E.
  rewrite count_prod_concat_l in E.
  rewrite (map_ext _ (fun l => list_sum (map (count_prod P l) gs))) in E by (intros; apply count_prod_concat_r).
  set (n := length gs).
  assert (forall (f : list X -> nat), map f gs = map (fun a => f (nth a gs [])) (seq 0 n)) as Hg.
  { intros f. rewrite <- (nth_seq_all _ gs []) at 1. rewrite map_map. reflexivity. }
  rewrite (Hg (fun l => list_sum (map (count_prod P l) gs))), (Hg (cnt (fun x => P x x))) in E.
  set (F := fun a => list_sum (map (fun b =>
      if a =? b then ordered_pairs P (nth a gs []) d else count_prod P (nth a gs []) (nth b gs [])) (seq 0 n))).
  assert (list_sum (map F (seq 0 n)) + list_sum (map (fun a => cnt (fun x => P x x) (nth a gs [])) (seq 0 n))
    = list_sum (map (fun a => list_sum (map (fun b => count_prod P (nth a gs []) (nth b gs [])) (seq 0 n))) (seq 0 n))) as E2.
  { rewrite <- list_sum_plus. f_equal. apply map_ext_in. intros a Ha. apply in_seq in Ha. unfold F.
    pose proof (list_sum_one (fun _ => ordered_pairs P (nth a gs []) d)
      (fun b => count_prod P (nth a gs []) (nth b gs [])) n a ltac:(lia)) as L.
    rewrite (ordered_diag X P (nth a gs []) d) in L at 1. lia. }
  change (ordered_pairs P xs d = list_sum (map F (seq 0 n))).
  assert (list_sum (map (fun a => list_sum (map (count_prod P (nth a gs [])) gs)) (seq 0 n))
    = list_sum (map (fun a => list_sum (map (fun b => count_prod P (nth a gs []) (nth b gs [])) (seq 0 n))) (seq 0 n))) as E3.
  { f_equal. apply map_ext. intros a. f_equal. apply Hg. }
  lia.
Qed.

(** Bins. *)
Local Open Scope R_scope.
Notation inR := (in_bin 0 Rleb Rltb).

Lemma bins_telescope : forall es (vs : list R) K, StronglySorted Rlt es -> (K + 1 <= length es)%nat ->
  list_sum (map (fun k => cnt (inR es k) vs) (seq 0 K)) = if (K =? 0)%nat then 0%nat else cnt (within es K) vs.
Proof.
  intros es vs K Hs. induction K as [|K IH]; intros HK; [reflexivity|].
  rewrite seq_S, map_app, list_sum_app, IH by lia. cbn [map list_sum fold_right Nat.add Nat.eqb].
  rewrite Nat.add_0_r.
  assert (forall i j, (i < j < length es)%nat -> nth i es 0 < nth j es 0) as Hlt.
  { clear -Hs. induction Hs as [|a es Hs IH Hf]; intros i j Hij; [cbn in Hij; lia|].
    destruct j as [|j]; [lia|]. destruct i as [|i]; cbn [nth].
    - rewrite Forall_forall in Hf. apply Hf. apply nth_In. cbn in Hij. lia.
    - apply IH. cbn in Hij. lia. }
  destruct (K =? 0)%nat eqn:E0.
  - apply Nat.eqb_eq in E0. subst K. apply cnt_ext. intros v _. unfold in_bin, within. reflexivity.
  - apply Nat.eqb_neq in E0. rewrite (cnt_split _ (within es (S K)) (fun v => Rltb v (nth K es 0))).
    pose proof (Hlt 0%nat K ltac:(lia)) as H0. pose proof (Hlt K (S K) ltac:(lia)) as H1.
    f_equal; apply cnt_ext; intros v _; unfold within, in_bin.
    + destruct (Nat.eqb_spec (K + 1) (length es)); [lia|].
      replace (S K + 1)%nat with (K + 2)%nat by lia.
      destruct (Rltb_spec v (nth K es 0)); cbn [andb]; [|rewrite andb_false_r; reflexivity].
      rewrite andb_true_r. destruct (K + 2 =? length es)%nat.
      * destruct (Rleb_spec v (nth (S K) es 0)); [rewrite andb_true_r; reflexivity|lra].
      * destruct (Rltb_spec v (nth (S K) es 0)); [rewrite andb_true_r; reflexivity|lra].
    + replace (S K + 1)%nat with (K + 2)%nat by lia. replace (K + 1)%nat with (S K) by lia.
      destruct (Rltb_spec v (nth K es 0)); destruct (Rleb_spec (nth K es 0) v); cbn [negb andb]; try lra; try reflexivity.
      destruct (Rleb_spec (nth 0 es 0) v); [reflexivity|lra].
Qed.
