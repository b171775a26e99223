(** Facts about PyBase. *)
From Coq Require Import List ZArith Bool Arith Lia Permutation Sorting.Sorted.
From Verif Require Import PyBase.
Import ListNotations.

Lemma foldM_app : forall S X (step : S -> X -> res S) l1 l2 s,
  foldM step s (l1 ++ l2) = (s' <- foldM step s l1 ;; foldM step s' l2).
Proof.
  intros S X step l1 l2. induction l1 as [|x r IH]; intros s; cbn; [reflexivity|].
  destruct (step s x); cbn; auto.
Qed.

Lemma foldM_pure : forall S X (step : S -> X -> res S) (g : S -> X -> S) l s,
  (forall s x, In x l -> step s x = Ok (g s x)) ->
  foldM step s l = Ok (fold_left g l s).
Proof.
  intros S X step g l. induction l as [|x r IH]; intros s H; cbn; [reflexivity|].
  rewrite (H s x (or_introl eq_refl)). cbn. apply IH. intros; apply H; right; assumption.
Qed.

Lemma mapM_pure : forall X Y (f : X -> res Y) (g : X -> Y) l,
  (forall x, In x l -> f x = Ok (g x)) -> mapM f l = Ok (map g l).
Proof.
  intros X Y f g l. induction l as [|x r IH]; intros H; cbn; [reflexivity|].
  rewrite (H x (or_introl eq_refl)). cbn. rewrite IH; [reflexivity|].
  intros; apply H; right; assumption.
Qed.

Lemma mapM_Ok_inv : forall X Y (f : X -> res Y) l ys,
  mapM f l = Ok ys -> Forall2 (fun x y => f x = Ok y) l ys.
Proof.
  intros X Y f l. induction l as [|x r IH]; intros ys H; cbn in H.
  - injection H as <-. constructor.
  - destruct (f x) as [y|] eqn:E; cbn in H; [|discriminate].
    destruct (mapM f r) as [zs|] eqn:E2; cbn in H; [|discriminate].
    injection H as <-. constructor; auto.
Qed.

Lemma Ok_inj : forall A (a b : A), Ok a = Ok b -> a = b.
Proof. intros A a b H. congruence. Qed.

Lemma bind_Ok_inv : forall A B (x : res A) (f : A -> res B) b,
  bind x f = Ok b -> exists a, x = Ok a /\ f a = Ok b.
Proof. intros A B x f b H. destruct x; cbn in H; [eauto|discriminate]. Qed.

Lemma get_Ok : forall X (l : list X) i d, i < length l -> get l i = Ok (nth i l d).
Proof.
  intros X l i d H. unfold get. rewrite (nth_error_nth' l d H). reflexivity.
Qed.

Lemma get_inv : forall X (l : list X) i x, get l i = Ok x -> i < length l /\ nth_error l i = Some x.
Proof.
  intros X l i x H. unfold get in H. destruct (nth_error l i) eqn:E; [|discriminate].
  injection H as <-. split; [|reflexivity]. apply nth_error_Some. congruence.
Qed.

(** Strictly sorted lists with the same members are equal. *)
Lemma sorted_ext : forall X (lt : X -> X -> Prop),
  (forall x, ~ lt x x) -> (forall x y z, lt x y -> lt y z -> lt x z) ->
  forall l m, StronglySorted lt l -> StronglySorted lt m ->
  (forall x, In x l <-> In x m) -> l = m.
Proof.
  intros X lt Hirr Htr l. induction l as [|a l IH]; intros m Hl Hm H.
  - destruct m as [|b m]; [reflexivity|]. destruct (proj2 (H b) (or_introl eq_refl)).
  - destruct m as [|b m]; [destruct (proj1 (H a) (or_introl eq_refl))|].
    inversion Hl as [|? ? Hsl Hal]; subst. inversion Hm as [|? ? Hsm Hbm]; subst.
    rewrite Forall_forall in Hal, Hbm.
    assert (a = b) as ->.
    { destruct (proj1 (H a) (or_introl eq_refl)) as [E|E]; [auto|].
      destruct (proj2 (H b) (or_introl eq_refl)) as [E'|E']; [auto|].
      exfalso. apply (Hirr a). apply Htr with b; auto. }
    f_equal. apply IH; auto. intros x. specialize (H x). cbn in H. split; intros Hx.
    + destruct (proj1 H (or_intror Hx)) as [->|]; auto. exfalso; eapply Hirr; eauto.
    + destruct (proj2 H (or_intror Hx)) as [->|]; auto. exfalso; eapply Hirr; eauto.
Qed.

Lemma filter_StronglySorted : forall X (R : X -> X -> Prop) f l,
  StronglySorted R l -> StronglySorted R (filter f l).
Proof.
  intros X R f l H. induction H as [|a l Hs IH Hf]; cbn; [constructor|].
  destruct (f a); [|assumption]. constructor; [assumption|].
  rewrite Forall_forall in *. intros x Hx. apply filter_In in Hx. apply Hf; tauto.
Qed.

Lemma seq_StronglySorted : forall n a, StronglySorted lt (seq a n).
Proof.
  induction n as [|n IH]; intros a; cbn; constructor; auto.
  rewrite Forall_forall. intros x Hx. apply in_seq in Hx. lia.
Qed.

Lemma map_StronglySorted : forall X Y (R : X -> X -> Prop) (Q : Y -> Y -> Prop) (f : X -> Y) l,
  (forall x y, In x l -> In y l -> R x y -> Q (f x) (f y)) -> StronglySorted R l -> StronglySorted Q (map f l).
Proof.
  intros X Y R Q f l H Hs. induction Hs as [|a l Hs IH Hf]; cbn; constructor.
  - apply IH. intros; apply H; cbn; auto.
  - rewrite Forall_forall in *. intros y Hy. apply in_map_iff in Hy.
    destruct Hy as [x [<- Hx]]. apply H; cbn; auto.
Qed.

(** range(a, b, s) lists the numbers of [0, b) that are at least a and a multiple
    of s away from a. *)
Lemma py_range_spec : forall a b s, 1 <= s ->
  py_range a b s =
  Ok (filter (fun i => (a <=? i) && ((i - a) mod s =? 0)) (seq 0 b)).
Proof.
  intros a b s Hs. unfold py_range.
  destruct (Nat.eqb_spec s 0) as [E|_]; [lia|]. f_equal.
  apply sorted_ext with (lt := lt).
  - intros x; lia.
  - intros x y z; lia.
  - apply map_StronglySorted with (R := lt); [intros; nia | apply seq_StronglySorted].
  - apply filter_StronglySorted, seq_StronglySorted.
  - intros x. rewrite in_map_iff, filter_In, in_seq, andb_true_iff, Nat.leb_le, Nat.eqb_eq.
    split.
    + intros [k [<- Hk]]. apply in_seq in Hk.
      assert (k + 1 <= (b - a + (s - 1)) / s) by lia.
      assert (s * (k + 1) <= b - a + (s - 1)).
      { transitivity (s * ((b - a + (s - 1)) / s)); [nia|]. apply Nat.mul_div_le; lia. }
      replace (a + k * s - a) with (k * s) by lia.
      rewrite Nat.mod_mul by lia. nia.
    + intros [Hx [Hax Hm]]. apply Nat.mod_divides in Hm; [|lia]. destruct Hm as [k Hk].
      exists k. split; [lia|]. apply in_seq. split; [lia|].
      enough (k + 1 <= (b - a + (s - 1)) / s) by lia.
      apply Nat.div_le_lower_bound; [lia|]. nia.
Qed.

Lemma filter_all_true : forall X (f : X -> bool) l, (forall x, In x l -> f x = true) -> filter f l = l.
Proof.
  intros X f l. induction l as [|a l IH]; intros H; cbn; [reflexivity|].
  rewrite (H a (or_introl eq_refl)). f_equal. apply IH. intros; apply H; right; auto.
Qed.

Lemma py_range_1 : forall b, py_range 0 b 1 = Ok (seq 0 b).
Proof.
  intros b. rewrite py_range_spec by lia. f_equal. apply filter_all_true.
  intros x _. rewrite andb_true_iff, Nat.leb_le, Nat.eqb_eq. rewrite Nat.mod_1_r. lia.
Qed.

(** Dictionaries. *)
Lemma dget_dset : forall V (d : dict V) k v k',
  dget (dset d k v) k' = if (k' =? k)%Z then Some v else dget d k'.
Proof.
  intros V d k v k'. induction d as [|[k0 v0] d IH]; cbn.
  - destruct (Z.eqb_spec k' k); reflexivity.
  - destruct (Z.eqb_spec k k0); cbn.
    + subst. destruct (Z.eqb_spec k' k0); reflexivity.
    + rewrite IH. destruct (Z.eqb_spec k' k0), (Z.eqb_spec k' k); try reflexivity; lia.
Qed.

Lemma dget_None : forall V (d : dict V) k, dget d k = None <-> ~ In k (keys d).
Proof.
  intros V d k. induction d as [|[k0 v0] d IH]; cbn; [tauto|].
  destruct (Z.eqb_spec k k0).
  - subst. split; [discriminate|]. intros H; exfalso; apply H; auto.
  - rewrite IH. intuition.
Qed.

Lemma dget_Some_In : forall V (d : dict V) k, (exists v, dget d k = Some v) <-> In k (keys d).
Proof.
  intros V d k. split.
  - intros [v H]. destruct (in_dec Z.eq_dec k (keys d)) as [|N]; auto.
    apply dget_None in N. congruence.
  - intros H. destruct (dget d k) eqn:E; [eauto|]. apply dget_None in E. tauto.
Qed.

Lemma keys_dset : forall V (d : dict V) k v x,
  In x (keys (dset d k v)) <-> x = k \/ In x (keys d).
Proof.
  intros V d k v x. rewrite <- !dget_Some_In.
  setoid_rewrite dget_dset. destruct (Z.eqb_spec x k).
  - split; [auto|]. intros; eauto.
  - split; [auto|]. intros [|]; [lia|auto].
Qed.

Lemma NoDup_keys_dset : forall V (d : dict V) k v, NoDup (keys d) -> NoDup (keys (dset d k v)).
Proof.
  intros V d k v. induction d as [|[k0 v0] d IH]; cbn; intros H.
  - constructor; [tauto|constructor].
  - inversion H as [|? ? Hn Hd]; subst. destruct (Z.eqb_spec k k0); cbn.
    + constructor; auto.
    + constructor; [|auto]. fold (keys (dset d k v)). rewrite keys_dset. intros [|]; [lia|auto].
Qed.

(** Sorting. *)
Lemma insertZ_perm : forall x l, Permutation (insertZ x l) (x :: l).
Proof.
  intros x l. induction l as [|y l IH]; cbn; [auto|].
  destruct (x <=? y)%Z; [auto|]. rewrite IH. apply perm_swap.
Qed.

Lemma sortZ_perm : forall l, Permutation (sortZ l) l.
Proof.
  induction l as [|x l IH]; cbn; [auto|]. rewrite insertZ_perm. auto.
Qed.

Lemma insertZ_sorted : forall x l, StronglySorted Z.le l -> StronglySorted Z.le (insertZ x l).
Proof.
  intros x l H. induction H as [|y l Hs IH Hf]; cbn; [repeat constructor|].
  destruct (Z.leb_spec x y).
  - constructor; [constructor; auto|]. constructor; [auto|].
    rewrite Forall_forall in *. intros z Hz. specialize (Hf z Hz). lia.
  - constructor; auto. rewrite Forall_forall in *. intros z Hz.
    apply (Permutation_in _ (insertZ_perm x l)) in Hz. destruct Hz as [->|]; [lia|auto].
Qed.

Lemma sortZ_sorted : forall l, StronglySorted Z.le (sortZ l).
Proof. induction l; cbn; [constructor|apply insertZ_sorted; auto]. Qed.

Lemma sortZ_In : forall l x, In x (sortZ l) <-> In x l.
Proof.
  intros l x. split; apply Permutation_in; [apply sortZ_perm|apply Permutation_sym, sortZ_perm].
Qed.

Lemma sorted_NoDup_lt : forall l, StronglySorted Z.le l -> NoDup l -> StronglySorted Z.lt l.
Proof.
  intros l H. induction H as [|y l Hs IH Hf]; intros Hn; [constructor|].
  inversion Hn as [|? ? Hny Hnd]; subst. constructor; auto.
  rewrite Forall_forall in *. intros z Hz. specialize (Hf z Hz).
  destruct (Z.eq_dec y z); [subst; tauto|lia].
Qed.

Lemma sortZ_sorted_lt : forall l, NoDup l -> StronglySorted Z.lt (sortZ l).
Proof.
  intros l H. apply sorted_NoDup_lt; [apply sortZ_sorted|].
  apply (Permutation_NoDup (Permutation_sym (sortZ_perm l)) H).
Qed.

Lemma setZ_In : forall l x, In x (setZ l) <-> In x l.
Proof. intros. unfold setZ. apply nodup_In. Qed.

Lemma setZ_NoDup : forall l, NoDup (setZ l).
Proof. intros. apply NoDup_nodup. Qed.

Lemma StronglySorted_NoDup : forall X (R : X -> X -> Prop) l,
  (forall x, ~ R x x) -> StronglySorted R l -> NoDup l.
Proof.
  intros X R l Hi H. induction H as [|a l Hs IH Hf]; constructor; auto.
  rewrite Forall_forall in Hf. intros Hin. exact (Hi a (Hf a Hin)).
Qed.

Lemma sorted_lt_irr_ext : forall l m, StronglySorted Z.lt l -> StronglySorted Z.lt m ->
  (forall x, In x l <-> In x m) -> l = m.
Proof. apply sorted_ext; intros; lia. Qed.

(** min with a key: the first minimum. *)
Lemma argminZ_spec : forall X (key : X -> Z) l best,
  In (argminZ key best l) (best :: l) /\
  (forall y, In y (best :: l) -> (key (argminZ key best l) <= key y)%Z).
Proof.
  intros X key l. induction l as [|x l IH]; intros best; cbn.
  - split; [auto|]. intros y [->|[]]; lia.
  - destruct (Z.ltb_spec (key x) (key best)).
    + destruct (IH x) as [Hin Hle]. split.
      * destruct Hin; auto.
      * intros y [->|[->|Hy]]; [|apply Hle; cbn; auto|apply Hle; cbn; auto].
        specialize (Hle x (or_introl eq_refl)). lia.
    + destruct (IH best) as [Hin Hle]. split.
      * destruct Hin; auto.
      * intros y [->|[->|Hy]]; [apply Hle; cbn; auto| |apply Hle; cbn; auto].
        specialize (Hle best (or_introl eq_refl)). lia.
Qed.

(** ... and everything strictly before it in the list has a strictly larger key. *)
Lemma argminZ_first : forall X (key : X -> Z) (R : X -> X -> Prop) l best,
  (forall x, ~ R x x) ->
  StronglySorted R (best :: l) ->
  forall y, In y (best :: l) -> R y (argminZ key best l) ->
  (forall x y, R x y -> ~ R y x) ->
  (key (argminZ key best l) < key y)%Z.
Proof.
  intros X key R l. induction l as [|x l IH]; intros best Hirr Hs y Hy HR Hasym; cbn in *.
  - destruct Hy as [->|[]]. exfalso; eapply Hirr; eauto.
  - inversion Hs as [|? ? Hs' Hf]; subst. inversion Hs' as [|? ? Hs'' Hf']; subst.
    rewrite Forall_forall in Hf.
    destruct (Z.ltb_spec (key x) (key best)).
    + destruct Hy as [->|Hy].
      * destruct (argminZ_spec _ key l x) as [_ Hle]. specialize (Hle x (or_introl eq_refl)). lia.
      * apply IH; auto.
    + destruct Hy as [->|[->|Hy]].
      * apply IH; auto. constructor; auto. rewrite Forall_forall.
        intros; apply Hf; cbn; auto.
      * (* y = x skipped *)
        destruct (argminZ_spec _ key l best) as [Hin Hle].
        specialize (Hle best (or_introl eq_refl)).
        destruct Hin as [E|Hin].
        { exfalso. rewrite <- E in HR. apply (Hasym y best HR). apply Hf; cbn; auto. }
        assert (R best (argminZ key best l)) as HRb by (apply Hf; cbn; auto).
        enough (key (argminZ key best l) < key best)%Z by lia.
        apply IH; auto. constructor; auto. rewrite Forall_forall.
        intros; apply Hf; cbn; auto.
      * apply IH; auto. constructor; auto. rewrite Forall_forall.
        intros; apply Hf; cbn; auto.
Qed.

Lemma min_by_Ok : forall X (key : X -> Z) l, l <> [] -> exists m, min_by key l = Ok m.
Proof. intros X key [|x l] H; [congruence|cbn; eauto]. Qed.

Lemma min_by_spec : forall X (key : X -> Z) l m, min_by key l = Ok m ->
  In m l /\ (forall y, In y l -> (key m <= key y)%Z).
Proof.
  intros X key [|x l] m H; cbn in H; [discriminate|]. injection H as <-.
  apply (argminZ_spec _ key l x).
Qed.

Lemma min_by_first : forall (key : Z -> Z) l m, min_by key l = Ok m ->
  StronglySorted Z.lt l -> forall y, In y l -> (y < m)%Z -> (key m < key y)%Z.
Proof.
  intros key [|x l] m H Hs y Hy Hlt; cbn in H; [discriminate|]. injection H as <-.
  apply argminZ_first with (R := Z.lt); auto; intros; lia.
Qed.

(** Accumulating a list of (key, value) events in a defaultdict. *)
Section Acc.
Variables (V W : Type) (op : W -> V -> W) (z : W).
Definition acc_from (d : dict W) (ev : list (Z * V)) : dict W :=
  fold_left (fun d e => dupd d (fst e) (fun u => op u (snd e)) z) ev d.
Definition with_key (k : Z) (ev : list (Z * V)) : list V :=
  map snd (filter (fun e => (fst e =? k)%Z) ev).

Lemma acc_from_get : forall ev d k,
  dget (acc_from d ev) k =
  match dget d k, with_key k ev with
  | None, [] => None
  | Some w, l => Some (fold_left op l w)
  | None, l => Some (fold_left op l z)
  end.
Proof.
  induction ev as [|[k0 v] ev IH]; intros d k.
  - cbn. destruct (dget d k); reflexivity.
  - unfold acc_from; cbn [fold_left fst snd].
    fold (acc_from (dupd d k0 (fun u => op u v) z) ev).
    rewrite IH. unfold dupd. rewrite dget_dset. unfold with_key; cbn.
    rewrite (Z.eqb_sym k k0). destruct (Z.eqb_spec k0 k); cbn; [|reflexivity].
    subst. fold (with_key k ev). destruct (dget d k); reflexivity.
Qed.

Lemma acc_get : forall ev k,
  dget (acc_from [] ev) k =
  match with_key k ev with [] => None | l => Some (fold_left op l z) end.
Proof. intros. rewrite acc_from_get. reflexivity. Qed.

Lemma acc_keys : forall ev k, In k (keys (acc_from [] ev)) <-> In k (map fst ev).
Proof.
  intros ev k. rewrite <- dget_Some_In. rewrite acc_get.
  assert (In k (map fst ev) <-> with_key k ev <> []) as ->.
  { unfold with_key. induction ev as [|[k0 v] ev IH]; cbn; [tauto|].
    destruct (Z.eqb_spec k0 k); cbn.
    - split; [discriminate|auto].
    - rewrite <- IH. split; [|auto]. intros [|]; [lia|auto]. }
  destruct (with_key k ev); split; try congruence; eauto.
  intros [v Hv]; discriminate.
Qed.

Lemma acc_NoDup : forall ev d, NoDup (keys d) -> NoDup (keys (acc_from d ev)).
Proof.
  induction ev as [|e ev IH]; intros d H; cbn; [assumption|].
  apply IH. unfold dupd. apply NoDup_keys_dset; assumption.
Qed.
End Acc.
Arguments acc_from {V W} op z d ev.
Arguments with_key {V} k ev.
