(** Proofs about Partial. *)
From Coq Require Import Ascii String List ZArith Bool Arith Lia Sorted.
From Verif Require Import PyBase PyBaseFacts M_Partial.
Import ListNotations.
Local Open Scope nat_scope.

Section DictFacts.
Variables K V : Type.
Variable eqb : K -> K -> bool.
Hypothesis eqb_spec : forall a b, eqb a b = true <-> a = b.

Lemma dict_get_set_same : forall d k (v : V), dict_get eqb (dict_set eqb d k v) k = Some v.
Proof.
  induction d as [|[k' v'] r IH]; intros k v; cbn.
  - rewrite (proj2 (eqb_spec k k) eq_refl). reflexivity.
  - destruct (eqb k' k) eqn:E; cbn; rewrite E; [reflexivity|apply IH].
Qed.

Lemma dict_get_set_other : forall d k k' (v : V), k <> k' -> dict_get eqb (dict_set eqb d k v) k' = dict_get eqb d k'.
Proof.
  assert (F : forall a b, a <> b -> eqb a b = false).
  { intros a b H. destruct (eqb a b) eqn:E; [|reflexivity]. apply eqb_spec in E. contradiction. }
  induction d as [|[k0 v0] r IH]; intros k k' v H; cbn.
  - rewrite F by assumption. reflexivity.
  - destruct (eqb k0 k) eqn:E; cbn.
    + apply eqb_spec in E. subst. rewrite F by assumption. reflexivity.
    + destruct (eqb k0 k'); [reflexivity|]. apply IH. assumption.
Qed.
End DictFacts.

Lemma pair_eqb_spec : forall a b, pair_eqb a b = true <-> a = b.
Proof.
  intros [a1 a2] [b1 b2]. unfold pair_eqb. cbn. rewrite andb_true_iff, !String.eqb_eq.
  split; [intros [-> ->]; reflexivity|intros H; injection H; auto].
Qed.

Definition set_same2 {V} := @dict_get_set_same _ V pair_eqb pair_eqb_spec.
Definition set_other2 {V} := @dict_get_set_other _ V pair_eqb pair_eqb_spec.
Definition set_same1 {V} := @dict_get_set_same _ V String.eqb String.eqb_eq.
Definition set_other1 {V} := @dict_get_set_other _ V String.eqb String.eqb_eq.

(** A dictionary filled by assignments of distinct keys. *)
Lemma fill_get : forall K V X (eqb : K -> K -> bool) (key : X -> K) (val : X -> V) l d,
  (forall a b, eqb a b = true <-> a = b) ->
  (forall x y, In x l -> In y l -> key x = key y -> x = y) ->
  forall x, In x l -> dict_get eqb (fold_left (fun d x => dict_set eqb d (key x) (val x)) l d) (key x) = Some (val x).
Proof.
  intros K V X eqb key val l d Hs. revert d.
  induction l as [|y l IH] using rev_ind; intros d Inj x Hx; [destruct Hx|].
  rewrite fold_left_app. cbn [fold_left]. apply in_app_iff in Hx.
  assert (Dec : key x = key y \/ key x <> key y).
  { destruct (eqb (key x) (key y)) eqn:E; [left; apply Hs; assumption|right; intros C; apply Hs in C; congruence]. }
  destruct Dec as [E|E].
  - assert (x = y) as ->. { apply Inj; [|apply in_app_iff; right; left; reflexivity|assumption]. apply in_app_iff. tauto. }
    apply dict_get_set_same. assumption.
  - rewrite dict_get_set_other by (assumption || congruence).
    destruct Hx as [Hx|[->|[]]]; [|congruence]. apply IH; [|assumption].
    intros a b Ha Hb. apply Inj; apply in_app_iff; tauto.
Qed.

(** enum *)
Lemma enum_fst : forall sp i s, In (i, s) (enum sp) -> i < length sp /\ nth_error sp i = Some s.
Proof.
  intros sp i s H. unfold enum in H. apply In_nth_error in H. destruct H as [n H].
  assert (G : forall l k n, nth_error (combine (seq k (length l)) l) n = Some (i, s) -> i = k + n /\ nth_error l n = Some s).
  { induction l as [|x r IH]; intros k m Hm; [destruct m; discriminate|]. destruct m; cbn in Hm.
    - injection Hm as <- <-. split; [lia|reflexivity].
    - apply IH in Hm. destruct Hm as [-> Hm]. split; [lia|assumption]. }
  apply G in H. destruct H as [-> H]. cbn. split; [|assumption]. apply nth_error_Some. congruence.
Qed.

Lemma enum_in : forall sp s, In s sp -> exists i, In (i, s) (enum sp).
Proof.
  intros sp s H. unfold enum. generalize 0. induction sp as [|x r IH]; intros k; [destruct H|]. cbn.
  destruct H as [->|H]; [exists k; left; reflexivity|]. destruct (IH H (S k)) as [i Hi]. exists i. right. assumption.
Qed.

Lemma enum_inj : forall sp i j s, NoDup sp -> In (i, s) (enum sp) -> In (j, s) (enum sp) -> i = j.
Proof.
  intros sp i j s N H1 H2. apply enum_fst in H1. apply enum_fst in H2. destruct H1 as [L1 E1], H2 as [L2 E2].
  eapply NoDup_nth_error; [eassumption|assumption|congruence].
Qed.

Lemma enum_sorted : forall sp, StronglySorted (fun a b => fst a < fst b) (enum sp).
Proof.
  intros sp. unfold enum. generalize 0. induction sp as [|x r IH]; intros k; cbn; constructor; [apply IH|].
  apply Forall_forall. intros [i s] H. apply in_combine_l in H. apply in_seq in H. cbn. lia.
Qed.

(** The order of the double loop. *)
Lemma sorted_app : forall X (R : X -> X -> Prop) l m, StronglySorted R l -> StronglySorted R m ->
  (forall x y, In x l -> In y m -> R x y) -> StronglySorted R (l ++ m).
Proof.
  intros X R l m Hl Hm H. induction Hl as [|a l Hl IH Ha]; [assumption|]. cbn. constructor.
  - apply IH. intros; apply H; [right|]; assumption.
  - apply Forall_app. split; [assumption|]. apply Forall_forall. intros; apply H; [left; reflexivity|assumption].
Qed.

Lemma sorted_cut : forall X (R : X -> X -> Prop) l x m y, StronglySorted R (l ++ x :: m) -> In y m -> R x y.
Proof.
  intros X R l x m y H Hy. induction l as [|a l IH]; cbn in H; inversion H; subst; auto.
  rewrite Forall_forall in *. auto.
Qed.

Definition lex (p q : (nat * string) * (nat * string)) : Prop :=
  fst (fst p) < fst (fst q) \/ fst (fst p) = fst (fst q) /\ fst (snd p) < fst (snd q).

Lemma prod_sorted : forall l m, StronglySorted (fun a b : nat * string => fst a < fst b) l ->
  StronglySorted (fun a b : nat * string => fst a < fst b) m -> StronglySorted lex (list_prod l m).
Proof.
  intros l m Hl Hm. induction Hl as [|a l Hl IH Ha]; cbn [list_prod]; [constructor|].
  apply sorted_app; [|assumption|].
  - clear IH. induction Hm as [|b m Hm IH Hb]; cbn; constructor; [assumption|].
    apply Forall_map. eapply Forall_impl; [|exact Hb]. cbn. intros; right; auto.
  - intros p [u v] Hp Huv. apply in_map_iff in Hp. destruct Hp as [b [<- _]].
    apply in_prod_iff in Huv. destruct Huv as [Hu _]. rewrite Forall_forall in Ha. left. cbn. apply Ha. assumption.
Qed.

Lemma loop_order : forall sp pre x y post,
  list_prod (enum sp) (enum sp) = pre ++ (x, y) :: post -> fst y < fst x -> In (y, x) pre.
Proof.
  intros sp pre x y post E H.
  pose proof (prod_sorted _ _ (enum_sorted sp) (enum_sorted sp)) as S2. rewrite E in S2.
  assert (I : In (x, y) (list_prod (enum sp) (enum sp))) by (rewrite E; apply in_app_iff; right; left; reflexivity).
  apply in_prod_iff in I. destruct I as [Hx Hy].
  assert (J : In (y, x) (list_prod (enum sp) (enum sp))) by (apply in_prod; assumption).
  rewrite E in J. apply in_app_iff in J. destruct J as [J|[J|J]]; [assumption| |].
  - assert (x = y) by congruence. subst. lia.
  - apply (sorted_cut _ _ _ _ _ _ S2) in J. unfold lex in J. cbn in J. lia.
Qed.

Lemma foldM_app : forall S X (f : S -> X -> res S) l m s,
  foldM f s (l ++ m) = (s' <- foldM f s l ;; foldM f s' m).
Proof.
  intros S X f l m. induction l as [|x l IH]; intros s; [reflexivity|]. cbn [foldM app].
  destruct (f s x); [apply IH|reflexivity].
Qed.

Section Run.
Variable Res : Type.
Variable run : nat -> list string -> nat -> res Res.

(** ** One body *)
Lemma compute1_correct : forall sp, NoDup sp ->
  match partial_compute1 run sp (partial_init1 sp) with
  | Ok d => forall i s, nth_error sp i = Some s ->
      exists v, run i [s] 0 = Ok v /\ dict_get String.eqb d s = Some (mkObj i [s] 1 (Some v))
  | Err e => exists i s, nth_error sp i = Some s /\ run i [s] 0 = Err e
  end.
Proof.
  intros sp N.
  assert (I0 : forall i s, In (i, s) (enum sp) -> dict_get String.eqb (partial_init1 (Res:=Res) sp) s = Some (mkObj i [s] 0 None)).
  { intros i s H. unfold partial_init1.
    apply (fill_get _ _ _ String.eqb snd (fun x => mkObj (fst x) [snd x] 0 None) (enum sp) []) with (x := (i, s));
      [apply String.eqb_eq| |assumption].
    intros [a s1] [b s2] Ha Hb E. cbn in E. subst. f_equal. eapply enum_inj; eassumption. }
  assert (G : forall post pre, sp = pre ++ post ->
    forall d, (forall i s, In (i, s) (enum sp) ->
        if in_dec String.string_dec s pre then exists v, run i [s] 0 = Ok v /\ dict_get String.eqb d s = Some (mkObj i [s] 1 (Some v))
        else dict_get String.eqb d s = Some (mkObj i [s] 0 None)) ->
    match partial_compute1 run post d with
    | Ok d => forall i s, In (i, s) (enum sp) ->
       exists v, run i [s] 0 = Ok v /\ dict_get String.eqb d s = Some (mkObj i [s] 1 (Some v))
    | Err e => exists i s, nth_error sp i = Some s /\ run i [s] 0 = Err e
    end).
  { induction post as [|s post IH]; intros pre E d H; cbn [partial_compute1 foldM].
    - intros i s Hs. specialize (H i s Hs). destruct (in_dec _ s pre) as [_|C]; [assumption|]. exfalso. apply C.
      apply enum_fst in Hs. destruct Hs as [_ Hs]. apply nth_error_In in Hs. rewrite E, app_nil_r in Hs. assumption.
    - assert (Is : In s sp) by (rewrite E; apply in_app_iff; right; left; reflexivity).
      assert (Ns : ~ In s pre).
      { rewrite E in N. apply NoDup_remove_2 in N. intros C. apply N, in_app_iff. left. assumption. }
      destruct (enum_in _ _ Is) as [i Hi]. pose proof (H i s Hi) as Hs. destruct (in_dec _ s pre) as [C|_]; [contradiction|].
      unfold dict_at. rewrite Hs. cbn [bind]. unfold obj_compute. cbn [o_seed o_filters o_runs].
      destruct (run i [s] 0) as [v|e] eqn:Er; cbn [bind].
      2:{ exists i, s. split; [|assumption]. apply enum_fst in Hi. tauto. }
      apply (IH (pre ++ [s])); [rewrite <- app_assoc; exact E|].
      intros j t Ht. destruct (String.string_dec t s) as [->|D].
      + assert (j = i) as -> by (eapply enum_inj; eassumption).
        destruct (in_dec _ s (pre ++ [s])) as [_|C]; [|exfalso; apply C, in_app_iff; right; left; reflexivity].
        exists v. split; [assumption|]. apply set_same1.
      + rewrite set_other1 by congruence. specialize (H j t Ht).
        destruct (in_dec _ t pre) as [P|P]; destruct (in_dec _ t (pre ++ [s])) as [Q|Q]; try assumption.
        * exfalso. apply Q, in_app_iff. left. assumption.
        * exfalso. apply in_app_iff in Q. destruct Q as [Q|[Q|[]]]; [contradiction|congruence]. }
  specialize (G sp [] eq_refl (partial_init1 sp)).
  destruct (partial_compute1 run sp (partial_init1 sp)) as [d|e].
  - intros i s Hs. apply G.
    + intros j t Ht. cbn [in_dec]. destruct (in_dec _ t []) as [[]|_]. apply I0. assumption.
    + assert (Is : In s sp) by (eapply nth_error_In; eassumption). destruct (enum_in _ _ Is) as [j Hj].
      replace i with j; [assumption|]. apply enum_fst in Hj. destruct Hj as [L Hj].
      eapply NoDup_nth_error; [eassumption|assumption|congruence].
  - apply G. intros j t Ht. destruct (in_dec _ t []) as [[]|_]. apply I0. assumption.
Qed.

(** ** Two bodies *)
Notation key p := (snd (fst p), snd (snd p)) (only parsing).

Definition fresh (n : nat) (p : (nat * string) * (nat * string)) : obj Res :=
  mkObj (fst (fst p) * n + fst (snd p)) (pair_filters (snd (fst p)) (snd (snd p))) 0 None.

Definition done (sym : bool) (n : nat) (p : (nat * string) * (nat * string)) (o : obj Res) : Prop :=
  let swap := negb ((fst (fst p) <=? fst (snd p)) || negb sym) in
  let q := if swap then (snd p, fst p) else p in
  o_filters o = pair_filters (snd (fst p)) (snd (snd p)) /\ o_seed o = fst (fst p) * n + fst (snd p) /\
  o_runs o = (if swap then 0 else 1) /\
  exists v, o_result o = Some v /\
    run (fst (fst q) * n + fst (snd q)) (pair_filters (snd (fst q)) (snd (snd q))) 0 = Ok v.

Lemma key_inj : forall sp p q, NoDup sp -> In p (list_prod (enum sp) (enum sp)) -> In q (list_prod (enum sp) (enum sp)) ->
  key p = key q -> p = q.
Proof.
  intros sp [[i a] [j b]] [[i' a'] [j' b']] N Hp Hq E. cbn in E. injection E as -> ->.
  apply in_prod_iff in Hp. apply in_prod_iff in Hq. destruct Hp as [P1 P2], Hq as [Q1 Q2].
  rewrite (enum_inj _ _ _ _ N P1 Q1), (enum_inj _ _ _ _ N P2 Q2). reflexivity.
Qed.

Lemma idx_dec : forall p q : (nat * string) * (nat * string), {p = q} + {p <> q}.
Proof. repeat decide equality. Qed.

Lemma compute2_correct : forall sym sp, NoDup sp ->
  match partial_compute2 run sym sp (partial_init2 sp) with
  | Ok d => forall p, In p (list_prod (enum sp) (enum sp)) -> exists o, dict_get pair_eqb d (key p) = Some o /\ done sym (length sp) p o
  | Err e => exists p, In p (list_prod (enum sp) (enum sp)) /\
      run (o_seed (fresh (length sp) p)) (o_filters (fresh (length sp) p)) 0 = Err e
  end.
Proof.
  intros sym sp N. set (L := list_prod (enum sp) (enum sp)).
  assert (I0 : forall p, In p L -> dict_get pair_eqb (partial_init2 sp) (key p) = Some (fresh (length sp) p)).
  { intros p Hp. unfold partial_init2. fold L.
    replace (fold_left _ L []) with (fold_left (fun d p => dict_set pair_eqb d (key p) (fresh (length sp) p)) L []).
    - apply (fill_get _ _ _ pair_eqb (fun p => key p) (fresh (length sp)) L []); [apply pair_eqb_spec| |assumption].
      intros x y Hx Hy E. eapply key_inj; eassumption.
    - assert (Q : forall l d, fold_left (fun d p => dict_set pair_eqb d (key p) (fresh (length sp) p)) l d =
         fold_left (fun d0 '(i, isp, (j, jsp)) => dict_set pair_eqb d0 (isp, jsp) (mkObj (i * length sp + j) (pair_filters isp jsp) 0 None)) l d).
      { induction l as [|[[i a] [j b]] l IH]; intros d; [reflexivity|]. cbn [fold_left]. apply IH. }
      apply Q. }
  assert (G : forall post pre, L = pre ++ post -> forall d,
    (forall p, In p L -> if in_dec idx_dec p pre then exists o, dict_get pair_eqb d (key p) = Some o /\ done sym (length sp) p o
                         else dict_get pair_eqb d (key p) = Some (fresh (length sp) p)) ->
    match foldM (partial_step2 run sym) d post with
    | Ok d => forall p, In p L -> exists o, dict_get pair_eqb d (key p) = Some o /\ done sym (length sp) p o
    | Err e => exists p, In p L /\ run (o_seed (fresh (length sp) p)) (o_filters (fresh (length sp) p)) 0 = Err e
    end).
  { induction post as [|p post IH]; intros pre E d H; cbn [foldM].
    - intros p Hp. specialize (H p Hp). destruct (in_dec idx_dec p pre) as [_|C]; [assumption|].
      exfalso. apply C. rewrite E, app_nil_r in Hp. assumption.
    - assert (Ip : In p L) by (rewrite E; apply in_app_iff; right; left; reflexivity).
      assert (Np : ~ In p pre).
      { intros C. pose proof (prod_sorted _ _ (enum_sorted sp) (enum_sorted sp)) as S2. fold L in S2. rewrite E in S2.
        apply in_split in C. destruct C as [u [w ->]]. rewrite <- app_assoc in S2. cbn in S2.
        assert (X : lex p p) by (eapply sorted_cut; [exact S2|apply in_app_iff; right; left; reflexivity]).
        unfold lex in X. lia. }
      pose proof (H p Ip) as Hp. destruct (in_dec idx_dec p pre) as [C|_]; [contradiction|].
      assert (Step : forall o', done sym (length sp) p o' ->
        forall q, In q L -> if in_dec idx_dec q (pre ++ [p]) then exists o, dict_get pair_eqb (dict_set pair_eqb d (key p) o') (key q) = Some o /\ done sym (length sp) q o
                            else dict_get pair_eqb (dict_set pair_eqb d (key p) o') (key q) = Some (fresh (length sp) q)).
      { intros o' Ho q Hq. destruct (idx_dec q p) as [->|D].
        - destruct (in_dec idx_dec p (pre ++ [p])) as [_|C]; [|exfalso; apply C, in_app_iff; right; left; reflexivity].
          exists o'. split; [apply set_same2|assumption].
        - rewrite set_other2.
          + specialize (H q Hq). destruct (in_dec idx_dec q pre) as [P|P]; destruct (in_dec idx_dec q (pre ++ [p])) as [Q|Q]; try assumption.
            * exfalso. apply Q, in_app_iff. left. assumption.
            * exfalso. apply in_app_iff in Q. destruct Q as [Q|[Q|[]]]; [contradiction|congruence].
          + intros C. apply D. symmetry. eapply key_inj; eassumption. }
      destruct p as [[i a] [j b]]. unfold partial_step2 at 1. cbn [fst snd] in *.
      unfold dict_at. rewrite Hp. cbn [bind].
      destruct ((i <=? j) || negb sym) eqn:Eo; cbn [bind].
      + unfold obj_compute. cbn [fresh o_seed o_filters o_runs fst snd].
        destruct (run (i * length sp + j) (pair_filters a b) 0) as [v|e] eqn:Er; cbn [bind].
        2:{ exists ((i, a), (j, b)). split; [assumption|exact Er]. }
        apply (IH (pre ++ [((i, a), (j, b))])); [rewrite <- app_assoc; exact E|].
        apply Step. unfold done. cbn [fst snd o_filters o_seed o_runs o_result]. rewrite Eo. cbn [negb].
        repeat split. exists v. split; [reflexivity|assumption].
      + apply orb_false_iff in Eo. destruct Eo as [El Es]. apply Nat.leb_gt in El.
        assert (Iq : In ((j, b), (i, a)) pre) by (eapply loop_order; [exact E|assumption]).
        assert (Lq : In ((j, b), (i, a)) L) by (rewrite E; apply in_app_iff; left; assumption).
        pose proof (H _ Lq) as Hq. cbn [fst snd] in Hq. destruct (in_dec idx_dec ((j, b), (i, a)) pre) as [_|C]; [|contradiction].
        destruct Hq as [o [Eq Dq]]. rewrite Eq. cbn [bind].
        apply (IH (pre ++ [((i, a), (j, b))])); [rewrite <- app_assoc; exact E|].
        apply Step. unfold done in *. cbn [fst snd o_filters o_seed o_runs o_result obj_set fresh] in *.
        assert (E1 : (i <=? j) = false) by (apply Nat.leb_gt; assumption).
        assert (E2 : (j <=? i) = true) by (apply Nat.leb_le; lia).
        rewrite E1, Es in *. rewrite E2 in Dq. cbn [orb negb fst snd] in *.
        destruct Dq as [_ [_ [_ [v [Rv Ev]]]]]. repeat split. exists v. split; assumption. }
  specialize (G L [] eq_refl (partial_init2 sp)). unfold partial_compute2. fold L.
  apply G. intros p Hp. destruct (in_dec idx_dec p []) as [[]|_]. apply I0. assumption.
Qed.
End Run.
