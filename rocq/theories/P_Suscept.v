(** The dictionary of the values found at each time (susceptibility.py:36-46), for keys of any type compared through
    their real values. *)
From Coq Require Import List ZArith Bool Arith Lia Reals Lra Permutation Sorting.Sorted.
From Verif Require Import PyBase PyBaseFacts Num M_Helpers M_Analysis.
Import ListNotations.
Local Open Scope nat_scope.

Section Keys.
Context {K V W : Type}.
Variable eqk : K -> K -> bool.
Variable le : K -> K -> bool.
Variable val : K -> R.
Variable D : K -> Prop.
Hypothesis Heq : forall x y, D x -> D y -> (eqk x y = true <-> x = y).
Hypothesis Hle : forall x y, D x -> D y -> (le x y = true <-> (val x <= val y)%R).
Hypothesis Hval : forall x y, D x -> D y -> val x = val y -> x = y.
Variable f : V -> W.

Definition found (x : K) (ps : list (K * V)) : list V := map snd (filter (fun p => eqk (fst p) x) ps).

Definition db_ok (ps : list (K * V)) (db : list (K * list W)) : Prop :=
  NoDup (map fst db) /\ Forall D (map fst db) /\
  (forall x l, In (x, l) db -> l = map f (found x ps) /\ found x ps <> []) /\
  (forall x, D x -> found x ps <> [] -> In x (map fst db)).

Lemma found_app : forall x ps qs, found x (ps ++ qs) = found x ps ++ found x qs.
Proof. intros. unfold found. rewrite filter_app, map_app. reflexivity. Qed.

Lemma eqk_refl : forall x, D x -> eqk x x = true.
Proof. intros x H. apply (proj2 (Heq x x H H)). reflexivity. Qed.
Lemma eqk_neq : forall x y, D x -> D y -> x <> y -> eqk x y = false.
Proof. intros x y Hx Hy N. destruct (eqk x y) eqn:E; [|reflexivity]. apply (proj1 (Heq x y Hx Hy)) in E. contradiction. Qed.

Lemma db_add_keys : forall db x (y : W), Forall D (map fst db) -> D x ->
  (In x (map fst db) /\ map fst (db_add eqk db x y) = map fst db) \/ (~ In x (map fst db) /\ map fst (db_add eqk db x y) = map fst db ++ [x]).
Proof.
  induction db as [|[x' l] db IH]; intros x y F Dx; cbn [db_add map fst].
  - right. split; [intros []|reflexivity].
  - cbn [map fst] in F. inversion F as [|? ? D' F']; subst. destruct (eqk x' x) eqn:E.
    + apply (proj1 (Heq _ _ D' Dx)) in E. subst x'. left. split; [left; reflexivity|reflexivity].
    + assert (N : x' <> x) by (intros ->; rewrite (eqk_refl x Dx) in E; discriminate).
      cbn [map fst]. destruct (IH x y F' Dx) as [[I E2]|[I E2]]; rewrite E2.
      * left. split; [right; exact I|reflexivity].
      * right. split; [intros [J|J]; contradiction|reflexivity].
Qed.

Lemma db_add_in : forall db x (y : W) x' l, Forall D (map fst db) -> D x -> NoDup (map fst db) -> In (x', l) (db_add eqk db x y) ->
  (x' <> x /\ In (x', l) db) \/ (x' = x /\ exists l0, l = l0 ++ [y] /\ (In (x, l0) db \/ (~ In x (map fst db) /\ l0 = []))).
Proof.
  induction db as [|[x0 l0] db IH]; intros x y x' l F Dx ND H; cbn [db_add] in H.
  - destruct H as [E|[]]. injection E as <- <-. right. split; [reflexivity|]. exists []. split; [reflexivity|]. right. split; [intros []|reflexivity].
  - cbn [map fst] in ND, F. inversion ND as [|? ? Nx ND']; subst. inversion F as [|? ? D0 F']; subst. destruct (eqk x0 x) eqn:Ek.
    + apply (proj1 (Heq _ _ D0 Dx)) in Ek. subst x0. destruct H as [E|H].
      * injection E as <- <-. right. split; [reflexivity|]. exists l0. split; [reflexivity|]. left. left. reflexivity.
      * left. split; [|right; assumption]. intros ->. apply Nx. change x with (fst (x, l)). apply in_map. assumption.
    + assert (Ne : x0 <> x) by (intros ->; rewrite (eqk_refl x Dx) in Ek; discriminate). destruct H as [E|H].
      * injection E as <- <-. left. split; [assumption|left; reflexivity].
      * destruct (IH x y x' l F' Dx ND' H) as [[A B]|[A [l1 [B [C|[C E]]]]]].
        -- left. split; [assumption|right; assumption].
        -- right. split; [assumption|]. exists l1. split; [assumption|]. left. right. assumption.
        -- right. split; [assumption|]. exists l1. split; [assumption|]. right. split; [|assumption]. intros [J|J]; contradiction.
Qed.

Lemma db_add_ok : forall ps db a b, D a -> db_ok ps db -> db_ok (ps ++ [(a, b)]) (db_add eqk db a (f b)).
Proof.
  intros ps db a b Da [ND [F [H1 H2]]].
  assert (S1 : forall x, D x -> found x [(a, b)] = if eqk a x then [b] else []) by (intros x _; unfold found; cbn [filter fst]; destruct (eqk a x); reflexivity).
  assert (F' : Forall D (map fst (db_add eqk db a (f b)))).
  { destruct (db_add_keys db a (f b) F Da) as [[_ ->]|[_ ->]]; [exact F|]. apply Forall_app. split; [exact F|constructor; [exact Da|constructor]]. }
  split; [|split; [exact F'|split]].
  - destruct (db_add_keys db a (f b) F Da) as [[_ ->]|[I ->]]; [assumption|]. apply (Permutation_NoDup (Permutation_cons_append _ _)). constructor; assumption.
  - intros x l Hin. assert (Dx : D x) by (rewrite Forall_forall in F'; apply F'; change x with (fst (x, l)); apply in_map; exact Hin).
    rewrite found_app, (S1 x Dx), map_app. apply db_add_in in Hin; [|assumption|assumption|assumption].
    destruct Hin as [[Ne Hin]|[-> [l0 [-> [Hin|[Nin ->]]]]]].
    + rewrite (eqk_neq a x Da Dx) by congruence. cbn [map]. rewrite !app_nil_r. apply H1. assumption.
    + rewrite (eqk_refl a Da). destruct (H1 a l0 Hin) as [-> _]. split; [reflexivity|]. destruct (found a ps); discriminate.
    + rewrite (eqk_refl a Da). assert (S0 : found a ps = []).
      { destruct (found a ps) eqn:E; [reflexivity|]. exfalso. apply Nin, (H2 a Da). rewrite E. discriminate. }
      rewrite S0. split; [reflexivity|discriminate].
  - intros x Dx Hx. rewrite found_app, (S1 x Dx) in Hx. destruct (eqk a x) eqn:E.
    + apply (proj1 (Heq _ _ Da Dx)) in E. subst x. destruct (db_add_keys db a (f b) F Da) as [[I ->]|[_ ->]]; [exact I|apply in_or_app; right; left; reflexivity].
    + rewrite app_nil_r in Hx. apply (H2 x Dx) in Hx. destruct (db_add_keys db a (f b) F Da) as [[_ ->]|[_ ->]]; [exact Hx|apply in_or_app; left; exact Hx].
Qed.

Lemma db_fold_ok : forall qs ps db, Forall D (map fst qs) -> db_ok ps db ->
  db_ok (ps ++ qs) (fold_left (fun db p => db_add eqk db (fst p) (f (snd p))) qs db).
Proof.
  induction qs as [|[a b] qs IH]; intros ps db F H; cbn [fold_left].
  - rewrite app_nil_r. assumption.
  - cbn [map fst] in F. inversion F; subst. replace (ps ++ (a, b) :: qs) with ((ps ++ [(a, b)]) ++ qs) by (rewrite <- app_assoc; reflexivity). apply IH; [assumption|]. apply db_add_ok; assumption.
Qed.

Lemma db_all_ok : forall (xys : list (list K * list V)) ps db, (forall xy, In xy xys -> Forall D (fst xy)) -> db_ok ps db ->
  db_ok (ps ++ flat_map (fun xy => combine (fst xy) (snd xy)) xys) (fold_left (fun db xy => fold_left (fun db p => db_add eqk db (fst p) (f (snd p))) (combine (fst xy) (snd xy)) db) xys db).
Proof.
  induction xys as [|xy xys IH]; intros ps db F H; cbn [fold_left flat_map].
  - rewrite app_nil_r. assumption.
  - rewrite app_assoc. apply IH; [intros q Hq; apply F; right; exact Hq|]. apply db_fold_ok; [|assumption].
    pose proof (F xy (or_introl eq_refl)) as Fx. rewrite Forall_forall in *. intros x Hx. apply Fx. apply in_map_iff in Hx. destruct Hx as [[x' y'] [<- Hx]]. apply in_combine_l in Hx. exact Hx.
Qed.

Lemma insert_key_perm : forall (p : K * list W) l, Permutation (p :: l) (insert_key le p l).
Proof.
  intros p l. induction l as [|q l IH]; [reflexivity|]. cbn [insert_key]. destruct (le (fst p) (fst q)); [reflexivity|].
  rewrite perm_swap, IH. reflexivity.
Qed.
Lemma sort_keys_perm : forall db : list (K * list W), Permutation db (sort_keys le db).
Proof. induction db as [|p db IH]; [reflexivity|]. cbn. rewrite <- insert_key_perm, <- IH. reflexivity. Qed.
Lemma insert_key_sorted : forall (p : K * list W) l, D (fst p) -> Forall D (map fst l) -> StronglySorted (fun a b => (val a <= val b)%R) (map fst l) ->
  StronglySorted (fun a b => (val a <= val b)%R) (map fst (insert_key le p l)).
Proof.
  intros p l Dp. induction l as [|q l IH]; intros F H; cbn [insert_key map].
  - constructor; constructor.
  - cbn [map] in H, F. inversion H as [|? ? Hs Hf]; subst. inversion F as [|? ? Dq F']; subst. destruct (le (fst p) (fst q)) eqn:E; cbn [map].
    + apply (proj1 (Hle _ _ Dp Dq)) in E. constructor; [assumption|]. constructor; [assumption|]. eapply Forall_impl; [|exact Hf]. cbn. intros a Ha. lra.
    + assert (L : (val (fst q) <= val (fst p))%R) by (destruct (Rle_lt_dec (val (fst q)) (val (fst p))) as [C|C]; [exact C|]; assert (X : le (fst p) (fst q) = true) by (apply (proj2 (Hle _ _ Dp Dq)); lra); congruence).
      constructor; [apply IH; assumption|].
      assert (P : Permutation (fst p :: map fst l) (map fst (insert_key le p l))) by (change (fst p :: map fst l) with (map fst (p :: l)); apply Permutation_map, insert_key_perm).
      apply (Permutation_Forall P). constructor; assumption.
Qed.
Lemma sort_keys_sorted : forall db : list (K * list W), Forall D (map fst db) -> StronglySorted (fun a b => (val a <= val b)%R) (map fst (sort_keys le db)).
Proof.
  induction db as [|p db IH]; intros F; [constructor|]. cbn [map] in F. inversion F; subst. cbn [sort_keys fold_right]. apply insert_key_sorted; [assumption| |apply IH; assumption].
  apply (Permutation_Forall (Permutation_map fst (sort_keys_perm db))). assumption.
Qed.
Lemma strictly_sorted : forall l, Forall D l -> StronglySorted (fun a b => (val a <= val b)%R) l -> NoDup l -> StronglySorted (fun a b => (val a < val b)%R) l.
Proof.
  induction l as [|x l IH]; intros F H ND; [constructor|]. inversion H as [|? ? Hs Hf]; subst. inversion ND as [|? ? Nx ND']; subst. inversion F as [|? ? Dx F']; subst.
  constructor; [apply IH; assumption|]. rewrite Forall_forall in *. intros y Hy. specialize (Hf y Hy).
  destruct (Req_EM_T (val x) (val y)) as [E|]; [|lra]. apply Hval in E; [subst; contradiction|assumption|apply F'; exact Hy].
Qed.

(** The whole table *)
Lemma table_spec : forall (xys : list (list K * list V)), (forall xy, In xy xys -> Forall D (fst xy)) ->
  let ps := flat_map (fun xy => combine (fst xy) (snd xy)) xys in
  let s := sort_keys le (fold_left (fun db xy => fold_left (fun db p => db_add eqk db (fst p) (f (snd p))) (combine (fst xy) (snd xy)) db) xys []) in
  StronglySorted (fun a b => (val a < val b)%R) (map fst s) /\ Forall D (map fst s) /\
  (forall x, D x -> (In x (map fst s) <-> found x ps <> [])) /\ (forall x l, In (x, l) s -> l = map f (found x ps) /\ found x ps <> []).
Proof.
  intros xys F ps s. set (db := fold_left _ xys []) in s. assert (DB : db_ok ps db).
  { change ps with ([] ++ ps). unfold db, ps. apply db_all_ok; [exact F|]. split; [constructor|]. split; [constructor|]. split; [intros x l []|]. intros x _ X. exfalso. apply X. reflexivity. }
  destruct DB as [ND [FD [D1 D2]]]. pose proof (sort_keys_perm db) as P. fold s in P. pose proof (Permutation_map fst P) as PK.
  assert (Fs : Forall D (map fst s)) by (apply (Permutation_Forall PK); exact FD).
  split; [apply strictly_sorted; [exact Fs|apply sort_keys_sorted; exact FD|apply (Permutation_NoDup PK); exact ND]|]. split; [exact Fs|]. split.
  - intros x Dx. split.
    + intros Hx. apply (Permutation_in _ (Permutation_sym PK)) in Hx. apply in_map_iff in Hx. destruct Hx as [[x' l] [E Hin]]. cbn [fst] in E. subst x'. apply (D1 x l Hin).
    + intros Hx. apply (Permutation_in _ PK). apply D2; assumption.
  - intros x l Hin. apply (Permutation_in _ (Permutation_sym P)) in Hin. apply (D1 x l Hin).
Qed.
End Keys.

(** The origins *)
Lemma suscept_origins_spec : forall (A : arith) nsteps skip frac origins, suscept_origins A nsteps skip frac = Ok origins ->
  exists n, pyint A (nmul A (nofnat A nsteps) frac) = Ok n /\ 0 < skip /\
  (forall i, In i origins <-> (exists j, i = Z.of_nat (j * skip)) /\ (i < n - Z.of_nat skip)%Z) /\ NoDup origins.
Proof.
  intros A nsteps skip frac origins E3. unfold suscept_origins in E3. apply bind_Ok_inv in E3. destruct E3 as [n [En E3]]. exists n. split; [exact En|].
  destruct (Nat.eqb_spec skip 0) as [|Hs]; [discriminate|]. apply Ok_inj in E3. split; [lia|]. split.
  - intros i. rewrite <- E3, filter_In, in_map_iff. split.
    + intros [[j [<- Hj]] L]. apply Z.ltb_lt in L. split; [exists j; reflexivity|assumption].
    + intros [[j ->] L]. split; [|apply Z.ltb_lt; assumption]. exists j. split; [reflexivity|]. apply in_seq. nia.
  - rewrite <- E3. apply NoDup_filter. apply FinFun.Injective_map_NoDup; [|apply seq_NoDup]. intros a b Hab. nia.
Qed.
