(** Linked cells: geometry of subcells. *)
From Coq Require Import List ZArith Bool Arith Lia Reals Lra Permutation.
From Verif Require Import PyBase PyBaseFacts Num NumFacts Spec_Stats M_Helpers M_Dynamics M_Realspace M_LinkedCells
  Spec_Dynamics Spec_Pairs Spec_LinkedCells P_Helpers P_Dynamics P_Image P_Pairs P_Count.
Import ListNotations.
Local Open Scope Z_scope.

Definition shiftc (pns : list (bool * Z)) (c o : list Z) : list Z := map2 pbc1 pns (map2 Z.add c o).
Lemma shiftc_cons : forall pn pns a c x o, shiftc (pn :: pns) (a :: c) (x :: o) = pbc1 pn (a + x) :: shiftc pns c o.
Proof. reflexivity. Qed.

Lemma cell_eqb_spec : forall a b, reflect (a = b) (cell_eqb a b).
Proof.
  induction a as [|x a IH]; intros [|y b]; cbn; try (constructor; congruence).
  destruct (Z.eqb_spec x y); cbn; [|constructor; congruence]. destruct (IH b); constructor; congruence.
Qed.
Lemma cell_eqb_refl : forall a, cell_eqb a a = true.
Proof. intros a. destruct (cell_eqb_spec a a); congruence. Qed.

Lemma pbc1_unique : forall p n a o o', 3 <= n -> 0 <= a < n -> -1 <= o <= 1 -> -1 <= o' <= 1 ->
  pbc1 (p, n) (a + o) = pbc1 (p, n) (a + o') -> o = o'.
Proof.
  intros p n a o o' Hn Ha Ho Ho'. unfold pbc1. destruct p; [|lia].
  destruct (Z.leb_spec n (a + o)), (Z.leb_spec n (a + o')), (Z.ltb_spec (a + o) 0), (Z.ltb_spec (a + o') 0); lia.
Qed.
Lemma pbc1_sym : forall p n a b o, 3 <= n -> 0 <= a < n -> 0 <= b < n -> -1 <= o <= 1 ->
  pbc1 (p, n) (a + o) = b -> pbc1 (p, n) (b + - o) = a.
Proof.
  intros p n a b o Hn Ha Hb Ho. unfold pbc1. destruct p; [|lia].
  destruct (Z.leb_spec n (a + o)), (Z.ltb_spec (a + o) 0), (Z.leb_spec n (b + - o)), (Z.ltb_spec (b + - o) 0); lia.
Qed.
Lemma pbc1_inside : forall p n a, 0 <= a < n -> pbc1 (p, n) a = a.
Proof. intros p n a Ha. unfold pbc1. destruct p; [|reflexivity]. destruct (Z.leb_spec n a), (Z.ltb_spec a 0); lia. Qed.

Definition small (o : list Z) : Prop := Forall (fun x => -1 <= x <= 1) o.
Definition valid (pns : list (bool * Z)) : Prop := Forall (fun pn => 3 <= snd pn) pns.

Lemma cell_inside_cons : forall pn pns t c, cell_inside (pn :: pns) (t :: c) = true <->
  0 <= t < snd pn /\ cell_inside pns c = true.
Proof.
  intros pn pns t c. cbn. unfold inside1. rewrite !andb_true_iff, Z.leb_le, Z.ltb_lt. tauto.
Qed.
Lemma cell_inside_length : forall pns c, cell_inside pns c = true -> length c = length pns.
Proof.
  induction pns as [|pn pns IH]; intros [|t c]; cbn; try congruence.
  rewrite andb_true_iff. intros [_ H]. f_equal. apply IH. exact H.
Qed.

Lemma shiftc_unique : forall pns a o o', valid pns -> cell_inside pns a = true ->
  length o = length a -> length o' = length a -> small o -> small o' ->
  shiftc pns a o = shiftc pns a o' -> o = o'.
Proof.
  induction pns as [|[p n] pns IH]; intros a o o' Hv Ha Lo Lo' So So' E.
  { destruct a; [|discriminate]. destruct o; [|discriminate]. destruct o'; [reflexivity|discriminate]. }
  destruct a as [|x a]; [discriminate|]. destruct o as [|u o]; [discriminate|]. destruct o' as [|u' o']; [discriminate|].
  apply cell_inside_cons in Ha. destruct Ha as [Hx Ha]. rewrite !shiftc_cons in E.
  inversion Hv as [|? ? Hn Hv']. inversion So. inversion So'. subst. cbn [snd] in *.
  assert (pbc1 (p, n) (x + u) = pbc1 (p, n) (x + u')) as E1 by congruence.
  assert (shiftc pns a o = shiftc pns a o') as E2 by congruence.
  f_equal; [apply (pbc1_unique p n x u u'); assumption|]. apply (IH a o o'); try assumption; cbn in *; lia.
Qed.

Lemma shiftc_sym : forall pns a b o, valid pns -> cell_inside pns a = true -> cell_inside pns b = true ->
  length o = length a -> small o -> shiftc pns a o = b -> shiftc pns b (map Z.opp o) = a.
Proof.
  induction pns as [|[p n] pns IH]; intros a b o Hv Ha Hb Lo So E.
  { destruct a; [|discriminate]. reflexivity. }
  destruct a as [|x a]; [discriminate|]. destruct o as [|u o]; [discriminate|]. destruct b as [|y b]; [discriminate|].
  apply cell_inside_cons in Ha. apply cell_inside_cons in Hb. destruct Ha as [Hx Ha], Hb as [Hy Hb].
  rewrite shiftc_cons in E. inversion Hv as [|? ? Hn Hv']. inversion So. subst. cbn [snd] in *.
  injection E as E1 E2. cbn [map]. rewrite shiftc_cons. f_equal.
  - apply pbc1_sym; assumption.
  - apply IH; try assumption. cbn in *; lia.
Qed.

Lemma shiftc_zero : forall pns a, cell_inside pns a = true -> shiftc pns a (repeat 0 (length a)) = a.
Proof.
  induction pns as [|[p n] pns IH]; intros a Ha; destruct a as [|x a]; try discriminate; [reflexivity|].
  apply cell_inside_cons in Ha. destruct Ha as [Hx Ha]. cbn [length repeat]. rewrite shiftc_cons, Z.add_0_r.
  rewrite pbc1_inside by exact Hx. f_equal. apply IH. exact Ha.
Qed.

(** Adjacency of subcells. *)
Definition adjacent (pns : list (bool * Z)) (a b : list Z) : Prop :=
  exists o, length o = length a /\ small o /\ shiftc pns a o = b.

Definition fcell pns a b (o : list Z) : bool := cell_eqb (shiftc pns a o) b.

Lemma cnt_unique : forall X (f : X -> bool) l, NoDup l -> (forall x y, In x l -> In y l -> f x = true -> f y = true -> x = y) ->
  (cnt f l <= 1)%nat /\ ((exists x, In x l /\ f x = true) -> cnt f l = 1%nat) /\ ((forall x, In x l -> f x = false) -> cnt f l = 0%nat).
Proof.
  intros X f l. unfold cnt. induction l as [|a l IH]; intros Hn Hu; [split; [cbn; lia|]; split; [intros [x [[] _]]|auto]|].
  inversion Hn as [|? ? Ha Hn']. subst. destruct (IH Hn') as [H1 [H2 H3]].
  { intros x y Hx Hy. apply Hu; right; assumption. }
  cbn. destruct (f a) eqn:E.
  - assert (forall x, In x l -> f x = false) as H0.
    { intros x Hx. destruct (f x) eqn:E'; [|reflexivity]. assert (a = x) by (apply Hu; cbn; auto). subst. contradiction. }
    cbn. rewrite H3 by exact H0. split; [lia|]. split; [auto|]. intros H. rewrite (H a) in E by (left; reflexivity). discriminate.
  - split; [exact H1|]. split.
    + intros [x [[->|Hx] Hf]]; [congruence|]. apply H2. exists x. auto.
    + intros H. apply H3. intros x Hx. apply H. right. exact Hx.
Qed.

(** A list of offsets that, with zero, covers each direction once. *)
Definition covers (d : nat) (l : list (list Z)) : Prop :=
  NoDup l /\ (forall o, In o l -> length o = d /\ small o) /\ (forall o, length o = d -> small o -> In o l).

Lemma covers_count : forall d l pns a b, covers d l -> valid pns -> length pns = d ->
  cell_inside pns a = true ->
  (cnt (fcell pns a b) l <= 1)%nat /\ (adjacent pns a b <-> cnt (fcell pns a b) l = 1%nat).
Proof.
  intros d l pns a b [Hn [Hs Hc]] Hv Hd Ha. pose proof (cell_inside_length _ _ Ha) as La.
  destruct (cnt_unique _ (fcell pns a b) l Hn) as [H1 [H2 H3]].
  { intros x y Hx Hy Fx Fy. unfold fcell in *. destruct (Hs x Hx), (Hs y Hy).
    destruct (cell_eqb_spec (shiftc pns a x) b); [|discriminate]. destruct (cell_eqb_spec (shiftc pns a y) b); [|discriminate].
    apply (shiftc_unique pns a); try assumption; congruence. }
  split; [exact H1|]. split.
  - intros [o [Lo [So E]]]. apply H2. exists o. split; [apply Hc; [congruence|exact So]|]. unfold fcell. rewrite E. apply cell_eqb_refl.
  - intros E. destruct (existsb (fcell pns a b) l) eqn:X.
    + apply existsb_exists in X. destruct X as [o [Ho F]]. exists o. destruct (Hs o Ho). unfold fcell in F.
      destruct (cell_eqb_spec (shiftc pns a o) b); [|discriminate]. split; [congruence|]. split; assumption.
    + assert (cnt (fcell pns a b) l = 0%nat) as Z0; [|lia]. apply H3. intros x Hx.
      destruct (fcell pns a b x) eqn:F; [|reflexivity]. assert (existsb (fcell pns a b) l = true); [|congruence].
      apply existsb_exists. exists x. auto.
Qed.

Fixpoint all_small (d : nat) : list (list Z) :=
  match d with O => [[]] | S d => flat_map (fun x => map (cons x) (all_small d)) deltas end.
Lemma all_small_complete : forall d o, length o = d -> small o -> In o (all_small d).
Proof.
  induction d as [|d IH]; intros [|x o] Lo So; try discriminate; [left; reflexivity|].
  inversion So as [|? ? Hx So']. subst. cbn [all_small]. apply in_flat_map. exists x. split.
  - unfold deltas. assert (x = -1 \/ x = 0 \/ x = 1) as [->|[->| ->]] by lia; cbn; auto.
  - apply in_map. apply IH; [cbn in Lo; lia|exact So'].
Qed.

Definition mem (o : list Z) (l : list (list Z)) : bool := existsb (cell_eqb o) l.
Lemma mem_In : forall o l, mem o l = true <-> In o l.
Proof.
  intros o l. unfold mem. rewrite existsb_exists. split.
  - intros [x [H E]]. destruct (cell_eqb_spec o x); [subst; exact H|discriminate].
  - intros H. exists o. split; [exact H|apply cell_eqb_refl].
Qed.
Fixpoint nodupb (l : list (list Z)) : bool := match l with [] => true | a :: r => negb (mem a r) && nodupb r end.
Lemma nodupb_NoDup : forall l, nodupb l = true -> NoDup l.
Proof.
  induction l as [|a l IH]; [constructor|]. cbn. rewrite andb_true_iff. intros [H1 H2]. constructor; [|apply IH; exact H2].
  intros H. apply mem_In in H. rewrite H in H1. discriminate.
Qed.
Definition smallb (o : list Z) : bool := forallb (fun x => (-1 <=? x) && (x <=? 1)) o.
Lemma smallb_small : forall o, smallb o = true -> small o.
Proof.
  intros o H. unfold smallb in H. rewrite forallb_forall in H. apply Forall_forall. intros x Hx. specialize (H x Hx).
  apply andb_true_iff in H. destruct H as [H1 H2]. apply Z.leb_le in H1, H2. lia.
Qed.
Definition coversb (d : nat) (l : list (list Z)) : bool :=
  nodupb l && forallb (fun o => (length o =? d)%nat && smallb o) l && forallb (fun o => mem o l) (all_small d).
Lemma coversb_covers : forall d l, coversb d l = true -> covers d l.
Proof.
  intros d l H. unfold coversb in H. rewrite !andb_true_iff in H. destruct H as [[H1 H2] H3]. split; [apply nodupb_NoDup; exact H1|]. split.
  - intros o Ho. rewrite forallb_forall in H2. specialize (H2 o Ho). apply andb_true_iff in H2. destruct H2 as [H2 H4].
    split; [apply Nat.eqb_eq; exact H2|apply smallb_small; exact H4].
  - intros o Lo So. rewrite forallb_forall in H3. apply mem_In. apply H3. apply all_small_complete; assumption.
Qed.

Definition dim23 (d : nat) : Prop := d = 2%nat \/ d = 3%nat.
Lemma offsets_newton : forall d, dim23 d -> exists O, offsets d true = Ok O /\
  covers d (repeat 0 d :: O ++ map (map Z.opp) O).
Proof.
  intros d [-> | ->].
  - exists newton_2d. split; [reflexivity|]. apply coversb_covers. vm_compute. reflexivity.
  - exists newton_3d. split; [reflexivity|]. apply coversb_covers. vm_compute. reflexivity.
Qed.
Lemma offsets_full : forall d, dim23 d -> exists O, offsets d false = Ok O /\ covers d (repeat 0 d :: O).
Proof.
  intros d [-> | ->].
  - exists full_2d. split; [reflexivity|]. apply coversb_covers. vm_compute. reflexivity.
  - exists full_3d. split; [reflexivity|]. apply coversb_covers. vm_compute. reflexivity.
Qed.

Lemma fcell_zero : forall pns a b, cell_inside pns a = true -> fcell pns a b (repeat 0 (length a)) = cell_eqb a b.
Proof. intros pns a b Ha. unfold fcell. rewrite shiftc_zero by exact Ha. reflexivity. Qed.

Lemma fcell_opp : forall pns a b o, valid pns -> cell_inside pns a = true -> cell_inside pns b = true ->
  length o = length a -> small o -> fcell pns a b (map Z.opp o) = fcell pns b a o.
Proof.
  intros pns a b o Hv Ha Hb Lo So. unfold fcell.
  pose proof (cell_inside_length _ _ Ha). pose proof (cell_inside_length _ _ Hb).
  assert (map Z.opp (map Z.opp o) = o) as Eo.
  { rewrite map_map. rewrite <- (map_id o) at 2. apply map_ext. intros x. apply Z.opp_involutive. }
  assert (small (map Z.opp o)) as So'.
  { apply Forall_forall. intros x Hx. apply in_map_iff in Hx. destruct Hx as [y [<- Hy]].
    unfold small in So. rewrite Forall_forall in So. specialize (So y Hy). cbn beta in So. lia. }
  destruct (cell_eqb_spec (shiftc pns a (map Z.opp o)) b) as [E|E], (cell_eqb_spec (shiftc pns b o) a) as [E'|E']; try reflexivity; exfalso.
  - apply E'. rewrite <- Eo. apply shiftc_sym; try assumption. rewrite map_length. exact Lo.
  - apply E. apply shiftc_sym; try assumption. congruence.
Qed.

Definition b2n (b : bool) : nat := if b then 1%nat else 0%nat.
Lemma cnt_cons : forall X (P : X -> bool) a l, cnt P (a :: l) = (b2n (P a) + cnt P l)%nat.
Proof. intros X P a l. unfold cnt. cbn. destruct (P a); reflexivity. Qed.

Lemma newton_count : forall d O pns a b, dim23 d -> offsets d true = Ok O -> valid pns -> length pns = d ->
  cell_inside pns a = true -> cell_inside pns b = true ->
  let n := (b2n (cell_eqb a b) + cnt (fcell pns a b) O + cnt (fcell pns b a) O)%nat in
  (n <= 1)%nat /\ (adjacent pns a b <-> n = 1%nat).
Proof.
  intros d O pns a b Hd HO Hv Hl Ha Hb n. destruct (offsets_newton d Hd) as [O' [E Hc]]. rewrite HO in E. apply Ok_inj in E. subst O'.
  pose proof (covers_count d _ pns a b Hc Hv Hl Ha) as H.
  assert (cnt (fcell pns a b) (repeat 0 d :: O ++ map (map Z.opp) O) = n) as En; [|rewrite En in H; exact H].
  pose proof (cell_inside_length _ _ Ha) as La.
  unfold n. rewrite cnt_cons, cnt_app, cnt_map. replace d with (length a) at 1 by congruence. rewrite fcell_zero by exact Ha.
  rewrite <- Nat.add_assoc. f_equal. f_equal. apply cnt_ext. intros o Ho.
  destruct Hc as [_ [Hs _]]. destruct (Hs o) as [Lo So]; [right; apply in_or_app; left; exact Ho|].
  apply fcell_opp; try assumption. congruence.
Qed.

Lemma full_count : forall d O pns a b, dim23 d -> offsets d false = Ok O -> valid pns -> length pns = d ->
  cell_inside pns a = true ->
  let n := (b2n (cell_eqb a b) + cnt (fcell pns a b) O)%nat in
  (n <= 1)%nat /\ (adjacent pns a b <-> n = 1%nat).
Proof.
  intros d O pns a b Hd HO Hv Hl Ha n. destruct (offsets_full d Hd) as [O' [E Hc]]. rewrite HO in E. apply Ok_inj in E. subst O'.
  pose proof (covers_count d _ pns a b Hc Hv Hl Ha) as H.
  assert (cnt (fcell pns a b) (repeat 0 d :: O) = n) as En; [|rewrite En in H; exact H].
  pose proof (cell_inside_length _ _ Ha) as La.
  unfold n. rewrite cnt_cons. replace d with (length a) at 1 by congruence. rewrite fcell_zero by exact Ha. reflexivity.
Qed.

Lemma adjacent_sym : forall pns a b, valid pns -> cell_inside pns a = true -> cell_inside pns b = true ->
  adjacent pns a b -> adjacent pns b a.
Proof.
  intros pns a b Hv Ha Hb [o [Lo [So E]]]. exists (map Z.opp o). rewrite map_length.
  pose proof (cell_inside_length _ _ Ha). pose proof (cell_inside_length _ _ Hb).
  split; [congruence|]. split; [|apply shiftc_sym; assumption].
  apply Forall_forall. intros x Hx. apply in_map_iff in Hx. destruct Hx as [y [<- Hy]].
  unfold small in So. rewrite Forall_forall in So. specialize (So y Hy). cbn beta in So. lia.
Qed.
