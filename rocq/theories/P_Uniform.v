(** Equally spaced frames and all time origins: the pairs of frames at a given lag. *)
From Coq Require Import List ZArith Bool Arith Lia Sorting.Sorted.
From Verif Require Import PyBase PyBaseFacts Num Spec_Correlation Spec_Time M_Helpers P_Time.
Import ListNotations.
Local Open Scope nat_scope.

(** Frames stored every [c] steps. *)
Definition every (c : Z) (steps : list Z) : Prop :=
  forall i, i < length steps -> (nth i steps 0 = nth 0 steps 0 + Z.of_nat i * c)%Z.

(** The pairs of frames [k] frames apart. *)
Definition apart (n k : nat) : list (nat * nat) := map (fun i => (i + k, i)) (seq 0 (n - k)).

Lemma every_dt : forall c steps i j, every c steps -> i < length steps -> j < length steps -> i <= j ->
  (pair_dt steps (j, i) = Z.of_nat (j - i) * c)%Z.
Proof. intros c steps i j E Hi Hj L. unfold pair_dt. cbn [fst snd]. rewrite (E i Hi), (E j Hj), Nat2Z.inj_sub by assumption. ring. Qed.

Lemma filter_all : forall X (f : X -> bool) l, (forall x, In x l -> f x = true) -> filter f l = l.
Proof. intros X f l. induction l as [|a l IH]; intros H; [reflexivity|]. cbn [filter]. rewrite (H a (or_introl eq_refl)), IH; [reflexivity|]. intros x Hx. apply H. right. exact Hx. Qed.
Lemma filter_none : forall X (f : X -> bool) l, (forall x, In x l -> f x = false) -> filter f l = [].
Proof. intros X f l. induction l as [|a l IH]; intros H; [reflexivity|]. cbn [filter]. rewrite (H a (or_introl eq_refl)), IH; [reflexivity|]. intros x Hx. apply H. right. exact Hx. Qed.
Lemma filter_flat_map : forall X Y (f : Y -> bool) (g : X -> list Y) l, filter f (flat_map g l) = flat_map (fun x => filter f (g x)) l.
Proof. intros X Y f g l. induction l as [|a l IH]; [reflexivity|]. cbn [flat_map]. rewrite filter_app, IH. reflexivity. Qed.

Lemma origins_all : forall m, origins 0 1 m = seq 0 m.
Proof. intros m. apply filter_all. intros i _. cbn [Nat.leb andb]. rewrite Nat.mod_1_r. reflexivity. Qed.

Lemma admitted_lag : forall c steps n p k, every c steps -> (0 < c)%Z -> length steps = n -> fst p = 0 ->
  pairs_at steps (Z.of_nat k * c) (map (fun i0 => (i0 + snd p, i0)) (origins (fst p) 1 (n - snd p))) = if snd p =? k then apart n k else [].
Proof.
  intros c steps n p k E C <- F. rewrite F, origins_all. unfold pairs_at.
  assert (D : forall q, In q (map (fun i0 => (i0 + snd p, i0)) (seq 0 (length steps - snd p))) -> (pair_dt steps q = Z.of_nat (snd p) * c)%Z).
  { intros q Hq. apply in_map_iff in Hq. destruct Hq as [i [<- Hi]]. apply in_seq in Hi. rewrite every_dt with (c := c) by (try assumption; lia). f_equal. lia. }
  destruct (Nat.eqb_spec (snd p) k) as [K|K].
  - subst k. apply filter_all. intros q Hq. apply Z.eqb_eq. apply D. exact Hq.
  - apply filter_none. intros q Hq. apply Z.eqb_neq. rewrite (D q Hq). intros X. apply Z.mul_reg_r in X; lia.
Qed.

Lemma the_offsets_1 : forall o, the_offsets 1 o = [0].
Proof. intros []; reflexivity. Qed.

(** Each lag of the grid contributes exactly the pairs so many frames apart. *)
Lemma every_pairs : forall c steps dg k, every c steps -> (0 < c)%Z ->
  (forall p, In p dg -> usable steps [0] p) -> StronglySorted Z.lt (map (lag_dt steps) dg) -> In (0, k) dg ->
  pairs_at steps (Z.of_nat k * c) (admitted dg 1 (length steps)) = apart (length steps) k.
Proof.
  intros c steps dg k E C U S Hk. unfold admitted, pairs_at. rewrite filter_flat_map.
  assert (Ex : forall l, (forall p, In p l -> fst p = 0) -> flat_map (fun x => filter (fun p => (pair_dt steps p =? Z.of_nat k * c)%Z)
      (map (fun i0 => (i0 + snd x, i0)) (origins (fst x) 1 (length steps - snd x)))) l
    = flat_map (fun p => if snd p =? k then apart (length steps) k else []) l).
  { intros l Hl. induction l as [|p l IH]; [reflexivity|]. cbn [flat_map]. rewrite IH by (intros; apply Hl; right; assumption). f_equal.
    apply (admitted_lag c steps (length steps) p k); try assumption; [reflexivity|]. apply Hl. left. reflexivity. }
  assert (F0 : forall p, In p dg -> fst p = 0). { intros p Hp. destruct (U p Hp) as [[<-|[]] _]. reflexivity. }
  rewrite Ex by exact F0.
  assert (Nil : forall l, (forall p, In p l -> snd p <> k) -> flat_map (fun p : nat * nat => if snd p =? k then apart (length steps) k else []) l = []).
  { intros l Hl. induction l as [|p l IH]; [reflexivity|]. cbn [flat_map]. destruct (Nat.eqb_spec (snd p) k) as [X|X]; [destruct (Hl p (or_introl eq_refl) X)|].
    apply IH. intros q Hq. apply Hl. right. exact Hq. }
  assert (Lag : forall p, In p dg -> (lag_dt steps p = Z.of_nat (snd p) * c)%Z).
  { intros p Hp. destruct (U p Hp) as [_ L]. unfold lag_dt, lag_pair. rewrite (F0 p Hp) in *. rewrite every_dt with (c := c) by (try assumption; lia). f_equal. lia. }
  clear Ex. induction dg as [|p dg IH]; [destruct Hk|]. cbn [map] in S. apply StronglySorted_inv in S. destruct S as [S A]. rewrite Forall_forall in A.
  assert (Dif : forall q, In q dg -> snd q <> snd p).
  { intros q Hq X. specialize (A (lag_dt steps q) (in_map _ _ _ Hq)). rewrite (Lag p (or_introl eq_refl)), (Lag q (or_intror Hq)), X in A. lia. }
  cbn [flat_map]. destruct Hk as [->|Hk].
  - cbn [snd] in *. rewrite Nat.eqb_refl, Nil by exact Dif. apply app_nil_r.
  - assert (snd p <> k) by (intros X; apply (Dif _ Hk); rewrite X; reflexivity). destruct (Nat.eqb_spec (snd p) k) as [X|_]; [congruence|].
    apply IH; try assumption; intros q Hq; [apply U|apply F0|apply Lag]; right; exact Hq.
Qed.

(** The time differences that occur are those of the grid. *)
Lemma every_dts : forall c steps dg dts, every c steps -> (0 < c)%Z ->
  (forall p, In p dg -> usable steps [0] p) ->
  (forall dt, In dt dts <-> exists p, In p (admitted dg 1 (length steps)) /\ pair_dt steps p = dt) ->
  forall dt, In dt dts <-> exists k, In (0, k) dg /\ dt = (Z.of_nat k * c)%Z.
Proof.
  intros c steps dg dts E C U H dt. rewrite H. unfold admitted. split.
  - intros [q [Hq Eq]]. apply in_flat_map in Hq. destruct Hq as [[o k] [Hp Hq]]. destruct (U _ Hp) as [[Ho|[]] L]. cbn [fst snd] in *. subst o.
    exists k. split; [exact Hp|]. rewrite origins_all in Hq. apply in_map_iff in Hq. destruct Hq as [i [<- Hi]]. apply in_seq in Hi.
    rewrite <- Eq, every_dt with (c := c) by (try assumption; lia). f_equal. lia.
  - intros [k [Hp ->]]. destruct (U _ Hp) as [_ L]. cbn [fst snd] in L. exists (k, 0). split.
    + apply in_flat_map. exists (0, k). split; [exact Hp|]. cbn [fst snd]. rewrite origins_all. apply in_map_iff. exists 0. split; [reflexivity|]. apply in_seq. lia.
    + rewrite every_dt with (c := c) by (try assumption; lia). f_equal. lia.
Qed.
