(** Proofs about the decorator Filter. *)
From Coq Require Import Ascii String List Bool Arith Lia.
From Verif Require Import PyBase PyBaseFacts M_Filter Spec_FilterText.
Import ListNotations.

Lemma chars_app : forall a b, chars (a ++ b)%string = chars a ++ chars b.
Proof. induction a as [|c a IH]; intros b; [reflexivity|]. cbn. rewrite <- IH. reflexivity. Qed.

Lemma replace_from_without : forall y old new s k,
  without y s -> without y new -> without y (replace_from old new s k).
Proof.
  intros y old new. induction s as [|c s IH]; intros k Hs Hn; [exact Hs|].
  assert (without y s) as Hs' by (intros H; apply Hs; right; exact H).
  cbn [replace_from]. destruct k as [|k]; [|apply IH; assumption].
  destruct (prefix old (String c s)).
  - intros H. rewrite chars_app, in_app_iff in H. destruct H as [H|H]; [exact (Hn H)|].
    revert H. apply IH; assumption.
  - intros [->|H]; [apply Hs; left; reflexivity|]. revert H. apply IH; assumption.
Qed.

Lemma replace_without : forall y s old new, without y s -> without y new -> without y (replace s old new).
Proof. intros. apply replace_from_without; assumption. Qed.

Lemma replace_char_without : forall x new s, without x new -> without x (replace s (String x ""%string) new).
Proof.
  intros x new s Hn. unfold replace. cbn [String.length Nat.sub].
  induction s as [|c s IH]; [intros []|]. cbn [replace_from prefix].
  destruct (ascii_dec x c) as [->|Hc].
  - assert (prefix "" s = true) as -> by (destruct s; reflexivity). cbn [String.length Nat.sub].
    intros H; rewrite chars_app, in_app_iff in H; (destruct H as [H|H]; [exact (Hn H)|exact (IH H)]).
  - intros [->|H]; [congruence|exact (IH H)].
Qed.

Lemma tag_clean : forall c ch, In ch [" "%char; """"%char; "'"%char; ","%char] -> without ch (tag_of c).
Proof.
  intros c ch H. unfold tag_of.
  assert (forall s, (forall x, In x (chars s) -> x <> ch) -> without ch s) as W by (intros s Hs Hx; exact (Hs ch Hx eq_refl)).
  cbn [In] in H. destruct H as [<-|[<-|[<-|[<-|[]]]]];
    repeat (first [apply replace_char_without; apply W; cbn; intuition (subst; discriminate)
                  |apply replace_without; [|apply W; cbn; intuition (subst; discriminate)]]).
Qed.

Lemma split_comma_none : forall s, without ","%char s -> split_comma s = [s].
Proof.
  induction s as [|c s IH]; intros H; [reflexivity|]. cbn [split_comma].
  destruct (Ascii.eqb_spec c ","); [exfalso; apply H; left; exact e|].
  rewrite IH; [reflexivity|]. intros K. apply H. right. exact K.
Qed.

Lemma split_comma_app : forall a b, without ","%char a ->
  split_comma (a ++ String "," b)%string = a :: split_comma b.
Proof.
  induction a as [|c a IH]; intros b H; [reflexivity|]. cbn [append split_comma].
  destruct (Ascii.eqb_spec c ","); [exfalso; apply H; left; exact e|].
  rewrite IH; [reflexivity|]. intros K. apply H. right. exact K.
Qed.

Lemma split_comma_nonempty : forall s, split_comma s <> [].
Proof.
  induction s as [|c s IH]; [discriminate|]. cbn [split_comma]. destruct (Ascii.eqb c ","); [discriminate|].
  destruct (split_comma s); discriminate.
Qed.

Lemma filter_eval_spec : forall P (eval : string -> P -> res bool) c t ps,
  decides eval c t ps -> filter_eval eval c ps = Ok (List.filter t ps).
Proof.
  intros P eval c t. induction ps as [|p ps IH]; intros H; [reflexivity|]. cbn [filter_eval List.filter].
  rewrite (H p (or_introl eq_refl)). cbn [bind]. rewrite IH by (intros q Hq; apply H; right; exact Hq).
  cbn [bind]. destruct (t p); reflexivity.
Qed.

Lemma filter_eval_raises : forall P (eval : string -> P -> res bool) c ps p e,
  In p ps -> eval c p = Err e -> exists e', filter_eval eval c ps = Err e'.
Proof.
  intros P eval c ps p e. induction ps as [|q ps IH]; intros Hin He; [destruct Hin|]. cbn [filter_eval].
  destruct (eval c q) as [b|e'] eqn:E; [|eexists; reflexivity]. cbn [bind].
  destruct Hin as [->|Hin]; [congruence|]. destruct (IH Hin He) as [e' ->]. eexists. reflexivity.
Qed.
