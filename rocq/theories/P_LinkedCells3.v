(** g(r) with linked cells against g(r) without. *)
From Coq Require Import List ZArith Bool Arith Lia Reals Lra Permutation Psatz.
From Verif Require Import PyBase PyBaseFacts Num NumFacts Spec_Stats M_Helpers M_Dynamics M_Realspace M_LinkedCells
  Spec_Correlation Spec_Dynamics Spec_Pairs Spec_LinkedCells P_Helpers P_Dynamics P_Image P_Pairs P_Count P_Gr P_GrFast P_GrFast2
  P_Gr3 P_LinkedCells P_LinkedCells2.
Import ListNotations.

Definition sumf {X} (f : X -> nat) (l : list X) : nat := list_sum (map f l).
Lemma sumf_cons : forall X (f : X -> nat) a l, sumf f (a :: l) = f a + sumf f l.
Proof. reflexivity. Qed.
Lemma sumf_app : forall X (f : X -> nat) l m, sumf f (l ++ m) = sumf f l + sumf f m.
Proof. intros. unfold sumf. rewrite map_app, list_sum_app. reflexivity. Qed.
Lemma sumf_ext : forall X (f g : X -> nat) l, (forall x, In x l -> f x = g x) -> sumf f l = sumf g l.
Proof. intros X f g l H. unfold sumf. f_equal. apply map_ext_in. exact H. Qed.
Lemma sumf_map : forall X Y (f : Y -> nat) (g : X -> Y) l, sumf f (map g l) = sumf (fun x => f (g x)) l.
Proof. intros. unfold sumf. rewrite map_map. reflexivity. Qed.
Lemma sumf_perm : forall X (f : X -> nat) l m, Permutation l m -> sumf f l = sumf f m.
Proof. intros X f l m H. unfold sumf. induction H; cbn in *; try reflexivity; try (unfold list_sum in *; cbn; lia). Qed.
Lemma sumf_add : forall X (f g : X -> nat) l, sumf (fun x => f x + g x) l = sumf f l + sumf g l.
Proof. intros X f g l. induction l as [|a l IH]; [reflexivity|]. rewrite !sumf_cons, IH. lia. Qed.
Lemma sumf_zero : forall X (f : X -> nat) l, (forall x, In x l -> f x = 0) -> sumf f l = 0.
Proof. intros X f l H. rewrite (sumf_ext _ f (fun _ => 0)) by exact H. induction l; [reflexivity|]. rewrite sumf_cons. apply IHl. intros x Hx. apply H. right. exact Hx. Qed.
Lemma sumf_filter : forall X (f : X -> nat) (p : X -> bool) l, sumf f (filter p l) = sumf (fun x => b2n (p x) * f x) l.
Proof.
  intros X f p l. induction l as [|a l IH]; [reflexivity|]. cbn [filter]. rewrite (sumf_cons _ (fun x => b2n (p x) * f x)), <- IH.
  destruct (p a); [rewrite sumf_cons; cbn [b2n]; lia|cbn [b2n]; lia].
Qed.
Lemma cnt_sumf : forall X (P : X -> bool) l, cnt P l = sumf (fun x => b2n (P x)) l.
Proof. intros X P l. induction l as [|a l IH]; [reflexivity|]. rewrite cnt_cons, sumf_cons, IH. reflexivity. Qed.
Lemma sumf_prod : forall X Y (f : X * Y -> nat) l m, sumf f (list_prod l m) = sumf (fun x => sumf (fun y => f (x, y)) m) l.
Proof.
  intros X Y f l m. induction l as [|a l IH]; [reflexivity|]. cbn [list_prod]. rewrite sumf_app, sumf_cons, IH, sumf_map. reflexivity.
Qed.

Lemma sumf_one : forall (f : nat -> nat) a M, a < M -> sumf (fun j => (if Nat.eq_dec a j then 1 else 0) * f j) (seq 0 M) = f a.
Proof.
  intros f a M H. assert (forall c, sumf (fun j => (if Nat.eq_dec a j then 1 else 0) * f j) (seq c M)
    = if (c <=? a) && (a <? c + M) then f a else 0) as G.
  { clear H. induction M as [|M IH]; intros c; cbn [seq].
    - destruct (Nat.leb_spec c a), (Nat.ltb_spec a (c + 0)); try lia; reflexivity.
    - rewrite sumf_cons, IH. destruct (Nat.eq_dec a c) as [->|N].
      + destruct (Nat.leb_spec (S c) c); [lia|]. destruct (Nat.leb_spec c c); [|lia]. destruct (Nat.ltb_spec c (c + S M)); [|lia]. cbn [andb]. lia.
      + destruct (Nat.leb_spec (S c) a), (Nat.leb_spec c a), (Nat.ltb_spec a (S c + M)), (Nat.ltb_spec a (c + S M)); cbn [andb]; lia. }
  rewrite G. destruct (Nat.leb_spec 0 a); [|lia]. destruct (Nat.ltb_spec a (0 + M)); [reflexivity|lia].
Qed.

Lemma cnt_count_occ : forall (Q : nat -> bool) M l, (forall j, In j l -> j < M) ->
  cnt Q l = sumf (fun j => count_occ Nat.eq_dec l j * b2n (Q j)) (seq 0 M).
Proof.
  intros Q M l. induction l as [|a l IH]; intros H.
  - symmetry. apply sumf_zero. reflexivity.
  - rewrite cnt_cons, IH by (intros j Hj; apply H; right; exact Hj).
    rewrite <- (sumf_one (fun j => b2n (Q j)) a M) by (apply H; left; reflexivity). rewrite <- sumf_add. apply sumf_ext.
    intros j _. cbn [count_occ]. destruct (Nat.eq_dec a j); lia.
Qed.

Lemma cnt_lists : forall (P : nat * nat -> bool) ns N M, (forall i j, i < N -> In j (nth i ns []) -> j < M) ->
  cnt P (flat_map (fun i => map (fun j => (i, j)) (nth i ns [])) (seq 0 N))
  = sumf (fun p => listed ns (fst p) (snd p) * b2n (P p)) (list_prod (seq 0 N) (seq 0 M)).
Proof.
  intros P ns N M H. rewrite sumf_prod. cbn [fst snd].
  assert (forall l, (forall i, In i l -> i < N) -> cnt P (flat_map (fun i => map (fun j => (i, j)) (nth i ns [])) l)
    = sumf (fun x => sumf (fun y => listed ns x y * b2n (P (x, y))) (seq 0 M)) l) as G.
  { induction l as [|i l IH]; intros Hl; [reflexivity|]. cbn [flat_map]. rewrite cnt_app, cnt_map, sumf_cons.
    rewrite IH by (intros x Hx; apply Hl; right; exact Hx). f_equal.
    apply cnt_count_occ. intros j Hj. apply (H i); [apply Hl; left; reflexivity|exact Hj]. }
  apply G. intros i Hi. apply in_seq in Hi. lia.
Qed.

Lemma sum_sym : forall (f : nat * nat -> nat) n, (forall i, f (i, i) = 0) ->
  sumf f (list_prod (seq 0 n) (seq 0 n)) = sumf (fun p => f p + f (snd p, fst p)) (index_pairs n).
Proof.
  intros f n H0. rewrite sumf_add. unfold index_pairs. set (L := list_prod (seq 0 n) (seq 0 n)).
  assert (sumf (fun x => f (snd x, fst x)) (filter (fun p => fst p <? snd p) L) = sumf (fun p => b2n (snd p <? fst p) * f p) L) as ->.
  { rewrite sumf_filter. rewrite (sumf_perm _ (fun p => b2n (snd p <? fst p) * f p) L _ (Permutation_sym (list_prod_swap _ _ (seq 0 n) (seq 0 n)))).
    fold L. rewrite sumf_map. apply sumf_ext. intros p _. cbn [fst snd]. reflexivity. }
  rewrite sumf_filter, <- sumf_add. apply sumf_ext. intros [i j] _. cbn [fst snd].
  destruct (Nat.ltb_spec i j), (Nat.ltb_spec j i); cbn [b2n]; try lia.
  assert (i = j) by lia. subst. rewrite H0. reflexivity.
Qed.

(** Histogram of one frame. *)
Local Open Scope R_scope.
Lemma folded_inside : forall side x, folded x side -> inside x side /\ length x = length side.
Proof.
  induction side as [|L side IH]; intros [|a x] H; try contradiction; [split; [exact I|reflexivity]|].
  destruct H as [Ha H]. destruct (IH x H) as [H1 H2]. split; [split; [lra|exact H1]|cbn [length]; congruence].
Qed.

Lemma fdist_folded : forall side x y, positive side -> folded x side -> folded y side ->
  fdist Rops x y side = img_dist Rops x y side.
Proof.
  intros side x y Hp Hx Hy. destruct (folded_inside _ _ Hx), (folded_inside _ _ Hy).
  apply fdist_near; try assumption. apply inside_near; assumption.
Qed.

Lemma fdist_within : forall side x y r per, positive side -> folded x side -> folded y side ->
  (forall i, nth i per true = true) -> fdist Rops x y side < r -> image_within per side x y r.
Proof.
  intros side x y r per Hp Hx Hy Hper Hd. destruct (folded_inside _ _ Hx) as [_ Lx], (folded_inside _ _ Hy) as [_ Ly].
  rewrite fdist_folded in Hd by assumption.
  destruct (img_dist_min side x y Hp Lx Ly) as [[ks [Hk E]] _]. exists ks. split; [exact Hk|]. split.
  - intros i Hi. rewrite Hper in Hi. discriminate.
  - rewrite <- E. exact Hd.
Qed.

Lemma fdist_sym : forall side x y, positive side -> folded x side -> folded y side ->
  fdist Rops x y side = fdist Rops y x side.
Proof.
  intros side x y Hp Hx Hy. rewrite !fdist_folded by assumption.
  destruct (folded_inside _ _ Hx), (folded_inside _ _ Hy). apply img_dist_sym; assumption.
Qed.

Lemma nth_repeat_true : forall n i, nth i (repeat true n) true = true.
Proof. induction n as [|n IH]; intros [|i]; cbn; auto. Qed.

Lemma slot_true : forall dr k d, slot dr k d = true -> d < INR (k + 1) * dr.
Proof. intros dr k d H. unfold slot in H. apply andb_true_iff in H. destruct H as [_ H]. destruct (Rltb_spec d (INR (k + 1) * dr)); [assumption|discriminate]. Qed.

Lemma linked_frame_spec : forall same (rc dr : R) n side p0 p1,
  0 < dr -> 0 < rc -> dim23 (length side) -> positive side -> big rc side -> p0 <> [] ->
  (same = true -> p1 = p0) ->
  (forall x, In x p0 \/ In x p1 -> folded x side) ->
  (forall x y, folded x side -> folded y side -> fdist Rops x y side < dr * INR n) ->
  exists s h h', lc_setup Rops rc None (mkCall (A:=Rops) side p0 (if same then None else Some p1) true (Some (repeat true (length side)))) = Ok s /\
    (forall st, st = None \/ st = Some s -> linked_frame Rops same rc dr n st p0 p1 side = Ok (s, h)) /\
    (if same then gr_self_c Rops p0 side dr n else gr_distinct_c Rops p0 p1 side dr n) = Ok h' /\
    length h = n /\ length h' = n /\
    forall k, (k < n)%nat -> INR (k + 1) * dr <= rc -> nth k h 0%nat = nth k h' 0%nat.
Proof.
  intros same rc dr n side p0 p1 Hdr Hrc Hd Hp Hb Hne Hsame Hf Hfar.
  set (per := Some (repeat true (length side))).
  assert (length (flags side per) = length side) as Hper by (unfold flags, per; apply repeat_length).
  assert (forall x, In x p0 -> folded x side) as Hf0 by (intros; apply Hf; auto).
  assert (forall x, In x p1 -> folded x side) as Hf1 by (intros; apply Hf; auto).
  assert (forall i, nth i (flags side per) true = true) as Hpt by (intros; unfold flags, per; apply nth_repeat_true).
  assert (forall k s ns, lc_compute Rops rc None k = Ok (s, ns) ->
    lc_setup Rops rc None k = Ok s /\ forall st, st = None \/ st = Some s -> lc_compute Rops rc st k = Ok (s, ns)) as Hst.
  { intros k s ns H. unfold lc_compute in *. destruct (lc_setup Rops rc None k) as [s'|] eqn:E; [|discriminate]. cbn [bind] in H.
    assert (s' = s) as ->. { destruct (lc_neighbors Rops s' (k_pos k) (k_other k)); [|discriminate]. cbn [bind] in H. congruence. }
    split; [reflexivity|]. intros st [-> | ->]; [rewrite E|]; exact H. }
  destruct same.
  - specialize (Hsame eq_refl). subst p1.
    destruct (newton_list rc side per p0) as [s [ns [E [Ln [Hlt [H0 H1]]]]]]; auto.
    destruct (Hst _ _ _ E) as [Hs1 Hs2].
    destruct (gr_neighbors_c_spec p0 p0 ns side dr n Hdr) as [h [Eh [Lh Ch]]]; [exact Ln| |].
    { intros i j Hi Hj. specialize (Hlt i j Hi Hj). split; [exact Hlt|]. apply Hfar; apply Hf0, nth_In; assumption. }
    destruct (gr_self_c_spec p0 side dr n Hdr) as [h' [Eh' [Lh' Ch']]].
    exists s, h, h'. split; [exact Hs1|]. split.
    { intros st Hst'. unfold linked_frame. fold per. 
      match goal with |- context [lc_compute ?a ?b ?c ?d] => replace (lc_compute a b c d) with (Ok (s, ns)) by (symmetry; exact (Hs2 st Hst')) end.
      cbn [bind].
      assert (exists m, lc_as_array ns = Ok m) as [m Em].
      { unfold lc_as_array. destruct ns; [destruct p0; [congruence|discriminate]|eexists; reflexivity]. }
      rewrite Em. cbn [bind]. rewrite Eh. reflexivity. }
    split; [exact Eh'|]. split; [exact Lh|]. split; [exact Lh'|].
    intros k Hk Hkr. rewrite Ch, Ch' by exact Hk. rewrite (cnt_lists _ ns (length p0) (length p0)) by exact Hlt.
    assert (forall q : nat * nat, In q (list_prod (seq 0 (length p0)) (seq 0 (length p0))) -> (fst q < length p0)%nat /\ (snd q < length p0)%nat) as Hq.
    { intros [i j] Hin. apply in_prod_iff in Hin. rewrite !in_seq in Hin. cbn [fst snd]. lia. }
    set (F := fun p : nat * nat => (listed ns (fst p) (snd p) * b2n (negb (fst p =? snd p)%nat && slot dr k (fdist Rops (nth (fst p) p0 []) (nth (snd p) p0 []) side)))%nat).
    rewrite (sumf_ext _ _ F).
    2:{ intros [i j] Hin. destruct (Hq _ Hin) as [Hi Hj]. unfold F. cbn [fst snd] in *. destruct (Nat.eqb_spec i j) as [->|N]; [|reflexivity].
        rewrite H0 by exact Hj. reflexivity. }
    rewrite sum_sym.
    2:{ intros i. unfold F. cbn [fst snd]. rewrite Nat.eqb_refl. cbn [negb andb b2n]. lia. }
    unfold count_pairs. fold (@cnt (nat * nat)).
    change (length (filter ?P ?l)) with (cnt P l). rewrite cnt_sumf. apply sumf_ext. intros [i j] Hin.
    unfold index_pairs in Hin. apply filter_In in Hin. destruct Hin as [Hin Hij]. destruct (Hq _ Hin) as [Hi Hj]. cbn [fst snd] in *.
    apply Nat.ltb_lt in Hij. unfold F. cbn [fst snd].
    destruct (Nat.eqb_spec i j); [lia|]. destruct (Nat.eqb_spec j i); [lia|]. cbn [negb andb].
    rewrite (fdist_sym side (nth j p0 []) (nth i p0 [])) by (try assumption; apply Hf0, nth_In; assumption).
    change (num Rops) with R in *.
    destruct (slot dr k (fdist Rops (nth i p0 []) (nth j p0 []) side)) eqn:Sl; cbn [b2n]; [|lia].
    apply slot_true in Sl. destruct (H1 i j Hi Hj ltac:(lia)) as [_ Hone]. rewrite !Nat.mul_1_r. apply Hone.
    apply fdist_within; try assumption; try (apply Hf0, nth_In; assumption). lra.
  - destruct (distinct_list rc side per p0 Hrc Hd Hp Hb Hper Hf0 p1 true Hf1) as [s [ns [E [Ln [Hlt H1]]]]].
    destruct (Hst _ _ _ E) as [Hs1 Hs2].
    destruct (gr_neighbors_c_spec p0 p1 ns side dr n Hdr) as [h [Eh [Lh Ch]]]; [exact Ln| |].
    { intros i j Hi Hj. specialize (Hlt i j Hi Hj). split; [exact Hlt|].
      apply Hfar; [apply Hf0, nth_In; assumption|apply Hf1, nth_In; assumption]. }
    destruct (gr_distinct_c_spec p0 p1 side dr n Hdr) as [h' [Eh' [Lh' Ch']]].
    exists s, h, h'. split; [exact Hs1|]. split.
    { intros st Hst'. unfold linked_frame. fold per. 
      match goal with |- context [lc_compute ?a ?b ?c ?d] => replace (lc_compute a b c d) with (Ok (s, ns)) by (symmetry; exact (Hs2 st Hst')) end.
      cbn [bind].
      assert (exists m, lc_as_array ns = Ok m) as [m Em].
      { unfold lc_as_array. destruct ns; [destruct p0; [congruence|discriminate]|eexists; reflexivity]. }
      rewrite Em. cbn [bind]. rewrite Eh. reflexivity. }
    split; [exact Eh'|]. split; [exact Lh|]. split; [exact Lh'|].
    intros k Hk Hkr. rewrite Ch, Ch' by exact Hk. rewrite (cnt_lists _ ns (length p0) (length p1)) by exact Hlt.
    assert (count_prod (fun a b => slot dr k (fdist Rops a b side)) p0 p1
      = sumf (fun p => b2n (slot dr k (fdist Rops (nth (fst p) p0 []) (nth (snd p) p1 []) side))) (list_prod (seq 0 (length p0)) (seq 0 (length p1)))) as ->.
    { rewrite <- (nth_seq_all _ p0 []) at 1. rewrite <- (nth_seq_all _ p1 []) at 1. unfold count_prod.
      rewrite list_prod_map. change (length (filter ?P ?l)) with (cnt P l). rewrite cnt_map, cnt_sumf. reflexivity. }
    apply sumf_ext. intros [i j] Hin. apply in_prod_iff in Hin. rewrite !in_seq in Hin. cbn [fst snd].
    change (num Rops) with R in *.
    destruct (slot dr k (fdist Rops (nth i p0 []) (nth j p1 []) side)) eqn:Sl; cbn [b2n]; [|lia].
    apply slot_true in Sl. destruct (H1 i j ltac:(lia) ltac:(lia)) as [_ Hone]. rewrite Hone; [reflexivity|].
    apply fdist_within; try assumption; [apply Hf0, nth_In; lia|apply Hf1, nth_In; lia|lra].
Qed.
