(** Which pairs enter g(r). *)
From Coq Require Import Ascii String List ZArith Bool Arith Lia Reals Lra Permutation Sorting.Sorted Psatz.
From Verif Require Import PyBase PyBaseFacts Num NumFacts Spec_Stats M_Helpers M_Correlation M_Dynamics M_Realspace M_Groups
  Spec_Correlation Spec_Dynamics Spec_Pairs P_Helpers P_Dynamics P_Overlap P_Pairs P_Image P_Count P_Gr P_GrFast2.
Import ListNotations.
Local Open Scope R_scope.

Lemma list_prod_filter : forall X Y (c : X -> bool) (c' : Y -> bool) l m,
  list_prod (filter c l) (filter c' m) = filter (fun p => c (fst p) && c' (snd p)) (list_prod l m).
Proof.
  intros X Y c c' l m. induction l as [|a l IH]; [reflexivity|]. cbn [filter list_prod].
  rewrite filter_app, <- IH. rewrite filter_map. cbn [fst snd].
  destruct (c a); cbn [andb].
  - cbn [list_prod]. f_equal.
  - replace (filter (fun _ : Y => false) m) with (@nil Y) by (clear; induction m; auto). reflexivity.
Qed.

Lemma count_prod_filter : forall X (Q : X -> X -> bool) c c' l d,
  count_prod Q (filter c l) (filter c' l)
  = (ordered_pairs (fun a b => c a && c' b && Q a b) l d + cnt (fun x => c x && c' x && Q x x) l)%nat.
Proof.
  intros X Q c c' l d. rewrite <- (ordered_diag X (fun a b => c a && c' b && Q a b) l d).
  unfold count_prod. rewrite list_prod_filter.
  change (cnt (fun p => Q (fst p) (snd p)) (filter (fun p => c (fst p) && c' (snd p)) (list_prod l l))
    = cnt (fun p => c (fst p) && c' (snd p) && Q (fst p) (snd p)) (list_prod l l)).
  rewrite cnt_filter. reflexivity.
Qed.

Lemma ordered_filter : forall X (Q : X -> X -> bool) c l d,
  ordered_pairs Q (filter c l) d = ordered_pairs (fun a b => c a && c b && Q a b) l d.
Proof.
  intros X Q c l d. pose proof (ordered_diag X Q (filter c l) d) as E. rewrite (count_prod_filter X Q c c l d) in E.
  rewrite cnt_filter in E.
  assert (cnt (fun x => c x && c x && Q x x) l = cnt (fun x => c x && Q x x) l) as E2.
  { apply cnt_ext. intros x _. destruct (c x); reflexivity. }
  lia.
Qed.

Lemma nth_map_default : forall X Y (f : X -> Y) l i d, nth i (map f l) (f d) = f (nth i l d).
Proof. intros. apply map_nth. Qed.

Lemma ordered_map : forall X Y (f : X -> Y) (Q : Y -> Y -> bool) l d d',
  ordered_pairs Q (map f l) d' = ordered_pairs (fun a b => Q (f a) (f b)) l d.
Proof.
  intros X Y f Q l d d'.
  unfold ordered_pairs. rewrite map_length. apply cnt_ext. intros [i j] Hp. apply in_prod_iff in Hp.
  rewrite !in_seq in Hp. cbn [fst snd].
  rewrite (nth_indep (map f l) d' (f d)), (nth_indep (map f l) d' (f d)) by (rewrite map_length; lia).
  rewrite !map_nth. reflexivity.
Qed.

Lemma count_prod_map : forall X Y (f : X -> Y) (Q : Y -> Y -> bool) l m,
  count_prod Q (map f l) (map f m) = count_prod (fun a b => Q (f a) (f b)) l m.
Proof.
  intros. unfold count_prod. rewrite list_prod_map. apply (cnt_map _ _ (fun p => Q (fst p) (snd p))).
Qed.

Section Frame.
Variables (X : Type) (pos : X -> list R) (side es : list R) (ps : list X) (d : X).
Hypothesis Hside : positive side.
Hypothesis Hdim : forall p, In p ps -> length (pos p) = length side.
Hypothesis Hes : StronglySorted Rlt es.

Let dist a b := img_dist Rops (pos a) (pos b) side.
Let inb k a b := in_bin 0 Rleb Rltb es k (dist a b).

Lemma frame_same : forall c, filter c ps <> [] ->
  exists h, frame_histogram Rops pos [filter_generic c] ps side es = Ok h /\
    forall k, (k + 1 < length es)%nat ->
      (2 * nth k h 0 = ordered_pairs (fun a b => c a && c b && inb k a b) ps d)%nat.
Proof.
  intros c Hne. unfold frame_histogram, two_body, one_body, filter_generic.
  pose proof (edges_ok_sorted es Hes) as He.
  destruct (pairs_newton_spec Rops (fun x y => img_dist Rops x y side) (map pos (filter c ps)) es) as [h [E [_ C]]].
  { intros E. apply map_eq_nil in E. contradiction. } { exact He. }
  exists h. split; [exact E|]. intros k Hk. rewrite C by exact Hk. change (num Rops) with R.
  rewrite count_pairs_ordered.
  - rewrite (ordered_map _ _ pos _ (filter c ps) d), ordered_filter. unfold inb, dist.
    unfold ordered_pairs. apply cnt_ext. intros [i j] Hp. apply in_prod_iff in Hp. rewrite !in_seq in Hp. cbn [fst snd].
    rewrite (img_dist_sym side (pos (nth j ps d)) (pos (nth i ps d))) by (try assumption; apply Hdim, nth_In; lia). reflexivity.
  - intros x y Hx Hy. apply in_map_iff in Hx. apply in_map_iff in Hy.
    destruct Hx as [a [<- Ha]], Hy as [b [<- Hb]]. apply filter_In in Ha, Hb.
    rewrite img_dist_sym by (try assumption; apply Hdim; tauto). reflexivity.
Qed.

Lemma frame_distinct : forall c c',
  exists h, frame_histogram Rops pos [filter_generic c; filter_generic c'] ps side es = Ok h /\
    forall k, (k + 1 < length es)%nat ->
      nth k h 0%nat = (ordered_pairs (fun a b => c a && c' b && inb k a b) ps d
                       + cnt (fun a => c a && c' a && inb k a a) ps)%nat.
Proof.
  intros c c'. unfold frame_histogram, two_body, filter_generic. pose proof (edges_ok_sorted es Hes) as He.
  destruct (pairs_hist_spec Rops (fun x y => img_dist Rops x y side) (map pos (filter c ps)) (map pos (filter c' ps)) es He)
    as [h [E [_ C]]].
  exists h. split; [exact E|]. intros k Hk. rewrite C by exact Hk. change (num Rops) with R.
  rewrite count_prod_swap, count_prod_map, (count_prod_filter X _ c c' ps d). unfold inb, dist. reflexivity.
Qed.
End Frame.

Lemma img_dist_self : forall side x, length x = length side -> positive side -> img_dist Rops x x side = 0.
Proof.
  intros side x Hl Hp. unfold img_dist.
  assert (img_sq Rops x x side = 0) as ->; [|apply sqrt_0].
  revert side Hl Hp. induction x as [|a x IH]; intros [|L side] Hl Hp; try discriminate; [reflexivity|].
  rewrite img_sq_cons, IH; [|injection Hl; auto|intros l Hin; apply Hp; right; exact Hin].
  rewrite image_R. replace (a - a) with 0 by ring. unfold Rdiv. rewrite Rmult_0_l.
  assert (Rrint 0 = 0%Z) as -> by (change 0 with (IZR 0); apply Rrint_IZR). change (num Rops) with R. ring.
Qed.
