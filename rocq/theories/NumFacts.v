(** Facts about the real instance of [arith]: comparisons, roundings, sums. *)
From Coq Require Import ZArith Bool Reals List Lra Lia Permutation.
From Verif Require Import Num Spec_Stats.
Import ListNotations.
Local Open Scope R_scope.

Lemma Rltb_spec : forall x y, reflect (x < y) (Rltb x y).
Proof. intros. unfold Rltb. destruct (Rlt_dec x y); constructor; assumption. Qed.
Lemma Rleb_spec : forall x y, reflect (x <= y) (Rleb x y).
Proof. intros. unfold Rleb. destruct (Rle_dec x y); constructor; assumption. Qed.
Lemma Reqb_spec : forall x y, reflect (x = y) (Reqb x y).
Proof. intros. unfold Reqb. destruct (Req_EM_T x y); constructor; assumption. Qed.

Lemma nofnat_R : forall n, nofnat Rops n = INR n.
Proof. intros. unfold nofnat. cbn. symmetry. apply INR_IZR_INZ. Qed.

(** floor *)
Lemma Rfloor_bounds : forall x, IZR (Rfloor x) <= x < IZR (Rfloor x) + 1.
Proof. intros x. unfold Rfloor. destruct (base_Int_part x). split; lra. Qed.

Lemma Rfloor_unique : forall x z, IZR z <= x < IZR z + 1 -> Rfloor x = z.
Proof.
  intros x z H. pose proof (Rfloor_bounds x) as B.
  assert (IZR (Rfloor x) < IZR (z + 1)) by (rewrite plus_IZR; lra).
  assert (IZR z < IZR (Rfloor x + 1)) by (rewrite plus_IZR; lra).
  apply lt_IZR in H0, H1. lia.
Qed.

Lemma Rfloor_IZR : forall z, Rfloor (IZR z) = z.
Proof. intros. apply Rfloor_unique. lra. Qed.

Lemma Rfloor_mono : forall x y, x <= y -> (Rfloor x <= Rfloor y)%Z.
Proof.
  intros x y H. pose proof (Rfloor_bounds x). pose proof (Rfloor_bounds y).
  assert (IZR (Rfloor x) < IZR (Rfloor y + 1)) by (rewrite plus_IZR; lra).
  apply lt_IZR in H2. lia.
Qed.

Lemma Rfloor_nonneg : forall x, 0 <= x -> (0 <= Rfloor x)%Z.
Proof. intros x H. rewrite <- (Rfloor_IZR 0). apply Rfloor_mono. assumption. Qed.

Lemma Rfloor_lt_Z : forall x z, x < IZR z -> (Rfloor x < z)%Z.
Proof. intros x z H. apply lt_IZR. pose proof (Rfloor_bounds x). lra. Qed.

Lemma Rfloor_ge_Z : forall x z, IZR z <= x -> (z <= Rfloor x)%Z.
Proof. intros x z H. rewrite <- (Rfloor_IZR z). apply Rfloor_mono. assumption. Qed.

(** int() *)
Lemma Rtrunc_nonneg : forall x, 0 <= x -> Rtrunc x = Rfloor x.
Proof. intros x H. unfold Rtrunc. destruct (Rle_dec 0 x); [reflexivity|lra]. Qed.

Lemma Rtrunc_neg : forall x, x < 0 -> Rtrunc x = (- Rfloor (- x))%Z.
Proof. intros x H. unfold Rtrunc. destruct (Rle_dec 0 x); [lra|reflexivity]. Qed.

Lemma Rtrunc_bounds_nonneg : forall x, 0 <= x -> IZR (Rtrunc x) <= x < IZR (Rtrunc x) + 1.
Proof. intros x H. rewrite Rtrunc_nonneg by assumption. apply Rfloor_bounds. Qed.

Lemma Rtrunc_IZR : forall z, Rtrunc (IZR z) = z.
Proof.
  intros z. destruct (Rle_dec 0 (IZR z)).
  - rewrite Rtrunc_nonneg by assumption. apply Rfloor_IZR.
  - rewrite Rtrunc_neg by lra. rewrite <- opp_IZR, Rfloor_IZR. lia.
Qed.

(** round half even *)
Lemma Rrint_near : forall x, Rabs (x - IZR (Rrint x)) <= / 2.
Proof.
  intros x. unfold Rrint. pose proof (Rfloor_bounds x) as B. unfold Rfloor in B.
  destruct (Rlt_dec (x - IZR (Int_part x)) (/ 2)).
  - apply Rabs_le. lra.
  - destruct (Rlt_dec (/ 2) (x - IZR (Int_part x))).
    + rewrite plus_IZR. apply Rabs_le. lra.
    + destruct (Z.even (Int_part x)); [|rewrite plus_IZR]; apply Rabs_le; lra.
Qed.

Lemma Rrint_unique : forall x z, Rabs (x - IZR z) < / 2 -> Rrint x = z.
Proof.
  intros x z H. pose proof (Rrint_near x) as N.
  apply Rabs_def2 in H. unfold Rabs in N. destruct (Rcase_abs (x - IZR (Rrint x))).
  - assert (IZR (Rrint x) < IZR (z + 1)) by (rewrite plus_IZR; lra).
    assert (IZR (z - 1) < IZR (Rrint x)) by (rewrite minus_IZR; lra).
    apply lt_IZR in H0, H1. lia.
  - assert (IZR (Rrint x) < IZR (z + 1)) by (rewrite plus_IZR; lra).
    assert (IZR (z - 1) < IZR (Rrint x)) by (rewrite minus_IZR; lra).
    apply lt_IZR in H0, H1. lia.
Qed.

Lemma Rrint_IZR : forall z, Rrint (IZR z) = z.
Proof. intros z. apply Rrint_unique. rewrite Rminus_diag_eq by reflexivity. rewrite Rabs_R0. lra. Qed.

(** Sums *)

Lemma fold_left_Rplus : forall l a, fold_left Rplus l a = a + rsum l.
Proof.
  induction l as [|x l IH]; intros a; cbn; [lra|]. rewrite IH. lra.
Qed.

Lemma nsum_R : forall l, nsum Rops l = rsum l.
Proof. intros. unfold nsum. cbn. rewrite fold_left_Rplus. lra. Qed.

Lemma rsum_app : forall l m, rsum (l ++ m) = rsum l + rsum m.
Proof. induction l as [|x l IH]; intros m; cbn; [lra|]. rewrite IH. lra. Qed.

Lemma rsum_perm : forall l m, Permutation l m -> rsum l = rsum m.
Proof. intros l m H. induction H; cbn; lra. Qed.

Lemma rsum_ext : forall X (f g : X -> R) l, (forall x, In x l -> f x = g x) ->
  rsum (map f l) = rsum (map g l).
Proof.
  intros X f g l. induction l as [|x l IH]; intros H; cbn; [reflexivity|].
  rewrite (H x (or_introl eq_refl)), IH; [reflexivity|]. intros; apply H; right; auto.
Qed.

Lemma rsum_plus : forall X (f g : X -> R) l,
  rsum (map (fun x => f x + g x) l) = rsum (map f l) + rsum (map g l).
Proof. intros X f g l. induction l as [|x l IH]; cbn; [lra|]. rewrite IH. lra. Qed.

Lemma rsum_minus : forall X (f g : X -> R) l,
  rsum (map (fun x => f x - g x) l) = rsum (map f l) - rsum (map g l).
Proof. intros X f g l. induction l as [|x l IH]; cbn; [lra|]. rewrite IH. lra. Qed.

Lemma rsum_scal : forall X c (f : X -> R) l, rsum (map (fun x => c * f x) l) = c * rsum (map f l).
Proof. intros X c f l. induction l as [|x l IH]; cbn; [lra|]. rewrite IH. lra. Qed.

Lemma rsum_const : forall X c (l : list X), rsum (map (fun _ => c) l) = INR (length l) * c.
Proof.
  intros X c l. induction l as [|x l IH]; [cbn; lra|].
  change (length (x :: l)) with (S (length l)). rewrite S_INR. cbn [map rsum].
  rewrite IH. lra.
Qed.

Lemma rsum_nonneg : forall l, (forall x, In x l -> 0 <= x) -> 0 <= rsum l.
Proof.
  induction l as [|x l IH]; intros H; cbn; [lra|].
  assert (0 <= x) by (apply H; left; reflexivity).
  assert (0 <= rsum l) by (apply IH; intros; apply H; right; assumption).
  lra.
Qed.

Lemma rsum_le : forall X (f g : X -> R) l, (forall x, In x l -> f x <= g x) ->
  rsum (map f l) <= rsum (map g l).
Proof.
  intros X f g l H.
  assert (0 <= rsum (map (fun x => g x - f x) l)).
  { apply rsum_nonneg. intros y Hy. apply in_map_iff in Hy. destruct Hy as [x [<- Hx]].
    specialize (H x Hx). lra. }
  rewrite rsum_minus in H0. lra.
Qed.

Lemma rsum_nonneg_zero : forall l, (forall x, In x l -> 0 <= x) -> rsum l = 0 ->
  forall x, In x l -> x = 0.
Proof.
  induction l as [|y l IH]; intros H E x Hx; [destruct Hx|].
  cbn in E. assert (0 <= y) by (apply H; left; reflexivity).
  assert (0 <= rsum l) by (apply rsum_nonneg; intros; apply H; right; assumption).
  destruct Hx as [->|Hx]; [lra|].
  apply IH; auto; [|lra]. intros; apply H; right; assumption.
Qed.

Lemma rsum_abs : forall l, Rabs (rsum l) <= rsum (map Rabs l).
Proof.
  induction l as [|x l IH]; cbn; [rewrite Rabs_R0; lra|].
  eapply Rle_trans; [apply Rabs_triang|]. lra.
Qed.

Lemma rsum_flat_map : forall X Y (f : Y -> R) (g : X -> list Y) l,
  rsum (map f (flat_map g l)) = rsum (map (fun x => rsum (map f (g x))) l).
Proof.
  intros X Y f g l. induction l as [|x l IH]; cbn; [reflexivity|].
  rewrite map_app, rsum_app, IH. reflexivity.
Qed.

Lemma rsum_swap : forall X Y (f : X -> Y -> R) l m,
  rsum (map (fun x => rsum (map (fun y => f x y) m)) l) =
  rsum (map (fun y => rsum (map (fun x => f x y) l)) m).
Proof.
  intros X Y f l m. induction l as [|x l IH]; cbn.
  - rewrite (rsum_const _ 0). lra.
  - rewrite IH.
    rewrite <- rsum_plus. reflexivity.
Qed.

Lemma nmean_R : forall l, nmean Rops l = rsum l / INR (length l).
Proof. intros. unfold nmean. rewrite nsum_R, nofnat_R. reflexivity. Qed.

Lemma INR_pos_length : forall X (l : list X), l <> [] -> 0 < INR (length l).
Proof. intros X [|x l] H; [congruence|]. apply lt_0_INR. cbn. lia. Qed.

(** Cauchy-Schwarz: (sum f)^2 <= n * sum f^2 *)
Lemma rsum_sq_le : forall l, rsum l * rsum l <= INR (length l) * rsum (map (fun x => x * x) l).
Proof.
  intros l. destruct l as [|x0 l0] eqn:E; [cbn; lra|]. rewrite <- E.
  assert (0 < INR (length l)) as Hn by (apply INR_pos_length; congruence).
  pose (m := rsum l / INR (length l)).
  assert (0 <= rsum (map (fun x => (x - m) * (x - m)) l)) as H.
  { apply rsum_nonneg. intros y Hy. apply in_map_iff in Hy. destruct Hy as [x [<- _]]. apply (Rle_0_sqr (x - m)). }
  assert (rsum (map (fun x => (x - m) * (x - m)) l) =
          rsum (map (fun x => x * x) l) - 2 * m * rsum l + INR (length l) * (m * m)) as E2.
  { rewrite (rsum_ext _ _ (fun x => x * x - (2 * m * x - m * m))) by (intros; ring).
    rewrite rsum_minus, (rsum_minus _ (fun x => 2 * m * x) (fun _ => m * m)), rsum_scal, rsum_const, map_id. ring. }
  rewrite E2 in H. unfold m in H.
  assert (rsum (map (fun x => x * x) l) - 2 * (rsum l / INR (length l)) * rsum l
          + INR (length l) * (rsum l / INR (length l) * (rsum l / INR (length l)))
          = rsum (map (fun x => x * x) l) - rsum l * rsum l / INR (length l)) as E3 by (field; lra).
  rewrite E3 in H.
  assert (rsum l * rsum l / INR (length l) * INR (length l) = rsum l * rsum l) by (field; lra).
  nra.
Qed.

(** Variance as mean of squares minus square of mean. *)
Lemma rsum_var : forall l, l <> [] ->
  let m := rsum l / INR (length l) in
  rsum (map (fun x => (x - m) * (x - m)) l) / INR (length l)
  = rsum (map (fun x => x * x) l) / INR (length l) - m * m.
Proof.
  intros l H m. assert (0 < INR (length l)) as Hn by (apply INR_pos_length; assumption).
  rewrite (rsum_ext _ _ (fun x => x * x - (2 * m * x - m * m))) by (intros; ring).
  rewrite rsum_minus, (rsum_minus _ (fun x => 2 * m * x) (fun _ => m * m)), rsum_scal, rsum_const, map_id.
  unfold m. field. lra.
Qed.
