(** Proofs about minimum images. *)
From Coq Require Import List ZArith Bool Arith Reals Lia Lra Psatz.
From Verif Require Import PyBase PyBaseFacts Num Spec_Stats NumFacts M_Helpers M_Correlation M_Dynamics M_Realspace
  Spec_Dynamics Spec_Pairs P_Helpers P_Dynamics.
Import ListNotations.
Local Open Scope R_scope.

Lemma image_R : forall r L, image Rops r L = r - IZR (Rrint (r / L)) * L.
Proof. reflexivity. Qed.

Lemma image_half : forall r L, 0 < L -> Rabs (image Rops r L) <= L / 2.
Proof.
  intros r L HL. rewrite image_R. pose proof (Rrint_near (r / L)) as H.
  replace (r - IZR (Rrint (r / L)) * L) with ((r / L - IZR (Rrint (r / L))) * L) by (field; lra).
  rewrite Rabs_mult, (Rabs_right L) by lra. nra.
Qed.

Lemma image_min : forall r L k, 0 < L -> Rabs (image Rops r L) <= Rabs (r - IZR k * L).
Proof.
  intros r L k HL. pose proof (image_half r L HL) as H. rewrite image_R in *.
  set (z := Rrint (r / L)) in *. destruct (Z.eq_dec k z) as [->|Hk]; [lra|].
  assert (1 <= Rabs (IZR (z - k))) as H1.
  { rewrite <- abs_IZR. apply IZR_le. lia. }
  replace (r - IZR k * L) with ((r - IZR z * L) + IZR (z - k) * L) by (rewrite minus_IZR; ring).
  pose proof (Rabs_triang_inv (IZR (z - k) * L) (- (r - IZR z * L))) as H2.
  rewrite Rabs_Ropp, Rabs_mult, (Rabs_right L) in H2 by lra.
  replace (IZR (z - k) * L - - (r - IZR z * L)) with (r - IZR z * L + IZR (z - k) * L) in H2 by ring. nra.
Qed.

Lemma sq_abs_le : forall a b, Rabs a <= Rabs b -> a * a <= b * b.
Proof. intros a b H. apply Rsqr_le_abs_1 in H. exact H. Qed.

Lemma img_sq_cons : forall a x b y L side,
  img_sq Rops (a :: x) (b :: y) (L :: side) = image Rops (a - b) L * image Rops (a - b) L + img_sq Rops x y side.
Proof. intros. unfold img_sq. rewrite !nsum_R. reflexivity. Qed.

Lemma img_sq_min : forall side x y, positive side -> length x = length side -> length y = length side ->
  (exists ks, length ks = length side /\ img_sq Rops x y side = dist2 x (shifted y ks side)) /\
  (forall ks, length ks = length side -> img_sq Rops x y side <= dist2 x (shifted y ks side)).
Proof.
  induction side as [|L side IH]; intros x y Hp Hx Hy.
  - destruct x; [|discriminate]. split; [exists []; split; reflexivity|].
    intros ks _. unfold img_sq. rewrite nsum_R. cbn. lra.
  - destruct x as [|a x]; [discriminate|]. destruct y as [|b y]; [discriminate|].
    injection Hx as Hx. injection Hy as Hy.
    destruct (IH x y) as [[ks [Hk E]] M]; auto.
    { intros l Hl. apply Hp. right. exact Hl. }
    assert (0 < L) as HL by (apply Hp; left; reflexivity).
    split.
    + exists (Rrint ((a - b) / L) :: ks). split; [cbn; congruence|].
      rewrite img_sq_cons. cbn [shifted dist2]. rewrite E, image_R. change (num Rops) with R. f_equal. ring.
    + intros [|k ks'] Hks; [discriminate|]. injection Hks as Hks. rewrite img_sq_cons. cbn [shifted dist2].
      specialize (M ks' Hks). pose proof (image_min (a - b) L k HL) as Hm. apply sq_abs_le in Hm.
      replace (a - (b + IZR k * L)) with (a - b - IZR k * L) by ring. lra.
Qed.

Lemma img_dist_min : forall side x y, positive side -> length x = length side -> length y = length side ->
  min_image x y side (img_dist Rops x y side).
Proof.
  intros side x y Hp Hx Hy. destruct (img_sq_min side x y Hp Hx Hy) as [[ks [Hk E]] M].
  unfold min_image, img_dist, euclid. cbn [nsqrt Rops]. split.
  - exists ks. split; [exact Hk|]. rewrite E. reflexivity.
  - intros ks' Hk'. apply sqrt_le_1_alt. apply M. exact Hk'.
Qed.

Lemma min_image_unique : forall x y side d d', min_image x y side d -> min_image x y side d' -> d = d'.
Proof.
  intros x y side d d' [[ks [Hk E]] M] [[ks' [Hk' E']] M']. apply Rle_antisym.
  - rewrite E'. apply M. exact Hk'.
  - rewrite E. apply M'. exact Hk.
Qed.

(** Fortran wrap. *)
Lemma wrap_R : forall r L, 0 < L ->
  wrap Rops r L = if Rlt_dec (L / 2) (Rabs r) then (if Rlt_dec r 0 then r + L else r - L) else r.
Proof.
  intros r L HL. unfold wrap, fsign. cbn [nlt ndiv nabs nsub nopp n0 nofZ Rops]. unfold Rltb.
  destruct (Rlt_dec (L / 2) (Rabs r)); [|reflexivity].
  destruct (Rlt_dec r 0); rewrite (Rabs_right L) by lra; change (num Rops) with R; ring.
Qed.

Lemma wrap_near : forall r L, 0 < L -> Rabs r <= 3 / 2 * L -> Rabs (wrap Rops r L) = Rabs (image Rops r L).
Proof.
  intros r L HL Hr. rewrite wrap_R by exact HL.
  assert (Rabs (if Rlt_dec (L / 2) (Rabs r) then if Rlt_dec r 0 then r + L else r - L else r) <= L / 2) as Hw.
  { destruct (Rlt_dec (L / 2) (Rabs r)) as [H|H]; [|lra]. destruct (Rlt_dec r 0) as [H0|H0].
    - rewrite Rabs_left in * by lra. apply Rabs_le. lra.
    - rewrite Rabs_right in * by lra. apply Rabs_le. lra. }
  assert (exists k, (if Rlt_dec (L / 2) (Rabs r) then if Rlt_dec r 0 then r + L else r - L else r) = r - IZR k * L) as [k Ek].
  { destruct (Rlt_dec (L / 2) (Rabs r)); [destruct (Rlt_dec r 0)|]; [exists (-1)%Z|exists 1%Z|exists 0%Z]; cbn; ring. }
  change (num Rops) with R in *. rewrite Ek in Hw |- *. apply Rle_antisym; [|apply image_min; exact HL].
  (* both are images of the same point; |r - kL| <= L/2 *)
  pose proof (image_half r L HL) as Hi. rewrite image_R in *. set (z := Rrint (r / L)) in *.
  destruct (Z.eq_dec k z) as [->|Hk]; [lra|].
  assert (1 <= Rabs (IZR (z - k))) as H1 by (rewrite <- abs_IZR; apply IZR_le; lia).
  assert (Rabs (IZR (z - k) * L) <= Rabs (r - IZR k * L) + Rabs (r - IZR z * L)) as T.
  { replace (IZR (z - k) * L) with ((r - IZR k * L) - (r - IZR z * L)) by (rewrite minus_IZR; ring).
    pose proof (Rabs_triang (r - IZR k * L) (- (r - IZR z * L))) as T. rewrite Rabs_Ropp in T. exact T. }
  rewrite Rabs_mult, (Rabs_right L) in T by lra. nra.
Qed.

Lemma wrap_far : forall r L, 0 < L -> 3 / 2 * L < Rabs r -> Rabs (image Rops r L) < Rabs (wrap Rops r L).
Proof.
  intros r L HL Hr. pose proof (image_half r L HL). rewrite wrap_R by exact HL.
  destruct (Rlt_dec (L / 2) (Rabs r)) as [_|C]; [|lra].
  apply Rle_lt_trans with (L / 2); [assumption|]. destruct (Rlt_dec r 0) as [H0|H0].
  - rewrite (Rabs_left r) in Hr by lra. rewrite Rabs_left by lra. lra.
  - rewrite (Rabs_right r) in Hr by lra. rewrite Rabs_right by lra. lra.
Qed.

Definition fsq (x y side : list R) : R :=
  nsum Rops (map2 (fun r L => nsq Rops (wrap Rops r L)) (map2 (nsub Rops) y x) side).
Lemma fsq_cons : forall a x b y L side,
  fsq (a :: x) (b :: y) (L :: side) = wrap Rops (b - a) L * wrap Rops (b - a) L + fsq x y side.
Proof. intros. unfold fsq. rewrite !nsum_R. reflexivity. Qed.

Lemma image_opp : forall r L, 0 < L -> Rabs (image Rops (- r) L) = Rabs (image Rops r L).
Proof.
  intros r L HL. apply Rle_antisym.
  - eapply Rle_trans; [apply (image_min (- r) L (- Rrint (r / L)) HL)|].
    rewrite image_R, opp_IZR. right. rewrite <- (Rabs_Ropp (r - _)). f_equal. ring.
  - eapply Rle_trans; [apply (image_min r L (- Rrint (- r / L)) HL)|].
    rewrite image_R, opp_IZR. right. rewrite <- (Rabs_Ropp (- r - _)). f_equal. ring.
Qed.

Lemma fsq_ge : forall side x y, positive side -> length x = length side -> length y = length side ->
  img_sq Rops x y side <= fsq x y side /\
  (near x y side -> fsq x y side = img_sq Rops x y side) /\
  (~ near x y side -> img_sq Rops x y side < fsq x y side).
Proof.
  induction side as [|L side IH]; intros x y Hp Hx Hy.
  - destruct x; [|discriminate]. destruct y; [|discriminate]. unfold img_sq, fsq. cbn.
    split; [lra|]. split; [reflexivity|]. intros H. exfalso. apply H. exact I.
  - destruct x as [|a x]; [discriminate|]. destruct y as [|b y]; [discriminate|].
    injection Hx as Hx. injection Hy as Hy.
    assert (0 < L) as HL by (apply Hp; left; reflexivity).
    destruct (IH x y) as [H1 [H2 H3]]; auto. { intros l Hl. apply Hp. right. exact Hl. }
    rewrite img_sq_cons, fsq_cons. cbn [near].
    assert (Rabs (b - a) = Rabs (a - b)) as Es by (rewrite <- Rabs_Ropp; f_equal; ring).
    assert (Rabs (image Rops (b - a) L) = Rabs (image Rops (a - b) L)) as Ei.
    { rewrite <- (image_opp (a - b) L HL). f_equal. f_equal. ring. }
    destruct (Rle_lt_dec (Rabs (a - b)) (3 / 2 * L)) as [Hn|Hf].
    + assert (wrap Rops (b - a) L * wrap Rops (b - a) L = image Rops (a - b) L * image Rops (a - b) L) as E.
      { pose proof (wrap_near (b - a) L HL) as W. rewrite Es in W. specialize (W Hn). rewrite Ei in W.
        apply Rle_antisym; apply sq_abs_le; lra. }
      rewrite E. split; [lra|]. split.
      * intros [_ Hnn]. rewrite H2 by exact Hnn. reflexivity.
      * intros C. assert (~ near x y side) as Hnn by tauto. apply H3 in Hnn. lra.
    + pose proof (wrap_far (b - a) L HL) as W. rewrite Es in W. specialize (W Hf). rewrite Ei in W.
      assert (image Rops (a - b) L * image Rops (a - b) L < wrap Rops (b - a) L * wrap Rops (b - a) L) as S.
      { apply Rsqr_lt_abs_1 in W. exact W. }
      split; [lra|]. split; [intros [C _]; lra|]. intros _. lra.
Qed.

Lemma fdist_sq : forall x y side, fdist Rops x y side = sqrt (fsq x y side).
Proof. reflexivity. Qed.

Lemma img_sq_nonneg : forall x y side, 0 <= img_sq Rops x y side.
Proof.
  intros. unfold img_sq. rewrite nsum_R. apply rsum_nonneg. intros v Hv. unfold map2 in Hv at 1.
  apply in_map_iff in Hv. destruct Hv as [p [<- _]]. apply Rle_0_sqr.
Qed.

Lemma fdist_near : forall side x y, positive side -> length x = length side -> length y = length side ->
  (fdist Rops x y side = img_dist Rops x y side <-> near x y side).
Proof.
  intros side x y Hp Hx Hy. destruct (fsq_ge side x y Hp Hx Hy) as [H1 [H2 H3]].
  rewrite fdist_sq. unfold img_dist. cbn [nsqrt Rops]. split.
  - intros E. assert (near x y side \/ ~ near x y side) as [H|H]; [|exact H|].
    { clear. revert x y. induction side as [|L side IH]; intros [|a x] [|b y]; cbn; try (left; exact I).
      destruct (IH x y) as [H|H]; [|right; tauto].
      destruct (Rle_lt_dec (Rabs (a - b)) (3 / 2 * L)); [left; split; assumption|right; intros [C _]; lra]. }
    exfalso. apply H3 in H. pose proof (sqrt_lt_1_alt _ _ (conj (img_sq_nonneg x y side) H)) as C.
    rewrite E in C. exact (Rlt_irrefl _ C).
  - intros H. rewrite H2 by exact H. reflexivity.
Qed.

Lemma inside_near : forall side x y, positive side -> inside x side -> inside y side -> near x y side.
Proof.
  induction side as [|L side IH]; intros [|a x] [|b y] Hp Hx Hy; cbn in *; auto.
  assert (0 < L) as HL by (apply Hp; left; reflexivity). split; [apply Rabs_le; lra|].
  apply IH; try tauto. intros l Hl. apply Hp. right. exact Hl.
Qed.

Lemma img_dist_sym : forall side x y, positive side -> length x = length side -> length y = length side ->
  img_dist Rops x y side = img_dist Rops y x side.
Proof.
  intros side x y Hp Hx Hy. unfold img_dist. f_equal. revert x y Hp Hx Hy.
  induction side as [|L side IH]; intros [|a x] [|b y] Hp Hx Hy; try discriminate; [reflexivity|].
  assert (0 < L) as HL by (apply Hp; left; reflexivity). rewrite !img_sq_cons. f_equal.
  - assert (Rabs (image Rops (a - b) L) = Rabs (image Rops (b - a) L)) as E.
    { rewrite <- (image_opp (b - a) L HL). f_equal. f_equal. ring. }
    apply Rle_antisym; apply sq_abs_le; lra.
  - injection Hx as Hx. injection Hy as Hy. apply IH; auto. intros l Hl. apply Hp. right. exact Hl.
Qed.
