(** Plane waves that fit in the cell do not see periodic images. *)
From Coq Require Import List ZArith Bool Arith Reals Lra Lia.
From Verif Require Import PyBase PyBaseFacts Num NumFacts M_Helpers M_KGrid M_Fourier M_Fkt Spec_Stats
  Spec_BondAngle Spec_KGrid Spec_Fourier Spec_Correlation Spec_Fkt P_KGrid P_Sk P_Sk3 P_Fkt.
Import ListNotations.
Local Open Scope R_scope.

Lemma cos_Zperiod : forall x n, cos (x + 2 * PI * IZR n) = cos x.
Proof.
  intros x n. destruct (Z.le_gt_cases 0 n) as [H|H].
  - rewrite <- (Z2Nat.id n H) at 1. rewrite <- INR_IZR_INZ.
    replace (2 * PI * INR (Z.to_nat n)) with (2 * INR (Z.to_nat n) * PI) by ring. apply cos_period.
  - rewrite <- (cos_period (x + 2 * PI * IZR n) (Z.to_nat (- n))). f_equal.
    rewrite INR_IZR_INZ, Z2Nat.id, opp_IZR by lia. ring.
Qed.

Lemma sin_Zperiod : forall x n, sin (x + 2 * PI * IZR n) = sin x.
Proof.
  intros x n. destruct (Z.le_gt_cases 0 n) as [H|H].
  - rewrite <- (Z2Nat.id n H) at 1. rewrite <- INR_IZR_INZ.
    replace (2 * PI * INR (Z.to_nat n)) with (2 * INR (Z.to_nat n) * PI) by ring. apply sin_period.
  - rewrite <- (sin_period (x + 2 * PI * IZR n) (Z.to_nat (- n))). f_equal.
    rewrite INR_IZR_INZ, Z2Nat.id, opp_IZR by lia. ring.
Qed.

Lemma dot_image : forall side n x y, (forall L, In L side -> L <> 0) -> image side x y -> length n = length side ->
  exists m : Z, dot (wave (cell_k0 Rops (2 * PI) side) n) y = dot (wave (cell_k0 Rops (2 * PI) side) n) x + 2 * PI * IZR m.
Proof.
  intros side n x y Hs [Lx [Ly H]] Ln. revert n x y Lx Ly H Ln.
  induction side as [|L side IH]; intros n x y Lx Ly H Ln; destruct n as [|k n]; destruct x as [|a x]; destruct y as [|b y]; try discriminate.
  - exists 0%Z. cbn. ring.
  - destruct (IH (fun L' H' => Hs L' (or_intror H')) n x y) as [m Em]; [cbn in *; lia..| |cbn in *; lia|].
    + intros j Hj. apply (H (S j)). cbn. lia.
    + destruct (H 0%nat) as [q Eq]; [cbn; lia|]. cbn [nth] in Eq.
      assert (HL : L <> 0) by (apply Hs; left; reflexivity).
      exists (k * q + m)%Z. unfold wave, cell_k0 in *. cbn [map combine dot fst snd] in *.
      change (ndiv Rops) with Rdiv in *. rewrite Em, Eq, plus_IZR, mult_IZR. field. assumption.
Qed.

Section Cell.
Variables (side : list R) (n : list Z).
Hypothesis Hs : forall L, In L side -> L <> 0.
Hypothesis Ln : length n = length side.
Let k := wave (cell_k0 Rops (2 * PI) side) n.

Lemma rho_images : forall f f', Forall2 (image side) f f' ->
  rho_re k f' (unit_weights f') = rho_re k f (unit_weights f) /\ rho_im k f' (unit_weights f') = rho_im k f (unit_weights f).
Proof.
  intros f f' F. unfold rho_re, rho_im, unit_weights. induction F as [|x y f f' H F [IH1 IH2]]; [auto|].
  cbn [map combine rsum fst snd]. rewrite IH1, IH2. destruct (dot_image side n x y Hs H Ln) as [m E]. fold k in E.
  rewrite E, cos_Zperiod, sin_Zperiod. auto.
Qed.

Lemma density_cross_images : forall f f' g g', Forall2 (image side) f f' -> Forall2 (image side) g g' ->
  density_cross k f' g' = density_cross k f g.
Proof.
  intros f f' g g' F G. unfold density_cross. destruct (rho_images _ _ F) as [-> ->]. destruct (rho_images _ _ G) as [-> ->]. reflexivity.
Qed.

Lemma fs_pair_images : forall f f' g g', Forall2 (image side) f f' -> Forall2 (image side) g g' ->
  fs_pair k f' g' = fs_pair k f g.
Proof.
  intros f f' g g' F G. unfold fs_pair. f_equal. revert g g' G. induction F as [|x y f f' H F IH]; intros g g' G; [reflexivity|].
  destruct G as [|a b g g' Hab G]; [reflexivity|]. cbn [combine map fst snd]. rewrite (IH g g' G). f_equal.
  destruct (dot_image side n x y Hs H Ln) as [m E]. destruct (dot_image side n a b Hs Hab Ln) as [m' E']. fold k in E, E'.
  rewrite E, E'. replace (dot k x + 2 * PI * IZR m - (dot k a + 2 * PI * IZR m')) with (dot k x - dot k a + 2 * PI * IZR (m - m')) by (rewrite minus_IZR; ring).
  apply cos_Zperiod.
Qed.
End Cell.

Lemma images_nth : forall side pos pos' i, images side pos pos' -> Forall2 (image side) (nth i pos []) (nth i pos' []).
Proof. intros side pos pos' i F. revert i. induction F; intros [|i]; cbn; auto. Qed.

Lemma images_length : forall side pos pos', images side pos pos' -> length pos' = length pos.
Proof. intros side pos pos' F. symmetry. eapply Forall2_len. exact F. Qed.

Lemma images_group : forall side pos pos', images side pos pos' -> group_ok (length side) pos -> group_ok (length side) pos'.
Proof.
  intros side pos pos' F G f' Hf'. unfold images in F.
  destruct (In_nth _ _ [] Hf') as [i [Hi <-]]. pose proof (images_nth side pos pos' i F) as Fi.
  assert (Hil : (i < length pos)%nat) by (rewrite <- (images_length side pos pos' F); exact Hi).
  destruct (G _ (nth_In pos [] Hil)) as [Gn Gd]. split.
  - intros C. apply Forall2_len in Fi. rewrite C in Fi. destruct (nth i pos []); [congruence|discriminate].
  - intros x Hx. clear - Fi Hx. induction Fi as [|a b l m [_ [H _]] F IH]; [destruct Hx|]. destruct Hx as [<-|Hx]; auto.
Qed.

Lemma images_same : forall side pos pos' N, images side pos pos' -> same_particles (length side) pos N ->
  same_particles (length side) pos' N.
Proof.
  intros side pos pos' N F [HN [Hp Hf]]. split; [assumption|]. split.
  - pose proof (images_length side pos pos' F). destruct pos'; [destruct pos; [congruence|discriminate]|discriminate].
  - intros f' Hf'. destruct (In_nth _ _ [] Hf') as [i [Hi <-]]. pose proof (images_nth side pos pos' i F) as Fi.
    assert (Hil : (i < length pos)%nat) by (rewrite <- (images_length side pos pos' F); exact Hi).
    destruct (Hf _ (nth_In pos [] Hil)) as [L _]. split; [rewrite <- L; symmetry; eapply Forall2_len; exact Fi|].
    intros x Hx. clear - Fi Hx. induction Fi as [|a b l m [_ [H _]] F IH]; [destruct Hx|]. destruct Hx as [<-|Hx]; auto.
Qed.

Lemma images_mean_N : forall side pos pos', images side pos pos' -> mean_N pos' = mean_N pos.
Proof.
  intros side pos pos' F. unfold mean_N. f_equal. induction F as [|f f' l l' H F IH]; [reflexivity|].
  cbn [map]. rewrite IH. f_equal. f_equal. symmetry. eapply Forall2_len. exact H.
Qed.
