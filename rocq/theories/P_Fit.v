(** Proofs about linear_fit over the reals. *)
From Coq Require Import List ZArith Bool Arith Reals Lia Lra Psatz.
From Verif Require Import PyBase PyBaseFacts Num Spec_Stats NumFacts M_Helpers Spec_Fit P_Skip P_Helpers.
Import ListNotations.
Local Open Scope R_scope.

Lemma combine_fst : forall X Y (x : list X) (y : list Y), length x = length y -> map fst (combine x y) = x.
Proof. induction x; intros [|b y] H; cbn in *; try congruence. rewrite IHx by lia. reflexivity. Qed.
Lemma combine_snd : forall X Y (x : list X) (y : list Y), length x = length y -> map snd (combine x y) = y.
Proof. induction x; intros [|b y] H; cbn in *; try congruence. rewrite IHx by lia. reflexivity. Qed.

Section Fit.
Variable l : list (R * R).
Let n := INR (length l).
Let Sx := rsum (map fst l).
Let Sy := rsum (map snd l).
Let Sxy := rsum (map (fun p => fst p * snd p) l).
Let Sxx := rsum (map (fun p => fst p * fst p) l).
Let Syy := rsum (map (fun p => snd p * snd p) l).
Let D := n * Sxx - Sx * Sx.
Definition Q (a b : R) := rsum (map (fun p => (snd p - a * fst p - b) * (snd p - a * fst p - b)) l).

Lemma Q_expand : forall a b,
  Q a b = Syy - 2 * a * Sxy - 2 * b * Sy + a * a * Sxx + 2 * a * b * Sx + n * (b * b).
Proof.
  intros a b. unfold Q, Syy, Sxy, Sy, Sxx, Sx, n.
  induction l as [|p r IH]; [cbn; ring|].
  cbn [map rsum length]. rewrite S_INR, IH. ring.
Qed.

Lemma dev_expand : forall m,
  rsum (map (fun r => (fst r - m) * (fst r - m)) l) = Sxx - 2 * m * Sx + n * (m * m).
Proof.
  intros m. unfold Sxx, Sx, n. induction l as [|a r IH]; [cbn; ring|].
  cbn [map rsum length] in *. rewrite S_INR, IH. ring.
Qed.

(** D > 0 as soon as two abscissae differ. *)
Lemma D_pos : forall p q, In p l -> In q l -> fst p <> fst q -> 0 < D.
Proof.
  intros p q Hp Hq Hne.
  assert (0 < n) as Hn.
  { unfold n. apply INR_pos_length. intros E. rewrite E in Hp. destruct Hp. }
  pose (m := Sx / n).
  assert (n * rsum (map (fun r => (fst r - m) * (fst r - m)) l) = D) as E.
  { rewrite dev_expand. unfold m, D. field. lra. }
  assert (forall x, In x (map (fun r => (fst r - m) * (fst r - m)) l) -> 0 <= x) as Hnn.
  { intros x Hx. apply in_map_iff in Hx. destruct Hx as [r [<- _]]. apply Rle_0_sqr. }
  pose proof (rsum_nonneg _ Hnn) as H0.
  destruct (Req_dec (rsum (map (fun r => (fst r - m) * (fst r - m)) l)) 0) as [Z|NZ].
  - exfalso. apply Hne.
    assert (forall r, In r l -> fst r = m) as Hall.
    { intros r Hr. assert ((fst r - m) * (fst r - m) = 0) as S0.
      { apply (rsum_nonneg_zero _ Hnn Z). apply in_map_iff. exists r. auto. }
      apply Rmult_integral in S0. lra. }
    rewrite (Hall p Hp), (Hall q Hq). reflexivity.
  - rewrite <- E. apply Rmult_lt_0_compat; lra.
Qed.

Variables p0 q0 : R * R.
Hypothesis Hp0 : In p0 l.
Hypothesis Hq0 : In q0 l.
Hypothesis Hne : fst p0 <> fst q0.

Let a := (n * Sxy - Sx * Sy) / D.
Let b := Sy / n - a * Sx / n.

Lemma n_pos : 0 < n.
Proof. unfold n. apply INR_pos_length. intros E. rewrite E in Hp0. destruct Hp0. Qed.

Lemma D_pos' : 0 < D.
Proof. exact (D_pos p0 q0 Hp0 Hq0 Hne). Qed.

Lemma normal_1 : Sy = a * Sx + n * b.
Proof. pose proof n_pos. unfold b. field. lra. Qed.
Lemma normal_2 : Sxy = a * Sxx + b * Sx.
Proof.
  pose proof n_pos. pose proof D_pos'. unfold b.
  assert (a * D = n * Sxy - Sx * Sy) as E by (unfold a; field; lra).
  apply Rmult_eq_reg_l with n; [|lra].
  replace (n * (a * Sxx + (Sy / n - a * Sx / n) * Sx)) with (a * D + Sx * Sy).
  - rewrite E. ring.
  - unfold D. field. lra.
Qed.

Lemma Q_diff : forall a' b',
  Q a' b' - Q a b = rsum (map (fun p => ((a' - a) * fst p + (b' - b)) * ((a' - a) * fst p + (b' - b))) l).
Proof.
  intros a' b'.
  assert (rsum (map (fun p => ((a' - a) * fst p + (b' - b)) * ((a' - a) * fst p + (b' - b))) l)
     = (a' - a) * (a' - a) * Sxx + 2 * (a' - a) * (b' - b) * Sx + n * ((b' - b) * (b' - b))) as ->.
  { generalize (a' - a) (b' - b). intros u v. unfold Sxx, Sx, n. clear.
    induction l as [|p r IH]; [cbn; ring|]. cbn [map rsum length] in *. rewrite S_INR, IH. ring. }
  rewrite !Q_expand.
  pose proof normal_1 as N1. pose proof normal_2 as N2. clearbody a b.
  rewrite N2, N1. ring.
Qed.

Lemma Q_min : forall a' b', Q a b <= Q a' b'.
Proof.
  intros a' b'. pose proof (Q_diff a' b') as E.
  assert (0 <= Q a' b' - Q a b); [|lra]. rewrite E. apply rsum_nonneg.
  intros x Hx. apply in_map_iff in Hx. destruct Hx as [p [<- _]]. apply Rle_0_sqr.
Qed.

Lemma Q_unique : forall a' b', Q a' b' <= Q a b -> a' = a /\ b' = b.
Proof.
  intros a' b' H. pose proof (Q_min a' b') as Hm.
  assert (Q a' b' - Q a b = 0) as E by lra. rewrite Q_diff in E.
  assert (forall p, In p l -> (a' - a) * fst p + (b' - b) = 0) as Hall.
  { intros p Hp. assert (((a' - a) * fst p + (b' - b)) * ((a' - a) * fst p + (b' - b)) = 0) as S0.
    { apply (rsum_nonneg_zero _) with (2 := E).
      - intros x Hx. apply in_map_iff in Hx. destruct Hx as [r [<- _]]. apply Rle_0_sqr.
      - apply in_map_iff. exists p. auto. }
    apply Rmult_integral in S0. lra. }
  pose proof (Hall _ Hp0) as E1. pose proof (Hall _ Hq0) as E2.
  assert ((a' - a) * (fst p0 - fst q0) = 0) as E3 by lra.
  apply Rmult_integral in E3. destruct E3 as [E3|E3]; [|lra].
  split; [lra|]. rewrite E3 in E1. lra.
Qed.

Lemma nQ : n * Q a b = n * Syy - Sy * Sy - a * a * D.
Proof.
  rewrite Q_expand. pose proof normal_1 as N1. pose proof normal_2 as N2. unfold D. clearbody a b.
  rewrite N2, N1. ring.
Qed.

Lemma Q_nonneg : forall a b, 0 <= Q a b.
Proof. intros. apply rsum_nonneg. intros x Hx. apply in_map_iff in Hx. destruct Hx as [p [<- _]]. apply Rle_0_sqr. Qed.

Lemma D_dev : D = n * rsum (map (fun r => (fst r - Sx / n) * (fst r - Sx / n)) l).
Proof. pose proof n_pos. rewrite dev_expand. unfold D. field. lra. Qed.
End Fit.

Lemma map_fst_sq : forall (x y : list R) (g : R -> R), length x = length y ->
  map g x = map (fun p => g (fst p)) (combine x y).
Proof. intros x y g H. rewrite <- (map_map fst g), combine_fst by assumption. reflexivity. Qed.
Lemma map_snd_sq : forall (x y : list R) (g : R -> R), length x = length y ->
  map g y = map (fun p => g (snd p)) (combine x y).
Proof. intros x y g H. rewrite <- (map_map snd g), combine_snd by assumption. reflexivity. Qed.

Lemma msqrt_R : forall v, 0 <= v -> msqrt Rops v = Ok (sqrt v).
Proof. intros v H. unfold msqrt. cbn. rewrite Rltb_false by lra. reflexivity. Qed.

Lemma linear_fit_spec : forall x y : list R, length x = length y ->
  (exists u v, In u x /\ In v x /\ u <> v) ->
  exists a b ea eb, linear_fit Rops x y = Ok (a, b, ea, eb) /\
    (forall a' b', residuals x y a b <= residuals x y a' b') /\
    (forall a' b', residuals x y a' b' <= residuals x y a b -> a' = a /\ b' = b) /\
    ea = sqrt (resid_var x y a b / rsum (map (fun u => (u - rmean x) * (u - rmean x)) x)) /\
    eb = sqrt (ea * ea * rmean (map (fun u => u * u) x)).
Proof.
  intros x y Hl [u [v [Hu [Hv Huv]]]].
  set (l := combine x y).
  assert (length l = length y) as Hll by (unfold l; rewrite combine_length; lia).
  assert (exists p0, In p0 l /\ fst p0 = u) as [p0 [Hp0 Ep]].
  { rewrite <- (combine_fst _ _ x y Hl) in Hu. apply in_map_iff in Hu. destruct Hu as [p [E H]]. eauto. }
  assert (exists q0, In q0 l /\ fst q0 = v) as [q0 [Hq0 Eq]].
  { rewrite <- (combine_fst _ _ x y Hl) in Hv. apply in_map_iff in Hv. destruct Hv as [p [E H]]. eauto. }
  assert (fst p0 <> fst q0) as Hne by congruence.
  pose proof (n_pos l p0 Hp0) as Hn.
  pose proof (D_pos' l p0 q0 Hp0 Hq0 Hne) as HD.
  pose proof (Q_min l p0 q0 Hp0 Hq0 Hne) as Hmin.
  pose proof (Q_unique l p0 q0 Hp0 Hq0 Hne) as Huniq.
  pose proof (nQ l p0 q0 Hp0 Hq0 Hne) as HnQ.
  pose proof (Q_nonneg l) as Hnn.
  pose proof (D_dev l p0 Hp0) as Hdev.
  assert (rsum (map fst l) = rsum x) as E1 by (unfold l; rewrite combine_fst by assumption; reflexivity).
  assert (rsum (map snd l) = rsum y) as E2 by (unfold l; rewrite combine_snd by assumption; reflexivity).
  assert (rsum (map (fun p => fst p * fst p) l) = rsum (map (nsq Rops) x)) as E3.
  { symmetry. unfold l. erewrite (map_fst_sq x y) by assumption. reflexivity. }
  assert (rsum (map (fun p => snd p * snd p) l) = rsum (map (nsq Rops) y)) as E4.
  { symmetry. unfold l. erewrite (map_snd_sq x y) by assumption. reflexivity. }
  assert (rsum (map (fun p => fst p * snd p) l) = rsum (map2 (nmul Rops) x y)) as E5 by reflexivity.
  assert (rsum (map (fun r => (fst r - rsum x / INR (length y)) * (fst r - rsum x / INR (length y))) l)
          = rsum (map (fun u => (u - rmean x) * (u - rmean x)) x)) as E6.
  { symmetry. unfold l, rmean. erewrite (map_fst_sq x y) by assumption. rewrite Hl. reflexivity. }
  toR. rewrite Hll in Hn, HD, Hmin, Huniq, HnQ, Hdev.
  rewrite E1 in HD, Hmin, Huniq, HnQ, Hdev. rewrite E2 in Hmin, Huniq, HnQ.
  rewrite E3 in HD, Hmin, Huniq, HnQ, Hdev. rewrite E4 in HnQ. rewrite E5 in Hmin, Huniq, HnQ.
  rewrite E6 in Hdev.
  set (n := INR (length y)) in *. set (sxx := rsum (map (nsq Rops) x)) in *.
  set (syy := rsum (map (nsq Rops) y)) in *. set (sxy := rsum (map2 (nmul Rops) x y)) in *.
  set (sx := rsum x) in *. set (sy := rsum y) in *.
  set (D := n * sxx - sx * sx) in *.
  set (a := (n * sxy - sx * sy) / D) in *.
  set (b := sy / n - a * sx / n) in *.
  set (dev := rsum (map (fun u => (u - rmean x) * (u - rmean x)) x)) in *.
  change (0 < D) in HD. change (D = n * dev) in Hdev.
  change (n * Q l a b = n * syy - sy * sy - a * a * D) in HnQ.
  assert (0 < dev) as Hdevp.
  { destruct (Rlt_or_le 0 dev); [assumption|]. exfalso. nra. }
  set (s := resid_var x y a b).
  assert (residuals x y a b = Q l a b) as EQ by reflexivity.
  assert (0 <= s) as Hs.
  { unfold s, resid_var. destruct (2 <? length y)%nat eqn:E; [|lra]. apply Nat.ltb_lt in E.
    apply Rle_mult_inv_pos; [rewrite EQ; apply Hnn|]. apply lt_0_INR. lia. }
  set (sv := if (0 <? Z.of_nat (length y) - 2)%Z
             then (n * syy - sy * sy - a * a * D) / IZR (Z.of_nat (length y) * (Z.of_nat (length y) - 2))
             else 0).
  assert (linear_fit Rops x y = (ra <- msqrt Rops (n * sv / D) ;;
            rb <- msqrt Rops (n * sv / D * sxx / n) ;; Ok (a, b, ra, rb))) as EL.
  { unfold linear_fit. cbv zeta. rewrite !nsum_R, nofnat_R. reflexivity. }
  assert (sv = s) as Esv.
  { unfold sv, s, resid_var. destruct (Nat.ltb_spec 2 (length y)) as [H2|H2].
    - destruct (Z.ltb_spec 0 (Z.of_nat (length y) - 2)); [|lia].
      rewrite <- HnQ, EQ, mult_IZR, <- INR_IZR_INZ. fold n.
      replace (Z.of_nat (length y) - 2)%Z with (Z.of_nat (length y - 2)) by lia.
      rewrite <- INR_IZR_INZ. field. split; [|lra]. apply not_0_INR. lia.
    - destruct (Z.ltb_spec 0 (Z.of_nat (length y) - 2)); [lia|]. reflexivity. }
  assert (n * sv / D = s / dev) as Esa.
  { rewrite Esv, Hdev. field. split; lra. }
  rewrite Esa in EL.
  assert (0 <= s / dev) as Hsa by (apply Rle_mult_inv_pos; lra).
  assert (0 <= sxx) as Hsxx.
  { apply rsum_nonneg. intros w Hw. apply in_map_iff in Hw. destruct Hw as [r [<- _]]. apply Rle_0_sqr. }
  assert (0 <= s / dev * sxx / n) as Hsb.
  { apply Rle_mult_inv_pos; [|assumption]. apply Rmult_le_pos; assumption. }
  rewrite !msqrt_R in EL by assumption. cbn [bind] in EL.
  exists a, b, (sqrt (s / dev)), (sqrt (s / dev * sxx / n)). split; [exact EL|].
  split; [exact Hmin|]. split; [exact Huniq|]. split; [reflexivity|].
  rewrite sqrt_sqrt by assumption. f_equal. unfold rmean. rewrite map_length, Hl.
  change (rsum (map (fun u => u * u) x)) with sxx. fold n. field. lra.
Qed.

(** Points on a line give that line and zero errors. *)
Lemma linear_fit_exact : forall (x : list R) a0 b0, (exists u v, In u x /\ In v x /\ u <> v) ->
  linear_fit Rops x (map (fun u => a0 * u + b0) x) = Ok (a0, b0, 0, 0).
Proof.
  intros x a0 b0 Hx.
  assert (residuals x (map (fun u => a0 * u + b0) x) a0 b0 = 0) as R0.
  { unfold residuals. clear Hx. induction x as [|u x IH]; [reflexivity|].
    cbn [map combine rsum fst snd]. rewrite IH. ring. }
  destruct (linear_fit_spec x (map (fun u => a0 * u + b0) x)) as [a [b [ea [eb [E [Hm [Hu [Ea Eb]]]]]]]];
    [rewrite map_length; reflexivity|assumption|].
  assert (residuals x (map (fun u => a0 * u + b0) x) a b = 0) as R1.
  { apply Rle_antisym; [rewrite <- R0; apply Hm|]. apply (Q_nonneg (combine x _)). }
  destruct (Hu a0 b0) as [Eqa Eqb]; [lra|]. rewrite E. subst a b.
  assert (ea = 0) as ->.
  { rewrite Ea. unfold resid_var. rewrite R0. destruct (2 <? _)%nat; unfold Rdiv; rewrite !Rmult_0_l; apply sqrt_0. }
  rewrite Eb, !Rmult_0_l, sqrt_0. reflexivity.
Qed.
