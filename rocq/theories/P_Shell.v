(** Shell volumes. *)
From Coq Require Import List ZArith Bool Arith Lia Reals Lra Psatz.
From Verif Require Import PyBase Num NumFacts M_Helpers M_Correlation M_Dynamics M_Realspace Spec_Pairs.
Import ListNotations.
Local Open Scope R_scope.

Lemma npow_R : forall (x : R) n, npow Rops x n = x ^ n.
Proof. intros x n. induction n as [|n IH]; [reflexivity|]. cbn [npow pow]. rewrite IH. reflexivity. Qed.

Lemma ball_step : forall d r, ball (S (S d)) r = 2 * PI / INR (d + 2) * (r * r) * ball d r.
Proof.
  intros d r. unfold ball. cbn [ball_pair]. destruct (ball_pair d r) as [v w]. cbn [fst snd]. reflexivity.
Qed.
Lemma ball_0 : forall r, ball 0 r = 1. Proof. reflexivity. Qed.
Lemma ball_1 : forall r, ball 1 r = 2 * r. Proof. reflexivity. Qed.

Lemma ball_even : forall m r, ball (2 * m) r = PI ^ m * r ^ (2 * m) / INR (fact m).
Proof.
  induction m as [|m IH]; intros r.
  - cbn. field.
  - replace (2 * S m)%nat with (S (S (2 * m))) by lia. rewrite ball_step, IH.
    rewrite fact_simpl, mult_INR. pose proof (INR_fact_neq_0 m). cbn [pow].
    assert (INR (2 * m + 2) = 2 * INR (S m)) as ->.
    { replace (2 * m + 2)%nat with (2 * S m)%nat by lia. rewrite mult_INR. cbn [INR]. lra. }
    pose proof (not_0_INR (S m) ltac:(lia)). field. split; assumption.
Qed.

Fixpoint odd_fact (m : nat) : Z := match m with O => 1 | S m => (Z.of_nat (2 * m + 3) * odd_fact m)%Z end.
Lemma odd_fact_odd : forall m, Z.odd (odd_fact m) = true.
Proof.
  induction m as [|m IH]; [reflexivity|]. cbn [odd_fact]. rewrite Z.odd_mul, IH, andb_true_r.
  replace (Z.of_nat (2 * m + 3)) with (1 + 2 * (Z.of_nat m + 1))%Z by lia.
  rewrite Z.odd_add_mul_2. reflexivity.
Qed.
Lemma odd_fact_pos : forall m, (0 < odd_fact m)%Z.
Proof. induction m; cbn [odd_fact]; lia. Qed.

Lemma ball_odd : forall m r, ball (2 * m + 1) r = 2 ^ (m + 1) * PI ^ m * r ^ (2 * m + 1) / IZR (odd_fact m).
Proof.
  induction m as [|m IH]; intros r.
  - rewrite ball_1. cbn. field.
  - replace (2 * S m + 1)%nat with (S (S (2 * m + 1))) by lia. rewrite ball_step, IH.
    cbn [odd_fact]. rewrite mult_IZR, <- INR_IZR_INZ.
    assert (IZR (odd_fact m) <> 0) by (apply not_0_IZR; pose proof (odd_fact_pos m); lia).
    replace (2 * m + 1 + 2)%nat with (2 * m + 3)%nat by lia.
    pose proof (not_0_INR (2 * m + 3) ltac:(lia)). replace (S m + 1)%nat with (S (m + 1)) by lia. cbn [pow].
    field. split; assumption.
Qed.

Lemma shell_even : forall m (r0 r1 : R), shell Rops PI (2 * m) r0 r1 = ball (2 * m) r1 - ball (2 * m) r0.
Proof.
  intros m r0 r1. rewrite !ball_even. pose proof (INR_fact_neq_0 m).
  destruct (Nat.eq_dec m 1) as [->|Hm].
  - cbn [Nat.mul Nat.add]. unfold shell. cbn [nmul nsub Rops]. rewrite !npow_R. change (num Rops) with R. cbn. field.
  - assert (shell Rops PI (2 * m) r0 r1
      = ndiv Rops (nmul Rops (npow Rops PI (Nat.div2 (2 * m))) (nsub Rops (npow Rops r1 (2 * m)) (npow Rops r0 (2 * m))))
          (nofnat Rops (fact (Nat.div2 (2 * m))))) as ->.
    { destruct m as [|[|m]]; [reflexivity|lia|]. replace (2 * S (S m))%nat with (S (S (S (S (2 * m))))) by lia. reflexivity. }
    rewrite Nat.div2_double.
    rewrite !npow_R, nofnat_R. rewrite (npow_R r1), (npow_R r0). cbn [nmul nsub ndiv Rops].
    change (num Rops) with R. generalize (r1 ^ (2 * m)) (r0 ^ (2 * m)) (PI ^ m). intros. field. assumption.
Qed.

Lemma shell_3 : forall r0 r1 : R, shell Rops PI 3 r0 r1 = ball 3 r1 - ball 3 r0.
Proof.
  intros. change 3%nat with (2 * 1 + 1)%nat at 2 3. rewrite !ball_odd. unfold shell. cbn [nmul nsub ndiv nofZ Rops]. rewrite !npow_R.
  change (num Rops) with R. cbn. field.
Qed.

Lemma shell_odd : forall m (r0 r1 : R), m <> 1%nat ->
  shell Rops PI (2 * m + 1) r0 r1 = PI ^ m * (r1 ^ (2 * m + 1) - r0 ^ (2 * m + 1)) / INR (fact m).
Proof.
  intros m r0 r1 Hm.
  assert (shell Rops PI (2 * m + 1) r0 r1
    = ndiv Rops (nmul Rops (npow Rops PI (Nat.div2 (2 * m + 1))) (nsub Rops (npow Rops r1 (2 * m + 1)) (npow Rops r0 (2 * m + 1))))
        (nofnat Rops (fact (Nat.div2 (2 * m + 1))))) as ->.
  { destruct m as [|[|m]]; [reflexivity|lia|]. replace (2 * S (S m) + 1)%nat with (S (S (S (S (2 * m + 1))))) by lia. reflexivity. }
  replace (2 * m + 1)%nat with (S (2 * m)) by lia. rewrite Nat.div2_succ_double, !npow_R, nofnat_R. reflexivity.
Qed.

Lemma pow_lt_mono : forall d (r0 r1 : R), 0 <= r0 -> r0 < r1 -> (1 <= d)%nat -> r0 ^ d < r1 ^ d.
Proof.
  intros d r0 r1 H0 H1. induction d as [|d IH]; intros Hd; [lia|]. destruct d as [|d]; [cbn; lra|].
  cbn [pow] in *. specialize (IH ltac:(lia)).
  assert (0 <= r0 * r0 ^ d) by (apply Rmult_le_pos; [lra|apply pow_le; lra]). apply Rmult_le_0_lt_compat; lra.
Qed.

Lemma shell_odd_wrong : forall m (r0 r1 : R), m <> 1%nat -> 0 <= r0 -> r0 < r1 ->
  shell Rops PI (2 * m + 1) r0 r1 <> ball (2 * m + 1) r1 - ball (2 * m + 1) r0.
Proof.
  intros m r0 r1 Hm H0 H1. rewrite shell_odd by exact Hm. rewrite !ball_odd.
  pose proof (pow_lt_mono (2 * m + 1) r0 r1 H0 H1 ltac:(lia)) as Hp.
  set (w := r1 ^ (2 * m + 1)) in *. set (w0 := r0 ^ (2 * m + 1)) in *. clearbody w w0.
  assert (0 < PI ^ m) as Hpi by (apply pow_lt, PI_RGT_0).
  pose proof (INR_fact_lt_0 m) as Hf. pose proof (IZR_lt _ _ (odd_fact_pos m)) as Ho. intros E.
  assert (IZR (odd_fact m) = 2 ^ (m + 1) * INR (fact m)) as E2.
  { apply (f_equal (fun v => v * (INR (fact m) * IZR (odd_fact m) / (PI ^ m * (w - w0))))) in E.
    assert (PI ^ m * (w - w0) / INR (fact m) * (INR (fact m) * IZR (odd_fact m) / (PI ^ m * (w - w0))) = IZR (odd_fact m)) as E3.
    { field. repeat split; lra. }
    rewrite E3 in E. rewrite E. field. repeat split; lra. }
  assert (odd_fact m = 2 * (2 ^ Z.of_nat m * Z.of_nat (fact m)))%Z as E4.
  { apply eq_IZR. rewrite E2, !mult_IZR, <- pow_IZR, <- INR_IZR_INZ, pow_add. cbn [pow]. ring. }
  pose proof (odd_fact_odd m) as Hodd. rewrite E4, Z.odd_mul in Hodd. discriminate.
Qed.

Lemma shell_pos : forall d (r0 r1 : R), 0 <= r0 -> r0 < r1 -> (1 <= d)%nat -> 0 < shell Rops PI d r0 r1.
Proof.
  intros d r0 r1 H0 H1 Hd. pose proof PI_RGT_0 as HP. pose proof (pow_lt_mono d r0 r1 H0 H1 Hd) as Hp.
  destruct (Nat.eq_dec d 2) as [->|N2].
  { change (0 < PI * (r1 ^ 2 - r0 ^ 2)). apply Rmult_lt_0_compat; lra. }
  destruct (Nat.eq_dec d 3) as [->|N3].
  { change (0 < 4 * PI / 3 * (r1 ^ 3 - r0 ^ 3)). apply Rmult_lt_0_compat; lra. }
  assert (shell Rops PI d r0 r1 = PI ^ (Nat.div2 d) * (r1 ^ d - r0 ^ d) / INR (fact (Nat.div2 d))) as ->.
  { rewrite <- (npow_R r1), <- (npow_R r0), <- (npow_R PI), <- nofnat_R. destruct d as [|[|[|[|d]]]]; [lia|reflexivity|congruence|congruence|reflexivity]. }
  apply Rdiv_lt_0_compat; [|apply INR_fact_lt_0]. apply Rmult_lt_0_compat; [apply pow_lt; exact HP|lra].
Qed.
