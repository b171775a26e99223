(** Proofs about logx_grid in double precision (C134): errors of logarithms. *)
From Coq Require Import List ZArith Bool Arith Reals Lia Lra Psatz Floats.SpecFloat.
From Verif Require Import PyBase PyBaseFacts Num NumFacts P_Text F64Round F64Ops F64Facts P_F64Mean P_F64Time P_F64Dot M_Helpers M_Logx64 Spec_Logx64.
Import ListNotations.
Local Open Scope R_scope.

(** x is y up to a factor exp(e) *)
Definition lnear (e x y : R) : Prop := 0 < x /\ 0 < y /\ Rabs (ln x - ln y) <= e.

Lemma ln_upper : forall t, -1 < t -> ln (1 + t) <= t.
Proof. intros t H. rewrite <- (ln_exp t) at 2. destruct (Req_dec t 0) as [->|N]; [rewrite Rplus_0_r, ln_1, exp_0, ln_1; lra|]. left. apply ln_increasing; [lra|]. apply exp_ineq1. exact N. Qed.

Lemma ln_abs : forall t, Rabs t <= / 2 -> Rabs (ln (1 + t)) <= 2 * Rabs t.
Proof.
  intros t H. apply Rabs_le_inv in H. pose proof (ln_upper t ltac:(lra)) as U1.
  assert (L1 : - ln (1 + t) <= - t / (1 + t)).
  { rewrite <- ln_Rinv by lra. replace (/ (1 + t)) with (1 + - t / (1 + t)) by (field; lra). apply ln_upper. unfold Rdiv.
    assert (- t / (1 + t) = / (1 + t) - 1) by (field; lra). unfold Rdiv in *. rewrite H0. pose proof (Rinv_0_lt_compat (1 + t) ltac:(lra)). lra. }
  assert (L2 : - t / (1 + t) <= 2 * Rabs t).
  { apply Rmult_le_reg_r with (1 + t); [lra|]. unfold Rdiv. rewrite Rmult_assoc, Rinv_l by lra. pose proof (Rle_abs (- t)) as Q. rewrite Rabs_Ropp in Q. pose proof (Rabs_pos t). nra. }
  pose proof (Rle_abs t). pose proof (Rabs_pos t). apply Rabs_le. split; lra.
Qed.

Lemma lnear_refl : forall x, 0 < x -> lnear 0 x x.
Proof. intros x H. split; [exact H|]. split; [exact H|]. rewrite Rminus_diag_eq, Rabs_R0 by reflexivity. lra. Qed.
Lemma lnear_weaken : forall e e' x y, e <= e' -> lnear e x y -> lnear e' x y.
Proof. intros e e' x y H [A [B C]]. split; [exact A|]. split; [exact B|lra]. Qed.
Lemma lnear_trans : forall e f x y z, lnear e x y -> lnear f y z -> lnear (e + f) x z.
Proof. intros e f x y z [A [B C]] [A' [B' C']]. split; [exact A|]. split; [exact B'|]. replace (ln x - ln z) with ((ln x - ln y) + (ln y - ln z)) by ring. eapply Rle_trans; [apply Rabs_triang|]. lra. Qed.
Lemma lnear_mul : forall e f x y z w, lnear e x y -> lnear f z w -> lnear (e + f) (x * z) (y * w).
Proof.
  intros e f x y z w [A [B C]] [A' [B' C']]. split; [apply Rmult_lt_0_compat; assumption|]. split; [apply Rmult_lt_0_compat; assumption|]. rewrite !ln_mult by assumption.
  replace (ln x + ln z - (ln y + ln w)) with ((ln x - ln y) + (ln z - ln w)) by ring. eapply Rle_trans; [apply Rabs_triang|]. lra.
Qed.
Lemma lnear_round : forall t x y, 0 < y -> 0 <= t <= / 2 -> Rabs (x - y) <= t * y -> lnear (2 * t) x y.
Proof.
  intros t x y Py Ht H. set (s := x / y - 1). assert (Ex : x = y * (1 + s)) by (unfold s; field; lra).
  assert (Hs : Rabs s <= t).
  { apply Rmult_le_reg_r with y; [exact Py|]. rewrite <- (Rabs_right y) at 1 by lra. rewrite <- Rabs_mult. replace (s * y) with (x - y) by (unfold s; field; lra). exact H. }
  assert (Q : -/2 <= s) by (apply Rabs_le_inv in Hs; lra). split; [rewrite Ex; apply Rmult_lt_0_compat; lra|]. split; [exact Py|].
  rewrite Ex, ln_mult by lra. replace (ln y + ln (1 + s) - ln y) with (ln (1 + s)) by ring. pose proof (ln_abs s ltac:(lra)). lra.
Qed.
Lemma lnear_error : forall e x y, lnear e x y -> e <= / 2 -> Rabs (x - y) <= 2 * e * y.
Proof.
  intros e x y [A [B C]] He. set (t := ln x - ln y) in *. assert (Ex : x = y * exp t).
  { unfold t, Rminus. rewrite exp_plus, exp_Ropp, !exp_ln by assumption. field. lra. }
  apply Rabs_le_inv in C. assert (Q1 : exp t - 1 <= 2 * e).
  { assert (E1 : 1 + - t <= exp (- t)) by (destruct (Req_dec t 0) as [->|N]; [rewrite Ropp_0, exp_0; lra|left; apply exp_ineq1; lra]).
    rewrite exp_Ropp in E1. assert (P : 0 < exp t) by apply exp_pos. assert ((1 - t) * exp t <= 1).
    { apply Rle_trans with (/ exp t * exp t); [apply Rmult_le_compat_r; lra|]. rewrite Rinv_l by lra. lra. }
    destruct (Rle_lt_dec t 0) as [N|N]; [assert (exp t <= 1) by (rewrite <- exp_0; destruct N as [N| ->]; [left; apply exp_increasing; exact N|lra]); lra|]. nra. }
  assert (Q2 : - (2 * e) <= exp t - 1).
  { assert (1 + t <= exp t) by (destruct (Req_dec t 0) as [->|N]; [rewrite exp_0; lra|left; apply exp_ineq1; exact N]). lra. }
  replace (x - y) with (y * (exp t - 1)) by (rewrite Ex; ring). rewrite Rabs_mult, (Rabs_right y) by lra. rewrite Rmult_comm. apply Rmult_le_compat_r; [lra|]. apply Rabs_le. lra.
Qed.

Lemma ln_p2 : forall k, ln (p2 k) = IZR k * ln 2.
Proof. intros k. unfold p2. rewrite powerRZ_Rpower by lra. apply ln_exp. Qed.
Lemma ln2_bounds : / 2 < ln 2 <= 1.
Proof. split; [apply ln_lt_2|]. replace 2 with (1 + 1) by lra. apply ln_upper. lra. Qed.
Lemma p2_range : forall k x, 0 < x -> (0 <= k)%Z -> Rabs (ln x) <= IZR k * ln 2 -> p2 (- k) <= x <= p2 k.
Proof.
  intros k x Px Hk H. apply Rabs_le_inv in H. pose proof (p2_pos k). pose proof (p2_pos (- k)). split.
  - destruct (Rle_lt_dec (p2 (- k)) x) as [L|L]; [exact L|]. apply ln_increasing in L; [|exact Px]. rewrite ln_p2, opp_IZR in L. lra.
  - destruct (Rle_lt_dec x (p2 k)) as [L|L]; [exact L|]. apply ln_increasing in L; [|lra]. rewrite ln_p2 in L. lra.
Qed.

Section Powers.
Variable pow : f64 -> f64 -> f64.
Hypothesis Hpow : accurate_power pow.

Lemma pow_near : forall x y X Y err, ok x -> ok y -> 0 < fval x -> 0 < X -> Rabs (fval y * ln (fval x) - Y * ln X) <= err -> Rabs (Y * ln X) + err <= 1000 * ln 2 ->
  ok (pow x y) /\ lnear (err + 8 * u) (fval (pow x y)) (Rpower X Y).
Proof.
  intros x y X Y err Kx Ky Px PX H B. pose proof u_small as U.
  assert (E0 : ln (Rpower (fval x) (fval y)) = fval y * ln (fval x)) by (unfold Rpower; apply ln_exp).
  assert (P0 : 0 < Rpower (fval x) (fval y)) by (unfold Rpower; apply exp_pos).
  assert (A : Rabs (fval y * ln (fval x)) <= 1000 * ln 2).
  { replace (fval y * ln (fval x)) with ((fval y * ln (fval x) - Y * ln X) + Y * ln X) by ring. eapply Rle_trans; [apply Rabs_triang|]. lra. }
  destruct (Hpow x y Kx Ky Px) as [K E]. { apply (p2_range 1000); [exact P0|lia|]. rewrite E0. exact A. }
  split; [exact K|]. apply lnear_weaken with (2 * (4 * u) + err); [lra|]. apply lnear_trans with (Rpower (fval x) (fval y)).
  - apply lnear_round; [exact P0|lra|exact E].
  - split; [exact P0|]. split; [unfold Rpower; apply exp_pos|]. rewrite E0. unfold Rpower. rewrite ln_exp. exact H.
Qed.

Variable n : nat.
Hypothesis Hn : (1 <= n)%nat.
Hypothesis Hn40 : (Z.of_nat n <= 2 ^ 40)%Z.
Let e64 : f64 := fdiv (n1 F64ops) (f64_ofZ (Z.of_nat n)).

Lemma INR_n : 1 <= INR n <= p2 40.
Proof. split; [replace 1 with (INR 1) by reflexivity; apply le_INR; exact Hn|]. rewrite INR_IZR_INZ, (p2_Z 40) by lia. apply IZR_le. exact Hn40. Qed.

Lemma inverse_n : ok e64 /\ Rabs (fval e64 - / INR n) <= u * / INR n.
Proof.
  pose proof INR_n as [N1 N2]. destruct (ofZ_exact (Z.of_nat n) ltac:(lia)) as [Kn En]. rewrite <- INR_IZR_INZ in En.
  destruct (ofZ_exact 1 ltac:(lia)) as [K1 E1].
  pose proof (div_spec (f64_ofZ 1) _ (proj1 K1) (proj1 Kn) (proj2 K1) (proj2 Kn) ltac:(rewrite En; lra)) as M. rewrite En, E1 in M. unfold Rdiv in M. rewrite Rmult_1_l in M.
  assert (I1 : 0 < / INR n <= 1) by (split; [apply Rinv_0_lt_compat; lra|]; rewrite <- Rinv_1; apply Rinv_le_contravar; lra).
  assert (One : p2 0 = 1) by reflexivity.
  destruct (rounded_bounded _ _ (p2 0) M (format_p2 0 ltac:(lia)) ltac:(rewrite Rabs_right by lra; lra) (p2_lt 0 1024 ltac:(lia))) as [K _].
  split; [exact K|]. rewrite <- (Rabs_right (/ INR n)) at 2 by lra. apply (rounded_relative _ _ M K). right. rewrite Rabs_right by lra.
  apply Rle_trans with (p2 (-40)); [apply p2_le; lia|]. replace (p2 (-40)) with (/ p2 40); [apply Rinv_le_contravar; [lra|exact N2]|].
  apply Rmult_eq_reg_l with (p2 40); [|pose proof (p2_pos 40); lra]. rewrite Rinv_r by (pose proof (p2_pos 40); lra). rewrite <- p2_add. reflexivity.
Qed.

Variables (r64 : f64) (X : R).
Hypothesis Kr : ok r64.
Hypothesis Hr : lnear (2 * u) (fval r64) X.
Hypothesis HX : Rabs (ln X) <= 800 * ln 2.
Let xx : f64 := pow r64 e64.

Lemma small_u : p2 40 * u <= / 1000.
Proof. unfold u. rewrite <- p2_add. change (40 + -53)%Z with (-13)%Z. change (p2 (-13)) with (/ 2 ^ 13). apply Rinv_le_contravar; [lra|]. cbn [Rpow_def.pow]. lra. Qed.

Lemma root_near : ok xx /\ lnear (u * / INR n * (Rabs (ln X) + 3) + 8 * u) (fval xx) (Rpower X (/ INR n)).
Proof.
  pose proof INR_n as [N1 N2]. destruct inverse_n as [Ke Ee]. pose proof u_small as U. pose proof ln2_bounds as L2. destruct Hr as [Pr [PX Er]].
  assert (I1 : 0 < / INR n <= 1) by (split; [apply Rinv_0_lt_compat; lra|]; rewrite <- Rinv_1; apply Rinv_le_contravar; lra).
  set (i := / INR n) in *. set (L := Rabs (ln X)) in *. pose proof (Rabs_pos (ln X)) as PL. fold L in PL.
  assert (Lr : Rabs (ln (fval r64)) <= L + 2 * u) by (replace (ln (fval r64)) with ((ln (fval r64) - ln X) + ln X) by ring; eapply Rle_trans; [apply Rabs_triang|]; fold L; lra).
  assert (E : Rabs (fval e64 * ln (fval r64) - i * ln X) <= u * i * (L + 3)).
  { replace (fval e64 * ln (fval r64) - i * ln X) with ((fval e64 - i) * ln (fval r64) + i * (ln (fval r64) - ln X)) by ring. eapply Rle_trans; [apply Rabs_triang|]. rewrite !Rabs_mult, (Rabs_right i) by lra.
    assert (A1 : Rabs (fval e64 - i) * Rabs (ln (fval r64)) <= u * i * (L + 2 * u)) by (apply Rmult_le_compat; [apply Rabs_pos|apply Rabs_pos|exact Ee|exact Lr]).
    assert (A2 : i * Rabs (ln (fval r64) - ln X) <= i * (2 * u)) by (apply Rmult_le_compat_l; lra). assert (0 <= u * i) by (apply Rmult_le_pos; lra). nra. }
  apply (pow_near r64 e64 X i _ Kr Ke Pr PX E). rewrite Rabs_mult, (Rabs_right i) by lra. fold L.
  assert (i * L <= L) by nra. assert (u * i * (L + 3) <= 1) by (assert (u * i <= / 1000000) by nra; assert (0 <= u * i) by (apply Rmult_le_pos; lra); nra). lra.
Qed.

Lemma powers_near : forall j, (j <= n)%nat -> ok (pow xx (f64_ofZ (Z.of_nat j))) /\
  lnear (u * (Rabs (ln X) + 8 * INR j + 11)) (fval (pow xx (f64_ofZ (Z.of_nat j)))) (Rpower X (INR j / INR n)).
Proof.
  intros j Hj. pose proof INR_n as [N1 N2]. destruct root_near as [Kx Hx]. pose proof u_small as U. pose proof ln2_bounds as L2. pose proof small_u as S.
  destruct (ofZ_exact (Z.of_nat j) ltac:(lia)) as [Kj Ej]. rewrite <- INR_IZR_INZ in Ej. destruct Hr as [_ [PX _]].
  assert (Jn : 0 <= INR j <= INR n) by (split; [apply pos_INR|apply le_INR; exact Hj]).
  assert (I1 : 0 < / INR n <= 1) by (split; [apply Rinv_0_lt_compat; lra|]; rewrite <- Rinv_1; apply Rinv_le_contravar; lra).
  assert (Ji : 0 <= INR j * / INR n <= 1).
  { split; [apply Rmult_le_pos; lra|]. apply Rmult_le_reg_r with (INR n); [lra|]. rewrite Rmult_assoc, Rinv_l by lra. lra. }
  set (L := Rabs (ln X)) in *. pose proof (Rabs_pos (ln X)) as PL. fold L in PL.
  destruct Hx as [Px [PR Ex]]. unfold Rpower in Ex at 1. rewrite ln_exp in Ex.
  assert (E : Rabs (fval (f64_ofZ (Z.of_nat j)) * ln (fval xx) - INR j / INR n * ln X) <= u * (L + 3) + 8 * INR j * u).
  { rewrite Ej. replace (INR j * ln (fval xx) - INR j / INR n * ln X) with (INR j * (ln (fval xx) - / INR n * ln X)) by (unfold Rdiv; ring). rewrite Rabs_mult, (Rabs_right (INR j)) by lra.
    eapply Rle_trans; [apply Rmult_le_compat_l; [lra|exact Ex]|]. replace (INR j * (u * / INR n * (L + 3) + 8 * u)) with (INR j * / INR n * (u * (L + 3)) + 8 * INR j * u) by ring.
    apply Rplus_le_compat_r. rewrite <- (Rmult_1_l (u * (L + 3))) at 2. apply Rmult_le_compat_r; [apply Rmult_le_pos; lra|lra]. }
  destruct (pow_near xx _ X (INR j / INR n) _ Kx Kj Px PX E) as [K W].
  { unfold Rdiv at 1. rewrite Rabs_mult, (Rabs_right (INR j * / INR n)) by lra. fold L. assert (INR j * / INR n * L <= L) by nra.
    assert (INR j * u <= / 1000) by (pose proof (Rmult_le_compat_r u _ _ ltac:(lra) (Rle_trans _ _ _ (proj2 Jn) N2)); lra). assert (u * (L + 3) <= 1) by nra. lra. }
  split; [exact K|]. apply lnear_weaken with (2 := W). lra.
Qed.
End Powers.
