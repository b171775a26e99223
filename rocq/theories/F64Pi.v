(** math.pi: the double nearest to the number pi, from Machin's formula in the standard library. *)
From Coq Require Import Reals Machin Ratan Lra ZArith Lia Floats.SpecFloat.
From Verif Require Import PyBase Num P_Text F64Round F64Ops F64Facts.
Local Open Scope R_scope.

(** math.pi of Python: 0x1.921fb54442d18p+1 *)
Definition f64_pi : f64 := S754_finite false 7074237752028440 (-51).

Lemma pi_digits : 3141592653589793238 / 1000000000000000000 <= PI <= 3141592653589793239 / 1000000000000000000.
Proof.
  pose proof (proj1 (PI_2_3_7_ineq 9)) as A. pose proof (proj2 (PI_2_3_7_ineq 9)) as B.
  assert (E : forall k, PI_2_3_7_tg k = 2 * (/ 3 * (/ 9) ^ k * / IZR (2 * Z.of_nat k + 1)) + / 7 * (/ 49) ^ k * / IZR (2 * Z.of_nat k + 1)).
  { intros k. unfold PI_2_3_7_tg, Ratan_seq. replace (INR (2 * k + 1)) with (IZR (2 * Z.of_nat k + 1)) by (rewrite INR_IZR_INZ; f_equal; lia). rewrite !pow_add, !pow_mult.
    replace ((/ 3) ^ 2) with (/ 9) by field. replace ((/ 7) ^ 2) with (/ 49) by field. unfold Rdiv. rewrite !pow_1. ring. }
  assert (T0 : 8095238095238095238095 / 10000000000000000000000 <= PI_2_3_7_tg 0 <= 8095238095238095238096 / 10000000000000000000000) by (rewrite E; cbn [Z.of_nat Pos.of_succ_nat Pos.succ Z.mul Z.add Pos.mul Pos.add pow]; lra).
  assert (T1 : 256631753230392686174 / 10000000000000000000000 <= PI_2_3_7_tg 1 <= 256631753230392686175 / 10000000000000000000000) by (rewrite E; cbn [Z.of_nat Pos.of_succ_nat Pos.succ Z.mul Z.add Pos.mul Pos.add pow]; lra).
  assert (T2 : 16579903386326635898 / 10000000000000000000000 <= PI_2_3_7_tg 2 <= 16579903386326635899 / 10000000000000000000000) by (rewrite E; cbn [Z.of_nat Pos.of_succ_nat Pos.succ Z.mul Z.add Pos.mul Pos.add pow]; lra).
  assert (T3 : 1308155724763053563 / 10000000000000000000000 <= PI_2_3_7_tg 3 <= 1308155724763053564 / 10000000000000000000000) by (rewrite E; cbn [Z.of_nat Pos.of_succ_nat Pos.succ Z.mul Z.add Pos.mul Pos.add pow]; lra).
  assert (T4 : 112928119758671344 / 10000000000000000000000 <= PI_2_3_7_tg 4 <= 112928119758671345 / 10000000000000000000000) by (rewrite E; cbn [Z.of_nat Pos.of_succ_nat Pos.succ Z.mul Z.add Pos.mul Pos.add pow]; lra).
  assert (T5 : 10264149338421988 / 10000000000000000000000 <= PI_2_3_7_tg 5 <= 10264149338421989 / 10000000000000000000000) by (rewrite E; cbn [Z.of_nat Pos.of_succ_nat Pos.succ Z.mul Z.add Pos.mul Pos.add pow]; lra).
  assert (T6 : 964970207585066 / 10000000000000000000000 <= PI_2_3_7_tg 6 <= 964970207585067 / 10000000000000000000000) by (rewrite E; cbn [Z.of_nat Pos.of_succ_nat Pos.succ Z.mul Z.add Pos.mul Pos.add pow]; lra).
  assert (T7 : 92922432924640 / 10000000000000000000000 <= PI_2_3_7_tg 7 <= 92922432924641 / 10000000000000000000000) by (rewrite E; cbn [Z.of_nat Pos.of_succ_nat Pos.succ Z.mul Z.add Pos.mul Pos.add pow]; lra).
  assert (T8 : 9110031205259 / 10000000000000000000000 <= PI_2_3_7_tg 8 <= 9110031205260 / 10000000000000000000000) by (rewrite E; cbn [Z.of_nat Pos.of_succ_nat Pos.succ Z.mul Z.add Pos.mul Pos.add pow]; lra).
  assert (T9 : 905675411685 / 10000000000000000000000 <= PI_2_3_7_tg 9 <= 905675411686 / 10000000000000000000000) by (rewrite E; cbn [Z.of_nat Pos.of_succ_nat Pos.succ Z.mul Z.add Pos.mul Pos.add pow]; lra).
  assert (T10 : 91046730718 / 10000000000000000000000 <= PI_2_3_7_tg 10 <= 91046730719 / 10000000000000000000000) by (rewrite E; cbn [Z.of_nat Pos.of_succ_nat Pos.succ Z.mul Z.add Pos.mul Pos.add pow]; lra).
  assert (T11 : 9236624784 / 10000000000000000000000 <= PI_2_3_7_tg 11 <= 9236624785 / 10000000000000000000000) by (rewrite E; cbn [Z.of_nat Pos.of_succ_nat Pos.succ Z.mul Z.add Pos.mul Pos.add pow]; lra).
  assert (T12 : 944188310 / 10000000000000000000000 <= PI_2_3_7_tg 12 <= 944188311 / 10000000000000000000000) by (rewrite E; cbn [Z.of_nat Pos.of_succ_nat Pos.succ Z.mul Z.add Pos.mul Pos.add pow]; lra).
  assert (T13 : 97138714 / 10000000000000000000000 <= PI_2_3_7_tg 13 <= 97138715 / 10000000000000000000000) by (rewrite E; cbn [Z.of_nat Pos.of_succ_nat Pos.succ Z.mul Z.add Pos.mul Pos.add pow]; lra).
  assert (T14 : 10048832 / 10000000000000000000000 <= PI_2_3_7_tg 14 <= 10048833 / 10000000000000000000000) by (rewrite E; cbn [Z.of_nat Pos.of_succ_nat Pos.succ Z.mul Z.add Pos.mul Pos.add pow]; lra).
  assert (T15 : 1044502 / 10000000000000000000000 <= PI_2_3_7_tg 15 <= 1044503 / 10000000000000000000000) by (rewrite E; cbn [Z.of_nat Pos.of_succ_nat Pos.succ Z.mul Z.add Pos.mul Pos.add pow]; lra).
  assert (T16 : 109022 / 10000000000000000000000 <= PI_2_3_7_tg 16 <= 109023 / 10000000000000000000000) by (rewrite E; cbn [Z.of_nat Pos.of_succ_nat Pos.succ Z.mul Z.add Pos.mul Pos.add pow]; lra).
  assert (T17 : 11421 / 10000000000000000000000 <= PI_2_3_7_tg 17 <= 11422 / 10000000000000000000000) by (rewrite E; cbn [Z.of_nat Pos.of_succ_nat Pos.succ Z.mul Z.add Pos.mul Pos.add pow]; lra).
  assert (T18 : 1200 / 10000000000000000000000 <= PI_2_3_7_tg 18 <= 1201 / 10000000000000000000000) by (rewrite E; cbn [Z.of_nat Pos.of_succ_nat Pos.succ Z.mul Z.add Pos.mul Pos.add pow]; lra).
  assert (T19 : 126 / 10000000000000000000000 <= PI_2_3_7_tg 19 <= 127 / 10000000000000000000000) by (rewrite E; cbn [Z.of_nat Pos.of_succ_nat Pos.succ Z.mul Z.add Pos.mul Pos.add pow]; lra).
  unfold tg_alt in A, B. cbn [Nat.mul Nat.add sum_f_R0 pow] in A, B.
  lra.
Qed.

Lemma pi_value : fval f64_pi = 7074237752028440 / 2251799813685248.
Proof. unfold fval, f64_pi, sgn. simpl. lra. Qed.

Lemma pi_ok : ok f64_pi.
Proof. split; reflexivity. Qed.

Lemma pi_nearest : Rabs (fval f64_pi - PI) <= u * PI.
Proof.
  rewrite pi_value. pose proof pi_digits as P. assert (u = / 9007199254740992) by (unfold u, p2; simpl; lra). apply Rabs_le. rewrite H. lra.
Qed.
