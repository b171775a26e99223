(** Parabolas through three points in double precision. *)
From Coq Require Import List ZArith Bool Arith Reals Lia Lra Psatz Floats.SpecFloat.
From Verif Require Import PyBase PyBaseFacts Num NumFacts P_Text F64Round F64Ops F64Facts P_F64Mean P_F64Time P_F64Dot P_F64Dist P_F64Order M_Helpers Spec_Fit P_Helpers P_Fit64 P_Stress64.
Import ListNotations.
Local Open Scope R_scope.

(** ** A calculus of relative errors: x is y up to K roundings of numbers of size a *)
Definition app (i : Z) (K : nat) (x : f64) (y a : R) : Prop := ok x /\ Rabs (fval x) <= p2 i /\ nearby K 0 (fval x) y a.

Lemma nearby_size : forall K b x y a a', a <= a' -> nearby K b x y a -> nearby K b x y a'.
Proof.
  intros K b x y a a' H [A [B C]]. split; [lra|]. split; [exact B|]. eapply Rle_trans; [exact C|]. apply Rplus_le_compat_r. apply Rmult_le_compat_l; [pose proof (high_pos K); lra|exact H].
Qed.
Lemma nearby_absorb : forall K x y a, nearby K tiny x y a -> p2 (-1000) <= a -> nearby (S K) 0 x y a.
Proof.
  intros K x y a [A [B C]] H. split; [exact A|]. split; [lra|]. eapply Rle_trans; [exact C|]. cbn [pow]. pose proof (high_pos K) as Q. set (q := (1 + u) ^ K) in *. clearbody q.
  assert (T : tiny <= u * a).
  { apply Rle_trans with (u * p2 (-1000)); [|apply Rmult_le_compat_l; [pose proof u_small; lra|exact H]]. unfold tiny, u. rewrite <- p2_add. apply p2_le. lia. }
  assert (q * tiny <= q * (u * a)) by (apply Rmult_le_compat_l; lra). lra.
Qed.
Lemma high_fine : forall K, (K <= 20)%nat -> (1 + u) ^ K - 1 <= 101 / 100 * INR K * u.
Proof.
  induction K as [|K IH]; intros H; [cbn; lra|]. specialize (IH ltac:(lia)). cbn [pow]. rewrite S_INR. pose proof u_small as U.
  assert (B : INR K <= 20) by (replace 20 with (INR 20) by (cbn; lra); apply le_INR; lia). pose proof (pos_INR K) as P. set (k := INR K) in *. set (q := (1 + u) ^ K) in *. clearbody k q.
  assert (ku : k * u <= 20 * / 1000000) by (apply Rmult_le_compat; lra). assert (k * u * u <= 20 * / 1000000 * u) by (apply Rmult_le_compat_r; lra).
  assert (u * (q - 1) <= u * (101 / 100 * k * u)) by (apply Rmult_le_compat_l; lra). nra.
Qed.
Lemma app_self : forall i x a, ok x -> Rabs (fval x) <= p2 i -> Rabs (fval x) <= a -> app i 0 x (fval x) a.
Proof. intros i x a K B H. split; [exact K|]. split; [exact B|]. apply nearby_size with (1 := H). apply nearby_refl. Qed.
Lemma app_diff : forall i x y a, ok x -> ok y -> Rabs (fval x) <= p2 i -> Rabs (fval y) <= p2 i -> (-1074 <= i < 1023)%Z -> Rabs (fval x - fval y) <= a -> app (i + 1) 1 (fsub x y) (fval x - fval y) a.
Proof.
  intros i x y a Kx Ky Bx By Hi H. destruct (sub_bound i x y Kx Ky Bx By Hi) as [K [B E]]. split; [exact K|]. split; [exact B|]. apply nearby_size with (1 := H).
  replace 0 with (0 + 0) by ring. apply nearby_round with (fval x - fval y); [lra|apply nearby_refl|lra].
Qed.
Lemma app_mul : forall i j K K' x y a x' y' a', app i K x y a -> app j K' x' y' a' -> (-1074 <= i + j < 1024)%Z -> p2 (-1000) <= a * a' -> app (i + j) (K + K' + 2) (fmul x x') (y * y') (a * a').
Proof.
  intros i j K K' x y a x' y' a' [Kx [Bx Nx]] [Ky [By Ny]] Hi H. destruct (mul_bound i j x x' Kx Ky Bx By Hi) as [Kz [B E]]. split; [exact Kz|]. split; [exact B|].
  replace (K + K' + 2)%nat with (S (S (K + K'))) by lia. apply nearby_absorb; [|exact H]. replace tiny with (0 + tiny) by ring. apply nearby_round with (fval x * fval x'); [left; apply tiny_pos| |exact E].
  pose proof (nearby_mul _ _ _ _ _ _ _ _ _ _ Nx Ny) as Q. replace (a * 0 + 0 * a' + 0 * 0) with 0 in Q by ring. exact Q.
Qed.
Lemma app_add : forall i K K' x y a x' y' a', app i K x y a -> app i K' x' y' a' -> (-1074 <= i < 1023)%Z -> app (i + 1) (S (Nat.max K K')) (fadd x x') (y + y') (a + a').
Proof.
  intros i K K' x y a x' y' a' [Kx [Bx Nx]] [Ky [By Ny]] Hi. pose proof (add_spec x x' (proj1 Kx) (proj1 Ky) (proj2 Kx) (proj2 Ky)) as R1.
  destruct (rounded_bounded _ _ (p2 (i + 1)) R1) as [Kz B]; [apply format_p2; lia|rewrite p2_succ; apply Rle_trans with (1 := Rabs_triang _ _); lra|apply p2_lt; lia|].
  split; [exact Kz|]. split; [exact B|]. replace 0 with (0 + 0 + 0) by ring. apply nearby_round with (fval x + fval x'); [lra| |rewrite Rplus_0_r; apply add_relative; assumption].
  apply nearby_add; [apply nearby_weaken with K 0|apply nearby_weaken with K' 0]; try lia; try lra; assumption.
Qed.
Lemma app_weaken : forall i i' K K' x y a a', (i <= i')%Z -> (K <= K')%nat -> a <= a' -> app i K x y a -> app i' K' x y a'.
Proof.
  intros i i' K K' x y a a' Hi HK Ha [A [B C]]. split; [exact A|]. split; [eapply Rle_trans; [exact B|apply p2_le; exact Hi]|]. apply nearby_size with (1 := Ha). apply nearby_weaken with K 0; [exact HK|lra|exact C].
Qed.
Lemma app_error : forall i K x y a, app i K x y a -> (K <= 20)%nat -> Rabs (fval x - y) <= 101 / 100 * INR K * u * a.
Proof.
  intros i K x y a [_ [_ [A [_ C]]]] H. eapply Rle_trans; [exact C|]. rewrite Rmult_0_r, Rplus_0_r. apply Rmult_le_compat_r; [pose proof (Rabs_pos y); lra|apply high_fine; exact H].
Qed.

Lemma tiny_small : forall i j m M, 0 <= m <= p2 i -> p2 j <= M -> (i + 60 <= j + 1075)%Z -> tiny * m <= / 100 * (u * M).
Proof.
  intros i j m M Hm HM H. pose proof tiny_pos as T. apply Rle_trans with (tiny * p2 i); [apply Rmult_le_compat_l; lra|].
  apply Rle_trans with (/ 100 * (u * p2 j)); [|apply Rmult_le_compat_l; [lra|]; apply Rmult_le_compat_l; [pose proof u_small; lra|exact HM]].
  unfold tiny, u. rewrite <- !p2_add. assert (Q : p2 (-1075 + i) * 128 <= p2 (-53 + j)) by (replace 128 with (p2 7) by (rewrite (p2_Z 7) by lia; reflexivity); rewrite <- p2_add; apply p2_le; lia). pose proof (p2_pos (-1075 + i)). lra.
Qed.

Lemma format_double : forall x k, (0 <= k)%Z -> format x -> format (p2 k * x).
Proof.
  intros x k Hk [m [e [-> [Hm He]]]]. exists m, (k + e)%Z. split; [rewrite p2_add; ring|]. split; [exact Hm|lia].
Qed.
Lemma scaled_exact : forall k z a, (0 <= k <= 10)%Z -> ok z -> fval z = p2 k -> ok a -> Rabs (fval a) <= p2 900 -> ok (fmul z a) /\ fval (fmul z a) = p2 k * fval a.
Proof.
  intros k z a Hk Kz Ez Ka Ba. pose proof (mul_spec z a (proj1 Kz) (proj1 Ka) (proj2 Kz) (proj2 Ka)) as R1. rewrite Ez in R1. apply rounded_exact; [exact R1|apply format_double; [lia|apply ok_format; exact Ka]|].
  rewrite Rabs_mult, (Rabs_right (p2 k)) by (left; apply p2_pos). apply Rle_lt_trans with (p2 k * p2 900); [apply Rmult_le_compat_l; [left; apply p2_pos|exact Ba]|]. rewrite <- p2_add. apply p2_lt. lia.
Qed.

(** ** The vertex of nearby coefficients *)
Lemma vertex_near : forall A B a b X D h, 0 < D -> 0 < h <= X -> 2048 * (u * X) <= h -> h * D <= Rabs A -> Rabs A <= 2 * (X * D) -> Rabs B <= 2 * Rabs A * X ->
  Rabs (a - A) <= 18 * (u * (X * D)) -> Rabs (b - B) <= 26 * (u * (X * X * D)) ->
  let p := - B / (2 * A) in let p' := - b / (2 * a) in
  99 / 100 * (h * D) <= Rabs a /\ Rabs a <= 202 / 100 * (X * D) /\ Rabs p <= X /\ Rabs a * Rabs (p' - p) <= 31 * (u * (X * X * D)) /\ Rabs (p' - p) <= 32 * (u * (X * X / h)) /\ Rabs (p' - p) <= 16 / 1000 * X /\
  Rabs (a * (p' * p') - A * (p * p)) <= 81 * (u * (X * X * X * D)).
Proof.
  intros A B a b X D h HD Hh Hu LA UA HB Ea Eb p p'. pose proof u_small as U. assert (XD : 0 < X * D) by (apply Rmult_lt_0_compat; lra). assert (hD : 0 < h * D) by (apply Rmult_lt_0_compat; lra).
  assert (uXD : 2048 * (u * (X * D)) <= h * D) by (replace (2048 * (u * (X * D))) with (2048 * (u * X) * D) by ring; apply Rmult_le_compat_r; lra).
  assert (A0 : A <> 0) by (intros E; rewrite E, Rabs_R0 in LA; lra).
  assert (La : 99 / 100 * (h * D) <= Rabs a).
  { pose proof (Rabs_triang_inv A (A - a)) as W. replace (A - (A - a)) with a in W by ring. rewrite (Rabs_minus_sym A a) in W. lra. }
  assert (Ua : Rabs a <= 202 / 100 * (X * D)).
  { replace a with ((a - A) + A) by ring. eapply Rle_trans; [apply Rabs_triang|]. assert (u * (X * D) <= / 1000000 * (X * D)) by (apply Rmult_le_compat_r; lra). lra. }
  assert (a0 : a <> 0) by (intros E; rewrite E, Rabs_R0 in La; lra).
  assert (Pp : Rabs p <= X).
  { unfold p, Rdiv. rewrite Rabs_mult, Rabs_Ropp, Rabs_inv, Rabs_mult, (Rabs_right 2) by lra. apply Rmult_le_reg_r with (2 * Rabs A); [assert (0 < Rabs A) by (apply Rabs_pos_lt; exact A0); lra|].
    rewrite Rmult_assoc, Rinv_l, Rmult_1_r by (assert (0 < Rabs A) by (apply Rabs_pos_lt; exact A0); lra). lra. }
  assert (I : 2 * (a * (p' - p)) = (B - b) - 2 * ((a - A) * p)) by (unfold p, p'; field; split; assumption).
  assert (P1 : Rabs a * Rabs (p' - p) <= 31 * (u * (X * X * D))).
  { rewrite <- Rabs_mult. replace (a * (p' - p)) with (((B - b) - 2 * ((a - A) * p)) / 2) by lra. unfold Rdiv. rewrite Rabs_mult, (Rabs_right (/ 2)) by lra.
    assert (W : Rabs (B - b - 2 * ((a - A) * p)) <= 26 * (u * (X * X * D)) + 2 * (18 * (u * (X * D)) * X)).
    { unfold Rminus at 1. eapply Rle_trans; [apply Rabs_triang|]. rewrite Rabs_Ropp, Rabs_mult, (Rabs_right 2) by lra. rewrite (Rabs_minus_sym B b). apply Rplus_le_compat; [exact Eb|]. apply Rmult_le_compat_l; [lra|].
      rewrite Rabs_mult. apply Rmult_le_compat; try apply Rabs_pos; assumption. }
    replace (18 * (u * (X * D)) * X) with (18 * (u * (X * X * D))) in W by ring. lra. }
  assert (P2 : Rabs (p' - p) <= 32 * (u * (X * X / h))).
  { apply Rmult_le_reg_l with (99 / 100 * (h * D)); [lra|]. apply Rle_trans with (Rabs a * Rabs (p' - p)); [apply Rmult_le_compat_r; [apply Rabs_pos|exact La]|].
    apply Rle_trans with (1 := P1). replace (99 / 100 * (h * D) * (32 * (u * (X * X / h)))) with (99 * 32 / 100 * (u * (X * X * D))) by (field; lra).
    assert (0 < u * (X * X * D)) by (apply Rmult_lt_0_compat; [lra|]; apply Rmult_lt_0_compat; [apply Rmult_lt_0_compat; lra|lra]). lra. }
  assert (P3 : Rabs (p' - p) <= 16 / 1000 * X).
  { apply Rle_trans with (1 := P2). replace (u * (X * X / h)) with (u * X / h * X) by (field; lra).
    assert (u * X / h <= / 2048) by (apply Rmult_le_reg_r with h; [lra|]; unfold Rdiv; rewrite Rmult_assoc, Rinv_l by lra; lra).
    assert (u * X / h * X <= / 2048 * X) by (apply Rmult_le_compat_r; lra). lra. }
  split; [exact La|]. split; [exact Ua|]. split; [exact Pp|]. split; [exact P1|]. split; [exact P2|]. split; [exact P3|].
  replace (a * (p' * p') - A * (p * p)) with (a * (p' - p) * (p' + p) + (a - A) * (p * p)) by ring. eapply Rle_trans; [apply Rabs_triang|].
  assert (S1 : Rabs (p' + p) <= 2016 / 1000 * X) by (replace (p' + p) with ((p' - p) + (p + p)) by ring; eapply Rle_trans; [apply Rabs_triang|]; pose proof (Rabs_triang p p); lra).
  assert (S2 : Rabs (a * (p' - p) * (p' + p)) <= 31 * (u * (X * X * D)) * (2016 / 1000 * X)) by (rewrite Rabs_mult; apply Rmult_le_compat; try apply Rabs_pos; [rewrite Rabs_mult; exact P1|exact S1]).
  assert (S3 : Rabs ((a - A) * (p * p)) <= 18 * (u * (X * D)) * (X * X)) by (rewrite Rabs_mult; apply Rmult_le_compat; try apply Rabs_pos; [exact Ea|rewrite Rabs_mult; apply Rmult_le_compat; try apply Rabs_pos; exact Pp]).
  replace (31 * (u * (X * X * D)) * (2016 / 1000 * X)) with (31 * 2016 / 1000 * (u * (X * X * X * D))) in S2 by field. replace (18 * (u * (X * D)) * (X * X)) with (18 * (u * (X * X * X * D))) in S3 by ring.
  assert (0 < u * (X * X * X * D)) by (apply Rmult_lt_0_compat; [lra|]; apply Rmult_lt_0_compat; [apply Rmult_lt_0_compat; [apply Rmult_lt_0_compat|]|]; lra). lra.
Qed.

Lemma abs_bounds : forall v b, Rabs v <= b -> - b <= v <= b.
Proof. intros v b H. pose proof (Rle_abs v). pose proof (Rle_abs (- v)) as W. rewrite Rabs_Ropp in W. lra. Qed.

(** ** The coefficients in double precision, multiplied by the computed determinant *)
Lemma coefficients64 : forall x1 y1 x2 y2 x3 y3 X Y D h,
  ok x1 -> ok y1 -> ok x2 -> ok y2 -> ok x3 -> ok y3 ->
  Rabs (fval x1) <= X -> Rabs (fval x2) <= X -> Rabs (fval x3) <= X -> Rabs (fval y1) <= Y -> Rabs (fval y2) <= Y -> Rabs (fval y3) <= Y ->
  h <= fval x2 - fval x1 -> h <= fval x3 - fval x2 ->
  Rabs (fval y2 - fval y1) <= D -> Rabs (fval y1 - fval y3) <= D -> Rabs (fval y3 - fval y2) <= D -> D <= 4 * Y ->
  p2 (-60) <= h -> X <= p2 60 -> p2 (-120) <= D -> Y <= p2 60 ->
  let A := fval x3 * (fval y2 - fval y1) + fval x2 * (fval y1 - fval y3) + fval x1 * (fval y3 - fval y2) in
  let B := fval x3 * fval x3 * (fval y1 - fval y2) + fval x2 * fval x2 * (fval y3 - fval y1) + fval x1 * fval x1 * (fval y2 - fval y3) in
  let C := fval x2 * fval x3 * (fval x2 - fval x3) * fval y1 + fval x3 * fval x1 * (fval x3 - fval x1) * fval y2 + fval x1 * fval x2 * (fval x1 - fval x2) * fval y3 in
  let d := (fval x1 - fval x2) * (fval x1 - fval x3) * (fval x2 - fval x3) in
  exists a b c d', parabola_3points F64ops x1 y1 x2 y2 x3 y3 = Ok (a, b, c) /\ ok a /\ ok b /\ ok c /\
    Rabs (fval a) <= p2 310 /\ Rabs (fval b) <= p2 370 /\ Rabs (fval c) <= p2 430 /\
    2 * (h * h * h) <= Rabs d <= 8 * (X * X * X) /\ Rabs (d' - d) <= 8 * u * Rabs d /\ Rabs A <= 2 * (X * D) /\
    Rabs (fval a * d' - A) <= 18 * (u * (X * D)) /\ (Rabs B <= 4 * (X * X * D) -> Rabs (fval b * d' - B) <= 26 * (u * (X * X * D))) /\ Rabs C <= 6 * (X * X * X * Y) /\ Rabs (fval c * d' - C) <= 61 * (u * (X * X * X * Y)).
Proof.
  intros x1 y1 x2 y2 x3 y3 X Y D h K1 L1 K2 L2 K3 L3 X1 X2 X3 Y1 Y2 Y3 H12 H23 D21 D13 D32 DY Hh HX HD HY A B C d. pose proof u_small as U. pose proof (p2_pos (-60)) as P60. pose proof (p2_pos (-120)) as P120.
  apply abs_bounds in X1 as X1'. apply abs_bounds in X2 as X2'. apply abs_bounds in X3 as X3'. assert (hX : h <= X) by lra. assert (X0 : 0 < X) by lra. assert (D0 : 0 < D) by lra. assert (Y0 : 0 < Y) by lra.
  assert (LX : p2 (-60) <= X) by lra. assert (LY : p2 (-122) <= Y) by (assert (E : p2 (-120) = 4 * p2 (-122)) by (replace 4 with (p2 2) by (rewrite (p2_Z 2) by lia; reflexivity); rewrite <- p2_add; reflexivity); lra).
  assert (mulp : forall i j v w, p2 i <= v -> p2 j <= w -> p2 (i + j) <= v * w) by (intros i j v w V W; rewrite p2_add; pose proof (p2_pos i); pose proof (p2_pos j); apply Rmult_le_compat; lra).
  assert (mulu : forall i j v w, 0 <= v <= p2 i -> 0 <= w <= p2 j -> v * w <= p2 (i + j)) by (intros i j v w V W; rewrite p2_add; apply Rmult_le_compat; lra).
  assert (big : forall j v, p2 j <= v -> (-1000 <= j)%Z -> p2 (-1000) <= v) by (intros j v V J; apply Rle_trans with (p2 j); [apply p2_le; exact J|exact V]).
  assert (D61 : D <= p2 62) by (replace (p2 62) with (4 * p2 60) by (replace 4 with (p2 2) by (rewrite (p2_Z 2) by lia; reflexivity); rewrite <- p2_add; reflexivity); lra).
  assert (XX : p2 (-120) <= X * X <= p2 120) by (split; [apply (mulp (-60) (-60))%Z; lra|apply (mulu 60 60)%Z; lra]).
  assert (X20 : 0 < X * X) by (apply Rmult_lt_0_compat; lra).
  assert (XXX : p2 (-180) <= X * X * X <= p2 180) by (split; [apply (mulp (-120) (-60))%Z; lra|apply (mulu 120 60)%Z; lra]).
  assert (X30 : 0 < X * X * X) by (apply Rmult_lt_0_compat; lra).
  assert (XD : p2 (-180) <= X * D) by (apply (mulp (-60) (-120))%Z; lra). assert (XXD : p2 (-240) <= X * X * D) by (apply (mulp (-120) (-120))%Z; lra). assert (XXXY : p2 (-302) <= X * X * X * Y) by (apply (mulp (-180) (-122))%Z; lra).
  (* inputs *)
  assert (Ax : forall x, ok x -> Rabs (fval x) <= X -> app 60 0 x (fval x) X) by (intros x K W; apply app_self; [exact K|lra|exact W]).
  assert (Ay : forall y, ok y -> Rabs (fval y) <= Y -> app 60 0 y (fval y) Y) by (intros y K W; apply app_self; [exact K|lra|exact W]).
  assert (Adx : forall x x' m, ok x -> ok x' -> Rabs (fval x) <= X -> Rabs (fval x') <= X -> Rabs (fval x - fval x') <= m -> app 61 1 (fsub x x') (fval x - fval x') m) by (intros x x' m K K' W W' M; apply (app_diff 60); try assumption; try lra; lia).
  assert (Ady : forall y y', ok y -> ok y' -> Rabs (fval y) <= Y -> Rabs (fval y') <= Y -> Rabs (fval y - fval y') <= D -> app 61 1 (fsub y y') (fval y - fval y') D) by (intros y y' K K' W W' M; apply (app_diff 60); try assumption; try lra; lia).
  assert (M2 : forall x x', Rabs (fval x) <= X -> Rabs (fval x') <= X -> Rabs (fval x - fval x') <= 2 * X) by (intros x x' W W'; unfold Rminus; eapply Rle_trans; [apply Rabs_triang|]; rewrite Rabs_Ropp; lra).
  (* determinant *)
  assert (N12 : h <= Rabs (fval x1 - fval x2) <= 2 * X) by (rewrite Rabs_left1 by lra; lra). assert (N13 : 2 * h <= Rabs (fval x1 - fval x3) <= 2 * X) by (rewrite Rabs_left1 by lra; lra). assert (N23 : h <= Rabs (fval x2 - fval x3) <= 2 * X) by (rewrite Rabs_left1 by lra; lra).
  pose proof (Adx x1 x2 _ K1 K2 X1 X2 (Rle_refl _)) as a12. pose proof (Adx x1 x3 _ K1 K3 X1 X3 (Rle_refl _)) as a13. pose proof (Adx x2 x3 _ K2 K3 X2 X3 (Rle_refl _)) as a23.
  assert (m1 : p2 (-120) <= Rabs (fval x1 - fval x2) * Rabs (fval x1 - fval x3)) by (apply (mulp (-60) (-60))%Z; lra).
  pose proof (app_mul _ _ _ _ _ _ _ _ _ _ a12 a13 ltac:(lia) (big _ _ m1 ltac:(lia))) as a123.
  assert (m2 : p2 (-180) <= Rabs (fval x1 - fval x2) * Rabs (fval x1 - fval x3) * Rabs (fval x2 - fval x3)) by (apply (mulp (-120) (-60))%Z; lra).
  pose proof (app_mul _ _ _ _ _ _ _ _ _ _ a123 a23 ltac:(lia) (big _ _ m2 ltac:(lia))) as ad. fold d in ad. rewrite <- !Rabs_mult in ad. fold d in ad. rewrite <- !Rabs_mult in m2. fold d in m2.
  set (dd := fmul (fmul (fsub x1 x2) (fsub x1 x3)) (fsub x2 x3)) in *. cbn [Nat.add] in ad. pose proof (app_error _ _ _ _ _ ad ltac:(lia)) as Ed. replace (INR 7) with 7 in Ed by (cbn; lra).
  assert (Bd : 2 * (h * h * h) <= Rabs d <= 8 * (X * X * X)).
  { unfold d. rewrite !Rabs_mult. split.
    - replace (2 * (h * h * h)) with (h * (2 * h) * h) by ring. apply Rmult_le_compat; [apply Rmult_le_pos; lra|lra| |lra]. apply Rmult_le_compat; lra.
    - replace (8 * (X * X * X)) with (2 * X * (2 * X) * (2 * X)) by ring. apply Rmult_le_compat; [apply Rmult_le_pos; apply Rabs_pos|apply Rabs_pos| |lra]. apply Rmult_le_compat; try apply Rabs_pos; lra. }
  assert (d0 : 0 < Rabs d) by (pose proof (p2_pos (-180)); lra). assert (ud : u * Rabs d <= / 1000000 * Rabs d) by (apply Rmult_le_compat_r; lra).
  assert (Bd' : 99 / 100 * Rabs d <= Rabs (fval dd) <= 101 / 100 * Rabs d).
  { split; [pose proof (Rabs_triang_inv d (d - fval dd)) as W; replace (d - (d - fval dd)) with (fval dd) in W by ring; rewrite (Rabs_minus_sym d) in W; lra|].
    replace (fval dd) with ((fval dd - d) + d) by ring. eapply Rle_trans; [apply Rabs_triang|]. lra. }
  assert (P181 : p2 (-180) = 2 * p2 (-181)) by (change (-180)%Z with (-181 + 1)%Z; apply p2_succ). pose proof (p2_pos (-181)) as P181'.
  assert (Ld : p2 (-181) <= Rabs (fval dd)) by lra. destruct ad as [Kd _].
  assert (Ud : Rabs (fval dd) <= p2 184) by (assert (E : p2 184 = 16 * p2 180) by (replace 16 with (p2 4) by (rewrite (p2_Z 4) by lia; reflexivity); rewrite <- p2_add; reflexivity); lra).
  assert (Nd : fval dd <> 0) by (intros E; rewrite E, Rabs_R0 in Ld; lra).
  (* numerators *)
  assert (D12 : Rabs (fval y1 - fval y2) <= D) by (rewrite Rabs_minus_sym; exact D21). assert (D31 : Rabs (fval y3 - fval y1) <= D) by (rewrite Rabs_minus_sym; exact D13). assert (D23 : Rabs (fval y2 - fval y3) <= D) by (rewrite Rabs_minus_sym; exact D32).
  pose proof (app_mul _ _ _ _ _ _ _ _ _ _ (Ax x3 K3 X3) (Ady y2 y1 L2 L1 Y2 Y1 D21) ltac:(lia) (big _ _ XD ltac:(lia))) as t1.
  pose proof (app_mul _ _ _ _ _ _ _ _ _ _ (Ax x2 K2 X2) (Ady y1 y3 L1 L3 Y1 Y3 D13) ltac:(lia) (big _ _ XD ltac:(lia))) as t2.
  pose proof (app_mul _ _ _ _ _ _ _ _ _ _ (Ax x1 K1 X1) (Ady y3 y2 L3 L2 Y3 Y2 D32) ltac:(lia) (big _ _ XD ltac:(lia))) as t3.
  pose proof (app_add _ _ _ _ _ _ _ _ _ t1 t2 ltac:(lia)) as t12. apply app_weaken with (i' := (60 + 61 + 1)%Z) (K' := 4%nat) (a' := X * D) in t3; [|lia|cbn; lia|lra].
  pose proof (app_add _ _ _ _ _ _ _ _ _ t12 t3 ltac:(lia)) as tA. clear t1 t2 t3 t12. cbn [Nat.add Nat.max] in tA. fold A in tA.
  assert (sq : forall x, ok x -> Rabs (fval x) <= X -> app 120 2 (fmul x x) (fval x * fval x) (X * X)) by (intros x K W; apply (app_mul 60 60 0 0); [apply Ax; assumption|apply Ax; assumption|lia|apply (big _ _ (proj1 XX)); lia]).
  pose proof (app_mul _ _ _ _ _ _ _ _ _ _ (sq x3 K3 X3) (Ady y1 y2 L1 L2 Y1 Y2 D12) ltac:(lia) (big _ _ XXD ltac:(lia))) as t1.
  pose proof (app_mul _ _ _ _ _ _ _ _ _ _ (sq x2 K2 X2) (Ady y3 y1 L3 L1 Y3 Y1 D31) ltac:(lia) (big _ _ XXD ltac:(lia))) as t2.
  pose proof (app_mul _ _ _ _ _ _ _ _ _ _ (sq x1 K1 X1) (Ady y2 y3 L2 L3 Y2 Y3 D23) ltac:(lia) (big _ _ XXD ltac:(lia))) as t3.
  pose proof (app_add _ _ _ _ _ _ _ _ _ t1 t2 ltac:(lia)) as t12. apply app_weaken with (i' := (120 + 61 + 1)%Z) (K' := 6%nat) (a' := X * X * D) in t3; [|lia|cbn; lia|lra].
  pose proof (app_add _ _ _ _ _ _ _ _ _ t12 t3 ltac:(lia)) as tB. clear t1 t2 t3 t12. cbn [Nat.add Nat.max] in tB. fold B in tB.
  assert (term : forall x x' y, ok x -> ok x' -> ok y -> Rabs (fval x) <= X -> Rabs (fval x') <= X -> Rabs (fval y) <= Y -> app (60 + 60 + 61 + 60) 7 (fmul (fmul (fmul x x') (fsub x x')) y) (fval x * fval x' * (fval x - fval x') * fval y) (X * X * (2 * X) * Y)).
  { intros x x' y Kx Kx' Ky Wx Wx' Wy. assert (b1 : p2 (-180) <= X * X * (2 * X)) by (replace (X * X * (2 * X)) with (2 * (X * X * X)) by ring; lra).
    assert (b2 : p2 (-302) <= X * X * (2 * X) * Y) by (replace (X * X * (2 * X) * Y) with (2 * (X * X * X * Y)) by ring; pose proof (p2_pos (-302)); lra).
    refine (app_mul _ _ 5 0 _ _ _ _ _ _ _ (Ay y Ky Wy) _ (big _ _ b2 _)); [|lia|lia]. refine (app_mul _ _ 2 1 _ _ _ _ _ _ _ (Adx x x' (2 * X) Kx Kx' Wx Wx' (M2 x x' Wx Wx')) _ (big _ _ b1 _)); [|lia|lia].
    exact (app_mul _ _ 0 0 _ _ _ _ _ _ (Ax x Kx Wx) (Ax x' Kx' Wx') ltac:(lia) (big _ _ (proj1 XX) ltac:(lia))). }
  pose proof (term x2 x3 y1 K2 K3 L1 X2 X3 Y1) as t1. pose proof (term x3 x1 y2 K3 K1 L2 X3 X1 Y2) as t2. pose proof (term x1 x2 y3 K1 K2 L3 X1 X2 Y3) as t3.
  pose proof (app_add _ _ _ _ _ _ _ _ _ t1 t2 ltac:(lia)) as t12. apply app_weaken with (i' := (60 + 60 + 61 + 60 + 1)%Z) (K' := 8%nat) (a' := X * X * (2 * X) * Y) in t3; [|lia|cbn; lia|lra].
  pose proof (app_add _ _ _ _ _ _ _ _ _ t12 t3 ltac:(lia)) as tC. clear t1 t2 t3 t12 term. cbn [Nat.add Nat.max] in tC. fold C in tC.
  set (A' := fadd (fadd (fmul x3 (fsub y2 y1)) (fmul x2 (fsub y1 y3))) (fmul x1 (fsub y3 y2))) in *.
  set (B' := fadd (fadd (fmul (fmul x3 x3) (fsub y1 y2)) (fmul (fmul x2 x2) (fsub y3 y1))) (fmul (fmul x1 x1) (fsub y2 y3))) in *.
  set (C' := fadd (fadd (fmul (fmul (fmul x2 x3) (fsub x2 x3)) y1) (fmul (fmul (fmul x3 x1) (fsub x3 x1)) y2)) (fmul (fmul (fmul x1 x2) (fsub x1 x2)) y3)) in *.
  pose proof (app_error _ _ _ _ _ tA ltac:(lia)) as EA. pose proof (app_error _ _ _ _ _ tB ltac:(lia)) as EB. pose proof (app_error _ _ _ _ _ tC ltac:(lia)) as EC.
  replace (INR 5) with 5 in EA by (cbn; lra). replace (INR 7) with 7 in EB by (cbn; lra). replace (INR 9) with 9 in EC by (cbn; lra).
  destruct tA as [KA [BA _]]. destruct tB as [KB [BB _]]. destruct tC as [KC [BC [SC _]]].
  destruct (div_bound (60 + 61 + 1 + 1) (-181) A' dd KA Kd BA Ld ltac:(lia)) as [Ka [Ba [Ea _]]].
  destruct (div_bound (120 + 61 + 1 + 1) (-181) B' dd KB Kd BB Ld ltac:(lia)) as [Kb [Bb [Eb _]]].
  destruct (div_bound (60 + 60 + 61 + 60 + 1 + 1) (-181) C' dd KC Kd BC Ld ltac:(lia)) as [Kc [Bc [Ec _]]].
  exists (fdiv A' dd), (fdiv B' dd), (fdiv C' dd), (fval dd). split.
  { unfold parabola_3points. cbv zeta. change (neq F64ops _ (n0 F64ops)) with (SFeqb dd (S754_zero false)). destruct (SFeqb dd (S754_zero false)) eqn:E; [|reflexivity].
    exfalso. apply (eqb_spec dd (S754_zero false) Kd (conj (eq_refl : valid (S754_zero false)) I)) in E. apply Nd. exact E. }
  split; [exact Ka|]. split; [exact Kb|]. split; [exact Kc|]. split; [eapply Rle_trans; [exact Ba|apply p2_le; lia]|]. split; [eapply Rle_trans; [exact Bb|apply p2_le; lia]|]. split; [eapply Rle_trans; [exact Bc|apply p2_le; lia]|].
  split; [exact Bd|]. split; [assert (0 <= u * Rabs d) by (apply Rmult_le_pos; lra); lra|].
  assert (UA : Rabs A <= 2 * (X * D)).
  { unfold A. replace (fval x3 * (fval y2 - fval y1) + fval x2 * (fval y1 - fval y3) + fval x1 * (fval y3 - fval y2)) with ((fval x3 - fval x2) * (fval y2 - fval y1) + (fval x2 - fval x1) * (fval y2 - fval y3)) by ring.
    eapply Rle_trans; [apply Rabs_triang|]. rewrite !Rabs_mult, (Rabs_right (fval x3 - fval x2)), (Rabs_right (fval x2 - fval x1)) by lra.
    assert ((fval x3 - fval x2) * Rabs (fval y2 - fval y1) <= (fval x3 - fval x2) * D) by (apply Rmult_le_compat_l; lra). assert ((fval x2 - fval x1) * Rabs (fval y2 - fval y3) <= (fval x2 - fval x1) * D) by (apply Rmult_le_compat_l; lra).
    assert ((fval x3 - fval x1) * D <= 2 * X * D) by (apply Rmult_le_compat_r; lra). lra. }
  split; [exact UA|].
  (* quotients times the determinant *)
  assert (back : forall q N N' M k, Rabs (q - N' / fval dd) <= u * Rabs (N' / fval dd) + tiny -> Rabs (N' - N) <= k * u * M -> 0 <= k <= 1000 -> p2 (-302) <= M -> Rabs N <= 6 * M -> Rabs (q * fval dd - N) <= (k + 61 / 10) * (u * M) + u * Rabs N - 6 * (u * M)).
  { intros q N N' M k E1 E2 Hk HM HN. pose proof (p2_pos (-302)) as P302. assert (uM : 0 < u * M) by (apply Rmult_lt_0_compat; lra).
    assert (T : tiny * Rabs (fval dd) <= / 100 * (u * M)) by (apply (tiny_small 184 (-302)); [split; [apply Rabs_pos|exact Ud]|exact HM|lia]).
    replace (q * fval dd - N) with ((q - N' / fval dd) * fval dd + (N' - N)) by (field; exact Nd). eapply Rle_trans; [apply Rabs_triang|].
    assert (W : Rabs ((q - N' / fval dd) * fval dd) <= u * Rabs N' + tiny * Rabs (fval dd)).
    { rewrite Rabs_mult. apply Rle_trans with ((u * Rabs (N' / fval dd) + tiny) * Rabs (fval dd)); [apply Rmult_le_compat_r; [apply Rabs_pos|exact E1]|]. rewrite Rmult_plus_distr_r. apply Rplus_le_compat_r. rewrite Rmult_assoc. apply Rmult_le_compat_l; [lra|]. rewrite <- Rabs_mult. right. f_equal. field. exact Nd. }
    assert (V : Rabs N' <= Rabs N + k * u * M) by (replace N' with ((N' - N) + N) by ring; eapply Rle_trans; [apply Rabs_triang|]; lra).
    assert (V2 : u * Rabs N' <= u * Rabs N + u * (k * u * M)) by (rewrite <- Rmult_plus_distr_l; apply Rmult_le_compat_l; lra).
    assert (V3 : u * (k * u * M) <= / 1000 * (u * M)) by (replace (u * (k * u * M)) with (u * k * (u * M)) by ring; apply Rmult_le_compat_r; [lra|]; assert (u * k <= / 1000000 * 1000) by (apply Rmult_le_compat; lra); lra). lra. }
  assert (pXD : 0 < X * D) by (apply Rmult_lt_0_compat; lra). assert (pXXD : 0 < X * X * D) by (apply Rmult_lt_0_compat; lra). assert (pY : 0 < X * X * X * Y) by (apply Rmult_lt_0_compat; lra).
  assert (bb : p2 (-302) <= p2 (-240) /\ p2 (-302) <= p2 (-180)) by (split; apply p2_le; lia).
  assert (uXD : 0 < u * (X * D)) by (apply Rmult_lt_0_compat; [lra|apply Rmult_lt_0_compat; lra]). assert (uXXD : 0 < u * (X * X * D)) by (apply Rmult_lt_0_compat; [lra|apply Rmult_lt_0_compat; lra]). assert (uY : 0 < u * (X * X * X * Y)) by (apply Rmult_lt_0_compat; [lra|apply Rmult_lt_0_compat; lra]).
  assert (SC' : Rabs C <= 6 * (X * X * X * Y)) by (replace (6 * (X * X * X * Y)) with (X * X * (2 * X) * Y + X * X * (2 * X) * Y + X * X * (2 * X) * Y) by ring; exact SC).
  split; [|split; [intros HB|split; [exact SC'|]]].
  - pose proof (back (fval (fdiv A' dd)) A (fval A') (X * D) (1515 / 100) Ea ltac:(replace (1515 / 100 * u * (X * D)) with (101 / 100 * 5 * u * (X * D + X * D + X * D)) by field; exact EA) ltac:(lra) ltac:(lra) ltac:(lra)) as Q.
    assert (u * Rabs A <= u * (2 * (X * D))) by (apply Rmult_le_compat_l; lra). lra.
  - pose proof (back (fval (fdiv B' dd)) B (fval B') (X * X * D) (2121 / 100) Eb ltac:(replace (2121 / 100 * u * (X * X * D)) with (101 / 100 * 7 * u * (X * X * D + X * X * D + X * X * D)) by field; exact EB) ltac:(lra) ltac:(lra) ltac:(lra)) as Q.
    assert (u * Rabs B <= u * (4 * (X * X * D))) by (apply Rmult_le_compat_l; lra). lra.
  - pose proof (back (fval (fdiv C' dd)) C (fval C') (X * X * X * Y) (5454 / 100) Ec ltac:(replace (5454 / 100 * u * (X * X * X * Y)) with (101 / 100 * 9 * u * (X * X * (2 * X) * Y + X * X * (2 * X) * Y + X * X * (2 * X) * Y)) by field; exact EC) ltac:(lra) ltac:(lra) ltac:(lra)) as Q.
    assert (u * Rabs C <= u * (6 * (X * X * X * Y))) by (apply Rmult_le_compat_l; lra). lra.
Qed.

Lemma quotient_error : forall z z0 m, m <> 0 -> Rabs (z - z0) <= u * Rabs z0 + tiny -> Rabs (z / m - z0 / m) <= u * Rabs (z0 / m) + tiny * Rabs (/ m).
Proof.
  intros z z0 m Hm E. replace (z / m - z0 / m) with ((z - z0) * / m) by (field; exact Hm). unfold Rdiv. rewrite !Rabs_mult. replace (u * (Rabs z0 * Rabs (/ m)) + tiny * Rabs (/ m)) with ((u * Rabs z0 + tiny) * Rabs (/ m)) by ring.
  apply Rmult_le_compat_r; [apply Rabs_pos|exact E].
Qed.

(** ** The vertex in double precision *)
Lemma vertex64 : forall x1 y1 x2 y2 x3 y3 X Y D h,
  ok x1 -> ok y1 -> ok x2 -> ok y2 -> ok x3 -> ok y3 ->
  Rabs (fval x1) <= X -> Rabs (fval x2) <= X -> Rabs (fval x3) <= X -> Rabs (fval y1) <= Y -> Rabs (fval y2) <= Y -> Rabs (fval y3) <= Y ->
  h <= fval x2 - fval x1 -> h <= fval x3 - fval x2 ->
  Rabs (fval y2 - fval y1) <= D -> Rabs (fval y1 - fval y3) <= D -> Rabs (fval y3 - fval y2) <= D -> D <= 4 * Y ->
  p2 (-60) <= h -> X <= p2 60 -> p2 (-120) <= D -> Y <= p2 60 -> 2048 * (u * X) <= h ->
  let A := fval x3 * (fval y2 - fval y1) + fval x2 * (fval y1 - fval y3) + fval x1 * (fval y3 - fval y2) in
  let B := fval x3 * fval x3 * (fval y1 - fval y2) + fval x2 * fval x2 * (fval y3 - fval y1) + fval x1 * fval x1 * (fval y2 - fval y3) in
  let C := fval x2 * fval x3 * (fval x2 - fval x3) * fval y1 + fval x3 * fval x1 * (fval x3 - fval x1) * fval y2 + fval x1 * fval x2 * (fval x1 - fval x2) * fval y3 in
  let d := (fval x1 - fval x2) * (fval x1 - fval x3) * (fval x2 - fval x3) in
  h * D <= Rabs A -> Rabs B <= 2 * Rabs A * X ->
  exists px py, (abc <- parabola_3points F64ops x1 y1 x2 y2 x3 y3 ;; vertex_parabola F64ops (fst (fst abc)) (snd (fst abc)) (snd abc)) = Ok (px, py) /\ ok px /\ ok py /\
    Rabs (fval px - - B / (2 * A)) <= 34 * (u * (X * X / h)) /\ Rabs (fval py - (C - A * (- B / (2 * A) * (- B / (2 * A)))) / d) <= 300 * (u * (X * X * X / (h * h * h) * Y)).
Proof.
  intros x1 y1 x2 y2 x3 y3 X Y D h K1 L1 K2 L2 K3 L3 X1 X2 X3 Y1 Y2 Y3 H12 H23 D21 D13 D32 DY Hh HX HD HY Hu A B C d LA HB. pose proof u_small as U. pose proof (p2_pos (-60)) as P60. pose proof (p2_pos (-120)) as P120.
  destruct (coefficients64 x1 y1 x2 y2 x3 y3 X Y D h K1 L1 K2 L2 K3 L3 X1 X2 X3 Y1 Y2 Y3 H12 H23 D21 D13 D32 DY Hh HX HD HY) as [a [b [c [d' [E [Ka [Kb [Kc [Ba [Bb [Bc [Bd [Ed [UA [EA [EB [SC EC]]]]]]]]]]]]]]]]].
  fold A B C d in Bd, Ed, UA, EA, EB, SC, EC. apply abs_bounds in X1 as X1'. apply abs_bounds in X2 as X2'. apply abs_bounds in X3 as X3'. assert (hX : h <= X) by lra. clear X1' X2' X3'.
  assert (X0 : 0 < X) by lra. assert (h0 : 0 < h) by lra. assert (D0 : 0 < D) by lra. assert (Y0 : 0 < Y) by lra.
  assert (HB4 : Rabs B <= 4 * (X * X * D)) by (apply Rle_trans with (1 := HB); replace (4 * (X * X * D)) with (2 * (2 * (X * D)) * X) by ring; apply Rmult_le_compat_r; [lra|apply Rmult_le_compat_l; lra]).
  specialize (EB HB4). destruct (vertex_near A B (fval a * d') (fval b * d') X D h D0 (conj h0 hX) Hu LA UA HB EA EB) as [La [Ua [Pp [P1 [P2 [P3 PG]]]]]].
  set (p := - B / (2 * A)) in *. assert (hD : 0 < h * D) by (apply Rmult_lt_0_compat; lra).
  assert (h3 : 0 < h * h * h) by (apply Rmult_lt_0_compat; [apply Rmult_lt_0_compat|]; lra). assert (d0 : 0 < Rabs d) by lra. assert (ud : u * Rabs d <= / 1000000 * Rabs d) by (apply Rmult_le_compat_r; lra).
  assert (Bd' : 99 / 100 * Rabs d <= Rabs d' <= 101 / 100 * Rabs d).
  { split; [pose proof (Rabs_triang_inv d (d - d')) as W; replace (d - (d - d')) with d' in W by ring; rewrite (Rabs_minus_sym d) in W; lra|].
    replace d' with ((d' - d) + d) by ring. eapply Rle_trans; [apply Rabs_triang|]. lra. }
  assert (Nd : d <> 0) by (intros Q; rewrite Q, Rabs_R0 in d0; lra). assert (Nd' : d' <> 0) by (intros Q; rewrite Q, Rabs_R0 in Bd'; lra).
  assert (Na : fval a <> 0) by (intros Q; rewrite Q, Rmult_0_l, Rabs_R0 in La; lra).
  assert (Ep : - (fval b * d') / (2 * (fval a * d')) = - fval b / (2 * fval a)) by (field; split; assumption). rewrite Ep in P1, P2, P3, PG. set (p' := - fval b / (2 * fval a)) in *.
  assert (X3p : 0 < X * X * X) by (apply Rmult_lt_0_compat; [apply Rmult_lt_0_compat|]; lra).
  (* scaled coefficients *)
  destruct (ofZ_exact 2 ltac:(lia)) as [Kt Et]. destruct (ofZ_exact 4 ltac:(lia)) as [Kf Ef]. assert (B9 : Rabs (fval a) <= p2 900) by (eapply Rle_trans; [exact Ba|apply p2_le; lia]).
  assert (e1 : p2 1 = 2) by (rewrite (p2_Z 1) by lia; reflexivity). assert (e2 : p2 2 = 4) by (rewrite (p2_Z 2) by lia; reflexivity).
  destruct (scaled_exact 1 (f64_ofZ 2) a ltac:(lia) Kt ltac:(rewrite Et, e1; reflexivity) Ka B9) as [K2a E2a]. rewrite e1 in E2a.
  destruct (scaled_exact 2 (f64_ofZ 4) a ltac:(lia) Kf ltac:(rewrite Ef, e2; reflexivity) Ka B9) as [K4a E4a]. rewrite e2 in E4a.
  assert (Z0 : forall z, ok z -> fval z <> 0 -> SFeqb z (S754_zero false) = false).
  { intros z K N. destruct (SFeqb z (S754_zero false)) eqn:Q; [|reflexivity]. exfalso. apply (eqb_spec z (S754_zero false) K (conj (eq_refl : valid (S754_zero false)) I)) in Q. apply N. exact Q. }
  (* lower bound of |a| *)
  assert (La' : p2 (-366) <= Rabs (fval a)).
  { assert (Q : Rabs (fval a * d') <= Rabs (fval a) * (9 * (X * X * X))) by (rewrite Rabs_mult; apply Rmult_le_compat_l; [apply Rabs_pos|lra]).
    assert (X3u : X * X * X <= p2 180) by (change 180%Z with (60 + 60 + 60)%Z; rewrite !p2_add; apply Rmult_le_compat; [apply Rmult_le_pos; lra|lra| |lra]; apply Rmult_le_compat; lra).
    assert (hDl : p2 (-180) <= h * D) by (change (-180)%Z with (-60 + -120)%Z; rewrite p2_add; apply Rmult_le_compat; lra).
    apply Rnot_lt_le. intros W. assert (V : Rabs (fval a) * (9 * (X * X * X)) <= p2 (-366) * (9 * p2 180)) by (apply Rmult_le_compat; [apply Rabs_pos|lra|lra|lra]).
    replace (p2 (-366) * (9 * p2 180)) with (9 * p2 (-186)) in V by (change (-186)%Z with (-366 + 180)%Z; rewrite p2_add; ring).
    assert (p2 (-180) = 64 * p2 (-186)) by (replace 64 with (p2 6) by (rewrite (p2_Z 6) by lia; reflexivity); rewrite <- p2_add; reflexivity). pose proof (p2_pos (-186)). lra. }
  assert (e365 : p2 (-366) * 2 = p2 (-365)) by (change (-365)%Z with (-366 + 1)%Z; rewrite p2_succ; ring). assert (e364 : p2 (-366) * 4 = p2 (-364)) by (rewrite <- e2, <- p2_add; reflexivity).
  assert (L2a : p2 (-365) <= Rabs (fval (fmul (f64_ofZ 2) a))) by (rewrite E2a, Rabs_mult, Rabs_right by lra; lra). assert (L4a : p2 (-364) <= Rabs (fval (fmul (f64_ofZ 4) a))) by (rewrite E4a, Rabs_mult, Rabs_right by lra; lra).
  destruct (opp_ok b Kb) as [Kob Eob].
  destruct (div_bound 370 (-365) (SFopp b) (fmul (f64_ofZ 2) a) Kob K2a ltac:(rewrite Eob, Rabs_Ropp; exact Bb) L2a ltac:(lia)) as [Kx [_ [Ex _]]].
  destruct (mul_bound 370 370 b b Kb Kb Bb Bb ltac:(lia)) as [Kq [Bq Eq]].
  destruct (mul_bound 312 430 (fmul (f64_ofZ 4) a) c K4a Kc ltac:(rewrite E4a, Rabs_mult, Rabs_right by lra; change 312%Z with (2 + 310)%Z; rewrite p2_add, e2; apply Rmult_le_compat_l; lra) Bc ltac:(lia)) as [Kr [Br Er]].
  set (q := fmul b b) in *. set (w := fmul (f64_ofZ 4) a) in *. set (r := fmul w c) in *.
  destruct (sub_bound 742 q r Kq Kr ltac:(eapply Rle_trans; [exact Bq|apply p2_le; lia]) Br ltac:(lia)) as [Ks [Bs Es]]. set (s := fsub q r) in *.
  destruct (opp_ok s Ks) as [Kos Eos].
  assert (K3' : X * X * X / (h * h * h) * Y = X * X * X * Y / (h * h * h)) by (field; lra).
  (* bounds in units of W *)
  set (W := X * X * X * Y / Rabs d'). assert (XY : 0 < X * X * X * Y) by (apply Rmult_lt_0_compat; lra). assert (iW : W * Rabs d' = X * X * X * Y) by (unfold W; field; lra).
  assert (W0 : 0 < W) by (unfold W; apply Rdiv_lt_0_compat; lra).
  assert (WY : Y / 9 <= W).
  { apply Rmult_le_reg_r with (Rabs d'); [lra|]. rewrite iW. apply Rle_trans with (Y / 9 * (9 * (X * X * X))); [apply Rmult_le_compat_l; lra|]. right. field. }
  assert (Dy : X * X * X * D <= 4 * (X * X * X * Y)) by (replace (4 * (X * X * X * Y)) with (X * X * X * (4 * Y)) by ring; apply Rmult_le_compat_l; lra).
  assert (Pp' : Rabs p' <= 1016 / 1000 * X) by (replace p' with ((p' - p) + p) by ring; eapply Rle_trans; [apply Rabs_triang|]; lra).
  assert (g1 : Rabs (fval a * (p' * p')) <= 84 / 10 * W).
  { apply Rmult_le_reg_r with (Rabs d'); [lra|]. rewrite <- Rabs_mult. replace (fval a * (p' * p') * d') with (fval a * d' * (p' * p')) by ring. replace (84 / 10 * W * Rabs d') with (84 / 10 * (W * Rabs d')) by ring. rewrite iW.
    rewrite Rabs_mult. apply Rle_trans with (202 / 100 * (X * D) * (1016 / 1000 * X * (1016 / 1000 * X))); [apply Rmult_le_compat; try apply Rabs_pos; [exact Ua|rewrite Rabs_mult; apply Rmult_le_compat; try apply Rabs_pos; exact Pp']|].
    replace (202 / 100 * (X * D) * (1016 / 1000 * X * (1016 / 1000 * X))) with (202 * 1016 * 1016 / 100000000 * (X * X * X * D)) by field. lra. }
  assert (uXY : u * (X * X * X * Y) <= / 1000000 * (X * X * X * Y)) by (apply Rmult_le_compat_r; lra).
  assert (c1 : Rabs (fval c) <= 61 / 10 * W).
  { apply Rmult_le_reg_r with (Rabs d'); [lra|]. rewrite <- Rabs_mult. replace (61 / 10 * W * Rabs d') with (61 / 10 * (W * Rabs d')) by ring. rewrite iW.
    replace (fval c * d') with ((fval c * d' - C) + C) by ring. eapply Rle_trans; [apply Rabs_triang|]. lra. }
  assert (m0 : fval w <> 0) by (rewrite E4a; lra).
  assert (tw : tiny * Rabs (/ fval w) <= / 100 * (u * W)).
  { apply (tiny_small 364 (-130)); [split; [apply Rabs_pos|]| |lia].
    - rewrite Rabs_inv. replace (p2 364) with (/ p2 (-364)); [apply Rinv_le_contravar; [apply p2_pos|exact L4a]|]. apply Rmult_eq_reg_r with (p2 (-364)); [|pose proof (p2_pos (-364)); lra]. rewrite Rinv_l by (pose proof (p2_pos (-364)); lra). rewrite <- p2_add. reflexivity.
    - apply Rle_trans with (Y / 9); [|exact WY]. assert (p2 (-120) = 1024 * p2 (-130)) by (replace 1024 with (p2 10) by (rewrite (p2_Z 10) by lia; reflexivity); rewrite <- p2_add; reflexivity). pose proof (p2_pos (-130)). lra. }
  assert (t1 : tiny <= / 100 * (u * W)).
  { rewrite <- (Rmult_1_r tiny). apply (tiny_small 0 (-130)); [change (p2 0) with 1; lra| |lia]. apply Rle_trans with (Y / 9); [|exact WY]. assert (p2 (-120) = 1024 * p2 (-130)) by (replace 1024 with (p2 10) by (rewrite (p2_Z 10) by lia; reflexivity); rewrite <- p2_add; reflexivity). pose proof (p2_pos (-130)). lra. }
  assert (uW : 0 < u * W) by (apply Rmult_lt_0_compat; lra). assert (uuW : u * (u * W) <= / 1000000 * (u * W)) by (apply Rmult_le_compat_r; lra).
  pose proof (quotient_error _ _ _ m0 Eq) as Q1. pose proof (quotient_error _ _ _ m0 Er) as R1.
  assert (q0 : fval b * fval b / fval w = fval a * (p' * p')) by (unfold p'; rewrite E4a; field; exact Na). rewrite q0 in Q1. replace (fval w * fval c / fval w) with (fval c) in R1 by (field; exact m0).
  set (q1 := fval q / fval w) in *. set (r1 := fval r / fval w) in *. set (s1 := fval s / fval w).
  assert (Q2 : Rabs (q1 - fval a * (p' * p')) <= 85 / 10 * (u * W)) by (apply Rle_trans with (1 := Q1); assert (u * Rabs (fval a * (p' * p')) <= u * (84 / 10 * W)) by (apply Rmult_le_compat_l; lra); lra).
  assert (R2 : Rabs (r1 - fval c) <= 62 / 10 * (u * W)) by (apply Rle_trans with (1 := R1); assert (u * Rabs (fval c) <= u * (61 / 10 * W)) by (apply Rmult_le_compat_l; lra); lra).
  assert (uW1 : u * W <= / 1000000 * W) by (apply Rmult_le_compat_r; lra).
  assert (QR : Rabs (q1 - r1) <= 146 / 10 * W).
  { replace (q1 - r1) with ((q1 - fval a * (p' * p')) + (fval a * (p' * p')) + (- (r1 - fval c)) + (- fval c)) by ring. repeat (eapply Rle_trans; [apply Rabs_triang|]; apply Rle_trans with (Rabs (q1 - fval a * (p' * p') + fval a * (p' * p') + - (r1 - fval c)) + 61 / 10 * W); [apply Rplus_le_compat_l; rewrite Rabs_Ropp; exact c1|]).
    pose proof (Rabs_triang (q1 - fval a * (p' * p') + fval a * (p' * p')) (- (r1 - fval c))) as V1. rewrite Rabs_Ropp in V1. pose proof (Rabs_triang (q1 - fval a * (p' * p')) (fval a * (p' * p'))) as V2. lra. }
  assert (S1 : Rabs (s1 - (q1 - r1)) <= 146 / 10 * (u * W)).
  { replace (s1 - (q1 - r1)) with ((fval s - (fval q - fval r)) * / fval w) by (unfold s1, q1, r1; field; exact m0). rewrite Rabs_mult. apply Rle_trans with (u * Rabs (fval q - fval r) * Rabs (/ fval w)); [apply Rmult_le_compat_r; [apply Rabs_pos|exact Es]|].
    rewrite Rmult_assoc, <- Rabs_mult. replace ((fval q - fval r) * / fval w) with (q1 - r1) by (unfold q1, r1; field; exact m0). assert (u * Rabs (q1 - r1) <= u * (146 / 10 * W)) by (apply Rmult_le_compat_l; lra). lra. }
  assert (S2 : Rabs s1 <= 147 / 10 * W) by (replace s1 with ((s1 - (q1 - r1)) + (q1 - r1)) by ring; eapply Rle_trans; [apply Rabs_triang|]; lra).
  assert (W420 : W <= p2 420).
  { assert (h3l : p2 (-180) <= h * h * h) by (change (-180)%Z with (-60 + -60 + -60)%Z; rewrite !p2_add; apply Rmult_le_compat; [apply Rmult_le_pos; lra|lra| |lra]; apply Rmult_le_compat; lra).
    assert (XYu : X * X * X * Y <= p2 240) by (change 240%Z with (60 + 60 + 60 + 60)%Z; rewrite !p2_add; apply Rmult_le_compat; [lra|lra| |lra]; apply Rmult_le_compat; [apply Rmult_le_pos; lra|lra| |lra]; apply Rmult_le_compat; lra).
    apply Rmult_le_reg_r with (Rabs d'); [lra|]. rewrite iW. apply Rle_trans with (1 := XYu). change 240%Z with (420 + -180)%Z. rewrite p2_add. apply Rmult_le_compat_l; [left; apply p2_pos|]. lra. }
  pose proof (div_spec (SFopp s) w (proj1 Kos) (proj1 K4a) (proj2 Kos) (proj2 K4a) m0) as Rd. rewrite Eos in Rd. replace (- fval s / fval w) with (- s1) in Rd by (unfold s1; field; exact m0).
  destruct (rounded_bounded _ _ (p2 424) Rd) as [Ky _]; [apply format_p2; lia|rewrite Rabs_Ropp; assert (p2 424 = 16 * p2 420) by (replace 16 with (p2 4) by (rewrite (p2_Z 4) by lia; reflexivity); rewrite <- p2_add; reflexivity); lra|apply p2_lt; lia|].
  pose proof (rounded_error _ _ Rd Ky) as Ey. rewrite Rabs_Ropp in Ey.
  exists (fdiv (SFopp b) (fmul (f64_ofZ 2) a)), (fdiv (SFopp s) w).
  assert (Ev : (abc <- parabola_3points F64ops x1 y1 x2 y2 x3 y3;; vertex_parabola F64ops (fst (fst abc)) (snd (fst abc)) (snd abc)) = Ok (fdiv (SFopp b) (fmul (f64_ofZ 2) a), fdiv (SFopp s) w)).
  { change (num F64ops) with f64 in *. rewrite E. cbn [bind fst snd]. unfold vertex_parabola. change (neq F64ops (nmul F64ops (n2 F64ops) a) (n0 F64ops)) with (SFeqb (fmul (f64_ofZ 2) a) (S754_zero false)). rewrite (Z0 _ K2a) by (rewrite E2a; lra).
    change (neq F64ops (nmul F64ops (n4 F64ops) a) (n0 F64ops)) with (SFeqb w (S754_zero false)). rewrite (Z0 _ K4a m0). reflexivity. }
  split; [exact Ev|]. split; [exact Kx|]. split; [exact Ky|]. split.
  - rewrite Eob, E2a in Ex. fold p' in Ex. fold p. set (px := fval (fdiv (SFopp b) (fmul (f64_ofZ 2) a))) in *.
    assert (XX : X <= X * X / h) by (apply Rmult_le_reg_r with h; [lra|]; unfold Rdiv; rewrite Rmult_assoc, Rinv_l, Rmult_1_r by lra; apply Rmult_le_compat_l; lra).
    assert (uX : u * X <= u * (X * X / h)) by (apply Rmult_le_compat_l; lra).
    assert (tX : tiny <= / 100 * (u * X)) by (rewrite <- (Rmult_1_r tiny); apply (tiny_small 0 (-60)); [change (p2 0) with 1; lra|lra|lia]).
    assert (u * Rabs p' <= u * (1016 / 1000 * X)) by (apply Rmult_le_compat_l; lra).
    replace (px - p) with ((px - p') + (p' - p)) by ring. eapply Rle_trans; [apply Rabs_triang|]. assert (0 < u * X) by (apply Rmult_lt_0_compat; lra). lra.
  - set (py := fval (fdiv (SFopp s) w)) in *. fold p. set (N := C - A * (p * p)).
    assert (Y1' : Rabs (py - (fval c - fval a * (p' * p'))) <= 45 * (u * W)).
    { replace (py - (fval c - fval a * (p' * p'))) with ((py - - s1) + - (s1 - (q1 - r1)) + - (q1 - fval a * (p' * p')) + (r1 - fval c)) by ring.
      assert (Ey' : Rabs (py - - s1) <= 148 / 10 * (u * W)) by (apply Rle_trans with (1 := Ey); assert (u * Rabs s1 <= u * (147 / 10 * W)) by (apply Rmult_le_compat_l; lra); lra).
      pose proof (Rabs_triang (py - - s1 + - (s1 - (q1 - r1)) + - (q1 - fval a * (p' * p'))) (r1 - fval c)) as V1. pose proof (Rabs_triang (py - - s1 + - (s1 - (q1 - r1))) (- (q1 - fval a * (p' * p')))) as V2. pose proof (Rabs_triang (py - - s1) (- (s1 - (q1 - r1)))) as V3.
      rewrite Rabs_Ropp in V2, V3. lra. }
    assert (Y2' : Rabs (py * d' - N) <= 430 * (u * (X * X * X * Y))).
    { replace (py * d' - N) with ((py - (fval c - fval a * (p' * p'))) * d' + (fval c * d' - C) + - (fval a * d' * (p' * p') - A * (p * p))) by (unfold N; ring).
      pose proof (Rabs_triang ((py - (fval c - fval a * (p' * p'))) * d' + (fval c * d' - C)) (- (fval a * d' * (p' * p') - A * (p * p)))) as V1. pose proof (Rabs_triang ((py - (fval c - fval a * (p' * p'))) * d') (fval c * d' - C)) as V2. rewrite Rabs_Ropp in V1.
      assert (V3 : Rabs ((py - (fval c - fval a * (p' * p'))) * d') <= 45 * (u * (X * X * X * Y))) by (rewrite Rabs_mult; replace (45 * (u * (X * X * X * Y))) with (45 * (u * W) * Rabs d') by (rewrite <- iW; ring); apply Rmult_le_compat_r; [apply Rabs_pos|exact Y1']).
      assert (V4 : u * (X * X * X * D) <= u * (4 * (X * X * X * Y))) by (apply Rmult_le_compat_l; lra). lra. }
    assert (NN : Rabs N <= 14 * (X * X * X * Y)).
    { unfold N, Rminus. eapply Rle_trans; [apply Rabs_triang|]. rewrite Rabs_Ropp, !Rabs_mult. assert (Rabs A * (Rabs p * Rabs p) <= 2 * (X * D) * (X * X)) by (apply Rmult_le_compat; [apply Rabs_pos|apply Rmult_le_pos; apply Rabs_pos|exact UA|apply Rmult_le_compat; try apply Rabs_pos; exact Pp]).
      replace (2 * (X * D) * (X * X)) with (2 * (X * X * X * D)) in * by ring. lra. }
    assert (Y3' : Rabs ((py - N / d) * d') <= 542 * (u * (X * X * X * Y))).
    { replace ((py - N / d) * d') with ((py * d' - N) + N * (- (d' - d) / d)) by (field; exact Nd). eapply Rle_trans; [apply Rabs_triang|].
      assert (V : Rabs (- (d' - d) / d) <= 8 * u) by (unfold Rdiv; rewrite Rabs_mult, Rabs_Ropp, Rabs_inv; apply Rmult_le_reg_r with (Rabs d); [exact d0|]; rewrite Rmult_assoc, Rinv_l, Rmult_1_r by lra; exact Ed).
      assert (V2 : Rabs (N * (- (d' - d) / d)) <= 14 * (X * X * X * Y) * (8 * u)) by (rewrite Rabs_mult; apply Rmult_le_compat; try apply Rabs_pos; assumption). lra. }
    rewrite K3'. apply Rmult_le_reg_r with (Rabs d'); [lra|]. rewrite <- Rabs_mult. apply Rle_trans with (1 := Y3').
    apply Rle_trans with (300 * (u * (X * X * X * Y / (h * h * h))) * (198 / 100 * (h * h * h))); [replace (300 * (u * (X * X * X * Y / (h * h * h))) * (198 / 100 * (h * h * h))) with (594 * (u * (X * X * X * Y))) by (field; lra); assert (0 < u * (X * X * X * Y)) by (apply Rmult_lt_0_compat; lra); lra|].
    apply Rmult_le_compat_l; [|lra]. apply Rmult_le_pos; [lra|]. apply Rmult_le_pos; [lra|]. left. apply Rdiv_lt_0_compat; lra.
Qed.
