(** Rounding errors of pair distances (C115). *)
From Coq Require Import List ZArith Bool Arith Reals Lia Lra Psatz Floats.SpecFloat.
From Verif Require Import PyBase PyBaseFacts Num Spec_Stats NumFacts P_Text F64Round F64Ops F64Facts F64Sqrt P_F64Mean M_Helpers M_Correlation M_Dynamics M_Realspace
  Spec_Dynamics P_Dynamics Spec_Pairs P_Image Spec_Doubles P_F64Time P_F64Overlap P_F64Msd P_F64Order Spec_Dot P_F64Dot Spec_Dist.
Import ListNotations.
Local Open Scope R_scope.

(** Distance of t to the closest multiple of L. *)
Definition per (t L : R) : R := Rabs (image Rops t L).

Lemma per_some : forall t L, exists k, per t L = Rabs (t - IZR k * L).
Proof. intros t L. exists (Rrint (t / L)). unfold per. rewrite image_R. reflexivity. Qed.

Lemma per_close : forall t L k c e1 e2, 0 < L -> Rabs (c - (t - IZR k * L)) <= e1 -> Rabs (t - IZR k * L) <= L / 2 + e2 -> 0 <= e2 ->
  Rabs (Rabs c - per t L) <= e1 + 2 * e2.
Proof.
  intros t L k c e1 e2 HL H1 H2 H3. assert (A : Rabs (Rabs c - Rabs (t - IZR k * L)) <= e1) by (apply Rle_trans with (2 := H1); apply Rabs_triang_inv2).
  assert (B : per t L <= Rabs (t - IZR k * L)) by (apply image_min; exact HL). assert (C : Rabs (t - IZR k * L) <= per t L + 2 * e2).
  { destruct (per_some t L) as [j E]. rewrite E. destruct (Z.eq_dec j k) as [->|Hjk]; [lra|].
    assert (D : L <= Rabs (t - IZR k * L) + Rabs (t - IZR j * L)).
    { apply Rle_trans with (Rabs (IZR (j - k)) * L).
      - assert (1 <= Rabs (IZR (j - k))) by (rewrite <- abs_IZR; apply IZR_le; lia). nra.
      - replace (Rabs (IZR (j - k)) * L) with (Rabs ((t - IZR k * L) + - (t - IZR j * L))).
        + apply Rle_trans with (1 := Rabs_triang _ _). rewrite Rabs_Ropp. lra.
        + replace (t - IZR k * L + - (t - IZR j * L)) with (IZR (j - k) * L) by (rewrite minus_IZR; ring). rewrite Rabs_mult, (Rabs_right L) by lra. reflexivity. }
    lra. }
  apply Rabs_le. apply Rabs_le_inv in A. lra.
Qed.

Lemma u_tiny : u <= / 1024.
Proof. unfold u. replace (/ 1024) with (p2 (-10)) by (unfold p2; simpl; lra). apply p2_le. lia. Qed.

Lemma tiny_side : forall L, p2 (-400) <= L -> tiny <= u * L / 1024 /\ tiny * L <= u * L / 1024.
Proof.
  intros L H. assert (E : / 1024 = p2 (-10)) by (unfold p2; simpl; lra). pose proof (p2_pos (-400)) as P. unfold Rdiv. rewrite E. split.
  - apply Rle_trans with (u * p2 (-400) * p2 (-10)).
    + unfold u, tiny. rewrite <- !p2_add. apply p2_le. lia.
    + apply Rmult_le_compat_r; [left; apply p2_pos|]. apply Rmult_le_compat_l; [left; apply u_pos|exact H].
  - replace (u * L * p2 (-10)) with (u * p2 (-10) * L) by ring. apply Rmult_le_compat_r; [lra|]. unfold u, tiny. rewrite <- p2_add. apply p2_le. lia.
Qed.

Lemma difference : forall x y L, coordinate x y L -> let r := fsub x y in ok r /\ Rabs (fval r - (fval x - fval y)) <= u * Rabs (fval x - fval y) /\ Rabs (fval r) <= p2 401.
Proof.
  intros x y L [Kx [Ky [KL [Bx [By _]]]]] r. assert (R1 : rounded (fval x - fval y) r) by (apply sub_spec; try apply Kx; apply Ky).
  destruct (rounded_bounded _ _ (p2 401) R1) as [K B]; [apply format_p2; lia| |apply p2_lt; lia|].
  - change 401%Z with (400 + 1)%Z. rewrite p2_succ. unfold Rminus. apply Rle_trans with (1 := Rabs_triang _ _). rewrite Rabs_Ropp. lra.
  - split; [exact K|]. split; [apply sub_relative; assumption|exact B].
Qed.

(** Python: r - rint(r/L) L. *)
Lemma image_close : forall x y L, coordinate x y L -> Rabs (fval x - fval y) <= p2 40 * fval L ->
  let c := image F64ops (fsub x y) L in let a := Rabs (fval x - fval y) in
  ok c /\ Rabs (Rabs (fval c) - per (fval x - fval y) (fval L)) <= 10 * u * (a + fval L).
Proof.
  intros x y L C Far c a. destruct (difference x y L C) as [Kr [Er Br]]. destruct C as [Kx [Ky [KL [Bx [By [L1 L2]]]]]]. unfold image in c. cbn [nsub nmul ndiv F64ops] in c.
  change (num F64ops) with f64 in c. set (r := fsub x y) in *. fold a in Er, Far. set (l := fval L) in *.
  pose proof u_tiny as U1. pose proof u_pos as U0. destruct (tiny_side l L1) as [T1 T2]. pose proof tiny_pos as T0. assert (Hl : 0 < l) by (apply Rlt_le_trans with (2 := L1), p2_pos). assert (Ha : 0 <= a) by apply Rabs_pos.
  set (q := fdiv r L) in *.
  assert (Rq : rounded (fval r / l) q) by (apply div_spec; try apply Kr; try apply KL; fold l; lra).
  assert (Ra : Rabs (fval r) <= a + u * a).
  { replace (fval r) with ((fval x - fval y) + (fval r - (fval x - fval y))) by ring. apply Rle_trans with (1 := Rabs_triang _ _). fold a. lra. }
  assert (P40 : 1 <= p2 40) by (change 1 with (p2 0); apply p2_le; lia).
  assert (Qb : Rabs (fval r / l) <= p2 41).
  { unfold Rdiv. rewrite Rabs_mult, (Rabs_right (/ l)) by (left; apply Rinv_0_lt_compat; exact Hl). apply Rmult_le_reg_r with l; [exact Hl|]. rewrite Rmult_assoc, Rinv_l, Rmult_1_r by lra.
    apply Rle_trans with (1 := Ra). change 41%Z with (40 + 1)%Z. rewrite p2_succ. assert (u * a <= a) by nra. lra. }
  destruct (rounded_bounded _ _ (p2 41) Rq) as [Kq Bq]; [apply format_p2; lia|exact Qb|apply p2_lt; lia|].
  pose proof (rounded_error _ _ Rq Kq) as Eq.
  assert (Eq' : Rabs (fval q * l - fval r) <= u * Rabs (fval r) + tiny * l).
  { replace (fval q * l - fval r) with ((fval q - fval r / l) * l) by (field; lra). rewrite Rabs_mult, (Rabs_right l) by lra.
    apply Rle_trans with ((u * Rabs (fval r / l) + tiny) * l); [apply Rmult_le_compat_r; lra|]. right. unfold Rdiv. rewrite Rabs_mult, (Rabs_right (/ l)) by (left; apply Rinv_0_lt_compat; exact Hl). field. lra. }
  destruct (rint_spec q Kq) as [k [Ek Bk]].
  assert (Kk : (Z.abs k <= 2 ^ 53)%Z).
  { apply le_IZR. rewrite abs_IZR, <- p2_Z by lia. replace (IZR k) with (fval q + (IZR k - fval q)) by ring. apply Rle_trans with (1 := Rabs_triang _ _).
    apply Rle_trans with (p2 41 + p2 41); [|replace (p2 41 + p2 41) with (p2 42) by (change 42%Z with (41 + 1)%Z; rewrite p2_succ; ring); apply p2_le; lia].
    apply Rplus_le_compat; [exact Bq|]. apply Rle_trans with (1 := Bk). apply Rle_trans with (p2 0); [change (p2 0) with 1; lra|apply p2_le; lia]. }
  destruct (ofZ_exact k Kk) as [Kz Ez].
  assert (Ec : c = fsub r (fmul (f64_ofZ k) L)) by (unfold c, rint; cbn [nrint nofZ F64ops]; fold q; rewrite Ek; reflexivity). clearbody c. subst c.
  (* how far the multiple is *)
  assert (Dk : Rabs (fval r - IZR k * l) <= l / 2 + (u * Rabs (fval r) + tiny * l)).
  { replace (fval r - IZR k * l) with (- (fval q * l - fval r) + - ((IZR k - fval q) * l)) by ring. apply Rle_trans with (1 := Rabs_triang _ _). rewrite !Rabs_Ropp, (Rabs_mult _ l), (Rabs_right l) by lra.
    assert (Rabs (IZR k - fval q) * l <= / 2 * l) by (apply Rmult_le_compat_r; lra). lra. }
  assert (X0 : 0 <= u * a) by (apply Rmult_le_pos; lra). assert (Y0 : 0 <= u * l) by (apply Rmult_le_pos; lra).
  assert (XX : u * (u * a) <= u * a / 1024) by nra. assert (Xa : u * a <= a / 1024) by nra. assert (Yl : u * l <= l / 1024) by nra.
  assert (Ur : u * Rabs (fval r) <= u * a + u * a / 1024) by (apply Rle_trans with (u * (a + u * a)); [apply Rmult_le_compat_l; lra|lra]).
  assert (Kl : Rabs (IZR k * l) <= 2 * a + 2 * l).
  { replace (IZR k * l) with (fval r + - (fval r - IZR k * l)) by ring. apply Rle_trans with (1 := Rabs_triang _ _). rewrite Rabs_Ropp. lra. }
  assert (Kl' : Rabs (IZR k * l) <= a + l / 2 + 3 * (u * a) + u * l / 1024).
  { replace (IZR k * l) with (fval r + - (fval r - IZR k * l)) by ring. apply Rle_trans with (1 := Rabs_triang _ _). rewrite Rabs_Ropp. lra. }
  set (p := fmul (f64_ofZ k) L).
  assert (Rp : rounded (IZR k * l) p) by (rewrite <- Ez; apply mul_spec; try apply Kz; apply KL).
  assert (Al : a <= p2 401) by (unfold a; change 401%Z with (400 + 1)%Z; rewrite p2_succ; unfold Rminus; apply Rle_trans with (1 := Rabs_triang _ _); rewrite Rabs_Ropp; lra).
  assert (E401 : p2 401 = 2 * p2 400) by (change 401%Z with (400 + 1)%Z; apply p2_succ). assert (E403 : p2 403 = 8 * p2 400) by (change 403%Z with (400 + 1 + 1 + 1)%Z; rewrite !p2_succ; ring).
  assert (E404 : p2 404 = 16 * p2 400) by (change 404%Z with (400 + 1 + 1 + 1 + 1)%Z; rewrite !p2_succ; ring).
  destruct (rounded_bounded _ _ (p2 403) Rp) as [Kp Bp]; [apply format_p2; lia|apply Rle_trans with (1 := Kl); lra|apply p2_lt; lia|].
  pose proof (rounded_error _ _ Rp Kp) as Ep.
  assert (Ep' : Rabs (fval p - IZR k * l) <= u * a + u * l / 2 + u * a / 256 + u * l / 256 + tiny).
  { apply Rle_trans with (1 := Ep). assert (u * Rabs (IZR k * l) <= u * (a + l / 2 + 3 * (u * a) + u * l / 1024)) by (apply Rmult_le_compat_l; lra). assert (u * (u * l) <= u * l / 1024) by nra. lra. }
  assert (Rc : rounded (fval r - fval p) (fsub r p)) by (apply sub_spec; try apply Kr; apply Kp).
  destruct (rounded_bounded _ _ (p2 404) Rc) as [Kc Bc]; [apply format_p2; lia| |apply p2_lt; lia|].
  { unfold Rminus. apply Rle_trans with (1 := Rabs_triang _ _). rewrite Rabs_Ropp. lra. }
  pose proof (sub_relative r p _ Kr Kp Rc Kc) as Ecc. split; [exact Kc|].
  assert (Drp : Rabs (fval r - fval p) <= l + a).
  { replace (fval r - fval p) with ((fval r - IZR k * l) + - (fval p - IZR k * l)) by ring. apply Rle_trans with (1 := Rabs_triang _ _). rewrite Rabs_Ropp. lra. }
  assert (Urp : u * Rabs (fval r - fval p) <= u * l + u * a) by (rewrite <- Rmult_plus_distr_l; apply Rmult_le_compat_l; lra).
  apply Rle_trans with ((u * l + u * a + u * a + (u * a + u * l / 2 + u * a / 256 + u * l / 256 + tiny)) + 2 * (u * a + (u * a + u * a / 1024) + tiny * l)).
  - assert (0 <= tiny * l) by (apply Rmult_le_pos; lra). apply per_close with k; [exact Hl| | |lra].
    + replace (fval (fsub r p) - (fval x - fval y - IZR k * l)) with ((fval (fsub r p) - (fval r - fval p)) + ((fval r - (fval x - fval y)) + - (fval p - IZR k * l))) by ring.
      apply Rle_trans with (1 := Rabs_triang _ _). pose proof (Rabs_triang (fval r - (fval x - fval y)) (- (fval p - IZR k * l))) as Q. rewrite Rabs_Ropp in Q. lra.
    + replace (fval x - fval y - IZR k * l) with (- (fval r - (fval x - fval y)) + (fval r - IZR k * l)) by ring. apply Rle_trans with (1 := Rabs_triang _ _). rewrite Rabs_Ropp. lra.
  - rewrite Rmult_plus_distr_l. lra.
Qed.

Lemma abs_value : forall x, ok x -> ok (SFabs x) /\ fval (SFabs x) = Rabs (fval x).
Proof.
  intros x [V F]. destruct x as [s|s| |s m e]; try destruct F; cbn [SFabs].
  - split; [apply ok_zero|]. cbn [fval]. rewrite Rabs_R0. reflexivity.
  - split; [split; [apply (valid_sign s); exact V|exact I]|]. cbn [fval]. change (powerRZ 2 e) with (p2 e). pose proof (p2_pos e) as P. assert (Q : 0 < IZR (Zpos m)) by (apply IZR_lt; lia).
    assert (W : 0 < IZR (Zpos m) * p2 e) by (apply Rmult_lt_0_compat; assumption). rewrite Rabs_mult, (Rabs_right (IZR (Zpos m) * p2 e)) by lra.
    destruct s; cbn [sgn]; [rewrite Rabs_left by lra; ring|rewrite Rabs_R1; ring].
Qed.

Lemma opp_ok : forall x, ok x -> ok (SFopp x) /\ fval (SFopp x) = - fval x.
Proof.
  intros x [V F]. split; [|apply fval_opp]. destruct x as [s|s| |s m e]; try destruct F; cbn [SFopp]; [apply ok_zero|]. split; [|exact I].
  apply valid_iff. apply valid_iff in V. exact V.
Qed.

(** Fortran: where (abs(r) > box/2) r = r - sign(box, r). *)
Lemma wrap_close : forall x y L, coordinate x y L -> Rabs (fval x - fval y) <= 3 / 2 * fval L ->
  let c := wrap F64ops (fsub x y) L in let a := Rabs (fval x - fval y) in
  ok c /\ Rabs (Rabs (fval c) - per (fval x - fval y) (fval L)) <= 10 * u * (a + fval L).
Proof.
  intros x y L C Far c a. destruct (difference x y L C) as [Kr [Er Br]]. destruct C as [Kx [Ky [KL [Bx [By [L1 L2]]]]]]. unfold wrap in c. cbn [nsub nmul ndiv nlt nabs nofZ F64ops] in c.
  change (num F64ops) with f64 in c. set (r := fsub x y) in *. fold a in Er, Far. set (l := fval L) in *.
  pose proof u_tiny as U1. pose proof u_pos as U0. destruct (tiny_side l L1) as [T1 _]. pose proof tiny_pos as T0. assert (Hl : 0 < l) by (apply Rlt_le_trans with (2 := L1), p2_pos). assert (Ha : 0 <= a) by apply Rabs_pos.
  assert (X0 : 0 <= u * a) by (apply Rmult_le_pos; lra). assert (Y0 : 0 <= u * l) by (apply Rmult_le_pos; lra).
  assert (Xa : u * a <= a / 1024) by nra. assert (Yl : u * l <= l / 1024) by nra. assert (XX : u * (u * a) <= u * a / 1024) by nra. assert (YY : u * (u * l) <= u * l / 1024) by nra.
  assert (E401 : p2 401 = 2 * p2 400) by (change 401%Z with (400 + 1)%Z; apply p2_succ). assert (E404 : p2 404 = 16 * p2 400) by (change 404%Z with (400 + 1 + 1 + 1 + 1)%Z; rewrite !p2_succ; ring).
  set (h := fdiv L (f64_ofZ 2)) in *. destruct (ofZ_exact 2 ltac:(lia)) as [K2 E2].
  assert (Rh : rounded (l / 2) h) by (rewrite <- E2; apply div_spec; try apply KL; try apply K2; rewrite E2; lra).
  destruct (rounded_bounded _ _ (p2 400) Rh) as [Kh Bh]; [apply format_p2; lia|rewrite Rabs_right by lra; lra|apply p2_lt; lia|].
  pose proof (rounded_error _ _ Rh Kh) as Eh. rewrite (Rabs_right (l / 2)) in Eh by lra. apply Rabs_le_inv in Eh.
  destruct (abs_value r Kr) as [Ka Ea]. destruct (abs_value L KL) as [KaL EaL]. fold l in EaL. rewrite (Rabs_right l) in EaL by lra.
  assert (Ra : Rabs (fval r) <= a + u * a).
  { replace (fval r) with ((fval x - fval y) + (fval r - (fval x - fval y))) by ring. apply Rle_trans with (1 := Rabs_triang _ _). fold a. lra. }
  assert (Ra' : a - u * a <= Rabs (fval r)).
  { assert (a <= Rabs (fval r) + Rabs (fval r - (fval x - fval y))); [|lra]. unfold a. replace (fval x - fval y) with (fval r + - (fval r - (fval x - fval y))) at 1 by ring. apply Rle_trans with (1 := Rabs_triang _ _). rewrite Rabs_Ropp. lra. }
  destruct (SFltb h (SFabs r)) eqn:Eb.
  - apply ltb_spec in Eb; [|assumption|assumption]. rewrite Ea in Eb.
    set (s := if SFltb r (S754_zero false) then SFopp (SFabs L) else SFabs L).
    assert (Es : c = fsub r s) by reflexivity. clearbody c. subst c.
    assert (Hs : exists k, ok s /\ fval s = IZR k * l /\ Rabs (fval x - fval y - IZR k * l) = Rabs (a - l)).
    { unfold s. destruct (SFltb r (S754_zero false)) eqn:E0.
      - apply ltb_spec in E0; [|assumption|apply ok_zero]. cbn [fval] in E0. exists (-1)%Z. destruct (opp_ok _ KaL) as [Ko Eo]. split; [exact Ko|]. split; [rewrite Eo, EaL; lra|].
        assert (D : fval x - fval y < 0). { destruct (Rlt_le_dec (fval x - fval y) 0) as [D|D]; [exact D|]. exfalso. apply Rabs_le_inv in Er. unfold a in *. rewrite (Rabs_right (fval x - fval y)) in * by lra. nra. }
        unfold a. rewrite (Rabs_left (fval x - fval y)) by exact D. rewrite <- Rabs_Ropp. f_equal. lra.
      - assert (E0' : 0 <= fval r). { destruct (Rle_lt_dec 0 (fval r)) as [D|D]; [exact D|]. exfalso. assert (SFltb r (S754_zero false) = true) by (apply ltb_spec; [assumption|apply ok_zero|exact D]). congruence. }
        exists 1%Z. split; [exact KaL|]. split; [rewrite EaL; lra|].
        assert (D : 0 <= fval x - fval y). { destruct (Rle_lt_dec 0 (fval x - fval y)) as [D|D]; [exact D|]. exfalso. apply Rabs_le_inv in Er. unfold a in *. rewrite (Rabs_left (fval x - fval y)) in * by exact D. nra. }
        unfold a. rewrite (Rabs_right (fval x - fval y)) by lra. f_equal. lra. }
    destruct Hs as [k [Ks [Ek Dk]]]. assert (Dl : Rabs (a - l) <= l / 2 + (u * a + u * l)) by (apply Rabs_le; lra).
    assert (Rc : rounded (fval r - fval s) (fsub r s)) by (apply sub_spec; try apply Kr; apply Ks).
    assert (Drs : Rabs (fval r - fval s) <= l / 2 + (2 * (u * a) + u * l)).
    { rewrite Ek. replace (fval r - IZR k * l) with ((fval r - (fval x - fval y)) + (fval x - fval y - IZR k * l)) by ring. apply Rle_trans with (1 := Rabs_triang _ _). lra. }
    destruct (rounded_bounded _ _ (p2 404) Rc) as [Kc Bc]; [apply format_p2; lia|apply Rle_trans with (1 := Drs); lra|apply p2_lt; lia|].
    pose proof (sub_relative r s _ Kr Ks Rc Kc) as Ec. split; [exact Kc|].
    assert (u * Rabs (fval r - fval s) <= u * (l / 2 + (2 * (u * a) + u * l))) by (apply Rmult_le_compat_l; lra).
    apply Rle_trans with ((u * (l / 2 + (2 * (u * a) + u * l)) + u * a) + 2 * (u * a + u * l)).
    + apply per_close with k; [exact Hl| |rewrite Dk; exact Dl|lra].
      replace (fval (fsub r s) - (fval x - fval y - IZR k * l)) with ((fval (fsub r s) - (fval r - fval s)) + (fval r - (fval x - fval y))) by (rewrite Ek; ring).
      apply Rle_trans with (1 := Rabs_triang _ _). lra.
    + lra.
  - subst c. split; [exact Kr|]. assert (Eb' : Rabs (fval r) <= fval h).
    { destruct (Rle_lt_dec (Rabs (fval r)) (fval h)) as [D|D]; [exact D|]. exfalso. assert (SFltb h (SFabs r) = true) by (apply ltb_spec; [assumption|assumption|rewrite Ea; exact D]). congruence. }
    apply Rle_trans with (u * a + 2 * (u * a + u * l)); [|lra]. apply per_close with 0%Z; [exact Hl|rewrite Rmult_0_l, Rminus_0_r; exact Er| |lra].
    rewrite Rmult_0_l, Rminus_0_r. fold a. lra.
Qed.

(** ** Norms *)
Lemma norm_step : forall a b p q, 0 <= a -> 0 <= b -> 0 <= p -> 0 <= q -> sqrt (a * a + p * p) <= sqrt (b * b + q * q) + (Rabs (a - b) + Rabs (p - q)).
Proof.
  intros a b p q Ha Hb Hp Hq. set (x := Rabs (a - b)). set (y := Rabs (p - q)). set (N := sqrt (b * b + q * q)).
  assert (Hx : 0 <= x) by apply Rabs_pos. assert (Hy : 0 <= y) by apply Rabs_pos. assert (HN : 0 <= N) by apply sqrt_pos.
  assert (NN : N * N = b * b + q * q) by (apply sqrt_sqrt; nra).
  assert (Nb : b <= N) by (unfold N; rewrite <- (sqrt_square b) at 1 by exact Hb; apply sqrt_le_1_alt; nra).
  assert (Nq : q <= N) by (unfold N; rewrite <- (sqrt_square q) at 1 by exact Hq; apply sqrt_le_1_alt; nra).
  assert (A : a <= b + x) by (unfold x; pose proof (Rle_abs (a - b)); lra). assert (P : p <= q + y) by (unfold y; pose proof (Rle_abs (p - q)); lra).
  rewrite <- (sqrt_square (N + (x + y))) by lra. apply sqrt_le_1_alt.
  assert (A2 : a * a <= (b + x) * (b + x)) by (apply Rmult_le_compat; lra). assert (P2 : p * p <= (q + y) * (q + y)) by (apply Rmult_le_compat; lra).
  assert (b * x <= N * x) by (apply Rmult_le_compat_r; lra). assert (q * y <= N * y) by (apply Rmult_le_compat_r; lra). assert (0 <= x * y) by (apply Rmult_le_pos; lra). nra.
Qed.

Definition norm2 (l : list R) : R := sqrt (rsum (map (fun c => c * c) l)).
Lemma sumsq_nonneg : forall l : list R, 0 <= rsum (map (fun c => c * c) l).
Proof. induction l as [|a l IH]; cbn [map rsum]; [lra|]. pose proof (Rle_0_sqr a) as Q. unfold Rsqr in Q. lra. Qed.

Lemma norm_close : forall cs ps es, Forall2 (fun c pe => 0 <= fst pe /\ Rabs (Rabs c - fst pe) <= snd pe) cs (combine ps es) -> length ps = length cs -> length es = length cs ->
  Rabs (norm2 cs - norm2 ps) <= rsum es.
Proof.
  induction cs as [|c cs IH]; intros [|p ps] [|e es] F L1 L2; try discriminate.
  - unfold norm2. cbn [map rsum]. rewrite Rminus_diag_eq, Rabs_R0 by reflexivity. lra.
  - cbn [combine] in F. inversion F as [|? ? ? ? [P0 E0] F']; subst. cbn [fst snd] in *. injection L1 as L1. injection L2 as L2. specialize (IH ps es F' L1 L2). cbn [rsum].
    assert (S : forall d l, norm2 (d :: l) = sqrt (Rabs d * Rabs d + norm2 l * norm2 l)).
    { intros d l. unfold norm2. cbn [map rsum]. rewrite sqrt_sqrt by apply sumsq_nonneg. f_equal. f_equal. rewrite <- Rabs_mult. symmetry. apply Rabs_right. apply Rle_ge, Rle_0_sqr. }
    rewrite !S, (Rabs_right p) by lra. pose proof (norm_step (Rabs c) p (norm2 cs) (norm2 ps) (Rabs_pos _) P0 (sqrt_pos _) (sqrt_pos _)) as A.
    pose proof (norm_step p (Rabs c) (norm2 ps) (norm2 cs) P0 (Rabs_pos _) (sqrt_pos _) (sqrt_pos _)) as B.
    rewrite (Rabs_minus_sym p), (Rabs_minus_sym (norm2 ps)) in B. apply Rabs_le. lra.
Qed.

Lemma norm_le : forall l, norm2 l <= rsum (map Rabs l).
Proof.
  induction l as [|a l IH]; [unfold norm2; cbn [map rsum]; rewrite sqrt_0; lra|]. unfold norm2 in *. cbn [map rsum].
  pose proof (sqrt_pos (rsum (map (fun c => c * c) l))) as P. pose proof (sqrt_sqrt _ (sumsq_nonneg l)) as Q. pose proof (Rabs_pos a).
  rewrite <- (sqrt_square (Rabs a + rsum (map Rabs l))) by lra. apply sqrt_le_1_alt. assert (a * a = Rabs a * Rabs a) by (rewrite <- Rabs_mult; symmetry; apply Rabs_right; apply Rle_ge, Rle_0_sqr). set (s := sqrt (rsum (map (fun c => c * c) l))) in *.
  assert (s * s <= rsum (map Rabs l) * rsum (map Rabs l)) by (apply Rmult_le_compat; lra). assert (0 <= Rabs a * rsum (map Rabs l)) by (apply Rmult_le_pos; lra). nra.
Qed.

(** The square root of a perturbed number. *)
Lemma sqrt_perturbed : forall x y rho tau, 0 <= x -> 0 <= y -> 0 <= rho -> 0 <= tau -> Rabs (x - y) <= rho * y + tau -> Rabs (sqrt x - sqrt y) <= rho * sqrt y + sqrt tau.
Proof.
  intros x y rho tau Hx Hy Hr Ht H. apply Rabs_le_inv in H. pose proof (sqrt_pos x) as X. pose proof (sqrt_pos y) as Y. pose proof (sqrt_pos tau) as T.
  pose proof (sqrt_sqrt x Hx) as XX. pose proof (sqrt_sqrt y Hy) as YY. pose proof (sqrt_sqrt tau Ht) as TT. set (a := sqrt x) in *. set (b := sqrt y) in *. set (t := sqrt tau) in *.
  assert (0 <= rho * b) by (apply Rmult_le_pos; assumption). assert (0 <= b * t) by (apply Rmult_le_pos; assumption). assert (0 <= rho * b * t) by (apply Rmult_le_pos; assumption). assert (0 <= rho * b * b) by (apply Rmult_le_pos; assumption).
  apply Rabs_le. split.
  - destruct (Rle_lt_dec b (a + (rho * b + t))) as [D|D]; [lra|]. exfalso. nra.
  - destruct (Rle_lt_dec a (b + (rho * b + t))) as [D|D]; [lra|]. exfalso. nra.
Qed.

(** ** The norm of doubles, the squares being added up in any order *)
Lemma square_nearby : forall c, ok c -> Rabs (fval c) <= p2 410 ->
  let t := fmul c c in ok t /\ Rabs (fval t) <= p2 820 /\ nearby 1 tiny (fval t) (fval c * fval c) (fval c * fval c) /\ 0 <= fval t.
Proof.
  intros c K B t. assert (R1 : rounded (fval c * fval c) t) by (apply mul_spec; apply K). assert (P : 0 <= fval c * fval c) by apply Rle_0_sqr.
  destruct (rounded_bounded _ _ (p2 820) R1) as [Kt Bt].
  - apply format_p2. lia.
  - rewrite Rabs_mult. change 820%Z with (410 + 410)%Z. rewrite p2_add. pose proof (Rabs_pos (fval c)). apply Rmult_le_compat; lra.
  - apply p2_lt. lia.
  - split; [exact Kt|]. split; [exact Bt|]. split; [|apply (rounded_ge _ _ 0 R1 Kt format_0 P)]. apply nearby_weaken with 1%nat (0 + tiny); [lia|lra|].
    apply nearby_round with (fval c * fval c); [left; apply tiny_pos| |apply rounded_error; assumption]. pose proof (nearby_refl (fval c * fval c)) as Q. rewrite Rabs_right in Q by lra. exact Q.
Qed.

Lemma norm_double : forall (cs : list f64) s Z, (Z.of_nat (length cs) <= 2 ^ 40)%Z -> (forall c, In c cs -> ok c /\ Rabs (fval c) <= p2 410) ->
  sum_of (map (fun c => fmul c c) cs) s -> p2 (-400) <= Z ->
  ok (SFsqrt fprec femax s) /\ 0 <= fval (SFsqrt fprec femax s) /\
  Rabs (fval (SFsqrt fprec femax s) - norm2 (map fval cs)) <= (2 * INR (length cs) + 4) * u * rsum (map Rabs (map fval cs)) + u * Z / 256.
Proof.
  intros cs s Z Hd Hc Hs HZ. set (d := length cs) in *.
  destruct (sum_of_nearby 820 1 tiny _ s ltac:(lia) ltac:(left; apply tiny_pos) Hs (map (fun c => (fval c * fval c, fval c * fval c)) cs)) as [Ks [Bs [_ [W Sg]]]].
  - rewrite map_length. apply Z.le_trans with (1 := Hd). lia.
  - clear - Hc. induction cs as [|c cs IH]; cbn [map]; constructor.
    + destruct (Hc c (or_introl eq_refl)) as [K B]. destruct (square_nearby c K B) as [A1 [A2 [A3 _]]]. cbn [fst snd]. auto.
    + apply IH. intros c' H. apply Hc. right. exact H.
  - assert (S0 : 0 <= fval s).
    { apply Sg. apply Forall_forall. intros v Hv. apply in_map_iff in Hv. destruct Hv as [c [<- Hv]]. destruct (Hc c Hv) as [K B]. apply square_nearby; assumption. }
    rewrite !map_map in W. cbn [fst snd] in W. rewrite map_length in W. change (length cs) with d in W.
    assert (EY : rsum (map (fun c : f64 => fval c * fval c) cs) = rsum (map (fun c => c * c) (map fval cs))) by (rewrite map_map; reflexivity). rewrite EY in W. clear EY.
    set (Y := rsum (map (fun c => c * c) (map fval cs))) in *. assert (Y0 : 0 <= Y) by apply sumsq_nonneg.
    pose proof u_tiny as U1. pose proof u_pos as U0. assert (Dp : 0 <= INR d) by apply pos_INR.
    assert (Du : (INR d + 1) * u <= / 4).
    { assert (INR d <= p2 40) by (rewrite p2_Z by lia; rewrite INR_IZR_INZ; apply IZR_le; exact Hd). assert (p2 40 * u = p2 (-13)) by (unfold u; rewrite <- p2_add; f_equal).
      assert (p2 (-13) <= p2 (-10)) by (apply p2_le; lia). assert (p2 (-10) = / 1024) by (unfold p2; simpl; lra). assert (INR d * u <= p2 40 * u) by (apply Rmult_le_compat_r; lra). lra. }
    apply nearby_error in W; [|rewrite plus_INR; change (INR 1) with 1; lra]. rewrite plus_INR in W. change (INR 1) with 1 in W.
    set (tau := 2 * (INR d * tiny)) in *. assert (T0 := tiny_pos). assert (Ht : 0 <= tau) by (unfold tau; assert (0 <= INR d * tiny) by (apply Rmult_le_pos; lra); lra).
    assert (Hrho : 0 <= 2 * (1 + INR d) * u) by (apply Rmult_le_pos; lra).
    pose proof (sqrt_perturbed _ _ _ _ S0 Y0 Hrho Ht W) as Q. change (sqrt Y) with (norm2 (map fval cs)) in Q.
    assert (Sig : sqrt tau <= p2 (-510)).
    { rewrite <- (sqrt_square (p2 (-510))) by (left; apply p2_pos). apply sqrt_le_1_alt. unfold tau. assert (INR d <= p2 40) by (rewrite p2_Z by lia; rewrite INR_IZR_INZ; apply IZR_le; exact Hd).
      apply Rle_trans with (2 * (p2 40 * tiny)); [assert (INR d * tiny <= p2 40 * tiny) by (apply Rmult_le_compat_r; lra); lra|]. unfold tiny. rewrite <- !p2_add.
      rewrite <- p2_succ. apply p2_le. lia. }
    assert (Sig' : p2 (-510) <= u * Z / 1024).
    { apply Rle_trans with (u * p2 (-400) * p2 (-10)); [unfold u; rewrite <- !p2_add; apply p2_le; lia|]. replace (p2 (-10)) with (/ 1024) by (unfold p2; simpl; lra). unfold Rdiv. apply Rmult_le_compat_r; [lra|]. apply Rmult_le_compat_l; lra. }
    assert (Tn : tiny <= p2 (-510)) by (unfold tiny; apply p2_le; lia).
    set (N := norm2 (map fval cs)) in *. assert (N0 : 0 <= N) by apply sqrt_pos. pose proof (norm_le (map fval cs)) as NW. fold N in NW. set (V := rsum (map Rabs (map fval cs))) in *.
    assert (R1 : rounded (sqrt (fval s)) (SFsqrt fprec femax s)) by (apply sqrt_spec64; [apply Ks|apply Ks|exact S0]).
    destruct (rounded_bounded _ _ (p2 1000) R1) as [Kd Bd].
    + apply format_p2. lia.
    + rewrite Rabs_right by (apply Rle_ge, sqrt_pos). rewrite <- (sqrt_square (p2 1000)) by (left; apply p2_pos). apply sqrt_le_1_alt. rewrite <- p2_add. rewrite map_length in Bs. change (length cs) with d in Bs.
      rewrite (Rabs_right (fval s)) in Bs by lra. apply Rle_trans with (1 := Bs). apply Rle_trans with (p2 40 * p2 820); [|rewrite <- p2_add; apply p2_le; lia].
      apply Rmult_le_compat_r; [left; apply p2_pos|]. rewrite p2_Z by lia. apply IZR_le. exact Hd.
    + apply p2_lt. lia.
    + split; [exact Kd|]. split; [apply (rounded_ge _ _ 0 R1 Kd format_0 (sqrt_pos _))|].
      pose proof (rounded_error _ _ R1 Kd) as E. rewrite (Rabs_right (sqrt (fval s))) in E by (apply Rle_ge, sqrt_pos). set (q := sqrt (fval s)) in *.
      assert (U2 : 2 * (1 + INR d) * u * N <= / 2 * N) by (apply Rmult_le_compat_r; lra).
      apply Rabs_le_inv in Q. assert (q <= N + / 2 * N + p2 (-510)) by lra. assert (UN : 0 <= u * N) by (apply Rmult_le_pos; lra).
      assert (u * q <= u * (N + / 2 * N + p2 (-510))) by (apply Rmult_le_compat_l; lra). assert (u * p2 (-510) <= p2 (-510)) by (rewrite <- (Rmult_1_l (p2 (-510))) at 2; apply Rmult_le_compat_r; [left; apply p2_pos|lra]).
      assert ((2 * INR d + 4) * u * N <= (2 * INR d + 4) * u * V) by (apply Rmult_le_compat_l; [apply Rmult_le_pos; lra|exact NW]).
      apply Rabs_le_inv in E. apply Rabs_le. split; lra.
Qed.

(** ** Distances *)
Lemma components_close : forall (g : f64 -> f64 -> f64) (P : f64 -> f64 -> f64 -> Prop),
  (forall x y L, P x y L -> p2 (-400) <= fval L /\ Rabs (fval x - fval y) + fval L <= p2 405 /\ ok (g (fsub x y) L) /\
     Rabs (Rabs (fval (g (fsub x y) L)) - per (fval x - fval y) (fval L)) <= 10 * u * (Rabs (fval x - fval y) + fval L)) ->
  forall x y side s, side <> [] -> (Z.of_nat (length side) <= 2 ^ 40)%Z -> pair_coords P x y side ->
  sum_of (map2 (fun r L => fmul (g r L) (g r L)) (map2 fsub x y) side) s ->
  ok (SFsqrt fprec femax s) /\ 0 <= fval (SFsqrt fprec femax s) /\
  Rabs (fval (SFsqrt fprec femax s) - img_dist Rops (map fval x) (map fval y) (map fval side)) <= (2 * INR (length side) + 15) * u * spread (map fval x) (map fval y) (map fval side).
Proof.
  intros g P Hg x y side s Ne Hd HP Hs. set (cs := map2 g (map2 fsub x y) side).
  assert (Es : map2 (fun r L => fmul (g r L) (g r L)) (map2 fsub x y) side = map (fun c => fmul c c) cs) by (unfold cs, map2; rewrite map_map; reflexivity). rewrite Es in Hs. clear Es.
  set (Z := spread (map fval x) (map fval y) (map fval side)).
  set (ps := map2 (fun r L => per r L) (map2 Rminus (map fval x) (map fval y)) (map fval side)).
  set (es := map2 (fun r L => 10 * u * (Rabs r + L)) (map2 Rminus (map fval x) (map fval y)) (map fval side)).
  pose proof u_pos as U0. pose proof u_tiny as U1.
  assert (F : length cs = length side /\ length ps = length side /\ length es = length side /\ rsum es = 10 * u * Z /\ (side <> [] -> p2 (-400) <= Z) /\ 0 <= Z /\ rsum (map Rabs (map fval cs)) <= Z /\
    (forall c, In c cs -> ok c /\ Rabs (fval c) <= p2 410) /\
    Forall2 (fun c pe => 0 <= fst pe /\ Rabs (Rabs c - fst pe) <= snd pe) (map fval cs) (combine ps es)).
  { clear - Hg HP U0 U1. unfold Z. clear Z. revert y side HP ps es cs. induction x as [|a x IH]; intros [|b y] [|L side] HP; try destruct HP.
    - cbn. split; [reflexivity|]. split; [reflexivity|]. split; [reflexivity|]. split; [ring|]. split; [congruence|]. split; [lra|]. split; [lra|]. split; [intros c []|constructor].
    - rename H into Ha. rename H0 into HP'. specialize (IH y side HP'). cbv zeta in IH. destruct (Hg a b L Ha) as [L1 [L2 [K1 E1]]]. cbn [map map2 combine fst snd length rsum spread] in *. unfold map2 in *. cbn [map combine fst snd length rsum].
      destruct IH as [I1 [I2 [I3 [I4 [I5 [I6 [I7 [I8 I9]]]]]]]]. set (c := g (fsub a b) L) in *. set (t := fval a - fval b) in *. set (l := fval L) in *.
      assert (l0 : 0 < l) by (apply Rlt_le_trans with (2 := L1), p2_pos). pose proof (Rabs_pos t) as A0. assert (H2 : per t l <= l / 2) by (apply image_half; exact l0). assert (P0 : 0 <= per t l) by apply Rabs_pos.
      assert (UZ : 10 * u * (Rabs t + l) <= (Rabs t + l) / 64) by (assert (0 <= Rabs t + l) by lra; nra).
      assert (Cb : Rabs (fval c) <= Rabs t + l) by (apply Rabs_le_inv in E1; lra).
      split; [f_equal; exact I1|]. split; [f_equal; exact I2|]. split; [f_equal; exact I3|]. split; [rewrite I4; ring|]. split; [intros _; lra|]. split; [lra|]. split; [lra|]. split.
      + intros c' [<-|H]; [|apply I8; exact H]. split; [exact K1|]. apply Rle_trans with (1 := Cb). apply Rle_trans with (1 := L2). apply p2_le. lia.
      + constructor; [|exact I9]. cbn [fst snd]. split; [exact P0|exact E1]. }
  destruct F as [F1 [F2 [F3 [F4 [F5 [F6 [F7 [F8 F9]]]]]]]]. specialize (F5 Ne).
  assert (Hd' : (Z.of_nat (length cs) <= 2 ^ 40)%Z) by (rewrite F1; exact Hd).
  destruct (norm_double cs s Z Hd' F8 Hs F5) as [Kd [D0 Ed]]. split; [exact Kd|]. split; [exact D0|].
  assert (Nc : Rabs (norm2 (map fval cs) - norm2 ps) <= rsum es) by (apply norm_close; [exact F9| |]; rewrite map_length; congruence).
  assert (Ei : img_dist Rops (map fval x) (map fval y) (map fval side) = norm2 ps).
  { unfold img_dist, img_sq, norm2. cbn [nsqrt Rops]. f_equal. rewrite nsum_R. unfold ps, map2. rewrite map_map. f_equal. apply map_ext. intros p. unfold nsq, per. cbn [nmul Rops].
    rewrite <- Rabs_mult. symmetry. apply Rabs_right. apply Rle_ge, Rle_0_sqr. }
  refine (Rle_trans _ _ _ (Req_le _ _ (f_equal (fun z => Rabs (fval (SFsqrt fprec femax s) - z)) Ei)) _). rewrite F1 in Ed. rewrite F4 in Nc.
  replace (fval (SFsqrt fprec femax s) - norm2 ps) with ((fval (SFsqrt fprec femax s) - norm2 (map fval cs)) + (norm2 (map fval cs) - norm2 ps)) by ring. apply Rle_trans with (1 := Rabs_triang _ _).
  assert (UZ : 0 <= u * Z) by (apply Rmult_le_pos; lra).
  assert ((2 * INR (length side) + 4) * u * rsum (map Rabs (map fval cs)) <= (2 * INR (length side) + 4) * u * Z).
  { apply Rmult_le_compat_l; [|exact F7]. apply Rmult_le_pos; [pose proof (pos_INR (length side)); lra|lra]. }
  replace ((2 * INR (length side) + 15) * u * Z) with ((2 * INR (length side) + 4) * u * Z + 11 * (u * Z)) by ring. lra.
Qed.
