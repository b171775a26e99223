(** Theorems about bond angles in double precision: C142. *)
From Coq Require Import List ZArith Bool Arith Reals Lia Lra Psatz Floats.SpecFloat.
From Verif Require Import PyBase PyBaseFacts Num Spec_Stats NumFacts P_Text F64Round F64Ops F64Facts F64Sqrt P_F64Mean M_Helpers M_Dynamics M_Realspace M_BondAngle
  Spec_BondAngle P_BondAngle Spec_Doubles P_F64Time P_F64Overlap P_F64Msd P_F64Order P_F64Dot P_F64Dist P_Fit64 Spec_Grid64 P_Grid64 T_Grid64 P_Helpers P_Count P_Cache P_F64Bins Spec_Correlation Spec_Angle64 P_Angle64 P_Angle64b.
Import ListNotations.
Local Open Scope R_scope.

(** ** C142 *)
Lemma quotient_close : forall D P x Q a b, 0 < Q -> Rabs x <= Q -> Rabs (D - x) <= a * Q -> Rabs (P - Q) <= b * Q -> 0 <= a -> 0 <= b <= / 100000 ->
  0 < P /\ Rabs (D / P - x / Q) <= (a + b) * (1 + / 50000).
Proof.
  intros D P x Q a b HQ Hx HD HP Ha Hb. assert (BQ : b * Q <= / 100000 * Q) by (apply Rmult_le_compat_r; lra). assert (P0 : (1 - / 100000) * Q <= P) by (apply Rabs_le_inv in HP; lra).
  split; [lra|]. replace (D / P - x / Q) with (((D - x) + x * ((Q - P) / Q)) / P) by (field; lra).
  assert (F : Rabs ((Q - P) / Q) <= b).
  { unfold Rdiv. rewrite Rabs_mult, Rabs_inv, (Rabs_right Q) by lra. apply Rmult_le_reg_r with Q; [exact HQ|]. rewrite Rmult_assoc, Rinv_l, Rmult_1_r by lra. rewrite Rabs_minus_sym. exact HP. }
  assert (T : Rabs ((D - x) + x * ((Q - P) / Q)) <= (a + b) * Q).
  { apply Rle_trans with (1 := Rabs_triang _ _). rewrite Rabs_mult. assert (Rabs x * Rabs ((Q - P) / Q) <= Q * b) by (apply Rmult_le_compat; try apply Rabs_pos; assumption). lra. }
  unfold Rdiv at 1. rewrite Rabs_mult, Rabs_inv, (Rabs_right P) by lra. apply Rmult_le_reg_r with P; [lra|]. rewrite Rmult_assoc, Rinv_l, Rmult_1_r by lra.
  apply Rle_trans with (1 := T). rewrite Rmult_assoc. apply Rmult_le_compat_l; lra.
Qed.

Lemma u_nano : u < / 1000000000.
Proof. apply Rle_lt_trans with (p2 (-30)); [apply p2_le; lia|]. unfold p2. simpl. lra. Qed.

Lemma product_close : forall x y X Y e, 0 < X -> 0 < Y -> 0 <= e -> Rabs (x - X) <= e * X -> Rabs (y - Y) <= e * Y -> Rabs (x * y - X * Y) <= (2 * e + e * e) * (X * Y).
Proof.
  intros x y X Y e HX HY He Hx Hy. replace (x * y - X * Y) with ((x - X) * Y + X * (y - Y) + (x - X) * (y - Y)) by ring.
  apply Rle_trans with (1 := Rabs_triang _ _). apply Rle_trans with (Rabs ((x - X) * Y) + Rabs (X * (y - Y)) + Rabs ((x - X) * (y - Y))); [apply Rplus_le_compat_r, Rabs_triang|]. rewrite !Rabs_mult, (Rabs_right X), (Rabs_right Y) by lra.
  assert (Rabs (x - X) * Y <= e * X * Y) by (apply Rmult_le_compat_r; lra). assert (X * Rabs (y - Y) <= X * (e * Y)) by (apply Rmult_le_compat_l; lra).
  assert (Rabs (x - X) * Rabs (y - Y) <= (e * X) * (e * Y)) by (apply Rmult_le_compat; try apply Rabs_pos; assumption). lra.
Qed.

(** The argument of the arc cosine is a number between -1 and 1, and the cosine of the angle up to rounding. *)
Lemma cosine_close : forall v w, bond v -> bond w -> length v = length w ->
  let prod := fmul (vnorm F64ops v) (vnorm F64ops w) in let c := clamp F64ops (fdiv (vdot F64ops v w) prod) in
  ok prod /\ 0 < fval prod /\ ok c /\ -1 <= fval c <= 1 /\
  Rabs (fval c - dot (map fval v) (map fval w) / (norm (map fval v) * norm (map fval w))) <= (6 * INR (length v) + 20) * u.
Proof.
  intros v w Bv Bw L prod c. pose proof u_small as U. pose proof u_nano as U9. pose proof tiny_pos as T0. pose proof (pos_INR (length v)) as D0.
  destruct (vnorm_close v Bv) as [Kn [Nv [Bn [LN En]]]]. destruct (vnorm_close w Bw) as [Km [Nw [Bm [LM Em]]]]. rewrite <- L in Em.
  set (n := vnorm F64ops v) in *. set (m := vnorm F64ops w) in *. set (X := norm (map fval v)) in *. set (Y := norm (map fval w)) in *. set (d := INR (length v)) in *.
  assert (D : d <= 1000) by (replace 1000 with (INR 1000) by (rewrite INR_IZR_INZ; reflexivity); apply le_INR; apply Bv).
  set (e := (2 * d + 5) * u). assert (Pe : 0 <= e) by (apply Rmult_le_pos; lra). assert (du : 0 <= d * u <= 1000 * u) by (split; [apply Rmult_le_pos; lra|apply Rmult_le_compat_r; lra]).
  assert (ee : e * e <= u).
  { apply Rle_trans with (e * (2005 * / 1000000000)); [apply Rmult_le_compat_l; [exact Pe|unfold e; lra]|]. unfold e. lra. }
  set (Q := X * Y). assert (HQ : p2 (-200) <= Q) by (unfold Q; change (-200)%Z with (-100 + -100)%Z; rewrite p2_add; pose proof (p2_pos (-100)); apply Rmult_le_compat; lra).
  assert (PQ : 0 < Q) by (pose proof (p2_pos (-200)); lra). pose proof (tiny_rel Q HQ) as TQ. set (uQ := u * Q) in *. assert (UQ : 0 < uQ < / 1000000 * Q) by (unfold uQ; split; [apply Rmult_lt_0_compat; lra|apply Rmult_lt_compat_r; lra]).
  assert (duQ : 0 <= d * uQ <= 1000 * uQ) by (split; [apply Rmult_le_pos; lra|apply Rmult_le_compat_r; lra]).
  pose proof (product_close (fval n) (fval m) X Y e Nv Nw Pe ltac:(unfold e; rewrite Rmult_assoc; exact En) ltac:(unfold e; rewrite Rmult_assoc; exact Em)) as E1. fold Q in E1.
  assert (E2 : Rabs (fval n * fval m - Q) <= (4 * d + 11) * uQ).
  { apply Rle_trans with (1 := E1). unfold uQ. rewrite <- Rmult_assoc. apply Rmult_le_compat_r; [lra|]. unfold e in *. lra. }
  destruct (mul_bound 110 110 n m Kn Km) as [Kp [Bp E3]]; [rewrite Rabs_right by (pose proof (p2_pos (-101)); lra); apply Bn|rewrite Rabs_right by (pose proof (p2_pos (-101)); lra); apply Bm|lia|]. change (fmul n m) with prod in Kp, Bp, E3.
  assert (unm : u * Rabs (fval n * fval m) <= 11 / 10 * uQ).
  { unfold uQ. replace (11 / 10 * (u * Q)) with (u * (11 / 10 * Q)) by ring. apply Rmult_le_compat_l; [lra|]. apply Rabs_le_inv in E2. apply Rabs_le. split; lra. }
  assert (E4 : Rabs (fval prod - Q) <= (4 * d + 13) * u * Q).
  { replace (fval prod - Q) with ((fval prod - fval n * fval m) + (fval n * fval m - Q)) by ring. apply Rle_trans with (1 := Rabs_triang _ _). rewrite (Rmult_assoc _ u). fold uQ. lra. }
  destruct Bv as [Hd [Hv HY]]. destruct Bw as [_ [Hw HZ]].
  destruct (vdot_close v w L Hd Hv Hw) as [Ks [Bs Es]]. set (s := vdot F64ops v w) in *. set (x := dot (map fval v) (map fval w)) in *. fold d in Es.
  assert (CS : dot (map Rabs (map fval v)) (map Rabs (map fval w)) <= Q).
  { apply Rle_trans with (1 := Rle_abs _). apply Rle_trans with (1 := cauchy_schwarz _ _). unfold norm. rewrite !dot_abs_self. apply Rle_refl. }
  assert (Hx : Rabs x <= Q) by apply cauchy_schwarz.
  assert (E5 : Rabs (fval s - x) <= ((2 * d + 3) * u) * Q).
  { apply Rle_trans with (1 := Es). assert (H : (2 * d + 2) * u * dot (map Rabs (map fval v)) (map Rabs (map fval w)) <= (2 * d + 2) * u * Q) by (apply Rmult_le_compat_l; [apply Rmult_le_pos; lra|exact CS]).
    assert (d * tiny <= 1000 * tiny) by (apply Rmult_le_compat_r; lra). rewrite (Rmult_assoc _ u Q) in H. rewrite (Rmult_assoc _ u Q). fold uQ in H |- *. lra. }
  destruct (quotient_close (fval s) (fval prod) x Q ((2 * d + 3) * u) ((4 * d + 13) * u) PQ Hx E5 E4) as [Pp E6]; [apply Rmult_le_pos; lra|split; [apply Rmult_le_pos; lra|lra]|].
  assert (XQ : -1 <= x / Q <= 1). { apply Rabs_le_inv in Hx. split; apply Rmult_le_reg_r with Q; try exact PQ; unfold Rdiv; rewrite Rmult_assoc, Rinv_l by lra; lra. }
  assert (E7 : Rabs (fval s / fval prod - x / Q) <= (6 * d + 17) * u) by (apply Rle_trans with (1 := E6); lra).
  assert (Pl : p2 (-201) <= Rabs (fval prod)).
  { rewrite Rabs_right by lra. assert (p2 (-200) = 2 * p2 (-201)) by (change (-200)%Z with (-201 + 1)%Z; apply p2_succ). rewrite (Rmult_assoc _ u Q) in E4. fold uQ in E4. apply Rabs_le_inv in E4. lra. }
  destruct (div_bound 210 (-201) s prod Ks Kp Bs Pl ltac:(lia)) as [Kc [_ [E8 _]]].
  assert (sp : u * Rabs (fval s / fval prod) <= 11 / 10 * u).
  { rewrite (Rmult_comm (11 / 10)). apply Rmult_le_compat_l; [lra|]. apply Rabs_le_inv in E7. apply Rabs_le. lra. }
  assert (tu : tiny <= u) by (unfold tiny, u; apply p2_le; lia).
  assert (E9 : Rabs (fval (fdiv s prod) - x / Q) <= (6 * d + 20) * u).
  { replace (fval (fdiv s prod) - x / Q) with ((fval (fdiv s prod) - fval s / fval prod) + (fval s / fval prod - x / Q)) by ring. apply Rle_trans with (1 := Rabs_triang _ _). lra. }
  destruct (clamp_close _ _ _ Kc XQ E9) as [C1 [C2 C3]]. split; [exact Kp|]. split; [exact Pp|]. split; [exact C1|]. split; [exact C2|exact C3].
Qed.

Lemma cos_lip : forall a b, Rabs (cos a - cos b) <= Rabs (a - b).
Proof.
  assert (G : forall a b, a < b -> Rabs (cos a - cos b) <= b - a).
  { intros a b H. destruct (MVT_cor2 cos (fun x => - sin x) a b H (fun c _ => derivable_pt_lim_cos c)) as [c [E _]]. rewrite Rabs_minus_sym, E, Rabs_mult, (Rabs_right (b - a)) by lra.
    rewrite <- (Rmult_1_l (b - a)) at 2. apply Rmult_le_compat_r; [lra|]. pose proof (SIN_bound c). apply Rabs_le. lra. }
  intros a b. destruct (Rtotal_order a b) as [H|[H|H]].
  - rewrite (Rabs_left (a - b)) by lra. specialize (G a b H). lra.
  - rewrite H, !Rminus_diag_eq, Rabs_R0 by reflexivity. lra.
  - rewrite Rabs_minus_sym, (Rabs_right (a - b)) by lra. apply G. exact H.
Qed.

(** An angle is recorded for any two bonds, and its cosine is right up to rounding and the error of the arc cosine. *)
Theorem C142_angle : forall E acosd v w, acos_within E acosd -> bond v -> bond w -> length v = length w ->
  exists t, angle F64ops acosd v w = Some t /\ ok t /\ - E <= fval t <= 180 + E /\
    Rabs (cosd (fval t) - cosd (angle_deg (map fval v) (map fval w))) <= (6 * INR (length v) + 20) * p2 (-53) + E * PI / 180.
Proof.
  intros E acosd v w HE Bv Bw L. destruct (cosine_close v w Bv Bw L) as [Kp [Pp [Kc [Rc Ec]]]]. unfold angle. cbn [nmul neq ndiv n0 F64ops]. change (num F64ops) with f64 in *.
  set (prod := fmul (vnorm F64ops v) (vnorm F64ops w)) in *. set (c := clamp F64ops _) in *.
  assert (Ne : SFeqb prod (S754_zero false) = false).
  { destruct (SFeqb prod (S754_zero false)) eqn:C; [|reflexivity]. apply (eqb_spec _ _ Kp (ok_zero _)) in C. cbn [fval] in C. lra. }
  rewrite Ne. destruct (HE c Kc Rc) as [Kt Et]. eexists. split; [reflexivity|]. split; [exact Kt|]. pose proof PI_RGT_0 as HPI. set (t := fval (acosd c)) in *.
  pose proof (acos_bound (fval c)) as [A1 A2]. assert (A3 : 0 <= acos (fval c) * 180 / PI <= 180) by (split; apply Rmult_le_reg_r with PI; try exact HPI; unfold Rdiv; rewrite ?Rmult_assoc, ?Rinv_l by lra; lra).
  split; [apply Rabs_le_inv in Et; lra|]. unfold cosd, angle_deg.
  assert (Dv : dot (map fval v) (map fval v) <> 0) by (destruct Bv as [_ [_ H]]; pose proof (p2_pos (-200)); lra). assert (Dw : dot (map fval w) (map fval w) <> 0) by (destruct Bw as [_ [_ H]]; pose proof (p2_pos (-200)); lra).
  pose proof (cos_bound _ _ Dv Dw) as CB. set (x := dot (map fval v) (map fval w) / (norm (map fval v) * norm (map fval w))) in *.
  replace (acos x * 180 / PI * PI / 180) with (acos x) by (field; lra). rewrite cos_acos by exact CB.
  replace (cos (t * PI / 180) - x) with ((cos (t * PI / 180) - cos (acos (fval c))) + (fval c - x)) by (rewrite cos_acos by exact Rc; ring).
  apply Rle_trans with (1 := Rabs_triang _ _). pose proof (cos_lip (t * PI / 180) (acos (fval c))) as Lp.
  assert (X : Rabs (t * PI / 180 - acos (fval c)) <= E * PI / 180).
  { replace (t * PI / 180 - acos (fval c)) with ((t - acos (fval c) * 180 / PI) * (PI / 180)) by (field; lra). rewrite Rabs_mult, (Rabs_right (PI / 180)) by lra. unfold Rdiv. rewrite (Rmult_assoc E). apply Rmult_le_compat_r; [lra|exact Et]. }
  fold u. lra.
Qed.
Print Assumptions C142_angle.

(** ** The bins *)
Lemma exact_1 : forall d, ok d -> Rabs (fval d) <= p2 1000 -> ok (point (S754_zero false) d 1) /\ fval (point (S754_zero false) d 1) = fval d.
Proof.
  intros d Kd Bd. assert (G : grid_end (S754_zero false)) by (split; [apply ok_zero|cbn [fval]; rewrite Rabs_R0; left; apply p2_pos]).
  assert (B1 : INR 1 * Rabs (fval d) <= p2 1002) by (cbn [INR]; rewrite Rmult_1_l; apply Rle_trans with (1 := Bd); apply p2_le; lia). assert (Lt : Rabs (fval d) < p2 1024) by (apply Rle_lt_trans with (1 := Bd); apply p2_lt; lia).
  destruct (product_point d 1 Kd ltac:(lia) B1) as [Kp [Rp _]]. cbn [INR] in Rp. rewrite Rmult_1_l in Rp. destruct (rounded_exact _ _ Rp (ok_format _ Kd) Lt) as [_ Ep].
  destruct (point_spec (S754_zero false) d 1 G Kd ltac:(lia) B1) as [Kx [Rx _]]. rewrite Ep in Rx. cbn [fval] in Rx. rewrite Rplus_0_l in Rx. destruct (rounded_exact _ _ Rx (ok_format _ Kd) Lt) as [_ Ex]. split; [exact Kx|exact Ex].
Qed.

Lemma value_close : forall c C d, (c <= C)%nat -> (1 <= C)%nat -> (Z.of_nat C <= 2 ^ 53)%Z -> ok d -> p2 (-20) <= fval d <= 180 ->
  let x := fdiv (f64_ofZ (Z.of_nat c)) (fmul (f64_ofZ (Z.of_nat C)) d) in ok x /\ Rabs (fval x - INR c / (INR C * fval d)) <= 3 * u * (INR c / (INR C * fval d)).
Proof.
  intros c C d Hc H1 H53 Kd Bd x. pose proof u_small as U. pose proof (p2_pos (-20)) as P20. destruct (ofZ_exact (Z.of_nat c) ltac:(lia)) as [Kc Ec]. destruct (ofZ_exact (Z.of_nat C) ltac:(lia)) as [KC EC].
  rewrite <- INR_IZR_INZ in Ec, EC. assert (C1 : 1 <= INR C) by (change 1 with (INR 1); apply le_INR; exact H1). assert (C2 : INR C <= p2 53) by (rewrite INR_IZR_INZ, p2_Z by lia; apply IZR_le; exact H53).
  assert (B180 : 180 <= p2 8) by (rewrite p2_Z by lia; cbn; lra). destruct (mul_bound 53 8 _ d KC Kd ltac:(rewrite EC, Rabs_right; lra) ltac:(rewrite Rabs_right; lra) ltac:(lia)) as [Kp [Bp Ep]]. rewrite EC in Ep.
  set (p := fmul (f64_ofZ (Z.of_nat C)) d) in *. set (Q := INR C * fval d) in *. assert (Q1 : p2 (-20) <= Q) by (unfold Q; rewrite <- (Rmult_1_l (p2 (-20))); apply Rmult_le_compat; lra).
  assert (Q2 : Q <= p2 61) by (unfold Q; change 61%Z with (53 + 8)%Z; rewrite p2_add; apply Rmult_le_compat; lra). rewrite (Rabs_right Q) in Ep by lra.
  assert (T1 : tiny <= u * Q / 1000).
  { assert (tiny * 1024 <= u * p2 (-20)) by (replace 1024 with (p2 10) by (rewrite p2_Z by lia; reflexivity); unfold tiny, u; rewrite <- !p2_add; apply p2_le; lia). assert (u * p2 (-20) <= u * Q) by (apply Rmult_le_compat_l; lra). pose proof tiny_pos. lra. }
  assert (UQ : 0 < u * Q < / 1000000 * Q) by (split; [apply Rmult_lt_0_compat; lra|apply Rmult_lt_compat_r; lra]).
  assert (Pp : 0 < fval p) by (apply Rabs_le_inv in Ep; lra).
  assert (Pl : p2 (-21) <= Rabs (fval p)) by (rewrite Rabs_right by lra; assert (p2 (-20) = 2 * p2 (-21)) by (change (-20)%Z with (-21 + 1)%Z; apply p2_succ); apply Rabs_le_inv in Ep; lra).
  assert (c0 : 0 <= INR c) by apply pos_INR. assert (cC : INR c <= INR C) by (apply le_INR; exact Hc).
  destruct (div_bound 53 (-21) _ p Kc Kp ltac:(rewrite Ec, Rabs_right; lra) Pl ltac:(lia)) as [Kx [Bx [Ex _]]]. fold x in Kx, Bx, Ex. rewrite Ec in Ex. split; [exact Kx|].
  destruct c as [|c].
  - cbn [INR] in *. pose proof (div_spec _ p (proj1 Kc) (proj1 Kp) (proj2 Kc) (proj2 Kp) ltac:(lra)) as R1. rewrite Ec in R1. fold x in R1. unfold Rdiv in *. rewrite !Rmult_0_l in *.
    destruct (rounded_exact _ _ R1 format_0) as [_ E0]; [rewrite Rabs_R0; apply p2_pos|]. rewrite E0, Rminus_0_r, Rabs_R0. lra.
  - set (n := INR (Datatypes.S c)) in *. assert (n1 : 1 <= n) by (unfold n; rewrite S_INR; pose proof (pos_INR c); lra). set (q := n / Q). assert (q1 : p2 (-61) <= q).
    { unfold q. apply Rmult_le_reg_r with Q; [lra|]. unfold Rdiv. rewrite Rmult_assoc, Rinv_l by lra. assert (E61 : p2 (-61) * p2 61 = 1) by (rewrite <- p2_add; reflexivity). assert (p2 (-61) * Q <= p2 (-61) * p2 61) by (apply Rmult_le_compat_l; [left; apply p2_pos|exact Q2]). lra. }
    assert (q0 : 0 < q) by (pose proof (p2_pos (-61)); lra). assert (T2 : tiny <= u * q / 1000).
    { assert (tiny * 1024 <= u * p2 (-61)) by (replace 1024 with (p2 10) by (rewrite p2_Z by lia; reflexivity); unfold tiny, u; rewrite <- !p2_add; apply p2_le; lia). assert (u * p2 (-61) <= u * q) by (apply Rmult_le_compat_l; lra). pose proof tiny_pos. lra. }
    assert (Uq : 0 < u * q < / 1000000 * q) by (split; [apply Rmult_lt_0_compat; lra|apply Rmult_lt_compat_r; lra]).
    assert (R : Rabs (n / fval p - q) <= 11 / 10 * (u * q)).
    { assert (E : n / fval p - q = q * ((Q - fval p) / fval p)) by (unfold q; field; lra). rewrite E, Rabs_mult, (Rabs_right q) by lra.
      assert (Z1 : Rabs ((Q - fval p) / fval p) <= 11 / 10 * u).
      { unfold Rdiv at 1. rewrite Rabs_mult, Rabs_inv, (Rabs_right (fval p)) by lra. apply Rmult_le_reg_r with (fval p); [lra|]. rewrite Rmult_assoc, Rinv_l, Rmult_1_r, Rabs_minus_sym by lra. apply Rle_trans with (1 := Ep).
        assert (u * (99 / 100 * Q) <= u * fval p) by (apply Rmult_le_compat_l; [lra|apply Rabs_le_inv in Ep; lra]). lra. }
      assert (q * Rabs ((Q - fval p) / fval p) <= q * (11 / 10 * u)) by (apply Rmult_le_compat_l; lra). lra. }
    assert (A1 : u * Rabs (n / fval p) <= 11 / 10 * (u * q)) by (replace (11 / 10 * (u * q)) with (u * (11 / 10 * q)) by ring; apply Rmult_le_compat_l; [lra|]; apply Rabs_le_inv in R; apply Rabs_le; lra).
    replace (fval x - q) with ((fval x - n / fval p) + (n / fval p - q)) by ring. apply Rle_trans with (1 := Rabs_triang _ _). lra.
Qed.

Lemma sum_close : forall (X : nat -> R) (c : nat -> nat) C d l e, 0 < C -> 0 < d -> (forall k, In k l -> Rabs (X k - INR (c k) / (C * d)) <= e * (INR (c k) / (C * d))) ->
  Rabs (rsum (map (fun k => X k * d) l) - INR (list_sum (map c l)) / C) <= e * (INR (list_sum (map c l)) / C).
Proof.
  intros X c C d l e HC Hd. induction l as [|k l IH]; intros H.
  - cbn. unfold Rdiv. rewrite Rmult_0_l, Rminus_0_r, Rabs_R0, Rmult_0_r. lra.
  - cbn [map rsum]. rewrite list_sum_cons, plus_INR. specialize (IH (fun j Hj => H j (or_intror Hj))). specialize (H k (or_introl eq_refl)).
    assert (Y : Rabs (X k * d - INR (c k) / C) <= e * (INR (c k) / C)).
    { replace (X k * d - INR (c k) / C) with ((X k - INR (c k) / (C * d)) * d) by (field; lra). rewrite Rabs_mult, (Rabs_right d) by lra. replace (e * (INR (c k) / C)) with (e * (INR (c k) / (C * d)) * d) by (field; lra). apply Rmult_le_compat_r; lra. }
    set (a := INR (c k)) in *. set (b := INR (list_sum (map c l))) in *. set (r := rsum (map (fun k => X k * d) l)) in *. unfold Rdiv in *. rewrite Rmult_plus_distr_r.
    replace (X k * d + r - (a * / C + b * / C)) with ((X k * d - a * / C) + (r - b * / C)) by ring. apply Rle_trans with (1 := Rabs_triang _ _). lra.
Qed.

Lemma all_hist : forall acosd rcut (dt : f64) n skip frames os hss N, py_range 0 (length frames) skip = Ok os -> (1 <= skip)%nat -> (forall f, In f frames -> (length (f_pos0 f) <= N)%nat) ->
  mapM (fun i => f <- get frames i ;; ba_frame F64ops acosd rcut dt n f) os = Ok hss ->
  exists Ts, concat Ts = computed_all F64ops acosd rcut skip frames /\ Forall2 (hist_of F64ops dt n) (concat hss) Ts /\ (length Ts <= N * length frames)%nat.
Proof.
  intros acosd rcut dt n skip frames os hss N Ho Hs HN H. rewrite py_range_spec in Ho by exact Hs. injection Ho as Ho. change (origins 0 skip (length frames) = os) in Ho.
  eexists. split; [reflexivity|]. rewrite Ho. assert (Lo : (length os <= length frames)%nat).
  { rewrite <- Ho. unfold origins. apply Nat.le_trans with (length (seq 0 (length frames))); [|rewrite seq_length; apply Nat.le_refl]. clear. induction (seq 0 (length frames)) as [|a l IH]; cbn [filter length]; [lia|]. destruct (_ && _)%bool; cbn [length]; lia. }
  enough (G : Forall2 (hist_of F64ops dt n) (concat hss) (flat_map (fun i => computed_frame F64ops acosd rcut (nth i frames (mkFrame [] [] [] [] []))) os) /\ (length (flat_map (fun i => computed_frame F64ops acosd rcut (nth i frames (mkFrame [] [] [] [] []))) os) <= N * length os)%nat).
  { split; [exact (proj1 G)|]. apply Nat.le_trans with (1 := proj2 G). apply Nat.mul_le_mono_l. exact Lo. }
  clear Lo Ho. apply mapM_ok_Forall2 in H. induction H as [|i hs os hss E F IH]; cbn [concat flat_map length]; [split; [constructor|lia]|].
  apply bind_Ok_inv in E. destruct E as [f [Ef E]]. destruct (get_inv _ _ _ _ (mkFrame [] [] [] [] []) Ef) as [Li Nf]. rewrite Nf. destruct IH as [I1 I2]. split; [apply Forall2_app; [apply frame_hist; exact E|exact I1]|].
  rewrite app_length. unfold computed_frame at 1. rewrite map_length, seq_length. specialize (HN f ltac:(rewrite <- Nf; apply nth_In; exact Li)). rewrite Nat.mul_succ_r. lia.
Qed.

Lemma nth_map2 : forall X W (f : X -> X -> W) (g : list X) j k x, nth_error (map2 f (firstn j g) (tl g)) k = Some x -> exists a b, nth_error g k = Some a /\ nth_error g (Datatypes.S k) = Some b /\ x = f a b.
Proof.
  intros X W f g. induction g as [|y g IH]; intros j k x H; [destruct j, k; discriminate|]. destruct j; [destruct k; discriminate|]. destruct g as [|z g]; [destruct j, k; discriminate|]. destruct k as [|k]; [injection H as <-; exists y, z; auto|]. exact (IH j k x H).
Qed.

(** In double precision: the value in bin k is the share of the computed angles that fall in the bin, over the width, up to
    three roundings; the values integrate to 1 up to three roundings if an angle falls in one of the bins, and
    are all nan otherwise. *)
Theorem C142_distribution : forall acosd rcut (d : f64) skip frames N centers values, (1 <= skip)%nat -> ok d -> p2 (-20) <= fval d <= 180 ->
  (forall f, In f frames -> (length (f_pos0 f) <= N)%nat) -> (2500 * (Z.of_nat N * Z.of_nat (length frames)) <= 2 ^ 53)%Z ->
  ba_compute F64ops acosd rcut (DFloat (d : num F64ops)) skip frames = Ok (centers, values) ->
  let T := computed_all F64ops acosd rcut skip frames in let m := length values in
  let count := fun k => length (filter (in_bin F64ops d k) T) in let total := list_sum (map count (seq 0 m)) in
  length centers = m /\ 180 * (1 - p2 (-50)) - fval d <= INR m * fval d <= 180 * (1 + p2 (-50)) /\
  (forall k x, nth_error centers k = Some x -> ok x /\ Rabs (fval x - (INR k + / 2) * fval d) <= 8 * p2 (-53) * ((INR k + 1) * fval d)) /\
  (total = 0%nat -> forall x, In x values -> x = S754_nan) /\
  ((1 <= total)%nat -> (forall k x, nth_error values k = Some x -> ok x /\ Rabs (fval x - INR (count k) / (INR total * fval d)) <= 3 * p2 (-53) * (INR (count k) / (INR total * fval d))) /\
     Rabs (rsum (map (fun x => fval x * fval d) values) - 1) <= 3 * p2 (-53)).
Proof.
  intros acosd rcut d skip frames N centers values Hs Kd Bd HN H53 H T m count total. fold u. pose proof u_small as U. pose proof (p2_pos (-20)) as P20.
  assert (Ga : grid_end (S754_zero false)) by (split; [apply ok_zero|cbn [fval]; rewrite Rabs_R0; left; apply p2_pos]).
  destruct (ofZ_exact 180 ltac:(cbn; lia)) as [K180 E180]. assert (B180 : 180 <= p2 8) by (rewrite p2_Z by lia; cbn; lra).
  assert (Gb : grid_end (f64_ofZ 180)) by (split; [exact K180|rewrite E180, Rabs_right by lra; apply Rle_trans with (1 := B180); apply p2_le; lia]).
  assert (Fa : fval (S754_zero false) = 0) by reflexivity.
  assert (Q52 : (fval (f64_ofZ 180) - fval (S754_zero false)) / fval d <= p2 52).
  { rewrite E180, Fa, Rminus_0_r. apply Rmult_le_reg_r with (fval d); [lra|]. unfold Rdiv. rewrite Rmult_assoc, Rinv_l, Rmult_1_r by lra. apply Rle_trans with (p2 52 * p2 (-20)); [rewrite <- p2_add; apply Rle_trans with (1 := B180); apply p2_le; lia|apply Rmult_le_compat_l; [left; apply p2_pos|lra]]. }
  destruct (steps_spec _ _ d Ga Gb Kd ltac:(rewrite E180, Fa; lra) ltac:(lra) Q52) as [q [Eq [Hq [B1 B2]]]]. rewrite E180, Fa, Rminus_0_r in B1, B2.
  assert (Eg : linear_grid F64ops (n0 F64ops) (nofZ F64ops 180) (DFloat (d : num F64ops)) = Ok (map (point (S754_zero false) d) (seq 0 (Z.to_nat (q + 1))))).
  { unfold linear_grid. cbn [neq n0 nofZ ndiv nsub ntrunc F64ops]. assert (Nz : SFeqb d (S754_zero false) = false) by (destruct (SFeqb d (S754_zero false)) eqn:C; [|reflexivity]; apply (eqb_spec _ _ Kd (ok_zero _)) in C; rewrite Fa in C; lra).
    change (num F64ops) with f64 in *. rewrite Nz. refine (eq_trans (f_equal (fun o => match o with Some k => Ok (grid_points F64ops (S754_zero false) d (k + 1)) | None => Err ValueError end) Eq) _). reflexivity. }
  unfold ba_compute in H. rewrite Eg in H. cbn [bind] in H. clear Eg Eq. set (n := Z.to_nat (q + 1)) in *. set (grid := map (point (S754_zero false) d) (seq 0 n)) in *.
  apply bind_Ok_inv in H. destruct H as [g0 [E0 H]]. apply bind_Ok_inv in H. destruct H as [g1 [E1 H]]. apply bind_Ok_inv in H. destruct H as [os [Eo H]]. apply bind_Ok_inv in H. destruct H as [hss [Eh H]].
  assert (Ln : length grid = n) by (unfold grid; rewrite map_length, seq_length; reflexivity).
  assert (X0 : g0 = point (S754_zero false) d 0 /\ g1 = point (S754_zero false) d 1 /\ (2 <= n)%nat).
  { destruct (get_inv _ _ _ _ (S754_zero false) E0) as [_ N0]. destruct (get_inv _ _ _ _ (S754_zero false) E1) as [L1 N1]. assert (L2 : (1 < n)%nat) by (rewrite <- Ln; exact L1).
    split; [|split; [|exact L2]]; [refine (eq_trans (eq_sym N0) _)|refine (eq_trans (eq_sym N1) _)]; unfold grid; apply (nth_map_seq f64); lia. }
  destruct X0 as [-> [-> Hn]]. clear E0 E1.
  assert (D1000 : Rabs (fval d) <= p2 1000) by (rewrite Rabs_right by lra; apply Rle_trans with (p2 8); [lra|apply p2_le; lia]). destruct (exact_1 d Kd D1000) as [K1 E1].
  assert (P0 : ok (point (S754_zero false) d 0) /\ fval (point (S754_zero false) d 0) = 0).
  { split; [|rewrite point_0 by assumption; reflexivity]. apply point_spec; [exact Ga|exact Kd|lia|cbn [INR]; rewrite Rmult_0_l; left; apply p2_pos]. }
  assert (Edt : nsub F64ops (point (S754_zero false) d 1) (point (S754_zero false) d 0) = d).
  { pose proof (sub_spec _ _ (proj1 K1) (proj1 (proj1 P0)) (proj2 K1) (proj2 (proj1 P0))) as R1. rewrite E1, (proj2 P0), Rminus_0_r in R1. destruct (rounded_exact _ _ R1 (ok_format _ Kd)) as [Kr Er]; [apply Rle_lt_trans with (1 := D1000); apply p2_lt; lia|].
    destruct (val_unique _ _ Kr Kd Er) as [E|[_ E]]; [exact E|lra]. }
  rewrite Edt in H, Eh. assert (Ln' : @length (num F64ops) grid = n) by exact Ln. rewrite Ln' in Eh, H. destruct (all_hist acosd rcut d n skip frames os hss N Eo Hs HN Eh) as [Ts [ET [FT LT]]]. fold T in ET.
  destruct (concat hss) as [|h0 hr] eqn:Ec; [discriminate|]. inversion FT as [|? T0 ? Tr F0 Fr]; subst. destruct (fold_hist F64ops d n hr h0 Tr T0 F0 Fr) as [Lf [Cf Bf]]. rewrite ET in Cf, Bf. cbv zeta in H.
  set (hist := fold_left hadd hr h0) in *. rewrite Lf in H.
  assert (Ei : firstn (n - 1) hist = map count (seq 0 (n - 1))).
  { apply nth_ext with 0%nat 0%nat; [rewrite firstn_length, map_length, seq_length, Lf; lia|]. intros k Hk. rewrite firstn_length, Lf in Hk. rewrite nth_map_seq by lia.
    rewrite <- (firstn_skipn (n - 1) hist) in Cf. specialize (Cf k ltac:(lia)). rewrite app_nth1 in Cf by (rewrite firstn_length, Lf; lia). exact Cf. }
  rewrite Ei in H. assert (OkI : forall X Y (a c : X) (b e : Y), Ok (a, b) = Ok (c, e) -> c = a /\ e = b) by (intros X Y a c b e Q; injection Q as <- <-; auto).
  destruct (OkI _ _ _ _ _ _ H) as [Hc Hv]. clear H.
  assert (Lm : m = (n - 1)%nat) by (unfold m; rewrite Hv, !map_length, seq_length; reflexivity).
  assert (Tot : list_sum (map count (seq 0 (n - 1))) = total) by (unfold total; rewrite Lm; reflexivity). rewrite Tot in Hv.
  assert (BT : (Z.of_nat total <= 2 ^ 53)%Z).
  { pose proof (bins_total F64ops d T (n - 1)) as X. change (list_sum (map count (seq 0 (n - 1))) <= length T)%nat in X. rewrite Tot in X. apply Z.le_trans with (Z.of_nat (2500 * (N * length frames))); [apply Nat2Z.inj_le; apply Nat.le_trans with (1 := X); apply Nat.le_trans with (1 := Bf); apply Nat.mul_le_mono_l; exact LT|].
    rewrite !Nat2Z.inj_mul. exact H53. }
  assert (Iq : IZR q = INR m) by (rewrite Lm, INR_IZR_INZ; f_equal; unfold n; lia).
  assert (U50 : p2 (-50) = 8 * u) by (unfold u; change (-50)%Z with (-53 + 1 + 1 + 1)%Z; rewrite !p2_succ; ring).
  split; [rewrite Hc; unfold map2; rewrite map_length, combine_length, firstn_length, Lm; destruct grid as [|g gr]; cbn [tl length] in *; lia|].
  split; [rewrite <- Iq, U50; lra|].
  split; [|split].
  - intros k x Hx. rewrite Hc in Hx. destruct (nth_map2 _ _ _ _ _ _ _ Hx) as [a [b [Ea [Eb Ex]]]]. clear Hx. destruct (nth_points _ _ _ _ _ Ea) as [_ ->]. destruct (nth_points _ _ _ _ _ Eb) as [Lk ->].
    assert (Ik : INR (Datatypes.S k) * fval d <= 181).
    { apply Rle_trans with (IZR q * fval d); [apply Rmult_le_compat_r; [lra|rewrite INR_IZR_INZ; apply IZR_le; unfold n in Lk; lia]|lra]. }
    pose proof (pos_INR k) as Pk. rewrite S_INR in Ik. assert (kd : 0 <= INR k * fval d) by (apply Rmult_le_pos; lra). assert (B1002 : 181 <= p2 1002) by (apply Rle_trans with (p2 8); [rewrite p2_Z by lia; cbn; lra|apply p2_le; lia]).
    destruct (point_spec _ d k Ga Kd ltac:(unfold n in Lk; lia)) as [Kx [_ Xe]]; [rewrite (Rabs_right (fval d)) by lra; lra|].
    destruct (point_spec _ d (Datatypes.S k) Ga Kd ltac:(unfold n in Lk; lia)) as [Ky [_ Ye]]; [rewrite (Rabs_right (fval d)), S_INR by lra; lra|].
    rewrite Fa, Rabs_R0, (Rabs_right (fval d)), !Rplus_0_l in Xe, Ye by lra. rewrite S_INR in Ye. set (a := point (S754_zero false) d k) in *. set (b := point (S754_zero false) d (Datatypes.S k)) in *.
    set (w := (INR k + 1) * fval d) in *. assert (kw : INR k * fval d = w - fval d) by (unfold w; ring). rewrite kw in Xe. assert (W0 : p2 (-20) <= w) by lra. set (uw := u * w). assert (UW : 0 < uw < / 1000000 * w) by (unfold uw; split; [apply Rmult_lt_0_compat; lra|apply Rmult_lt_compat_r; lra]).
    assert (ud : 0 <= u * fval d) by (apply Rmult_le_pos; lra). assert (Xa : Rabs (fval a - (w - fval d)) <= 3 * uw) by (apply Rle_trans with (1 := Xe); unfold uw; lra). assert (Yb : Rabs (fval b - w) <= 3 * uw) by (apply Rle_trans with (1 := Ye); unfold uw; lra).
    apply Rabs_le_inv in Xa. apply Rabs_le_inv in Yb. pose proof (add_spec a b (proj1 Kx) (proj1 Ky) (proj2 Kx) (proj2 Ky)) as R1. cbn [nadd ndiv nofZ F64ops] in Ex. change (x = fdiv (fadd a b) (f64_ofZ 2)) in Ex.
    destruct (rounded_bounded _ _ (p2 9) R1) as [Ks Bs]; [apply format_p2; lia|rewrite (p2_Z 9) by lia; change (IZR (2 ^ 9)) with 512; apply Rabs_le; lra|apply p2_lt; lia|].
    pose proof (add_relative a b _ Kx Ky R1 Ks) as Er. set (s := fadd a b) in *. destruct (ofZ_exact 2 ltac:(cbn; lia)) as [K2 E2].
    assert (ur : u * Rabs (fval a + fval b) <= 21 / 10 * uw) by (unfold uw; replace (21 / 10 * (u * w)) with (u * (21 / 10 * w)) by ring; apply Rmult_le_compat_l; [lra|apply Rabs_le; lra]). apply Rabs_le_inv in Er.
    destruct (div_bound 9 1 s _ Ks K2 Bs) as [Kc [_ [Ed _]]]; [rewrite E2, Rabs_right by lra; rewrite (p2_Z 1) by lia; cbn; lra|lia|]. rewrite E2 in Ed. rewrite Ex. split; [exact Kc|].
    assert (us : u * Rabs (fval s / 2) <= 11 / 10 * uw) by (unfold uw; replace (11 / 10 * (u * w)) with (u * (11 / 10 * w)) by ring; apply Rmult_le_compat_l; [lra|apply Rabs_le; lra]).
    assert (Tn : tiny <= uw / 1000).
    { assert (tiny * 1024 <= u * p2 (-20)) by (replace 1024 with (p2 10) by (rewrite p2_Z by lia; reflexivity); unfold tiny, u; rewrite <- !p2_add; apply p2_le; lia). assert (u * p2 (-20) <= uw) by (apply Rmult_le_compat_l; lra). pose proof tiny_pos. lra. }
    apply Rabs_le_inv in Ed. replace ((INR k + / 2) * fval d) with (w - fval d / 2) by (unfold w; field). rewrite (Rmult_assoc 8 u w). fold uw. apply Rabs_le. lra.
  - intros Z0 x Hx. rewrite Hv in Hx. apply in_map_iff in Hx. destruct Hx as [c [Ex Hin]]. assert (Cz : c = 0%nat).
    { rewrite Z0 in Tot. clear - Tot Hin. revert Tot Hin. induction (map count (seq 0 (n - 1))) as [|a l IH]; intros S0 Hin; [destruct Hin|]. rewrite list_sum_cons in S0. destruct Hin as [<-|Hin]; [lia|apply IH; [lia|exact Hin]]. }
    rewrite Cz, Z0 in Ex. rewrite <- Ex. destruct Kd as [Vd Fd]. destruct d as [sg|sg| |sg mm ee]; try destruct Fd; [exfalso; cbn [fval] in Bd; lra|]. destruct sg; [|reflexivity].
    exfalso. change (fval (S754_finite true mm ee)) with (sgn true * (IZR (Zpos mm) * p2 ee)) in Bd. unfold sgn in Bd. assert (0 < IZR (Zpos mm)) by (apply IZR_lt; lia). pose proof (p2_pos ee). assert (0 < IZR (Zpos mm) * p2 ee) by (apply Rmult_lt_0_compat; assumption). lra.
  - intros T1. assert (C1 : forall k, (k < n - 1)%nat -> (count k <= total)%nat).
    { intros k Hk. rewrite <- Tot. assert (I : In (count k) (map count (seq 0 (n - 1)))) by (apply in_map, in_seq; lia). clear - I. induction (map count (seq 0 (n - 1))) as [|a l IH]; [destruct I|]. rewrite list_sum_cons. destruct I as [<-|I]; [lia|specialize (IH I); lia]. }
    assert (V : forall k, (k < n - 1)%nat -> let x := fdiv (f64_ofZ (Z.of_nat (count k))) (fmul (f64_ofZ (Z.of_nat total)) d) in ok x /\ Rabs (fval x - INR (count k) / (INR total * fval d)) <= 3 * u * (INR (count k) / (INR total * fval d))).
    { intros k Hk. apply value_close; [apply C1; exact Hk|exact T1|exact BT|exact Kd|exact Bd]. }
    assert (Ev : values = map (fun k => fdiv (f64_ofZ (Z.of_nat (count k))) (fmul (f64_ofZ (Z.of_nat total)) d)) (seq 0 (n - 1))) by (rewrite Hv, map_map; reflexivity).
    assert (PT : 0 < INR total) by (apply lt_0_INR; lia). split.
    + intros k x Hx. rewrite Ev, nth_error_map in Hx. assert (Lk : (k < n - 1)%nat). { destruct (Nat.lt_ge_cases k (n - 1)) as [L|L]; [exact L|]. exfalso. assert (C : nth_error (seq 0 (n - 1)) k = None) by (apply nth_error_None; rewrite seq_length; exact L). rewrite C in Hx. discriminate. }
      rewrite (nth_error_nth' _ 0%nat) in Hx by (rewrite seq_length; exact Lk). rewrite seq_nth in Hx by exact Lk. cbn [option_map Nat.add] in Hx. inversion Hx. apply V. exact Lk.
    + rewrite Ev, map_map. pose proof (sum_close (fun k => fval (fdiv (f64_ofZ (Z.of_nat (count k))) (fmul (f64_ofZ (Z.of_nat total)) d))) count (INR total) (fval d) (seq 0 (n - 1)) (3 * u) PT ltac:(lra)) as S.
      rewrite Tot in S. replace (INR total / INR total) with 1 in S by (field; lra). rewrite Rmult_1_r in S. apply S. intros k Hk. apply in_seq in Hk. apply V. lia.
Qed.
Print Assumptions C142_distribution.

(** The bins are those of the exact quotient up to rounding at the upper edge. *)
Theorem C142_bin : forall (d t : f64) k, ok d -> p2 (-20) <= fval d <= 180 -> ok t -> 0 <= fval t <= 256 -> (Z.of_nat k < 2 ^ 53)%Z ->
  (in_bin F64ops d k t = true -> INR k * (1 - p2 (-52)) * fval d <= fval t < (INR k + 1) * fval d) /\
  (INR k * fval d <= fval t < (INR k + 1) * (1 - p2 (-52)) * fval d -> in_bin F64ops d k t = true).
Proof.
  intros d t k Kd Bd Kt Bt Hk. pose proof u_small as U. pose proof (p2_pos (-20)) as P20. assert (U52 : p2 (-52) = 2 * u) by (unfold u; change (-52)%Z with (-53 + 1)%Z; apply p2_succ). rewrite U52.
  destruct (div_bound 8 (-20) t d Kt Kd ltac:(rewrite Rabs_right by lra; rewrite (p2_Z 8) by lia; cbn; lra) ltac:(rewrite Rabs_right; lra) ltac:(lia)) as [Kx [_ [Ex _]]].
  pose proof (div_spec t d (proj1 Kt) (proj1 Kd) (proj2 Kt) (proj2 Kd) ltac:(lra)) as R1. unfold in_bin. cbn [nfloor ndiv F64ops]. set (x := fdiv t d) in *. destruct (floor_spec64 x Kx) as [z [Ez Bz]].
  change (num F64ops) with f64 in *. rewrite Ez. set (q := fval t / fval d) in *. assert (Et : fval t = q * fval d) by (unfold q; field; lra).
  assert (q0 : 0 <= q) by (unfold q; apply Rmult_le_pos; [lra|left; apply Rinv_0_lt_compat; lra]). rewrite (Rabs_right q) in Ex by lra. apply Rabs_le_inv in Ex. assert (uq : 0 <= u * q <= / 1000000 * q) by (split; [apply Rmult_le_pos; lra|apply Rmult_le_compat_r; lra]).
  pose proof (pos_INR k) as Pk. assert (Ik : IZR (Z.of_nat k) = INR k) by (symmetry; apply INR_IZR_INZ). assert (tu : tiny <= u / 1024) by (replace (u / 1024) with (p2 (-63)) by (unfold u; change (-63)%Z with (-53 + -10)%Z; rewrite p2_add; replace (p2 (-10)) with (/ 1024) by (unfold p2; simpl; lra); reflexivity); unfold tiny; apply p2_le; lia).
  pose proof tiny_pos as T0. split.
  - intros H. apply Z.eqb_eq in H. subst z. rewrite Ik in Bz. split.
    + rewrite Et. apply Rmult_le_compat_r; [lra|]. destruct k as [|k]; [cbn [INR]; rewrite Rmult_0_l; exact q0|].
      assert (K1 : 1 <= INR (Datatypes.S k)) by (rewrite S_INR; pose proof (pos_INR k); lra). set (n := INR (Datatypes.S k)) in *. assert (un : u <= u * n) by (rewrite <- (Rmult_1_r u) at 1; apply Rmult_le_compat_l; lra).
      assert (Le : u * q <= u * (11 / 10 * n) \/ 11 / 10 * n < q) by (destruct (Rle_dec q (11 / 10 * n)); [left; apply Rmult_le_compat_l; lra|right; lra]). assert (un2 : u * n <= / 1000000 * n) by (apply Rmult_le_compat_r; lra). destruct Le; lra.
    + rewrite Et. apply Rmult_lt_compat_r; [lra|]. destruct (Rlt_dec q (INR k + 1)) as [C|C]; [exact C|]. exfalso.
      assert (F : format (INR k + 1)) by (rewrite <- Ik, <- plus_IZR; apply format_Z; lia). pose proof (rounded_ge _ _ _ R1 Kx F ltac:(fold q; lra)). lra.
  - intros [L1 L2]. rewrite Et in L1, L2. apply Rmult_le_reg_r in L1; [|lra]. apply Rmult_lt_reg_r in L2; [|lra].
    assert (F : format (INR k)) by (rewrite <- Ik; apply format_Z; lia). pose proof (rounded_ge _ _ _ R1 Kx F ltac:(fold q; lra)) as G. apply Z.eqb_eq.
    assert (X : fval x < INR k + 1).
    { assert (u * q <= u * (INR k + 1)) by (apply Rmult_le_compat_l; [lra|]; assert (0 <= 2 * u * (INR k + 1)) by (apply Rmult_le_pos; lra); lra). assert (u <= u * (INR k + 1)) by (rewrite <- (Rmult_1_r u) at 1; apply Rmult_le_compat_l; lra). lra. }
    assert (IZR (Z.of_nat k) < IZR (z + 1)) by (rewrite plus_IZR; lra). assert (IZR z < IZR (Z.of_nat k + 1)) by (rewrite plus_IZR; lra). apply lt_IZR in H. apply lt_IZR in H0. lia.
Qed.
Print Assumptions C142_bin.

(** Three particles at a right angle in a cell of side 10, cutoff 1.2, bins of 4 degrees. *)
Example C142_nonvacuous : let o := f64_ofZ 0 in let i := f64_ofZ 1 in let d := f64_ofZ 4 in let right := fun _ : f64 => f64_ofZ 90 in
  let ps := [[o; o]; [i; o]; [o; i]] in let f := mkFrame (A := F64ops) [f64_ofZ 10; f64_ofZ 10] ps [0; 0; 0]%nat ps [0; 0; 0]%nat in let rcut := [[f64_frac 12 10]] in
  bond [i; o] /\ bond [o; i] /\ acos_within 90 right /\ ok d /\ p2 (-20) <= fval d <= 180 /\
  (exists c v, ba_compute F64ops right rcut (DFloat (d : num F64ops)) 1 [f] = Ok (c, v) /\ length v = 45%nat) /\
  length (computed_all F64ops right rcut 1 [f]) = 2%nat /\ in_bin F64ops d 22 (f64_ofZ 90) = true.
Proof.
  intros o i d right ps f rcut. destruct (ofZ_exact 0 ltac:(cbn; lia)) as [K0 E0]. destruct (ofZ_exact 1 ltac:(cbn; lia)) as [K1 E1]. destruct (ofZ_exact 4 ltac:(cbn; lia)) as [K4 E4]. destruct (ofZ_exact 90 ltac:(cbn; lia)) as [K90 E90].
  assert (L1 : 1 <= p2 100) by (change 1 with (p2 0); apply p2_le; lia). assert (L2 : p2 (-200) <= 1) by (change 1 with (p2 0); apply p2_le; lia).
  assert (F : forall x, x = o \/ x = i -> ok x /\ Rabs (fval x) <= p2 100) by (intros x [-> | ->]; [split; [exact K0|unfold o; rewrite E0, Rabs_R0; lra]|split; [exact K1|unfold i; rewrite E1, Rabs_R1; lra]]).
  split; [|split; [|split; [|split; [exact K4|split; [|split; [|split]]]]]].
  - split; [cbn [length]; lia|]. split; [intros x [<-|[<-|[]]]; apply F; auto|]. unfold i, o. cbn [map dot]. rewrite E0, E1. lra.
  - split; [cbn [length]; lia|]. split; [intros x [<-|[<-|[]]]; apply F; auto|]. unfold i, o. cbn [map dot]. rewrite E0, E1. lra.
  - intros c _ _. split; [exact K90|]. unfold right. rewrite E90. pose proof (acos_bound (fval c)) as [A1 A2]. pose proof PI_RGT_0 as HPI.
    assert (A3 : 0 <= acos (fval c) * 180 / PI <= 180) by (split; apply Rmult_le_reg_r with PI; try exact HPI; unfold Rdiv; rewrite ?Rmult_assoc, ?Rinv_l by lra; lra). apply Rabs_le. lra.
  - unfold d. rewrite E4. split; [apply Rle_trans with (p2 0); [apply p2_le; lia|change (p2 0) with 1; lra]|lra].
  - assert (B : match ba_compute F64ops right rcut (DFloat (d : num F64ops)) 1 [f] with Ok (c, v) => Nat.eqb (length v) 45 | Err _ => false end = true) by (vm_compute; reflexivity).
    destruct (ba_compute F64ops right rcut (DFloat (d : num F64ops)) 1 [f]) as [[c v]|]; [|discriminate B]. exists c, v. split; [reflexivity|]. apply Nat.eqb_eq. exact B.
  - vm_compute. reflexivity.
  - vm_compute. reflexivity.
Qed.
