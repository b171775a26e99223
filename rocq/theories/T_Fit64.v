(** Theorems about straight-line fits and diffusion coefficients in double precision: C131. *)
From Coq Require Import List ZArith Bool Arith Reals Lia Lra Floats.SpecFloat.
From Verif Require Import PyBase PyBaseFacts Num Spec_Stats NumFacts P_Text F64Round F64Ops F64Facts P_F64Mean P_F64Time P_F64Dot M_Helpers M_Analyze Spec_Fit P_Fit Spec_Doubles P_F64Order Spec_Fit64 P_Fit64.
Import ListNotations.
Local Open Scope R_scope.

(** ** C131 *)
(** The slope of the least-squares line of the exact data, with any order of the sums. *)
Theorem C131_any_order :
  forall (x y : list f64) (a64 : f64) (a b : R), fit_data x y -> slope_by x y a64 ->
  let X := map fval x in let Y := map fval y in
  well_spread X -> (forall a' b', residuals X Y a b <= residuals X Y a' b') ->
  ok a64 /\ Rabs (fval a64 - a) <= 6 * INR (length x + 2) * p2 (-53) * ((scale X Y + Rabs a * scale X X) / spread X) + p2 (-800).
Proof. intros x y a64 a b Hd Hs X Y Hw Hm. destruct (slope_error x y a64 a b Hd Hw Hs Hm) as [K [_ E]]. split; [exact K|exact E]. Qed.
Print Assumptions C131_any_order.

Theorem C131_slope :
  forall (x y : list f64) (a64 b64 ea eb : f64) (a b : R), fit_data x y -> linear_fit F64ops x y = Ok (a64, b64, ea, eb) ->
  let X := map fval x in let Y := map fval y in
  well_spread X -> (forall a' b', residuals X Y a b <= residuals X Y a' b') ->
  ok a64 /\ Rabs (fval a64 - a) <= 6 * INR (length x + 2) * p2 (-53) * ((scale X Y + Rabs a * scale X X) / spread X) + p2 (-800).
Proof.
  intros x y a64 b64 ea eb a b Hd E X Y Hw Hm. apply (C131_any_order x y a64 a b Hd); [|exact Hw|exact Hm].
  rewrite linear_fit64 in E. apply bind_Ok_inv in E. destruct E as [ra [_ E]]. apply bind_Ok_inv in E. destruct E as [rb [_ E]]. inversion E. apply slope_slope_by.
Qed.
Print Assumptions C131_slope.

(** No exception is raised for two points, or if the residuals of the least-squares line are larger than the
    roundings (three points on a line can raise ValueError, C16). *)
Theorem C131_no_exception :
  forall (x y : list f64) (a b : R), fit_data x y ->
  let X := map fval x in let Y := map fval y in
  well_spread X -> (forall a' b', residuals X Y a b <= residuals X Y a' b') ->
  ((2 < length x)%nat -> 32 * INR (length x + 1) * p2 (-53) * (scale Y Y + 2 * Rabs a * scale X Y + a * a * scale X X) + p2 (-300) <= INR (length x) * residuals X Y a b) ->
  exists r, linear_fit F64ops x y = Ok r.
Proof. intros x y a b Hd X Y Hw Hm Hr. destruct (fit_no_exception x y a b Hd Hw Hm Hr) as [ra [rb E]]. eexists. exact E. Qed.
Print Assumptions C131_no_exception.

(** The diffusion coefficient of a mean square displacement: the slope of the least-squares line through the points
    above sigma^2 over twice the number of dimensions. *)
Theorem C131_diffusion :
  forall (ndim : nat) (sigma : f64) (grid value : list f64) tau (D64 : f64) (a b : R), (1 <= ndim <= 3)%nat ->
  msd_analyze F64ops ndim sigma grid value = Ok (tau, Some D64) ->
  let kept := filter (fun p => SFltb (SFmul fprec femax sigma sigma) (snd p)) (combine grid value) in
  let x := map fst kept in let y := map snd kept in let X := map fval x in let Y := map fval y in
  fit_data x y -> well_spread X -> (forall a' b', residuals X Y a b <= residuals X Y a' b') ->
  ok D64 /\ Rabs (fval D64 - a / (2 * INR ndim)) <= 6 * INR (length x + 3) * p2 (-53) * ((scale X Y + Rabs a * scale X X) / spread X) / (2 * INR ndim) + p2 (-790).
Proof.
  intros ndim sigma grid value tau D64 a b Hnd E kept x y X Y Hd Hw Hm. unfold msd_analyze in E. apply bind_Ok_inv in E. destruct E as [t [_ E]].
  change (filter (fun p : num F64ops * num F64ops => nlt F64ops (nsq F64ops sigma) (snd p)) (combine grid value)) with kept in E. cbv zeta in E.
  match type of E with (if ?c then _ else _) = _ => destruct c end; [inversion E|]. apply bind_Ok_inv in E. destruct E as [[[[a64 b64] ea] eb] [E1 E2]]. cbn [fst snd] in E2. pose proof (f_equal (fun q => match q with Ok (_, Some d) => d | _ => a64 end) E2) as Ed. cbv beta iota in Ed. clear E2. fold x y in E1.
  rewrite linear_fit64 in E1. apply bind_Ok_inv in E1. destruct E1 as [ra [_ E1]]. apply bind_Ok_inv in E1. destruct E1 as [rb [_ E1]]. pose proof (f_equal (fun q => match q with Ok (a0, _, _, _) => a0 | _ => a64 end) E1) as Ha. cbv beta iota in Ha. clear E1.
  assert (Hs : slope_by x y a64) by exact (eq_ind _ (fun z => slope_by x y z) (slope_slope_by x y) _ Ha). destruct (slope_error x y a64 a b Hd Hw Hs Hm) as [Ka [Ba Ea]]. fold X Y in Ea.
  destruct Hd as [Hl [H2 [Hn' [Hx Hy]]]]. destruct Hw as [S1 S2]. assert (LX : length X = length x) by (unfold X; apply map_length). pose proof (p2_pos (-60)) as P60. assert (Sp : 0 < spread X) by lra.
  destruct (least_squares X Y a b ltac:(unfold X, Y; rewrite !map_length; exact Hl) Sp Hm) as [E1 _]. pose proof (spread_cov X ltac:(lia)) as Es. rewrite <- Es in E1.
  destruct (scale_bound x y Hl Hn' Hx Hy) as [A0 _]. destruct (scale_bound x x eq_refl Hn' Hx Hx) as [B0 _]. fold X Y in A0, B0.
  assert (C1 : Rabs (a * spread X) <= scale X Y).
  { rewrite E1. destruct (cov_error x y (nsum F64ops x) (nsum F64ops y) (nsum F64ops (products_of x y)) Hl ltac:(lia) ltac:(lia) Hx Hy (nsum_sum_of _) (nsum_sum_of _) (nsum_sum_of _)) as [_ [_ [C _]]]. exact C. }
  set (r := (scale X Y + Rabs a * scale X X) / spread X) in *. rewrite Rabs_mult, (Rabs_right (spread X)) in C1 by lra.
  assert (R1 : Rabs a <= r).
  { apply Rmult_le_reg_r with (spread X); [lra|]. replace (r * spread X) with (scale X Y + Rabs a * scale X X) by (unfold r; field; lra). assert (0 <= Rabs a * scale X X) by (apply Rmult_le_pos; [apply Rabs_pos|lra]). lra. }
  destruct (ofZ_exact (2 * Z.of_nat ndim) ltac:(lia)) as [Kd Ev]. rewrite mult_IZR, <- INR_IZR_INZ in Ev. assert (N1 : 1 <= INR ndim <= 3) by (split; [apply (le_INR 1); lia|replace 3 with (INR 3) by (cbn; lra); apply le_INR; lia]).
  destruct (div_bound 242 0 a64 (f64_ofZ (2 * Z.of_nat ndim)) Ka Kd Ba) as [K [_ [Er _]]]; [rewrite Ev, Rabs_right by lra; change (p2 0) with 1; lra|lia|].
  change (fdiv a64 (f64_ofZ (2 * Z.of_nat ndim)) = D64) in Ed. subst D64. split; [exact K|]. rewrite Ev in Er. set (d := 2 * INR ndim) in *. assert (d2 : 2 <= d <= 6) by (unfold d; lra). clearbody d.
  fold u. fold u in Ea. pose proof u_pos as U0. pose proof u_small as Us. pose proof (Rabs_pos a) as Pa.
  set (v := fval a64) in *. set (w := fval (fdiv a64 (f64_ofZ (2 * Z.of_nat ndim)))) in *.
  assert (Ti : tiny <= / 4 * p2 (-790)) by (replace (/ 4) with (p2 (-2)) by (unfold p2; simpl; lra); rewrite <- p2_add; apply p2_le; lia).
  assert (T8 : p2 (-800) <= / 4 * p2 (-790)) by (replace (/ 4) with (p2 (-2)) by (unfold p2; simpl; lra); rewrite <- p2_add; apply p2_le; lia). pose proof (p2_pos (-800)) as P8.
  assert (Z1 : Rabs (v / d - a / d) * d = Rabs (v - a)) by (rewrite <- (Rabs_right d) at 3 by lra; rewrite <- Rabs_mult; f_equal; field; lra).
  assert (Z2 : Rabs (v / d) * d = Rabs v) by (rewrite <- (Rabs_right d) at 2 by lra; rewrite <- Rabs_mult; f_equal; field; lra).
  assert (Z3 : Rabs v <= r + Rabs (v - a)) by (replace v with (a + (v - a)) at 1 by ring; apply Rle_trans with (1 := Rabs_triang _ _); lra).
  apply Rmult_le_reg_r with d; [lra|]. apply Rle_trans with ((Rabs (w - v / d) + Rabs (v / d - a / d)) * d).
  { apply Rmult_le_compat_r; [lra|]. replace (w - a / d) with ((w - v / d) + (v / d - a / d)) by ring. apply Rabs_triang. }
  rewrite Rmult_plus_distr_r, Z1. assert (Z4 : Rabs (w - v / d) * d <= (u * Rabs (v / d) + tiny) * d) by (apply Rmult_le_compat_r; lra).
  assert (Z4' : (u * Rabs (v / d) + tiny) * d = u * Rabs v + tiny * d) by (rewrite <- Z2; ring). rewrite Z4' in Z4.
  assert (Z5 : u * Rabs v <= u * r + u * Rabs (v - a)) by (rewrite <- Rmult_plus_distr_l; apply Rmult_le_compat_l; lra).
  assert (Z6 : u * Rabs (v - a) <= / 1000000 * Rabs (v - a)) by (apply Rmult_le_compat_r; [apply Rabs_pos|lra]).
  assert (N26 : INR (length x + 2) * u <= / 1000).
  { assert (INR (length x + 2) <= p2 27) by (rewrite p2_Z by lia; rewrite INR_IZR_INZ; apply IZR_le; lia). apply Rle_trans with (p2 27 * u); [apply Rmult_le_compat_r; lra|]. unfold u. rewrite <- p2_add. apply Rle_trans with (p2 (-10)); [apply p2_le; lia|]. unfold p2. simpl. lra. }
  assert (r0 : 0 <= r) by lra. assert (Z7 : 6 * INR (length x + 2) * u * r = 6 * (INR (length x + 2) * (u * r))) by ring. set (m := INR (length x + 2)) in *.
  assert (En : INR (length x + 3) = m + 1) by (unfold m; rewrite !plus_INR; cbn [INR]; ring). rewrite En.
  assert (ur : 0 <= u * r) by (apply Rmult_le_pos; lra). assert (m0 : 0 <= m) by (unfold m; apply pos_INR). assert (mur : m * (u * r) <= 1 * r * / 1000) by (replace (m * (u * r)) with (m * u * r) by ring; replace (1 * r * / 1000) with (/ 1000 * r) by ring; apply Rmult_le_compat_r; lra).
  assert (Z8 : u * Rabs (v - a) <= u * (6 * m * u * r + p2 (-800))) by (apply Rmult_le_compat_l; lra). assert (Z9 : u * (m * (u * r)) <= u * (1 * r * / 1000)) by (apply Rmult_le_compat_l; lra).
  assert (Z10 : u * p2 (-800) <= 1 * p2 (-800)) by (apply Rmult_le_compat_r; lra).
  replace ((6 * (m + 1) * u * r / d + p2 (-790)) * d) with (6 * (m * (u * r)) + 6 * (u * r) + p2 (-790) * d) by (field; lra).
  assert (Z11 : tiny * d <= / 4 * p2 (-790) * d) by (apply Rmult_le_compat_r; lra). assert (Z12 : p2 (-790) * 2 <= p2 (-790) * d) by (apply Rmult_le_compat_l; [left; apply p2_pos|lra]). lra.
Qed.
Print Assumptions C131_diffusion.

(** *** Example: (0, 0), (1, 1), (2, 0), whose least-squares line is y = 1/3 *)
Local Definition z0 : f64 := S754_zero false.
Local Definition z1 : f64 := S754_finite false 4503599627370496 (-52).
Local Definition z2 : f64 := S754_finite false 4503599627370496 (-51).
(** A diffusion coefficient is reported exactly if two points or more lie above sigma^2. *)
Theorem C131_reported :
  forall (ndim : nat) (sigma : f64) (grid value : list f64) tau d, msd_analyze F64ops ndim sigma grid value = Ok (tau, d) ->
  (d = None <-> (length (filter (fun p => SFltb (SFmul fprec femax sigma sigma) (snd p)) (combine grid value)) < 2)%nat).
Proof.
  intros ndim sigma grid value tau d E. unfold msd_analyze in E. apply bind_Ok_inv in E. destruct E as [t [_ E]].
  change (filter (fun p : num F64ops * num F64ops => nlt F64ops (nsq F64ops sigma) (snd p)) (combine grid value)) with (filter (fun p => SFltb (SFmul fprec femax sigma sigma) (snd p)) (combine grid value)) in E. cbv zeta in E.
  set (kept := filter (fun p => SFltb (SFmul fprec femax sigma sigma) (snd p)) (combine grid value)) in *.
  change (@length (num F64ops * num F64ops) kept) with (length kept) in E.
  destruct (Nat.ltb_spec (length kept) 2) as [L|L].
  - pose proof (f_equal (fun q => match q with Ok (_, o) => o | Err _ => None end) E) as Ed. cbv beta iota in Ed. split; [intros _; exact L|intros _; symmetry; exact Ed].
  - apply bind_Ok_inv in E. destruct E as [f [_ E]]. pose proof (f_equal (fun q => match q with Ok (_, Some _) => true | _ => false end) E) as Ed. cbv beta iota in Ed.
    split; [intros ->; discriminate Ed|intros C; lia].
Qed.
Print Assumptions C131_reported.

Example C131_nonvacuous :
  let x := [z0; z1; z2] in let y := [z0; z1; z0] in let X := map fval x in let Y := map fval y in
  fit_data x y /\ well_spread X /\ (forall a' b', residuals X Y 0 (/ 3) <= residuals X Y a' b') /\
  32 * INR (length x + 1) * p2 (-53) * (scale Y Y + 2 * Rabs 0 * scale X Y + 0 * 0 * scale X X) + p2 (-300) <= INR (length x) * residuals X Y 0 (/ 3) /\
  exists r, linear_fit F64ops x y = Ok r.
Proof.
  intros x y X Y. assert (V0 : fval z0 = 0) by reflexivity. assert (V1 : fval z1 = 1) by (unfold fval, z1; simpl; unfold p2; simpl; lra). assert (V2 : fval z2 = 2) by (unfold fval, z2; simpl; unfold p2; simpl; lra).
  assert (EX : X = [0; 1; 2]) by (unfold X, x; cbn [map]; rewrite V0, V1, V2; reflexivity). assert (EY : Y = [0; 1; 0]) by (unfold Y, y; cbn [map]; rewrite V0, V1; reflexivity).
  assert (K0 : ok z0) by apply ok_zero. assert (K1 : ok z1) by (split; [reflexivity|exact I]). assert (K2 : ok z2) by (split; [reflexivity|exact I]).
  assert (B : 2 <= p2 60) by (change 2 with (IZR (2 ^ 1)); rewrite <- p2_Z by lia; apply p2_le; lia).
  assert (Fd : fit_data x y).
  { split; [reflexivity|]. split; [cbn; lia|]. split; [cbn; lia|]. split; intros v Hv; cbn [In x y] in Hv.
    - destruct Hv as [<-|[<-|[<-|[]]]]; (split; [assumption|]); rewrite ?V0, ?V1, ?V2, Rabs_right; lra.
    - destruct Hv as [<-|[<-|[<-|[]]]]; (split; [assumption|]); rewrite ?V0, ?V1, ?V2, Rabs_right; lra. }
  assert (S60 : p2 (-60) <= 1) by (change 1 with (p2 0); apply p2_le; lia). assert (S300 : p2 (-300) <= 1 / 2) by (replace (1 / 2) with (p2 (-1)) by (unfold p2; simpl; lra); apply p2_le; lia).
  assert (S45 : p2 (-45) <= / 1024) by (replace (/ 1024) with (p2 (-10)) by (unfold p2; simpl; lra); apply p2_le; lia). assert (S53 : p2 (-53) <= / 1024) by (replace (/ 1024) with (p2 (-10)) by (unfold p2; simpl; lra); apply p2_le; lia).
  assert (Rm : rmean [0; 1; 2] = 1) by (unfold rmean; cbn; field).
  assert (Sp : spread X = 6) by (rewrite EX; unfold spread; rewrite Rm; cbn; ring).
  assert (SX : scale X X = 24) by (rewrite EX; unfold scale; cbn [length combine map rsum fst snd INR]; rewrite Rabs_R0, (Rabs_right 1), (Rabs_right 2) by lra; ring).
  assert (SY : scale Y Y = 4) by (rewrite EY; unfold scale; cbn [length combine map rsum fst snd INR]; rewrite Rabs_R0, (Rabs_right 1) by lra; ring).
  assert (Ws : well_spread X) by (unfold well_spread; rewrite Sp, SX, EX; cbn [length Nat.add INR]; pose proof (p2_pos (-45)); lra).
  assert (Rs : forall a b, residuals X Y a b = 2 / 3 + 2 * (a * a) + 3 * ((a + b - / 3) * (a + b - / 3))) by (intros a b; rewrite EX, EY; unfold residuals; cbn [combine map rsum fst snd]; field).
  assert (Hm : forall a' b', residuals X Y 0 (/ 3) <= residuals X Y a' b').
  { intros a b. rewrite !Rs. pose proof (Rle_0_sqr a) as P1. pose proof (Rle_0_sqr (a + b - / 3)) as P2. unfold Rsqr in P1, P2. lra. }
  assert (Hr : 32 * INR (length x + 1) * p2 (-53) * (scale Y Y + 2 * Rabs 0 * scale X Y + 0 * 0 * scale X X) + p2 (-300) <= INR (length x) * residuals X Y 0 (/ 3)).
  { rewrite Rs, SY, Rabs_R0. cbn [length x Nat.add INR]. lra. }
  split; [exact Fd|]. split; [exact Ws|]. split; [exact Hm|]. split; [exact Hr|]. apply (C131_no_exception x y 0 (/ 3) Fd Ws Hm). intros _. exact Hr.
Qed.
