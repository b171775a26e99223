(** Grids in logarithmic scale in double precision (C134). *)
From Coq Require Import List ZArith Bool Arith Reals Lia Lra Psatz Floats.SpecFloat.
From Verif Require Import PyBase PyBaseFacts Num NumFacts P_Text F64Round F64Ops F64Facts P_F64Mean P_F64Time P_F64Dot M_Helpers M_Logx64 Spec_Logx64 P_Logx64.
Import ListNotations.
Local Open Scope R_scope.

Lemma nth_grid : forall (f : nat -> f64) x1 n i x, nth_error (x1 :: map f (seq 1 (n - 1))) i = Some x -> (i = 0%nat /\ x = x1) \/ (1 <= i < n)%nat /\ x = f i.
Proof.
  intros f x1 n [|i] x E; cbn [nth_error] in E; [inversion E; left; split; reflexivity|]. right.
  assert (Hi : (i < n - 1)%nat) by (assert (N : nth_error (map f (seq 1 (n - 1))) i <> None) by (rewrite E; discriminate); apply nth_error_Some in N; rewrite map_length, seq_length in N; exact N).
  split; [lia|]. rewrite nth_error_map, (nth_error_nth' _ 0%nat) in E by (rewrite seq_length; exact Hi). rewrite seq_nth in E by exact Hi. cbn [option_map Nat.add] in E. inversion E. reflexivity.
Qed.

Lemma log_end_pos : forall x, log_end x -> 0 < fval x /\ Rabs (ln (fval x)) <= 400 * ln 2.
Proof.
  intros x [_ [A B]]. pose proof (p2_pos (-400)) as P. split; [lra|]. pose proof (ln_p2 (-400)) as L1. pose proof (ln_p2 400) as L2.
  assert (ln (p2 (-400)) <= ln (fval x)) by (destruct A as [A|A]; [left; apply ln_increasing; lra|rewrite A; lra]).
  assert (ln (fval x) <= ln (p2 400)) by (destruct B as [B|B]; [left; apply ln_increasing; lra|rewrite B; lra]). apply Rabs_le. lra.
Qed.

(** From a positive number: n entries, the first exactly x1, the others within a relative
    2 (|ln(x2/x1)| + 8 i + 21) roundings of x1 q^(i+1), q^n = x2/x1; the last one therefore of x2. *)
Theorem C134_positive : forall pow (x1 x2 : f64) n, accurate_power pow -> log_end x1 -> log_end x2 -> (1 <= n)%nat -> (Z.of_nat n <= 2 ^ 40)%Z ->
  exists g, logx_grid64 pow x1 x2 n = Ok g /\ length g = n /\ nth_error g 0 = Some x1 /\
    (forall i x, nth_error g i = Some x -> ok x /\
       Rabs (fval x - log_point (fval x1) (fval x2) n i) <= 2 * (Rabs (ln (fval x2 / fval x1)) + 8 * INR i + 21) * u * log_point (fval x1) (fval x2) n i) /\
    ((2 <= n)%nat -> forall x, nth_error g (n - 1) = Some x -> Rabs (fval x - fval x2) <= 2 * (Rabs (ln (fval x2 / fval x1)) + 8 * INR n + 13) * u * fval x2).
Proof.
  intros pow x1 x2 n Hpow H1 H2 Hn Hn40. destruct (log_end_pos x1 H1) as [P1 L1]. destruct (log_end_pos x2 H2) as [P2 L2]. destruct H1 as [K1 B1]. destruct H2 as [K2 B2].
  pose proof u_small as U. pose proof ln2_bounds as Ln2. pose proof small_u as S40.
  set (q := fdiv x2 x1). set (X := fval x2 / fval x1) in *. assert (PX : 0 < X) by (unfold X, Rdiv; apply Rmult_lt_0_compat; [exact P2|apply Rinv_0_lt_compat; exact P1]).
  assert (LX : ln X = ln (fval x2) - ln (fval x1)) by (unfold X, Rdiv; rewrite ln_mult, ln_Rinv by (try apply Rinv_0_lt_compat; assumption); ring).
  assert (HX : Rabs (ln X) <= 800 * ln 2) by (rewrite LX; unfold Rminus; eapply Rle_trans; [apply Rabs_triang|]; rewrite Rabs_Ropp; lra).
  pose proof (p2_range 800 X PX ltac:(lia) HX) as RX.
  pose proof (div_spec x2 x1 (proj1 K2) (proj1 K1) (proj2 K2) (proj2 K1) ltac:(lra)) as M. fold X in M.
  destruct (rounded_bounded _ _ (p2 800) M (format_p2 800 ltac:(lia)) ltac:(rewrite Rabs_right by lra; lra) (p2_lt 800 1024 ltac:(lia))) as [Kq _].
  assert (Big : X = 0 \/ p2 (-1022) <= Rabs X) by (right; rewrite Rabs_right by lra; pose proof (p2_le (-1022) (-800) ltac:(lia)); change (- (800))%Z with (-800)%Z in RX; lra).
  pose proof (rounded_relative _ _ M Kq Big) as Eq. rewrite (Rabs_right X) in Eq by lra.
  assert (Hq : lnear (2 * u) (fval q) X) by (apply lnear_round; [exact PX|lra|exact Eq]).
  set (xx := pow q (fdiv (n1 F64ops) (f64_ofZ (Z.of_nat n)))).
  set (f := fun i => fmul x1 (pow xx (f64_ofZ (Z.of_nat (i + 1))))).
  assert (F : forall i, (1 <= i < n)%nat -> ok (f i) /\ lnear (u * (Rabs (ln X) + 8 * INR (i + 1) + 13)) (fval (f i)) (fval x1 * Rpower X (INR (i + 1) / INR n))).
  { intros i Hi. destruct (powers_near pow Hpow n Hn Hn40 q X Kq Hq HX (i + 1) ltac:(lia)) as [Kp Wp]. fold xx in Kp, Wp. set (w := pow xx (f64_ofZ (Z.of_nat (i + 1)))) in *.
    pose proof (lnear_mul _ _ _ _ _ _ (lnear_refl (fval x1) P1) Wp) as W. rewrite Rplus_0_l in W.
    pose proof (mul_spec x1 w (proj1 K1) (proj1 Kp) (proj2 K1) (proj2 Kp)) as Mm. destruct W as [Pw [PY Ew]].
    assert (I40 : INR (i + 1) * u <= / 1000).
    { assert (INR (i + 1) <= p2 40) by (rewrite INR_IZR_INZ, (p2_Z 40) by lia; apply IZR_le; lia). pose proof (Rmult_le_compat_r u _ _ ltac:(lra) H). lra. }
    pose proof (pos_INR (i + 1)) as Pi. pose proof (Rabs_pos (ln X)) as PL.
    assert (Er : u * (Rabs (ln X) + 8 * INR (i + 1) + 13) <= / 50) by nra.
    assert (LY : Rabs (ln (fval x1 * Rpower X (INR (i + 1) / INR n))) <= 400 * ln 2).
    { rewrite ln_mult by (try exact P1; unfold Rpower; apply exp_pos). unfold Rpower. rewrite ln_exp, LX.
      assert (Q : 0 <= INR (i + 1) / INR n <= 1).
      { assert (0 < INR n) by (apply lt_0_INR; lia). assert (INR (i + 1) <= INR n) by (apply le_INR; lia). split; [unfold Rdiv; apply Rmult_le_pos; [lra|left; apply Rinv_0_lt_compat; assumption]|].
        apply Rmult_le_reg_r with (INR n); [assumption|]. unfold Rdiv. rewrite Rmult_assoc, Rinv_l by lra. lra. }
      set (t := INR (i + 1) / INR n) in *. apply Rabs_le_inv in L1, L2. apply Rabs_le. split; nra. }
    set (Y := fval x1 * Rpower X (INR (i + 1) / INR n)) in *. set (z := fval x1 * fval w) in *.
    assert (LZ : Rabs (ln z) <= 500 * ln 2) by (replace (ln z) with ((ln z - ln Y) + ln Y) by ring; eapply Rle_trans; [apply Rabs_triang|]; lra).
    pose proof (p2_range 500 z Pw ltac:(lia) LZ) as RZ. change (- (500))%Z with (-500)%Z in RZ.
    destruct (rounded_bounded _ _ (p2 500) Mm (format_p2 500 ltac:(lia)) ltac:(rewrite Rabs_right by lra; lra) (p2_lt 500 1024 ltac:(lia))) as [Kf _].
    assert (Bz : z = 0 \/ p2 (-1022) <= Rabs z) by (right; rewrite Rabs_right by lra; pose proof (p2_le (-1022) (-500) ltac:(lia)); lra).
    pose proof (rounded_relative _ _ Mm Kf Bz) as Ez. rewrite (Rabs_right z) in Ez by lra.
    split; [exact Kf|]. apply lnear_weaken with (2 * u + u * (Rabs (ln X) + 8 * INR (i + 1) + 11)); [lra|].
    apply lnear_trans with z; [apply lnear_round; [exact Pw|lra|exact Ez]|split; [exact Pw|split; [exact PY|exact Ew]]]. }
  assert (G : forall i, (1 <= i < n)%nat -> ok (f i) /\ Rabs (fval (f i) - log_point (fval x1) (fval x2) n i) <= 2 * (Rabs (ln X) + 8 * INR (i + 1) + 13) * u * log_point (fval x1) (fval x2) n i).
  { intros i Hi. destruct (F i Hi) as [Kf W]. split; [exact Kf|]. 
    assert (I40 : INR (i + 1) * u <= / 1000).
    { assert (INR (i + 1) <= p2 40) by (rewrite INR_IZR_INZ, (p2_Z 40) by lia; apply IZR_le; lia). pose proof (Rmult_le_compat_r u _ _ ltac:(lra) H). lra. }
    pose proof (Rabs_pos (ln X)) as PL. assert (Er : u * (Rabs (ln X) + 8 * INR (i + 1) + 13) <= / 2) by nra.
    pose proof (lnear_error _ _ _ W Er) as Q. destruct i as [|i']; [lia|]. unfold log_point. fold X.
    replace (2 * (Rabs (ln X) + 8 * INR (S i' + 1) + 13) * u) with (2 * (u * (Rabs (ln X) + 8 * INR (S i' + 1) + 13))) by ring. exact Q. }
  assert (Lt : SFltb (S754_zero false) x1 = true) by (apply (proj2 (ltb_spec _ _ (ok_zero false) K1)); cbn [fval]; exact P1).
  exists (x1 :: map f (seq 1 (n - 1))). split; [|split; [cbn [length]; rewrite map_length, seq_length; lia|split; [reflexivity|split]]].
  - unfold logx_grid64. destruct (Nat.eqb_spec n 0) as [E|_]; [lia|]. change (nlt F64ops (n0 F64ops) x1) with (SFltb (S754_zero false) x1). rewrite Lt. reflexivity.
  - intros i x E. destruct (nth_grid f x1 n i x E) as [[-> ->]|[Hi ->]].
    + split; [exact K1|]. unfold log_point. rewrite Rminus_diag_eq, Rabs_R0 by reflexivity. pose proof (Rabs_pos (ln X)). apply Rmult_le_pos; [|lra]. apply Rmult_le_pos; [|lra]. cbn [INR]. lra.
    + destruct (G i Hi) as [Kf Q]. split; [exact Kf|]. rewrite plus_INR in Q. cbn [INR] in Q. replace (Rabs (ln X) + 8 * (INR i + 1) + 13) with (Rabs (ln X) + 8 * INR i + 21) in Q by ring. exact Q.
  - intros Hn2 x E. destruct (nth_grid f x1 n (n - 1) x E) as [[C _]|[Hi ->]]; [lia|]. destruct (G (n - 1)%nat Hi) as [_ Q].
    assert (Ep : log_point (fval x1) (fval x2) n (n - 1) = fval x2).
    { destruct (n - 1)%nat as [|m] eqn:Em; [lia|]. unfold log_point. replace (S m + 1)%nat with n by lia. replace (INR n / INR n) with 1 by (field; apply not_0_INR; lia). rewrite Rpower_1 by exact PX. unfold X. field. lra. }
    rewrite Ep in Q. replace (n - 1 + 1)%nat with n in Q by lia. exact Q.
Qed.
Print Assumptions C134_positive.

(** Entries further apart than these errors are increasing. *)
Theorem C134_increasing : forall pow (x1 x2 : f64) n, accurate_power pow -> log_end x1 -> log_end x2 -> (1 <= n)%nat -> (Z.of_nat n <= 2 ^ 40)%Z -> fval x1 < fval x2 ->
  8 * INR n * (ln (fval x2 / fval x1) + 8 * INR n + 21) * u < ln (fval x2 / fval x1) ->
  exists g, logx_grid64 pow x1 x2 n = Ok g /\
    forall i j x y, (i < j)%nat -> nth_error g i = Some x -> nth_error g j = Some y -> fval x < fval y.
Proof.
  intros pow x1 x2 n Hpow H1 H2 Hn Hn40 H12 Hs. destruct (C134_positive pow x1 x2 n Hpow H1 H2 Hn Hn40) as [g [Eg [Lg [_ [Pt _]]]]]. exists g. split; [exact Eg|].
  intros i j x y Hij Ei Ej. destruct (Pt i x Ei) as [_ Qi]. destruct (Pt j y Ej) as [_ Qj].
  assert (Hj : (j < n)%nat) by (rewrite <- Lg; apply nth_error_Some; rewrite Ej; discriminate).
  destruct (log_end_pos x1 H1) as [P1 _]. destruct (log_end_pos x2 H2) as [P2 _]. set (X := fval x2 / fval x1) in *.
  assert (PX : 0 < X) by (unfold X, Rdiv; apply Rmult_lt_0_compat; [exact P2|apply Rinv_0_lt_compat; exact P1]).
  pose proof u_small as U. assert (N1 : 1 <= INR n) by (apply (le_INR 1); exact Hn).
  assert (X1 : 1 < X) by (unfold X; apply Rmult_lt_reg_r with (fval x1); [exact P1|]; unfold Rdiv; rewrite Rmult_assoc, Rinv_l by lra; lra).
  assert (L0 : 0 < ln X) by (rewrite <- ln_1; apply ln_increasing; lra). rewrite (Rabs_right (ln X)) in Qi, Qj by lra.
  assert (LX : ln X <= 800).
  { destruct (log_end_pos x1 H1) as [_ B1]. destruct (log_end_pos x2 H2) as [_ B2]. apply Rabs_le_inv in B1, B2. unfold X, Rdiv. rewrite ln_mult, ln_Rinv by (try apply Rinv_0_lt_compat; assumption). pose proof ln2_bounds. lra. }
  set (L := ln X) in *. set (h := 2 * (L + 8 * INR n + 21) * u).
  assert (Nu : INR n * u <= / 1000).
  { assert (INR n <= p2 40) by (rewrite INR_IZR_INZ, (p2_Z 40) by lia; apply IZR_le; exact Hn40). pose proof small_u. pose proof (Rmult_le_compat_r u _ _ ltac:(lra) H). lra. }
  assert (Ph : 0 <= h <= / 10) by (unfold h; split; [apply Rmult_le_pos; lra|]; replace (2 * (L + 8 * INR n + 21) * u) with (2 * (L * u) + 16 * (INR n * u) + 42 * u) by ring; assert (L * u <= 800 * u) by (apply Rmult_le_compat_r; lra); lra).
  set (tt := fun m : nat => match m with 0%nat => 0 | _ => INR (m + 1) / INR n end).
  assert (Ev : forall m, log_point (fval x1) (fval x2) n m = fval x1 * exp (tt m * L)).
  { intros [|m]; unfold log_point, tt; [rewrite Rmult_0_l, exp_0; ring|]. fold X. unfold Rpower. fold L. reflexivity. }
  rewrite (Ev i) in Qi. rewrite (Ev j) in Qj. set (ai := fval x1 * exp (tt i * L)) in *. set (aj := fval x1 * exp (tt j * L)) in *.
  assert (Pi : 0 < ai) by (unfold ai; apply Rmult_lt_0_compat; [exact P1|apply exp_pos]). assert (Pj : 0 < aj) by (unfold aj; apply Rmult_lt_0_compat; [exact P1|apply exp_pos]).
  assert (In : 0 < / INR n) by (apply Rinv_0_lt_compat; lra).
  assert (Dt : tt i + / INR n <= tt j).
  { destruct j as [|j']; [lia|]. assert (A : tt i <= INR i * / INR n + (if (i =? 0)%nat then 0 else / INR n)).
    { destruct i as [|i']; cbn [tt Nat.eqb]; [cbn [INR]; lra|]. unfold Rdiv. rewrite plus_INR. cbn [INR]. lra. }
    unfold tt at 2. unfold Rdiv. rewrite plus_INR. cbn [INR] in *. assert (B : INR i + 1 <= INR (S j')) by (rewrite <- S_INR; apply le_INR; lia).
    pose proof (Rmult_le_compat_r (/ INR n) _ _ ltac:(lra) B) as C. change (match j' with 0%nat => 1 | S _ => INR j' + 1 end) with (INR (S j')). destruct (i =? 0)%nat; lra. }
  set (l := L * / INR n). assert (Hl : 4 * h < l).
  { apply Rmult_lt_reg_r with (INR n); [lra|]. unfold l. rewrite (Rmult_assoc L), Rinv_l by lra. unfold h. lra. }
  assert (Jump : ai * (1 + l) <= aj).
  { unfold ai, aj. rewrite Rmult_assoc. apply Rmult_le_compat_l; [lra|]. apply Rle_trans with (exp (tt i * L) * exp l).
    - apply Rmult_le_compat_l; [left; apply exp_pos|]. left. apply exp_ineq1. lra.
    - rewrite <- exp_plus. assert (Le : tt i * L + l <= tt j * L) by (unfold l; pose proof (Rmult_le_compat_r L _ _ ltac:(lra) Dt); lra).
      destruct Le as [Le|Le]; [left; apply exp_increasing; exact Le|rewrite Le; apply Rle_refl]. }
  assert (Hi : forall m, (m < n)%nat -> 2 * (L + 8 * INR m + 21) * u <= h) by (intros m Hm; unfold h; apply Rmult_le_compat_r; [lra|]; assert (INR m <= INR n) by (apply le_INR; lia); lra).
  pose proof (Rmult_le_compat_r ai _ _ ltac:(lra) (Hi i ltac:(lia))) as Bi. pose proof (Rmult_le_compat_r aj _ _ ltac:(lra) (Hi j Hj)) as Bj. apply Rabs_le_inv in Qi, Qj.
  assert (ai * (1 + h) < aj * (1 - h)).
  { apply Rlt_le_trans with (ai * (1 + l) * (1 - h)); [|apply Rmult_le_compat_r; lra]. rewrite Rmult_assoc. apply Rmult_lt_compat_l; [exact Pi|]. nra. }
  lra.
Qed.
Print Assumptions C134_increasing.

(** From 0, as for the default time grids: 0, then q^(i+1) - 1 with q^n = x2, up to roundings. *)
Theorem C134_zero : forall pow (x1 x2 : f64) n, accurate_power pow -> ok x1 -> fval x1 = 0 -> log_end x2 -> (1 <= n)%nat -> (Z.of_nat n <= 2 ^ 40)%Z ->
  exists g, logx_grid64 pow x1 x2 n = Ok g /\ length g = n /\
    (forall i x, nth_error g i = Some x -> ok x /\
       Rabs (fval x - log_point0 (fval x2) n i) <= 2 * (Rabs (ln (fval x2)) + 8 * INR i + 21) * u * (1 + Rpower (fval x2) (INR (i + 1) / INR n))) /\
    ((2 <= n)%nat -> forall x, nth_error g (n - 1) = Some x -> Rabs (fval x - (fval x2 - 1)) <= 2 * (Rabs (ln (fval x2)) + 8 * INR n + 13) * u * (1 + fval x2)).
Proof.
  intros pow x1 x2 n Hpow K1 Z1 H2 Hn Hn40. destruct (log_end_pos x2 H2) as [P2 L2]. destruct H2 as [K2 B2].
  pose proof u_small as U. pose proof ln2_bounds as Ln2. pose proof small_u as S40. set (X := fval x2) in *.
  assert (HX : Rabs (ln X) <= 800 * ln 2) by lra. assert (Hq : lnear (2 * u) X X) by (apply lnear_weaken with 0; [lra|apply lnear_refl; exact P2]).
  set (xx := pow x2 (fdiv (n1 F64ops) (f64_ofZ (Z.of_nat n)))).
  set (f := fun i => fsub (pow xx (f64_ofZ (Z.of_nat (i + 1)))) (n1 F64ops)).
  assert (G : forall i, (1 <= i < n)%nat -> ok (f i) /\ Rabs (fval (f i) - (Rpower X (INR (i + 1) / INR n) - 1)) <= 2 * (Rabs (ln X) + 8 * INR (i + 1) + 13) * u * (1 + Rpower X (INR (i + 1) / INR n))).
  { intros i Hi. destruct (powers_near pow Hpow n Hn Hn40 x2 X K2 Hq HX (i + 1) ltac:(lia)) as [Kp W]. fold xx in Kp, W. set (w := pow xx (f64_ofZ (Z.of_nat (i + 1)))) in *.
    assert (I40 : INR (i + 1) * u <= / 1000).
    { assert (INR (i + 1) <= p2 40) by (rewrite INR_IZR_INZ, (p2_Z 40) by lia; apply IZR_le; lia). pose proof (Rmult_le_compat_r u _ _ ltac:(lra) H). lra. }
    pose proof (pos_INR (i + 1)) as Pi. pose proof (Rabs_pos (ln X)) as PL.
    assert (Er : u * (Rabs (ln X) + 8 * INR (i + 1) + 11) <= / 50) by nra.
    pose proof (lnear_error _ _ _ W ltac:(lra)) as Q. set (Y := Rpower X (INR (i + 1) / INR n)) in *. destruct W as [Pw [PY Ew]].
    assert (LY : Rabs (ln Y) <= 400 * ln 2).
    { unfold Y, Rpower. rewrite ln_exp, Rabs_mult.
      assert (T : 0 <= INR (i + 1) / INR n <= 1).
      { assert (0 < INR n) by (apply lt_0_INR; lia). assert (INR (i + 1) <= INR n) by (apply le_INR; lia). split; [unfold Rdiv; apply Rmult_le_pos; [lra|left; apply Rinv_0_lt_compat; assumption]|].
        apply Rmult_le_reg_r with (INR n); [assumption|]. unfold Rdiv. rewrite Rmult_assoc, Rinv_l by lra. lra. }
      rewrite (Rabs_right (INR (i + 1) / INR n)) by lra. nra. }
    pose proof (p2_range 400 Y PY ltac:(lia) LY) as RY. pose proof (p2_pos 400) as P400.
    destruct (ofZ_exact 1 ltac:(lia)) as [Ko Eo]. pose proof (sub_spec w (f64_ofZ 1) (proj1 Kp) (proj1 Ko) (proj2 Kp) (proj2 Ko)) as M. rewrite Eo in M.
    set (e := u * (Rabs (ln X) + 8 * INR (i + 1) + 11)) in *. assert (Pe : 0 <= e) by (unfold e; apply Rmult_le_pos; lra).
    assert (Bw : fval w <= 2 * Y) by (apply Rabs_le_inv in Q; nra).
    assert (P401 : p2 401 = 2 * p2 400) by (change 401%Z with (400 + 1)%Z; apply p2_succ). assert (One : 1 <= p2 400) by (rewrite (p2_Z 400) by lia; apply IZR_le; lia).
    destruct (rounded_bounded _ _ (p2 401) M (format_p2 401 ltac:(lia)) ltac:(apply Rabs_le; lra) (p2_lt 401 1024 ltac:(lia))) as [Kf _].
    split; [exact Kf|]. pose proof (sub_relative w (f64_ofZ 1) _ Kp Ko ltac:(rewrite Eo; exact M) Kf) as Es. rewrite Eo in Es.
    change (SFsub fprec femax w (f64_ofZ 1)) with (f i) in Es.
    replace (fval (f i) - (Y - 1)) with ((fval (f i) - (fval w - 1)) + (fval w - Y)) by ring. eapply Rle_trans; [apply Rabs_triang|].
    assert (A1 : Rabs (fval w - 1) <= 2 * Y + 1) by (apply Rabs_le; lra). pose proof (Rmult_le_compat_l u _ _ ltac:(lra) A1) as A2.
    replace (2 * (Rabs (ln X) + 8 * INR (i + 1) + 13) * u * (1 + Y)) with (2 * e * Y + 2 * e + 4 * (u * Y) + 4 * u) by (unfold e; ring).
    assert (0 <= u * Y) by (apply Rmult_le_pos; lra). lra. }
  assert (Lt : SFltb (S754_zero false) x1 = false).
  { destruct (SFltb (S754_zero false) x1) eqn:E; [|reflexivity]. apply (proj1 (ltb_spec _ _ (ok_zero false) K1)) in E. cbn [fval] in E. lra. }
  exists (x1 :: map f (seq 1 (n - 1))). split; [|split; [cbn [length]; rewrite map_length, seq_length; lia|split]].
  - unfold logx_grid64. destruct (Nat.eqb_spec n 0) as [E|_]; [lia|]. change (nlt F64ops (n0 F64ops) x1) with (SFltb (S754_zero false) x1). rewrite Lt. reflexivity.
  - intros i x E. destruct (nth_grid f x1 n i x E) as [[-> ->]|[Hi ->]].
    + split; [exact K1|]. unfold log_point0. rewrite Z1, Rminus_diag_eq, Rabs_R0 by reflexivity. pose proof (Rabs_pos (ln X)). assert (0 < Rpower X (INR (0 + 1) / INR n)) by (unfold Rpower; apply exp_pos). apply Rmult_le_pos; [|lra]. apply Rmult_le_pos; [|lra]. cbn [INR]. lra.
    + destruct (G i Hi) as [Kf Q]. split; [exact Kf|]. replace (2 * (Rabs (ln X) + 8 * INR (i + 1) + 13)) with (2 * (Rabs (ln X) + 8 * INR i + 21)) in Q by (rewrite plus_INR; cbn [INR]; ring).
      destruct i as [|i']; [lia|]. exact Q.
  - intros Hn2 x E. destruct (nth_grid f x1 n (n - 1) x E) as [[C _]|[Hi ->]]; [lia|]. destruct (G (n - 1)%nat Hi) as [_ Q].
    replace (n - 1 + 1)%nat with n in Q by lia. replace (INR n / INR n) with 1 in Q by (field; apply not_0_INR; lia). rewrite Rpower_1 in Q by exact P2. exact Q.
Qed.
Print Assumptions C134_zero.

(** A power that rounds towards zero: the hypothesis on [pow] can be met. *)
Definition binade (r : R) : Z := Int_part (ln r / ln 2).
Definition chop (r : R) : f64 :=
  match Int_part (r * p2 (52 - binade r)) with Zpos m => S754_finite false m (binade r - 52) | _ => S754_zero false end.

Lemma p2_exp : forall k, p2 k = exp (IZR k * ln 2).
Proof. intros k. rewrite <- ln_p2. rewrite exp_ln; [reflexivity|apply p2_pos]. Qed.

Lemma chop_accurate : forall r, p2 (-1000) <= r <= p2 1000 -> ok (chop r) /\ Rabs (fval (chop r) - r) <= 4 * u * r.
Proof.
  intros r H. pose proof (p2_pos (-1000)) as Pm. assert (Pr : 0 < r) by lra. pose proof ln2_bounds as L2.
  pose proof (base_Int_part (ln r / ln 2)) as [B1 B2]. fold (binade r) in B1, B2. set (e := binade r) in *.
  assert (El : ln r = ln r / ln 2 * ln 2) by (field; lra). set (t := ln r / ln 2) in *.
  assert (Lo : p2 e <= r).
  { rewrite p2_exp, <- (exp_ln r Pr), El. destruct B1 as [B1|B1]; [left; apply exp_increasing; apply Rmult_lt_compat_r; lra|rewrite B1; lra]. }
  assert (Hi : r < p2 (e + 1)).
  { rewrite p2_exp, <- (exp_ln r Pr), El. apply exp_increasing. apply Rmult_lt_compat_r; [lra|]. rewrite plus_IZR. lra. }
  assert (E1 : (-1002 < e)%Z). { destruct (Z_lt_le_dec (-1002) e) as [C|C]; [exact C|]. pose proof (p2_le (e + 1) (-1001) ltac:(lia)). pose proof (p2_lt (-1001) (-1000) ltac:(lia)). lra. }
  assert (E2 : (e <= 1000)%Z). { destruct (Z_lt_le_dec 1000 e) as [C|C]; [|exact C]. pose proof (p2_lt 1000 e ltac:(lia)). lra. }
  set (s := p2 (52 - e)). assert (Ps : 0 < s) by apply p2_pos. pose proof (base_Int_part (r * s)) as [M1 M2]. set (m := Int_part (r * s)) in *.
  assert (S1 : p2 e * s = p2 52) by (unfold s; rewrite <- p2_add; f_equal; ring). assert (S2 : p2 (e + 1) * s = p2 53) by (unfold s; rewrite <- p2_add; f_equal; ring).
  assert (R1 : p2 52 <= r * s) by (rewrite <- S1; apply Rmult_le_compat_r; lra). assert (R2 : r * s < p2 53) by (rewrite <- S2; apply Rmult_lt_compat_r; lra).
  rewrite (p2_Z 52) in R1 by lia. rewrite (p2_Z 53) in R2 by lia.
  assert (Ml : (2 ^ 52 <= m)%Z). { apply Z.lt_succ_r. apply lt_IZR. rewrite succ_IZR. lra. }
  assert (Mh : (m < 2 ^ 53)%Z) by (apply lt_IZR; lra).
  unfold chop. fold e. fold s. fold m. destruct m as [|mp|mp] eqn:Em; [lia| |lia].
  split; [split; [apply (proj2 (valid_iff false mp (e - 52))); split; [exact Mh|split; [lia|right; exact Ml]]|exact I]|].
  cbn [fval sgn]. set (v := p2 (e - 52)). assert (Pv : 0 < v) by apply p2_pos.
  assert (Sv : s * v = 1) by (unfold s, v; rewrite <- p2_add; replace (52 - e + (e - 52))%Z with 0%Z by ring; reflexivity).
  assert (Ev : v = 2 * u * p2 e). { unfold v, u. replace (e - 52)%Z with (e + (1 + -53))%Z by ring. rewrite !p2_add. change (p2 1) with (2 * 1). ring. }
  assert (Er : r = r * s * v) by (rewrite Rmult_assoc, Sv; ring). change (powerRZ 2 (e - 52)) with v.
  assert (A : Rabs (1 * IZR (Z.pos mp) * v - r) <= v). { rewrite Er at 1. replace (1 * IZR (Z.pos mp) * v - r * s * v) with (- ((r * s - IZR (Z.pos mp)) * v)) by ring. rewrite Rabs_Ropp, Rabs_mult, (Rabs_right v), (Rabs_right (r * s - IZR (Z.pos mp))) by lra. rewrite <- (Rmult_1_l v) at 2. apply Rmult_le_compat_r; lra. }
  rewrite <- Rmult_assoc. eapply Rle_trans; [exact A|]. rewrite Ev. pose proof u_small. pose proof (p2_pos e). assert (u * p2 e <= u * r) by (apply Rmult_le_compat_l; lra). lra.
Qed.

Example C134_nonvacuous : accurate_power (fun x y => chop (Rpower (fval x) (fval y))) /\ log_end (f64_ofZ 1) /\ log_end (f64_ofZ 64) /\
  8 * INR 4 * (ln (fval (f64_ofZ 64) / fval (f64_ofZ 1)) + 8 * INR 4 + 21) * u < ln (fval (f64_ofZ 64) / fval (f64_ofZ 1)) /\
  logx_grid64 (fun x _ => x) (f64_ofZ 1) (f64_ofZ 64) 2 = Ok [f64_ofZ 1; f64_ofZ 64] /\
  logx_grid64 (fun x _ => x) (f64_ofZ 0) (f64_ofZ 64) 3 = Ok [f64_ofZ 0; f64_ofZ 63; f64_ofZ 63].
Proof.
  destruct (ofZ_exact 1 ltac:(lia)) as [K1 E1]. destruct (ofZ_exact 64 ltac:(lia)) as [K64 E64].
  assert (P400 : 64 <= p2 400) by (rewrite (p2_Z 400) by lia; apply IZR_le; lia). assert (M400 : p2 (-400) <= 1) by (pose proof (p2_le (-400) 0 ltac:(lia)) as Q; change (p2 0) with 1 in Q; exact Q).
  split; [|split; [|split; [|split; [|split]]]].
  - intros x y _ _ _ H. apply chop_accurate. exact H.
  - split; [exact K1|]. rewrite E1. lra.
  - split; [exact K64|]. rewrite E64. lra.
  - rewrite E1, E64. replace (64 / 1) with (p2 6) by (rewrite (p2_Z 6) by lia; change (2 ^ 6)%Z with 64%Z; lra). rewrite ln_p2. pose proof ln2_bounds. pose proof u_small.
    replace (INR 4) with 4 by (cbn [INR]; lra). assert (ln 2 * u <= u) by (rewrite <- (Rmult_1_l u) at 2; apply Rmult_le_compat_r; lra). lra.
  - vm_compute. reflexivity.
  - vm_compute. reflexivity.
Qed.
