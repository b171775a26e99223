(** Variances in double precision. *)
From Coq Require Import List ZArith Bool Arith Reals Lia Lra Psatz Floats.SpecFloat.
From Verif Require Import PyBase PyBaseFacts Num Spec_Stats NumFacts P_Text F64Round F64Ops F64Facts P_F64Mean P_F64Time P_F64Dot P_F64Order P_F64Overlap M_Helpers Spec_Doubles Spec_Fit64 P_Fit64 Spec_Suscept64.
Import ListNotations.
Local Open Scope R_scope.

Lemma bounded_mean : forall (l : list R) B, (1 <= length l)%nat -> (forall v, In v l -> Rabs v <= B) -> Rabs (rmean l) <= B.
Proof.
  intros l B Hn H. assert (P : 1 <= INR (length l)) by (apply (le_INR 1); exact Hn). unfold rmean, Rdiv. rewrite Rabs_mult, (Rabs_right (/ INR (length l))) by (left; apply Rinv_0_lt_compat; lra).
  apply Rmult_le_reg_r with (INR (length l)); [lra|]. rewrite Rmult_assoc, Rinv_l, Rmult_1_r by lra. eapply Rle_trans; [apply rsum_abs|].
  eapply Rle_trans; [apply (rsum_le _ Rabs (fun _ => B)); exact H|]. rewrite rsum_const. lra.
Qed.

Lemma abs_sum_bound : forall (l : list R) B, (forall v, In v l -> Rabs v <= B) -> rsum (map Rabs l) <= INR (length l) * B.
Proof. intros l B H. eapply Rle_trans; [apply (rsum_le _ Rabs (fun _ => B)); exact H|]. rewrite rsum_const. lra. Qed.

(** Sums of squares of perturbed numbers *)
Lemma squares_perturbed : forall {X} (f g : X -> R) (l : list X) B h, 0 <= B -> 0 <= h -> (forall x, In x l -> Rabs (g x) <= 2 * B /\ Rabs (f x - g x) <= h) ->
  Rabs (rsum (map (fun x => f x * f x) l) - rsum (map (fun x => g x * g x) l)) <= INR (length l) * (h * (4 * B + h)).
Proof.
  intros X f g l B h PB Ph. induction l as [|x l IH]; intros H; cbn [map rsum length].
  - rewrite Rminus_diag_eq, Rabs_R0 by reflexivity. cbn [INR]. lra.
  - specialize (IH (fun y Hy => H y (or_intror Hy))). destruct (H x (or_introl eq_refl)) as [G F]. rewrite S_INR.
    match goal with |- Rabs (?a + ?s - (?b + ?t)) <= _ => replace (a + s - (b + t)) with ((f x - g x) * (f x - g x + 2 * g x) + (s - t)) by ring end.
    eapply Rle_trans; [apply Rabs_triang|]. rewrite Rabs_mult.
    assert (E : Rabs (f x - g x + 2 * g x) <= 4 * B + h) by (eapply Rle_trans; [apply Rabs_triang|]; rewrite Rabs_mult, (Rabs_right 2) by lra; lra).
    pose proof (Rmult_le_compat _ _ _ _ (Rabs_pos _) (Rabs_pos _) F E). lra.
Qed.

Lemma products_squares : forall (f : f64 -> f64) (l : list f64), map (fun y => let d := f y in fmul d d) l = products_of (map f l) (map f l).
Proof. intros f l. unfold products_of. induction l as [|y l IH]; cbn [map combine fst snd]; [reflexivity|]. rewrite IH. reflexivity. Qed.

Lemma combine_self : forall {X Y} (g : X * X -> Y) (l : list X), map g (combine l l) = map (fun x => g (x, x)) l.
Proof. intros X Y g l. induction l as [|x l IH]; cbn [combine map]; [reflexivity|]. rewrite IH. reflexivity. Qed.

Lemma tiny_share : forall B, p2 (-400) <= B -> tiny <= u * B / 1000 /\ tiny <= u * (B * B) / 1000.
Proof.
  intros B H. pose proof (p2_pos (-400)) as P. assert (S : tiny <= u * (p2 (-400) * p2 (-400)) / 1000).
  { unfold tiny, u. rewrite <- !p2_add. change (-53 + (-400 + -400))%Z with (-853)%Z.
    assert (E : p2 (-863) * 1024 = p2 (-853)) by (replace 1024 with (p2 10) by (rewrite (p2_Z 10) by lia; reflexivity); rewrite <- p2_add; reflexivity).
    pose proof (p2_le (-1075) (-863) ltac:(lia)). pose proof (p2_pos (-863)). lra. }
  assert (S1 : tiny <= u * p2 (-400) / 1000).
  { unfold tiny, u. rewrite <- !p2_add. change (-53 + -400)%Z with (-453)%Z.
    assert (E : p2 (-463) * 1024 = p2 (-453)) by (replace 1024 with (p2 10) by (rewrite (p2_Z 10) by lia; reflexivity); rewrite <- p2_add; reflexivity).
    pose proof (p2_le (-1075) (-463) ltac:(lia)). pose proof (p2_pos (-463)). lra. }
  pose proof u_pos as U. assert (B2 : p2 (-400) * p2 (-400) <= B * B) by (apply Rmult_le_compat; lra).
  assert (u * p2 (-400) <= u * B) by (apply Rmult_le_compat_l; lra). assert (u * (p2 (-400) * p2 (-400)) <= u * (B * B)) by (apply Rmult_le_compat_l; lra). split; lra.
Qed.

(** The variance of doubles up to B, in any order of the sums *)
Lemma variance_error : forall (l : list f64) v B, (1 <= length l)%nat -> (Z.of_nat (length l) <= 2 ^ 26)%Z -> p2 (-400) <= B <= p2 58 ->
  (forall y, In y l -> ok y /\ Rabs (fval y) <= B) -> variance_by l v ->
  ok v /\ 0 <= fval v /\ fval v <= 5 * (B * B) /\ Rabs (fval v - variance (map fval l)) <= 18 * (INR (length l) + 4) * u * (B * B).
Proof.
  intros l v B Hn Hn26 HB Hl [s [q [Hs [Hq Ev]]]]. set (N := f64_ofZ (Z.of_nat (length l))) in *. set (m := SFdiv fprec femax s N) in *.
  pose proof u_small as U. pose proof (p2_pos (-400)) as P400. assert (PB : 0 < B) by lra. destruct (tiny_share B (proj1 HB)) as [T1 T2].
  assert (N1 : 1 <= INR (length l)) by (apply (le_INR 1); exact Hn). set (n := INR (length l)) in *.
  assert (E53 : u * p2 53 = 1) by (unfold u; rewrite <- p2_add; reflexivity).
  assert (Nu : n * u <= / 100000000).
  { assert (n <= p2 26) by (unfold n; rewrite INR_IZR_INZ, (p2_Z 26) by lia; apply IZR_le; exact Hn26).
    assert (E27 : p2 26 * u * 134217728 = 1) by (replace 134217728 with (p2 27) by (rewrite (p2_Z 27) by lia; reflexivity); unfold u; rewrite <- !p2_add; reflexivity).
    pose proof (Rmult_le_compat_r u _ _ ltac:(lra) H). lra. }
  destruct (ofZ_exact (Z.of_nat (length l)) ltac:(lia)) as [KN EN]. fold N in KN, EN. rewrite <- INR_IZR_INZ in EN. fold n in EN.
  assert (B60 : forall y, In y l -> ok y /\ Rabs (fval y) <= p2 60) by (intros y Hy; destruct (Hl y Hy) as [K Y]; split; [exact K|]; pose proof (p2_le 58 60 ltac:(lia)); lra).
  destruct (plain_sum l s B60 ltac:(lia) Hs) as [Ks [Bs Ws]]. pose proof (nearby_error _ _ _ _ _ Ws) as Es. fold n in Es. specialize (Es ltac:(lra)).
  assert (Habs : forall x, In x (map fval l) -> Rabs x <= B) by (intros x Hx; apply in_map_iff in Hx; destruct Hx as [y [<- Hy]]; apply Hl; exact Hy).
  pose proof (abs_sum_bound (map fval l) B Habs) as Sa. rewrite map_length in Sa. fold n in Sa.
  pose proof (bounded_mean (map fval l) B ltac:(rewrite map_length; exact Hn) Habs) as Mb. set (M := rmean (map fval l)) in *.
  assert (EM : rsum (map fval l) = n * M) by (unfold M, rmean; rewrite map_length; fold n; field; lra). rewrite EM in Es.
  assert (Es' : Rabs (fval s / n - M) <= 2 * n * u * B).
  { replace (fval s / n - M) with ((fval s - n * M) / n) by (field; lra). unfold Rdiv. rewrite Rabs_mult, (Rabs_right (/ n)) by (left; apply Rinv_0_lt_compat; lra).
    apply Rmult_le_reg_r with n; [lra|]. rewrite Rmult_assoc, Rinv_l, Rmult_1_r by lra. eapply Rle_trans; [exact Es|]. assert (0 <= 2 * n * u) by (apply Rmult_le_pos; lra). pose proof (Rmult_le_compat_l (2 * n * u) _ _ H Sa). lra. }
  assert (N2 : p2 0 <= Rabs (fval N)) by (rewrite EN, Rabs_right by lra; change (p2 0) with 1; exact N1).
  destruct (div_bound 90 0 s N Ks KN Bs N2 ltac:(lia)) as [Km [_ [Em _]]]. fold m in Km, Em. rewrite EN in Em.
  assert (NuB : 0 <= n * u * B <= B / 100000000) by (split; [apply Rmult_le_pos; [apply Rmult_le_pos; lra|lra]|]; pose proof (Rmult_le_compat_r B _ _ ltac:(lra) Nu); lra).
  assert (uB : 0 < u * B) by (apply Rmult_lt_0_compat; lra). assert (uB1 : u * B <= n * u * B) by (rewrite Rmult_assoc; rewrite <- (Rmult_1_l (u * B)) at 1; apply Rmult_le_compat_r; lra).
  assert (Q1 : Rabs (fval s / n) <= 2 * B) by (replace (fval s / n) with ((fval s / n - M) + M) by ring; eapply Rle_trans; [apply Rabs_triang|]; lra).
  assert (Em' : Rabs (fval m - M) <= (2 * n + 3) * u * B).
  { replace (fval m - M) with ((fval m - fval s / n) + (fval s / n - M)) by ring. eapply Rle_trans; [apply Rabs_triang|]. pose proof (Rmult_le_compat_l u _ _ ltac:(lra) Q1). lra. }
  assert (Bm : Rabs (fval m) <= 2 * B) by (replace (fval m) with ((fval m - M) + M) by ring; eapply Rle_trans; [apply Rabs_triang|]; lra).
  (* deviations *)
  set (ds := map (fun y => fsub y m) l) in *. assert (Hq' : sum_of (products_of ds ds) q) by exact (eq_ind _ (fun z => sum_of z q) Hq _ (products_squares (fun y => fsub y m) l)). clear Hq.
  assert (un : u <= n * u) by (rewrite <- (Rmult_1_l u) at 1; apply Rmult_le_compat_r; lra). set (e := (n + 4) * u). assert (Pe : 0 <= e <= / 10000000) by (unfold e; split; [apply Rmult_le_pos; lra|lra]).
  assert (P59 : p2 59 = 2 * p2 58) by (change 59%Z with (58 + 1)%Z; apply p2_succ). assert (P60 : p2 60 = 2 * p2 59) by (change 60%Z with (59 + 1)%Z; apply p2_succ).
  assert (Dv : forall y, In y l -> ok (fsub y m) /\ Rabs (fval (fsub y m) - (fval y - M)) <= 2 * e * B /\ Rabs (fval y - M) <= 2 * B).
  { intros y Hy. destruct (Hl y Hy) as [Ky By]. destruct (sub_bound 59 y m Ky Km ltac:(lra) ltac:(lra) ltac:(lia)) as [Kd [_ Ed]]. split; [exact Kd|].
    assert (Y2 : Rabs (fval y - M) <= 2 * B) by (unfold Rminus; eapply Rle_trans; [apply Rabs_triang|]; rewrite Rabs_Ropp; lra). split; [|exact Y2].
    assert (Y3 : Rabs (fval y - fval m) <= 3 * B) by (unfold Rminus; eapply Rle_trans; [apply Rabs_triang|]; rewrite Rabs_Ropp; lra).
    replace (fval (fsub y m) - (fval y - M)) with ((fval (fsub y m) - (fval y - fval m)) - (fval m - M)) by ring. unfold Rminus at 1. eapply Rle_trans; [apply Rabs_triang|]. rewrite Rabs_Ropp.
    pose proof (Rmult_le_compat_l u _ _ ltac:(lra) Y3). unfold e. lra. }
  assert (eB : 0 <= e * B) by (apply Rmult_le_pos; lra). assert (Pe2 : 0 <= 2 * e * B) by (rewrite Rmult_assoc; lra).
  assert (Dd : forall y, In y l -> ok (fsub y m) /\ Rabs (fval (fsub y m)) <= 2 * B + 2 * e * B).
  { intros y Hy. destruct (Dv y Hy) as [K [E Y]]. split; [exact K|]. replace (fval (fsub y m)) with ((fval (fsub y m) - (fval y - M)) + (fval y - M)) by ring. eapply Rle_trans; [apply Rabs_triang|]. lra. }
  assert (eB2 : e * B <= B / 10000000) by (pose proof (Rmult_le_compat_r B _ _ ltac:(lra) (proj2 Pe)); lra).
  assert (D60 : forall d, In d ds -> ok d /\ Rabs (fval d) <= p2 60) by (intros d Hd; unfold ds in Hd; apply in_map_iff in Hd; destruct Hd as [y [<- Hy]]; destruct (Dd y Hy) as [K Y]; split; [exact K|]; lra).
  assert (Ld : @length f64 ds = length l) by (unfold ds; apply map_length). assert (Ld30 : (Z.of_nat (@length f64 ds) <= 2 ^ 30)%Z) by lia.
  destruct (product_sum ds ds q eq_refl D60 D60 Ld30 Hq') as [Kq [Bq [Pq Wq]]]. specialize (Pq eq_refl).
  rewrite Ld in Wq. fold n in Wq. pose proof (nearby_error _ _ _ _ _ Wq) as Eq. rewrite plus_INR in Eq. fold n in Eq. cbn [INR] in Eq. specialize (Eq ltac:(lra)).
  rewrite !combine_self in Eq. cbn [fst snd] in Eq. unfold ds in Eq. rewrite !map_map in Eq.
  pose proof (squares_perturbed (fun y => fval (fsub y m)) (fun y => fval y - M) l B (2 * e * B) (Rlt_le _ _ PB) Pe2 (fun y Hy => conj (proj2 (proj2 (Dv y Hy))) (proj1 (proj2 (Dv y Hy))))) as Sq. fold n in Sq.
  assert (S2 : rsum (map (fun y => Rabs (fval (fsub y m)) * Rabs (fval (fsub y m))) l) <= n * (41 / 10 * (B * B))).
  { eapply Rle_trans; [apply (rsum_le _ _ (fun _ => 41 / 10 * (B * B)))|rewrite rsum_const; apply Rle_refl]. intros y Hy. destruct (Dd y Hy) as [_ Y].
    assert (Y' : Rabs (fval (fsub y m)) <= 201 / 100 * B) by lra. pose proof (Rmult_le_compat _ _ _ _ (Rabs_pos _) (Rabs_pos _) Y' Y'). assert (0 <= B * B) by (apply Rmult_le_pos; lra). lra. }
  assert (V0 : variance (map fval l) = rsum (map (fun y => (fval y - M) * (fval y - M)) l) / n).
  { unfold variance. fold M. rewrite map_length, map_map. reflexivity. }
  set (S0 := rsum (map (fun y => (fval y - M) * (fval y - M)) l)) in *. set (Sd := rsum (map (fun y => fval (fsub y m) * fval (fsub y m)) l)) in *.
  set (b := B * B) in *. assert (Pb : 0 < b) by (unfold b; apply Rmult_lt_0_compat; lra). assert (ub : 0 < u * b) by (apply Rmult_lt_0_compat; lra).
  assert (eb : 5 * (u * b) <= e * b) by (unfold e; rewrite <- Rmult_assoc; apply Rmult_le_compat_r; [lra|]; apply Rmult_le_compat_r; lra).
  assert (eb2 : e * b <= b / 10000000) by (pose proof (Rmult_le_compat_r b _ _ ltac:(lra) (proj2 Pe)); lra).
  assert (QS : Rabs (fval q - S0) <= n * (17 * (e * b))).
  { replace (fval q - S0) with ((fval q - Sd) + (Sd - S0)) by ring. eapply Rle_trans; [apply Rabs_triang|].
    assert (A1 : Rabs (Sd - S0) <= n * (81 / 10 * (e * b))).
    { eapply Rle_trans; [exact Sq|]. apply Rmult_le_compat_l; [lra|]. replace (2 * e * B * (4 * B + 2 * e * B)) with (8 * (e * b) + 4 * (e * (e * b))) by (unfold b; ring).
      assert (e * (e * b) <= / 10000000 * (e * b)) by (apply Rmult_le_compat_r; [apply Rmult_le_pos; lra|lra]). lra. }
    assert (A2 : Rabs (fval q - Sd) <= n * (83 / 10 * (e * b))).
    { eapply Rle_trans; [exact Eq|]. assert (0 <= 2 * (n + 1) * u) by (apply Rmult_le_pos; lra). pose proof (Rmult_le_compat_l _ _ _ H S2) as A3.
      assert (A4 : 2 * (n + 1) * u * (n * (41 / 10 * b)) <= n * (82 / 10 * (e * b))).
      { replace (2 * (n + 1) * u * (n * (41 / 10 * b))) with (n * (82 / 10 * ((n + 1) * u * b))) by field. apply Rmult_le_compat_l; [lra|]. apply Rmult_le_compat_l; [lra|].
        apply Rmult_le_compat_r; [lra|]. unfold e. apply Rmult_le_compat_r; lra. }
      assert (A5 : n * tiny <= n * (u * b / 1000)) by (apply Rmult_le_compat_l; lra). assert (A6 : n * (u * b / 1000) <= n * (e * b / 5000)) by (apply Rmult_le_compat_l; lra).
      assert (0 <= n * (e * b)) by (apply Rmult_le_pos; [lra|apply Rmult_le_pos; lra]). lra. }
    assert (0 <= n * (e * b)) by (apply Rmult_le_pos; [lra|apply Rmult_le_pos; lra]). lra. }
  assert (Sdev : Rabs (S0 / n) <= 4 * b).
  { unfold Rdiv. rewrite Rabs_mult, (Rabs_right (/ n)) by (left; apply Rinv_0_lt_compat; lra). apply Rmult_le_reg_r with n; [lra|]. rewrite Rmult_assoc, Rinv_l, Rmult_1_r by lra.
    unfold S0. eapply Rle_trans; [apply rsum_abs|]. rewrite map_map. eapply Rle_trans; [apply (rsum_le _ _ (fun _ => 4 * b))|rewrite rsum_const, Rmult_comm; apply Rle_refl].
    intros y Hy. destruct (Dv y Hy) as [_ [_ Y]]. rewrite Rabs_mult. pose proof (Rmult_le_compat _ _ _ _ (Rabs_pos _) (Rabs_pos _) Y Y). unfold b. lra. }
  assert (QN : Rabs (fval q / n - S0 / n) <= 17 * (e * b)).
  { replace (fval q / n - S0 / n) with ((fval q - S0) / n) by (field; lra). unfold Rdiv. rewrite Rabs_mult, (Rabs_right (/ n)) by (left; apply Rinv_0_lt_compat; lra).
    apply Rmult_le_reg_r with n; [lra|]. rewrite Rmult_assoc, Rinv_l, Rmult_1_r by lra. lra. }
  destruct (div_bound 150 0 q N Kq KN Bq N2 ltac:(lia)) as [Kv [_ [Evv Pv]]]. rewrite EN in Evv. specialize (Pv Pq ltac:(rewrite EN; lra)).
  change (SFdiv fprec femax q N) with (fdiv q N) in Ev. rewrite <- Ev in Kv, Evv, Pv.
  assert (Qb : Rabs (fval q / n) <= 41 / 10 * b) by (replace (fval q / n) with ((fval q / n - S0 / n) + S0 / n) by ring; eapply Rle_trans; [apply Rabs_triang|]; lra).
  pose proof (Rmult_le_compat_l u _ _ ltac:(lra) Qb) as Qu.
  assert (Fin : Rabs (fval v - S0 / n) <= 18 * (e * b)).
  { replace (fval v - S0 / n) with ((fval v - fval q / n) + (fval q / n - S0 / n)) by ring. eapply Rle_trans; [apply Rabs_triang|]. lra. }
  split; [exact Kv|]. split; [exact Pv|]. split; [|rewrite V0; replace (18 * (n + 4) * u * b) with (18 * (e * b)) by (unfold e; ring); exact Fin].
  replace (fval v) with ((fval v - S0 / n) + S0 / n) by ring. apply Rabs_le_inv in Fin, Sdev. lra.
Qed.

(** Values multiplied by the number of particles *)
Lemma scaled_values : forall (ys : list f64) N Y, (1 <= N)%nat -> (Z.of_nat N <= 2 ^ 30)%Z -> p2 (-400) <= Y <= p2 25 -> (forall y, In y ys -> ok y /\ Rabs (fval y) <= Y) ->
  let zs := map (fun y => fmul y (f64_ofZ (Z.of_nat N))) ys in
  (forall y, In y ys -> ok (fmul y (f64_ofZ (Z.of_nat N))) /\ Rabs (fval (fmul y (f64_ofZ (Z.of_nat N))) - INR N * fval y) <= 1001 / 1000 * (u * (INR N * Y)) /\ Rabs (fval (fmul y (f64_ofZ (Z.of_nat N)))) <= 1001 / 1000 * (INR N * Y)).
Proof.
  intros ys N Y HN HN30 HY Hy zs y Iy. destruct (Hy y Iy) as [K B]. destruct (ofZ_exact (Z.of_nat N) ltac:(lia)) as [KN EN]. rewrite <- INR_IZR_INZ in EN.
  assert (N1 : 1 <= INR N) by (apply (le_INR 1); exact HN). pose proof u_small as U. pose proof (p2_pos (-400)) as P400.
  assert (N30 : INR N <= p2 30) by (rewrite INR_IZR_INZ, (p2_Z 30) by lia; apply IZR_le; exact HN30).
  destruct (mul_bound 25 30 y (f64_ofZ (Z.of_nat N)) K KN ltac:(lra) ltac:(rewrite EN, Rabs_right by lra; exact N30) ltac:(lia)) as [Kz [_ Ez]]. rewrite EN in Ez.
  set (z := fmul y (f64_ofZ (Z.of_nat N))) in *. destruct (tiny_share Y (proj1 HY)) as [T1 _].
  assert (YN : Y <= INR N * Y) by (rewrite <- (Rmult_1_l Y) at 1; apply Rmult_le_compat_r; lra).
  assert (A : Rabs (fval y * INR N) <= INR N * Y) by (rewrite Rabs_mult, (Rabs_right (INR N)) by lra; rewrite Rmult_comm; apply Rmult_le_compat_l; lra).
  pose proof (Rmult_le_compat_l u _ _ ltac:(lra) A) as A1. pose proof (Rmult_le_compat_l u _ _ ltac:(lra) YN) as A2.
  assert (E : Rabs (fval z - INR N * fval y) <= 1001 / 1000 * (u * (INR N * Y))) by (rewrite (Rmult_comm (INR N) (fval y)); lra).
  split; [exact Kz|]. split; [exact E|]. replace (fval z) with ((fval z - INR N * fval y) + fval y * INR N) by ring. eapply Rle_trans; [apply Rabs_triang|].
  assert (u * (INR N * Y) <= / 1000000 * (INR N * Y)) by (apply Rmult_le_compat_r; lra). lra.
Qed.

Lemma variance_unfold : forall {X} (f : X -> R) (l : list X), variance (map f l) = rsum (map (fun x => (f x - rmean (map f l)) * (f x - rmean (map f l))) l) / INR (length l).
Proof. intros X f l. unfold variance. rewrite map_length, map_map. reflexivity. Qed.

Lemma variance_perturbed : forall {X} (f g : X -> R) (l : list X) B h, (1 <= length l)%nat -> 0 <= B -> 0 <= h -> (forall x, In x l -> Rabs (g x) <= B /\ Rabs (f x - g x) <= h) ->
  Rabs (variance (map f l) - variance (map g l)) <= 2 * h * (4 * B + 2 * h).
Proof.
  intros X f g l B h Hn PB Ph H. assert (N1 : 1 <= INR (length l)) by (apply (le_INR 1); exact Hn). rewrite !variance_unfold.
  assert (Mf : Rabs (rmean (map f l) - rmean (map g l)) <= h).
  { replace (rmean (map f l) - rmean (map g l)) with (rmean (map (fun x => f x - g x) l)) by (unfold rmean; rewrite !map_length, rsum_minus; field; lra).
    apply bounded_mean; [rewrite map_length; exact Hn|]. intros v Hv. apply in_map_iff in Hv. destruct Hv as [x [<- Hx]]. apply H. exact Hx. }
  assert (Mg : Rabs (rmean (map g l)) <= B) by (apply bounded_mean; [rewrite map_length; exact Hn|]; intros v Hv; apply in_map_iff in Hv; destruct Hv as [x [<- Hx]]; apply H; exact Hx).
  set (a := rmean (map f l)) in *. set (b := rmean (map g l)) in *. clearbody a b.
  assert (C : forall x, In x l -> Rabs (g x - b) <= 2 * B /\ Rabs (f x - a - (g x - b)) <= 2 * h).
  { intros x Hx. destruct (H x Hx) as [A1 A2]. split; [unfold Rminus; eapply Rle_trans; [apply Rabs_triang|]; rewrite Rabs_Ropp; lra|].
    replace (f x - a - (g x - b)) with ((f x - g x) - (a - b)) by ring. unfold Rminus at 1. eapply Rle_trans; [apply Rabs_triang|]. rewrite Rabs_Ropp. lra. }
  pose proof (squares_perturbed (fun x => f x - a) (fun x => g x - b) l B (2 * h) PB ltac:(lra) C) as S. cbv beta in S.
  set (s1 := rsum (map (fun x => (f x - a) * (f x - a)) l)) in *. set (s2 := rsum (map (fun x => (g x - b) * (g x - b)) l)) in *.
  replace (s1 / INR (length l) - s2 / INR (length l)) with ((s1 - s2) / INR (length l)) by (field; lra).
  unfold Rdiv. rewrite Rabs_mult, (Rabs_right (/ INR (length l))) by (left; apply Rinv_0_lt_compat; lra). apply Rmult_le_reg_r with (INR (length l)); [lra|]. rewrite Rmult_assoc, Rinv_l, Rmult_1_r by lra. lra.
Qed.

Lemma variance_scale : forall c (l : list R), variance (map (fun v => c * v) l) = c * c * variance l.
Proof.
  intros c l. rewrite variance_unfold. assert (E : rmean (map (fun v => c * v) l) = c * rmean l) by (unfold rmean; rewrite map_length, (rsum_scal _ c (fun v => v) l), map_id; unfold Rdiv; ring).
  rewrite E. unfold variance, Rdiv. rewrite <- Rmult_assoc. f_equal. rewrite <- rsum_scal. f_equal. apply map_ext. intros v. ring.
Qed.

(** The susceptibility of the values ys of N particles, in any order of the sums *)
Lemma susceptibility_error : forall (ys : list f64) N Y v, (1 <= length ys)%nat -> (Z.of_nat (length ys) <= 2 ^ 26)%Z -> (1 <= N)%nat -> (Z.of_nat N <= 2 ^ 30)%Z -> p2 (-400) <= Y <= p2 25 ->
  (forall y, In y ys -> ok y /\ Rabs (fval y) <= Y) -> variance_by (map (fun y => fmul y (f64_ofZ (Z.of_nat N))) ys) v ->
  let r := fdiv v (f64_ofZ (Z.of_nat N)) in
  ok r /\ 0 <= fval r /\ Rabs (fval r - INR N * variance (map fval ys)) <= 24 * (INR (length ys) + 4) * u * (INR N * (Y * Y)).
Proof.
  intros ys N Y v Hn Hn26 HN HN30 HY Hy Hv r. pose proof (scaled_values ys N Y HN HN30 HY Hy) as Sc. cbv zeta in Sc. set (N64 := f64_ofZ (Z.of_nat N)) in *.
  destruct (ofZ_exact (Z.of_nat N) ltac:(lia)) as [KN EN]. fold N64 in KN, EN. rewrite <- INR_IZR_INZ in EN.
  assert (N1 : 1 <= INR N) by (apply (le_INR 1); exact HN). pose proof u_small as U. pose proof (p2_pos (-400)) as P400.
  assert (N30 : INR N <= p2 30) by (rewrite INR_IZR_INZ, (p2_Z 30) by lia; apply IZR_le; exact HN30).
  set (G := INR N * Y). assert (YG : Y <= G) by (unfold G; rewrite <- (Rmult_1_l Y) at 1; apply Rmult_le_compat_r; lra).
  assert (G55 : G <= p2 55) by (unfold G; change 55%Z with (30 + 25)%Z; rewrite p2_add; apply Rmult_le_compat; lra).
  assert (P58 : p2 58 = 8 * p2 55) by (replace 8 with (p2 3) by (rewrite (p2_Z 3) by lia; reflexivity); rewrite <- p2_add; reflexivity). pose proof (p2_pos 55) as P55.
  set (B := 1001 / 1000 * G). assert (HB : p2 (-400) <= B <= p2 58) by (unfold B; lra).
  destruct (variance_error (map (fun y => fmul y N64) ys) v B ltac:(rewrite map_length; exact Hn) ltac:(rewrite map_length; exact Hn26) HB) as [Kv [Pv [Bv Ev]]]; [|exact Hv|].
  { intros z Hz. apply in_map_iff in Hz. destruct Hz as [y [<- Iy]]. destruct (Sc y Iy) as [K [_ Z]]. split; [exact K|]. unfold B, G. exact Z. }
  rewrite map_length in Ev. set (n := INR (length ys)) in *. assert (n1 : 1 <= n) by (unfold n; apply (le_INR 1); exact Hn).
  pose proof (variance_perturbed (fun y => fval (fmul y N64)) (fun y => INR N * fval y) ys G (1001 / 1000 * (u * G)) Hn ltac:(lra) ltac:(apply Rmult_le_pos; [lra|apply Rmult_le_pos; lra])) as Vp.
  assert (Hc : forall y, In y ys -> Rabs (INR N * fval y) <= G /\ Rabs (fval (fmul y N64) - INR N * fval y) <= 1001 / 1000 * (u * G)).
  { intros y Iy. split; [rewrite Rabs_mult, (Rabs_right (INR N)) by lra; unfold G; apply Rmult_le_compat_l; [lra|apply Hy; exact Iy]|exact (proj1 (proj2 (Sc y Iy)))]. }
  specialize (Vp Hc).
  rewrite map_map in Ev.
  assert (Vq : Rabs (variance (map (fun y => fval (fmul y N64)) ys) - INR N * INR N * variance (map fval ys)) <= 2 * (1001 / 1000 * (u * G)) * (4 * G + 2 * (1001 / 1000 * (u * G)))) by (rewrite <- variance_scale, (map_map fval); exact Vp).
  clear Vp. rename Vq into Vp.
  set (V := variance (map fval ys)) in *. set (Z := variance (map (fun y => fval (fmul y N64)) ys)) in *.
  change (Rabs (fval v - Z) <= 18 * (n + 4) * u * (B * B)) in Ev.
  set (g := G * G). assert (Pg : 0 < g) by (unfold g; apply Rmult_lt_0_compat; lra). assert (ug : 0 < u * g) by (apply Rmult_lt_0_compat; lra).
  set (e := (n + 4) * u) in *. assert (eg : 5 * (u * g) <= e * g) by (unfold e; rewrite <- Rmult_assoc; apply Rmult_le_compat_r; [lra|]; apply Rmult_le_compat_r; lra).
  assert (Bg : B * B = 1002001 / 1000000 * g) by (unfold B, g; field).
  assert (E1 : Rabs (fval v - Z) <= 181 / 10 * (e * g)).
  { eapply Rle_trans; [exact Ev|]. rewrite Bg. replace (18 * (n + 4) * u * (1002001 / 1000000 * g)) with (18 * 1002001 / 1000000 * (e * g)) by (unfold e; field). lra. }
  assert (E2 : Rabs (Z - INR N * INR N * V) <= 81 / 10 * (u * g)).
  { eapply Rle_trans; [exact Vp|]. replace (2 * (1001 / 1000 * (u * G)) * (4 * G + 2 * (1001 / 1000 * (u * G)))) with (8008 / 1000 * (u * g) + 4 * (1002001 / 1000000) * (u * (u * g))) by (unfold g; field).
    assert (u * (u * g) <= / 1000000 * (u * g)) by (apply Rmult_le_compat_r; lra). lra. }
  assert (E3 : Rabs (fval v - INR N * INR N * V) <= 20 * (e * g)).
  { replace (fval v - INR N * INR N * V) with ((fval v - Z) + (Z - INR N * INR N * V)) by ring. eapply Rle_trans; [apply Rabs_triang|]. lra. }
  assert (Bv' : Rabs (fval v) <= p2 113).
  { rewrite Rabs_right by lra. eapply Rle_trans; [exact Bv|]. rewrite Bg. assert (P113 : p2 113 = 8 * (p2 55 * p2 55)) by (replace 8 with (p2 3) by (rewrite (p2_Z 3) by lia; reflexivity); rewrite <- !p2_add; reflexivity).
    assert (g <= p2 55 * p2 55) by (unfold g; apply Rmult_le_compat; lra). lra. }
  destruct (div_bound 113 0 v N64 Kv KN Bv' ltac:(rewrite EN, Rabs_right by lra; exact N1) ltac:(lia)) as [Kr [_ [Er Pr]]]. fold r in Kr, Er, Pr. rewrite EN in Er.
  specialize (Pr Pv ltac:(rewrite EN; lra)). split; [exact Kr|]. split; [exact Pr|].
  assert (iN : 0 < / INR N) by (apply Rinv_0_lt_compat; lra).
  assert (gN : g / INR N = INR N * (Y * Y)) by (unfold g, G; field; lra).
  assert (E4 : Rabs (fval v / INR N - INR N * V) <= 20 * (e * (INR N * (Y * Y)))).
  { replace (fval v / INR N - INR N * V) with ((fval v - INR N * INR N * V) / INR N) by (field; lra). unfold Rdiv. rewrite Rabs_mult, (Rabs_right (/ INR N)) by lra.
    rewrite <- gN. unfold Rdiv. rewrite <- !Rmult_assoc. apply Rmult_le_compat_r; lra. }
  assert (E5 : Rabs (fval v / INR N) <= 51 / 10 * (INR N * (Y * Y))).
  { unfold Rdiv. rewrite Rabs_mult, (Rabs_right (/ INR N)), (Rabs_right (fval v)) by lra. rewrite <- gN. unfold Rdiv. rewrite <- Rmult_assoc. apply Rmult_le_compat_r; lra. }
  assert (Gy : u * (Y * Y) <= u * (INR N * (Y * Y))) by (apply Rmult_le_compat_l; [lra|]; rewrite <- (Rmult_1_l (Y * Y)) at 1; apply Rmult_le_compat_r; [apply Rmult_le_pos; lra|lra]).
  destruct (tiny_share Y (proj1 HY)) as [_ T2]. pose proof (Rmult_le_compat_l u _ _ ltac:(lra) E5) as E6.
  set (y2 := INR N * (Y * Y)) in *. assert (P2 : 0 < y2) by (unfold y2; apply Rmult_lt_0_compat; [lra|apply Rmult_lt_0_compat; lra]).
  assert (e2 : 5 * (u * y2) <= e * y2) by (unfold e; rewrite <- Rmult_assoc; apply Rmult_le_compat_r; [lra|]; apply Rmult_le_compat_r; lra).
  replace (24 * (n + 4) * u * y2) with (24 * (e * y2)) by (unfold e; ring).
  replace (fval r - INR N * V) with ((fval r - fval v / INR N) + (fval v / INR N - INR N * V)) by ring. eapply Rle_trans; [apply Rabs_triang|].
  assert (0 <= u * y2) by (apply Rmult_le_pos; lra). lra.
Qed.
