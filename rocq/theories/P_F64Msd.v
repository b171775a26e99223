(** The mean square displacement in double precision (C100). *)
From Coq Require Import List ZArith Bool Arith Reals Lia Lra Psatz Sorting.Sorted Floats.SpecFloat.
From Verif Require Import PyBase PyBaseFacts Num Spec_Stats NumFacts P_Text F64Round F64Ops F64Facts P_F64Mean M_Helpers M_Correlation M_Dynamics
  Spec_Correlation P_Correlation Spec_Time P_Time P_Skip Spec_Dynamics P_Dynamics Spec_Doubles P_F64Time P_F64Overlap.
Import ListNotations.
Local Open Scope R_scope.

(** ** Error factors *)
Lemma low_bernoulli : forall K, 1 - INR K * u <= (1 - u) ^ K.
Proof.
  induction K as [|K IH]; [cbn [pow INR]; lra|]. rewrite S_INR. cbn [pow]. pose proof u_small as U. pose proof (pos_INR K) as P.
  apply Rle_trans with ((1 - u) * (1 - INR K * u)); [nra|]. apply Rmult_le_compat_l; lra.
Qed.

Lemma high_bernoulli : forall K, INR K * u <= / 2 -> (1 + u) ^ K <= 1 + 2 * INR K * u.
Proof.
  intros K H. pose proof u_small as U. pose proof (low_bernoulli K) as L. pose proof (low_pos K) as LP.
  assert (E : (1 + u) ^ K * (1 - u) ^ K <= 1).
  { rewrite <- Rpow_mult_distr. replace ((1 + u) * (1 - u)) with (1 - u * u) by ring.
    assert (G : forall n, 0 <= (1 - u * u) ^ n <= 1).
    { induction n as [|n [I1 I2]]; cbn [pow]; [lra|]. assert (0 <= 1 - u * u <= 1) by nra. split; [apply Rmult_le_pos; lra|]. nra. }
    apply G. }
  set (h := (1 + u) ^ K) in *. set (x := INR K * u) in *. replace (2 * INR K * u) with (2 * x) by (unfold x; ring).
  assert (Px : 0 <= x) by (unfold x; apply Rmult_le_pos; [apply pos_INR|lra]).
  assert (Ph : 0 < h) by (unfold h; pose proof (high_pos K); lra).
  assert (hx : h * (1 - x) <= 1) by (apply Rle_trans with (2 := E); apply Rmult_le_compat_l; lra).
  nra.
Qed.

Lemma within_error : forall K x y, within K x y -> INR K * u <= / 2 -> Rabs (x - y) <= 2 * INR K * u * y.
Proof.
  intros K x y [P [L U]] H. pose proof (low_bernoulli K). pose proof (high_bernoulli K H). apply Rabs_le. pose proof (pos_INR K). pose proof u_small. split.
  - assert ((1 - INR K * u) * y <= x) by (apply Rle_trans with (2 := L); apply Rmult_le_compat_r; lra). nra.
  - assert (x <= (1 + 2 * INR K * u) * y) by (apply Rle_trans with (1 := U); apply Rmult_le_compat_r; lra). nra.
Qed.

(** ** Quotients of sums *)
Definition apart (e : Z) (y : R) : Prop := y = 0 \/ p2 e <= y.

Lemma rsum_apart : forall e ys, (forall y, In y ys -> apart e y) -> 0 <= rsum ys /\ apart e (rsum ys).
Proof.
  intros e ys. induction ys as [|y ys IH]; intros H; cbn [rsum]; [split; [lra|left; reflexivity]|].
  destruct IH as [I1 I2]; [intros z Hz; apply H; right; exact Hz|]. pose proof (p2_pos e). destruct (H y (or_introl eq_refl)) as [-> |B].
  - rewrite Rplus_0_l. split; assumption.
  - split; [lra|]. right. lra.
Qed.

Lemma quotient_within : forall e1 e2 K (l : list f64) (ys : list R) (N : nat),
  (-1074 <= e2 <= 900)%Z -> (-960 <= e1)%Z -> (Z.of_nat (length l) <= 2 ^ 49)%Z -> (1 <= N)%nat -> (Z.of_nat N <= 2 ^ 53)%Z -> (Z.of_nat K <= 2 ^ 49)%Z ->
  Forall2 (fun v y => ok v /\ 0 <= fval v <= p2 e2 /\ within K (fval v) y /\ apart e1 y) l ys ->
  let q := ndiv F64ops (nsum F64ops l) (nofnat F64ops N) in
  ok q /\ within (K + length l + 1) (fval q) (rsum ys / INR N) /\ 0 <= fval q /\ fval q <= IZR (Z.of_nat (length l)) * p2 e2 /\ apart (e1 - 53) (rsum ys / INR N).
Proof.
  intros e1 e2 K l ys N He2 He1 Hn N1 N2 HK F q.
  assert (Hl : forall v, In v l -> ok v /\ 0 <= fval v <= p2 e2).
  { intros v Hv. destruct (Forall2_In_l _ _ _ _ _ _ F Hv) as [y [_ [K1 [B1 _]]]]. split; assumption. }
  assert (Hy : forall y, In y ys -> apart e1 y) by (intros y Hy; destruct (Forall2_In_r _ _ _ _ _ _ F Hy) as [v [_ [_ [_ [_ A]]]]]; exact A).
  destruct (rsum_apart e1 ys Hy) as [Py Ay].
  destruct (fsum_bounds e2 l (S754_zero false) 0 He2 (ok_zero _)) as [Ks Bs]; [cbn [fval]; lra|lia|exact Hl|lia|]. rewrite Z.add_0_l in Bs.
  assert (W : within (K + length l) (fval (fsum l (S754_zero false))) (0 + rsum ys)).
  { apply fsum_within; [apply ok_zero|apply within_weaken with 0%nat; [lia|]; apply within_refl; lra| |].
    - clear - F. induction F as [|v y l ys [A1 [_ [A2 _]]] F IH]; constructor; [split; assumption|exact IH].
    - intros m l1 l2 E1 E2. subst m. apply (fsum_bounds e2 l1 (S754_zero false) 0 He2 (ok_zero _)); [cbn [fval]; lra|lia|intros v Hv; apply Hl; rewrite E1; apply in_or_app; left; exact Hv|].
      rewrite E1, app_length in Hn. lia. }
  rewrite Rplus_0_l in W. unfold q, nsum, nofnat. cbn [ndiv nadd n0 nofZ F64ops]. change (num F64ops) with f64 in *. fold (fsum l (S754_zero false)). set (s := fsum l (S754_zero false)) in *.
  destruct (ofZ_exact (Z.of_nat N)) as [KN EN]; [lia|]. rewrite <- INR_IZR_INZ in EN. assert (P : 1 <= INR N) by (apply (le_INR 1); exact N1).
  assert (NB : INR N <= p2 53) by (rewrite p2_Z by lia; rewrite INR_IZR_INZ; apply IZR_le; exact N2).
  assert (R1 : rounded (fval s / INR N) (fdiv s (f64_ofZ (Z.of_nat N)))) by (rewrite <- EN; apply div_spec; try apply Ks; try apply KN; rewrite EN; lra).
  set (B := IZR (Z.of_nat (length l)) * p2 e2) in *. assert (Pe := p2_pos e2).
  assert (Qb : 0 <= fval s / INR N <= B).
  { split; [apply Rmult_le_pos; [lra|left; apply Rinv_0_lt_compat; lra]|]. apply Rmult_le_reg_r with (INR N); [lra|]. unfold Rdiv. rewrite Rmult_assoc, Rinv_l by lra.
    assert (0 <= B) by lra. nra. }
  assert (FB : format B) by (apply format_scaled; lia).
  assert (LB : B < p2 1024).
  { apply Rle_lt_trans with (p2 53 * p2 e2); [|rewrite <- p2_add; apply p2_lt; lia]. apply Rmult_le_compat_r; [lra|]. rewrite p2_Z by lia. apply IZR_le. lia. }
  destruct (rounded_bounded _ _ B R1 FB) as [Kq Bq]; [rewrite Rabs_right; lra|exact LB|].
  assert (G : 0 <= fval (fdiv s (f64_ofZ (Z.of_nat N)))) by (apply (rounded_ge _ _ 0 R1 Kq format_0); lra). rewrite Rabs_right in Bq by lra.
  assert (Hk : INR (K + length l) * u <= / 2).
  { unfold u. assert (INR (K + length l) <= p2 50) by (rewrite p2_Z by lia; rewrite INR_IZR_INZ; apply IZR_le; lia).
    apply Rle_trans with (p2 50 * p2 (-53)); [apply Rmult_le_compat_r; [left; apply p2_pos|assumption]|]. rewrite <- p2_add. unfold p2. simpl. lra. }
  assert (Aq : apart (e1 - 53) (rsum ys / INR N)).
  { destruct Ay as [-> |Ay]; [left; unfold Rdiv; ring|right]. replace (p2 (e1 - 53)) with (p2 e1 / p2 53).
    - unfold Rdiv. apply Rmult_le_compat; [left; apply p2_pos|left; apply Rinv_0_lt_compat; apply p2_pos|exact Ay|apply Rinv_le_contravar; lra].
    - pose proof (p2_pos 53). apply Rmult_eq_reg_r with (p2 53); [|lra]. unfold Rdiv. rewrite Rmult_assoc, Rinv_l, <- p2_add by lra. rewrite Rmult_1_r. f_equal. lia. }
  split; [exact Kq|]. split; [|split; [exact G|split; [exact Bq|exact Aq]]].
  replace (K + length l + 1)%nat with (S (K + length l)) by lia. apply within_round with (fval s / INR N).
  - unfold Rdiv. apply within_scale; [left; apply Rinv_0_lt_compat; lra|exact W].
  - apply rounded_relative; [exact R1|exact Kq|].
    destruct Ay as [E|Ay].
    + left. destruct W as [_ [W1 W2]]. rewrite E, Rmult_0_r in W1, W2. replace (fval s) with 0 by lra. unfold Rdiv. ring.
    + right. rewrite Rabs_right by lra. pose proof (low_bernoulli (K + length l)) as LB1. destruct W as [_ [W1 _]].
      assert (S1 : p2 (e1 - 1) <= fval s).
      { apply Rle_trans with (/ 2 * p2 e1); [right; replace (p2 e1) with (p2 1 * p2 (e1 - 1)) by (rewrite <- p2_add; f_equal; lia); unfold p2 at 2; simpl powerRZ; lra|].
        apply Rle_trans with (2 := W1). apply Rmult_le_compat; try lra. left. apply p2_pos. }
      apply Rle_trans with (p2 (e1 - 1 - 53)); [apply p2_le; lia|]. replace (p2 (e1 - 1 - 53)) with (p2 (e1 - 1) / p2 53).
      * unfold Rdiv. apply Rmult_le_compat; [left; apply p2_pos|left; apply Rinv_0_lt_compat; apply p2_pos|exact S1|apply Rinv_le_contravar; lra].
      * pose proof (p2_pos 53). apply Rmult_eq_reg_r with (p2 53); [|lra]. unfold Rdiv. rewrite Rmult_assoc, Rinv_l, <- p2_add by lra. rewrite Rmult_1_r. f_equal. lia.
Qed.

(** ** Squared displacements of one coordinate *)
Lemma square_within : forall a b, ok a -> ok b -> Rabs (fval a) <= p2 400 -> Rabs (fval b) <= p2 400 ->
  fval a = fval b \/ p2 (-400) <= Rabs (fval a - fval b) ->
  let t := nsq F64ops (nsub F64ops a b) in let y := (fval a - fval b) * (fval a - fval b) in
  ok t /\ 0 <= fval t <= p2 802 /\ within 3 (fval t) y /\ apart (-800) y.
Proof.
  intros a b Ka Kb Ba Bb H. unfold nsq. cbn [nmul nsub F64ops]. cbv zeta. set (w := fval a - fval b) in *.
  assert (R1 : rounded w (fsub a b)) by (apply sub_spec; try apply Ka; apply Kb).
  assert (Bw : Rabs w <= p2 401).
  { unfold w, Rminus. pose proof (Rabs_triang (fval a) (- fval b)) as T. rewrite Rabs_Ropp in T. change 401%Z with (400 + 1)%Z. rewrite p2_add. replace (p2 1) with 2 by (unfold p2; simpl; lra). lra. }
  destruct (rounded_bounded _ _ (p2 401) R1) as [Kd Bd]; [apply format_p2; lia|exact Bw|apply p2_lt; lia|]. set (d := fsub a b) in *.
  assert (Er : Rabs (fval d - w) <= u * Rabs w) by (apply sub_relative; assumption). pose proof u_small as U.
  assert (W1 : within 1 (Rabs (fval d)) (Rabs w)).
  { split; [apply Rabs_pos|]. rewrite !pow_1. pose proof (Rabs_triang (fval d - w) w) as T1. replace (fval d - w + w) with (fval d) in T1 by ring.
    pose proof (Rabs_triang (w - fval d) (fval d)) as T2. replace (w - fval d + fval d) with w in T2 by ring. rewrite <- (Rabs_Ropp (w - fval d)), Ropp_minus_distr in T2. lra. }
  assert (Sq : forall x, x * x = Rabs x * Rabs x) by (intros x; rewrite <- Rabs_mult, Rabs_right; [reflexivity|apply Rle_ge; apply Rle_0_sqr]).
  assert (W2 : within 2 (fval d * fval d) (w * w)) by (rewrite (Sq (fval d)), (Sq w); apply (within_mul 1 1); assumption).
  assert (R2 : rounded (fval d * fval d) (fmul d d)) by (apply mul_spec; apply Kd).
  assert (D2 : 0 <= fval d * fval d <= p2 802).
  { split; [apply Rle_0_sqr|]. rewrite Sq. change 802%Z with (401 + 401)%Z. rewrite p2_add. apply Rmult_le_compat; try apply Rabs_pos; assumption. }
  destruct (rounded_bounded _ _ (p2 802) R2) as [Kt Bt]; [apply format_p2; lia|rewrite Rabs_right; lra|apply p2_lt; lia|].
  assert (G : 0 <= fval (fmul d d)) by (apply (rounded_ge _ _ 0 R2 Kt format_0); lra). rewrite Rabs_right in Bt by lra.
  split; [exact Kt|]. split; [split; assumption|]. split.
  - apply within_round with (fval d * fval d); [exact W2|]. apply rounded_relative; [exact R2|exact Kt|].
    destruct H as [E|H].
    + left. destruct W1 as [_ [A1 A2]]. assert (w0 : w = 0) by (unfold w; lra). rewrite w0, Rabs_R0, Rmult_0_r in A1, A2. rewrite Sq. assert (Rabs (fval d) = 0) by lra. rewrite H. ring.
    + right. rewrite Rabs_right by lra. destruct W1 as [_ [A1 _]]. rewrite pow_1 in A1.
      assert (D1 : p2 (-401) <= Rabs (fval d)).
      { apply Rle_trans with (/ 2 * p2 (-400)); [right; replace (p2 (-400)) with (p2 1 * p2 (-401)) by (rewrite <- p2_add; reflexivity); unfold p2 at 2; simpl powerRZ; lra|].
        apply Rle_trans with (2 := A1). pose proof (p2_pos (-400)). apply Rmult_le_compat; lra. }
      rewrite Sq. apply Rle_trans with (p2 (-802)); [apply p2_le; lia|]. change (-802)%Z with (-401 + -401)%Z. rewrite p2_add. pose proof (p2_pos (-401)). apply Rmult_le_compat; lra.
  - destruct H as [E|H]; [left; unfold w; rewrite E; ring|right]. rewrite Sq. change (-800)%Z with (-400 + -400)%Z. rewrite p2_add. pose proof (p2_pos (-400)). apply Rmult_le_compat; lra.
Qed.

(** ** One pair of frames *)
Lemma Forall2_flat_map : forall X Y Z W (P : Z -> W -> Prop) (f : X -> list Z) (g : Y -> list W) l m,
  Forall2 (fun a b => Forall2 P (f a) (g b)) l m -> Forall2 P (flat_map f l) (flat_map g m).
Proof. intros X Y Z W P f g l m F. induction F as [|a b l m H F IH]; cbn [flat_map]; [constructor|]. apply Forall2_app; assumption. Qed.

Lemma combine_map_same : forall X Y (h : X -> Y) x y, combine (map h x) (map h y) = map (fun p => (h (fst p), h (snd p))) (combine x y).
Proof. intros X Y h. induction x as [|a x IH]; intros [|b y]; cbn [map combine fst snd]; try reflexivity. rewrite IH. reflexivity. Qed.

Lemma rows_total : forall (x y : frame F64ops) d, (forall r, In r x -> length r = d) ->
  (length (flat_map (fun p => map2 (fun a b => nsq F64ops (nsub F64ops a b)) (fst p) (snd p)) (combine x y)) <= length x * d)%nat.
Proof.
  intros x. induction x as [|r x IH]; intros [|s y] d H; cbn [combine flat_map length]; try lia.
  rewrite app_length. unfold map2 at 1. cbn [fst snd]. rewrite map_length, combine_length. pose proof (H r (or_introl eq_refl)) as E. change (num F64ops) with f64 in *. rewrite E.
  specialize (IH y d (fun r' Hr => H r' (or_intror Hr))). lia.
Qed.

Lemma msd_within : forall (x y : frame F64ops) d, length x = length y -> (1 <= length x)%nat ->
  (forall r, In r x -> length r = d) -> (Z.of_nat (length x * d) <= 2 ^ 47)%Z -> (Z.of_nat (length x) <= 2 ^ 53)%Z ->
  (forall r s a b, In (r, s) (combine x y) -> In (a, b) (combine r s) -> ok a /\ ok b /\ Rabs (fval a) <= p2 400 /\ Rabs (fval b) <= p2 400 /\ (fval a = fval b \/ p2 (-400) <= Rabs (fval a - fval b))) ->
  let m := msd F64ops x y in let e := mean_over (fun z => z) (values x) (values y) in
  ok m /\ 0 <= fval m <= p2 849 /\ within (length x * d + 4) (fval m) e /\ apart (-853) e.
Proof.
  intros x y d Hl N1 Hd B1 B2 H m e.
  set (l := flat_map (fun p => map2 (fun a b => nsq F64ops (nsub F64ops a b)) (fst p) (snd p)) (combine x y)).
  set (ys := flat_map (fun p => map2 (fun a b => (a - b) * (a - b)) (fst p) (snd p)) (combine (values x) (values y))).
  assert (Ll : (length l <= length x * d)%nat) by (apply rows_total; exact Hd).
  assert (Ee : e = rsum ys / INR (length x)).
  { unfold e. rewrite <- msd_R by (unfold values; rewrite !map_length; exact Hl). unfold msd. rewrite nsum_R, nofnat_R. cbn [ndiv Rops]. unfold values at 3. rewrite map_length. reflexivity. }
  destruct (quotient_within (-800) 802 3 l ys (length x)) as [Km [Wm [Pm [Bm Am]]]]; try assumption; try lia; [change (num F64ops) with f64 in *; lia| |].
  { unfold l, ys. apply Forall2_flat_map. unfold values. rewrite combine_map_same. clear - H. unfold frame in *. change (num F64ops) with f64 in *. induction (combine x y) as [|[r s] q IH]; cbn [map]; constructor.
    - cbn [fst snd]. unfold map2. rewrite combine_map_same, map_map. assert (G : forall a b, In (a, b) (combine r s) -> ok a /\ ok b /\ Rabs (fval a) <= p2 400 /\ Rabs (fval b) <= p2 400 /\ (fval a = fval b \/ p2 (-400) <= Rabs (fval a - fval b))) by (intros a b; apply H; left; reflexivity).
      clear - G. change (num F64ops) with f64 in *. induction (combine r s) as [|[a b] c IH]; cbn [map]; constructor.
      + destruct (G a b (or_introl eq_refl)) as [? [? [? [? ?]]]]. apply square_within; assumption.
      + apply IH. intros a' b' Hab. apply G. right. exact Hab.
    - apply IH. intros r' s' a b Hr. apply H. right. exact Hr. }
  fold m in Km, Wm, Pm, Bm. rewrite <- Ee in Wm, Am. change (num F64ops) with f64 in *.
  split; [exact Km|]. split; [|split; [|exact Am]].
  - split; [exact Pm|]. apply Rle_trans with (1 := Bm). change 849%Z with (47 + 802)%Z. rewrite p2_add. apply Rmult_le_compat_r; [left; apply p2_pos|]. rewrite (p2_Z 47) by lia. apply IZR_le. lia.
  - apply within_weaken with (2 := Wm). lia.
Qed.

(** ** Without the assumption on small displacements *)
Lemma quotient_bounds : forall e2 (l : list f64) (N : nat), (-1074 <= e2 <= 900)%Z -> (Z.of_nat (length l) <= 2 ^ 49)%Z -> (1 <= N)%nat -> (Z.of_nat N <= 2 ^ 53)%Z ->
  (forall v, In v l -> ok v /\ 0 <= fval v <= p2 e2) ->
  let q := ndiv F64ops (nsum F64ops l) (nofnat F64ops N) in
  ok q /\ 0 <= fval q <= IZR (Z.of_nat (length l)) * p2 e2 /\ ((forall v, In v l -> fval v = 0) -> fval q = 0).
Proof.
  intros e2 l N He2 Hn N1 N2 Hl q.
  destruct (fsum_bounds e2 l (S754_zero false) 0 He2 (ok_zero _)) as [Ks Bs]; [cbn [fval]; lra|lia|exact Hl|lia|]. rewrite Z.add_0_l in Bs.
  unfold q, nsum, nofnat. cbn [ndiv nadd n0 nofZ F64ops]. change (num F64ops) with f64 in *. fold (fsum l (S754_zero false)). set (s := fsum l (S754_zero false)) in *.
  destruct (ofZ_exact (Z.of_nat N)) as [KN EN]; [lia|]. rewrite <- INR_IZR_INZ in EN. assert (P : 1 <= INR N) by (apply (le_INR 1); exact N1).
  assert (R1 : rounded (fval s / INR N) (fdiv s (f64_ofZ (Z.of_nat N)))) by (rewrite <- EN; apply div_spec; try apply Ks; try apply KN; rewrite EN; lra).
  set (B := IZR (Z.of_nat (length l)) * p2 e2) in *. assert (Pe := p2_pos e2).
  assert (Qb : 0 <= fval s / INR N <= B).
  { split; [apply Rmult_le_pos; [lra|left; apply Rinv_0_lt_compat; lra]|]. apply Rmult_le_reg_r with (INR N); [lra|]. unfold Rdiv. rewrite Rmult_assoc, Rinv_l by lra.
    assert (0 <= B) by lra. nra. }
  assert (FB : format B) by (apply format_scaled; lia).
  assert (LB : B < p2 1024).
  { apply Rle_lt_trans with (p2 53 * p2 e2); [|rewrite <- p2_add; apply p2_lt; lia]. apply Rmult_le_compat_r; [lra|]. rewrite p2_Z by lia. apply IZR_le. lia. }
  destruct (rounded_bounded _ _ B R1 FB) as [Kq Bq]; [rewrite Rabs_right; lra|exact LB|].
  assert (G : 0 <= fval (fdiv s (f64_ofZ (Z.of_nat N)))) by (apply (rounded_ge _ _ 0 R1 Kq format_0); lra). rewrite Rabs_right in Bq by lra.
  split; [exact Kq|]. split; [split; assumption|]. intros Z0.
  assert (Zs : fval s = 0).
  { destruct (fsum_exact l (repeat 0%Z (length l)) (S754_zero false) 0 (ok_zero _)) as [_ Es]; [reflexivity|lia| | |].
    - clear - Z0 Hl. induction l as [|v l IH]; cbn; [constructor|]. constructor; [split; [apply Hl; left; reflexivity|split; [apply Z0; left; reflexivity|lia]]|].
      apply IH; intros w Hw; [apply Hl|apply Z0]; right; exact Hw.
    - assert (E : forall n k, fold_left Z.add (repeat 0%Z n) k = k) by (induction n as [|n IH]; intros k; [reflexivity|cbn [repeat fold_left]; rewrite IH; lia]). rewrite E. lia.
    - assert (E : forall n k, fold_left Z.add (repeat 0%Z n) k = k) by (induction n as [|n IH]; intros k; [reflexivity|cbn [repeat fold_left]; rewrite IH; lia]). rewrite E in Es. exact Es. }
  assert (Zq : fval s / INR N = 0) by (rewrite Zs; unfold Rdiv; ring). apply Rle_antisym; [|exact G]. apply (rounded_le _ _ 0 R1 Kq format_0). rewrite Zq. apply Rle_refl.
Qed.

Lemma square_bounds : forall a b, ok a -> ok b -> Rabs (fval a) <= p2 400 -> Rabs (fval b) <= p2 400 ->
  let t := nsq F64ops (nsub F64ops a b) in ok t /\ 0 <= fval t <= p2 802 /\ (fval a = fval b -> fval t = 0).
Proof.
  intros a b Ka Kb Ba Bb. unfold nsq. cbn [nmul nsub F64ops]. cbv zeta. set (w := fval a - fval b) in *.
  assert (R1 : rounded w (fsub a b)) by (apply sub_spec; try apply Ka; apply Kb).
  assert (Bw : Rabs w <= p2 401).
  { unfold w, Rminus. pose proof (Rabs_triang (fval a) (- fval b)) as T. rewrite Rabs_Ropp in T. change 401%Z with (400 + 1)%Z. rewrite p2_add. replace (p2 1) with 2 by (unfold p2; simpl; lra). lra. }
  destruct (rounded_bounded _ _ (p2 401) R1) as [Kd Bd]; [apply format_p2; lia|exact Bw|apply p2_lt; lia|]. set (d := fsub a b) in *.
  assert (Sq : forall x, x * x = Rabs x * Rabs x) by (intros x; rewrite <- Rabs_mult, Rabs_right; [reflexivity|apply Rle_ge; apply Rle_0_sqr]).
  assert (R2 : rounded (fval d * fval d) (fmul d d)) by (apply mul_spec; apply Kd).
  assert (D2 : 0 <= fval d * fval d <= p2 802).
  { split; [apply Rle_0_sqr|]. rewrite Sq. change 802%Z with (401 + 401)%Z. rewrite p2_add. apply Rmult_le_compat; try apply Rabs_pos; assumption. }
  destruct (rounded_bounded _ _ (p2 802) R2) as [Kt Bt]; [apply format_p2; lia|rewrite Rabs_right; lra|apply p2_lt; lia|].
  assert (G : 0 <= fval (fmul d d)) by (apply (rounded_ge _ _ 0 R2 Kt format_0); lra). rewrite Rabs_right in Bt by lra.
  split; [exact Kt|]. split; [split; assumption|]. intros E. assert (w0 : w = 0) by (unfold w; lra).
  assert (d0 : fval d = 0).
  { apply Rle_antisym; [apply (rounded_le _ _ 0 R1 Kd format_0)|apply (rounded_ge _ _ 0 R1 Kd format_0)]; rewrite w0; apply Rle_refl. }
  apply Rle_antisym; [|exact G]. apply (rounded_le _ _ 0 R2 Kt format_0). rewrite d0. rewrite Rmult_0_l. apply Rle_refl.
Qed.

Lemma msd_bounds : forall (x y : frame F64ops) d, (1 <= length x)%nat ->
  (forall r, In r x -> length r = d) -> (Z.of_nat (length x * d) <= 2 ^ 47)%Z -> (Z.of_nat (length x) <= 2 ^ 53)%Z ->
  (forall r a, In r x -> In a r -> ok a /\ Rabs (fval a) <= p2 400) -> (forall r a, In r y -> In a r -> ok a /\ Rabs (fval a) <= p2 400) ->
  let m := msd F64ops x y in ok m /\ 0 <= fval m <= p2 849 /\ (x = y -> fval m = 0).
Proof.
  intros x y d N1 Hd B1 B2 Hx Hy m.
  set (l := flat_map (fun p => map2 (fun a b => nsq F64ops (nsub F64ops a b)) (fst p) (snd p)) (combine x y)).
  assert (Ll : (length l <= length x * d)%nat) by (apply rows_total; exact Hd).
  assert (In_l : forall v, In v l -> exists r s a b, In (r, s) (combine x y) /\ In (a, b) (combine r s) /\ v = nsq F64ops (nsub F64ops a b)).
  { intros v Hv. unfold l in Hv. apply in_flat_map in Hv. destruct Hv as [[r s] [Hp Hv]]. cbn [fst snd] in Hv. unfold map2 in Hv. apply in_map_iff in Hv. destruct Hv as [[a b] [<- Hab]].
    exists r, s, a, b. auto. }
  destruct (quotient_bounds 802 l (length x)) as [Km [Bm Zm]]; try assumption; try lia; [change (num F64ops) with f64 in *; lia| |].
  { intros v Hv. destruct (In_l v Hv) as [r [s [a [b [H1 [H2 ->]]]]]]. destruct (Hx r a) as [? ?]; [eapply in_combine_l; exact H1|eapply in_combine_l; exact H2|].
    destruct (Hy s b) as [? ?]; [eapply in_combine_r; exact H1|eapply in_combine_r; exact H2|]. destruct (square_bounds a b) as [? [? _]]; auto. }
  fold m in Km, Bm, Zm. change (num F64ops) with f64 in *. split; [exact Km|]. split.
  - split; [exact (proj1 Bm)|]. apply Rle_trans with (1 := proj2 Bm). change 849%Z with (47 + 802)%Z. rewrite p2_add. apply Rmult_le_compat_r; [left; apply p2_pos|]. rewrite (p2_Z 47) by lia. apply IZR_le. lia.
  - intros E. apply Zm. intros v Hv. destruct (In_l v Hv) as [r [s [a [b [H1 [H2 ->]]]]]].
    assert (Same : forall X (q : list X) c e, In (c, e) (combine q q) -> c = e /\ In c q).
    { intros X q. induction q as [|z q IH]; intros c e [].  - injection H as <- <-. split; [reflexivity|left; reflexivity]. - destruct (IH _ _ H). split; [assumption|right; assumption]. }
    rewrite <- E in *. destruct (Same _ _ _ _ H1) as [<- I1]. destruct (Same _ _ _ _ H2) as [<- I2]. destruct (Hx r a I1 I2). destruct (square_bounds a a) as [_ [_ Z1]]; auto.
Qed.

(** ** Means over pairs of frames *)
Lemma zero_mean : forall e (l : list f64), (-1074 <= e <= 900)%Z -> l <> [] -> (Z.of_nat (length l) <= 2 ^ 49)%Z -> (forall v, In v l -> ok v /\ 0 <= fval v <= p2 e) ->
  (forall v, In v l -> fval v = 0) -> fval (nmean F64ops l) = 0.
Proof.
  intros e l He Hl Hn H Z0. unfold nmean. apply (quotient_bounds e l (length l)); try assumption; [destruct l; [congruence|cbn [length]; lia]|lia].
Qed.

Lemma mean_within : forall e1 e2 K X (h : X -> f64) (g : X -> R) (qs : list X), (-1074 <= e2 <= 900)%Z -> (-960 <= e1)%Z -> qs <> [] -> (Z.of_nat (length qs) <= 2 ^ 49)%Z -> (Z.of_nat K <= 2 ^ 49)%Z ->
  (forall p, In p qs -> ok (h p) /\ 0 <= fval (h p) <= p2 e2 /\ within K (fval (h p)) (g p) /\ apart e1 (g p)) ->
  within (K + length qs + 1) (fval (nmean F64ops (map h qs))) (rmean (map g qs)).
Proof.
  intros e1 e2 K X h g qs He2 He1 Nq Lq LK H. unfold nmean, rmean.
  destruct (quotient_within e1 e2 K (map h qs) (map g qs) (length (map h qs))) as [_ [W _]]; try assumption; rewrite ?map_length in *; try assumption.
  - destruct qs; [congruence|cbn [length]; lia].
  - lia.
  - clear - H. induction qs as [|p qs IH]; cbn [map]; constructor; [apply H; left; reflexivity|]. apply IH. intros q Hq. apply H. right. exact Hq.
Qed.
