(** Rounding errors of the non-Gaussian parameter (C117). *)
From Coq Require Import List ZArith Bool Arith Reals Lia Lra Psatz Sorting.Sorted Sorting.Permutation Floats.SpecFloat.
From Verif Require Import PyBase PyBaseFacts Num Spec_Stats NumFacts P_Text F64Round F64Ops F64Facts P_F64Mean M_Helpers M_Correlation M_Dynamics
  Spec_Correlation P_Correlation Spec_Time P_Time P_Skip Spec_Dynamics P_Dynamics P_Overlap P_Chi4 Spec_Doubles P_F64Time P_F64Overlap P_F64Msd P_F64Order P_F64Dot Spec_Alpha.
Import ListNotations.
Local Open Scope R_scope.

(** v is a double close to y, a number that is zero or between 2^e1 and about 2^e2. *)
Definition close_to (e1 e2 : Z) (K : nat) (v : f64) (y : R) : Prop := ok v /\ 0 <= fval v <= p2 e2 /\ within K (fval v) y /\ apart e1 y.

Lemma few_roundings : forall K, (Z.of_nat K <= 2 ^ 51)%Z -> INR K * u <= / 2.
Proof.
  intros K H. unfold u. assert (INR K <= p2 51) by (rewrite p2_Z by lia; rewrite INR_IZR_INZ; apply IZR_le; lia).
  apply Rle_trans with (p2 51 * p2 (-53)); [apply Rmult_le_compat_r; [left; apply p2_pos|assumption]|]. rewrite <- p2_add. unfold p2. simpl. lra.
Qed.

Lemma within_half : forall K x y, (Z.of_nat K <= 2 ^ 51)%Z -> within K x y -> y / 2 <= x <= 2 * y.
Proof.
  intros K x y HK [P [A B]]. pose proof (few_roundings K HK) as F. pose proof (low_bernoulli K). pose proof (high_bernoulli K F).
  split; [apply Rle_trans with (2 := A)|apply Rle_trans with (1 := B)].
  - unfold Rdiv. rewrite Rmult_comm. apply Rmult_le_compat_r; lra.
  - apply Rmult_le_compat_r; lra.
Qed.

Lemma close_round : forall e1 e2 K x y r, (-1020 <= e1)%Z -> (-1074 <= e2 <= 1000)%Z -> (Z.of_nat K <= 2 ^ 51)%Z ->
  within K x y -> apart e1 y -> x <= p2 e2 -> rounded x r -> close_to e1 e2 (S K) r y.
Proof.
  intros e1 e2 K x y r He1 He2 HK W A Hx Hr. destruct (within_half K x y HK W) as [L U]. pose proof (proj1 W) as Py.
  destruct (rounded_bounded _ _ (p2 e2) Hr) as [Kr Br]; [apply format_p2; lia|rewrite Rabs_right; lra|apply p2_lt; lia|].
  assert (G : 0 <= fval r) by (apply (rounded_ge _ _ 0 Hr Kr format_0); lra). rewrite Rabs_right in Br by lra.
  split; [exact Kr|]. split; [split; assumption|]. split; [|exact A]. apply within_round with x; [exact W|]. apply rounded_relative; [exact Hr|exact Kr|].
  destruct A as [E|A]; [left; lra|right]. rewrite Rabs_right by lra. apply Rle_trans with (p2 (e1 - 1)); [apply p2_le; lia|].
  assert (p2 e1 = 2 * p2 (e1 - 1)) by (replace e1 with (1 + (e1 - 1))%Z at 1 by lia; rewrite p2_add; unfold p2 at 1; simpl powerRZ; lra). lra.
Qed.

Lemma apart_mul : forall e f y z, apart e y -> apart f z -> apart (e + f) (y * z).
Proof.
  intros e f y z [-> |A] B; [left; ring|]. destruct B as [-> |B]; [left; ring|right]. rewrite p2_add. pose proof (p2_pos e). pose proof (p2_pos f). apply Rmult_le_compat; lra.
Qed.

Lemma close_mul : forall e1 e2 f1 f2 K L v w y z, (-1020 <= e1 + f1)%Z -> (-1074 <= e2 + f2 <= 1000)%Z -> (Z.of_nat (K + L) <= 2 ^ 51)%Z ->
  close_to e1 e2 K v y -> close_to f1 f2 L w z -> close_to (e1 + f1) (e2 + f2) (K + L + 1) (fmul v w) (y * z).
Proof.
  intros e1 e2 f1 f2 K L v w y z H1 H2 HK [Kv [Bv [Wv Av]]] [Kw [Bw [Ww Aw]]]. replace (K + L + 1)%nat with (S (K + L)) by lia.
  apply close_round with (fval v * fval w); try assumption.
  - apply within_mul; assumption.
  - apply apart_mul; assumption.
  - rewrite p2_add. apply Rmult_le_compat; lra.
  - apply mul_spec; try apply Kv; apply Kw.
Qed.

Lemma close_int : forall n e2, (1 <= n <= 2 ^ 53)%Z -> IZR n <= p2 e2 -> close_to 0 e2 0 (f64_ofZ n) (IZR n).
Proof.
  intros n e2 Hn Hb. destruct (ofZ_exact n) as [Kn En]; [lia|]. assert (1 <= IZR n) by (apply IZR_le; lia).
  split; [exact Kn|]. rewrite En. split; [lra|]. split; [apply within_refl; lra|]. right. unfold p2. simpl. lra.
Qed.

Lemma within_div : forall K L a b c d, within K a b -> within L c d -> 0 < d -> within (K + 2 * L) (a / c) (b / d).
Proof.
  intros K L a b c d [Pb [A1 A2]] [_ [C1 C2]] Pd. pose proof u_small as U. pose proof (low_pos K) as LK. pose proof (high_pos K) as HK. pose proof (low_pos L) as LL. pose proof (high_pos L) as HL.
  assert (Pc : 0 < c) by (apply Rlt_le_trans with (2 := C1); apply Rmult_lt_0_compat; lra).
  assert (I1 : / (1 - u) <= (1 + u) ^ 2).
  { apply Rmult_le_reg_r with (1 - u); [lra|]. rewrite Rinv_l by lra. cbn [pow]. nra. }
  assert (I2 : (1 - u) <= / (1 + u)) by (apply Rmult_le_reg_r with (1 + u); [lra|]; rewrite Rinv_l by lra; nra).
  assert (Q1 : / c <= (1 + u) ^ (2 * L) / d).
  { apply Rle_trans with (/ ((1 - u) ^ L * d)); [apply Rinv_le_contravar; [apply Rmult_lt_0_compat; lra|exact C1]|]. rewrite Rinv_mult. unfold Rdiv. apply Rmult_le_compat_r; [left; apply Rinv_0_lt_compat; exact Pd|].
    rewrite <- pow_inv. rewrite pow_mult. apply pow_incr. split; [left; apply Rinv_0_lt_compat; lra|exact I1]. }
  assert (Q2 : (1 - u) ^ L / d <= / c).
  { apply Rle_trans with (/ ((1 + u) ^ L * d)); [|apply Rinv_le_contravar; [exact Pc|exact C2]]. rewrite Rinv_mult. unfold Rdiv. apply Rmult_le_compat_r; [left; apply Rinv_0_lt_compat; exact Pd|].
    rewrite <- pow_inv. apply pow_incr. split; [lra|exact I2]. }
  assert (Pi : 0 < / d) by (apply Rinv_0_lt_compat; exact Pd). assert (Pic : 0 < / c) by (apply Rinv_0_lt_compat; exact Pc).
  split; [apply Rmult_le_pos; lra|]. split.
  - apply Rle_trans with ((1 - u) ^ (K + L) * (b / d)); [apply Rmult_le_compat_r; [apply Rmult_le_pos; lra|apply low_mono; lia]|].
    rewrite pow_add. replace ((1 - u) ^ K * (1 - u) ^ L * (b / d)) with ((1 - u) ^ K * b * ((1 - u) ^ L / d)) by (unfold Rdiv; ring). unfold Rdiv at 2.
    apply Rmult_le_compat; [apply Rmult_le_pos; lra|apply Rmult_le_pos; lra|exact A1|exact Q2].
  - rewrite pow_add. replace ((1 + u) ^ K * (1 + u) ^ (2 * L) * (b / d)) with ((1 + u) ^ K * b * ((1 + u) ^ (2 * L) / d)) by (unfold Rdiv; ring). unfold Rdiv at 1.
    apply Rmult_le_compat; [|lra|exact A2|exact Q1]. apply Rle_trans with (2 := A1). apply Rmult_le_pos; lra.
Qed.

Lemma close_div : forall e1 e2 f1 f2 g1 g2 K L v w y z, (-1020 <= g1)%Z -> (-1074 <= g2 <= 1000)%Z -> (Z.of_nat (K + 2 * L) <= 2 ^ 51)%Z ->
  close_to e1 e2 K v y -> close_to f1 f2 L w z -> 0 < z -> apart g1 (y / z) -> 2 * (y / z) <= p2 g2 -> close_to g1 g2 (K + 2 * L + 1) (fdiv v w) (y / z).
Proof.
  intros e1 e2 f1 f2 g1 g2 K L v w y z H1 H2 HK [Kv [Bv [Wv Av]]] [Kw [Bw [Ww Aw]]] Pz Ag Bg. replace (K + 2 * L + 1)%nat with (S (K + 2 * L)) by lia.
  pose proof (within_div K L _ _ _ _ Wv Ww Pz) as W. destruct (within_half _ _ _ HK W) as [_ U].
  apply close_round with (fval v / fval w); try assumption.
  - lra.
  - apply div_spec; try apply Kv; try apply Kw. destruct (within_half L _ _ ltac:(lia) Ww) as [Q _]. lra.
Qed.

Lemma close_sum : forall e1 e2 K l s ys, (-1074 <= e2 <= 900)%Z -> sum_of l s -> (Z.of_nat (length l) <= 2 ^ 47)%Z ->
  Forall2 (close_to e1 e2 K) l ys -> close_to e1 (e2 + 47) (K + length l) s (rsum ys).
Proof.
  intros e1 e2 K l s ys He Hs Hl F. destruct (sum_of_within e2 K l s He Hs ys) as [Ks [Bs [_ W]]]; [lia| |].
  - clear - F. induction F as [|v y l ys [A1 [A2 [A3 _]]] F IH]; constructor; [split; [exact A1|split; assumption]|exact IH].
  - split; [exact Ks|]. split; [|split].
    + split; [lra|]. apply Rle_trans with (1 := proj2 Bs). rewrite Z.add_comm, p2_add. apply Rmult_le_compat_r; [left; apply p2_pos|]. rewrite p2_Z by lia. apply IZR_le. exact Hl.
    + apply within_weaken with (2 := W). lia.
    + apply rsum_apart. intros y Hy. destruct (Forall2_In_r _ _ _ _ _ _ F Hy) as [v [_ [_ [_ [_ A]]]]]. exact A.
Qed.

Lemma close_mean : forall e1 e2 K s y (N : nat), (-967 <= e1)%Z -> (-1074 <= e2 <= 1000)%Z -> (Z.of_nat K <= 2 ^ 51)%Z -> (1 <= N)%nat -> (Z.of_nat N <= 2 ^ 53)%Z ->
  close_to e1 e2 K s y -> close_to (e1 - 53) e2 (K + 1) (fdiv s (f64_ofZ (Z.of_nat N))) (y / INR N).
Proof.
  intros e1 e2 K s y N H1 H2 HK N1 N2 [Ks [Bs [W A]]]. replace (K + 1)%nat with (S K) by lia. destruct (ofZ_exact (Z.of_nat N)) as [KN EN]; [lia|]. rewrite <- INR_IZR_INZ in EN.
  assert (P : 1 <= INR N) by (apply (le_INR 1); exact N1). assert (NB : INR N <= p2 53) by (rewrite p2_Z by lia; rewrite INR_IZR_INZ; apply IZR_le; exact N2).
  assert (I1 : 0 < / INR N <= 1) by (split; [apply Rinv_0_lt_compat; lra|rewrite <- Rinv_1; apply Rinv_le_contravar; lra]).
  apply close_round with (fval s / INR N); try assumption; try lia.
  - unfold Rdiv. apply within_scale; [lra|exact W].
  - destruct A as [-> |A]; [left; unfold Rdiv; ring|right]. replace (p2 (e1 - 53)) with (p2 e1 / p2 53).
    + unfold Rdiv. apply Rmult_le_compat; [left; apply p2_pos|left; apply Rinv_0_lt_compat; apply p2_pos|exact A|apply Rinv_le_contravar; lra].
    + pose proof (p2_pos 53). apply Rmult_eq_reg_r with (p2 53); [|lra]. unfold Rdiv. rewrite Rmult_assoc, Rinv_l, <- p2_add by lra. rewrite Rmult_1_r. f_equal. lia.
  - apply Rle_trans with (2 := proj2 Bs). rewrite <- (Rmult_1_r (fval s)) at 2. apply Rmult_le_compat_l; lra.
  - rewrite <- EN. apply div_spec; try apply Ks; try apply KN. rewrite EN. lra.
Qed.

(** Squares of differences: coordinates up to 2^200, differences zero or from 2^-200. *)
Lemma square_close : forall a b, ok a -> ok b -> Rabs (fval a) <= p2 200 -> Rabs (fval b) <= p2 200 -> fval a = fval b \/ p2 (-200) <= Rabs (fval a - fval b) ->
  close_to (-400) 402 3 (let d := fsub a b in fmul d d) ((fval a - fval b) * (fval a - fval b)).
Proof.
  intros a b Ka Kb Ba Bb H. cbv zeta. set (w := fval a - fval b) in *.
  assert (R1 : rounded w (fsub a b)) by (apply sub_spec; try apply Ka; apply Kb).
  assert (Bw : Rabs w <= p2 201).
  { unfold w, Rminus. pose proof (Rabs_triang (fval a) (- fval b)) as T. rewrite Rabs_Ropp in T. change 201%Z with (200 + 1)%Z. rewrite p2_add. replace (p2 1) with 2 by (unfold p2; simpl; lra). lra. }
  destruct (rounded_bounded _ _ (p2 201) R1) as [Kd Bd]; [apply format_p2; lia|exact Bw|apply p2_lt; lia|]. set (d := fsub a b) in *.
  assert (Er : Rabs (fval d - w) <= u * Rabs w) by (apply sub_relative; assumption). pose proof u_small as U.
  assert (W1 : within 1 (Rabs (fval d)) (Rabs w)).
  { split; [apply Rabs_pos|]. rewrite !pow_1. pose proof (Rabs_triang (fval d - w) w) as T1. replace (fval d - w + w) with (fval d) in T1 by ring.
    pose proof (Rabs_triang (w - fval d) (fval d)) as T2. replace (w - fval d + fval d) with w in T2 by ring. rewrite <- (Rabs_Ropp (w - fval d)), Ropp_minus_distr in T2. lra. }
  assert (Sq : forall x, x * x = Rabs x * Rabs x) by (intros x; rewrite <- Rabs_mult, Rabs_right; [reflexivity|apply Rle_ge; apply Rle_0_sqr]).
  apply close_round with (fval d * fval d); try lia.
  - rewrite (Sq (fval d)), (Sq w). apply (within_mul 1 1); assumption.
  - destruct H as [E|H]; [left; unfold w; rewrite E; ring|right]. rewrite Sq. change (-400)%Z with (-200 + -200)%Z. rewrite p2_add. pose proof (p2_pos (-200)). apply Rmult_le_compat; lra.
  - rewrite Sq. change 402%Z with (201 + 201)%Z. rewrite p2_add. apply Rmult_le_compat; try apply Rabs_pos; assumption.
  - apply mul_spec; apply Kd.
Qed.

(** ** Two frames *)
Definition row_exact (r s : list R) : list R := map (fun q => (fst q - snd q) * (fst q - snd q)) (combine r s).

Lemma row_close : forall r s, (forall a b, In (a, b) (combine r s) -> ok a /\ ok b /\ Rabs (fval a) <= p2 200 /\ Rabs (fval b) <= p2 200 /\ (fval a = fval b \/ p2 (-200) <= Rabs (fval a - fval b))) ->
  Forall2 (close_to (-400) 402 3) (row_squares r s) (row_exact (map fval r) (map fval s)).
Proof.
  intros r s H. unfold row_squares, row_exact. rewrite combine_map_same, map_map. induction (combine r s) as [|[a b] c IH]; cbn [map]; constructor.
  - destruct (H a b (or_introl eq_refl)) as [? [? [? [? ?]]]]. apply square_close; assumption.
  - apply IH. intros a' b' Hab. apply H. right. exact Hab.
Qed.

Lemma row_exact_sum : forall r s, rsum (row_exact r s) = dist2 r s.
Proof. intros r s. rewrite <- sqdist_R. unfold sqdist. rewrite nsum_R. reflexivity. Qed.

Lemma forall2_len : forall X Y (P : X -> Y -> Prop) l m, Forall2 P l m -> length l = length m.
Proof. intros X Y P l m F. induction F; cbn [length]; congruence. Qed.

Section Pair.
Variables (x y : list (list f64)) (N d : nat).
Hypotheses (Lx : length x = N) (Ly : length y = N) (N1 : (1 <= N)%nat) (Rx : forall r, In r x -> length r = d)
  (BN : (Z.of_nat N <= 2 ^ 47)%Z) (BD : (Z.of_nat (N * d) <= 2 ^ 47)%Z) (M : medium_pair x y).
Let M2 := mean_over (fun z => z) (values x) (values y).
Let M4 := mean_over (fun z => z * z) (values x) (values y).

Lemma squares_length : (length (squares x y) <= N * d)%nat.
Proof. rewrite <- Lx. apply rows_total. exact Rx. Qed.

Lemma second_close : forall s2, sum_of (squares x y) s2 -> close_to (-453) 449 (N * d + 4) (fdiv s2 (f64_ofZ (Z.of_nat (length x)))) M2.
Proof.
  intros s2 Hs. set (ys := flat_map (fun p => row_exact (fst p) (snd p)) (combine (values x) (values y))).
  assert (E : M2 = rsum ys / INR (length x)).
  { unfold M2, mean_over, rmean. rewrite map_length, combine_length. unfold values at 3 4. rewrite !map_length, Lx, Ly, Nat.min_id. f_equal. unfold ys. clear.
    induction (combine (values x) (values y)) as [|p l IH]; cbn [map flat_map rsum]; [reflexivity|]. rewrite rsum_app, <- IH, row_exact_sum. reflexivity. }
  assert (F : Forall2 (close_to (-400) 402 3) (squares x y) ys).
  { unfold ys, squares. apply Forall2_flat_map. unfold values. rewrite combine_map_same. clear - M. unfold medium_pair in M. unfold frame in *. change (num F64ops) with f64 in *. change f64 with spec_float in *. induction (combine x y) as [|[r s] q IH]; cbn [map]; constructor.
    - cbn [fst snd]. apply row_close. intros a b. apply M. left. reflexivity.
    - apply IH. intros r' s' a b Hr. apply M. right. exact Hr. }
  pose proof squares_length as SL. assert (LZ : (Z.of_nat (length (squares x y)) <= 2 ^ 47)%Z) by (apply Z.le_trans with (2 := BD); apply inj_le; exact SL).
  pose proof (close_sum (-400) 402 3 (squares x y) s2 ys ltac:(lia) Hs LZ F) as C. change (402 + 47)%Z with 449%Z in C. set (n := length (squares x y)) in *. assert (SL' : (n <= N * d)%nat) by exact SL. clear SL. clearbody n.
  rewrite E. pose proof (close_mean (-400) 449 (3 + n) s2 (rsum ys) (length x) ltac:(lia) ltac:(lia) ltac:(lia) ltac:(lia) ltac:(lia) C) as [K [B [W A]]].
  split; [exact K|]. split; [exact B|]. split; [|exact A]. apply within_weaken with (2 := W). lia.
Qed.

Lemma fourth_close : forall rs s4, Forall2 (fun p r => sum_of (row_squares (fst p) (snd p)) r) (combine x y) rs -> sum_of (map (fun r => fmul r r) rs) s4 ->
  close_to (-853) 945 (2 * d + N + 8) (fdiv s4 (f64_ofZ (Z.of_nat (length x)))) M4.
Proof.
  intros rs s4 Hr Hs. set (ys := map (fun p => dist2 (fst p) (snd p) * dist2 (fst p) (snd p)) (combine (values x) (values y))).
  assert (E : M4 = rsum ys / INR (length x)).
  { unfold M4, mean_over, rmean. rewrite map_length, combine_length. unfold values at 3 4. rewrite !map_length, Lx, Ly, Nat.min_id. reflexivity. }
  assert (D0 : (d <= N * d)%nat) by nia. assert (D1 : (Z.of_nat d <= 2 ^ 47)%Z) by lia.
  assert (F : Forall2 (close_to (-800) 898 (2 * d + 7)) (map (fun r => fmul r r) rs) ys).
  { unfold ys, values. rewrite combine_map_same, map_map. cbn [fst snd]. assert (Rx' : forall p, In p (combine x y) -> length (fst p) = d) by (intros [r s] Hp; apply Rx; apply in_combine_l with (1 := Hp)).
    clear - M Hr Rx' D1. unfold medium_pair in M. induction Hr as [|[r s] z l rs Hz Hr IH]; cbn [map]; constructor.
    - cbn [fst snd] in *. pose proof (row_close r s (fun a b => M r s a b (or_introl eq_refl))) as C. assert (L1 : (length (row_squares r s) <= d)%nat) by (unfold row_squares; rewrite map_length, combine_length; pose proof (Rx' (r, s) (or_introl eq_refl)) as Q; cbn [fst] in Q; lia).
      pose proof (close_sum (-400) 402 3 (row_squares r s) z _ ltac:(lia) Hz ltac:(lia) C) as S1. set (n := length (row_squares r s)) in *. assert (Ln : (n <= d)%nat) by exact L1. clearbody n. rewrite row_exact_sum in S1.
      destruct (close_mul (-400) (402 + 47) (-400) (402 + 47) (3 + n) (3 + n) _ _ _ _ ltac:(lia) ltac:(lia) ltac:(lia) S1 S1) as [K [B [W A]]]. split; [exact K|]. split; [exact B|]. split; [|exact A]. apply within_weaken with (2 := W). lia.
    - apply IH; [intros r' s' a b Hrs; apply M; right; exact Hrs|intros p Hp; apply Rx'; right; exact Hp]. }
  assert (L : length (map (fun r => fmul r r) rs) = N) by (pose proof (forall2_len _ _ _ _ _ Hr) as Q; rewrite combine_length in Q; rewrite map_length; change (length rs = N); transitivity (Nat.min (length x) (length y)); [symmetry; exact Q|rewrite Lx, Ly; apply Nat.min_id]).
  pose proof (close_sum (-800) 898 (2 * d + 7) (map (fun r => fmul r r) rs) s4 ys ltac:(lia) Hs (eq_ind_r (fun n => (Z.of_nat n <= 2 ^ 47)%Z) BN L) F) as C'. pose proof (eq_ind _ (fun n => close_to (-800) 945 (2 * d + 7 + n) s4 (rsum ys)) C' _ L) as C.
  rewrite E. pose proof (close_mean (-800) 945 (2 * d + 7 + N) s4 (rsum ys) (length x) ltac:(lia) ltac:(lia) ltac:(lia) ltac:(lia) ltac:(lia) C) as [K [B [W A]]].
  split; [exact K|]. split; [exact B|]. split; [|exact A]. apply within_weaken with (2 := W). lia.
Qed.

Lemma square_sum_le : forall l, (forall z, In z l -> 0 <= z) -> 0 <= rsum l /\ rsum (map (fun z => z * z) l) <= rsum l * rsum l.
Proof.
  induction l as [|z l IH]; intros H; cbn [map rsum]; [lra|]. destruct (IH (fun w Hw => H w (or_intror Hw))) as [P Q]. pose proof (H z (or_introl eq_refl)). split; [lra|]. nra.
Qed.

(** The ratio is between 3/5 and 3 N / 5. *)
Lemma kurtosis_range : 0 < M2 -> 3 / 5 <= kurtosis (values x) (values y) <= INR N.
Proof.
  intros P. unfold kurtosis. fold M2 M4. pose proof (mean_square_ge (values x) (values y)) as J. fold M2 M4 in J. assert (Q : 0 < M2 * M2) by (apply Rmult_lt_0_compat; exact P).
  assert (PN : 1 <= INR N) by (apply (le_INR 1); exact N1).
  split.
  - apply Rmult_le_reg_r with (5 * (M2 * M2)); [lra|]. unfold Rdiv at 2. rewrite Rmult_assoc, Rinv_l by lra. lra.
  - assert (U : M4 <= INR N * (M2 * M2)).
    { unfold M4, M2, mean_over, rmean. rewrite !map_length, combine_length. unfold values at 3 4 7 8 11 12. rewrite !map_length, Lx, Ly, Nat.min_id.
      set (l := map (fun p => dist2 (fst p) (snd p)) (combine (values x) (values y))).
      replace (map (fun p => dist2 (fst p) (snd p) * dist2 (fst p) (snd p)) (combine (values x) (values y))) with (map (fun z => z * z) l) by (unfold l; rewrite map_map; reflexivity).
      destruct (square_sum_le l) as [_ S2].
      { intros z Hz. unfold l in Hz. apply in_map_iff in Hz. destruct Hz as [p [<- _]]. apply dist2_nonneg. }
      replace (INR N * (rsum l / INR N * (rsum l / INR N))) with (rsum l * rsum l / INR N) by (field; lra). apply Rmult_le_compat_r; [left; apply Rinv_0_lt_compat; lra|exact S2]. }
    apply Rmult_le_reg_r with (5 * (M2 * M2)); [lra|]. unfold Rdiv. rewrite Rmult_assoc, Rinv_l by lra. nra.
Qed.

Lemma alpha_nearby : forall v, alpha_by x y v -> 0 < M2 ->
  ok v /\ Rabs (fval v) <= p2 50 /\ nearby (4 * (N * d) + 2 * d + N + 31) tiny (fval v) (non_gaussian (values x) (values y)) (kurtosis (values x) (values y) + 1).
Proof.
  intros v [s2 [rs [s4 [H2 [Hr [H4 E]]]]]] P. cbv zeta in E. pose proof (second_close s2 H2) as C2. pose proof (fourth_close rs s4 Hr H4) as C4.
  set (dr2 := fdiv s2 _) in *. set (dr4 := fdiv s4 _) in *. assert (Q : 0 < M2 * M2) by (apply Rmult_lt_0_compat; exact P). destruct (kurtosis_range P) as [KL KU].
  assert (D0 : (d <= N * d)%nat) by nia. assert (D1 : (Z.of_nat d <= 2 ^ 47)%Z) by lia.
  assert (C3 : close_to 0 2 0 (f64_ofZ 3) 3) by (apply close_int; [lia|unfold p2; simpl; lra]). assert (C5 : close_to 0 3 0 (f64_ofZ 5) 5) by (apply close_int; [lia|unfold p2; simpl; lra]).
  pose proof (close_mul 0 2 (-853) 945 0 (2 * d + N + 8) _ _ _ _ ltac:(lia) ltac:(lia) ltac:(lia) C3 C4) as Num. pose proof (close_mul (-453) 449 (-453) 449 (N * d + 4) (N * d + 4) _ _ _ _ ltac:(lia) ltac:(lia) ltac:(lia) C2 C2) as Sq.
  pose proof (close_mul 0 3 (-453 + -453) (449 + 449) 0 (N * d + 4 + (N * d + 4) + 1) _ _ _ _ ltac:(lia) ltac:(lia) ltac:(lia) C5 Sq) as Den.
  assert (PN : INR N <= p2 47) by (rewrite p2_Z by lia; rewrite INR_IZR_INZ; apply IZR_le; exact BN).
  pose proof (p2_pos 47) as P47. assert (E48 : p2 48 = 2 * p2 47) by (change 48%Z with (1 + 47)%Z; rewrite p2_add; unfold p2 at 1; simpl powerRZ; lra). assert (E49 : p2 49 = 2 * p2 48) by (change 49%Z with (1 + 48)%Z; rewrite p2_add; unfold p2 at 1; simpl powerRZ; lra). assert (E50 : p2 50 = 2 * p2 49) by (change 50%Z with (1 + 49)%Z; rewrite p2_add; unfold p2 at 1; simpl powerRZ; lra).
  destruct (close_div (0 + -853) (2 + 945) (0 + (-453 + -453)) (3 + (449 + 449)) (-1) 48 (0 + (2 * d + N + 8) + 1) (0 + (N * d + 4 + (N * d + 4) + 1) + 1) _ _ _ _ ltac:(lia) ltac:(lia) ltac:(lia) Num Den) as [K [B [W A]]]; [lra|right; fold (kurtosis (values x) (values y)); unfold kurtosis in KL; fold M2 M4 in KL; unfold p2; simpl powerRZ; lra|unfold kurtosis in KU; fold M2 M4 in KU; lra|].
  set (q := fdiv (fmul (f64_ofZ 3) dr4) (fmul (f64_ofZ 5) (fmul dr2 dr2))) in *. destruct (ofZ_exact 1) as [K1 E1]; [lia|].
  change (3 * M4 / (5 * (M2 * M2))) with (kurtosis (values x) (values y)) in *. set (rho := kurtosis (values x) (values y)) in *.
  assert (R1 : rounded (fval q - 1) v) by (rewrite E, <- E1; apply sub_spec; try apply K; apply K1).
  assert (P1 : 1 <= p2 47) by (apply Rle_trans with (p2 0); [unfold p2; simpl; lra|apply p2_le; lia]).
  destruct (rounded_bounded _ _ (p2 50) R1) as [Kv Bv]; [apply format_p2; lia|apply Rabs_le; lra|apply p2_lt; lia|].
  split; [exact Kv|]. split; [exact Bv|].
  assert (HK : (4 * (N * d) + 2 * d + N + 30 = 0 + (2 * d + N + 8) + 1 + 2 * (0 + (N * d + 4 + (N * d + 4) + 1) + 1) + 1)%nat) by lia. rewrite <- HK in W.
  set (k := (4 * (N * d) + 2 * d + N + 30)%nat) in *. replace (4 * (N * d) + 2 * d + N + 31)%nat with (S k) by (unfold k; lia).
  assert (N0 : nearby k 0 (fval q) rho rho).
  { destruct W as [Pr [W1 W2]]. split; [rewrite Rabs_right; lra|]. split; [lra|]. rewrite Rmult_0_r, Rplus_0_r. apply Rabs_le. pose proof (low_bernoulli k) as LB. pose proof (high_pos k) as HP.
    assert (HB : 1 + INR k * u <= (1 + u) ^ k) by (rewrite Rmult_comm; pose proof (poly k u u_pos) as PL; rewrite Rmult_comm in PL; exact PL). split; nra. }
  assert (N1' : nearby k 0 (-1) (-1) 1).
  { apply nearby_weaken with 0%nat 0; [lia|lra|]. pose proof (nearby_refl (-1)) as G. rewrite Rabs_left in G by lra. replace (- -1) with 1 in G by ring. exact G. }
  pose proof (nearby_add _ _ _ _ _ _ _ _ _ N0 N1') as N2. rewrite Rplus_0_r in N2.
  replace tiny with (0 + tiny) by ring. unfold non_gaussian. fold M2 M4. change (3 * M4 / (5 * (M2 * M2))) with rho.
  apply nearby_round with (fval q + -1); [left; apply tiny_pos|exact N2|]. apply rounded_error; [exact R1|exact Kv].
Qed.
End Pair.
