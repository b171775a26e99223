(** Rounding errors of the stress and of its autocorrelation. *)
From Coq Require Import List ZArith Bool Arith Reals Lia Lra Psatz Sorting.Sorted Sorting.Permutation Floats.SpecFloat.
From Verif Require Import PyBase PyBaseFacts Num Spec_Stats NumFacts P_Text F64Round F64Ops F64Facts P_F64Mean M_Helpers M_Correlation M_Dynamics
  Spec_Correlation P_Correlation Spec_Time P_Time P_Skip Spec_Dynamics P_Dynamics Spec_Velocity Spec_Doubles Spec_Dot P_F64Time P_F64Overlap P_F64Msd P_F64Order P_F64Dot Spec_Stress64.
Import ListNotations.
Local Open Scope R_scope.

Lemma nearby_mul : forall K b x y a K' b' x' y' a', nearby K b x y a -> nearby K' b' x' y' a' ->
  nearby (K + K') (a * b' + b * a' + b * b') (x * x') (y * y') (a * a').
Proof.
  intros K b x y a K' b' x' y' a' [A [B C]] [A' [B' C']]. set (q := (1 + u) ^ K) in *. set (q' := (1 + u) ^ K') in *. pose proof (high_pos K) as Q. pose proof (high_pos K') as Q'. fold q in Q. fold q' in Q'.
  assert (Pa : 0 <= a) by (pose proof (Rabs_pos y); lra). assert (Pa' : 0 <= a') by (pose proof (Rabs_pos y'); lra).
  split; [rewrite Rabs_mult; apply Rmult_le_compat; try apply Rabs_pos; assumption|].
  split; [repeat apply Rplus_le_le_0_compat; apply Rmult_le_pos; assumption|].
  rewrite pow_add. fold q q'. assert (X' : Rabs x' <= q' * a' + q' * b').
  { replace x' with (y' + (x' - y')) by ring. apply Rle_trans with (1 := Rabs_triang _ _). lra. }
  replace (x * x' - y * y') with ((x - y) * x' + y * (x' - y')) by ring. apply Rle_trans with (1 := Rabs_triang _ _). rewrite !Rabs_mult.
  apply Rle_trans with (((q - 1) * a + q * b) * (q' * a' + q' * b') + a * ((q' - 1) * a' + q' * b')).
  - apply Rplus_le_compat; apply Rmult_le_compat; try apply Rabs_pos; assumption.
  - right. ring.
Qed.

Lemma Forall2_cons_inv : forall (X Y : Type) (P : X -> Y -> Prop) l y l', Forall2 P l (y :: l') -> exists x t, l = x :: t /\ P x y /\ Forall2 P t l'.
Proof. intros X Y P l y l' H. inversion H; subst. eauto. Qed.
Arguments Forall2_cons_inv {X Y P}.

Lemma p2_double : forall e, 2 * p2 e = p2 (e + 1).
Proof. intros e. rewrite p2_add. unfold p2 at 3. simpl. ring. Qed.

Definition zero64 : f64 := S754_zero false.

Section Component.
Variables (N : nat) (mass : list f64) (s vel : frame F64ops).
Hypothesis Hd : stress_data N mass s vel.
Hypothesis HN : (Z.of_nat N <= 2 ^ 40)%Z.

Lemma term_nearby : forall j k m (r : list f64), (j < 3)%nat -> (k < 3)%nat -> In (m, r) (combine mass vel) ->
  let t := SFmul fprec femax (SFmul fprec femax m (nth j r zero64)) (nth k r zero64) in
  ok t /\ Rabs (fval t) <= p2 300 /\ nearby 2 (p2 (-974)) (fval t) (fval m * fval (nth j r zero64) * fval (nth k r zero64)) (Rabs (fval m) * Rabs (fval (nth j r zero64)) * Rabs (fval (nth k r zero64))) /\
  Rabs (fval m) * Rabs (fval (nth j r zero64)) * Rabs (fval (nth k r zero64)) <= p2 300.
Proof.
  intros j k m r Hj Hk Hin t. destruct Hd as [_ [_ [_ [_ [L3 [Km [Kv _]]]]]]]. pose proof (in_combine_l _ _ _ _ Hin) as I1. pose proof (in_combine_r _ _ _ _ Hin) as I2.
  destruct (Km m I1) as [K1 B1]. assert (Lr : length r = 3%nat) by (apply L3; exact I2).
  assert (Ij : In (nth j r zero64) r) by (apply nth_In; rewrite Lr; exact Hj). assert (Ik : In (nth k r zero64) r) by (apply nth_In; rewrite Lr; exact Hk).
  destruct (Kv r (nth j r zero64) I2 Ij) as [K2 B2]. destruct (Kv r (nth k r zero64) I2 Ik) as [K3 B3].
  set (a := nth j r zero64) in *. set (b := nth k r zero64) in *. set (w := SFmul fprec femax m a) in *.
  assert (R1 : rounded (fval m * fval a) w) by (apply mul_spec; try apply K1; apply K2).
  assert (Bw : Rabs (fval m * fval a) <= p2 200) by (rewrite Rabs_mult; change 200%Z with (100 + 100)%Z; rewrite p2_add; apply Rmult_le_compat; try apply Rabs_pos; assumption).
  destruct (rounded_bounded _ _ (p2 200) R1) as [Kw Bw']; [apply format_p2; lia|exact Bw|apply p2_lt; lia|].
  assert (W : nearby 1 tiny (fval w) (fval m * fval a) (Rabs (fval m) * Rabs (fval a))).
  { apply nearby_weaken with 1%nat (0 + tiny); [lia|lra|]. apply nearby_round with (fval m * fval a); [left; apply tiny_pos| |apply rounded_error; assumption]. rewrite <- Rabs_mult. apply nearby_refl. }
  assert (R2 : rounded (fval w * fval b) t) by (apply mul_spec; try apply Kw; apply K3).
  assert (Bt : Rabs (fval w * fval b) <= p2 300) by (rewrite Rabs_mult; change 300%Z with (200 + 100)%Z; rewrite p2_add; apply Rmult_le_compat; try apply Rabs_pos; assumption).
  destruct (rounded_bounded _ _ (p2 300) R2) as [Kt Bt']; [apply format_p2; lia|exact Bt|apply p2_lt; lia|].
  split; [exact Kt|]. split; [exact Bt'|]. split.
  - pose proof (nearby_mul _ _ _ _ _ _ _ _ _ _ W (nearby_refl (fval b))) as M. pose proof tiny_pos as TP.
    assert (G : nearby (S (1 + 0)) (Rabs (fval m) * Rabs (fval a) * 0 + tiny * Rabs (fval b) + tiny * 0 + tiny) (fval t) (fval m * fval a * fval b) (Rabs (fval m) * Rabs (fval a) * Rabs (fval b))).
    { apply nearby_round with (fval w * fval b); [lra|exact M|apply rounded_error; assumption]. }
    apply nearby_weaken with (3 := G); [lia|]. assert (Q : tiny * Rabs (fval b) <= tiny * p2 100) by (apply Rmult_le_compat_l; lra).
    assert (Q1 : 1 <= p2 100) by (apply Rle_trans with (p2 0); [unfold p2; simpl; lra|apply p2_le; lia]). assert (Q2 : tiny * 1 <= tiny * p2 100) by (apply Rmult_le_compat_l; lra).
    assert (Q3 : tiny * p2 100 = p2 (-975)) by (unfold tiny; rewrite <- p2_add; reflexivity). pose proof (p2_double (-975)) as Q4. change (-975 + 1)%Z with (-974)%Z in Q4. lra.
  - change 300%Z with (100 + 100 + 100)%Z. rewrite !p2_add. apply Rmult_le_compat; try assumption; try (apply Rmult_le_pos; apply Rabs_pos); try apply Rabs_pos. apply Rmult_le_compat; try apply Rabs_pos; assumption.
Qed.

(** One component. *)
Definition exact_component (j k : nat) : R := nth k (nth j (values s) []) 0 + rsum (map (fun mv => fst mv * nth j (snd mv) 0 * nth k (snd mv) 0) (combine (map fval mass) (values vel))).
Definition component_size (j k : nat) : R :=
  nth k (nth j (map (map Rabs) (values s)) []) 0 + rsum (map (fun mv => fst mv * nth j (snd mv) 0 * nth k (snd mv) 0) (combine (map Rabs (map fval mass)) (map (map Rabs) (values vel)))).

Lemma component_nearby : forall j k c, (j < 3)%nat -> (k < 3)%nat -> component_by mass s vel (j, k) c ->
  ok c /\ Rabs (fval c) <= p2 341 /\ nearby (N + 3) (p2 (-934)) (fval c) (exact_component j k) (component_size j k) /\ component_size j k <= p2 341.
Proof.
  intros j k c Hj Hk [t [Ht ->]]. cbn [fst snd] in *. pose proof Hd as [Lm [Lv [Ls [Ls3 [Lv3 [Km [Kv Ks]]]]]]].
  set (l := kinetic_terms mass vel j k) in *. set (qs := map (fun mv : f64 * list f64 => (fval (fst mv) * fval (nth j (snd mv) zero64) * fval (nth k (snd mv) zero64), Rabs (fval (fst mv)) * Rabs (fval (nth j (snd mv) zero64)) * Rabs (fval (nth k (snd mv) zero64)))) (combine mass vel)).
  assert (Ll : length l = N) by (unfold l, kinetic_terms; rewrite map_length, combine_length; rewrite Lm; refine (eq_trans (f_equal (Nat.min N) Lv) (Nat.min_id _))).
  assert (F : Forall2 (fun v q => ok v /\ Rabs (fval v) <= p2 300 /\ nearby 2 (p2 (-974)) (fval v) (fst q) (snd q)) l qs).
  { unfold l, kinetic_terms, qs. assert (G : forall m r, In (m, r) (combine mass vel) -> In (m, r) (combine mass vel)) by auto. revert G. generalize (combine mass vel) at 1 3 4. intros c G. induction c as [|[m r] c IH]; cbn [map]; constructor.
    - destruct (term_nearby j k m r Hj Hk (G m r (or_introl eq_refl))) as [A1 [A2 [A3 _]]]. cbn [fst snd]. split; [exact A1|]. split; [exact A2|exact A3].
    - apply IH. intros m' r' H'. apply G. right. exact H'. }
  destruct (sum_of_nearby 300 2 (p2 (-974)) l t ltac:(lia) ltac:(left; apply p2_pos) Ht qs ltac:(lia) F) as [Kt [Bt [_ [W _]]]]. rewrite Ll in Bt, W.
  set (x := nth k (nth j s []) (S754_zero false)) in *.
  assert (Ir : In (nth j s []) s) by (apply nth_In; change (length s) with (length s); rewrite Ls; lia).
  destruct (Ks (nth j s []) x Ir) as [Kx Bx]; [apply nth_In; pose proof (Ls3 _ Ir) as Q; change (num F64ops) with f64 in *; lia|].
  assert (Ex : nth k (nth j (values s) []) 0 = fval x).
  { unfold values, x. change (@nil R) with (map fval []). rewrite map_nth. change 0 with (fval (S754_zero false)). apply map_nth. }
  assert (Ax : nth k (nth j (map (map Rabs) (values s)) []) 0 = Rabs (fval x)).
  { rewrite <- Ex. change (@nil R) with (map Rabs []) at 1. rewrite map_nth. rewrite <- Rabs_R0 at 1. apply map_nth. }
  assert (Em : forall (m : list f64) (v : list (list f64)), rsum (map fst (map (fun mv : f64 * list f64 => (fval (fst mv) * fval (nth j (snd mv) zero64) * fval (nth k (snd mv) zero64), Rabs (fval (fst mv)) * Rabs (fval (nth j (snd mv) zero64)) * Rabs (fval (nth k (snd mv) zero64)))) (combine m v)))
      = rsum (map (fun mv => fst mv * nth j (snd mv) 0 * nth k (snd mv) 0) (combine (map fval m) (map (map fval) v))) /\
    rsum (map snd (map (fun mv : f64 * list f64 => (fval (fst mv) * fval (nth j (snd mv) zero64) * fval (nth k (snd mv) zero64), Rabs (fval (fst mv)) * Rabs (fval (nth j (snd mv) zero64)) * Rabs (fval (nth k (snd mv) zero64)))) (combine m v)))
      = rsum (map (fun mv => fst mv * nth j (snd mv) 0 * nth k (snd mv) 0) (combine (map Rabs (map fval m)) (map (map Rabs) (map (map fval) v))))).
  { assert (Nv : forall i (r : list f64), nth i (map fval r) 0 = fval (nth i r zero64)) by (intros i r; change 0 with (fval zero64); apply map_nth).
    assert (Na : forall i (r : list f64), nth i (map Rabs (map fval r)) 0 = Rabs (fval (nth i r zero64))) by (intros i r; rewrite <- Nv; rewrite <- Rabs_R0 at 1; apply map_nth).
    induction m as [|m0 m IH]; intros [|r v]; cbn [combine map rsum fst snd]; try (split; reflexivity). destruct (IH v) as [I1 I2]. rewrite I1, I2, !Nv, !Na. split; reflexivity. }
  destruct (Em mass vel) as [Em1 Em2]. fold qs in Em1, Em2.
  assert (Eq1 : fval x + rsum (map fst qs) = exact_component j k) by (unfold exact_component; rewrite Ex; f_equal; exact Em1).
  assert (Eq2 : Rabs (fval x) + rsum (map snd qs) = component_size j k) by (unfold component_size; rewrite Ax; f_equal; exact Em2).
  assert (N40 : 0 <= INR N <= p2 40) by (split; [apply pos_INR|rewrite p2_Z by lia; rewrite INR_IZR_INZ; apply IZR_le; exact HN]).
  assert (B341 : p2 300 + p2 40 * p2 300 <= p2 341).
  { rewrite <- p2_add. change (40 + 300)%Z with 340%Z. assert (p2 300 <= p2 340) by (apply p2_le; lia). pose proof (p2_double 340) as Q. change (340 + 1)%Z with 341%Z in Q. lra. }
  assert (Sz : component_size j k <= p2 341).
  { rewrite <- Eq2. apply Rle_trans with (2 := B341). apply Rplus_le_compat; [exact Bx|]. apply Rle_trans with (INR N * p2 300); [|apply Rmult_le_compat_r; [left; apply p2_pos|lra]].
    rewrite <- Ll. assert (G : forall q, In q qs -> snd q <= p2 300).
    { intros q Hq. unfold qs in Hq. apply in_map_iff in Hq. destruct Hq as [[m r] [<- Hin]]. cbn [fst snd]. apply (term_nearby j k m r Hj Hk Hin). }
    assert (Lq : length l = length qs) by (clear - F; induction F; cbn [length]; [reflexivity|f_equal; assumption]). rewrite Lq. clear - G. induction qs as [|q qs IH]; [cbn; lra|]. cbn [map rsum]. pose proof (G q (or_introl eq_refl)). specialize (IH (fun q' H' => G q' (or_intror H'))). cbn [length]. rewrite S_INR. lra. }
  assert (R1 : rounded (fval x + fval t) (SFadd fprec femax x t)) by (apply add_spec; try apply Kx; apply Kt).
  assert (Bs : Rabs (fval x + fval t) <= p2 341).
  { apply Rle_trans with (1 := Rabs_triang _ _). apply Rle_trans with (2 := B341). apply Rplus_le_compat; [exact Bx|]. apply Rle_trans with (1 := Bt). rewrite <- INR_IZR_INZ. apply Rmult_le_compat_r; [left; apply p2_pos|lra]. }
  destruct (rounded_bounded _ _ (p2 341) R1) as [Kc Bc]; [apply format_p2; lia|exact Bs|apply p2_lt; lia|].
  split; [exact Kc|]. split; [exact Bc|]. split; [|exact Sz].
  assert (W2 : nearby (2 + N) (0 + INR N * p2 (-974)) (fval x + fval t) (fval x + rsum (map fst qs)) (Rabs (fval x) + rsum (map snd qs))).
  { apply nearby_add; [apply nearby_weaken with 0%nat 0; [lia|lra|apply nearby_refl]|exact W]. }
  rewrite Eq1, Eq2 in W2. apply nearby_weaken with (S (2 + N)) (0 + INR N * p2 (-974) + 0); [lia| |].
  - rewrite Rplus_0_l, Rplus_0_r. change (-934)%Z with (40 + -974)%Z. rewrite p2_add. apply Rmult_le_compat_r; [left; apply p2_pos|lra].
  - apply nearby_round with (fval x + fval t); [lra|exact W2|]. rewrite Rplus_0_r. apply add_relative; assumption.
Qed.
End Component.

(** The function of two frames: three products over the number of components. *)
Lemma stress_pair_nearby : forall N (x y : list f64) (gx ax gy ay : list R) s, (Z.of_nat N <= 2 ^ 40)%Z ->
  Forall2 (fun v q => ok v /\ Rabs (fval v) <= p2 341 /\ nearby (N + 3) (p2 (-934)) (fval v) (fst q) (snd q) /\ snd q <= p2 341) x (combine gx ax) ->
  Forall2 (fun v q => ok v /\ Rabs (fval v) <= p2 341 /\ nearby (N + 3) (p2 (-934)) (fval v) (fst q) (snd q) /\ snd q <= p2 341) y (combine gy ay) ->
  length gx = 3%nat -> length ax = 3%nat -> length gy = 3%nat -> length ay = 3%nat ->
  sum_of (map2 fmul x y) s -> let m := fdiv s (f64_ofZ 3) in
  ok m /\ Rabs (fval m) <= p2 731 /\ nearby (2 * N + 11) (p2 (-589)) (fval m) (dotv gx gy / 3) (dotv ax ay / 3).
Proof.
  intros N x y gx ax gy ay s HN Fx Fy L1 L2 L3 L4 Hs m.
  destruct gx as [|g1 [|g2 [|g3 [|]]]]; try discriminate L1. destruct ax as [|a1 [|a2 [|a3 [|]]]]; try discriminate L2.
  destruct gy as [|h1 [|h2 [|h3 [|]]]]; try discriminate L3. destruct ay as [|b1 [|b2 [|b3 [|]]]]; try discriminate L4. cbn [combine] in Fx, Fy.
  assert (P : forall v w g a h b, ok v /\ Rabs (fval v) <= p2 341 /\ nearby (N + 3) (p2 (-934)) (fval v) g a /\ a <= p2 341 ->
     ok w /\ Rabs (fval w) <= p2 341 /\ nearby (N + 3) (p2 (-934)) (fval w) h b /\ b <= p2 341 ->
     ok (fmul v w) /\ Rabs (fval (fmul v w)) <= p2 682 /\ nearby (2 * N + 7) (p2 (-591)) (fval (fmul v w)) (g * h) (a * b)).
  { intros v w g a h b [K1 [B1 [W1 A1]]] [K2 [B2 [W2 A2]]]. assert (R1 : rounded (fval v * fval w) (fmul v w)) by (apply mul_spec; try apply K1; apply K2).
    assert (Bw : Rabs (fval v * fval w) <= p2 682) by (rewrite Rabs_mult; change 682%Z with (341 + 341)%Z; rewrite p2_add; apply Rmult_le_compat; try apply Rabs_pos; assumption).
    destruct (rounded_bounded _ _ (p2 682) R1) as [Kw Bw']; [apply format_p2; lia|exact Bw|apply p2_lt; lia|]. split; [exact Kw|]. split; [exact Bw'|].
    pose proof (nearby_round _ _ tiny _ _ _ _ (Rlt_le _ _ tiny_pos) (nearby_mul _ _ _ _ _ _ _ _ _ _ W1 W2) (rounded_error _ _ R1 Kw)) as M.
    apply nearby_weaken with (3 := M); [lia|]. pose proof (p2_pos (-934)) as T.
    assert (Q1 : a * p2 (-934) <= p2 341 * p2 (-934)) by (apply Rmult_le_compat_r; lra). assert (Q2 : p2 (-934) * b <= p2 (-934) * p2 341) by (apply Rmult_le_compat_l; lra).
    rewrite <- p2_add in Q1, Q2. change (341 + -934)%Z with (-593)%Z in Q1. change (-934 + 341)%Z with (-593)%Z in Q2. rewrite <- p2_add. change (-934 + -934)%Z with (-1868)%Z.
    assert (Q3 : p2 (-1868) <= p2 (-593)) by (apply p2_le; lia). assert (Q4 : tiny <= p2 (-593)) by (apply p2_le; lia).
    pose proof (p2_double (-593)) as Q5. pose proof (p2_double (-592)) as Q6. change (-593 + 1)%Z with (-592)%Z in Q5. change (-592 + 1)%Z with (-591)%Z in Q6. lra. }
  destruct (Forall2_cons_inv _ _ _ Fx) as [v1 [x1 [-> [Hv1 Fx1]]]].
  destruct (Forall2_cons_inv _ _ _ Fx1) as [v2 [x2 [-> [Hv2 Fx2]]]]. destruct (Forall2_cons_inv _ _ _ Fx2) as [v3 [x3 [-> [Hv3 Fx3]]]]. inversion Fx3; subst x3.
  destruct (Forall2_cons_inv _ _ _ Fy) as [w1 [y1 [-> [Hw1 Fy1]]]].
  destruct (Forall2_cons_inv _ _ _ Fy1) as [w2 [y2 [-> [Hw2 Fy2]]]]. destruct (Forall2_cons_inv _ _ _ Fy2) as [w3 [y3 [-> [Hw3 Fy3]]]]. inversion Fy3; subst y3.
  cbn [fst snd] in *. cbn [map2] in Hs.
  destruct (quotient_nearby 682 (2 * N + 7) (p2 (-591)) _ s [(g1 * h1, a1 * b1); (g2 * h2, a2 * b2); (g3 * h3, a3 * b3)] 3 ltac:(lia) ltac:(left; apply p2_pos) Hs) as [K [B W]].
  - cbv. discriminate.
  - lia.
  - lia.
  - repeat (apply Forall2_cons; [apply P; assumption|]). apply Forall2_nil.
  - change (f64_ofZ (Z.of_nat 3)) with (f64_ofZ 3) in *. fold m in K, B, W. split; [exact K|]. split; [exact B|]. match type of W with nearby (_ + ?n + 1) _ _ _ _ => change n with 3%nat in W end. cbn [map fst snd rsum] in W. replace (INR 3) with 3 in W by (cbn [INR]; lra).
    replace (dotv [g1; g2; g3] [h1; h2; h3]) with (g1 * h1 + (g2 * h2 + (g3 * h3 + 0))) by reflexivity. replace (dotv [a1; a2; a3] [b1; b2; b3]) with (a1 * b1 + (a2 * b2 + (a3 * b3 + 0))) by reflexivity.
    apply nearby_weaken with (3 := W); [lia|]. assert (Q4 : tiny <= p2 (-591)) by (apply p2_le; lia). pose proof (p2_double (-591)) as Q5. pose proof (p2_double (-590)) as Q6. change (-591 + 1)%Z with (-590)%Z in Q5. change (-590 + 1)%Z with (-589)%Z in Q6. pose proof (p2_pos (-591)). lra.
Qed.
