(** Rounding errors of sums of products of doubles, added up in any order (C114). *)
From Coq Require Import List ZArith Bool Arith Reals Lia Lra Psatz Sorting.Sorted Sorting.Permutation Floats.SpecFloat.
From Verif Require Import PyBase PyBaseFacts Num Spec_Stats NumFacts P_Text F64Round F64Ops F64Facts P_F64Mean M_Helpers M_Correlation M_Dynamics
  Spec_Correlation P_Correlation Spec_Time P_Time P_Skip Spec_Dynamics P_Dynamics P_Chi4 Spec_Doubles Spec_Dot P_F64Time P_F64Overlap P_F64Msd P_F64Order.
Import ListNotations.
Local Open Scope R_scope.

(** x is y up to K roundings of numbers of size a and an absolute error b. *)
Definition nearby (K : nat) (b x y a : R) : Prop := Rabs y <= a /\ 0 <= b /\ Rabs (x - y) <= ((1 + u) ^ K - 1) * a + (1 + u) ^ K * b.

Lemma nearby_weaken : forall K K' b b' x y a, (K <= K')%nat -> b <= b' -> nearby K b x y a -> nearby K' b' x y a.
Proof.
  intros K K' b b' x y a HK Hb [A [B C]]. split; [exact A|]. split; [lra|]. apply Rle_trans with (1 := C).
  pose proof (high_mono _ _ HK). pose proof (high_pos K). pose proof (Rabs_pos y).
  apply Rplus_le_compat; [apply Rmult_le_compat_r; lra|]. apply Rmult_le_compat; lra.
Qed.

Lemma nearby_refl : forall y, nearby 0 0 y y (Rabs y).
Proof. intros y. split; [lra|]. split; [lra|]. rewrite Rminus_diag_eq, Rabs_R0 by reflexivity. cbn [pow]. lra. Qed.

Lemma nearby_add : forall K b b' x y a x' y' a', nearby K b x y a -> nearby K b' x' y' a' -> nearby K (b + b') (x + x') (y + y') (a + a').
Proof.
  intros K b b' x y a x' y' a' [A [B C]] [A' [B' C']]. split; [apply Rle_trans with (1 := Rabs_triang _ _); lra|]. split; [lra|].
  replace (x + x' - (y + y')) with ((x - y) + (x' - y')) by ring. apply Rle_trans with (1 := Rabs_triang _ _). rewrite !Rmult_plus_distr_l. lra.
Qed.

Lemma nearby_scale : forall K b x y a c, 0 <= c -> nearby K b x y a -> nearby K (b * c) (x * c) (y * c) (a * c).
Proof.
  intros K b x y a c Hc [A [B C]]. split; [rewrite Rabs_mult, (Rabs_right c) by lra; apply Rmult_le_compat_r; lra|]. split; [apply Rmult_le_pos; lra|].
  rewrite <- Rmult_minus_distr_r, Rabs_mult, (Rabs_right c) by lra. rewrite <- !Rmult_assoc, <- Rmult_plus_distr_r. apply Rmult_le_compat_r; lra.
Qed.

Lemma nearby_round : forall K b h x y a z, 0 <= h -> nearby K b x y a -> Rabs (z - x) <= u * Rabs x + h -> nearby (S K) (b + h) z y a.
Proof.
  intros K b h x y a z Hh [A [B C]] E. split; [exact A|]. split; [lra|]. cbn [pow]. set (q := (1 + u) ^ K) in *.
  pose proof (high_pos K) as Q. fold q in Q. pose proof u_small as U.
  assert (X : Rabs x <= q * a + q * b).
  { replace x with (y + (x - y)) by ring. apply Rle_trans with (1 := Rabs_triang _ _). lra. }
  replace (z - y) with ((z - x) + (x - y)) by ring. apply Rle_trans with (1 := Rabs_triang _ _).
  assert (X' : u * Rabs x <= u * (q * a + q * b)) by (apply Rmult_le_compat_l; lra). assert (h <= (1 + u) * q * h). { rewrite <- (Rmult_1_l h) at 1. apply Rmult_le_compat_r; [lra|]. nra. }
  lra.
Qed.

Lemma nearby_error : forall K b x y a, nearby K b x y a -> INR K * u <= / 2 -> Rabs (x - y) <= 2 * INR K * u * a + 2 * b.
Proof.
  intros K b x y a [A [B C]] H. pose proof (high_bernoulli K H) as E. pose proof (Rabs_pos y). apply Rle_trans with (1 := C).
  apply Rplus_le_compat; [apply Rmult_le_compat_r; lra|apply Rmult_le_compat_r; lra].
Qed.

Definition tiny : R := p2 (-1075).
Lemma tiny_pos : 0 < tiny.
Proof. apply p2_pos. Qed.

Lemma rounded_error : forall v r, rounded v r -> ok r -> Rabs (fval r - v) <= u * Rabs v + tiny.
Proof.
  intros v r H K. apply Rle_trans with (half_ulp v); [apply rounded_value; [exact H|apply K]|]. unfold half_ulp, u, tiny.
  pose proof (p2_pos (-1075)). pose proof (p2_pos (-53)). pose proof (Rabs_pos v). apply Rmax_lub; [lra|]. assert (0 <= p2 (-53) * Rabs v) by (apply Rmult_le_pos; lra). lra.
Qed.

Lemma sum_of_nearby : forall e2 K b l s, (-1074 <= e2 <= 900)%Z -> 0 <= b -> sum_of l s -> forall qs, (Z.of_nat (length l) <= 2 ^ 49)%Z ->
  Forall2 (fun v q => ok v /\ Rabs (fval v) <= p2 e2 /\ nearby K b (fval v) (fst q) (snd q)) l qs ->
  ok s /\ Rabs (fval s) <= IZR (Z.of_nat (length l)) * p2 e2 /\ (l = [] -> fval s = 0) /\
  nearby (K + length l) (INR (length l) * b) (fval s) (rsum (map fst qs)) (rsum (map snd qs)) /\
  (Forall (fun v => 0 <= fval v) l -> 0 <= fval s).
Proof.
  intros e2 K b l s He Hb H. induction H as [|x|l1 l2 s1 s2 H1 IH1 H2 IH2|l l' s P H IH]; intros qs Hn F.
  - inversion F; subst. split; [apply ok_zero|]. change (IZR (Z.of_nat (@length f64 []))) with 0. cbn [fval rsum map length INR]. rewrite Rabs_R0. split; [lra|]. split; [reflexivity|].
    split; [|intros _; lra]. rewrite Rmult_0_l. apply nearby_weaken with 0%nat 0; [lia|lra|]. pose proof (nearby_refl 0) as Q. rewrite Rabs_R0 in Q. exact Q.
  - inversion F as [|? q ? qs' [K1 [B1 W1]] F']; subst. inversion F'; subst. split; [exact K1|]. change (IZR (Z.of_nat (length [x]))) with 1. cbn [rsum map length INR]. split; [lra|]. split; [discriminate|].
    split; [|intros Q; inversion Q; assumption]. rewrite !Rplus_0_r. apply nearby_weaken with K b; [lia|lra|exact W1].
  - apply Forall2_app_inv_l in F. destruct F as [y1 [y2 [F1 [F2 ->]]]]. rewrite app_length in *.
    destruct (IH1 y1) as [K1 [B1 [Z1 [W1 S1]]]]; [lia|exact F1|]. destruct (IH2 y2) as [K2 [B2 [Z2 [W2 S2]]]]; [lia|exact F2|].
    assert (R1 : rounded (fval s1 + fval s2) (fadd s1 s2)) by (apply add_spec; try apply K1; apply K2).
    set (B := IZR (Z.of_nat (length l1 + length l2)) * p2 e2). assert (Pe := p2_pos e2).
    assert (Bs : Rabs (fval s1 + fval s2) <= B) by (apply Rle_trans with (1 := Rabs_triang _ _); unfold B; rewrite Nat2Z.inj_add, plus_IZR; lra).
    assert (FB : format B) by (apply format_scaled; lia).
    assert (LB : B < p2 1024).
    { apply Rle_lt_trans with (p2 53 * p2 e2); [|rewrite <- p2_add; apply p2_lt; lia]. apply Rmult_le_compat_r; [lra|]. rewrite p2_Z by lia. apply IZR_le. lia. }
    destruct (rounded_bounded _ _ B R1 FB Bs LB) as [Kq Bq].
    split; [exact Kq|]. split; [exact Bq|].
    assert (Ex : forall v, fval s1 + fval s2 = v -> format v -> Rabs v < p2 1024 -> fval (fadd s1 s2) = v) by (intros v Ev Fv Bv; rewrite Ev in R1; apply (rounded_exact _ _ R1); assumption).
    assert (Sg : Forall (fun v => 0 <= fval v) (l1 ++ l2) -> 0 <= fval (fadd s1 s2)).
    { intros Q. apply Forall_app in Q. destruct Q as [Q1 Q2]. specialize (S1 Q1). specialize (S2 Q2). apply (rounded_ge _ _ 0 R1 Kq format_0). lra. }
    rewrite !map_app, !rsum_app. cut ((l1 ++ l2 = [] -> fval (fadd s1 s2) = 0) /\
      nearby (K + (length l1 + length l2)) (INR (length l1 + length l2) * b) (fval (fadd s1 s2)) (rsum (map fst y1) + rsum (map fst y2)) (rsum (map snd y1) + rsum (map snd y2))); [intros [Q1 Q2]; split; [exact Q1|split; [exact Q2|exact Sg]]|].
    clear Sg. destruct l1 as [|a l1].
    + assert (E : fval (fadd s1 s2) = fval s2) by (apply Ex; [rewrite (Z1 eq_refl); ring|apply ok_format; exact K2|apply ok_bound; exact K2]).
      inversion F1; subst. cbn [rsum map length Nat.add app]. rewrite E, !Rplus_0_l. split; [exact Z2|exact W2].
    + split; [discriminate|]. destruct l2 as [|c l2].
      * assert (E : fval (fadd s1 s2) = fval s1) by (apply Ex; [rewrite (Z2 eq_refl); ring|apply ok_format; exact K1|apply ok_bound; exact K1]).
        inversion F2; subst. cbn [rsum map]. rewrite E, !Rplus_0_r, Nat.add_0_r. exact W1.
      * apply nearby_weaken with (S (K + (length (a :: l1) + length (c :: l2) - 1))) ((INR (length (a :: l1)) * b + INR (length (c :: l2)) * b) + 0); [cbn [length]; lia|rewrite plus_INR; lra|].
        apply nearby_round with (fval s1 + fval s2); [lra| |].
        -- apply nearby_add; [apply nearby_weaken with (3 := W1)|apply nearby_weaken with (3 := W2)]; cbn [length]; try lia; apply Rle_refl.
        -- rewrite Rplus_0_r. apply add_relative; assumption.
  - destruct (Forall2_perm _ _ _ _ _ P qs F) as [q [Q1 Q2]]. rewrite <- (Permutation_length P) in *. destruct (IH q Hn Q1) as [K1 [B1 [Z1 [W1 S1]]]].
    split; [exact K1|]. split; [exact B1|]. split; [intros E; apply Z1; rewrite E in P; apply Permutation_sym, Permutation_nil in P; exact P|].
    split; [|intros Q; apply S1; apply Forall_forall; intros v Hv; rewrite Forall_forall in Q; apply Q; apply (Permutation_in _ P Hv)].
    rewrite <- (rsum_perm _ _ (Permutation_map fst Q2)), <- (rsum_perm _ _ (Permutation_map snd Q2)). exact W1.
Qed.

(** A sum divided by a number of particles or of pairs. *)
Lemma quotient_nearby : forall e2 K b l s qs (N : nat), (-1074 <= e2 <= 900)%Z -> 0 <= b -> sum_of l s -> (Z.of_nat (length l) <= 2 ^ 49)%Z -> (1 <= N)%nat -> (Z.of_nat N <= 2 ^ 53)%Z ->
  Forall2 (fun v q => ok v /\ Rabs (fval v) <= p2 e2 /\ nearby K b (fval v) (fst q) (snd q)) l qs ->
  let m := fdiv s (f64_ofZ (Z.of_nat N)) in
  ok m /\ Rabs (fval m) <= p2 (49 + e2) /\
  nearby (K + length l + 1) (INR (length l) * b / INR N + tiny) (fval m) (rsum (map fst qs) / INR N) (rsum (map snd qs) / INR N).
Proof.
  intros e2 K b l s qs N He Hb Hs Hl N1 N2 F m. destruct (sum_of_nearby e2 K b l s He Hb Hs qs Hl F) as [Ks [Bs [_ [W _]]]].
  destruct (ofZ_exact (Z.of_nat N)) as [KN EN]; [lia|]. rewrite <- INR_IZR_INZ in EN. assert (P : 1 <= INR N) by (apply (le_INR 1); exact N1).
  assert (R1 : rounded (fval s / INR N) m) by (unfold m; rewrite <- EN; apply div_spec; try apply Ks; try apply KN; rewrite EN; lra).
  assert (IN : 0 < / INR N <= 1) by (split; [apply Rinv_0_lt_compat; lra|rewrite <- Rinv_1; apply Rinv_le_contravar; lra]).
  assert (Qb : Rabs (fval s / INR N) <= p2 (49 + e2)).
  { unfold Rdiv. rewrite Rabs_mult, (Rabs_right (/ INR N)) by lra. pose proof (Rabs_pos (fval s)). apply Rle_trans with (Rabs (fval s) * 1); [apply Rmult_le_compat_l; lra|]. rewrite Rmult_1_r.
    apply Rle_trans with (1 := Bs). rewrite p2_add. apply Rmult_le_compat_r; [left; apply p2_pos|]. rewrite (p2_Z 49) by lia. apply IZR_le. exact Hl. }
  destruct (rounded_bounded _ _ (p2 (49 + e2)) R1) as [Kq Bq]; [apply format_p2; lia|exact Qb|apply p2_lt; lia|].
  split; [exact Kq|]. split; [exact Bq|]. replace (K + length l + 1)%nat with (S (K + length l)) by lia.
  apply nearby_round with (fval s / INR N); [left; apply tiny_pos| |apply rounded_error; assumption].
  unfold Rdiv. apply nearby_scale; [lra|exact W].
Qed.

Lemma product_nearby : forall a b, ok a -> ok b -> Rabs (fval a) <= p2 400 -> Rabs (fval b) <= p2 400 ->
  let t := fmul a b in ok t /\ Rabs (fval t) <= p2 800 /\ nearby 1 tiny (fval t) (fval a * fval b) (Rabs (fval a) * Rabs (fval b)).
Proof.
  intros a b Ka Kb Ba Bb t. assert (R1 : rounded (fval a * fval b) t) by (apply mul_spec; try apply Ka; apply Kb).
  destruct (rounded_bounded _ _ (p2 800) R1) as [Kq Bq].
  - apply format_p2. lia.
  - rewrite Rabs_mult. change 800%Z with (400 + 400)%Z. rewrite p2_add. pose proof (Rabs_pos (fval a)). pose proof (Rabs_pos (fval b)). apply Rmult_le_compat; lra.
  - apply p2_lt. lia.
  - split; [exact Kq|]. split; [exact Bq|]. apply nearby_weaken with 1%nat (0 + tiny); [lia|lra|]. apply nearby_round with (fval a * fval b); [left; apply tiny_pos| |apply rounded_error; assumption].
    rewrite <- Rabs_mult. apply nearby_refl.
Qed.

Lemma products_length : forall (x y : frame F64ops) d, (forall r, In r x -> length r = d) -> (length (products x y) <= length x * d)%nat.
Proof.
  intros x. unfold products. induction x as [|r x IH]; intros [|s y] d H; cbn [combine flat_map length]; try lia.
  rewrite app_length. cbn [fst snd]. rewrite map_length, combine_length. assert (E : (Nat.min (length r) (length s) <= d)%nat) by (rewrite (H r (or_introl eq_refl)); apply Nat.le_min_l).
  specialize (IH y d (fun q Hq => H q (or_intror Hq))). cbn [Nat.mul]. exact (Nat.add_le_mono _ _ _ _ E IH).
Qed.

Lemma dot_nearby : forall (x y : frame F64ops) d s, length x = length y -> (1 <= length x)%nat ->
  (forall r, In r x -> length r = d) -> (Z.of_nat (length x * d) <= 2 ^ 47)%Z -> (Z.of_nat (length x) <= 2 ^ 53)%Z ->
  (forall r a, In r x -> In a r -> ok a /\ Rabs (fval a) <= p2 400) -> (forall r a, In r y -> In a r -> ok a /\ Rabs (fval a) <= p2 400) ->
  sum_of (products x y) s ->
  let m := fdiv s (f64_ofZ (Z.of_nat (length x))) in
  ok m /\ Rabs (fval m) <= p2 849 /\ nearby (length x * d + 2) ((INR d + 1) * tiny) (fval m) (mean_dot (values x) (values y)) (mean_size (values x) (values y)).
Proof.
  intros x y d s Hl N1 Hd B1 B2 Mx My Hs m.
  pose proof (products_length x y d Hd) as Ll. set (l := products x y) in *.
  set (qs := flat_map (fun p => map (fun q => (fst q * snd q, Rabs (fst q) * Rabs (snd q))) (combine (fst p) (snd p))) (combine (values x) (values y))).
  assert (F : Forall2 (fun v q => ok v /\ Rabs (fval v) <= p2 800 /\ nearby 1 tiny (fval v) (fst q) (snd q)) l qs).
  { unfold l, qs, products. apply Forall2_flat_map. unfold values. rewrite combine_map_same.
    assert (H : forall r t a b, In (r, t) (combine x y) -> In (a, b) (combine r t) -> (ok a /\ Rabs (fval a) <= p2 400) /\ (ok b /\ Rabs (fval b) <= p2 400)).
    { intros r t a b Hrt Hab. split; [apply (Mx r a (in_combine_l _ _ _ _ Hrt) (in_combine_l _ _ _ _ Hab))|apply (My t b (in_combine_r _ _ _ _ Hrt) (in_combine_r _ _ _ _ Hab))]. }
    clear - H. unfold frame in *. change (num F64ops) with f64 in *. induction (combine x y) as [|[r t] q IH]; cbn [map]; constructor.
    - cbn [fst snd]. rewrite combine_map_same, map_map. assert (G : forall a b, In (a, b) (combine r t) -> (ok a /\ Rabs (fval a) <= p2 400) /\ (ok b /\ Rabs (fval b) <= p2 400)) by (intros a b; apply H; left; reflexivity).
      clear - G. change f64 with spec_float in *. induction (combine r t) as [|[a b] c IH]; cbn [map]; constructor.
      + destruct (G a b (or_introl eq_refl)) as [[? ?] [? ?]]. cbn [fst snd]. apply product_nearby; assumption.
      + apply IH. intros a' b' Hab. apply G. right. exact Hab.
    - apply IH. intros r' t' a b Hr. apply H. right. exact Hr. }
  assert (LC : length (combine (values x) (values y)) = length x).
  { rewrite combine_length. unfold values. rewrite (map_length (map fval) x), (map_length (map fval) y). exact (eq_trans (f_equal (Nat.min (length x)) (eq_sym Hl)) (Nat.min_id _)). }
  assert (E1 : rsum (map fst qs) / INR (length x) = mean_dot (values x) (values y)).
  { unfold mean_dot, rmean. rewrite map_length, LC. f_equal. unfold qs. clear.
    induction (combine (values x) (values y)) as [|[r t] q IH]; [reflexivity|]. cbn [flat_map map rsum fst snd]. rewrite map_app, rsum_app, IH. f_equal. clear.
    revert t. induction r as [|a r IH]; intros [|b t]; try reflexivity. cbn [combine map rsum fst snd dotv]. rewrite IH. reflexivity. }
  assert (E2 : rsum (map snd qs) / INR (length x) = mean_size (values x) (values y)).
  { unfold mean_size, rmean. rewrite map_length, LC. f_equal. unfold qs. clear.
    induction (combine (values x) (values y)) as [|[r t] q IH]; [reflexivity|]. cbn [flat_map map rsum fst snd]. rewrite map_app, rsum_app, IH. f_equal. clear.
    revert t. induction r as [|a r IH]; intros [|b t]; try reflexivity. cbn [combine map rsum fst snd dotv]. rewrite IH. reflexivity. }
  destruct (quotient_nearby 800 1 tiny l s qs (length x)) as [Kq [Bq W]]; try assumption; try lia; [left; apply tiny_pos|].
  split; [exact Kq|]. split; [exact Bq|]. rewrite E1, E2 in W. eapply nearby_weaken; [| |exact W]; [lia|].
  rewrite Rmult_plus_distr_r, Rmult_1_l. apply Rplus_le_compat_r. assert (P : 1 <= INR (length x)) by (apply (le_INR 1); exact N1). pose proof tiny_pos.
  apply Rmult_le_reg_r with (INR (length x)); [lra|]. unfold Rdiv. rewrite Rmult_assoc, Rinv_l, Rmult_1_r by lra.
  replace (INR d * tiny * INR (length x)) with (INR (length x * d) * tiny) by (rewrite mult_INR; ring). apply Rmult_le_compat_r; [lra|]. apply le_INR. exact Ll.
Qed.

Lemma mean_nearby : forall e2 K b X (h : X -> f64) (g a : X -> R) (qs : list X), (-1074 <= e2 <= 900)%Z -> 0 <= b -> qs <> [] -> (Z.of_nat (length qs) <= 2 ^ 49)%Z ->
  (forall p, In p qs -> ok (h p) /\ Rabs (fval (h p)) <= p2 e2 /\ nearby K b (fval (h p)) (g p) (a p)) ->
  nearby (K + length qs + 1) (b + tiny) (fval (nmean F64ops (map h qs))) (rmean (map g qs)) (rmean (map a qs)).
Proof.
  intros e2 K b X h g a qs He Hb Nq Lq H. assert (N1 : (1 <= length qs)%nat) by (destruct qs; [congruence|cbn [length]; lia]).
  destruct (quotient_nearby e2 K b (map h qs) (nsum F64ops (map h qs)) (map (fun p => (g p, a p)) qs) (length qs)) as [_ [_ W]]; rewrite ?map_length; try assumption; try lia.
  - apply nsum_sum_of.
  - clear - H. induction qs as [|p qs IH]; cbn [map]; constructor; [apply H; left; reflexivity|]. apply IH. intros q Hq. apply H. right. exact Hq.
  - rewrite map_length, !map_map in W. cbn [fst snd] in W. unfold nmean, rmean. rewrite !map_length.
    eapply nearby_weaken; [| |exact W]; [lia|]. apply Rplus_le_compat_r. right. field. assert (P : 1 <= INR (length qs)) by (apply (le_INR 1); exact N1). lra.
Qed.
