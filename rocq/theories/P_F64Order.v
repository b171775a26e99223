(** Sums of doubles in any order (C100). *)
From Coq Require Import List ZArith Bool Arith Reals Lia Lra Psatz Sorting.Sorted Sorting.Permutation Floats.SpecFloat.
From Verif Require Import PyBase PyBaseFacts Num Spec_Stats NumFacts P_Text F64Round F64Ops F64Facts P_F64Mean M_Helpers M_Correlation M_Dynamics
  Spec_Correlation P_Correlation Spec_Time P_Time P_Skip Spec_Dynamics P_Dynamics Spec_Doubles P_F64Time P_F64Overlap P_F64Msd.
Import ListNotations.
Local Open Scope R_scope.

Lemma Forall2_perm : forall X Y (P : X -> Y -> Prop) l l', Permutation l l' -> forall m, Forall2 P l' m -> exists m', Forall2 P l m' /\ Permutation m' m.
Proof.
  intros X Y P l l' H. induction H as [|a l l' H IH|a b l|l1 l2 l3 H1 IH1 H2 IH2]; intros m F.
  - inversion F. exists []. split; constructor.
  - inversion F as [|? b ? m' Hab F']; subst. destruct (IH m' F') as [q [Q1 Q2]]. exists (b :: q). split; constructor; assumption.
  - inversion F as [|? c ? m1 Hc F1]; subst. inversion F1 as [|? d ? m2 Hd F2]; subst. exists (d :: c :: m2). split; [repeat constructor; assumption|constructor].
  - destruct (IH2 m F) as [q [Q1 Q2]]. destruct (IH1 q Q1) as [q' [Q3 Q4]]. exists q'. split; [exact Q3|]. apply Permutation_trans with q; assumption.
Qed.

Lemma rsum_perm : forall l l', Permutation l l' -> rsum l = rsum l'.
Proof. intros l l' H. induction H; cbn [rsum]; try lra. Qed.

Lemma sum_of_within : forall e2 K l s, (-1074 <= e2 <= 900)%Z -> sum_of l s -> forall ys, (Z.of_nat (length l) <= 2 ^ 49)%Z ->
  Forall2 (fun v y => ok v /\ 0 <= fval v <= p2 e2 /\ within K (fval v) y) l ys ->
  ok s /\ 0 <= fval s <= IZR (Z.of_nat (length l)) * p2 e2 /\ (l = [] -> fval s = 0) /\ within (K + (length l - 1)) (fval s) (rsum ys).
Proof.
  intros e2 K l s He H. induction H as [|x|l1 l2 s1 s2 H1 IH1 H2 IH2|l l' s P H IH]; intros ys Hn F.
  - inversion F; subst. split; [apply ok_zero|]. change (IZR (Z.of_nat (@length f64 []))) with 0. cbn [fval rsum]. split; [lra|]. split; [reflexivity|]. apply within_weaken with 0%nat; [lia|apply within_refl; lra].
  - inversion F as [|? y ? ys' [K1 [B1 W1]] F']; subst. inversion F'; subst. split; [exact K1|]. change (IZR (Z.of_nat (length [x]))) with 1. cbn [rsum]. split; [lra|]. split; [discriminate|]. rewrite Rplus_0_r. apply within_weaken with K; [lia|exact W1].
  - apply Forall2_app_inv_l in F. destruct F as [y1 [y2 [F1 [F2 ->]]]]. rewrite app_length in *.
    destruct (IH1 y1) as [K1 [B1 [Z1 W1]]]; [lia|exact F1|]. destruct (IH2 y2) as [K2 [B2 [Z2 W2]]]; [lia|exact F2|].
    assert (R1 : rounded (fval s1 + fval s2) (fadd s1 s2)) by (apply add_spec; try apply K1; apply K2).
    set (B := IZR (Z.of_nat (length l1 + length l2)) * p2 e2). assert (Pe := p2_pos e2).
    assert (Bs : 0 <= fval s1 + fval s2 <= B) by (unfold B; rewrite Nat2Z.inj_add, plus_IZR; lra).
    assert (FB : format B) by (apply format_scaled; lia).
    assert (LB : B < p2 1024).
    { apply Rle_lt_trans with (p2 53 * p2 e2); [|rewrite <- p2_add; apply p2_lt; lia]. apply Rmult_le_compat_r; [lra|]. rewrite p2_Z by lia. apply IZR_le. lia. }
    destruct (rounded_bounded _ _ B R1 FB) as [Kq Bq]; [rewrite Rabs_right; lra|exact LB|].
    assert (G : 0 <= fval (fadd s1 s2)) by (apply (rounded_ge _ _ 0 R1 Kq format_0); lra). rewrite Rabs_right in Bq by lra.
    split; [exact Kq|]. split; [split; assumption|].
    assert (Ex : forall v, fval s1 + fval s2 = v -> format v -> Rabs v < p2 1024 -> fval (fadd s1 s2) = v) by (intros v Ev Fv Bv; rewrite Ev in R1; apply (rounded_exact _ _ R1); assumption).
    rewrite rsum_app.
    destruct l1 as [|a l1].
    + assert (E : fval (fadd s1 s2) = fval s2) by (apply Ex; [rewrite (Z1 eq_refl); ring|apply ok_format; exact K2|rewrite Rabs_right by lra; rewrite (Z1 eq_refl) in Bs; lra]).
      inversion F1; subst. cbn [rsum length Nat.add app]. rewrite E, Rplus_0_l. split; [exact Z2|exact W2].
    + split; [discriminate|]. destruct l2 as [|b l2].
      * assert (E : fval (fadd s1 s2) = fval s1) by (apply Ex; [rewrite (Z2 eq_refl); ring|apply ok_format; exact K1|rewrite Rabs_right by lra; rewrite (Z2 eq_refl) in Bs; lra]).
        inversion F2; subst. cbn [rsum]. rewrite E, Rplus_0_r, Nat.add_0_r. exact W1.
      * apply within_weaken with (S (K + (length (a :: l1) + length (b :: l2) - 2))); [cbn [length]; lia|]. apply within_round with (fval s1 + fval s2).
        -- apply within_add; [apply within_weaken with (2 := W1)|apply within_weaken with (2 := W2)]; cbn [length]; lia.
        -- apply add_relative; assumption.
  - destruct (Forall2_perm _ _ _ _ _ P ys F) as [q [Q1 Q2]]. rewrite <- (Permutation_length P) in *. destruct (IH q Hn Q1) as [K1 [B1 [Z1 W1]]].
    split; [exact K1|]. split; [exact B1|]. split; [intros E; apply Z1; rewrite E in P; apply Permutation_sym, Permutation_nil in P; exact P|].
    rewrite <- (rsum_perm _ _ Q2). exact W1.
Qed.

(** The sum of the model is one of them. *)
Lemma nsum_sum_of : forall l : list f64, sum_of l (nsum F64ops l).
Proof.
  intros l. unfold nsum. cbn [nadd n0 F64ops]. change (num F64ops) with f64.
  assert (G : forall (l : list f64) l0 s, sum_of l0 s -> sum_of (l0 ++ l) (fold_left fadd l s)).
  { clear. induction l as [|x l IH]; intros l0 s H; cbn [fold_left]; [rewrite app_nil_r; exact H|].
    replace (l0 ++ x :: l) with ((l0 ++ [x]) ++ l) by (rewrite <- app_assoc; reflexivity). apply IH. apply sum_add; [exact H|apply sum_one]. }
  exact (G l [] _ sum_none).
Qed.

Lemma frame_within : forall (x y : frame F64ops) d s, length x = length y -> (1 <= length x)%nat ->
  (forall r, In r x -> length r = d) -> (Z.of_nat (length x * d) <= 2 ^ 47)%Z -> (Z.of_nat (length x) <= 2 ^ 53)%Z ->
  (forall r s a b, In (r, s) (combine x y) -> In (a, b) (combine r s) -> ok a /\ ok b /\ Rabs (fval a) <= p2 400 /\ Rabs (fval b) <= p2 400 /\ (fval a = fval b \/ p2 (-400) <= Rabs (fval a - fval b))) ->
  sum_of (squares x y) s ->
  let m := fdiv s (f64_ofZ (Z.of_nat (length x))) in let e := mean_over (fun z => z) (values x) (values y) in
  ok m /\ 0 <= fval m <= p2 849 /\ within (length x * d + 4) (fval m) e /\ apart (-853) e.
Proof.
  intros x y d s Hl N1 Hd B1 B2 H Hs m e.
  set (l := squares x y) in *.
  set (ys := flat_map (fun p => map2 (fun a b => (a - b) * (a - b)) (fst p) (snd p)) (combine (values x) (values y))).
  assert (Ll : (length l <= length x * d)%nat) by (apply rows_total; exact Hd).
  assert (Ee : e = rsum ys / INR (length x)).
  { unfold e. rewrite <- msd_R by (unfold values; rewrite !map_length; exact Hl). unfold msd. rewrite nsum_R, nofnat_R. cbn [ndiv Rops]. unfold values at 3. rewrite map_length. reflexivity. }
  assert (F : Forall2 (fun v y => (ok v /\ 0 <= fval v <= p2 802 /\ within 3 (fval v) y) /\ apart (-800) y) l ys).
  { unfold l, ys, squares. apply Forall2_flat_map. unfold values. rewrite combine_map_same. clear - H. unfold frame in *. change (num F64ops) with f64 in *. induction (combine x y) as [|[r s] q IH]; cbn [map]; constructor.
    - cbn [fst snd]. unfold map2. rewrite combine_map_same, map_map. assert (G : forall a b, In (a, b) (combine r s) -> ok a /\ ok b /\ Rabs (fval a) <= p2 400 /\ Rabs (fval b) <= p2 400 /\ (fval a = fval b \/ p2 (-400) <= Rabs (fval a - fval b))) by (intros a b; apply H; left; reflexivity).
      clear - G. change f64 with spec_float in *. induction (combine r s) as [|[a b] c IH]; cbn [map]; constructor.
      + destruct (G a b (or_introl eq_refl)) as [? [? [? [? ?]]]]. destruct (square_within a b) as [? [? [? ?]]]; auto.
      + apply IH. intros a' b' Hab. apply G. right. exact Hab.
    - apply IH. intros r' s' a b Hr. apply H. right. exact Hr. }
  assert (Hy : forall y, In y ys -> apart (-800) y) by (intros z Hz; destruct (Forall2_In_r _ _ _ _ _ _ F Hz) as [v [_ [_ A]]]; exact A).
  destruct (rsum_apart (-800) ys Hy) as [Py Ay].
  destruct (sum_of_within 802 3 l s) with (ys := ys) as [Ks [Bs [_ W]]]; [lia|exact Hs|lia| |].
  { clear - F. induction F as [|v z l' ys' [A _] F IH]; constructor; assumption. }
  set (N := length x) in *.
  destruct (ofZ_exact (Z.of_nat N)) as [KN EN]; [lia|]. rewrite <- INR_IZR_INZ in EN. assert (P : 1 <= INR N) by (apply (le_INR 1); exact N1).
  assert (NB : INR N <= p2 53) by (rewrite p2_Z by lia; rewrite INR_IZR_INZ; apply IZR_le; exact B2).
  assert (R1 : rounded (fval s / INR N) m) by (unfold m; rewrite <- EN; apply div_spec; try apply Ks; try apply KN; rewrite EN; lra).
  assert (Qb : 0 <= fval s / INR N <= p2 849).
  { split; [apply Rmult_le_pos; [lra|left; apply Rinv_0_lt_compat; lra]|]. apply Rle_trans with (fval s).
    - apply Rmult_le_reg_r with (INR N); [lra|]. unfold Rdiv. rewrite Rmult_assoc, Rinv_l by lra. nra.
    - apply Rle_trans with (1 := proj2 Bs). change 849%Z with (47 + 802)%Z. rewrite p2_add. apply Rmult_le_compat_r; [left; apply p2_pos|]. rewrite (p2_Z 47) by lia. apply IZR_le. lia. }
  destruct (rounded_bounded _ _ (p2 849) R1) as [Kq Bq]; [apply format_p2; lia|rewrite Rabs_right; lra|apply p2_lt; lia|].
  assert (G : 0 <= fval m) by (apply (rounded_ge _ _ 0 R1 Kq format_0); lra). rewrite Rabs_right in Bq by lra.
  assert (Sc : forall c, p2 (c - 53) = p2 c / p2 53).
  { intros c. pose proof (p2_pos 53). apply Rmult_eq_reg_r with (p2 53); [|lra]. unfold Rdiv. rewrite Rmult_assoc, Rinv_l, <- p2_add by lra. rewrite Rmult_1_r. f_equal. lia. }
  split; [exact Kq|]. split; [split; assumption|]. rewrite Ee. split.
  - apply within_weaken with (S (3 + (length l - 1))); [lia|]. apply within_round with (fval s / INR N).
    + unfold Rdiv. apply within_scale; [left; apply Rinv_0_lt_compat; lra|exact W].
    + apply rounded_relative; [exact R1|exact Kq|]. destruct Ay as [E|Ay].
      * left. destruct W as [_ [W1 W2]]. rewrite E, Rmult_0_r in W1, W2. replace (fval s) with 0 by lra. unfold Rdiv. ring.
      * right. rewrite Rabs_right by lra. pose proof (low_bernoulli (3 + (length l - 1))) as LB1. destruct W as [_ [W1 _]].
        assert (Hk : INR (3 + (length l - 1)) * u <= / 2).
        { unfold u. assert (INR (3 + (length l - 1)) <= p2 50) by (rewrite p2_Z by lia; rewrite INR_IZR_INZ; apply IZR_le; lia).
          apply Rle_trans with (p2 50 * p2 (-53)); [apply Rmult_le_compat_r; [left; apply p2_pos|assumption]|]. rewrite <- p2_add. unfold p2. simpl. lra. }
        assert (S1 : p2 (-801) <= fval s).
        { apply Rle_trans with (/ 2 * p2 (-800)); [right; replace (p2 (-800)) with (p2 1 * p2 (-801)) by (rewrite <- p2_add; reflexivity); unfold p2 at 2; simpl powerRZ; lra|].
          apply Rle_trans with (2 := W1). apply Rmult_le_compat; try lra. left. apply p2_pos. }
        apply Rle_trans with (p2 (-801 - 53)); [apply p2_le; lia|]. rewrite Sc.
        unfold Rdiv. apply Rmult_le_compat; [left; apply p2_pos|left; apply Rinv_0_lt_compat; apply p2_pos|exact S1|apply Rinv_le_contravar; lra].
  - destruct Ay as [E|Ay]; [left; rewrite E; unfold Rdiv; ring|right]. replace (-853)%Z with (-800 - 53)%Z by reflexivity. rewrite Sc.
    unfold Rdiv. apply Rmult_le_compat; [left; apply p2_pos|left; apply Rinv_0_lt_compat; apply p2_pos|exact Ay|apply Rinv_le_contravar; lra].
Qed.
