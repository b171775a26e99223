(** Proofs about the text of the numbers. *)
From Coq Require Import Ascii String List ZArith Bool Arith Lia Reals Lra Floats.SpecFloat.
From Verif Require Import PyBase PyBaseFacts Num M_Text.
Import ListNotations.
Local Open Scope Z_scope.

(** ** Decimal digits *)
Definition digit_ok (d : Z) : Prop := 0 <= d <= 9.

Lemma value_of_acc : forall l a, fold_left (fun a d => a * 10 + d) l a = a * 10 ^ Z.of_nat (length l) + value_of l.
Proof.
  unfold value_of. induction l as [|d l IH]; intros a; [cbn [fold_left length]; change (Z.of_nat 0) with 0; lia|].
  cbn [fold_left length]. rewrite (IH (a * 10 + d)), (IH (0 * 10 + d)), Nat2Z.inj_succ, Z.pow_succ_r by lia. ring.
Qed.

Lemma value_of_app : forall l m, value_of (l ++ m) = value_of l * 10 ^ Z.of_nat (length m) + value_of m.
Proof. intros l m. unfold value_of at 1. rewrite fold_left_app, value_of_acc. reflexivity. Qed.

Lemma value_of_bound : forall l, (forall d, In d l -> digit_ok d) -> 0 <= value_of l < 10 ^ Z.of_nat (length l).
Proof.
  induction l as [|d l IH]; intros H; [cbn; lia|].
  change (d :: l) with ([d] ++ l). rewrite value_of_app, app_length. cbn [length Nat.add].
  assert (D : digit_ok d) by (apply H; left; reflexivity). unfold digit_ok in D.
  specialize (IH (fun x Hx => H x (or_intror Hx))).
  rewrite Nat2Z.inj_succ, Z.pow_succ_r by lia. replace (value_of [d]) with d by reflexivity.
  assert (0 <= 10 ^ Z.of_nat (length l)) by (apply Z.pow_nonneg; lia). nia.
Qed.

Lemma dec_fuel_spec : forall n z acc, 0 <= z < 2 ^ Z.of_nat n ->
  exists l, dec_fuel n z acc = l ++ acc /\ value_of l = z /\ (forall d, In d l -> digit_ok d) /\
    (0 < z -> exists d r, l = d :: r /\ d <> 0).
Proof.
  induction n as [|n IH]; intros z acc Hz.
  - cbn in Hz. exists []. cbn. repeat split; try lia; try easy.
  - cbn [dec_fuel]. destruct (Z.eqb_spec z 0) as [->|Hn].
    + exists []. cbn. repeat split; try lia; try easy.
    + destruct (IH (z / 10) (z mod 10 :: acc)) as [l [E [V [D H]]]].
      { rewrite Nat2Z.inj_succ, Z.pow_succ_r in Hz by lia. split; [apply Z.div_pos; lia|].
        apply Z.div_lt_upper_bound; lia. }
      exists (l ++ [z mod 10]). split; [rewrite E, <- app_assoc; reflexivity|].
      assert (M : 0 <= z mod 10 < 10) by (apply Z.mod_pos_bound; lia).
      split; [|split].
      * rewrite value_of_app, V. cbn [length]. replace (value_of [z mod 10]) with (z mod 10) by reflexivity.
        change (10 ^ Z.of_nat 1) with 10. pose proof (Z.div_mod z 10). lia.
      * intros d Hd. apply in_app_iff in Hd. destruct Hd as [Hd|[<-|[]]]; [auto|]. unfold digit_ok. lia.
      * intros _. destruct (Z.eq_dec (z / 10) 0) as [E0|E0].
        -- destruct l as [|d r].
           ++ exists (z mod 10), []. split; [reflexivity|]. pose proof (Z.div_mod z 10). lia.
           ++ exists d, (r ++ [z mod 10]). split; [reflexivity|]. 
              exfalso. clear IH. rewrite E0 in *. destruct n; cbn in E.
              ** symmetry in E. assert (L := f_equal (@length Z) E). cbn in L. rewrite app_length in L. cbn in L. lia.
              ** symmetry in E. assert (L := f_equal (@length Z) E). cbn in L. rewrite app_length in L. cbn in L. lia.
        -- destruct H as [d [r [-> Hd]]]; [assert (0 <= z / 10) by (apply Z.div_pos; lia); lia|].
           exists d, (r ++ [z mod 10]). split; [reflexivity|assumption].
Qed.

Lemma dec_digits_spec : forall z, 0 <= z -> value_of (dec_digits z) = z /\ (forall d, In d (dec_digits z) -> digit_ok d) /\
  (0 < z -> exists d r, dec_digits z = d :: r /\ d <> 0).
Proof.
  intros z Hz. unfold dec_digits.
  destruct (dec_fuel_spec (Z.to_nat (Z.log2 z) + 1) z []) as [l [E H]].
  - rewrite Nat2Z.inj_add, Z2Nat.id by apply Z.log2_nonneg. change (Z.of_nat 1) with 1.
    destruct (Z.eq_dec z 0) as [->|]; [cbn; lia|]. pose proof (Z.log2_spec z). unfold Z.succ in *. lia.
  - rewrite E, app_nil_r. exact H.
Qed.

Lemma num_digits_bounds : forall z, 0 < z -> 1 <= num_digits z /\ 10 ^ (num_digits z - 1) <= z < 10 ^ num_digits z.
Proof.
  intros z Hz. unfold num_digits. destruct (dec_digits_spec z) as [V [D H]]; [lia|].
  destruct (H Hz) as [d [r [E Hd]]]. rewrite E in *.
  pose proof (value_of_bound _ D) as B. rewrite V in B.
  assert (Dr : forall x, In x r -> digit_ok x) by (intros; apply D; right; assumption).
  pose proof (value_of_bound _ Dr) as Br.
  assert (Dd : digit_ok d) by (apply D; left; reflexivity). unfold digit_ok in Dd.
  change (d :: r) with ([d] ++ r) in V. rewrite value_of_app in V. replace (value_of [d]) with d in V by reflexivity.
  cbn [length] in *. rewrite Nat2Z.inj_succ in *. unfold Z.succ in *.
  replace (Z.of_nat (length r) + 1 - 1) with (Z.of_nat (length r)) by lia. split; [lia|].
  split; [|apply B]. assert (0 <= 10 ^ Z.of_nat (length r)) by (apply Z.pow_nonneg; lia). nia.
Qed.

(** ** Powers of ten *)
Definition p10 (k : Z) : R := powerRZ 10 k.

Lemma p10_add : forall a b, p10 (a + b) = (p10 a * p10 b)%R.
Proof. intros. apply powerRZ_add. lra. Qed.

Lemma p10_pos : forall k, (0 < p10 k)%R.
Proof. intros. apply powerRZ_lt. lra. Qed.

Lemma p10_Z : forall k, 0 <= k -> p10 k = IZR (10 ^ k).
Proof. intros k Hk. unfold p10. rewrite <- (Z2Nat.id k) by assumption. rewrite <- pow_powerRZ, <- pow_IZR. reflexivity. Qed.

Lemma p10_neg : forall k, (p10 (- k) * p10 k = 1)%R.
Proof. intros k. rewrite <- p10_add. replace (- k + k) with 0 by lia. reflexivity. Qed.

Lemma pow10_le_spec : forall k p q, 0 < q -> pow10_le k p q = true <-> (p10 k <= IZR p / IZR q)%R.
Proof.
  intros k p q Hq. assert (Q : (0 < IZR q)%R) by (apply IZR_lt; assumption).
  assert (E : (p10 k <= IZR p / IZR q)%R <-> (p10 k * IZR q <= IZR p)%R).
  { split; intros H.
    - apply Rmult_le_compat_r with (r := IZR q) in H; [|lra]. unfold Rdiv in H. rewrite Rmult_assoc, Rinv_l in H by lra. lra.
    - apply Rmult_le_reg_r with (IZR q); [assumption|]. unfold Rdiv. rewrite Rmult_assoc, Rinv_l by lra. lra. }
  rewrite E. unfold pow10_le. destruct (Z.leb_spec 0 k).
  - rewrite Z.leb_le, p10_Z, <- mult_IZR by assumption. split; [apply IZR_le|apply le_IZR].
  - rewrite Z.leb_le. pose proof (p10_neg k) as N. rewrite p10_Z in N by lia. pose proof (p10_pos k) as P.
    assert (T : (0 < IZR (10 ^ (- k)))%R) by (apply IZR_lt, Z.pow_pos_nonneg; lia).
    split; intros H1.
    + apply IZR_le in H1. rewrite mult_IZR in H1. 
      apply Rmult_le_reg_r with (IZR (10 ^ (- k))); [assumption|]. nra.
    + apply le_IZR. rewrite mult_IZR. apply Rmult_le_compat_r with (r := IZR (10 ^ (- k))) in H1; [|lra]. nra.
Qed.

Lemma exp10_spec : forall p q, 0 < p -> 0 < q -> (p10 (exp10 p q) <= IZR p / IZR q < p10 (exp10 p q + 1))%R.
Proof.
  intros p q Hp Hq. unfold exp10. set (k := num_digits p - num_digits q).
  destruct (num_digits_bounds p Hp) as [Np [P1 P2]], (num_digits_bounds q Hq) as [Nq [Q1 Q2]].
  apply IZR_le in P1, Q1. apply IZR_lt in P2, Q2. rewrite <- p10_Z in P1, P2, Q1, Q2 by lia.
  assert (Qp : (0 < IZR q)%R) by (apply IZR_lt; assumption).
  assert (Pp : (0 < IZR p)%R) by (apply IZR_lt; assumption).
  assert (Lo : (p10 (k - 1) < IZR p / IZR q)%R).
  { apply Rmult_lt_reg_r with (IZR q); [assumption|]. unfold Rdiv. rewrite Rmult_assoc, Rinv_l, Rmult_1_r by lra.
    apply Rlt_le_trans with (p10 (k - 1) * p10 (num_digits q))%R; [apply Rmult_lt_compat_l; [apply p10_pos|assumption]|].
    rewrite <- p10_add. replace (k - 1 + num_digits q) with (num_digits p - 1) by lia. assumption. }
  assert (Hi : (IZR p / IZR q < p10 (k + 1))%R).
  { apply Rmult_lt_reg_r with (IZR q); [assumption|]. unfold Rdiv. rewrite Rmult_assoc, Rinv_l, Rmult_1_r by lra.
    apply Rlt_le_trans with (p10 (k + 1) * p10 (num_digits q - 1))%R; [|apply Rmult_le_compat_l; [apply Rlt_le, p10_pos|assumption]].
    rewrite <- p10_add. replace (k + 1 + (num_digits q - 1)) with (num_digits p) by lia. assumption. }
  pose proof (pow10_le_spec k p q Hq) as S. destruct (pow10_le k p q).
  - split; [apply S; reflexivity|assumption].
  - split; [lra|]. replace (k - 1 + 1) with k by lia.
    apply Rnot_le_lt. intros C. apply S in C. discriminate.
Qed.

Lemma rnd_even_spec : forall m d, 0 < d -> (Rabs (IZR (rnd_even false m d) - IZR m / IZR d) <= / 2)%R.
Proof.
  intros m d Hd. assert (D : (0 < IZR d)%R) by (apply IZR_lt; assumption).
  assert (B : 2 * Z.abs (rnd_even false m d * d - m) <= d).
  { unfold rnd_even. cbn [cond_Zopp]. pose proof (Z.div_mod m d ltac:(lia)). pose proof (Z.mod_pos_bound m d Hd).
    set (q := m / d) in *. set (r := m mod d) in *.
    destruct (Z.ltb_spec (2 * r) d); [nia|]. destruct (Z.ltb_spec d (2 * r)); [nia|]. destruct (Z.even q); nia. }
  apply IZR_le in B. rewrite mult_IZR, abs_IZR, minus_IZR, mult_IZR in B.
  replace (IZR (rnd_even false m d) - IZR m / IZR d)%R with ((IZR (rnd_even false m d) * IZR d - IZR m) / IZR d)%R by (field; lra).
  unfold Rdiv. rewrite Rabs_mult, (Rabs_right (/ IZR d)) by (apply Rle_ge, Rlt_le, Rinv_0_lt_compat; assumption).
  apply Rmult_le_reg_r with (IZR d); [assumption|]. rewrite Rmult_assoc, Rinv_l by lra. lra.
Qed.

(** Six significant digits: the relative error is at most 5e-6. *)
Lemma six_digits_spec : forall p q M X, 0 < p -> 0 < q -> six_digits p q = (M, X) ->
  10 ^ 5 <= M < 10 ^ 6 /\ (Rabs (IZR M * p10 (X - 5) - IZR p / IZR q) <= 5 / 1000000 * (IZR p / IZR q))%R.
Proof.
  intros p q M X Hp Hq H. unfold six_digits in H. destruct (exp10_spec p q Hp Hq) as [L U].
  set (E := exp10 p q) in *. set (y := (IZR p / IZR q)%R) in *.
  assert (Q : (0 < IZR q)%R) by (apply IZR_lt; assumption).
  assert (Y : (0 < y)%R) by (unfold y; apply Rdiv_lt_0_compat; [apply IZR_lt|]; assumption).
  set (N := if 0 <=? 5 - E then rnd_even false (p * 10 ^ (5 - E)) q else rnd_even false p (q * 10 ^ (E - 5))) in *.
  assert (B : (Rabs (IZR N - y * p10 (5 - E)) <= / 2)%R).
  { unfold N. destruct (Z.leb_spec 0 (5 - E)).
    - replace (y * p10 (5 - E))%R with (IZR (p * 10 ^ (5 - E)) / IZR q)%R; [apply rnd_even_spec; assumption|].
      rewrite mult_IZR, <- p10_Z by assumption. unfold y. field. lra.
    - assert (T : 0 < 10 ^ (E - 5)) by (apply Z.pow_pos_nonneg; lia).
      replace (y * p10 (5 - E))%R with (IZR p / IZR (q * 10 ^ (E - 5)))%R; [apply rnd_even_spec; nia|].
      rewrite mult_IZR, <- p10_Z by lia. pose proof (p10_neg (E - 5)) as G. replace (- (E - 5)) with (5 - E) in G by lia.
      pose proof (p10_pos (E - 5)). unfold y. 
      replace (p10 (5 - E)) with (/ p10 (E - 5))%R; [field; lra|]. apply Rmult_eq_reg_r with (p10 (E - 5)); [|lra]. rewrite Rinv_l by lra. lra. }
  assert (L' : (IZR (10 ^ 5) <= y * p10 (5 - E))%R).
  { rewrite <- p10_Z by lia. replace 5 with (E + (5 - E)) at 1 by lia. rewrite p10_add.
    apply Rmult_le_compat_r; [apply Rlt_le, p10_pos|assumption]. }
  assert (U' : (y * p10 (5 - E) < IZR (10 ^ 6))%R).
  { rewrite <- p10_Z by lia. replace 6 with ((E + 1) + (5 - E)) by lia. rewrite p10_add.
    apply Rmult_lt_compat_r; [apply p10_pos|assumption]. }
  assert (NB : 10 ^ 5 <= N <= 10 ^ 6).
  { assert (B' : (- / 2 <= IZR N - y * p10 (5 - E) <= / 2)%R).
    { unfold Rabs in B. destruct (Rcase_abs _) in B; lra. }
    change (10 ^ 5) with 100000 in *. change (10 ^ 6) with 1000000 in *.
    split.
    - assert (99999 < N); [|lia]. apply lt_IZR. lra.
    - assert (N < 1000001); [|lia]. apply lt_IZR. lra. }
  assert (Er : (Rabs (IZR N * p10 (E - 5) - y) <= 5 / 1000000 * y)%R).
  { replace (IZR N * p10 (E - 5) - y)%R with ((IZR N - y * p10 (5 - E)) * p10 (E - 5))%R.
    - rewrite Rabs_mult, (Rabs_right (p10 (E - 5))) by (apply Rle_ge, Rlt_le, p10_pos).
      assert (p10 (E - 5) <= y / 100000)%R.
      { assert (p10 (E - 5) * 100000 = p10 E)%R; [|lra]. change 100000%R with (IZR (10 ^ 5)). rewrite <- p10_Z, <- p10_add by lia.
        f_equal. lia. }
      pose proof (p10_pos (E - 5)). pose proof (Rabs_pos (IZR N - y * p10 (5 - E))). nra.
    - pose proof (p10_neg (E - 5)) as G. replace (- (E - 5)) with (5 - E) in G by lia.
      rewrite Rmult_minus_distr_r, Rmult_assoc, G. ring. }
  destruct (Z.eqb_spec N (10 ^ 6)) as [EN|EN]; apply pair_equal_spec in H; destruct H as [<- <-].
  - split; [lia|]. rewrite EN in Er. replace (IZR (10 ^ 5) * p10 (E + 1 - 5))%R with (IZR (10 ^ 6) * p10 (E - 5))%R; [assumption|].
    rewrite <- !p10_Z, <- !p10_add by lia. f_equal. lia.
  - split; [lia|assumption].
Qed.

(** ** Printing and parsing *)
Lemma digit_cases : forall d, digit_ok d ->
  d = 0 \/ d = 1 \/ d = 2 \/ d = 3 \/ d = 4 \/ d = 5 \/ d = 6 \/ d = 7 \/ d = 8 \/ d = 9.
Proof. unfold digit_ok. intros; lia. Qed.

Lemma char_digit_char : forall d, digit_ok d -> char_digit (digit_char d) = Some d.
Proof. intros d H. apply digit_cases in H. intuition (subst; reflexivity). Qed.

Definition stops (t : string) : Prop := match t with EmptyString => True | String c _ => char_digit c = None end.

Lemma span_show : forall l t, (forall d, In d l -> digit_ok d) -> stops t -> span_digits (show_digits l ++ t) = (l, t).
Proof.
  induction l as [|d l IH]; intros t H S.
  - cbn. destruct t as [|c t]; [reflexivity|]. cbn in *. rewrite S. reflexivity.
  - cbn [show_digits append span_digits]. rewrite char_digit_char by (apply H; left; reflexivity).
    rewrite IH by (assumption || (intros; apply H; right; assumption)). reflexivity.
Qed.

Lemma append_assoc : forall a b c : string, (a ++ (b ++ c))%string = ((a ++ b) ++ c)%string.
Proof. induction a as [|x a IH]; intros b c; cbn; [reflexivity|]. rewrite IH. reflexivity. Qed.

Lemma append_empty : forall a : string, (a ++ "")%string = a.
Proof. induction a as [|x a IH]; cbn; [reflexivity|]. rewrite IH. reflexivity. Qed.

Lemma show_digits_app : forall l m, show_digits (l ++ m) = (show_digits l ++ show_digits m)%string.
Proof. induction l as [|d l IH]; intros m; cbn; [reflexivity|]. rewrite IH. reflexivity. Qed.

Lemma strip_zeros_spec : forall l, exists k, l = strip_zeros l ++ repeat 0 k.
Proof.
  induction l as [|d l [k IH]]; [exists 0%nat; reflexivity|]. cbn [strip_zeros].
  destruct (strip_zeros l) as [|x r] eqn:E.
  - destruct (Z.eqb_spec d 0) as [->|].
    + exists (S k). cbn. f_equal. exact IH.
    + exists k. cbn. f_equal. exact IH.
  - exists k. cbn [app] in *. f_equal. exact IH.
Qed.

Lemma value_of_zeros : forall k, value_of (repeat 0 k) = 0.
Proof.
  induction k as [|k IH]; [reflexivity|]. change (repeat 0 (S k)) with ([0] ++ repeat 0 k).
  rewrite value_of_app, IH. change (value_of [0]) with 0. lia.
Qed.

(** The digits shown of M 10^(X-5). *)
Lemma shown_digits : forall M, 10 ^ 5 <= M < 10 ^ 6 -> let D := strip_zeros (dec_digits M) in
  D <> [] /\ (length D <= 6)%nat /\ (forall d, In d D -> digit_ok d) /\ M = value_of D * 10 ^ (6 - Z.of_nat (length D)).
Proof.
  intros M HM D. destruct (dec_digits_spec M) as [V [Ok _]]; [lia|].
  assert (HM' : 0 < M) by lia. destruct (num_digits_bounds M HM') as [N1 [N2 N3]].
  assert (L : num_digits M = 6).
  { assert (num_digits M - 1 < 6) by (apply (Z.pow_lt_mono_r_iff 10); lia).
    assert (5 < num_digits M) by (apply (Z.pow_lt_mono_r_iff 10); lia). lia. }
  unfold num_digits in L. destruct (strip_zeros_spec (dec_digits M)) as [k Ek]. fold D in Ek.
  assert (Lk : (length D + k = 6)%nat).
  { apply (f_equal (@length Z)) in Ek. rewrite app_length, repeat_length in Ek. lia. }
  assert (VM : M = value_of D * 10 ^ (6 - Z.of_nat (length D))).
  { rewrite <- V at 1. rewrite Ek, value_of_app, value_of_zeros, repeat_length. 
    replace (6 - Z.of_nat (length D)) with (Z.of_nat k) by lia. lia. }
  split; [|split; [lia|split; [|exact VM]]].
  - intros C. rewrite C in VM. cbn in VM. lia.
  - intros d Hd. apply Ok. rewrite Ek. apply in_app_iff. left. assumption.
Qed.

Lemma zeros_ok : forall k d, In d (repeat 0 k) -> digit_ok d.
Proof. intros k d H. apply repeat_spec in H. subst. unfold digit_ok. lia. Qed.

Lemma in_firstn : forall X (l : list X) n x, In x (firstn n l) -> In x l.
Proof. intros X l n x H. rewrite <- (firstn_skipn n l). apply in_app_iff. left. assumption. Qed.
Lemma in_skipn : forall X (l : list X) n x, In x (skipn n l) -> In x l.
Proof. intros X l n x H. rewrite <- (firstn_skipn n l). apply in_app_iff. right. assumption. Qed.

Lemma parse_exp_show : forall X, parse_exp (String "e"%char (show_exp X)) = Some X.
Proof.
  intros X. cbn [parse_exp]. unfold show_exp. set (a := dec_digits (Z.abs X)).
  destruct (dec_digits_spec (Z.abs X)) as [V [Ok _]]; [lia|]. fold a in V, Ok.
  set (l := repeat 0 (2 - length a) ++ a).
  assert (Hl : forall d, In d l -> digit_ok d).
  { intros d Hd. apply in_app_iff in Hd. destruct Hd as [Hd|Hd]; [eapply zeros_ok; eassumption|auto]. }
  assert (Vl : value_of l = Z.abs X). { unfold l. rewrite value_of_app, value_of_zeros. lia. }
  assert (Nl : (2 <= length l)%nat). { unfold l. rewrite app_length, repeat_length. lia. }
  assert (S : span_digits (show_digits l) = (l, EmptyString)).
  { rewrite <- (append_empty (show_digits l)). apply span_show; [assumption|exact I]. }
  destruct l as [|d r]; [cbn in Nl; lia|].
  destruct (Z.ltb_spec X 0); cbn [parse_sign]; rewrite S, Vl; cbn [cond_Zopp]; f_equal; lia.
Qed.

(** Integer part, fraction and exponent. *)
Lemma parse_parts : forall neg ip fp t e, ip <> [] -> (forall d, In d ip -> digit_ok d) -> (forall d, In d fp -> digit_ok d) ->
  stops t -> match t with String c _ => c <> "."%char | EmptyString => True end -> parse_exp t = Some e ->
  parse_unsigned neg (show_digits ip ++ (show_frac fp ++ t)) = Some (NDec neg (value_of (ip ++ fp)) (e - Z.of_nat (length fp))).
Proof.
  intros neg ip fp t e Hi Oi Of St Dt E. unfold parse_unsigned. rewrite span_show.
  2:{ assumption. }
  2:{ destruct fp; cbn; [assumption|reflexivity]. }
  destruct fp as [|f fp]; cbn [show_frac append].
  - rewrite app_nil_r. destruct ip as [|i ip]; [congruence|].
    destruct t as [|c t]; [rewrite E, app_nil_r; reflexivity|].
    assert (T : match String c t with String "."%char r' => span_digits r' | _ => ([], String c t) end = ([], String c t)).
    { destruct c as [[] [] [] [] [] [] [] []]; try reflexivity; exfalso; apply Dt; reflexivity. }
    rewrite T, app_nil_r, E. reflexivity.
  - rewrite span_show by assumption. destruct (ip ++ f :: fp) as [|x r] eqn:El; [destruct ip; discriminate|].
    rewrite E. reflexivity.
Qed.

Lemma parse_parts0 : forall neg ip fp, ip <> [] -> (forall d, In d ip -> digit_ok d) -> (forall d, In d fp -> digit_ok d) ->
  parse_unsigned neg (show_digits ip ++ show_frac fp) = Some (NDec neg (value_of (ip ++ fp)) (- Z.of_nat (length fp))).
Proof.
  intros neg ip fp Hi Oi Of. rewrite <- (append_empty (show_frac fp)).
  rewrite (parse_parts neg ip fp EmptyString 0) by (assumption || exact I || reflexivity). f_equal.
Qed.

Lemma show_six_parse : forall neg M X, 10 ^ 5 <= M < 10 ^ 6 -> exists m e,
  parse_unsigned neg (show_six M X) = Some (NDec neg m e) /\ (IZR m * p10 e = IZR M * p10 (X - 5))%R.
Proof.
  intros neg M X HM. unfold show_six. destruct (shown_digits M HM) as [ND [LD [OD VM]]].
  set (D := strip_zeros (dec_digits M)) in *.
  assert (Val : forall e, e = X - Z.of_nat (length D) + 1 -> (IZR (value_of D) * p10 e = IZR M * p10 (X - 5))%R).
  { intros e ->. rewrite VM, mult_IZR, <- p10_Z by lia. rewrite Rmult_assoc, <- p10_add. f_equal. f_equal. lia. }
  destruct ((X <? -4) || (6 <=? X)) eqn:Sci.
  - exists (value_of D), (X - Z.of_nat (length (skipn 1 D))). split.
    + rewrite (parse_parts neg (firstn 1 D) (skipn 1 D) (String "e"%char (show_exp X)) X).
      * rewrite firstn_skipn. reflexivity.
      * destruct D; [congruence|discriminate].
      * intros d Hd. apply OD. eapply in_firstn; eassumption.
      * intros d Hd. apply OD. eapply in_skipn; eassumption.
      * reflexivity.
      * discriminate.
      * apply parse_exp_show.
    + apply Val. rewrite skipn_length. destruct D; [congruence|cbn [length] in *; lia].
  - apply orb_false_iff in Sci. destruct Sci as [S1 S2]. apply Z.ltb_ge in S1. apply Z.leb_gt in S2.
    destruct (Z.leb_spec 0 X).
    + set (n := Z.to_nat (X + 1)). assert (Hn : Z.of_nat n = X + 1) by (unfold n; lia).
      eexists _, _. split.
      * apply parse_parts0.
        -- intros C. apply (f_equal (@length Z)) in C. rewrite app_length, repeat_length, firstn_length in C. cbn in C. lia.
        -- intros d Hd. apply in_app_iff in Hd. destruct Hd as [Hd|Hd]; [apply OD; eapply in_firstn; eassumption|eapply zeros_ok; eassumption].
        -- intros d Hd. apply OD. eapply in_skipn; eassumption.
      * rewrite skipn_length. destruct (Nat.le_gt_cases (length D) n) as [C|C].
        -- rewrite firstn_all2, skipn_all2, app_nil_r, value_of_app, value_of_zeros, repeat_length by assumption.
           replace (length D - n)%nat with 0%nat by lia. change (p10 (- Z.of_nat 0)) with 1%R.
           rewrite Z.add_0_r, mult_IZR, <- p10_Z, Rmult_1_r by lia. apply Val. lia.
        -- replace (n - length D)%nat with 0%nat by lia. cbn [repeat]. rewrite app_nil_r, firstn_skipn. apply Val. lia.
    + eexists _, _. split.
      * apply parse_parts0; [discriminate| |].
        -- intros d [<-|[]]. unfold digit_ok. lia.
        -- intros d Hd. apply in_app_iff in Hd. destruct Hd as [Hd|Hd]; [eapply zeros_ok; eassumption|auto].
      * change ([0] ++ repeat 0 (Z.to_nat (- X - 1)) ++ D) with (repeat 0 (S (Z.to_nat (- X - 1))) ++ D).
        rewrite value_of_app, value_of_zeros, app_length, repeat_length. apply Val. lia.
Qed.

(** The first character is a digit. *)
Lemma show_six_head : forall M X, 10 ^ 5 <= M < 10 ^ 6 -> exists d r, digit_ok d /\ show_six M X = String (digit_char d) r.
Proof.
  intros M X HM. unfold show_six. destruct (shown_digits M HM) as [ND [LD [OD VM]]].
  set (D := strip_zeros (dec_digits M)) in *. destruct D as [|d D']; [congruence|].
  assert (Od : digit_ok d) by (apply OD; left; reflexivity).
  destruct ((X <? -4) || (6 <=? X)); [exists d; eexists; split; [assumption|reflexivity]|].
  destruct (Z.leb_spec 0 X).
  - assert (E : exists k, Z.to_nat (X + 1) = S k) by (exists (Z.to_nat X); lia). destruct E as [k ->].
    exists d; eexists; split; [assumption|]. cbn [firstn app show_digits append]. reflexivity.
  - exists 0. eexists. split; [unfold digit_ok; lia|reflexivity].
Qed.

Lemma parse_float_unsigned : forall s d r, digit_ok d -> parse_float (sign_str s ++ String (digit_char d) r) =
  parse_unsigned s (String (digit_char d) r).
Proof. intros s d r H. apply digit_cases in H. destruct s; intuition (subst; reflexivity). Qed.

(** ** The round trip of a number *)
Definition sgn (s : bool) : R := if s then (-1)%R else 1%R.
(** The real number of a finite double, and of what is read. *)
Definition fval (x : f64) : R :=
  match x with S754_finite s m e => (sgn s * (IZR (Zpos m) * powerRZ 2 e))%R | _ => 0%R end.
Definition nval (n : number) : R := match n with NDec s m e => (sgn s * (IZR m * p10 e))%R | _ => 0%R end.

Lemma ratio_spec : forall m e p q, ratio m e = (p, q) -> 0 < p /\ 0 < q /\ (IZR p / IZR q = IZR (Zpos m) * powerRZ 2 e)%R.
Proof.
  assert (T : forall k, 0 <= k -> powerRZ 2 k = IZR (2 ^ k)).
  { intros k Hk. rewrite <- (Z2Nat.id k) by assumption. rewrite <- pow_powerRZ, <- pow_IZR. reflexivity. }
  intros m e p q H. unfold ratio in H. destruct (Z.leb_spec 0 e); apply pair_equal_spec in H; destruct H as [<- <-].
  - split; [|split; [lia|]].
    + assert (0 < 2 ^ e) by (apply Z.pow_pos_nonneg; lia). lia.
    + rewrite mult_IZR, <- T by assumption. field.
  - assert (P : 0 < 2 ^ (- e)) by (apply Z.pow_pos_nonneg; lia).
    split; [lia|split; [assumption|]]. apply IZR_lt in P. rewrite <- T in * by lia.
    replace (powerRZ 2 e) with (/ powerRZ 2 (- e))%R; [field; lra|].
    apply Rmult_eq_reg_r with (powerRZ 2 (- e)); [|lra]. rewrite Rinv_l, <- powerRZ_add by lra.
    replace (e + - e) with 0 by lia. reflexivity.
Qed.

(** Same kind, and within the six digits. *)
Definition agrees (x : f64) (n : number) : Prop :=
  match x, n with
  | S754_nan, NNan => True
  | S754_infinity s, NInf s' => s = s'
  | S754_zero s, NDec s' m _ => s = s' /\ m = 0
  | S754_finite s _ _, NDec s' m _ => s = s' /\ 0 < m /\ (Rabs (nval n - fval x) <= 5 / 1000000 * Rabs (fval x))%R
  | _, _ => False
  end.

Lemma text_roundtrip : forall x, exists n, parse_float (show_g x) = Some n /\ agrees x n.
Proof.
  intros [s|s| |s m e].
  - exists (NDec s 0 0). split; [destruct s; reflexivity|]. split; reflexivity.
  - exists (NInf s). split; [destruct s; reflexivity|]. reflexivity.
  - exists NNan. split; [reflexivity|exact I].
  - cbn [show_g]. destruct (ratio m e) as [p q] eqn:Er. destruct (ratio_spec _ _ _ _ Er) as [Pp [Pq Ev]].
    destruct (six_digits p q) as [M X] eqn:Es. destruct (six_digits_spec _ _ _ _ Pp Pq Es) as [BM Err].
    destruct (show_six_head M X BM) as [d [r [Od Eh]]]. rewrite Eh, parse_float_unsigned, <- Eh by assumption.
    destruct (show_six_parse s M X BM) as [k [j [Ep Ek]]]. exists (NDec s k j). split; [exact Ep|].
    split; [reflexivity|]. split.
    + apply lt_IZR. apply Rmult_lt_reg_r with (p10 j); [apply p10_pos|]. rewrite Ek, Rmult_0_l.
      apply Rmult_lt_0_compat; [apply IZR_lt; lia|apply p10_pos].
    + cbn [nval fval]. rewrite Ek, <- Ev. set (y := (IZR p / IZR q)%R) in *.
      assert (Y : (0 < y)%R) by (unfold y; apply Rdiv_lt_0_compat; apply IZR_lt; assumption).
      replace (sgn s * (IZR M * p10 (X - 5)) - sgn s * y)%R with (sgn s * (IZR M * p10 (X - 5) - y))%R by ring.
      rewrite !Rabs_mult. replace (Rabs (sgn s)) with 1%R by (destruct s; cbn; [rewrite Rabs_left|rewrite Rabs_right]; lra).
      rewrite (Rabs_right y) by lra. lra.
Qed.

(** ** Lines *)
Fixpoint clean (s : string) : bool :=
  match s with EmptyString => true | String c r => negb (is_blank c) && negb (Ascii.eqb c "#") && clean r end.

Lemma clean_app : forall a b, clean (a ++ b) = clean a && clean b.
Proof. induction a as [|c a IH]; intros b; cbn; [reflexivity|]. rewrite IH, !andb_assoc. reflexivity. Qed.

Lemma clean_digits : forall l, (forall d, In d l -> digit_ok d) -> clean (show_digits l) = true.
Proof.
  induction l as [|d l IH]; intros H; [reflexivity|]. cbn [show_digits clean].
  rewrite IH by (intros; apply H; right; assumption).
  assert (D : digit_ok d) by (apply H; left; reflexivity). apply digit_cases in D. intuition (subst; reflexivity).
Qed.

Lemma clean_frac : forall l, (forall d, In d l -> digit_ok d) -> clean (show_frac l) = true.
Proof. intros [|d l] H; [reflexivity|]. cbn [show_frac clean]. rewrite clean_digits by assumption. reflexivity. Qed.

Lemma clean_six : forall M X, 10 ^ 5 <= M < 10 ^ 6 -> clean (show_six M X) = true.
Proof.
  intros M X HM. unfold show_six. destruct (shown_digits M HM) as [ND [LD [OD VM]]].
  set (D := strip_zeros (dec_digits M)) in *.
  assert (F : forall n d, In d (firstn n D) -> digit_ok d) by (intros n d Hd; apply OD; eapply in_firstn; eassumption).
  assert (G : forall n d, In d (skipn n D) -> digit_ok d) by (intros n d Hd; apply OD; eapply in_skipn; eassumption).
  destruct ((X <? -4) || (6 <=? X)); [|destruct (Z.leb_spec 0 X)]; rewrite ?clean_app.
  - rewrite clean_digits, clean_frac by eauto. cbn [andb clean]. unfold show_exp.
    destruct (dec_digits_spec (Z.abs X)) as [_ [Ok _]]; [lia|].
    destruct (X <? 0); cbn [clean]; rewrite clean_digits; try reflexivity;
      intros d Hd; apply in_app_iff in Hd; (destruct Hd as [Hd|Hd]; [eapply zeros_ok; eassumption|auto]).
  - rewrite clean_digits, clean_frac; eauto. intros d Hd. apply in_app_iff in Hd.
    destruct Hd as [Hd|Hd]; [eauto|eapply zeros_ok; eassumption].
  - rewrite clean_digits, clean_frac; [reflexivity| |].
    + intros d Hd. apply in_app_iff in Hd. destruct Hd as [Hd|Hd]; [eapply zeros_ok; eassumption|auto].
    + intros d [<-|[]]. unfold digit_ok. lia.
Qed.

Lemma clean_g : forall x, clean (show_g x) = true /\ show_g x <> EmptyString.
Proof.
  intros [s|s| |s m e]; [destruct s; split; (reflexivity || discriminate)|destruct s; split; (reflexivity || discriminate)|split; (reflexivity || discriminate)|].
  cbn [show_g]. destruct (ratio m e) as [p q] eqn:Er. destruct (ratio_spec _ _ _ _ Er) as [Pp [Pq _]].
  destruct (six_digits p q) as [M X] eqn:Es. destruct (six_digits_spec _ _ _ _ Pp Pq Es) as [BM _].
  split.
  - rewrite clean_app, clean_six by assumption. destruct s; reflexivity.
  - destruct (show_six_head M X BM) as [d [r [_ ->]]]. destruct s; discriminate.
Qed.

Lemma uncomment_clean : forall s t, clean s = true -> uncomment (s ++ t) = (s ++ uncomment t)%string.
Proof.
  induction s as [|c s IH]; intros t H; [reflexivity|]. cbn [append uncomment clean] in *.
  apply andb_true_iff in H. destruct H as [H C]. apply andb_true_iff in H. destruct H as [_ H].
  apply negb_true_iff in H. rewrite H, IH by assumption. reflexivity.
Qed.

Lemma words_from_clean : forall s cur t, clean s = true -> words_from cur (s ++ t) = words_from (cur ++ s) t.
Proof.
  induction s as [|c s IH]; intros cur t H; [cbn; rewrite append_empty; reflexivity|]. cbn [append words_from clean] in *.
  apply andb_true_iff in H. destruct H as [H C]. apply andb_true_iff in H. destruct H as [H _].
  apply negb_true_iff in H. rewrite H, IH by assumption. rewrite <- append_assoc. reflexivity.
Qed.

Lemma words_concat : forall ws, (forall w, In w ws -> clean w = true /\ w <> EmptyString) ->
  words (uncomment (String.concat " " ws)) = ws.
Proof.
  unfold words. induction ws as [|w ws IH]; intros H; [reflexivity|].
  destruct (H w (or_introl eq_refl)) as [Cw Nw].
  assert (Ew : String.eqb w "" = false) by (apply String.eqb_neq; assumption).
  destruct ws as [|w' ws'].
  - cbn [String.concat]. rewrite <- (append_empty w) at 1. rewrite uncomment_clean, words_from_clean by assumption.
    cbn [uncomment append words_from]. rewrite Ew. reflexivity.
  - change (String.concat " " (w :: w' :: ws')) with (w ++ (" " ++ String.concat " " (w' :: ws')))%string.
    rewrite uncomment_clean, words_from_clean by assumption.
    change (uncomment (" " ++ String.concat " " (w' :: ws'))) with (String " " (uncomment (String.concat " " (w' :: ws')))).
    cbn [append words_from]. change (is_blank " ") with true. cbv iota. rewrite Ew.
    rewrite IH by (intros; apply H; right; assumption). reflexivity.
Qed.

Lemma parse_words : forall r : list f64, exists ns, mapM parse_word (map show_g r) = Ok ns /\ Forall2 agrees r ns.
Proof.
  induction r as [|x r [ns [E F]]]; [exists []; split; [reflexivity|constructor]|].
  destruct (text_roundtrip x) as [n [En A]]. exists (n :: ns). cbn [map mapM]. unfold parse_word at 1. rewrite En. cbn [bind].
  rewrite E. cbn [bind]. split; [reflexivity|constructor; assumption].
Qed.

Lemma load_rows : forall (c : nat) (rows : list (list f64)) acc,
  (1 <= c)%nat -> (forall r, In r rows -> length r = c) -> (forall r, In r acc -> length r = c) ->
  exists nss, foldM load_row acc (map show_row rows) = Ok (acc ++ nss) /\ Forall2 (Forall2 agrees) rows nss.
Proof.
  intros c rows. induction rows as [|r rows IH]; intros acc Hc Hr Ha; cbn [map foldM].
  - exists []. rewrite app_nil_r. split; [reflexivity|constructor].
  - destruct (parse_words r) as [ns [En Fn]].
    assert (Lr : length r = c) by (apply Hr; left; reflexivity).
    assert (Ln : length ns = c).
    { rewrite <- Lr. clear - Fn. induction Fn; cbn; congruence. }
    assert (S : load_row acc (show_row r) = Ok (acc ++ [ns])).
    { unfold load_row, show_row. rewrite words_concat.
      - destruct (map show_g r) as [|w ws] eqn:Em; [destruct r; [cbn in Lr; lia|discriminate]|]. rewrite En. cbn [bind].
        destruct acc as [|a0 acc]; [reflexivity|].
        rewrite Ln, (Ha a0 (or_introl eq_refl)), Nat.eqb_refl. reflexivity.
      - intros w Hw. apply in_map_iff in Hw. destruct Hw as [x [<- _]]. apply clean_g. }
    rewrite S. cbn [bind]. destruct (IH (acc ++ [ns]) Hc) as [nss [E F]].
    + intros; apply Hr; right; assumption.
    + intros a Hin. apply in_app_iff in Hin. destruct Hin as [Hin|[<-|[]]]; [auto|assumption].
    + exists (ns :: nss). rewrite E, <- app_assoc. split; [reflexivity|constructor; assumption].
Qed.

(** A line starting with '#'. *)
Definition is_comment (s : string) : Prop := exists r, s = String "#" r.

Lemma load_comments : forall cs acc, (forall c, In c cs -> is_comment c) -> foldM load_row acc cs = Ok acc.
Proof.
  induction cs as [|c cs IH]; intros acc H; [reflexivity|]. cbn [foldM].
  destruct (H c (or_introl eq_refl)) as [r ->]. unfold load_row at 1. cbn [uncomment Ascii.eqb Bool.eqb words words_from String.eqb bind].
  apply IH. intros; apply H; right; assumption.
Qed.

Lemma loadtxt_table : forall cs (c : nat) rows, (forall c, In c cs -> is_comment c) -> (1 <= c)%nat ->
  (forall r, In r rows -> length r = c) ->
  exists nss, loadtxt (cs ++ map show_row rows) = Ok nss /\ Forall2 (Forall2 agrees) rows nss.
Proof.
  intros cs c rows Hcs Hc Hr. unfold loadtxt.
  assert (A : forall S X (f : S -> X -> res S) l m s, foldM f s (l ++ m) = (s' <- foldM f s l ;; foldM f s' m)).
  { intros S X f l m. induction l as [|x l IH]; intros s; [reflexivity|]. cbn [foldM app]. destruct (f s x); [apply IH|reflexivity]. }
  rewrite A, load_comments by assumption. cbn [bind].
  destruct (load_rows c rows [] Hc Hr) as [nss [E F]]; [intros r []|]. exists nss. split; assumption.
Qed.
