(** Proofs about adjust_skip. *)
From Coq Require Import Ascii String List ZArith Bool Arith Reals Lia Lra.
From Verif Require Import PyBase PyBaseFacts Num NumFacts M_Helpers Spec_Correlation Spec_Decimal.
Import ListNotations.
Local Open Scope nat_scope.

Lemma adjust_skip_inv : forall A nsteps npart bs n s,
  adjust_skip A nsteps npart bs n = Ok s ->
  exists k, skip_choice A nsteps npart bs n = Ok k /\
    s = Z.to_nat (Z.min (Z.of_nat nsteps) (Z.max 1 k)) /\
    ((k mod Z.of_nat bs = 0)%Z \/ no_int A n = Ok 1%Z).
Proof.
  intros A nsteps npart bs n s H. unfold adjust_skip in H.
  apply bind_Ok_inv in H. destruct H as [k [Hk H]]. exists k. split; [assumption|].
  apply bind_Ok_inv in H. destruct H as [ok [Hok H]]. destruct ok; [|discriminate].
  injection H as <-. split; [reflexivity|].
  destruct (Z.eqb_spec (k mod Z.of_nat bs) 0) as [E|E]; [auto|].
  right. apply bind_Ok_inv in Hok. destruct Hok as [i [Hi E2]]. injection E2 as E2.
  apply Z.eqb_eq in E2. subst. assumption.
Qed.

Lemma adjust_skip_range : forall A nsteps npart bs n s,
  1 <= nsteps -> adjust_skip A nsteps npart bs n = Ok s -> 1 <= s <= nsteps.
Proof.
  intros A nsteps npart bs n s Hn H. apply adjust_skip_inv in H.
  destruct H as [k [_ [-> _]]]. lia.
Qed.

Lemma skip_choice_form : forall A nsteps npart bs n k, 1 <= bs ->
  skip_choice A nsteps npart bs n = Ok k ->
  (exists m, k = m * Z.of_nat bs)%Z \/ k = Z.of_nat nsteps.
Proof.
  intros A nsteps npart bs n k Hbs H.
  assert (forall x, (x <- no_float A n ;;
      if nlt A x (n0 A) || no_is_str A n "1.0"%string then Ok (Z.of_nat bs)
      else if nlt A (n1 A) x then
        q <- pydiv A (nofnat A (nsteps / bs)) x ;;
        k <- pyint A q ;; Ok (k * Z.of_nat bs)%Z
      else
        i <- no_int A n ;;
        if (i =? 1)%Z then Ok (Z.of_nat nsteps)
        else q <- pydiv A (n1 A) x ;; k <- pyint A q ;; Ok (k * Z.of_nat bs)%Z) = Ok x ->
      (exists m, x = m * Z.of_nat bs)%Z \/ x = Z.of_nat nsteps) as Main.
  { intros x Hx. apply bind_Ok_inv in Hx. destruct Hx as [fx [_ Hx]].
    destruct (nlt A fx (n0 A) || no_is_str A n "1.0"%string).
    - injection Hx as <-. left. exists 1%Z. lia.
    - destruct (nlt A (n1 A) fx).
      + apply bind_Ok_inv in Hx. destruct Hx as [q [_ Hx]].
        apply bind_Ok_inv in Hx. destruct Hx as [m [_ Hx]]. injection Hx as <-. eauto.
      + apply bind_Ok_inv in Hx. destruct Hx as [i [_ Hx]].
        destruct (i =? 1)%Z; [injection Hx as <-; auto|].
        apply bind_Ok_inv in Hx. destruct Hx as [q [_ Hx]].
        apply bind_Ok_inv in Hx. destruct Hx as [m [_ Hx]]. injection Hx as <-. eauto. }
  destruct n; [|apply Main; exact H ..].
  cbn in H. destruct (Nat.eqb_spec bs 1) as [->|_].
  - left. exists k. lia.
  - injection H as <-. left. exists 1%Z. lia.
Qed.

(** Every accepted value gives one block multiple, the whole trajectory, or 1. *)
Lemma adjust_skip_form : forall A nsteps npart bs n s,
  1 <= bs -> 1 <= nsteps -> adjust_skip A nsteps npart bs n = Ok s ->
  (exists m, s = m * bs) \/ s = nsteps \/ s = 1.
Proof.
  intros A nsteps npart bs n s Hbs Hn H.
  apply adjust_skip_inv in H. destruct H as [k [Hk [-> _]]].
  apply skip_choice_form in Hk; [|assumption].
  destruct Hk as [[m ->]| ->].
  - destruct (Z_le_gt_dec m 0).
    + right. right. assert (m * Z.of_nat bs <= 0)%Z by nia. lia.
    + destruct (Z_le_gt_dec (m * Z.of_nat bs) (Z.of_nat nsteps)).
      * left. exists (Z.to_nat m).
        assert (0 < m * Z.of_nat bs)%Z by nia.
        rewrite Z.max_r, Z.min_r by lia. rewrite Z2Nat.inj_mul by lia. rewrite Nat2Z.id. reflexivity.
      * right. left. lia.
  - right. left. lia.
Qed.

(** The number of origins 0, skip, 2 skip, ... below N. *)
Lemma origins_count : forall skip N, 1 <= skip ->
  length (origins 0 skip N) = (N + (skip - 1)) / skip.
Proof.
  intros skip N Hs. pose proof (py_range_spec 0 N skip Hs) as H.
  unfold py_range in H. destruct (Nat.eqb_spec skip 0); [lia|].
  apply (f_equal (fun r => match r with Ok l => length l | Err _ => 0 end)) in H.
  fold (origins 0 skip N) in H. cbv beta iota in H.
  rewrite <- H, map_length, seq_length. f_equal. lia.
Qed.

Section OnR.
Local Open Scope R_scope.

Lemma Rtrunc_div : forall a b : Z, (0 <= a)%Z -> (0 < b)%Z -> Rtrunc (IZR a / IZR b) = (a / b)%Z.
Proof.
  intros a b Ha Hb. assert (0 < IZR b) by (apply IZR_lt; assumption).
  assert (0 <= IZR a) by (apply IZR_le; assumption).
  rewrite Rtrunc_nonneg by (apply Rle_mult_inv_pos; assumption).
  apply Rfloor_unique. pose proof (Z.div_mod a b ltac:(lia)) as E.
  pose proof (Z.mod_pos_bound a b Hb) as B.
  apply (f_equal IZR) in E. rewrite plus_IZR, mult_IZR in E.
  assert (0 <= IZR (a mod b)) by (apply IZR_le; lia).
  assert (IZR (a mod b) < IZR b) by (apply IZR_lt; lia).
  assert (IZR a / IZR b = IZR (a / b) + IZR (a mod b) / IZR b) as ->.
  { rewrite E at 1. field. lra. }
  assert (0 <= IZR (a mod b) / IZR b) by (apply Rle_mult_inv_pos; assumption).
  assert (IZR (a mod b) / IZR b < 1).
  { apply Rmult_lt_reg_r with (IZR b); [assumption|]. unfold Rdiv. rewrite Rmult_assoc, Rinv_l by lra. lra. }
  lra.
Qed.

Lemma Rltb_true : forall x y, x < y -> Rltb x y = true.
Proof. intros. destruct (Rltb_spec x y); [reflexivity|lra]. Qed.
Lemma Rltb_false : forall x y, y <= x -> Rltb x y = false.
Proof. intros. destruct (Rltb_spec x y); [lra|reflexivity]. Qed.
Lemma Reqb_false : forall x y, x <> y -> Reqb x y = false.
Proof. intros. destruct (Reqb_spec x y); [lra|reflexivity]. Qed.
Lemma Reqb_true : forall x y, x = y -> Reqb x y = true.
Proof. intros. destruct (Reqb_spec x y); [reflexivity|lra]. Qed.
Lemma Rleb_true : forall x y, x <= y -> Rleb x y = true.
Proof. intros. destruct (Rleb_spec x y); [reflexivity|lra]. Qed.
Lemma Rleb_false : forall x y, y < x -> Rleb x y = false.
Proof. intros. destruct (Rleb_spec x y); [lra|reflexivity]. Qed.

Lemma adjust_skip_neg : forall nsteps npart bs z, (z < 0)%Z -> (1 <= bs)%nat ->
  adjust_skip Rops nsteps npart bs (NoInt z) = Ok (Nat.min nsteps bs).
Proof.
  intros nsteps npart bs z Hz Hbs. unfold adjust_skip, skip_choice, no_float. cbn [bind].
  cbn [nlt n0 Rops nofZ].
  rewrite Rltb_true by (apply IZR_lt; assumption). cbn [orb bind].
  rewrite Z_mod_same_full. cbn [Z.eqb bind]. f_equal. lia.
Qed.

Lemma adjust_skip_one : forall nsteps npart bs, (1 <= nsteps)%nat ->
  adjust_skip Rops nsteps npart bs (NoInt 1) = Ok nsteps.
Proof.
  intros nsteps npart bs Hn. unfold adjust_skip, skip_choice, no_float, no_int. cbn [bind].
  cbn [nlt n0 n1 Rops nofZ no_is_str].
  rewrite Rltb_false by lra. rewrite Rltb_false by lra. cbn [orb Z.eqb Pos.eqb bind].
  destruct (Z.of_nat nsteps mod Z.of_nat bs =? 0)%Z; cbn [bind Z.eqb Pos.eqb]; f_equal; lia.
Qed.

Lemma adjust_skip_int : forall nsteps npart bs (n : nat), (2 <= n)%nat -> (1 <= bs)%nat ->
  adjust_skip Rops nsteps npart bs (NoInt (Z.of_nat n))
  = Ok (Nat.min nsteps (Nat.max 1 (nsteps / bs / n * bs))).
Proof.
  intros nsteps npart bs n Hn Hbs. unfold adjust_skip, skip_choice, no_float, no_int. cbn [bind].
  cbn [nlt n0 n1 Rops nofZ no_is_str].
  rewrite Rltb_false by (apply IZR_le; lia). rewrite Rltb_true by (apply IZR_lt; lia).
  cbn [orb]. unfold pydiv. cbn [neq n0 Rops].
  rewrite Reqb_false by (apply not_0_IZR; lia). cbn [bind]. unfold pyint.
  unfold nofnat. cbn [ntrunc Rops nofZ ndiv bind].
  rewrite Rtrunc_div by lia.
  rewrite Z_mod_mult. cbn [Z.eqb bind]. f_equal.
  rewrite <- Nat2Z.inj_div by lia. rewrite <- Nat2Z.inj_mul. lia.
Qed.

Lemma adjust_skip_frac : forall nsteps npart bs x, 0 < x < 1 -> (1 <= bs)%nat -> (1 <= nsteps)%nat ->
  adjust_skip Rops nsteps npart bs (NoFloat (x : num Rops))
  = Ok (Nat.min nsteps (Z.to_nat (Rfloor (1 / x)) * bs)).
Proof.
  intros nsteps npart bs x Hx Hbs Hns. unfold adjust_skip, skip_choice, no_float, no_int. cbn [bind].
  cbn [nlt n0 n1 Rops nofZ no_is_str].
  rewrite Rltb_false by lra. rewrite Rltb_false by lra. cbn [orb]. unfold pyint. cbn [ntrunc Rops bind].
  assert (Rtrunc x = 0%Z) as ->.
  { rewrite Rtrunc_nonneg by lra. apply Rfloor_unique. cbn. lra. }
  cbn [Z.eqb]. unfold pydiv. cbn [neq n0 Rops]. rewrite Reqb_false by lra. cbn [bind ndiv Rops].
  assert (1 < 1 / x) as H1.
  { apply Rmult_lt_reg_r with x; [lra|]. unfold Rdiv. rewrite Rmult_assoc, Rinv_l by lra. lra. }
  rewrite Rtrunc_nonneg by lra.
  assert (1 <= Rfloor (1 / x))%Z as Hf by (apply Rfloor_ge_Z; lra).
  rewrite Z_mod_mult. cbn [Z.eqb bind]. f_equal. nia.
Qed.
End OnR.

(** With one frame per block, n origins requested give between n and 2n-1. *)
Lemma origins_int_bounds : forall nsteps npart n s, 2 <= n -> n <= nsteps ->
  adjust_skip Rops nsteps npart 1 (NoInt (Z.of_nat n)) = Ok s ->
  n <= length (origins 0 s nsteps) <= 2 * n - 1.
Proof.
  intros nsteps npart n s Hn HN H. rewrite adjust_skip_int in H by lia. apply Ok_inj in H. subst s.
  rewrite Nat.div_1_r, Nat.mul_1_r.
  assert (1 <= nsteps / n) by (apply Nat.div_le_lower_bound; lia).
  assert (nsteps / n <= nsteps) by (apply Nat.div_le_upper_bound; nia).
  rewrite Nat.max_r, Nat.min_r by lia. set (s := nsteps / n) in *.
  rewrite origins_count by lia.
  assert (n * s <= nsteps) by (apply Nat.mul_div_le; lia).
  assert (nsteps < n * s + n) by (unfold s; pose proof (Nat.div_mod nsteps n ltac:(lia));
     pose proof (Nat.mod_upper_bound nsteps n ltac:(lia)); nia).
  split.
  - apply Nat.div_le_lower_bound; nia.
  - enough ((nsteps + (s - 1)) / s < 2 * n) by lia.
    apply Nat.div_lt_upper_bound; nia.
Qed.

(** When n divides the number of frames the count is exact. *)
Lemma origins_int_exact : forall k npart n s, 2 <= n -> 1 <= k ->
  adjust_skip Rops (k * n) npart 1 (NoInt (Z.of_nat n)) = Ok s ->
  length (origins 0 s (k * n)) = n.
Proof.
  intros k npart n s Hn Hk H. rewrite adjust_skip_int in H by lia. apply Ok_inj in H. subst s.
  rewrite Nat.div_1_r, Nat.mul_1_r, Nat.div_mul by lia.
  rewrite Nat.max_r, Nat.min_r by nia. rewrite origins_count by lia.
  replace (k * n + (k - 1)) with ((k - 1) + n * k) by lia.
  rewrite Nat.div_add by lia. rewrite Nat.div_small by lia. lia.
Qed.

(** A fraction x of the frames: at least x*N and less than 2*x*N+1 origins. *)
Lemma origins_frac_bounds : forall nsteps npart x s, (0 < x < 1)%R -> 1 <= nsteps ->
  adjust_skip Rops nsteps npart 1 (NoFloat (x : num Rops)) = Ok s ->
  (x * INR nsteps <= INR (length (origins 0 s nsteps)) < 2 * x * INR nsteps + 1)%R.
Proof.
  intros nsteps npart x s Hx HN H. rewrite adjust_skip_frac in H by (assumption || lia).
  apply Ok_inj in H. subst s. rewrite Nat.mul_1_r.
  assert (1 < 1 / x)%R as H1.
  { apply Rmult_lt_reg_r with x; [lra|]. unfold Rdiv. rewrite Rmult_assoc, Rinv_l by lra. lra. }
  pose proof (Rfloor_bounds (1 / x)) as B.
  assert (1 <= Rfloor (1 / x))%Z as Hf by (apply Rfloor_ge_Z; lra).
  set (k := Z.to_nat (Rfloor (1 / x))).
  assert (INR k = IZR (Rfloor (1 / x))) as Ek.
  { unfold k. rewrite INR_IZR_INZ, Z2Nat.id by lia. reflexivity. }
  assert (1 <= k) as Hk1 by lia.
  assert (INR k * x <= 1)%R as Hkx.
  { rewrite Ek. apply Rle_trans with (1 / x * x)%R; [apply Rmult_le_compat_r; lra|]. right. field. lra. }
  assert (1 < (INR k + 1) * x)%R as Hkx2.
  { rewrite Ek. apply Rle_lt_trans with (1 / x * x)%R; [right; field; lra|]. apply Rmult_lt_compat_r; lra. }
  assert (1 <= INR k)%R as Hk1R by (apply (le_INR 1); assumption).
  assert (1 <= INR nsteps)%R as HNR by (apply (le_INR 1); assumption).
  rewrite origins_count by lia.
  set (s := Nat.min nsteps k).
  assert (1 <= s) as Hs by lia.
  set (m := (nsteps + (s - 1)) / s).
  assert (nsteps <= m * s) as L1.
  { unfold m. pose proof (Nat.div_mod (nsteps + (s - 1)) s ltac:(lia)).
    pose proof (Nat.mod_upper_bound (nsteps + (s - 1)) s ltac:(lia)). nia. }
  assert (m * s <= nsteps + (s - 1)) as L2.
  { unfold m. rewrite Nat.mul_comm. apply Nat.mul_div_le. lia. }
  assert (INR nsteps <= INR m * INR s)%R as L1R by (rewrite <- mult_INR; apply le_INR; assumption).
  assert (INR m * INR s <= INR nsteps + INR s - 1)%R as L2R.
  { rewrite <- mult_INR. apply Rle_trans with (INR (nsteps + (s - 1))); [apply le_INR; assumption|].
    rewrite plus_INR, minus_INR by lia. cbn. lra. }
  assert (INR s <= INR k)%R as Lsk by (apply le_INR; lia).
  assert (1 <= INR s)%R as Hs1R by (apply (le_INR 1); assumption).
  assert (0 <= INR m)%R as Hm0 by apply pos_INR.
  split.
  - apply Rle_trans with (x * (INR m * INR s))%R; [apply Rmult_le_compat_l; lra|].
    assert (x * INR s <= 1)%R by nra. nra.
  - destruct (Nat.le_gt_cases nsteps k) as [Hc|Hc].
    + assert (s = nsteps) as Es by lia.
      assert (INR m <= 1)%R.
      { change 1%R with (INR 1). apply le_INR. unfold m. rewrite Es.
        enough ((nsteps + (nsteps - 1)) / nsteps < 2) by lia. apply Nat.div_lt_upper_bound; lia. }
      nra.
    + assert (s = k) as Es by lia. rewrite Es in *.
      (* m*k <= N + k - 1, k+1 > 1/x, k >= 1 *)
      assert (INR m < 2 * x * INR nsteps + 1)%R; [|assumption].
      apply Rmult_lt_reg_r with (INR k); [lra|].
      assert (1 < 2 * x * INR k)%R by nra.
      assert (INR nsteps <= 2 * x * INR k * INR nsteps)%R by nra.
      nra.
Qed.

(** int() of a string with a decimal point raises. *)
Lemma digits_all : forall s acc k, all_digits s = true ->
  digits s acc k = Some (digval s acc, k + String.length s, EmptyString).
Proof.
  induction s as [|c s IH]; intros acc k H; cbn in *; [rewrite Nat.add_0_r; reflexivity|].
  destruct (digit c) as [d|]; [|discriminate]. rewrite IH by assumption. do 3 f_equal. lia.
Qed.

Lemma digit_range : forall c d, digit c = Some d -> (0 <= d <= 9)%Z.
Proof.
  intros c d H. unfold digit in H. destruct ((48 <=? Z.of_nat (nat_of_ascii c)) && (Z.of_nat (nat_of_ascii c) <=? 57))%Z eqn:E; [|discriminate].
  injection H as <-. apply andb_true_iff in E. rewrite !Z.leb_le in E. lia.
Qed.

Lemma digval_bounds : forall s acc, all_digits s = true -> (0 <= acc)%Z ->
  (acc * 10 ^ Z.of_nat (String.length s) <= digval s acc
   < (acc + 1) * 10 ^ Z.of_nat (String.length s))%Z.
Proof.
  induction s as [|c s IH]; intros acc H Ha; cbn [digval String.length].
  - cbn. lia.
  - cbn in H. destruct (digit c) as [d|] eqn:E; [|discriminate].
    apply digit_range in E. specialize (IH (acc * 10 + d)%Z H ltac:(lia)).
    rewrite Nat2Z.inj_succ, Z.pow_succ_r by lia. nia.
Qed.

Lemma str_frac_float : forall ds, all_digits ds = true ->
  str_float Rops ("0." ++ ds) = Ok (IZR (digval ds 0) / IZR (10 ^ Z.of_nat (String.length ds)))%R.
Proof.
  intros ds H. unfold str_float. cbn [append parse_sign]. cbn -[digits].
  change (digits (String "." ds) 0 1) with (Some (0%Z, 1, String "."%char ds)).
  cbn -[digits]. change (digits (String "0" (String "." ds)) 0 0) with (Some (0%Z, 1, String "."%char ds)).
  cbn -[digits]. rewrite digits_all by assumption. cbn [Nat.add]. reflexivity.
Qed.

Lemma str_frac_int : forall ds, str_int ("0." ++ ds) = Err ValueError.
Proof. intros ds. reflexivity. Qed.

Lemma adjust_skip_str_frac : forall nsteps npart bs ds, all_digits ds = true -> ds <> EmptyString ->
  adjust_skip Rops nsteps npart bs (NoStr ("0." ++ ds)) = Err ValueError.
Proof.
  intros nsteps npart bs ds H Hne. unfold adjust_skip, skip_choice.
  cbn [no_float]. rewrite str_frac_float by assumption. cbn [bind].
  pose proof (digval_bounds ds 0 H ltac:(lia)) as B.
  set (p := (10 ^ Z.of_nat (String.length ds))%Z) in *.
  assert (0 < p)%Z as Hp by (apply Z.pow_pos_nonneg; lia).
  assert (0 < IZR p)%R as HpR by (apply IZR_lt; assumption).
  assert (0 <= IZR (digval ds 0) / IZR p)%R as H0.
  { apply Rle_mult_inv_pos; [apply IZR_le; lia|assumption]. }
  assert (IZR (digval ds 0) / IZR p < 1)%R as H1.
  { apply Rmult_lt_reg_r with (IZR p); [assumption|]. unfold Rdiv. rewrite Rmult_assoc, Rinv_l by lra.
    rewrite Rmult_1_r, Rmult_1_l. apply IZR_lt. lia. }
  cbn [nlt n0 n1 Rops].
  rewrite Rltb_false by assumption. rewrite Rltb_false by lra.
  cbn [no_is_str]. change ("0." ++ ds)%string with (String "0" (String "." ds)).
  cbn [String.eqb Ascii.eqb Bool.eqb orb]. cbn [no_int].
  change (String "0" (String "." ds)) with ("0." ++ ds)%string.
  rewrite str_frac_int. reflexivity.
Qed.

Lemma adjust_skip_one_origin : forall nsteps npart bs, 1 <= nsteps ->
  exists s, adjust_skip Rops nsteps npart bs (NoInt 1) = Ok s /\ origins 0 s nsteps = [0].
Proof.
  intros nsteps npart bs Hn. exists nsteps. split; [apply adjust_skip_one; assumption|].
  unfold origins. destruct nsteps as [|n]; [lia|].
  set (f := fun i0 : nat => (0 <=? i0) && ((i0 - 0) mod S n =? 0)).
  assert (f 0 = true) as H0 by (unfold f; rewrite Nat.mod_0_l by lia; reflexivity).
  assert (forall i, In i (seq 1 n) -> f i = false) as H.
  { intros i Hi. apply in_seq in Hi. unfold f. rewrite Nat.sub_0_r, Nat.mod_small by lia.
    apply andb_false_iff. right. apply Nat.eqb_neq. lia. }
  cbn [seq filter]. rewrite H0. f_equal. clearbody f.
  clear Hn. revert H. generalize (seq 1 n) as l. induction l as [|a l IH]; intros H; [reflexivity|].
  cbn [filter]. rewrite H by (left; reflexivity). apply IH. intros; apply H; right; assumption.
Qed.

Lemma adjust_skip_zero : forall nsteps npart bs,
  adjust_skip Rops nsteps npart bs (NoInt 0) = Err ZeroDivisionError.
Proof.
  intros nsteps npart bs. unfold adjust_skip, skip_choice, no_float, no_int. cbn [bind].
  cbn [nlt n0 n1 Rops nofZ no_is_str].
  rewrite Rltb_false by lra. rewrite Rltb_false by lra. cbn [orb Z.eqb]. unfold pydiv.
  cbn [neq n0 Rops]. rewrite Reqb_true by reflexivity. reflexivity.
Qed.

Lemma str_int_digits : forall ds, all_digits ds = true -> ds <> EmptyString ->
  str_int ds = Ok (digval ds 0) /\ str_float Rops ds = Ok (IZR (digval ds 0)).
Proof.
  intros ds H Hne. destruct ds as [|c ds]; [congruence|].
  assert (parse_sign (String c ds) = (false, String c ds)) as E.
  { cbn in H. cbn. destruct (Ascii.eqb_spec c "-") as [->|_]; [cbn in H; discriminate|].
    destruct (Ascii.eqb_spec c "+") as [->|_]; [cbn in H; discriminate|reflexivity]. }
  unfold str_int, str_float. rewrite E. rewrite digits_all by assumption.
  cbn [Nat.add String.length]. split; reflexivity.
Qed.

Lemma adjust_skip_str_int : forall nsteps npart bs ds, all_digits ds = true -> ds <> EmptyString ->
  adjust_skip Rops nsteps npart bs (NoStr ds) = adjust_skip Rops nsteps npart bs (NoInt (digval ds 0)).
Proof.
  intros nsteps npart bs ds H Hne. destruct (str_int_digits ds H Hne) as [E1 E2].
  unfold adjust_skip, skip_choice, no_float, no_int. rewrite E1, E2. cbn [bind no_is_str].
  assert (String.eqb ds "1.0" = false) as ->.
  { destruct (String.eqb_spec ds "1.0"%string) as [->|_]; [cbn in H; discriminate|reflexivity]. }
  reflexivity.
Qed.

Lemma frac_above_half : forall nsteps npart x, (/ 2 < x < 1)%R -> 1 <= nsteps ->
  exists s, adjust_skip Rops nsteps npart 1 (NoFloat (x : num Rops)) = Ok s /\
            length (origins 0 s nsteps) = nsteps.
Proof.
  intros nsteps npart x Hx Hn. rewrite adjust_skip_frac by (lra || lia).
  assert (Rfloor (1 / x) = 1%Z) as ->.
  { apply Rfloor_unique. split.
    - apply Rmult_le_reg_r with x; [lra|]. unfold Rdiv. rewrite Rmult_assoc, Rinv_l by lra. lra.
    - apply Rmult_lt_reg_r with x; [lra|]. unfold Rdiv. rewrite Rmult_assoc, Rinv_l by lra. lra. }
  eexists. split; [reflexivity|]. rewrite Nat.min_r by (cbn; lia). cbn [Z.to_nat Pos.to_nat Pos.iter_op Nat.mul Nat.add].
  rewrite origins_count by (cbn; lia). cbn [Pos.to_nat Pos.iter_op].
  rewrite Nat.sub_diag, Nat.add_0_r. apply Nat.div_1_r.
Qed.
