(** Proofs about linear_grid, logx_grid, feqc, ifabsmm, linear_fit over the reals. *)
From Coq Require Import List ZArith Bool Arith Reals Lia Lra Psatz Sorting.Sorted.
From Verif Require Import PyBase PyBaseFacts Num Spec_Stats NumFacts M_Helpers Spec_Fit P_Skip.
Import ListNotations.
Local Open Scope R_scope.

Ltac toR := change (num Rops) with R in *.

Lemma nth_map_seq : forall X (f : nat -> X) n i d, (i < n)%nat -> nth i (map f (seq 0 n)) d = f i.
Proof.
  intros X f n i d H. rewrite (nth_indep _ d (f 0%nat)) by (rewrite map_length, seq_length; assumption).
  rewrite (map_nth f), seq_nth by assumption. reflexivity.
Qed.

(** ** linear_grid *)
Lemma linear_grid_int : forall (a b : R) n, (2 <= n)%Z ->
  exists g, linear_grid Rops a b (DInt n) = Ok g /\ length g = Z.to_nat n /\
    (forall i, (i < length g)%nat -> nth i g 0 = a + INR i * ((b - a) / IZR (n - 1))) /\
    nth 0 g 0 = a /\ nth (length g - 1) g 0 = b.
Proof.
  intros a b n Hn. unfold linear_grid. destruct (Z.ltb_spec 1 n); [|lia].
  eexists. split; [reflexivity|].
  unfold grid_points. rewrite map_length, seq_length. split; [reflexivity|].
  assert (forall i, (i < Z.to_nat n)%nat ->
    nth i (map (fun i => nadd Rops a (nmul Rops (nofnat Rops i)
       (ndiv Rops (nsub Rops b a) (nofZ Rops (n - 1))))) (seq 0 (Z.to_nat n))) 0
    = a + INR i * ((b - a) / IZR (n - 1))) as Hnth.
  { intros i Hi. etransitivity; [apply (nth_map_seq R); assumption|].
    rewrite nofnat_R. reflexivity. }
  split; [exact Hnth|].
  assert (IZR (n - 1) <> 0) by (apply not_0_IZR; lia).
  split.
  - etransitivity; [apply Hnth; lia|]. cbn [INR]. lra.
  - rewrite Hnth by lia. rewrite INR_IZR_INZ.
    replace (Z.of_nat (Z.to_nat n - 1)) with (n - 1)%Z by lia. toR. field. assumption.
Qed.

Lemma linear_grid_float : forall (a b d : R), a <= b -> 0 < d ->
  exists g, linear_grid Rops a b (DFloat (d : num Rops)) = Ok g /\
    length g = Z.to_nat (Rfloor ((b - a) / d) + 1) /\
    (forall i, (i < length g)%nat -> nth i g 0 = a + INR i * d) /\
    (forall v, In v g -> a <= v <= b) /\
    g <> [] /\ b - nth (length g - 1) g 0 < d.
Proof.
  intros a b d Hab Hd. unfold linear_grid. cbn [neq Rops n0]. rewrite Reqb_false by lra.
  cbn [ntrunc Rops ndiv nsub].
  assert (0 <= (b - a) / d) as Hq by (apply Rle_mult_inv_pos; lra).
  rewrite Rtrunc_nonneg by assumption. set (k := Rfloor ((b - a) / d)).
  assert (0 <= k)%Z as Hk by (apply Rfloor_nonneg; assumption).
  pose proof (Rfloor_bounds ((b - a) / d)) as B. fold k in B.
  assert (IZR k * d <= b - a) as B1.
  { apply Rle_trans with ((b - a) / d * d); [apply Rmult_le_compat_r; lra|]. right. field. lra. }
  assert (b - a < (IZR k + 1) * d) as B2.
  { apply Rle_lt_trans with ((b - a) / d * d); [right; field; lra|]. apply Rmult_lt_compat_r; lra. }
  eexists. split; [reflexivity|].
  unfold grid_points. rewrite map_length, seq_length. split; [reflexivity|].
  assert (forall i, (i < Z.to_nat (k + 1))%nat ->
    nth i (map (fun i => nadd Rops a (nmul Rops (nofnat Rops i) d)) (seq 0 (Z.to_nat (k + 1)))) 0
    = a + INR i * d) as Hnth.
  { intros i Hi. etransitivity; [apply (nth_map_seq R); assumption|].
    rewrite nofnat_R. reflexivity. }
  split; [exact Hnth|]. split; [|split].
  - intros v Hv. apply in_map_iff in Hv. destruct Hv as [i [<- Hi]]. apply in_seq in Hi.
    rewrite nofnat_R. cbn [nadd nmul Rops].
    assert (0 <= INR i) by apply pos_INR.
    assert (INR i <= IZR k).
    { rewrite INR_IZR_INZ. apply IZR_le. lia. }
    split; nra.
  - intros E. apply (f_equal (@length _)) in E. rewrite map_length, seq_length in E. cbn in E. lia.
  - rewrite Hnth by lia. rewrite INR_IZR_INZ.
    replace (Z.of_nat (Z.to_nat (k + 1) - 1)) with k by lia. lra.
Qed.

(** ** logx_grid *)
Lemma rpow_pos : forall b e, 0 < b -> rpow b e = Rpower b e.
Proof. intros b e H. unfold rpow. destruct (Req_EM_T b 0); [lra|reflexivity]. Qed.

Lemma Rpower_inv_pow : forall b n, 0 < b -> (0 < n)%nat -> Rpower b (1 / INR n) ^ n = b.
Proof.
  intros b n Hb Hn. rewrite <- Rpower_pow by (unfold Rpower; apply exp_pos).
  rewrite Rpower_mult. replace (1 / INR n * INR n) with 1.
  - apply Rpower_1. assumption.
  - field. apply not_0_INR. lia.
Qed.

Lemma Rpower_ge_1 : forall b n, 1 <= b -> (0 < n)%nat -> 1 <= Rpower b (1 / INR n).
Proof.
  intros b n Hb Hn. apply Rle_trans with (Rpower b 0); [rewrite Rpower_O; lra|].
  apply Rle_Rpower; [assumption|]. apply Rlt_le, Rdiv_lt_0_compat; [lra|]. apply lt_0_INR. assumption.
Qed.

Lemma pow_ge_1_mono : forall q i j, 1 <= q -> (i <= j)%nat -> q ^ i <= q ^ j.
Proof. intros. apply Rle_pow; assumption. Qed.

Lemma logx_grid_pos : forall x1 x2 n, 0 < x1 -> x1 <= x2 -> (2 <= n)%nat ->
  exists g, logx_grid x1 x2 n = Ok g /\ length g = n /\
    nth 0 g 0 = x1 /\ nth (n - 1) g 0 = x2 /\
    (forall i j, (i <= j < n)%nat -> nth i g 0 <= nth j g 0) /\
    (exists q, 1 <= q /\ q ^ n = x2 / x1 /\ nth 1 g 0 = q * q * x1 /\
       forall i, (1 <= i)%nat -> (S i < n)%nat -> nth (S i) g 0 = q * nth i g 0).
Proof.
  intros x1 x2 n H1 H12 Hn. unfold logx_grid.
  destruct (Nat.eqb_spec n 0); [lia|]. rewrite Rltb_true by assumption.
  assert (1 <= x2 / x1) as Hr.
  { apply Rmult_le_reg_r with x1; [assumption|]. unfold Rdiv. rewrite Rmult_assoc, Rinv_l by lra. lra. }
  rewrite rpow_pos by lra. set (q := Rpower (x2 / x1) (1 / INR n)).
  assert (1 <= q) as Hq by (apply Rpower_ge_1; [assumption|lia]).
  assert (q ^ n = x2 / x1) as Hqn by (apply Rpower_inv_pow; [lra|lia]).
  eexists. split; [reflexivity|]. split; [cbn [length]; rewrite map_length, seq_length; lia|].
  assert (forall i, (1 <= i < n)%nat ->
     nth i (x1 :: map (fun i => x1 * q ^ (i + 1)) (seq 1 (n - 1))) 0 = x1 * q ^ (i + 1)) as Hnth.
  { intros i Hi. destruct i as [|i]; [lia|]. cbn [nth].
    rewrite (nth_indep _ 0 (x1 * q ^ (0 + 1))) by (rewrite map_length, seq_length; lia).
    rewrite (map_nth (fun i => x1 * q ^ (i + 1))), seq_nth by lia. reflexivity. }
  split; [reflexivity|]. split; [|split].
  - rewrite Hnth by lia. replace (n - 1 + 1)%nat with n by lia. rewrite Hqn. field. lra.
  - intros i j Hij. destruct i as [|i].
    + destruct j as [|j]; [lra|]. rewrite (Hnth (S j)) by lia. cbn [nth].
      pose proof (pow_R1_Rle q (S j + 1) Hq). nra.
    + rewrite (Hnth (S i)), (Hnth j) by lia. apply Rmult_le_compat_l; [lra|].
      apply Rle_pow; [assumption|lia].
  - exists q. split; [assumption|]. split; [exact Hqn|]. split; [rewrite (Hnth 1%nat) by lia; cbn [Nat.add pow]; ring|].
    intros i Hi1 Hi2. rewrite (Hnth (S i)), (Hnth i) by lia.
    cbn [Nat.add pow]. ring.
Qed.

Lemma logx_grid_zero : forall x2 n, 0 < x2 -> (2 <= n)%nat ->
  exists g q, logx_grid 0 x2 n = Ok g /\ length g = n /\ 0 < q /\ q ^ n = x2 /\
    nth 0 g 0 = 0 /\ (forall i, (1 <= i < n)%nat -> nth i g 0 = q ^ (i + 1) - 1) /\
    nth (n - 1) g 0 = x2 - 1.
Proof.
  intros x2 n H2 Hn. unfold logx_grid.
  destruct (Nat.eqb_spec n 0); [lia|]. rewrite Rltb_false by lra.
  rewrite rpow_pos by lra. set (q := Rpower x2 (1 / INR n)).
  assert (q ^ n = x2) as Hqn by (apply Rpower_inv_pow; [lra|lia]).
  assert (forall i, (1 <= i < n)%nat ->
     nth i (0 :: map (fun i => q ^ (i + 1) - 1) (seq 1 (n - 1))) 0 = q ^ (i + 1) - 1) as Hnth.
  { intros i Hi. destruct i as [|i]; [lia|]. cbn [nth].
    rewrite (nth_indep _ 0 (q ^ (0 + 1) - 1)) by (rewrite map_length, seq_length; lia).
    rewrite (map_nth (fun i => q ^ (i + 1) - 1)), seq_nth by lia. reflexivity. }
  eexists _, q. split; [reflexivity|].
  split; [cbn [length]; rewrite map_length, seq_length; lia|].
  split; [apply exp_pos|]. split; [assumption|]. split; [reflexivity|]. split; [exact Hnth|].
  rewrite Hnth by lia. replace (n - 1 + 1)%nat with n by lia. rewrite Hqn. reflexivity.
Qed.

(** x2 >= 1: a nondecreasing grid from 0 to x2 - 1. *)
Lemma logx_grid_zero_ge1 : forall x2 n, 1 <= x2 -> (2 <= n)%nat ->
  exists g, logx_grid 0 x2 n = Ok g /\ length g = n /\ nth 0 g 0 = 0 /\
    nth (n - 1) g 0 = x2 - 1 /\
    (forall i j, (i <= j < n)%nat -> nth i g 0 <= nth j g 0).
Proof.
  intros x2 n H2 Hn. destruct (logx_grid_zero x2 n ltac:(lra) Hn) as [g [q [E [L [Hq [Hqn [H0 [Hnth Hl]]]]]]]].
  exists g. do 4 (split; [assumption|]).
  assert (1 <= q) as Hq1.
  { destruct (Rle_lt_dec 1 q); [assumption|]. exfalso.
    assert (q ^ n < 1); [|lra]. apply pow_lt_1_compat; [lra|lia]. }
  intros i j Hij. destruct i as [|i].
  - rewrite H0. destruct j as [|j]; [rewrite H0; lra|]. rewrite Hnth by lia.
    pose proof (pow_R1_Rle q (S j + 1) Hq1). lra.
  - rewrite (Hnth (S i)), (Hnth j) by lia.
    enough (q ^ (S i + 1) <= q ^ (j + 1)) by lra. apply Rle_pow; [assumption|lia].
Qed.

(** x2 < 1: every entry but the first is negative. *)
Lemma logx_grid_zero_lt1 : forall x2 n, 0 < x2 < 1 -> (2 <= n)%nat ->
  exists g, logx_grid 0 x2 n = Ok g /\ length g = n /\
    (forall i, (1 <= i < n)%nat -> nth i g 0 < 0).
Proof.
  intros x2 n H2 Hn. destruct (logx_grid_zero x2 n ltac:(lra) Hn) as [g [q [E [L [Hq [Hqn [H0 [Hnth Hl]]]]]]]].
  exists g. do 2 (split; [assumption|]).
  assert (q < 1) as Hq1.
  { destruct (Rlt_le_dec q 1); [assumption|]. exfalso. pose proof (pow_R1_Rle q n r). lra. }
  intros i Hi. rewrite Hnth by assumption.
  assert (q ^ (i + 1) < 1) by (apply pow_lt_1_compat; [lra|lia]). lra.
Qed.

(** ** feqc *)
Lemma increasing_nth : forall x i j, increasing x -> (i < j < length x)%nat -> nth i x 0 < nth j x 0.
Proof.
  intros x i j H. revert i j. induction H as [|a x Hs IH Hf]; intros i j Hij; cbn in *; [lia|].
  destruct j as [|j]; [lia|]. destruct i as [|i].
  - rewrite Forall_forall in Hf. apply Hf. apply nth_In. lia.
  - apply IH. lia.
Qed.

Section Feqc.
Variables (x f : list R) (fstar : R).
Hypothesis Hinc : increasing x.
Let s := nth 0 f 0 - fstar.
Let m := Nat.min (length x) (length f).


Lemma feqc_loop_spec : forall left i, (i + left = m)%nat -> (0 < m)%nat ->
  (forall j, (j < i)%nat -> ~ crossing f fstar j) ->
  exists r, feqc_loop Rops x f fstar s i left = Ok r /\
    match r with
    | None => forall j, (j < m)%nat -> ~ crossing f fstar j
    | Some (xs, k) =>
        (1 <= k < m)%nat /\ crossing f fstar k /\ (forall j, (j < k)%nat -> ~ crossing f fstar j) /\
        nth (k - 1) x 0 <= xs < nth k x 0 /\
        line_through (nth (k - 1) x 0) (nth (k - 1) f 0) (nth k x 0) (nth k f 0) xs = fstar
    end.
Proof.
  induction left as [|left IH]; intros i Hi Hm Hprev.
  - exists None. split; [reflexivity|]. intros j Hj. apply Hprev. lia.
  - cbn [feqc_loop]. change (num Rops) with R. rewrite (get_Ok _ f i 0) by lia. cbn [bind].
    cbn [nlt nmul nsub n0 Rops]. destruct (Rltb_spec ((nth i f 0 - fstar) * s) 0) as [Hc|Hc].
    + assert (1 <= i)%nat as Hi1.
      { destruct i as [|i]; [|lia]. exfalso. unfold s in Hc.
        pose proof (Rle_0_sqr (nth 0 f 0 - fstar)) as Hsq. unfold Rsqr in Hsq. lra. }
      unfold getZ. destruct (Z.ltb_spec (Z.of_nat i - 1) 0); [lia|].
      replace (Z.to_nat (Z.of_nat i - 1)) with (i - 1)%nat by lia.
      rewrite (get_Ok _ f (i - 1) 0) by lia.
      rewrite (get_Ok _ x i 0) by lia.
      rewrite (get_Ok _ x (i - 1) 0) by lia.
      cbn [bind neq ndiv nadd n0 Rops].
      assert (nth (i - 1) x 0 < nth i x 0) as Hx by (apply increasing_nth; [assumption|lia]).
      rewrite Reqb_false by lra.
      assert (~ crossing f fstar (i - 1)) as Hp by (apply Hprev; lia).
      unfold crossing in Hp. fold s in Hp.
      set (fi := nth i f 0) in *. set (fp := nth (i - 1) f 0) in *.
      set (xi := nth i x 0) in *. set (xp := nth (i - 1) x 0) in *.
      assert (fi <> fp) as Hne by (intros ->; lra).
      rewrite Reqb_false.
      2: { intros E. apply Hne. apply Rmult_eq_reg_r with (/ (xi - xp)).
           - unfold Rdiv in E. rewrite Rmult_minus_distr_r in E. lra.
           - apply Rinv_neq_0_compat. lra. }
      eexists. split; [reflexivity|]. split; [lia|]. split; [exact Hc|]. split; [assumption|].
      assert (xp + (fstar - fp) / ((fi - fp) / (xi - xp))
              = xp + (fstar - fp) / (fi - fp) * (xi - xp)) as -> by (field; split; lra).
      assert (0 <= (fstar - fp) / (fi - fp) < 1) as Hfr.
      { destruct (Rlt_or_le 0 s) as [Hs|Hs].
        - assert (fstar <= fp) by nra. assert (fi < fstar) by nra.
          replace ((fstar - fp) / (fi - fp)) with ((fp - fstar) / (fp - fi)) by (field; split; lra).
          split; [apply Rle_mult_inv_pos; lra|].
          apply Rmult_lt_reg_r with (fp - fi); [lra|]. unfold Rdiv. rewrite Rmult_assoc, Rinv_l by lra. lra.
        - assert (s <> 0) by (intros E; rewrite E in Hc; lra).
          assert (fp <= fstar) by nra. assert (fstar < fi) by nra.
          split; [apply Rle_mult_inv_pos; lra|].
          apply Rmult_lt_reg_r with (fi - fp); [lra|]. unfold Rdiv. rewrite Rmult_assoc, Rinv_l by lra. lra. }
      split.
      { set (t := (fstar - fp) / (fi - fp)) in *. clearbody t. fold xi xp. clear - Hx Hfr. clearbody xi xp. split; nra. }
      unfold line_through. fold xi xp fi fp. field. split; lra.
    + apply IH; [lia|assumption|]. intros j Hj. destruct (Nat.eq_dec j i) as [->|]; [exact Hc|].
      apply Hprev. lia.
Qed.

Lemma feqc_spec : f <> [] -> x <> [] ->
  exists r, feqc Rops x f fstar = Ok r /\
    match r with
    | None => forall j, (j < m)%nat -> ~ crossing f fstar j
    | Some (xs, k) =>
        (1 <= k < m)%nat /\ crossing f fstar k /\ (forall j, (j < k)%nat -> ~ crossing f fstar j) /\
        nth (k - 1) x 0 <= xs < nth k x 0 /\
        line_through (nth (k - 1) x 0) (nth (k - 1) f 0) (nth k x 0) (nth k f 0) xs = fstar
    end.
Proof.
  intros Hf Hx. assert (0 < length f)%nat by (destruct f; [congruence|cbn; lia]).
  assert (0 < length x)%nat by (destruct x; [congruence|cbn; lia]).
  unfold feqc. change (num Rops) with R. rewrite (get_Ok _ f 0 0) by lia. cbn [bind].
  apply (feqc_loop_spec m 0); [lia|unfold m; lia|]. intros j Hj; lia.
Qed.
End Feqc.

(** ** ifabsmm *)
Section Best.
Variable lt' : R -> R -> Prop.
Variable better : R -> R -> bool.
Hypothesis Hb : forall a b, better a b = true <-> lt' a b.
Hypothesis Hirr : forall a, ~ lt' a a.
Hypothesis Htr : forall a b c, lt' a b -> lt' b c -> lt' a c.
Hypothesis Htot : forall a b, lt' a b \/ a = b \/ lt' b a.

Lemma list_best_spec : forall l b,
  In (list_best Rops better b l) (b :: l) /\
  forall y, In y (b :: l) -> ~ lt' y (list_best Rops better b l).
Proof.
  induction l as [|a l IH]; intros b; cbn [list_best].
  - split; [left; reflexivity|]. intros y [<-|[]]. apply Hirr.
  - destruct (better a b) eqn:E.
    + apply Hb in E. destruct (IH a) as [H1 H2]. split.
      * destruct H1 as [H1|H1]; [right; left; exact H1|right; right; exact H1].
      * intros y [<-|Hy].
        -- intros Hlt. apply (H2 a (or_introl eq_refl)). eapply Htr; eauto.
        -- apply H2. exact Hy.
    + assert (~ lt' a b) as En by (intros C; apply Hb in C; change (num Rops) with R in *; congruence).
      destruct (IH b) as [H1 H2]. split.
      * destruct H1 as [H1|H1]; [left; exact H1|right; right; exact H1].
      * intros y [<-|[<-|Hy]].
        -- apply H2. left; reflexivity.
        -- intros Hlt. destruct (Htot a b) as [C|[->|C]]; [tauto|apply (H2 b (or_introl eq_refl)); exact Hlt|].
           apply (H2 b (or_introl eq_refl)). eapply Htr; eauto.
        -- apply H2. right; exact Hy.
Qed.

Lemma list_index_spec : forall (l : list R) v, In v l ->
  exists i, list_index Rops l v = Ok i /\ (i < length l)%nat /\ nth i l 0 = v /\
    forall j, (j < i)%nat -> nth j l 0 <> v.
Proof.
  induction l as [|a l IH]; intros v Hv; [destruct Hv|].
  cbn [list_index neq Rops]. destruct (Reqb_spec a v) as [->|Hne].
  - exists 0%nat. split; [reflexivity|]. split; [cbn; lia|]. split; [reflexivity|]. intros; lia.
  - destruct Hv as [|Hv]; [congruence|]. destruct (IH v Hv) as [i [E [Hi [Hn Hp]]]].
    rewrite E. cbn [bind]. exists (S i). split; [reflexivity|]. split; [cbn; lia|].
    split; [exact Hn|]. intros [|j] Hj; cbn; [assumption|]. apply Hp. lia.
Qed.

Lemma index_best_spec : forall f, f <> [] ->
  exists i, index_best Rops better f = Ok i /\ (i < length f)%nat /\
    (forall j, (j < length f)%nat -> ~ lt' (nth j f 0) (nth i f 0)) /\
    (forall j, (j < i)%nat -> lt' (nth i f 0) (nth j f 0)).
Proof.
  intros [|a l] Hf; [congruence|]. cbn [index_best]. toR.
  destruct (list_best_spec l a) as [Hin Hbest].
  destruct (list_index_spec (a :: l) _ Hin) as [i [E [Hi [Hn Hp]]]]. toR.
  exists i. split; [exact E|]. split; [exact Hi|].
  assert (forall j, (j < length (a :: l))%nat -> ~ lt' (nth j (a :: l) 0) (nth i (a :: l) 0)) as Hmin.
  { intros j Hj. rewrite Hn. apply Hbest. apply nth_In. exact Hj. }
  split; [exact Hmin|]. intros j Hj.
  destruct (Htot (nth i (a :: l) 0) (nth j (a :: l) 0)) as [C|[C|C]]; [exact C| |].
  - exfalso. apply (Hp j Hj). rewrite <- C. exact Hn.
  - exfalso. apply (Hmin j); [cbn in *; lia|exact C].
Qed.
End Best.

Lemma index_min_spec : forall f, f <> [] ->
  exists i, index_best Rops (fun a b => nlt Rops a b) f = Ok i /\ first_min f i.
Proof.
  intros f Hf. destruct (index_best_spec Rlt (fun a b => nlt Rops a b)) with (f := f)
    as [i [E [Hi [H1 H2]]]]; auto.
  - intros a b. cbn. destruct (Rltb_spec a b); split; intros; try assumption; try discriminate; try tauto.
  - intros a. apply Rlt_irrefl.
  - intros a b c. apply Rlt_trans.
  - intros a b. destruct (Rtotal_order a b) as [|[|]]; auto.
  - exists i. split; [exact E|]. split; [exact Hi|]. split; [|exact H2].
    intros j Hj. apply Rnot_lt_le. apply H1. exact Hj.
Qed.

Lemma index_max_spec : forall f, f <> [] ->
  exists i, index_best Rops (fun a b => nlt Rops b a) f = Ok i /\ first_max f i.
Proof.
  intros f Hf. destruct (index_best_spec Rgt (fun a b => nlt Rops b a)) with (f := f)
    as [i [E [Hi [H1 H2]]]]; auto.
  - intros a b. cbn. unfold Rgt. destruct (Rltb_spec b a); split; intros; try assumption; try discriminate; try tauto.
  - intros a. apply Rgt_irrefl.
  - intros a b c. unfold Rgt. intros; eapply Rlt_trans; eauto.
  - intros a b. unfold Rgt. destruct (Rtotal_order a b) as [|[|]]; auto.
  - exists i. split; [exact E|]. split; [exact Hi|]. split; [|exact H2].
    intros j Hj. apply Rnot_lt_le. apply H1. exact Hj.
Qed.

(** The parabola through three points. *)
Lemma parabola_through : forall x1 y1 x2 y2 x3 y3 : R, x1 < x2 -> x2 < x3 ->
  exists a b c, parabola_3points Rops x1 y1 x2 y2 x3 y3 = Ok (a, b, c) /\
    a * x1 * x1 + b * x1 + c = y1 /\ a * x2 * x2 + b * x2 + c = y2 /\ a * x3 * x3 + b * x3 + c = y3.
Proof.
  intros x1 y1 x2 y2 x3 y3 H12 H23. unfold parabola_3points.
  cbn [neq nmul nsub nadd ndiv n0 Rops]. unfold nsq. cbn [nmul Rops].
  assert ((x1 - x2) * (x1 - x3) * (x2 - x3) <> 0).
  { repeat apply Rmult_integral_contrapositive_currified; lra. }
  rewrite Reqb_false by assumption.
  eexists _, _, _. split; [reflexivity|].
  repeat split; field; repeat split; lra.
Qed.

Lemma vertex_R : forall a b c : R, a <> 0 ->
  vertex_parabola Rops a b c = Ok (- b / (2 * a), - (b * b - 4 * a * c) / (4 * a)).
Proof.
  intros a b c Ha. unfold vertex_parabola, n2, n4, nsq. cbn [neq nmul nsub nopp ndiv n0 nofZ Rops].
  rewrite Reqb_false by lra. rewrite Reqb_false by lra. reflexivity.
Qed.

(** Three points around a minimum (sg = 1) or maximum (sg = -1). *)
Lemma three_point_vertex : forall sg x1 y1 x2 y2 x3 y3 a b c,
  (sg = 1 \/ sg = -1) -> x1 < x2 -> x2 < x3 ->
  sg * y2 < sg * y1 -> sg * y2 <= sg * y3 ->
  a * x1 * x1 + b * x1 + c = y1 -> a * x2 * x2 + b * x2 + c = y2 -> a * x3 * x3 + b * x3 + c = y3 ->
  0 < sg * a /\
  (x1 + x2) / 2 < - b / (2 * a) <= (x2 + x3) / 2 /\
  sg * (- (b * b - 4 * a * c) / (4 * a)) <= sg * y2.
Proof.
  intros sg x1 y1 x2 y2 x3 y3 a b c Hsg H12 H23 Hy12 Hy23 E1 E2 E3.
  assert (sg * sg = 1) as Hss by (destruct Hsg; subst; lra).
  set (A := sg * a). set (B := sg * b).
  assert (a = sg * A) as Ea by (unfold A; rewrite <- Rmult_assoc, Hss; lra).
  assert (b = sg * B) as Eb by (unfold B; rewrite <- Rmult_assoc, Hss; lra).
  assert (sg * y1 - sg * y2 = (x1 - x2) * (A * (x1 + x2) + B)) as D12.
  { unfold A, B. rewrite <- E1, <- E2. ring. }
  assert (sg * y3 - sg * y2 = (x3 - x2) * (A * (x3 + x2) + B)) as D32.
  { unfold A, B. rewrite <- E3, <- E2. ring. }
  assert (A * (x1 + x2) + B < 0) as S1.
  { destruct (Rlt_or_le (A * (x1 + x2) + B) 0); [assumption|]. exfalso.
    assert ((x1 - x2) * (A * (x1 + x2) + B) <= 0) by nra. lra. }
  assert (0 <= A * (x3 + x2) + B) as S3.
  { destruct (Rle_or_lt 0 (A * (x3 + x2) + B)); [assumption|]. exfalso.
    assert ((x3 - x2) * (A * (x3 + x2) + B) < 0) by nra. lra. }
  assert (0 < A) as HA.
  { assert (0 < A * (x3 - x1)) by lra. destruct (Rlt_or_le 0 A); [assumption|]. exfalso. nra. }
  split; [exact HA|].
  assert (- b / (2 * a) = - B / (2 * A)) as Ev.
  { rewrite Ea, Eb. field. split; [lra|]. intros Z. rewrite Z in Hss. lra. }
  rewrite Ev. split.
  - split.
    + apply Rmult_lt_reg_r with (2 * A); [lra|].
      replace (- B / (2 * A) * (2 * A)) with (- B) by (field; lra). lra.
    + apply Rmult_le_reg_r with (2 * A); [lra|].
      replace (- B / (2 * A) * (2 * A)) with (- B) by (field; lra). lra.
  - assert (a <> 0) as Ha0 by (intros Z; unfold A in HA; rewrite Z in HA; lra).
    assert (- (b * b - 4 * a * c) / (4 * a) = y2 - a * (x2 + b / (2 * a)) * (x2 + b / (2 * a))) as ->.
    { rewrite <- E2. field. assumption. }
    replace (sg * (y2 - a * (x2 + b / (2 * a)) * (x2 + b / (2 * a))))
      with (sg * y2 - A * ((x2 + b / (2 * a)) * (x2 + b / (2 * a)))) by (unfold A; ring).
    pose proof (Rle_0_sqr (x2 + b / (2 * a))) as Hq. unfold Rsqr in Hq. nra.
Qed.

Lemma ifabsmm_at_spec : forall sg x f i, (sg = 1 \/ sg = -1) -> increasing x -> length x = length f ->
  (i < length f)%nat ->
  (forall j, (j < length f)%nat -> sg * nth i f 0 <= sg * nth j f 0) ->
  (forall j, (j < i)%nat -> sg * nth i f 0 < sg * nth j f 0) ->
  exists p, ifabsmm_at Rops x f i = Ok p /\ extremum_at sg x f i p.
Proof.
  intros sg x f i Hsg Hx Hl Hi Hmin Hfirst. unfold ifabsmm_at.
  change (num Rops) with R in *.
  destruct ((i =? length f - 1)%nat || (i =? 0)%nat) eqn:E.
  - rewrite (get_Ok _ x i 0) by lia. rewrite (get_Ok _ f i 0) by lia. cbn [bind].
    eexists. split; [reflexivity|]. split; [reflexivity|]. intros H.
    apply orb_true_iff in E. rewrite !Nat.eqb_eq in E. lia.
  - apply orb_false_iff in E. rewrite !Nat.eqb_neq in E.
    rewrite (get_Ok _ x (i - 1) 0), (get_Ok _ f (i - 1) 0), (get_Ok _ x i 0), (get_Ok _ f i 0),
      (get_Ok _ x (i + 1) 0), (get_Ok _ f (i + 1) 0) by lia. cbn [bind].
    assert (nth (i - 1) x 0 < nth i x 0) as H12 by (apply increasing_nth; [assumption|lia]).
    assert (nth i x 0 < nth (i + 1) x 0) as H23 by (apply increasing_nth; [assumption|lia]).
    specialize (Hfirst (i - 1)%nat ltac:(lia)) as Hy1.
    specialize (Hmin (i + 1)%nat ltac:(lia)) as Hy3.
    set (x1 := nth (i - 1) x 0) in *. set (x2 := nth i x 0) in *. set (x3 := nth (i + 1) x 0) in *.
    set (y1 := nth (i - 1) f 0) in *. set (y2 := nth i f 0) in *. set (y3 := nth (i + 1) f 0) in *.
    destruct (parabola_through x1 y1 x2 y2 x3 y3 H12 H23) as [a [b [c [Ep [E1 [E2 E3]]]]]].
    change (num Rops) with R in *. rewrite Ep. cbn [bind fst snd].
    destruct (three_point_vertex sg x1 y1 x2 y2 x3 y3 a b c Hsg H12 H23 Hy1 Hy3 E1 E2 E3) as [Ha [Hv Hy]].
    assert (a <> 0) as Ha0 by (intros Z; rewrite Z in Ha; lra).
    rewrite vertex_R by assumption. eexists. split; [reflexivity|].
    split; [lia|]. intros _. cbn [fst snd]. split; [exact Hv|]. split; [exact Hy|].
    intros a' b' c' F1 F2 F3. fold x1 x2 x3 y1 y2 y3 in F1, F2, F3.
    (* the three equations determine the parabola *)
    assert (a = a') as <-.
    { assert ((a - a') * (x1 + x2) + (b - b') = 0) as Q1.
      { apply Rmult_eq_reg_l with (x1 - x2); [|lra]. ring_simplify. lra. }
      assert ((a - a') * (x3 + x2) + (b - b') = 0) as Q3.
      { apply Rmult_eq_reg_l with (x3 - x2); [|lra]. ring_simplify. lra. }
      assert ((a - a') * (x3 - x1) = 0) as Q by lra.
      apply Rmult_integral in Q. lra. }
    assert (b = b') as <-.
    { apply Rmult_eq_reg_r with (x1 - x2); [|lra]. lra. }
    assert (c = c') as <- by lra.
    f_equal. field. assumption.
Qed.

Lemma ifabsmm_spec : forall x f, increasing x -> length x = length f -> f <> [] ->
  exists imin imax pmin pmax, ifabsmm Rops x f = Ok (pmin, pmax) /\
    first_min f imin /\ first_max f imax /\
    extremum_at 1 x f imin pmin /\ extremum_at (-1) x f imax pmax.
Proof.
  intros x f Hx Hl Hf.
  destruct (index_min_spec f Hf) as [imin [E1 M1]]. destruct (index_max_spec f Hf) as [imax [E2 M2]].
  pose proof M1 as [I1 [L1 F1]]. pose proof M2 as [I2 [L2 F2]].
  destruct (ifabsmm_at_spec 1 x f imin) as [pmin [P1 Q1]]; auto.
  { intros j Hj. specialize (L1 j Hj). lra. }
  { intros j Hj. specialize (F1 j Hj). lra. }
  destruct (ifabsmm_at_spec (-1) x f imax) as [pmax [P2 Q2]]; auto.
  { intros j Hj. specialize (L2 j Hj). lra. }
  { intros j Hj. specialize (F2 j Hj). lra. }
  exists imin, imax, pmin, pmax. split; [|auto].
  unfold ifabsmm. change (num Rops) with R in *. rewrite E1. cbn [bind]. rewrite E2. cbn [bind].
  rewrite P1. cbn [bind]. rewrite P2. reflexivity.
Qed.
