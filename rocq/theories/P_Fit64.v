(** Rounding errors of straight-line fits. *)
From Coq Require Import List ZArith Bool Arith Reals Lia Lra Psatz Floats.SpecFloat.
From Verif Require Import PyBase PyBaseFacts Num Spec_Stats NumFacts P_Text F64Round F64Ops F64Facts P_F64Mean P_F64Time P_F64Msd M_Helpers Spec_Fit P_Helpers P_Fit Spec_BondAngle P_BondAngle Spec_Doubles P_F64Order P_F64Dot P_Stress64 Spec_Fit64.
Import ListNotations.
Local Open Scope R_scope.

Lemma mul_bound : forall i j a b, ok a -> ok b -> Rabs (fval a) <= p2 i -> Rabs (fval b) <= p2 j -> (-1074 <= i + j < 1024)%Z ->
  ok (fmul a b) /\ Rabs (fval (fmul a b)) <= p2 (i + j) /\ Rabs (fval (fmul a b) - fval a * fval b) <= u * Rabs (fval a * fval b) + tiny.
Proof.
  intros i j a b Ka Kb Ba Bb H. pose proof (mul_spec a b (proj1 Ka) (proj1 Kb) (proj2 Ka) (proj2 Kb)) as R1.
  destruct (rounded_bounded _ _ (p2 (i + j)) R1) as [K B]; [apply format_p2; lia|rewrite Rabs_mult, p2_add; apply Rmult_le_compat; try apply Rabs_pos; assumption|apply p2_lt; lia|].
  split; [exact K|]. split; [exact B|]. apply rounded_error; assumption.
Qed.

Lemma sub_bound : forall i a b, ok a -> ok b -> Rabs (fval a) <= p2 i -> Rabs (fval b) <= p2 i -> (-1074 <= i < 1023)%Z ->
  ok (fsub a b) /\ Rabs (fval (fsub a b)) <= p2 (i + 1) /\ Rabs (fval (fsub a b) - (fval a - fval b)) <= u * Rabs (fval a - fval b).
Proof.
  intros i a b Ka Kb Ba Bb H. pose proof (sub_spec a b (proj1 Ka) (proj1 Kb) (proj2 Ka) (proj2 Kb)) as R1.
  destruct (rounded_bounded _ _ (p2 (i + 1)) R1) as [K B]; [apply format_p2; lia|rewrite p2_succ; apply Rle_trans with (1 := Rabs_triang _ _); rewrite Rabs_Ropp; lra|apply p2_lt; lia|].
  split; [exact K|]. split; [exact B|]. apply sub_relative; assumption.
Qed.

Lemma div_bound : forall i j a b, ok a -> ok b -> Rabs (fval a) <= p2 i -> p2 j <= Rabs (fval b) -> (-1074 <= i - j < 1024)%Z ->
  ok (fdiv a b) /\ Rabs (fval (fdiv a b)) <= p2 (i - j) /\ Rabs (fval (fdiv a b) - fval a / fval b) <= u * Rabs (fval a / fval b) + tiny /\ (0 <= fval a -> 0 < fval b -> 0 <= fval (fdiv a b)).
Proof.
  intros i j a b Ka Kb Ba Bb H. pose proof (p2_pos j) as P. assert (Nb : fval b <> 0) by (intros E; rewrite E, Rabs_R0 in Bb; lra).
  pose proof (div_spec a b (proj1 Ka) (proj1 Kb) (proj2 Ka) (proj2 Kb) Nb) as R1.
  assert (Q : Rabs (fval a / fval b) <= p2 (i - j)).
  { unfold Rdiv. rewrite Rabs_mult, Rabs_inv. apply Rmult_le_reg_r with (Rabs (fval b)); [lra|]. rewrite Rmult_assoc, Rinv_l, Rmult_1_r by lra. apply Rle_trans with (1 := Ba).
    replace (p2 i) with (p2 (i - j) * p2 j) by (rewrite <- p2_add; f_equal; lia). apply Rmult_le_compat_l; [left; apply p2_pos|exact Bb]. }
  destruct (rounded_bounded _ _ (p2 (i - j)) R1) as [K B]; [apply format_p2; lia|exact Q|apply p2_lt; lia|].
  split; [exact K|]. split; [exact B|]. split; [apply rounded_error; assumption|]. intros A0 B0.
  apply nearest_lower with (fval a / fval b); [apply rounded_value; [exact R1|apply K]|apply format_0|apply Rle_mult_inv_pos; assumption].
Qed.

Lemma nearby_sub : forall K b b' x y a x' y' a', nearby K b x y a -> nearby K b' x' y' a' -> nearby K (b + b') (x - x') (y - y') (a + a').
Proof.
  intros K b b' x y a x' y' a' H [A [B C]]. unfold Rminus. apply nearby_add; [exact H|]. split; [rewrite Rabs_Ropp; exact A|]. split; [exact B|].
  replace (- x' - - y') with (- (x' - y')) by ring. rewrite Rabs_Ropp. exact C.
Qed.

(** Exact counterpart: n sum xy - sum x sum y. *)
Definition cov (x y : list R) : R := INR (length x) * rsum (map (fun p => fst p * snd p) (combine x y)) - rsum x * rsum y.
Definition cov64 (n sx sy sxy : f64) : f64 := fsub (fmul n sxy) (fmul sx sy).

Lemma plain_sum : forall l s, (forall v, In v l -> ok v /\ Rabs (fval v) <= p2 60) -> (Z.of_nat (length l) <= 2 ^ 30)%Z -> sum_of l s ->
  ok s /\ Rabs (fval s) <= p2 90 /\ nearby (length l) 0 (fval s) (rsum (map fval l)) (rsum (map Rabs (map fval l))).
Proof.
  intros l s Hl Hn Hs. set (qs := map (fun v => (fval v, Rabs (fval v))) l).
  assert (F : Forall2 (fun v q => ok v /\ Rabs (fval v) <= p2 60 /\ nearby 0 0 (fval v) (fst q) (snd q)) l qs).
  { unfold qs. clear - Hl. induction l as [|v l IH]; cbn [map]; constructor; [|apply IH; intros w Hw; apply Hl; right; exact Hw].
    destruct (Hl v (or_introl eq_refl)) as [K B]. cbn [fst snd]. split; [exact K|]. split; [exact B|apply nearby_refl]. }
  destruct (sum_of_nearby 60 0 0 l s ltac:(lia) ltac:(lra) Hs qs ltac:(lia) F) as [Ks [Bs [_ [W _]]]].
  split; [exact Ks|]. split.
  - apply Rle_trans with (1 := Bs). change 90%Z with (30 + 60)%Z. rewrite p2_add. apply Rmult_le_compat_r; [left; apply p2_pos|]. rewrite p2_Z by lia. apply IZR_le. exact Hn.
  - rewrite Rmult_0_r in W. unfold qs in W. rewrite !map_map in W. cbn [fst snd] in W. rewrite map_map. exact W.
Qed.

Lemma product_sum : forall x y s, length x = length y -> (forall v, In v x -> ok v /\ Rabs (fval v) <= p2 60) -> (forall v, In v y -> ok v /\ Rabs (fval v) <= p2 60) ->
  (Z.of_nat (length x) <= 2 ^ 30)%Z -> sum_of (products_of x y) s ->
  ok s /\ Rabs (fval s) <= p2 150 /\ (x = y -> 0 <= fval s) /\
  nearby (length x + 1) (INR (length x) * tiny) (fval s) (rsum (map (fun p => fst p * snd p) (combine (map fval x) (map fval y)))) (rsum (map (fun p => Rabs (fst p) * Rabs (snd p)) (combine (map fval x) (map fval y)))).
Proof.
  intros x y s Hl Hx Hy Hn Hs. set (l := products_of x y) in *. set (qs := map (fun p : f64 * f64 => (fval (fst p) * fval (snd p), Rabs (fval (fst p)) * Rabs (fval (snd p)))) (combine x y)).
  assert (Ll : length l = length x) by (unfold l, products_of; rewrite map_length, combine_length; lia).
  assert (F : Forall2 (fun v q => ok v /\ Rabs (fval v) <= p2 120 /\ nearby 1 tiny (fval v) (fst q) (snd q)) l qs).
  { unfold l, products_of, qs. assert (G : forall p, In p (combine x y) -> In (fst p) x /\ In (snd p) y) by (intros [a b] Hp; split; [apply (in_combine_l _ _ _ _ Hp)|apply (in_combine_r _ _ _ _ Hp)]).
    revert G. generalize (combine x y). intros c G. induction c as [|[a b] c IH]; cbn [map]; constructor; [|apply IH; intros p Hp; apply G; right; exact Hp].
    destruct (G (a, b) (or_introl eq_refl)) as [I1 I2]. cbn [fst snd] in *. destruct (Hx a I1) as [Ka Ba]. destruct (Hy b I2) as [Kb Bb].
    destruct (mul_bound 60 60 a b Ka Kb Ba Bb ltac:(lia)) as [K [B E]]. split; [exact K|]. split; [exact B|].
    apply nearby_weaken with 1%nat (0 + tiny); [lia|lra|]. apply nearby_round with (fval a * fval b); [left; apply tiny_pos|rewrite <- Rabs_mult; apply nearby_refl|exact E]. }
  destruct (sum_of_nearby 120 1 tiny l s ltac:(lia) ltac:(left; apply tiny_pos) Hs qs ltac:(lia) F) as [Ks [Bs [_ [W Pos]]]]. rewrite Ll in Bs, W.
  split; [exact Ks|]. split; [|split].
  - apply Rle_trans with (1 := Bs). change 150%Z with (30 + 120)%Z. rewrite p2_add. apply Rmult_le_compat_r; [left; apply p2_pos|]. rewrite p2_Z by lia. apply IZR_le. exact Hn.
  - intros E. apply Pos. apply Forall_forall. intros v Hv. unfold l, products_of in Hv. apply in_map_iff in Hv. destruct Hv as [[a b] [<- Hp]]. cbn [fst snd].
    assert (a = b) as <- by (subst y; clear - Hp; induction x as [|h x IH]; [destruct Hp|destruct Hp as [Hp|Hp]; [congruence|auto]]).
    destruct (Hx a (in_combine_l _ _ _ _ Hp)) as [Ka Ba]. pose proof (mul_spec a a (proj1 Ka) (proj1 Ka) (proj2 Ka) (proj2 Ka)) as R1.
    destruct (mul_bound 60 60 a a Ka Ka Ba Ba ltac:(lia)) as [K _].
    apply nearest_lower with (fval a * fval a); [apply rounded_value; [exact R1|apply K]|apply format_0|apply Rle_0_sqr].
  - assert (Em : forall (g : R * R -> R) (f : f64 * f64 -> R * R) (h : R * R -> R), (forall a b, g (f (a, b)) = h (fval a, fval b)) -> forall (v w : list f64), map g (map f (combine v w)) = map h (combine (map fval v) (map fval w))).
    { intros g f h H. induction v as [|a v IH]; intros [|b w]; cbn [combine map]; try reflexivity. rewrite H, IH. reflexivity. }
    unfold qs in W. rewrite (Em fst _ (fun p => fst p * snd p)), (Em snd _ (fun p => Rabs (fst p) * Rabs (snd p))) in W by reflexivity.
    apply nearby_weaken with (3 := W); [lia|lra].
Qed.

Lemma cov_error : forall x y sx sy sxy, length x = length y -> (1 <= length x)%nat -> (Z.of_nat (length x) <= 2 ^ 30)%Z ->
  (forall v, In v x -> ok v /\ Rabs (fval v) <= p2 60) -> (forall v, In v y -> ok v /\ Rabs (fval v) <= p2 60) ->
  sum_of x sx -> sum_of y sy -> sum_of (products_of x y) sxy ->
  let c := cov64 (f64_ofZ (Z.of_nat (length x))) sx sy sxy in
  let X := map fval x in let Y := map fval y in
  ok c /\ Rabs (fval c) <= p2 181 /\ Rabs (cov X Y) <= scale X Y /\ Rabs (fval c - cov X Y) <= 4 * INR (length x + 1) * u * scale X Y + p2 (-1000).
Proof.
  intros x y sx sy sxy Hl H1 Hn Hx Hy Sx Sy Sxy c X Y. set (n := length x) in *.
  destruct (plain_sum x sx Hx Hn Sx) as [K1 [B1 W1]]. destruct (plain_sum y sy Hy ltac:(lia) Sy) as [K2 [B2 W2]]. rewrite <- Hl in W2. fold n in W1, W2.
  destruct (product_sum x y sxy Hl Hx Hy Hn Sxy) as [K3 [B3 [_ W3]]]. fold X Y n in W1, W2, W3.
  destruct (ofZ_exact (Z.of_nat n) ltac:(lia)) as [Kn En]. pose proof tiny_pos as TP.
  assert (N30 : 0 <= INR n <= p2 30) by (split; [apply pos_INR|rewrite p2_Z by lia; rewrite INR_IZR_INZ; apply IZR_le; exact Hn]).
  rewrite <- INR_IZR_INZ in En. assert (Bn : Rabs (fval (f64_ofZ (Z.of_nat n))) <= p2 30) by (rewrite En, Rabs_right; lra).
  set (nn := f64_ofZ (Z.of_nat n)) in *.
  destruct (mul_bound 30 150 nn sxy Kn K3 Bn B3 ltac:(lia)) as [K4 [B4 E4]]. destruct (mul_bound 90 90 sx sy K1 K2 B1 B2 ltac:(lia)) as [K5 [B5 E5]].
  change (30 + 150)%Z with 180%Z in B4. change (90 + 90)%Z with 180%Z in B5.
  destruct (sub_bound 180 _ _ K4 K5 B4 B5 ltac:(lia)) as [K6 [B6 E6]]. change (180 + 1)%Z with 181%Z in B6. fold (cov64 nn sx sy sxy) in K6, B6, E6. fold c in K6, B6, E6.
  assert (W4 : nearby (S (n + 1)) (INR n * tiny * INR n + tiny) (fval (fmul nn sxy)) (INR n * rsum (map (fun p => fst p * snd p) (combine X Y))) (INR n * rsum (map (fun p => Rabs (fst p) * Rabs (snd p)) (combine X Y)))).
  { pose proof (nearby_scale _ _ _ _ _ (INR n) (proj1 N30) W3) as W. rewrite !(Rmult_comm _ (INR n)) in W. rewrite (Rmult_comm (INR n * tiny)). apply nearby_round with (INR n * fval sxy); [lra|exact W|]. rewrite <- En. exact E4. }
  assert (W5 : nearby (S (n + n)) (0 + tiny) (fval (fmul sx sy)) (rsum X * rsum Y) (rsum (map Rabs X) * rsum (map Rabs Y))).
  { pose proof (nearby_mul _ _ _ _ _ _ _ _ _ _ W1 W2) as W. rewrite !Rmult_0_r, !Rmult_0_l, !Rplus_0_r in W. apply nearby_round with (fval sx * fval sy); [lra|exact W|exact E5]. }
  assert (W6 : nearby (S (S (n + n))) (p2 (-1001)) (fval c) (cov X Y) (scale X Y)).
  { apply nearby_weaken with (S (S (n + n))) (INR n * tiny * INR n + tiny + (0 + tiny) + 0); [lia| |].
    - assert (Q : INR n * tiny * INR n <= p2 (-1015)).
      { replace (INR n * tiny * INR n) with (INR n * INR n * tiny) by ring. change (-1015)%Z with (30 + 30 + -1075)%Z. rewrite !p2_add. apply Rmult_le_compat_r; [left; apply tiny_pos|]. apply Rmult_le_compat; lra. }
      assert (Q1 : tiny <= p2 (-1015)) by (apply p2_le; lia). assert (Q2 : p2 (-1001) = p2 2 * p2 12 * p2 (-1015)) by (rewrite <- !p2_add; reflexivity). assert (Q3 : p2 2 = 4) by (unfold p2; simpl; lra).
      assert (Q4 : 1 <= p2 12) by (change 1 with (p2 0); apply p2_le; lia). pose proof (p2_pos (-1015)). rewrite Q2, Q3. assert (4 * p2 (-1015) <= 4 * p2 12 * p2 (-1015)) by (apply Rmult_le_compat_r; lra). lra.
    - apply nearby_round with (fval (fmul nn sxy) - fval (fmul sx sy)); [lra| |rewrite Rplus_0_r; exact E6].
      assert (LX : length X = n) by (unfold X; apply map_length). unfold cov, scale. rewrite !LX. apply nearby_sub; [apply nearby_weaken with (3 := W4); [lia|lra]|exact W5]. }
  split; [exact K6|]. split; [exact B6|]. split; [apply W6|].
  assert (HK : INR (S (S (n + n))) * u <= / 2).
  { rewrite !S_INR, plus_INR. pose proof u_pos. assert (p2 32 * u <= / 2) by (unfold u; rewrite <- p2_add; replace (/ 2) with (p2 (-1)) by (unfold p2; simpl; lra); apply p2_le; lia).
    assert (Q : p2 32 = 4 * p2 30) by (change 32%Z with (2 + 30)%Z; rewrite p2_add; unfold p2 at 1; simpl; lra). assert (1 <= INR n) by (apply (le_INR 1); exact H1).
    apply Rle_trans with (p2 32 * u); [apply Rmult_le_compat_r; lra|assumption]. }
  pose proof (nearby_error _ _ _ _ _ W6 HK) as E. rewrite p2_double in E. change (-1001 + 1)%Z with (-1000)%Z in E.
  replace (4 * INR (n + 1) * u * scale X Y) with (2 * INR (S (S (n + n))) * u * scale X Y); [exact E|]. rewrite !S_INR, !plus_INR. cbn [INR]. ring.
Qed.

(** ** The exact least-squares line *)
Lemma cov_fst : forall x y : list R, length x = length y ->
  INR (length (combine x y)) * rsum (map (fun p => fst p * fst p) (combine x y)) - rsum (map fst (combine x y)) * rsum (map fst (combine x y)) = cov x x.
Proof.
  intros x y H. assert (L : length (combine x y) = length x) by (rewrite combine_length; lia). unfold cov. rewrite L, (combine_fst _ _ x y H), <- (map_fst_sq x y (fun v => v * v) H).
  replace (map (fun p : R * R => fst p * snd p) (combine x x)) with (map (fun v => v * v) x); [reflexivity|]. clear. induction x as [|v x IH]; [reflexivity|]. cbn [combine map fst snd]. rewrite IH. reflexivity.
Qed.

Lemma cov_snd : forall x y : list R, length x = length y ->
  INR (length (combine x y)) * rsum (map (fun p => snd p * snd p) (combine x y)) - rsum (map snd (combine x y)) * rsum (map snd (combine x y)) = cov y y.
Proof.
  intros x y H. assert (L : length (combine x y) = length y) by (rewrite combine_length; lia). unfold cov. rewrite L, (combine_snd _ _ x y H), <- (map_snd_sq x y (fun v => v * v) H).
  replace (map (fun p : R * R => fst p * snd p) (combine y y)) with (map (fun v => v * v) y); [reflexivity|]. clear. induction y as [|v x IH]; [reflexivity|]. cbn [combine map fst snd]. rewrite IH. reflexivity.
Qed.

Lemma cov_both : forall x y : list R, length x = length y ->
  INR (length (combine x y)) * rsum (map (fun p => fst p * snd p) (combine x y)) - rsum (map fst (combine x y)) * rsum (map snd (combine x y)) = cov x y.
Proof.
  intros x y H. assert (L : length (combine x y) = length x) by (rewrite combine_length; lia). unfold cov. rewrite L, (combine_fst _ _ x y H), (combine_snd _ _ x y H). reflexivity.
Qed.

Lemma spread_cov : forall x : list R, (1 <= length x)%nat -> spread x = cov x x.
Proof.
  intros x H. destruct x as [|v x]; [cbn in H; lia|]. pose proof (D_dev (combine (v :: x) (v :: x)) (v, v) (or_introl eq_refl)) as E. rewrite cov_fst in E by reflexivity. rewrite E.
  rewrite (combine_fst _ _ (v :: x) (v :: x) eq_refl). assert (L : length (combine (v :: x) (v :: x)) = length (v :: x)) by (rewrite combine_length; lia). rewrite L. unfold spread. f_equal.
  rewrite (map_fst_sq (v :: x) (v :: x) (fun w => (w - rmean (v :: x)) * (w - rmean (v :: x))) eq_refl). reflexivity.
Qed.

Lemma spread_distinct : forall x : list R, 0 < spread x -> exists v w, In v x /\ In w x /\ v <> w.
Proof.
  intros [|h t] H; [unfold spread in H; cbn in H; lra|].
  assert (D : (exists w, In w t /\ h <> w) \/ (forall w, In w t -> w = h)).
  { clear H. induction t as [|w t IH]; [right; intros w []|]. destruct (Req_EM_T h w) as [->|N]; [|left; exists w; split; [left; reflexivity|exact N]].
    destruct IH as [[v [I1 I2]]|IH]; [left; exists v; split; [right; exact I1|exact I2]|right; intros v [<-|Hv]; [reflexivity|apply IH; exact Hv]]. }
  destruct D as [[w [I1 I2]]|D]; [exists h, w; split; [left; reflexivity|split; [right; exact I1|exact I2]]|exfalso].
  assert (E : forall l, (forall w, In w l -> w = h) -> rsum l = INR (length l) * h).
  { induction l as [|w l IH]; intros Hl; [cbn; ring|]. cbn [rsum length]. rewrite S_INR, IH, (Hl w (or_introl eq_refl)) by (intros v Hv; apply Hl; right; exact Hv). ring. }
  assert (A : forall w, In w (h :: t) -> w = h) by (intros w [<-|Hw]; [reflexivity|apply D; exact Hw]).
  assert (M : rmean (h :: t) = h) by (unfold rmean; rewrite (E _ A); field; apply not_0_INR; cbn; lia).
  unfold spread in H. rewrite M in H. assert (Z0 : rsum (map (fun v => (v - h) * (v - h)) (h :: t)) = 0).
  { revert A. generalize (h :: t). induction l as [|w l IH]; intros A; [reflexivity|]. cbn [map rsum]. rewrite IH by (intros v Hv; apply A; right; exact Hv). rewrite (A w (or_introl eq_refl)). ring. }
  rewrite Z0, Rmult_0_r in H. lra.
Qed.

Lemma least_squares : forall (x y : list R) a b, length x = length y -> 0 < spread x -> (forall a' b', residuals x y a b <= residuals x y a' b') ->
  a * cov x x = cov x y /\ INR (length x) * residuals x y a b = cov y y - a * a * cov x x.
Proof.
  intros x y a b Hl Hs Hm. destruct (spread_distinct x Hs) as [v [w [Iv [Iw N]]]].
  assert (P : forall v, In v x -> exists p, In p (combine x y) /\ fst p = v).
  { clear - Hl. revert y Hl. induction x as [|h x IH]; intros [|k y] Hl v Hv; try discriminate; [destruct Hv|]. destruct Hv as [<-|Hv]; [exists (h, k); split; [left; reflexivity|reflexivity]|].
    destruct (IH y ltac:(cbn in Hl; lia) v Hv) as [p [I E]]. exists p. split; [right; exact I|exact E]. }
  destruct (P v Iv) as [p [Ip Ep]]. destruct (P w Iw) as [q [Iq Eq]]. assert (Npq : fst p <> fst q) by congruence.
  assert (Hx1 : (1 <= length x)%nat) by (destruct x; [destruct Iv|cbn; lia]). pose proof (spread_cov x Hx1) as Es.
  pose proof (Q_unique (combine x y) p q Ip Iq Npq a b) as U0. pose proof (nQ (combine x y) p q Ip Iq Npq) as N0. rewrite (cov_fst x y Hl), (cov_both x y Hl) in U0, N0. rewrite (cov_snd x y Hl) in N0.
  match type of U0 with _ <= Q _ ?a0 ?b0 -> _ => destruct (U0 (Hm a0 b0)) as [E1 E2] end. rewrite <- E1 in E2, N0. rewrite <- E2 in N0.
  split; [rewrite E1; field; lra|]. assert (L : length (combine x y) = length x) by (rewrite combine_length; lia). rewrite L in N0. exact N0.
Qed.

Lemma slope_error : forall x y a64 a b, fit_data x y -> well_spread (map fval x) -> slope_by x y a64 ->
  let X := map fval x in let Y := map fval y in
  (forall a' b', residuals X Y a b <= residuals X Y a' b') ->
  ok a64 /\ Rabs (fval a64) <= p2 242 /\ Rabs (fval a64 - a) <= 6 * INR (length x + 2) * u * ((scale X Y + Rabs a * scale X X) / spread X) + p2 (-800).
Proof.
  intros x y a64 a b [Hl [H2 [Hn' [Hx Hy]]]] [S1 S2] [sx [sy [sxy [sxx [A1 [A2 [A3 [A4 ->]]]]]]]] X Y Hm.
  assert (Hn : (Z.of_nat (length x) <= 2 ^ 30)%Z) by lia. assert (LX : length X = length x) by (unfold X; apply map_length). assert (LY : length Y = length y) by (unfold Y; apply map_length).
  fold X in S1, S2. pose proof (p2_pos (-60)) as P60. assert (Sp : 0 < spread X) by lra.
  destruct (least_squares X Y a b ltac:(lia) Sp Hm) as [E1 _]. pose proof (spread_cov X ltac:(lia)) as Ed. rewrite <- Ed in E1.
  destruct (cov_error x y sx sy sxy Hl ltac:(lia) Hn Hx Hy A1 A2 A3) as [K1 [B1 [C1 F1]]]. destruct (cov_error x x sx sx sxx eq_refl ltac:(lia) Hn Hx Hx A1 A1 A4) as [K2 [B2 [C2 F2]]].
  fold X Y in C1, F1, C2, F2. cbv zeta. rewrite <- Hl. fold (cov64 (f64_ofZ (Z.of_nat (length x))) sx sy sxy). fold (cov64 (f64_ofZ (Z.of_nat (length x))) sx sx sxx).
  set (nu := cov64 (f64_ofZ (Z.of_nat (length x))) sx sy sxy) in *. set (de := cov64 (f64_ofZ (Z.of_nat (length x))) sx sx sxx) in *. rewrite <- Ed in C2, F2. rewrite <- E1 in C1, F1.
  set (D := spread X) in *. set (A := scale X Y) in *. set (B := scale X X) in *. set (n1 := INR (length x + 1)) in *. rewrite LX in S2. fold n1 in S2.
  pose proof u_pos as U0. pose proof u_small as Us.
  assert (Q45 : p2 (-45) = 256 * u) by (unfold u; change (-45)%Z with (8 + -53)%Z; rewrite p2_add; unfold p2 at 1; simpl; lra). rewrite Q45 in S2.
  assert (T : p2 (-1000) <= u * p2 (-800) * p2 (-60) /\ p2 (-1000) <= u * p2 (-60)) by (unfold u; rewrite <- !p2_add; split; apply p2_le; lia). destruct T as [T T'].
  assert (Uq : p2 (-800) <= 1) by (change 1 with (p2 0); apply p2_le; lia). pose proof (p2_pos (-800)) as P9. pose proof (p2_pos (-1000)) as P10.
  assert (uD : u * p2 (-60) <= u * D) by (apply Rmult_le_compat_l; lra). assert (uD' : u * D <= / 1000 * D) by (apply Rmult_le_compat_r; lra).
  assert (N1 : 3 <= n1) by (unfold n1; replace 3 with (INR 3) by (cbn; lra); apply le_INR; lia).
  rewrite (Rabs_right D) in C2 by lra. assert (B0 : 0 < B) by lra. assert (A0 : 0 <= A) by (pose proof (Rabs_pos (a * D)); lra).
  assert (De : Rabs (fval de - D) <= / 60 * D) by lra. apply Rabs_le_inv in De.
  assert (Pd : 0 < fval de) by lra. assert (Bd : p2 (-61) <= Rabs (fval de)) by (rewrite Rabs_right by lra; assert (p2 (-60) = 2 * p2 (-61)) by (change (-60)%Z with (-61 + 1)%Z; apply p2_succ); lra).
  destruct (div_bound 181 (-61) nu de K1 K2 B1 Bd ltac:(lia)) as [K3 [B3 [E3 _]]]. change (181 - -61)%Z with 242%Z in B3. split; [exact K3|]. split; [exact B3|].
  set (q := fval nu / fval de) in *. assert (Eq : (q - a) * fval de = (fval nu - a * D) - a * (fval de - D)) by (unfold q; field; lra).
  assert (Q0 : Rabs (q - a) * fval de <= 4 * n1 * u * (A + Rabs a * B) + p2 (-1000) * (1 + Rabs a)).
  { rewrite <- (Rabs_right (fval de)) by lra. rewrite <- Rabs_mult, Eq. apply Rle_trans with (1 := Rabs_triang _ _). rewrite Rabs_Ropp, Rabs_mult. pose proof (Rabs_pos a).
    assert (Rabs a * Rabs (fval de - D) <= Rabs a * (4 * n1 * u * B + p2 (-1000))) by (apply Rmult_le_compat_l; assumption). lra. }
  pose proof (Rabs_pos a) as Pa. set (W := A + Rabs a * B) in *. assert (W0 : Rabs a * D <= Rabs a * B) by (apply Rmult_le_compat_l; lra).
  assert (W1 : Rabs a * D <= W) by (unfold W; lra). assert (Wp : 0 <= W) by (unfold W; assert (0 <= Rabs a * B) by (apply Rmult_le_pos; lra); lra).
  (* divide by the exact spread *)
  set (r := W / D). assert (R0 : r * D = W) by (unfold r; field; lra). assert (R1 : Rabs a <= r) by (apply Rmult_le_reg_r with D; lra). assert (R2 : 0 <= r) by lra.
  assert (Q1 : Rabs (q - a) <= 60 / 59 * (4 * n1 * u * r + u * (p2 (-800) + r))).
  { apply Rmult_le_reg_r with (59 / 60 * D); [lra|]. pose proof (Rabs_pos (q - a)) as Pq. assert (Rabs (q - a) * (59 / 60 * D) <= Rabs (q - a) * fval de) by (apply Rmult_le_compat_l; lra).
    replace (60 / 59 * (4 * n1 * u * r + u * (p2 (-800) + r)) * (59 / 60 * D)) with (4 * n1 * u * (r * D) + u * (p2 (-800) * D + r * D)) by field. rewrite R0.
    assert (Z1 : p2 (-1000) * Rabs a <= u * W).
    { apply Rle_trans with (u * p2 (-60) * Rabs a); [apply Rmult_le_compat_r; lra|]. rewrite Rmult_assoc. apply Rmult_le_compat_l; [lra|]. apply Rle_trans with (2 := W1). rewrite Rmult_comm. apply Rmult_le_compat_l; lra. }
    assert (Z2 : p2 (-1000) <= u * (p2 (-800) * D)) by (apply Rle_trans with (1 := T); rewrite Rmult_assoc; apply Rmult_le_compat_l; [lra|apply Rmult_le_compat_l; lra]). lra. }
  fold (fdiv nu de). apply Rle_trans with (Rabs (fval (fdiv nu de) - q) + Rabs (q - a)).
  { replace (fval (fdiv nu de) - a) with ((fval (fdiv nu de) - q) + (q - a)) by ring. apply Rabs_triang. }
  assert (Ra : Rabs q <= r + Rabs (q - a)) by (replace q with (a + (q - a)) at 1 by ring; apply Rle_trans with (1 := Rabs_triang _ _); lra).
  assert (Ub : u * Rabs q <= u * r + u * Rabs (q - a)) by (rewrite <- Rmult_plus_distr_l; apply Rmult_le_compat_l; lra). assert (Uc : u * Rabs (q - a) <= / 1000 * Rabs (q - a)) by (apply Rmult_le_compat_r; [apply Rabs_pos|lra]).
  assert (Ti : tiny <= / 2 * p2 (-800)) by (replace (/ 2) with (p2 (-1)) by (unfold p2; simpl; lra); rewrite <- p2_add; apply p2_le; lia).
  assert (En : INR (length x + 2) = n1 + 1) by (unfold n1; rewrite !plus_INR; cbn [INR]; ring). rewrite En.
  assert (Ur : 0 <= u * r) by (apply Rmult_le_pos; lra). assert (Unr : 3 * (u * r) <= n1 * (u * r)) by (apply Rmult_le_compat_r; lra). assert (U9 : u * p2 (-800) <= / 1000 * p2 (-800)) by (apply Rmult_le_compat_r; lra).
  replace (6 * (n1 + 1) * u * r) with (6 * (n1 * (u * r)) + 6 * (u * r)) by ring. lra.
Qed.

(** ** No exception for data with residuals above the roundings *)
Lemma mul_nonneg64 : forall i j a b, ok a -> ok b -> Rabs (fval a) <= p2 i -> Rabs (fval b) <= p2 j -> (-1074 <= i + j < 1024)%Z -> 0 <= fval a -> 0 <= fval b -> 0 <= fval (fmul a b).
Proof.
  intros i j a b Ka Kb Ba Bb H A0 B0. destruct (mul_bound i j a b Ka Kb Ba Bb H) as [K _]. pose proof (mul_spec a b (proj1 Ka) (proj1 Kb) (proj2 Ka) (proj2 Kb)) as R1.
  apply nearest_lower with (fval a * fval b); [apply rounded_value; [exact R1|apply K]|apply format_0|apply Rmult_le_pos; assumption].
Qed.

Lemma dot_combine : forall f g, (forall x y : list R, dot (map f x) (map g y) = rsum (map (fun p => f (fst p) * g (snd p)) (combine x y))).
Proof. intros f g. induction x as [|v x IH]; intros [|w y]; cbn [map dot combine rsum fst snd]; try reflexivity. rewrite IH. reflexivity. Qed.

Lemma scale_schwarz : forall x y, length x = length y -> scale x y * scale x y <= scale x x * scale y y.
Proof.
  intros x y Hl. unfold scale. rewrite <- !dot_combine, Hl. set (n := INR (length y)). pose proof (cauchy_schwarz2 (map Rabs x) (map Rabs y)) as C.
  pose proof (dot_self_nonneg (map Rabs x)) as P1. pose proof (dot_self_nonneg (map Rabs y)) as P2. set (dxx := dot (map Rabs x) (map Rabs x)) in *. set (dyy := dot (map Rabs y) (map Rabs y)) in *. set (dxy := dot (map Rabs x) (map Rabs y)) in *.
  set (p := rsum (map Rabs x)). set (q := rsum (map Rabs y)). assert (N : 0 <= n) by apply pos_INR.
  assert (S1 : 0 <= p * p) by apply Rle_0_sqr. assert (S2 : 0 <= q * q) by apply Rle_0_sqr. assert (S3 : 0 <= (p * q) * (p * q)) by apply Rle_0_sqr.
  assert (H : 2 * (dxy * (p * q)) <= dxx * (q * q) + dyy * (p * p)).
  { assert (HP : 0 <= dxx * (q * q) + dyy * (p * p)) by (apply Rplus_le_le_0_compat; apply Rmult_le_pos; assumption). apply Rsqr_incr_0_var; [|exact HP]. unfold Rsqr.
    assert (H1 : 0 <= (dxx * (q * q) - dyy * (p * p)) * (dxx * (q * q) - dyy * (p * p))) by apply Rle_0_sqr.
    assert (H3 : (p * q) * (p * q) * (dxy * dxy) <= (p * q) * (p * q) * (dxx * dyy)) by (apply Rmult_le_compat_l; assumption).
    apply Rle_trans with (4 * ((p * q) * (p * q) * (dxx * dyy))); [lra|]. lra. }
  assert (H4 : n * n * (dxy * dxy) <= n * n * (dxx * dyy)) by (apply Rmult_le_compat_l; [apply Rmult_le_pos; assumption|exact C]). assert (H5 : n * (2 * (dxy * (p * q))) <= n * (dxx * (q * q) + dyy * (p * p))) by (apply Rmult_le_compat_l; assumption).
  lra.
Qed.

Lemma scale_bound : forall x y : list f64, length x = length y -> (Z.of_nat (length x) <= 2 ^ 26)%Z -> (forall v, In v x -> ok v /\ Rabs (fval v) <= p2 60) -> (forall v, In v y -> ok v /\ Rabs (fval v) <= p2 60) ->
  0 <= scale (map fval x) (map fval y) <= p2 181.
Proof.
  intros x y Hl Hn Hx Hy.
  assert (S : forall l : list f64, (forall v, In v l -> ok v /\ Rabs (fval v) <= p2 60) -> 0 <= rsum (map Rabs (map fval l)) <= INR (length l) * p2 60).
  { induction l as [|v l IH]; intros H; [cbn; lra|]. cbn [map rsum length]. rewrite S_INR. destruct (H v (or_introl eq_refl)) as [_ B]. specialize (IH (fun w Hw => H w (or_intror Hw))). pose proof (Rabs_pos (fval v)). lra. }
  assert (Pr : forall l m : list f64, (forall v, In v l -> ok v /\ Rabs (fval v) <= p2 60) -> (forall v, In v m -> ok v /\ Rabs (fval v) <= p2 60) ->
    0 <= rsum (map (fun p => Rabs (fst p) * Rabs (snd p)) (combine (map fval l) (map fval m))) <= INR (length l) * p2 120).
  { induction l as [|v l IH]; intros m H Hm; [cbn; lra|]. destruct m as [|w m]; [cbn [map combine rsum]; split; [lra|apply Rmult_le_pos; [apply pos_INR|left; apply p2_pos]]|].
    cbn [map combine rsum length fst snd]. rewrite S_INR. destruct (H v (or_introl eq_refl)) as [_ B]. destruct (Hm w (or_introl eq_refl)) as [_ B'].
    specialize (IH m (fun z Hz => H z (or_intror Hz)) (fun z Hz => Hm z (or_intror Hz))). pose proof (Rabs_pos (fval v)) as P1. pose proof (Rabs_pos (fval w)) as P2.
    assert (0 <= Rabs (fval v) * Rabs (fval w)) by (apply Rmult_le_pos; assumption). assert (Rabs (fval v) * Rabs (fval w) <= p2 120) by (change 120%Z with (60 + 60)%Z; rewrite p2_add; apply Rmult_le_compat; assumption). lra. }
  destruct (S x Hx) as [X0 X1]. destruct (S y Hy) as [Y0 Y1]. destruct (Pr x y Hx Hy) as [Z0 Z1]. rewrite <- Hl in Y1. unfold scale. rewrite map_length.
  assert (N : 0 <= INR (length x) <= p2 26) by (split; [apply pos_INR|rewrite p2_Z by lia; rewrite INR_IZR_INZ; apply IZR_le; exact Hn]). set (n := INR (length x)) in *.
  pose proof (p2_pos 60) as P60. pose proof (p2_pos 120) as P120. split; [apply Rplus_le_le_0_compat; apply Rmult_le_pos; lra|].
  assert (A1 : n * rsum (map (fun p => Rabs (fst p) * Rabs (snd p)) (combine (map fval x) (map fval y))) <= p2 26 * (p2 26 * p2 120)).
  { apply Rmult_le_compat; try lra. apply Rle_trans with (1 := Z1). apply Rmult_le_compat_r; lra. }
  assert (A2 : rsum (map Rabs (map fval x)) * rsum (map Rabs (map fval y)) <= (p2 26 * p2 60) * (p2 26 * p2 60)).
  { assert (n * p2 60 <= p2 26 * p2 60) by (apply Rmult_le_compat_r; lra). apply Rmult_le_compat; lra. }
  rewrite <- !p2_add in A1, A2. change (26 + (26 + 120))%Z with 172%Z in A1. change (26 + 60 + (26 + 60))%Z with 172%Z in A2. pose proof (p2_double 172) as Q. change (172 + 1)%Z with 173%Z in Q. assert (p2 173 <= p2 181) by (apply p2_le; lia). lra.
Qed.

(** The rounded product of the squared slope and the spread. *)
Lemma explained_bound : forall n1 A B C D a a64 de g h eta t zeta, 3 <= n1 -> 0 <= A -> 0 < D <= B -> 0 <= C -> A * A <= B * C -> 256 * n1 * u * B <= D ->
  let eps := 4 * n1 * u in let W := A + Rabs a * B in let T := C + 2 * Rabs a * A + a * a * B in
  0 <= eta <= 1 -> 0 <= t -> 0 <= zeta -> eta * W <= zeta -> eta * D <= zeta -> t * (a64 * a64) <= zeta -> tiny <= zeta -> tiny * de <= zeta / 2 -> 0 < de ->
  Rabs (a * D) <= A -> Rabs (a64 - a) <= 2 * eps * (W / D) + eta -> Rabs (de - D) <= eps * B + t ->
  Rabs (g - a64 * a64) <= u * Rabs (a64 * a64) + tiny -> Rabs (h - g * de) <= u * Rabs (g * de) + tiny ->
  h <= a * a * D + 7 * eps * T + 10 * zeta.
Proof.
  intros n1 A B C D a a64 de g h eta t zeta N1 A0 [D0 DB] C0 AS EB eps W T He Ht Hz Z1 Z2 Z3 Z4 Z5 De0 AD Ea Ed Eg Eh.
  pose proof u_pos as U0. pose proof u_small as Us. assert (EPS : 0 < eps) by (unfold eps; apply Rmult_lt_0_compat; lra).
  assert (E64 : 64 * (eps * B) <= D) by (unfold eps; lra). assert (Eu : 12 * u <= eps) by (unfold eps; assert (3 * u <= n1 * u) by (apply Rmult_le_compat_r; lra); lra).
  assert (E1 : eps <= / 64).
  { apply Rmult_le_reg_r with B; [lra|]. lra. }
  pose proof (Rabs_pos a) as Pa. assert (Aa : Rabs a * Rabs a = a * a) by (rewrite <- Rabs_mult; apply Rabs_right; apply Rle_ge, Rle_0_sqr).
  assert (W0 : 0 <= W) by (unfold W; assert (0 <= Rabs a * B) by (apply Rmult_le_pos; lra); lra). set (e := Rabs (a64 - a)) in *. assert (e0 : 0 <= e) by apply Rabs_pos.
  assert (aA0 : 0 <= Rabs a * A) by (apply Rmult_le_pos; lra). assert (aB0 : 0 <= a * a * B) by (apply Rmult_le_pos; [apply Rle_0_sqr|lra]).
  assert (T0 : 0 <= T) by (unfold T; lra). assert (aW : Rabs a * W <= T) by (unfold W, T; replace (Rabs a * (A + Rabs a * B)) with (Rabs a * A + Rabs a * Rabs a * B) by ring; rewrite Aa; lra).
  assert (WT : W * W <= B * T).
  { replace (W * W) with (A * A + 2 * Rabs a * A * B + Rabs a * Rabs a * B * B) by (unfold W; ring). replace (B * T) with (B * C + 2 * Rabs a * A * B + a * a * B * B) by (unfold T; ring). rewrite Aa. lra. }
  set (r := W / D) in *. assert (rD : r * D = W) by (unfold r; field; lra). assert (r0 : 0 <= r) by (unfold r; apply Rle_mult_inv_pos; lra).
  assert (erW : eps * (r * W) <= T / 64).
  { apply Rmult_le_reg_r with D; [lra|]. replace (eps * (r * W) * D) with (eps * (W * (r * D))) by ring. rewrite rD.
    apply Rle_trans with (eps * (B * T)); [apply Rmult_le_compat_l; lra|]. replace (eps * (B * T)) with (eps * B * T) by ring. replace (T / 64 * D) with (D / 64 * T) by field. apply Rmult_le_compat_r; lra. }
  assert (S1 : e * D <= 2 * eps * W + zeta).
  { apply Rle_trans with ((2 * eps * r + eta) * D); [apply Rmult_le_compat_r; lra|]. replace ((2 * eps * r + eta) * D) with (2 * eps * (r * D) + eta * D) by ring. rewrite rD. lra. }
  assert (S2 : e * W <= T / 32 + zeta).
  { apply Rle_trans with ((2 * eps * r + eta) * W); [apply Rmult_le_compat_r; lra|]. replace ((2 * eps * r + eta) * W) with (2 * (eps * (r * W)) + eta * W) by ring. lra. }
  assert (eW : eps * (e * W) <= eps * (T / 32 + zeta)) by (apply Rmult_le_compat_l; lra).
  assert (ez : eps * zeta <= / 64 * zeta) by (apply Rmult_le_compat_r; lra). assert (etz : eta * zeta <= 1 * zeta) by (apply Rmult_le_compat_r; lra).
  assert (ezeta : 0 <= eps * zeta) by (apply Rmult_le_pos; lra). assert (eT0 : 0 <= eps * T) by (apply Rmult_le_pos; lra).
  assert (eeta : eta * (e * D) <= 2 * (eps * zeta) + zeta).
  { apply Rle_trans with (eta * (2 * eps * W + zeta)); [apply Rmult_le_compat_l; lra|]. replace (eta * (2 * eps * W + zeta)) with (2 * (eps * (eta * W)) + eta * zeta) by ring. assert (eps * (eta * W) <= eps * zeta) by (apply Rmult_le_compat_l; lra). lra. }
  assert (S3 : e * e * D <= eps * T / 16 + 3 * zeta).
  { apply Rle_trans with (e * (2 * eps * W + eta * D)).
    - rewrite Rmult_assoc. apply Rmult_le_compat_l; [exact e0|]. apply Rle_trans with ((2 * eps * r + eta) * D); [apply Rmult_le_compat_r; lra|]. replace ((2 * eps * r + eta) * D) with (2 * eps * (r * D) + eta * D) by ring. rewrite rD. lra.
    - replace (e * (2 * eps * W + eta * D)) with (2 * (eps * (e * W)) + eta * (e * D)) by ring. lra. }
  set (M := a64 * a64) in *. assert (M0 : 0 <= M) by apply Rle_0_sqr.
  assert (Ee : (a64 - a) * (a64 - a) = e * e) by (unfold e; rewrite <- Rabs_mult; symmetry; apply Rabs_right; apply Rle_ge, Rle_0_sqr).
  assert (aD : Rabs a * D <= W) by (unfold W; assert (Rabs a * D <= Rabs a * B) by (apply Rmult_le_compat_l; lra); lra).
  assert (S4 : M * D <= a * a * D + 4 * (eps * T) + eps * T / 16 + 5 * zeta).
  { assert (X1 : a * (a64 - a) <= Rabs a * e) by (unfold e; rewrite <- Rabs_mult; apply Rle_abs). replace M with (a * a + 2 * (a * (a64 - a)) + (a64 - a) * (a64 - a)) by (unfold M; ring). rewrite Ee.
    assert (X2 : a * (a64 - a) * D <= Rabs a * e * D) by (apply Rmult_le_compat_r; lra).
    assert (X3 : Rabs a * (e * D) <= Rabs a * (2 * eps * W + eta * D)).
    { apply Rmult_le_compat_l; [lra|]. apply Rle_trans with ((2 * eps * r + eta) * D); [apply Rmult_le_compat_r; lra|]. replace ((2 * eps * r + eta) * D) with (2 * eps * (r * D) + eta * D) by ring. rewrite rD. lra. }
    assert (X4 : eps * (Rabs a * W) <= eps * T) by (apply Rmult_le_compat_l; lra). assert (X5 : eta * (Rabs a * D) <= eta * W) by (apply Rmult_le_compat_l; lra). lra. }
  assert (S5 : M * (eps * B) <= 2 * (eps * T) + / 32 * (eps * T / 16 + 3 * zeta)).
  { assert (X0 : 0 <= (a - (a64 - a)) * (a - (a64 - a))) by apply Rle_0_sqr. assert (X1 : M <= 2 * (a * a) + 2 * (e * e)) by (rewrite <- Ee; unfold M; lra).
    assert (EB0 : 0 <= eps * B) by (apply Rmult_le_pos; lra). apply Rle_trans with ((2 * (a * a) + 2 * (e * e)) * (eps * B)); [apply Rmult_le_compat_r; assumption|].
    assert (X2 : eps * (a * a * B) <= eps * T) by (apply Rmult_le_compat_l; [lra|unfold T; lra]). assert (X3 : e * e * (eps * B) <= e * e * (D / 64)) by (apply Rmult_le_compat_l; [apply Rle_0_sqr|lra]). lra. }
  assert (S6 : M * de <= a * a * D + (6 + / 8) * (eps * T) + 7 * zeta).
  { assert (X : de <= D + (eps * B + t)) by (apply Rabs_le_inv in Ed; lra). apply Rle_trans with (M * (D + (eps * B + t))); [apply Rmult_le_compat_l; assumption|]. lra. }
  assert (Md0 : 0 <= M * de) by (apply Rmult_le_pos; lra). rewrite (Rabs_right M) in Eg by lra.
  assert (TP := tiny_pos). assert (TD : 0 <= tiny * de) by (apply Rmult_le_pos; lra).
  assert (S7 : Rabs (g * de) <= (1 + u) * (M * de) + tiny * de).
  { rewrite Rabs_mult, (Rabs_right de) by lra. apply Rle_trans with (((1 + u) * M + tiny) * de); [apply Rmult_le_compat_r; [lra|]|right; ring].
    replace g with (M + (g - M)) by ring. apply Rle_trans with (1 := Rabs_triang _ _). rewrite (Rabs_right M) by lra. lra. }
  assert (S8 : h <= (1 + u) * ((1 + u) * (M * de) + tiny * de) + tiny).
  { apply Rabs_le_inv in Eh. pose proof (Rle_abs (g * de)) as Q. assert ((1 + u) * Rabs (g * de) <= (1 + u) * ((1 + u) * (M * de) + tiny * de)) by (apply Rmult_le_compat_l; lra). lra. }
  assert (S9 : (1 + u) * (1 + u) <= 1 + eps / 4) by (assert (u * u <= u * 1) by (apply Rmult_le_compat_l; lra); lra).
  assert (S10 : (1 + u) * (1 + u) * (M * de) <= (1 + eps / 4) * (M * de)) by (apply Rmult_le_compat_r; lra).
  assert (aDT : a * a * D <= T) by (apply Rle_trans with (a * a * B); [apply Rmult_le_compat_l; [apply Rle_0_sqr|lra]|unfold T; lra]).
  assert (S11 : eps * (M * de) <= eps * (T + (6 + / 8) * (eps * T) + 7 * zeta)) by (apply Rmult_le_compat_l; lra).
  assert (S12 : eps * (eps * T) <= / 64 * (eps * T)) by (apply Rmult_le_compat_r; lra).
  assert (S13 : u * (tiny * de) <= 1 * (tiny * de)) by (apply Rmult_le_compat_r; lra).
  replace (7 * eps * T) with (7 * (eps * T)) by ring. lra.
Qed.

Section Fit64.
Variables (x y : list f64).
Let n64 := f64_ofZ (Z.of_nat (length y)).
Let sx := nsum F64ops x.
Let sy := nsum F64ops y.
Let sxy := nsum F64ops (products_of x y).
Let sxx := nsum F64ops (products_of x x).
Let syy := nsum F64ops (products_of y y).
Let den := cov64 n64 sx sx sxx.
Let slope := fdiv (cov64 n64 sx sy sxy) den.
Let s64 := if (0 <? Z.of_nat (length y) - 2)%Z then fdiv (fsub (cov64 n64 sy sy syy) (fmul (fmul slope slope) den)) (f64_ofZ (Z.of_nat (length y) * (Z.of_nat (length y) - 2))) else S754_zero false.
Let sa64 := fdiv (fmul n64 s64) den.
Let sb64 := fdiv (fmul sa64 sxx) n64.

Lemma squares_products : forall l : list f64, map (nsq F64ops) l = products_of l l.
Proof. induction l as [|v l IH]; [reflexivity|]. cbn [map]. unfold products_of in *. cbn [combine map fst snd]. rewrite IH. reflexivity. Qed.

Lemma linear_fit64 : linear_fit F64ops x y = (ra <- msqrt F64ops sa64 ;; rb <- msqrt F64ops sb64 ;; Ok (slope, fsub (fdiv sy n64) (fdiv (fmul slope sx) n64), ra, rb)).
Proof. unfold linear_fit. change (num F64ops) with f64. rewrite !squares_products. reflexivity. Qed.

Lemma slope_slope_by : slope_by x y slope.
Proof. exists sx, sy, sxy, sxx. split; [apply nsum_sum_of|]. split; [apply nsum_sum_of|]. split; [apply nsum_sum_of|]. split; [apply nsum_sum_of|]. reflexivity. Qed.

Lemma msqrt_ok : forall v, ok v -> 0 <= fval v -> msqrt F64ops v = Ok (nsqrt F64ops v).
Proof.
  intros v K H. unfold msqrt. assert (E : nlt F64ops v (n0 F64ops) = false); [|rewrite E; reflexivity].
  apply Bool.not_true_is_false. intros W. apply (ltb_spec _ _ K (ok_zero false)) in W. change (fval (S754_zero false)) with 0 in W. lra.
Qed.

Lemma fit_no_exception : forall a b, fit_data x y -> well_spread (map fval x) ->
  let X := map fval x in let Y := map fval y in
  (forall a' b', residuals X Y a b <= residuals X Y a' b') ->
  ((2 < length x)%nat -> 32 * INR (length x + 1) * u * (scale Y Y + 2 * Rabs a * scale X Y + a * a * scale X X) + p2 (-300) <= INR (length x) * residuals X Y a b) ->
  exists ra rb, linear_fit F64ops x y = Ok (slope, fsub (fdiv sy n64) (fdiv (fmul slope sx) n64), ra, rb).
Proof.
  intros a b Hd Hw X Y Hm Hr. destruct (slope_error x y slope a b Hd Hw slope_slope_by Hm) as [K3 [B3 E3]]. fold X Y in E3.
  destruct Hd as [Hl [H2 [Hn' [Hx Hy]]]]. destruct Hw as [S1 S2]. fold X in S1, S2. assert (Hn : (Z.of_nat (length x) <= 2 ^ 30)%Z) by lia.
  assert (LX : length X = length x) by (unfold X; apply map_length). assert (LY : length Y = length y) by (unfold Y; apply map_length).
  pose proof (p2_pos (-60)) as P60. assert (Sp : 0 < spread X) by lra.
  destruct (least_squares X Y a b ltac:(lia) Sp Hm) as [E1 E2]. pose proof (spread_cov X ltac:(lia)) as Ed. rewrite <- Ed in E1, E2. rewrite LX in E2.
  destruct (cov_error x x sx sx sxx eq_refl ltac:(lia) Hn Hx Hx (nsum_sum_of x) (nsum_sum_of x) (nsum_sum_of _)) as [K2 [B2 [C2 F2]]]. destruct (cov_error y y sy sy syy eq_refl ltac:(lia) ltac:(lia) Hy Hy (nsum_sum_of y) (nsum_sum_of y) (nsum_sum_of _)) as [K5 [B5 [C5 F5]]].
  destruct (cov_error x y sx sy sxy Hl ltac:(lia) Hn Hx Hy (nsum_sum_of x) (nsum_sum_of y) (nsum_sum_of _)) as [_ [_ [C1 _]]].
  fold X Y in C1, C2, F2, C5, F5. rewrite Hl in K2, B2, F2. fold n64 in K2, B2, F2, K5, B5, F5. fold den in K2, B2, F2. rewrite <- Ed in C2, F2. rewrite <- E1 in C1. rewrite <- Hl in F2, F5.
  destruct (scale_bound x y Hl Hn' Hx Hy) as [A0 A1]. destruct (scale_bound x x eq_refl Hn' Hx Hx) as [_ B1]. destruct (scale_bound y y eq_refl ltac:(lia) Hy Hy) as [C0 _]. fold X Y in A0, A1, B1, C0.
  pose proof (scale_schwarz X Y ltac:(lia)) as AS.
  set (D := spread X) in *. set (A := scale X Y) in *. set (B := scale X X) in *. set (C := scale Y Y) in *. set (n1 := INR (length x + 1)) in *. rewrite LX in S2. fold n1 in S2.
  set (P := cov64 n64 sy sy syy) in *. set (RSS := residuals X Y a b) in *.
  pose proof u_pos as U0. pose proof u_small as Us.
  assert (Q45 : p2 (-45) = 256 * u) by (unfold u; change (-45)%Z with (8 + -53)%Z; rewrite p2_add; unfold p2 at 1; simpl; lra). rewrite Q45 in S2.
  assert (N1 : 3 <= n1) by (unfold n1; replace 3 with (INR 3) by (cbn; lra); apply le_INR; lia).
  rewrite (Rabs_right D) in C2 by lra.
  assert (T' : p2 (-1000) <= u * p2 (-60)) by (unfold u; rewrite <- !p2_add; apply p2_le; lia). assert (uD : u * p2 (-60) <= u * D) by (apply Rmult_le_compat_l; lra). assert (uD' : u * D <= / 1000 * D) by (apply Rmult_le_compat_r; lra).
  assert (De : Rabs (fval den - D) <= / 60 * D) by lra. apply Rabs_le_inv in De. assert (Pd : 0 < fval den) by lra.
  assert (Bd : p2 (-61) <= Rabs (fval den)) by (rewrite Rabs_right by lra; assert (p2 (-60) = 2 * p2 (-61)) by (change (-60)%Z with (-61 + 1)%Z; apply p2_succ); lra).
  destruct (ofZ_exact (Z.of_nat (length y)) ltac:(lia)) as [Kn En]. fold n64 in Kn, En. assert (Bn : 1 <= fval n64 <= p2 26) by (rewrite En, p2_Z by lia; split; apply IZR_le; lia).
  assert (Bn' : Rabs (fval n64) <= p2 26) by (rewrite Rabs_right; lra).
  destruct (product_sum x x sxx eq_refl Hx Hx Hn (nsum_sum_of _)) as [Kxx [Bxx [Pxx _]]]. specialize (Pxx eq_refl).
  (* the variance of the residuals *)
  assert (S64 : ok s64 /\ Rabs (fval s64) <= p2 666 /\ 0 <= fval s64).
  { unfold s64. destruct (Z.ltb_spec 0 (Z.of_nat (length y) - 2)) as [Hdof|Hdof].
    2: { split; [apply ok_zero|]. change (fval (S754_zero false)) with 0. rewrite Rabs_R0. split; [left; apply p2_pos|lra]. }
    specialize (Hr ltac:(lia)). set (g := fmul slope slope). set (h := fmul g den).
    destruct (mul_bound 242 242 slope slope K3 K3 B3 B3 ltac:(lia)) as [Kg [Bg Eg]]. fold g in Kg, Bg, Eg. change (242 + 242)%Z with 484%Z in Bg.
    destruct (mul_bound 484 181 g den Kg K2 Bg B2 ltac:(lia)) as [Kh [Bh Eh]]. fold h in Kh, Bh, Eh. change (484 + 181)%Z with 665%Z in Bh.
    assert (BP : Rabs (fval P) <= p2 665) by (apply Rle_trans with (1 := B5); apply p2_le; lia).
    destruct (sub_bound 665 P h K5 Kh BP Bh ltac:(lia)) as [Kz [Bz _]]. change (665 + 1)%Z with 666%Z in Bz.
    assert (a' : Rabs a * D <= A) by (rewrite <- (Rabs_right D), <- Rabs_mult by lra; exact C1).
    assert (aB : Rabs a <= p2 241).
    { apply Rmult_le_reg_r with (p2 (-60)); [apply p2_pos|]. rewrite <- p2_add. change (241 + -60)%Z with 181%Z. apply Rle_trans with (Rabs a * D); [apply Rmult_le_compat_l; [apply Rabs_pos|lra]|lra]. }
    assert (Wb : A + Rabs a * B <= p2 423).
    { assert (Rabs a * B <= p2 241 * p2 181) by (apply Rmult_le_compat; try apply Rabs_pos; lra). rewrite <- p2_add in H. change (241 + 181)%Z with 422%Z in H. assert (p2 181 <= p2 422) by (apply p2_le; lia). pose proof (p2_double 422) as Q. change (422 + 1)%Z with 423%Z in Q. lra. }
    set (zeta := p2 (-310)). assert (Zp : 0 < zeta) by apply p2_pos.
    assert (Hb : fval h <= a * a * D + 7 * (4 * n1 * u) * (C + 2 * Rabs a * A + a * a * B) + 10 * zeta).
    { apply (explained_bound n1 A B C D a (fval slope) (fval den) (fval g) (fval h) (p2 (-800)) (p2 (-1000)) zeta); try assumption; try lra.
      - split; [left; apply p2_pos|change 1 with (p2 0); apply p2_le; lia].
      - left. apply p2_pos.
      - apply Rle_trans with (p2 (-800) * p2 423); [apply Rmult_le_compat_l; [left; apply p2_pos|exact Wb]|]. rewrite <- p2_add. apply p2_le. lia.
      - apply Rle_trans with (p2 (-800) * p2 181); [apply Rmult_le_compat_l; [left; apply p2_pos|lra]|]. rewrite <- p2_add. apply p2_le. lia.
      - apply Rle_trans with (p2 (-1000) * (p2 242 * p2 242)); [apply Rmult_le_compat_l; [left; apply p2_pos|]|rewrite <- !p2_add; apply p2_le; lia].
        apply Rle_trans with (Rabs (fval slope * fval slope)); [apply Rle_abs|]. rewrite Rabs_mult. apply Rmult_le_compat; try apply Rabs_pos; assumption.
      - apply p2_le. lia.
      - apply Rle_trans with (tiny * p2 181); [apply Rmult_le_compat_l; [left; apply tiny_pos|apply Rle_trans with (2 := B2); apply Rle_abs]|]. unfold tiny, zeta. rewrite <- p2_add.
        replace (p2 (-310) / 2) with (p2 (-311)) by (change (-310)%Z with (-311 + 1)%Z; rewrite p2_succ; lra). apply p2_le. lia.
      - apply Rle_trans with (1 := E3). apply Rplus_le_compat_r. apply Rmult_le_compat_r; [apply Rle_mult_inv_pos; [|lra]|].
        + assert (0 <= Rabs a * B) by (apply Rmult_le_pos; [apply Rabs_pos|lra]). lra.
        + assert (En1 : INR (length x + 2) = n1 + 1) by (unfold n1; rewrite !plus_INR; cbn [INR]; ring). rewrite En1. assert (3 * u <= n1 * u) by (apply Rmult_le_compat_r; lra). lra. }
    assert (Tz : p2 (-1000) <= zeta) by (apply p2_le; lia). assert (Z300 : 1024 * zeta = p2 (-300)) by (unfold zeta; change (-300)%Z with (10 + -310)%Z; rewrite p2_add; unfold p2 at 2; simpl; lra).
    assert (PZ : fval h <= fval P).
    { apply Rabs_le_inv in F5. assert (0 <= Rabs a * A) by (apply Rmult_le_pos; [apply Rabs_pos|lra]). assert (0 <= a * a * B) by (apply Rmult_le_pos; [apply Rle_0_sqr|lra]).
      assert (nu : 0 <= n1 * u) by (apply Rmult_le_pos; lra). assert (n1 * u * C <= n1 * u * (C + 2 * Rabs a * A + a * a * B)) by (apply Rmult_le_compat_l; lra). lra. }
    assert (Z0 : 0 <= fval (fsub P h)).
    { pose proof (sub_spec P h (proj1 K5) (proj1 Kh) (proj2 K5) (proj2 Kh)) as R1. apply nearest_lower with (fval P - fval h); [apply rounded_value; [exact R1|apply Kz]|apply format_0|lra]. }
    assert (Hm52 : (Z.of_nat (length y) * (Z.of_nat (length y) - 2) <= 2 ^ 26 * 2 ^ 26)%Z) by (apply Z.mul_le_mono_nonneg; lia).
    assert (Hm1 : (1 <= Z.of_nat (length y) * (Z.of_nat (length y) - 2))%Z) by (apply (Z.mul_le_mono_nonneg 1 _ 1); lia).
    destruct (ofZ_exact (Z.of_nat (length y) * (Z.of_nat (length y) - 2)) ltac:(lia)) as [Km Em]. assert (Bm : 1 <= fval (f64_ofZ (Z.of_nat (length y) * (Z.of_nat (length y) - 2)))) by (rewrite Em; apply IZR_le; exact Hm1).
    destruct (div_bound 666 0 (fsub P h) _ Kz Km Bz ltac:(rewrite Rabs_right by lra; exact Bm) ltac:(lia)) as [Ks [Bs [_ Ps]]]. split; [exact Ks|]. split; [exact Bs|]. apply Ps; lra. }
  destruct S64 as [Ks [Bs Ps]].
  destruct (mul_bound 26 666 n64 s64 Kn Ks Bn' Bs ltac:(lia)) as [K6 [B6 _]]. pose proof (mul_nonneg64 26 666 n64 s64 Kn Ks Bn' Bs ltac:(lia) ltac:(lra) Ps) as P6. change (26 + 666)%Z with 692%Z in B6.
  destruct (div_bound 692 (-61) _ den K6 K2 B6 Bd ltac:(lia)) as [K7 [B7 [_ P7]]]. specialize (P7 P6 Pd). change (692 - -61)%Z with 753%Z in B7. fold sa64 in K7, B7, P7.
  destruct (mul_bound 753 150 sa64 sxx K7 Kxx B7 Bxx ltac:(lia)) as [K8 [B8 _]]. pose proof (mul_nonneg64 753 150 sa64 sxx K7 Kxx B7 Bxx ltac:(lia) P7 Pxx) as P8. change (753 + 150)%Z with 903%Z in B8.
  destruct (div_bound 903 0 _ n64 K8 Kn B8 ltac:(rewrite Rabs_right by lra; change (p2 0) with 1; lra) ltac:(lia)) as [K9 [B9 [_ P9]]]. specialize (P9 P8 ltac:(lra)). fold sb64 in K9, P9.
  exists (nsqrt F64ops sa64), (nsqrt F64ops sb64). rewrite linear_fit64, (msqrt_ok sa64 K7 P7), (msqrt_ok sb64 K9 P9). reflexivity.
Qed.
End Fit64.
