(** Theorems about the relaxation times of scattering functions in double precision: C136. *)
From Coq Require Import List ZArith Bool Arith Reals Lia Lra Floats.SpecFloat.
From Verif Require Import PyBase PyBaseFacts Num NumFacts P_Text F64Round F64Ops F64Facts P_F64Mean P_F64Time P_F64Dot M_Helpers M_Partial M_Analysis M_Analyze Spec_Fit P_Helpers Spec_Feqc64 P_Feqc64 P_Fit64 T_Feqc64.
Import ListNotations.
Local Open Scope R_scope.

(** ** C136 *)
(** r is the time at which the straight lines through the samples first get below the level, up to 2^-50 of
    the sample that follows; None if all samples stay above. *)
Definition decays (X Y : list R) (level : R) (r : option f64) : Prop :=
  match r with
  | None => forall y, In y Y -> level <= y
  | Some tau => ok tau /\ exists k y, (1 <= k < length X)%nat /\ (forall j, (j < k)%nat -> level <= nth j Y 0) /\ nth k Y 0 < level /\
      nth (k - 1) X 0 <= y < nth k X 0 /\ line_through (nth (k - 1) X 0) (nth (k - 1) Y 0) (nth k X 0) (nth k Y 0) y = level /\
      Rabs (fval tau - y) <= p2 (-50) * nth k X 0
  end.

Definition differ (a b : f64) : Prop := SFeqb a b = false.

Lemma decay_level : forall f0 factor, ok f0 -> ok factor -> p2 (-190) <= fval f0 <= p2 200 -> Rabs (fval factor - / exp 1) <= u ->
  let level := fmul f0 factor in
  ok level /\ p2 (-200) <= fval level <= p2 300 /\ fval level < fval f0 /\ Rabs (fval level - fval f0 * / exp 1) <= 2 * u * fval f0.
Proof.
  intros f0 factor K0 Kf B Hf level. pose proof u_small as U. pose proof (p2_pos (-190)) as P190.
  assert (E2 : 2 < exp 1) by (pose proof (exp_ineq1 1 ltac:(lra)); lra). pose proof exp_le_3 as E3.
  assert (I : / 3 <= / exp 1 <= / 2) by (split; apply Rinv_le_contravar; lra). set (c := / exp 1) in *. clearbody c.
  assert (F : - u <= fval factor - c <= u) by (pose proof (Rle_abs (fval factor - c)); pose proof (Rle_abs (- (fval factor - c))) as W; rewrite Rabs_Ropp in W; lra).
  destruct (mul_bound 200 0 f0 factor K0 Kf ltac:(rewrite Rabs_right; lra) ltac:(change (p2 0) with 1; rewrite Rabs_right; lra) ltac:(lia)) as [Kl [_ El]]. fold level in Kl, El.
  assert (T : tiny <= / 1000 * (u * fval f0)).
  { apply Rle_trans with (/ 1000 * (u * p2 (-190))); [|apply Rmult_le_compat_l; [lra|]; apply Rmult_le_compat_l; lra].
    unfold tiny, u. rewrite <- p2_add. assert (Q : p2 (-1075) * 1024 <= p2 (-53 + -190)) by (replace 1024 with (p2 10) by (rewrite (p2_Z 10) by lia; reflexivity); rewrite <- p2_add; apply p2_le; lia). pose proof (p2_pos (-1075)). lra. }
  set (a := fval f0) in *. set (b := fval factor) in *. set (l := fval level) in *. assert (Pa : 0 < a) by lra. clearbody a b l.
  assert (ua : 0 < u * a) by (apply Rmult_lt_0_compat; lra). assert (uu : u * (u * a) <= / 1000000 * (u * a)) by (apply Rmult_le_compat_r; lra).
  assert (Ab : a * c - u * a <= a * b <= a * c + u * a) by (split; [replace (a * c - u * a) with (a * (c - u)) by ring|replace (a * c + u * a) with (a * (c + u)) by ring]; apply Rmult_le_compat_l; lra).
  assert (Ac : / 3 * a <= a * c <= / 2 * a) by (rewrite (Rmult_comm a c); split; apply Rmult_le_compat_r; lra).
  assert (u1 : u * a <= / 1000000 * a) by (apply Rmult_le_compat_r; lra).
  rewrite (Rabs_right (a * b)) in El by lra. assert (u2 : u * (a * b) <= u * (6 / 10 * a)) by (apply Rmult_le_compat_l; lra).
  assert (L : Rabs (l - a * c) <= 2 * u * a).
  { replace (l - a * c) with ((l - a * b) + (a * b - a * c)) by ring. eapply Rle_trans; [apply Rabs_triang|]. assert (Rabs (a * b - a * c) <= u * a) by (apply Rabs_le; lra). lra. }
  assert (L' : - (2 * u * a) <= l - a * c <= 2 * u * a) by (pose proof (Rle_abs (l - a * c)); pose proof (Rle_abs (- (l - a * c))) as W; rewrite Rabs_Ropp in W; lra).
  split; [exact Kl|]. split; [|split; [lra|exact L]].
  assert (p2 (-200) * 1024 = p2 (-190)) by (replace 1024 with (p2 10) by (rewrite (p2_Z 10) by lia; reflexivity); rewrite <- p2_add; reflexivity).
  assert (p2 200 <= p2 300) by (apply p2_le; lia). pose proof (p2_pos (-200)). lra.
Qed.

Lemma extract_step : forall t fi factor, t <> [] -> length fi = length t -> fval (nth 0 t zero64') = 0 ->
  (forall i, (i < length t)%nat -> ok (nth i t zero64') /\ 0 <= fval (nth i t zero64') <= p2 300) ->
  (forall i, (S i < length t)%nat -> p2 (-300) <= fval (nth (S i) t zero64') - fval (nth i t zero64')) ->
  (forall y, In y fi -> ok y /\ Rabs (fval y) <= p2 200) -> p2 (-190) <= fval (nth 0 fi zero64') -> ok factor -> Rabs (fval factor - / exp 1) <= u ->
  let level := fmul (nth 0 fi zero64') factor in
  exists r, feqc F64ops t fi level = Ok r /\ decays (map fval t) (map fval fi) (fval level) (option_map fst r) /\ Rabs (fval level - fval (nth 0 fi zero64') * / exp 1) <= 2 * u * fval (nth 0 fi zero64').
Proof.
  intros t fi factor Nt Hl T0 Ht Hs Hc H0 Kf Hf level. assert (Lt : (0 < length t)%nat) by (destruct t; [congruence|cbn; lia]).
  assert (I0 : In (nth 0 fi zero64') fi) by (apply nth_In; rewrite Hl; exact Lt). destruct (Hc _ I0) as [K0 B0]. pose proof (p2_pos (-190)) as P190. pose proof (p2_pos (-200)) as P200.
  rewrite Rabs_right in B0 by lra. destruct (decay_level _ factor K0 Kf (conj H0 B0) Hf) as [Kl [Bl [Ll El]]]. fold level in Kl, Bl, Ll, El.
  assert (Nc : fi <> []) by (intros ->; cbn in Hl; lia). assert (P23 : p2 200 <= p2 300) by (apply p2_le; lia).
  assert (T : table t fi level).
  { split; [exact Ht|]. split; [|split; [exact Kl|split; [rewrite Rabs_right; lra|exact Hs]]]. intros i Hi. destruct (Hc (nth i fi zero64') (nth_In _ _ Hi)) as [K B]. split; [exact K|]. split; [lra|].
    apply gap; [exact K|exact Kl|rewrite Rabs_right; lra]. }
  destruct (C130_root t fi level T Nt Nc) as [r [E H]]. exists r. split; [exact E|]. split; [|exact El]. rewrite Hl, Nat.min_id in H. set (X := map fval t) in *. set (Y := map fval fi) in *.
  assert (Y0 : fval level < nth 0 Y 0) by (unfold Y; rewrite (map_nth fval fi zero64' 0%nat : nth 0 (map fval fi) 0 = _); exact Ll).
  assert (Cr : forall j, crossing Y (fval level) j <-> nth j Y 0 < fval level).
  { intros j. unfold crossing. split; intros A.
    - apply Rnot_le_lt. intros B. assert (0 <= (nth j Y 0 - fval level) * (nth 0 Y 0 - fval level)) by (apply Rmult_le_pos; lra). lra.
    - assert (0 < - (nth j Y 0 - fval level) * (nth 0 Y 0 - fval level)) by (apply Rmult_lt_0_compat; lra). lra. }
  assert (LX : length X = length t) by apply map_length. destruct r as [[tau k]|]; cbn [option_map fst decays].
  - destruct H as [A [B [C [D [F [y [G1 [G2 G3]]]]]]]]. split; [exact D|]. exists k, y. rewrite LX. split; [exact A|]. split; [intros j Hj; apply Rnot_lt_le; intros W; apply (C j Hj); apply Cr; exact W|]. split; [apply Cr; exact B|]. auto.
  - intros y Hy. apply (In_nth _ _ 0) in Hy. destruct Hy as [j [Hj <-]]. unfold Y in Hj. rewrite map_length in Hj. apply Rnot_lt_le. intros W. apply (H j ltac:(lia)). apply Cr. exact W.
Qed.

(** Each wave-number has its own relaxation time, the decay to 1/e of the first value. *)
Theorem C136_tau : forall ks t f factor, ForallOrdPairs differ ks -> t <> [] -> fval (nth 0 t zero64') = 0 ->
  (forall i, (i < length t)%nat -> ok (nth i t zero64') /\ 0 <= fval (nth i t zero64') <= p2 300) ->
  (forall i, (S i < length t)%nat -> p2 (-300) <= fval (nth (S i) t zero64') - fval (nth i t zero64')) ->
  (length ks <= length f)%nat -> ok factor -> Rabs (fval factor - / exp 1) <= u ->
  (forall fi, In fi f -> length fi = length t /\ (forall y, In y fi -> ok y /\ Rabs (fval y) <= p2 200) /\ p2 (-190) <= fval (nth 0 fi zero64')) ->
  exists d, extract_tau F64ops ks t f factor = Ok d /\ map fst d = ks /\
    forall i, (i < length ks)%nat -> exists r level, nth_error d i = Some (nth i ks zero64', r) /\
      Rabs (level - fval (nth 0 (nth i f []) zero64') * / exp 1) <= 2 * u * fval (nth 0 (nth i f []) zero64') /\ decays (map fval t) (map fval (nth i f [])) level r.
Proof.
  intros ks t f factor ND Nt T0 Ht Hs L Kf Hf F. unfold extract_tau. change (num F64ops) with f64 in *.
  assert (Lt : (0 < length t)%nat) by (destruct t; [congruence|cbn; lia]). rewrite (get_Ok _ t 0 zero64') by exact Lt. cbn [bind].
  assert (C0 : nlt F64ops (n0 F64ops) (nth 0 t zero64') = false).
  { destruct (nlt F64ops (n0 F64ops) (nth 0 t zero64')) eqn:E; [|reflexivity]. exfalso. assert (K00 : ok (S754_zero false)) by (split; [reflexivity|exact I]).
    assert (X : fval (S754_zero false) < fval (nth 0 t zero64')) by (apply (ltb_spec _ _ K00 (proj1 (Ht 0%nat Lt))); exact E). change (fval (S754_zero false)) with 0 in X. lra. }
  rewrite C0. set (step := fun (d : list (f64 * option f64)) (ik : nat * f64) => _).
  set (good := fun i (e : option (f64 * option f64)) => exists r level, e = Some (nth i ks zero64', r) /\
      Rabs (level - fval (nth 0 (nth i f []) zero64') * / exp 1) <= 2 * u * fval (nth 0 (nth i f []) zero64') /\ decays (map fval t) (map fval (nth i f [])) level r).
  assert (G : forall pre suf, ks = pre ++ suf -> forall d, map fst d = pre -> (forall i, (i < length pre)%nat -> good i (nth_error d i)) ->
    exists d', foldM step d (combine (seq (length pre) (length suf)) suf) = Ok d' /\ map fst d' = ks /\ forall i, (i < length ks)%nat -> good i (nth_error d' i)).
  2:{ apply (G [] ks eq_refl []); [reflexivity|]. intros i Hi. cbn in Hi. lia. }
  intros pre suf. revert pre. induction suf as [|k suf IH]; intros pre E d Hd Hi.
  - rewrite app_nil_r in E. subst pre. exists d. split; [reflexivity|]. split; assumption.
  - cbn [length seq combine foldM].
    assert (Lp : (length pre < length f)%nat) by (rewrite E, app_length in L; cbn [length] in L; lia).
    destruct (F (nth (length pre) f []) (nth_In _ _ Lp)) as [F1 [F2 F3]].
    destruct (extract_step t _ factor Nt F1 T0 Ht Hs F2 F3 Kf Hf) as [r [Er [Hr Hlv]]].
    assert (St : step d (length pre, k) = Ok (dict_set (neq F64ops) d k (option_map fst r))).
    { unfold step. cbn [fst snd]. rewrite (get_Ok _ f (length pre) []) by exact Lp. cbn [bind].
      rewrite (get_Ok _ (nth (length pre) f []) 0 zero64') by (rewrite F1; exact Lt). cbn [bind].
      change (nmul F64ops (nth 0 (nth (length pre) f []) zero64') factor) with (fmul (nth 0 (nth (length pre) f []) zero64') factor).
      change (num F64ops) with f64 in *. rewrite Er. destruct r as [[x n]|]; reflexivity. }
    rewrite St. cbn [bind].
    assert (Nk : forall k', In k' pre -> SFeqb k' k = false).
    { intros k' Ik. rewrite E in ND. clear - ND Ik. induction pre as [|p pre IHp]; [destruct Ik|]. cbn [app] in ND. inversion ND as [|? ? Fa Nr]; subst. destruct Ik as [->|Ik]; [|exact (IHp Nr Ik)].
      rewrite Forall_forall in Fa. apply Fa. apply in_or_app. right. left. reflexivity. }
    assert (Sd : dict_set (neq F64ops) d k (option_map fst r) = d ++ [(k, option_map fst r)]).
    { rewrite <- Hd in Nk. clear - Nk. induction d as [|[k' v'] d IHd]; [reflexivity|]. cbn [dict_set map fst app] in *.
      change (neq F64ops k' k) with (SFeqb k' k). rewrite (Nk k' (or_introl eq_refl)). f_equal. apply IHd. intros q Iq. apply Nk. right. exact Iq. }
    rewrite Sd. assert (Ld : length d = length pre) by (rewrite <- Hd, map_length; reflexivity).
    specialize (IH (pre ++ [k])). rewrite app_length in IH. cbn [length] in IH. replace (length pre + 1)%nat with (S (length pre)) in IH by lia.
    apply IH.
    + rewrite <- app_assoc. exact E.
    + rewrite map_app, Hd. reflexivity.
    + intros i Hi'. destruct (Nat.eq_dec i (length pre)) as [->|Ne].
      * exists (option_map fst r), (fval (fmul (nth 0 (nth (length pre) f []) zero64') factor)). split; [|split; [exact Hlv|exact Hr]]. rewrite nth_error_app2, Ld, Nat.sub_diag by lia. cbn. do 2 f_equal.
        rewrite E, app_nth2, Nat.sub_diag by lia. reflexivity.
      * destruct (Hi i) as [r' [lv [A B]]]; [lia|]. exists r', lv. split; [|exact B]. rewrite nth_error_app1; [exact A|]. rewrite Ld. lia.
Qed.
Print Assumptions C136_tau.

(** *** The factor of the code *)
(** 1/numpy.exp(1.0) with a correctly rounded exponential, 0.36787944117144233, from the alternating series of exp(-1) *)
Fixpoint zfact (n : nat) : Z := match n with 0%nat => 1 | S m => Z.of_nat n * zfact m end.
Fixpoint znum (n : nat) : Z := match n with 0%nat => 1 | S m => Z.of_nat n * znum m + (if Nat.even n then 1 else -1) end.
Lemma zfact_spec : forall n, INR (fact n) = IZR (zfact n).
Proof. induction n as [|n IH]; [reflexivity|]. rewrite fact_simpl, mult_INR, IH, INR_IZR_INZ, <- mult_IZR. reflexivity. Qed.
Lemma zfact_pos : forall n, (0 < zfact n)%Z.
Proof. induction n as [|n IH]; [reflexivity|]. cbn [zfact]. nia. Qed.
Lemma series_term : forall n, tg_alt (fun i => / INR (fact i)) n = (if Nat.even n then 1 else -1) / IZR (zfact n).
Proof.
  intros n. unfold tg_alt. rewrite zfact_spec. unfold Rdiv. f_equal. induction n as [|n IH]; [reflexivity|]. change ((-1) ^ S n) with (-1 * (-1) ^ n). rewrite IH, Nat.even_succ, <- Nat.negb_even. destruct (Nat.even n); cbn; lra.
Qed.
Lemma series_sum : forall n, sum_f_R0 (tg_alt (fun i => / INR (fact i))) n = IZR (znum n) / IZR (zfact n).
Proof.
  induction n as [|n IH]; [cbn; unfold tg_alt; cbn; lra|]. rewrite tech5, IH, series_term. cbn [znum zfact]. rewrite plus_IZR, !mult_IZR, <- INR_IZR_INZ.
  pose proof (IZR_lt 0 _ (zfact_pos n)) as P. assert (0 < INR (S n)) by (apply lt_0_INR; lia). destruct (Nat.even (S n)); field; lra.
Qed.
Lemma fact_decreasing : Un_decreasing (fun i => / INR (fact i)).
Proof.
  intros n. apply Rinv_le_contravar; [apply lt_0_INR, lt_O_fact|]. apply le_INR. rewrite fact_simpl. pose proof (lt_O_fact n). nia.
Qed.
Lemma exp_series : Un_cv (sum_f_R0 (tg_alt (fun i => / INR (fact i)))) (/ exp 1).
Proof.
  rewrite <- exp_Ropp. unfold exp. destruct (exist_exp (- (1))) as [l Hl]. cbn [proj1_sig]. unfold exp_in, infinite_sum in Hl. intros eps He. destruct (Hl eps He) as [M HM]. exists M. intros n Hn.
  specialize (HM n Hn). replace (sum_f_R0 (tg_alt (fun i => / INR (fact i))) n) with (sum_f_R0 (fun i => / INR (fact i) * (- (1)) ^ i) n); [exact HM|]. apply sum_eq. intros i _. unfold tg_alt. rewrite Rmult_comm. reflexivity.
Qed.
Lemma inverse_e : IZR (znum 21) / IZR (zfact 21) <= / exp 1 <= IZR (znum 20) / IZR (zfact 20).
Proof.
  rewrite <- !series_sum. change 21%nat with (S (2 * 10)). change 20%nat with (2 * 10)%nat. apply alternated_series_ineq; [exact fact_decreasing| |exact exp_series].
  (* 1/n! tends to 0 *)
  intros eps He. destruct (archimed_cor1 eps He) as [M [HM P]]. exists M. intros n Hn. unfold R_dist. rewrite Rminus_0_r, Rabs_right by (left; apply Rinv_0_lt_compat, lt_0_INR, lt_O_fact).
  apply Rle_lt_trans with (/ INR M); [|exact HM]. apply Rinv_le_contravar; [apply lt_0_INR; exact P|]. apply le_INR. apply Nat.le_trans with n; [lia|]. clear. induction n as [|n IH]; [lia|]. rewrite fact_simpl. pose proof (lt_O_fact n). nia.
Qed.

Definition inv_e : f64 := S754_finite false 6627126856707896 (-54).
Lemma inv_e_ok : ok inv_e /\ Rabs (fval inv_e - / exp 1) <= u.
Proof.
  split; [split; [reflexivity|exact I]|]. pose proof inverse_e as [A B].
  assert (E54 : p2 (-54) * IZR (2 ^ 54) = 1) by (rewrite <- (p2_Z 54) by lia; rewrite <- p2_add; reflexivity).
  assert (Eu : u = 2 * p2 (-54)) by (unfold u; change (-53)%Z with (-54 + 1)%Z; apply p2_succ).
  assert (V : fval inv_e = 6627126856707896 * p2 (-54)) by (unfold fval, sgn, inv_e; fold (p2 (-54)); rewrite Rmult_1_l; reflexivity).
  assert (Pf : 0 < p2 (-54)) by apply p2_pos.
  assert (Lo : 6627126856707894 * p2 (-54) <= IZR (znum 21) / IZR (zfact 21)).
  { apply Rmult_le_reg_r with (IZR (zfact 21) * IZR (2 ^ 54)); [apply Rmult_lt_0_compat; apply IZR_lt; [apply zfact_pos|lia]|].
    replace (6627126856707894 * p2 (-54) * (IZR (zfact 21) * IZR (2 ^ 54))) with (6627126856707894 * IZR (zfact 21) * (p2 (-54) * IZR (2 ^ 54))) by ring. rewrite E54, Rmult_1_r.
    replace (IZR (znum 21) / IZR (zfact 21) * (IZR (zfact 21) * IZR (2 ^ 54))) with (IZR (znum 21) * IZR (2 ^ 54)) by (field; apply not_0_IZR; pose proof (zfact_pos 21); lia).
    rewrite <- !mult_IZR. apply IZR_le. vm_compute. discriminate. }
  assert (Hi : IZR (znum 20) / IZR (zfact 20) <= 6627126856707898 * p2 (-54)).
  { apply Rmult_le_reg_r with (IZR (zfact 20) * IZR (2 ^ 54)); [apply Rmult_lt_0_compat; apply IZR_lt; [apply zfact_pos|lia]|].
    replace (6627126856707898 * p2 (-54) * (IZR (zfact 20) * IZR (2 ^ 54))) with (6627126856707898 * IZR (zfact 20) * (p2 (-54) * IZR (2 ^ 54))) by ring. rewrite E54, Rmult_1_r.
    replace (IZR (znum 20) / IZR (zfact 20) * (IZR (zfact 20) * IZR (2 ^ 54))) with (IZR (znum 20) * IZR (2 ^ 54)) by (field; apply not_0_IZR; pose proof (zfact_pos 20); lia).
    rewrite <- !mult_IZR. apply IZR_le. vm_compute. discriminate. }
  rewrite V, Eu. apply Rabs_le. lra.
Qed.

(** *** Example: two wave-numbers; 1, 1/2, 1/4 and 1, 1/2, 1/2 at times 0, 1, 2: the first one has a relaxation time, the second one has none *)
Local Definition w1 : f64 := S754_finite false 4503599627370496 (-52).
Local Definition w2 : f64 := S754_finite false 4503599627370496 (-51).
Local Definition wh : f64 := S754_finite false 4503599627370496 (-53).
Local Definition wq : f64 := S754_finite false 4503599627370496 (-54).
Local Definition tt : list f64 := [zero64'; w1; w2].
Local Definition ff : list (list f64) := [[w1; wh; wq]; [w1; wh; wh]].
Local Lemma wvalues : fval zero64' = 0 /\ fval w1 = 1 /\ fval w2 = 2 /\ fval wh = / 2 /\ fval wq = / 4.
Proof. unfold fval. simpl. unfold p2. simpl. repeat split; lra. Qed.
Local Lemma woks : ok zero64' /\ ok w1 /\ ok w2 /\ ok wh /\ ok wq.
Proof. split; [|split; [|split; [|split]]]; (split; vm_compute; try reflexivity; try exact I). Qed.
Example C136_nonvacuous : ForallOrdPairs differ [w1; w2] /\ fval (nth 0 tt zero64') = 0 /\
  (forall i, (i < length tt)%nat -> ok (nth i tt zero64') /\ 0 <= fval (nth i tt zero64') <= p2 300) /\
  (forall i, (S i < length tt)%nat -> p2 (-300) <= fval (nth (S i) tt zero64') - fval (nth i tt zero64')) /\ ok inv_e /\ Rabs (fval inv_e - / exp 1) <= u /\
  (forall fi, In fi ff -> length fi = length tt /\ (forall y, In y fi -> ok y /\ Rabs (fval y) <= p2 200) /\ p2 (-190) <= fval (nth 0 fi zero64')) /\
  exists tau, extract_tau F64ops [w1; w2] tt ff inv_e = Ok [(w1, Some tau); (w2, None)].
Proof.
  destruct wvalues as [V0 [V1 [V2 [V3 V4]]]]. destruct woks as [K0 [K1 [K2 [K3 K4]]]].
  assert (P : 2 <= p2 300) by (change 2 with (IZR (2 ^ 1)); rewrite <- p2_Z by lia; apply p2_le; lia). assert (Q : p2 (-300) <= 1) by (change 1 with (p2 0); apply p2_le; lia).
  assert (P' : 2 <= p2 200) by (change 2 with (IZR (2 ^ 1)); rewrite <- p2_Z by lia; apply p2_le; lia). assert (Q' : p2 (-190) <= 1) by (change 1 with (p2 0); apply p2_le; lia).
  split; [constructor; [constructor; [vm_compute; reflexivity|constructor]|constructor; [constructor|constructor]]|]. split; [exact V0|]. split; [|split; [|split; [exact (proj1 inv_e_ok)|split; [exact (proj2 inv_e_ok)|split]]]].
  - intros i Hi. destruct i as [|[|[|i]]]; [| | |cbn in Hi; lia]; cbn [nth tt]; (split; [assumption|]); rewrite ?V0, ?V1, ?V2; lra.
  - intros i Hi. destruct i as [|[|i]]; [| |cbn in Hi; lia]; cbn [nth tt]; rewrite ?V0, ?V1, ?V2; lra.
  - intros fi [<-|[<-|[]]]; (split; [reflexivity|]); (split; [|cbn [nth]; rewrite V1; exact Q']); intros y Hy; cbn [In] in Hy; destruct Hy as [<-|[<-|[<-|[]]]]; (split; [assumption|]); rewrite ?V1, ?V3, ?V4, Rabs_right; lra.
  - eexists. vm_compute. reflexivity.
Qed.
