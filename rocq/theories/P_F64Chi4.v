(** chi4 in double precision (C101). *)
From Coq Require Import List ZArith Bool Arith Reals Lia Lra Psatz Sorting.Sorted Floats.SpecFloat.
From Verif Require Import PyBase PyBaseFacts Num Spec_Stats NumFacts P_Text F64Round F64Ops F64Facts P_F64Mean M_Helpers M_Correlation M_Dynamics
  Spec_Correlation P_Correlation Spec_Time P_Time P_Skip P_Acf P_Helpers Spec_Dynamics P_Dynamics P_Dynamics2 P_Overlap P_Chi4 Spec_Doubles P_F64Time P_F64Overlap P_F64Msd.
Import ListNotations.
Local Open Scope Z_scope.

Definition zsum (l : list Z) : Z := fold_right Z.add 0 l.
Definition zvar (l : list Z) : Z := Z.of_nat (length l) * zsum (map (fun z => z * z) l) - zsum l * zsum l.

Lemma zsum_cons : forall z l, zsum (z :: l) = z + zsum l.
Proof. reflexivity. Qed.

Lemma zvar_cons : forall c l, zvar (c :: l) = zvar l + zsum (map (fun z => (z - c) * (z - c)) l).
Proof.
  intros c l. assert (E : zsum (map (fun z => (z - c) * (z - c)) l) = zsum (map (fun z => z * z) l) - 2 * c * zsum l + Z.of_nat (length l) * (c * c)).
  { induction l as [|z l IH]; [cbn; lia|]. cbn [map length]. rewrite !zsum_cons, IH. lia. }
  rewrite E. unfold zvar. cbn [map length]. rewrite !zsum_cons. lia.
Qed.

Lemma zsum_squares : forall c l, 0 <= zsum (map (fun z => (z - c) * (z - c)) l).
Proof. intros c l. induction l as [|z l IH]; [cbn; lia|]. cbn [map]. rewrite zsum_cons. pose proof (Z.square_nonneg (z - c)). lia. Qed.

Lemma zvar_nonneg : forall l, 0 <= zvar l.
Proof. induction l as [|c l IH]; [unfold zvar; cbn; lia|]. rewrite zvar_cons. pose proof (zsum_squares c l). lia. Qed.

Lemma zvar_gap : forall l c0, In c0 l -> (forall z, In z l -> z = c0) \/ Z.of_nat (length l) - 1 <= zvar l.
Proof.
  induction l as [|c l IH]; intros c0 H; [destruct H|].
  destruct l as [|d l'] eqn:El; [left; intros z [<-|[]]; destruct H as [->|[]]; reflexivity|]. rewrite <- El in *.
  rewrite zvar_cons. pose proof (zvar_nonneg l) as Nn. assert (Hd : In d l) by (rewrite El; left; reflexivity).
  assert (Far : forall q e, In e q -> e <> c -> 1 <= zsum (map (fun z => (z - c) * (z - c)) q)).
  { induction q as [|z q IHq]; intros e He Hne; [destruct He|]. cbn [map]. rewrite zsum_cons. pose proof (zsum_squares c q).
    pose proof (Z.square_nonneg (z - c)). destruct He as [->|He]; [nia|]. specialize (IHq e He Hne). lia. }
  cbn [length]. destruct (IH d Hd) as [C|G].
  - destruct (Z.eq_dec d c) as [->|Hne].
    + left. assert (c0 = c) as -> by (destruct H as [H|H]; [congruence|apply C; exact H]). intros z [<-|Hz]; [reflexivity|apply C; exact Hz].
    + right. assert (E : zsum (map (fun z => (z - c) * (z - c)) l) >= Z.of_nat (length l)).
      { clear - C Hne. induction l as [|z l IHl]; [cbn; lia|]. cbn [map length]. rewrite zsum_cons.
        rewrite (C z (or_introl eq_refl)). specialize (IHl (fun y Hy => C y (or_intror Hy))). nia. }
      lia.
  - destruct (List.Forall_dec (fun z => z = c) (fun z => Z.eq_dec z c) l) as [Fc|Fc].
    + left. rewrite Forall_forall in Fc. assert (c0 = c) as -> by (destruct H as [H|H]; [congruence|apply Fc; exact H]). intros z [<-|Hz]; [reflexivity|apply Fc; exact Hz].
    + right. assert (exists e, In e l /\ e <> c) as [e [He Hne]].
      { apply Exists_exists. apply neg_Forall_Exists_neg; [intros z; apply Z.eq_dec|exact Fc]. }
      specialize (Far l e He Hne). lia.
Qed.

Lemma zsum_IZR : forall l, IZR (zsum l) = rsum (map IZR l).
Proof. induction l as [|z l IH]; [reflexivity|]. cbn [map rsum]. rewrite zsum_cons, plus_IZR, IH. reflexivity. Qed.

Lemma zsum_bounds : forall l B, (forall z, In z l -> 0 <= z <= B) -> 0 <= zsum l <= Z.of_nat (length l) * B.
Proof. induction l as [|z l IH]; intros B H; [cbn; lia|]. cbn [length]. rewrite zsum_cons. specialize (IH B (fun y Hy => H y (or_intror Hy))). pose proof (H z (or_introl eq_refl)). lia. Qed.

Lemma fold_zsum : forall l k, fold_left Z.add l k = k + zsum l.
Proof. induction l as [|z l IH]; intros k; [cbn; lia|]. cbn [fold_left]. rewrite IH, zsum_cons. lia. Qed.

Local Open Scope R_scope.

Lemma variance_zvar : forall zs, zs <> [] -> variance (map IZR zs) = IZR (zvar zs) / (INR (length zs) * INR (length zs)).
Proof.
  intros zs H. rewrite <- variance_moments by (destruct zs; [congruence|discriminate]). rewrite map_length, map_map.
  rewrite (map_ext (fun x => IZR x * IZR x) (fun x => IZR (x * x))) by (intros x; rewrite mult_IZR; reflexivity).
  rewrite <- (map_map (fun x => x * x)%Z IZR), <- !zsum_IZR. unfold zvar. rewrite minus_IZR, !mult_IZR, <- INR_IZR_INZ.
  assert (INR (length zs) <> 0) by (apply not_0_INR; destruct zs; [congruence|discriminate]). field. exact H0.
Qed.

(** The value for one lag: counts [zs], one per origin, of at most N particles each. *)
Lemma chi4_value : forall (zs : list Z) (N : nat) (s1 s2 : f64), zs <> [] -> (1 <= N)%nat -> (forall z, In z zs -> (0 <= z <= Z.of_nat N)%Z) ->
  (Z.of_nat (length zs) * (Z.of_nat N * Z.of_nat N) <= 2 ^ 49)%Z ->
  ok s1 -> fval s1 = IZR (zsum zs) -> ok s2 -> fval s2 = IZR (zsum (map (fun z => z * z)%Z zs)) ->
  let n := f64_ofZ (Z.of_nat (length zs)) in
  let q := fdiv (fsub (fdiv s2 n) (fmul (fdiv s1 n) (fdiv s1 n))) (f64_ofZ (Z.of_nat N)) in
  ok q /\ 0 <= fval q /\ Rabs (fval q - variance (map IZR zs) / INR N) <= INR N * p2 (-49) /\ (forall c, (forall z, In z zs -> z = c) -> fval q = 0).
Proof.
  intros zs N s1 s2 Hne N1 Hz HB K1 E1 K2 E2 n q. set (L := Z.of_nat (length zs)) in *. set (M := Z.of_nat N) in *.
  assert (L1 : (1 <= L)%Z) by (unfold L; destruct zs; [congruence|cbn [length]; lia]). assert (M1 : (1 <= M)%Z) by (unfold M; lia).
  assert (LM : (L <= 2 ^ 49)%Z) by nia. assert (MM : (M * M <= 2 ^ 49)%Z) by nia. assert (MB : (M <= 2 ^ 49)%Z) by nia.
  destruct (ofZ_exact L) as [Kn En]; [lia|]. destruct (ofZ_exact M) as [KM EM]; [lia|]. fold n in Kn, En.
  pose proof (zsum_bounds zs M Hz) as B1. fold L in B1.
  assert (B2 : (0 <= zsum (map (fun z => z * z)%Z zs) <= L * (M * M))%Z).
  { replace L with (Z.of_nat (length (map (fun z => z * z)%Z zs))) by (rewrite map_length; reflexivity). apply zsum_bounds. intros y Hy. apply in_map_iff in Hy. destruct Hy as [z [<- Hzz]]. specialize (Hz z Hzz). nia. }
  set (S1 := zsum zs) in *. set (S2 := zsum (map (fun z => z * z)%Z zs)) in *.
  assert (PL : 1 <= IZR L) by (apply IZR_le; exact L1). assert (PM : 1 <= IZR M) by (apply IZR_le; exact M1).
  assert (EL : INR (length zs) = IZR L) by apply INR_IZR_INZ. assert (ENr : INR N = IZR M) by apply INR_IZR_INZ.
  set (m1 := IZR S1 / IZR L). set (m2 := IZR S2 / IZR L).
  assert (Bm1 : 0 <= m1 <= IZR M).
  { split; unfold m1; [apply Rmult_le_pos; [apply (IZR_le 0); lia|left; apply Rinv_0_lt_compat; lra]|]. apply Rmult_le_reg_r with (IZR L); [lra|]. unfold Rdiv. rewrite Rmult_assoc, Rinv_l, Rmult_1_r, <- mult_IZR by lra. apply IZR_le. lia. }
  assert (Bm2 : 0 <= m2 <= IZR M * IZR M).
  { split; unfold m2; [apply Rmult_le_pos; [apply (IZR_le 0); lia|left; apply Rinv_0_lt_compat; lra]|]. apply Rmult_le_reg_r with (IZR L); [lra|]. unfold Rdiv. rewrite Rmult_assoc, Rinv_l, Rmult_1_r, <- !mult_IZR by lra. apply IZR_le. lia. }
  assert (P53 : p2 53 = IZR (2 ^ 53)) by (apply p2_Z; lia).
  assert (FM : format (IZR M)) by (apply format_Z; lia). assert (FMM : format (IZR M * IZR M)) by (rewrite <- mult_IZR; apply format_Z; lia).
  assert (BMM : IZR M * IZR M < p2 1024) by (rewrite <- mult_IZR; apply Rle_lt_trans with (p2 53); [rewrite P53; apply IZR_le; lia|apply p2_lt; lia]).
  assert (BM1 : IZR M < p2 1024) by (apply Rle_lt_trans with (p2 53); [rewrite P53; apply IZR_le; lia|apply p2_lt; lia]).
  assert (R1 : rounded m1 (fdiv s1 n)) by (unfold m1; rewrite <- E1, <- En; apply div_spec; try apply K1; try apply Kn; rewrite En; lra).
  assert (R2 : rounded m2 (fdiv s2 n)) by (unfold m2; rewrite <- E2, <- En; apply div_spec; try apply K2; try apply Kn; rewrite En; lra).
  destruct (rounded_bounded _ _ (IZR M) R1 FM) as [Ka1 Ba1]; [rewrite Rabs_right; lra|exact BM1|].
  destruct (rounded_bounded _ _ (IZR M * IZR M) R2 FMM) as [Ka2 Ba2]; [rewrite Rabs_right; lra|exact BMM|].
  set (a1 := fdiv s1 n) in *. set (a2 := fdiv s2 n) in *.
  assert (R3 : rounded (fval a1 * fval a1) (fmul a1 a1)) by (apply mul_spec; apply Ka1).
  assert (Sq1 : 0 <= fval a1 * fval a1 <= IZR M * IZR M).
  { split; [apply Rle_0_sqr|]. apply Rabs_le_inv in Ba1. nra. }
  destruct (rounded_bounded _ _ (IZR M * IZR M) R3 FMM) as [Ksq Bsq]; [rewrite Rabs_right; lra|exact BMM|]. set (sq := fmul a1 a1) in *.
  assert (R4 : rounded (fval a2 - fval sq) (fsub a2 sq)) by (apply sub_spec; try apply Ka2; apply Ksq).
  assert (FMM2 : format (2 * (IZR M * IZR M))) by (rewrite <- !mult_IZR; apply format_Z; lia).
  assert (BMM2 : 2 * (IZR M * IZR M) < p2 1024) by (rewrite <- !mult_IZR; apply Rle_lt_trans with (p2 53); [rewrite P53; apply IZR_le; lia|apply p2_lt; lia]).
  assert (Bd0 : Rabs (fval a2 - fval sq) <= 2 * (IZR M * IZR M)) by (apply Rabs_le; apply Rabs_le_inv in Ba2; apply Rabs_le_inv in Bsq; lra).
  destruct (rounded_bounded _ _ _ R4 FMM2 Bd0 BMM2) as [Kd Bd]. set (d := fsub a2 sq) in *.
  assert (R5 : rounded (fval d / IZR M) q) by (unfold q; rewrite <- EM; apply div_spec; try apply Kd; try apply KM; rewrite EM; lra).
  assert (Bq0 : Rabs (fval d / IZR M) <= 2 * (IZR M * IZR M)).
  { unfold Rdiv. rewrite Rabs_mult, (Rabs_right (/ IZR M)) by (left; apply Rinv_0_lt_compat; lra). apply Rmult_le_reg_r with (IZR M); [lra|]. rewrite Rmult_assoc, Rinv_l by lra. pose proof (Rabs_pos (fval d)). nra. }
  destruct (rounded_bounded _ _ _ R5 FMM2 Bq0 BMM2) as [Kq _].
  pose proof u_small as U.
  (* all the counts equal *)
  assert (Const : forall c, (forall z, In z zs -> z = c) -> fval d = 0 /\ fval q = 0 /\ variance (map IZR zs) = 0).
  { intros c Hc. assert (Hc0 : (0 <= c <= M)%Z) by (destruct zs as [|z zs']; [congruence|]; rewrite <- (Hc z) by (left; reflexivity); apply Hz; left; reflexivity).
    assert (Es : S1 = (L * c)%Z /\ S2 = (L * (c * c))%Z).
    { unfold S1, S2, L. clear - Hc. induction zs as [|z zs IH]; [cbn; lia|]. cbn [length map]. rewrite !zsum_cons. destruct (IH (fun y Hy => Hc y (or_intror Hy))) as [I1 I2]. rewrite I1, I2, (Hc z (or_introl eq_refl)). lia. }
    assert (Em1 : m1 = IZR c) by (unfold m1; rewrite (proj1 Es), mult_IZR; field; lra).
    assert (Em2 : m2 = IZR c * IZR c) by (unfold m2; rewrite (proj2 Es), !mult_IZR; field; lra).
    assert (Ea1 : fval a1 = IZR c) by (rewrite <- Em1; apply (rounded_exact _ _ R1); [rewrite Em1; apply format_Z; lia|rewrite Rabs_right; lra]).
    assert (Ea2 : fval a2 = IZR c * IZR c) by (rewrite <- Em2; apply (rounded_exact _ _ R2); [rewrite Em2, <- mult_IZR; apply format_Z; nia|rewrite Rabs_right; lra]).
    assert (Esq : fval sq = IZR c * IZR c) by (rewrite <- Ea1; apply (rounded_exact _ _ R3); [rewrite Ea1, <- mult_IZR; apply format_Z; nia|rewrite Rabs_right; lra]).
    assert (Zd : fval a2 - fval sq = 0) by lra. rewrite Zd in R4.
    assert (Ed : fval d = 0) by (apply (rounded_exact _ _ R4 format_0); rewrite Rabs_R0; apply p2_pos).
    assert (Zq : fval d / IZR M = 0) by (rewrite Ed; unfold Rdiv; ring). rewrite Zq in R5.
    split; [exact Ed|]. split; [apply (rounded_exact _ _ R5 format_0); rewrite Rabs_R0; apply p2_pos|].
    apply variance_const with (IZR c). intros y Hy. apply in_map_iff in Hy. destruct Hy as [z [<- Hy]]. rewrite (Hc z Hy). reflexivity. }
  split; [exact Kq|].
  destruct (zvar_gap zs (hd 0%Z zs)) as [C|G]; [destruct zs; [congruence|left; reflexivity]| |].
  - destruct (Const _ C) as [_ [Zq Zv]]. rewrite Zq, Zv. split; [lra|]. split; [unfold Rdiv; rewrite Rmult_0_l, Rminus_0_r, Rabs_R0; apply Rmult_le_pos; [apply pos_INR|left; apply p2_pos]|intros; reflexivity].
  - assert (Nc : (2 <= L)%Z \/ L = 1%Z) by lia. destruct Nc as [L2|Le].
    2:{ destruct zs as [|z [|]]; [congruence| |unfold L in Le; cbn [length] in Le; lia]. destruct (Const z) as [_ [Zq Zv]]; [intros y [<-|[]]; reflexivity|]. rewrite Zq, Zv. split; [lra|]. split; [unfold Rdiv; rewrite Rmult_0_l, Rminus_0_r, Rabs_R0; apply Rmult_le_pos; [apply pos_INR|left; apply p2_pos]|intros; reflexivity]. }
    set (V := variance (map IZR zs)) in *.
    assert (EV : V = m2 - m1 * m1).
    { unfold V. rewrite <- variance_moments by (destruct zs; [congruence|discriminate]). rewrite map_length, map_map, EL.
      rewrite (map_ext (fun x => IZR x * IZR x) (fun x => IZR (x * x))) by (intros x; rewrite mult_IZR; reflexivity). rewrite <- (map_map (fun x => x * x)%Z IZR), <- !zsum_IZR. reflexivity. }
    assert (LV : / (2 * IZR L) <= V).
    { unfold V. rewrite variance_zvar by exact Hne. rewrite EL. fold L in G. apply IZR_le in G. rewrite minus_IZR in G. assert (2 <= IZR L) by (apply IZR_le; exact L2).
      apply Rmult_le_reg_r with (2 * (IZR L * IZR L)); [nra|]. replace (IZR (zvar zs) / (IZR L * IZR L) * (2 * (IZR L * IZR L))) with (2 * IZR (zvar zs)) by (field; lra).
      replace (/ (2 * IZR L) * (2 * (IZR L * IZR L))) with (IZR L) by (field; lra). lra. }
    assert (UV : V <= IZR M * IZR M) by (rewrite EV; pose proof (Rle_0_sqr m1) as Q; unfold Rsqr in Q; lra).
    set (T := u * (IZR M * IZR M)).
    assert (HT : T <= / (16 * IZR L)).
    { unfold T. apply Rmult_le_reg_r with (16 * IZR L); [lra|]. rewrite Rinv_l by lra.
      assert (X : IZR L * (IZR M * IZR M) <= p2 49) by (rewrite (p2_Z 49), <- !mult_IZR by lia; apply IZR_le; exact HB).
      replace (u * (IZR M * IZR M) * (16 * IZR L)) with (u * 16 * (IZR L * (IZR M * IZR M))) by ring.
      apply Rle_trans with (u * 16 * p2 49); [apply Rmult_le_compat_l; lra|]. unfold u. replace 16 with (p2 4) by (unfold p2; simpl; lra). rewrite <- !p2_add. apply Req_le. reflexivity. }
    assert (Pt : 0 < T) by (unfold T; apply Rmult_lt_0_compat; [lra|nra]).
    (* errors of the averages *)
    assert (Tiny : forall z, (1 <= z)%Z -> p2 (-1022) <= IZR z / IZR L).
    { intros z Hzz. apply Rle_trans with (/ p2 49).
      - apply Rle_trans with (p2 (-49)); [apply p2_le; lia|]. right. pose proof (p2_pos 49). apply Rmult_eq_reg_r with (p2 49); [|lra]. rewrite Rinv_l, <- p2_add by lra. reflexivity.
      - unfold Rdiv. rewrite <- (Rmult_1_l (/ p2 49)). apply Rmult_le_compat; [lra|left; apply Rinv_0_lt_compat; apply p2_pos|apply IZR_le; exact Hzz|apply Rinv_le_contravar; [lra|rewrite p2_Z by lia; apply IZR_le; lia]]. }
    assert (W1 : within 1 (fval a1) m1).
    { apply within_round with m1; [apply within_refl; lra|]. apply rounded_relative; [exact R1|exact Ka1|]. destruct (Z.eq_dec S1 0) as [Z0|Z0]; [left; unfold m1; rewrite Z0; unfold Rdiv; ring|right]. rewrite Rabs_right by lra. apply Tiny. lia. }
    assert (W2 : within 1 (fval a2) m2).
    { apply within_round with m2; [apply within_refl; lra|]. apply rounded_relative; [exact R2|exact Ka2|]. destruct (Z.eq_dec S2 0) as [Z0|Z0]; [left; unfold m2; rewrite Z0; unfold Rdiv; ring|right]. rewrite Rabs_right by lra. apply Tiny. lia. }
    assert (W3 : within 3 (fval sq) (m1 * m1)).
    { apply within_round with (fval a1 * fval a1); [apply (within_mul 1 1); assumption|]. apply rounded_relative; [exact R3|exact Ksq|].
      destruct (Z.eq_dec S1 0) as [Z0|Z0].
      - left. destruct W1 as [_ W1]. unfold m1 in W1. rewrite Z0 in W1. unfold Rdiv in W1. rewrite Rmult_0_l, !Rmult_0_r in W1. assert (A0 : fval a1 = 0) by lra. rewrite A0. ring.
      - right. rewrite Rabs_right by lra. assert (A : p2 (-50) <= fval a1).
        { destruct W1 as [_ [W1 _]]. rewrite pow_1 in W1. apply Rle_trans with (2 := W1). replace (p2 (-50)) with (/ 2 * p2 (-49)) by (replace (-49)%Z with (1 + -50)%Z by reflexivity; rewrite p2_add; unfold p2 at 1; simpl powerRZ; lra).
          apply Rmult_le_compat; [lra|left; apply p2_pos|lra|]. unfold m1. apply Rle_trans with (1 / p2 49).
          - right. pose proof (p2_pos 49). apply Rmult_eq_reg_r with (p2 49); [|lra]. unfold Rdiv. rewrite Rmult_1_l, Rinv_l, <- p2_add by lra. reflexivity.
          - unfold Rdiv. apply Rmult_le_compat; [lra|left; apply Rinv_0_lt_compat; apply p2_pos|apply IZR_le; lia|apply Rinv_le_contravar; [lra|rewrite p2_Z by lia; apply IZR_le; lia]]. }
        pose proof (p2_pos (-50)). apply Rle_trans with (p2 (-50) * p2 (-50)); [rewrite <- p2_add; apply p2_le; lia|]. apply Rmult_le_compat; lra. }
    assert (Er2 : Rabs (fval a2 - m2) <= T).
    { destruct W2 as [_ [A B]]. rewrite pow_1 in A, B. unfold T. apply Rabs_le. split; nra. }
    assert (Er3 : Rabs (fval sq - m1 * m1) <= 6 * T).
    { apply within_error in W3; [|cbn [INR]; lra]. apply Rle_trans with (1 := W3). unfold T. replace (2 * INR 3 * u * (m1 * m1)) with (6 * (u * (m1 * m1))) by (cbn [INR]; ring).
      apply Rmult_le_compat_l; [lra|]. apply Rmult_le_compat_l; [lra|]. apply Rmult_le_compat; lra. }
    assert (Erd : Rabs (fval a2 - fval sq - V) <= 7 * T).
    { rewrite EV. replace (fval a2 - fval sq - (m2 - m1 * m1)) with ((fval a2 - m2) - (fval sq - m1 * m1)) by ring. apply Rabs_le. apply Rabs_le_inv in Er2. apply Rabs_le_inv in Er3. lra. }
    assert (Half : / (2 * IZR L) = 8 * / (16 * IZR L)) by (field; lra).
    apply Rabs_le_inv in Erd.
    assert (Pos : / (16 * IZR L) <= fval a2 - fval sq) by lra.
    assert (P16 : 0 < / (16 * IZR L)) by (apply Rinv_0_lt_compat; lra).
    assert (Ed : Rabs (fval d - (fval a2 - fval sq)) <= u * Rabs (fval a2 - fval sq)) by (apply sub_relative; assumption).
    rewrite (Rabs_right (fval a2 - fval sq)) in Ed by lra. apply Rabs_le_inv in Ed.
    assert (Ud : u * (fval a2 - fval sq) <= 2 * T) by (unfold T in *; nra).
    assert (Pd : / (32 * IZR L) <= fval d).
    { assert (/ (32 * IZR L) = / 2 * / (16 * IZR L)) by (field; lra). nra. }
    assert (P32 : 0 < / (32 * IZR L)) by (apply Rinv_0_lt_compat; lra).
    assert (Pq0 : 0 <= fval d / IZR M) by (apply Rmult_le_pos; [lra|left; apply Rinv_0_lt_compat; lra]).
    split; [apply (rounded_ge _ _ 0 R5 Kq format_0); exact Pq0|]. split; [|intros c Hc; apply (Const c Hc)].
    assert (Erq : Rabs (fval q - fval d / IZR M) <= u * (fval d / IZR M)).
    { rewrite <- (Rabs_right (fval d / IZR M)) at 2 by lra. apply rounded_relative; [exact R5|exact Kq|]. right. rewrite Rabs_right by lra.
      apply Rle_trans with (/ (32 * IZR L) * / p2 49).
      - apply Rle_trans with (/ p2 54 * / p2 49).
        + rewrite <- Rinv_mult, <- p2_add. apply Rle_trans with (p2 (-103)); [apply p2_le; lia|]. right. pose proof (p2_pos 103). apply Rmult_eq_reg_r with (p2 103); [|lra]. rewrite Rinv_l, <- p2_add by lra. reflexivity.
        + apply Rmult_le_compat_r; [left; apply Rinv_0_lt_compat; apply p2_pos|]. apply Rinv_le_contravar; [lra|]. replace (p2 54) with (32 * p2 49) by (replace 32 with (p2 5) by (unfold p2; simpl; lra); rewrite <- p2_add; reflexivity).
          apply Rmult_le_compat_l; [lra|]. rewrite p2_Z by lia. apply IZR_le. lia.
      - unfold Rdiv. apply Rmult_le_compat; [lra|left; apply Rinv_0_lt_compat; apply p2_pos|exact Pd|apply Rinv_le_contravar; [lra|rewrite p2_Z by lia; apply IZR_le; lia]]. }
    rewrite ENr. apply Rabs_le_inv in Erq.
    assert (Edv : Rabs (fval d - V) <= 9 * T) by (apply Rabs_le; lra). apply Rabs_le_inv in Edv.
    assert (Ud2 : u * fval d <= 2 * T) by (unfold T in *; nra).
    replace (p2 (-49)) with (16 * u) by (unfold u; replace 16 with (p2 4) by (unfold p2; simpl; lra); rewrite <- p2_add; reflexivity).
    assert (Fin : forall x y, x * IZR M = y -> x = y / IZR M) by (intros x y E; rewrite <- E; field; lra).
    assert (Dv : Rabs (fval q - V / IZR M) * IZR M <= 11 * T).
    { rewrite <- (Rabs_right (IZR M)) at 2 by lra. rewrite <- Rabs_mult. replace ((fval q - V / IZR M) * IZR M) with ((fval q - fval d / IZR M) * IZR M + (fval d - V)) by (field; lra).
      assert (Q1 : (fval q - fval d / IZR M) * IZR M <= u * fval d) by (apply Rle_trans with (u * (fval d / IZR M) * IZR M); [apply Rmult_le_compat_r; lra|right; field; lra]).
      assert (Q2 : - (u * fval d) <= (fval q - fval d / IZR M) * IZR M) by (apply Rle_trans with (- (u * (fval d / IZR M)) * IZR M); [right; field; lra|apply Rmult_le_compat_r; lra]).
      apply Rabs_le. lra. }
    apply Rmult_le_reg_r with (IZR M); [lra|]. apply Rle_trans with (1 := Dv). unfold T. nra.
Qed.

(** ** The loop over the origins *)
Lemma fold_triple : forall (A : arith) (w : nat -> num A) l (a b : num A) c,
  fold_left (fun (st : num A * num A * nat) i0 => (nadd A (fst (fst st)) (w i0), nadd A (snd (fst st)) (nsq A (w i0)), S (snd st))) l (a, b, c)
  = (fold_left (nadd A) (map w l) a, fold_left (nadd A) (map (fun i => nsq A (w i)) l) b, (c + length l)%nat).
Proof.
  intros A w. induction l as [|i l IH]; intros a b c; cbn [fold_left map length fst snd]; [rewrite Nat.add_0_r; reflexivity|].
  rewrite IH. f_equal. lia.
Qed.

Lemma chi4_sums_gen : forall (A : arith) a2 skip (unf : list (frame A)) p, (1 <= skip)%nat ->
  let os := origins (fst p) skip (length unf - snd p - skip) in
  let w := fun i0 => nofnat A (self_count A a2 (nth i0 unf []) (nth (i0 + snd p) unf [])) in
  chi4_sums A a2 skip unf p = Ok (nsum A (map w os), nsum A (map (fun i => nsq A (w i)) os), length os).
Proof.
  intros A a2 skip unf p Hs os w. unfold chi4_sums. rewrite py_range_spec by exact Hs. fold os. cbn [bind].
  assert (forall i0, In i0 os -> (i0 + snd p < length unf)%nat) as Ho.
  { intros i0 Hi. unfold os, origins in Hi. apply filter_In in Hi. destruct Hi as [Hi _]. apply in_seq in Hi. lia. }
  change (filter (fun i => (fst p <=? i)%nat && ((i - fst p) mod skip =? 0)%nat) (seq 0 (length unf - snd p - skip))) with os.
  rewrite (foldM_pure _ _ _ (fun st i0 => (nadd A (fst (fst st)) (w i0), nadd A (snd (fst st)) (nsq A (w i0)), S (snd st)))).
  - rewrite fold_triple. reflexivity.
  - intros st i0 Hi. specialize (Ho i0 Hi). rewrite (get_Ok _ unf i0 []), (get_Ok _ unf (i0 + snd p) []) by lia. reflexivity.
Qed.

Lemma close_counts_spec : forall a2 (unf : list (frame F64ops)) lag os,
  close_counts a2 unf lag os = map (fun i0 => Z.of_nat (self_count F64ops a2 (nth i0 unf []) (nth (i0 + lag) unf []))) os.
Proof. reflexivity. Qed.

Lemma chi4_point_doubles : forall a2 (tr : traj F64ops) skip (unf : list (frame F64ops)) N p,
  (1 <= skip)%nat -> length (t_steps tr) = length unf -> (forall x, In x unf -> length x = N) -> (1 <= N)%nat ->
  (fst p + snd p < length unf)%nat -> (Z.of_nat (length unf) * (Z.of_nat N * Z.of_nat N) <= 2 ^ 49)%Z ->
  exists q, chi4_point F64ops a2 tr skip unf p = Ok (nmul F64ops (nofZ F64ops (lag_dt (t_steps tr) p)) (t_dt tr), q) /\
  let zs := close_counts a2 unf (snd p) (origins (fst p) skip (length unf - snd p - skip)) in
  ok q /\ 0 <= fval q /\ Rabs (fval q - variance (map IZR zs) / INR N) <= INR N * p2 (-49) /\ (forall c, (forall z, In z zs -> z = c) -> fval q = 0).
Proof.
  intros a2 tr skip unf N p Hs Hl HN N1 Hp HB. unfold chi4_point. rewrite chi4_sums_gen by exact Hs. cbn [bind].
  rewrite (get_Ok _ (t_steps tr) (fst p + snd p) 0%Z), (get_Ok _ (t_steps tr) (fst p) 0%Z) by lia. cbn [bind].
  rewrite (get_Ok _ unf 0 []) by lia. cbn [bind fst snd]. rewrite (HN (nth 0 unf [])) by (apply nth_In; lia).
  set (os := origins (fst p) skip (length unf - snd p - skip)). set (zs := close_counts a2 unf (snd p) os).
  assert (Lz : length zs = length os) by (unfold zs; rewrite close_counts_spec; apply map_length).
  assert (Ho : forall i0, In i0 os -> (i0 + snd p < length unf)%nat).
  { intros i0 Hi. unfold os, origins in Hi. apply filter_In in Hi. destruct Hi as [Hi _]. apply in_seq in Hi. lia. }
  assert (Lo : (length os <= length unf)%nat).
  { unfold os, origins. apply Nat.le_trans with (length (seq 0 (length unf - snd p - skip))); [apply filter_le|rewrite seq_length; lia]. }
  assert (Hz : forall z, In z zs -> (0 <= z <= Z.of_nat N)%Z).
  { intros z Hzz. unfold zs in Hzz; rewrite close_counts_spec in Hzz. apply in_map_iff in Hzz. destruct Hzz as [i0 [<- Hi]]. specialize (Ho i0 Hi).
    pose proof (self_count_le F64ops a2 (nth i0 unf []) (nth (i0 + snd p) unf [])) as B. rewrite (HN (nth i0 unf [])) in B by (apply nth_In; lia). lia. }
  destruct (Nat.ltb_spec 0 (length os)) as [Hpos|Hz0].
  - eexists. split; [reflexivity|]. cbv zeta.
    assert (NB : (Z.of_nat N * Z.of_nat N <= 2 ^ 49)%Z) by nia.
    assert (LB : (Z.of_nat (length zs) * (Z.of_nat N * Z.of_nat N) <= 2 ^ 49)%Z) by nia.
    set (s1 := nsum F64ops (map (fun i0 => nofnat F64ops (self_count F64ops a2 (nth i0 unf []) (nth (i0 + snd p) unf []))) os)).
    set (s2 := nsum F64ops (map (fun i0 => nsq F64ops (nofnat F64ops (self_count F64ops a2 (nth i0 unf []) (nth (i0 + snd p) unf [])))) os)).
    assert (Each : forall i0, In i0 os -> let c := Z.of_nat (self_count F64ops a2 (nth i0 unf []) (nth (i0 + snd p) unf [])) in
      (ok (f64_ofZ c) /\ fval (f64_ofZ c) = IZR c /\ (0 <= c)%Z) /\ (ok (fmul (f64_ofZ c) (f64_ofZ c)) /\ fval (fmul (f64_ofZ c) (f64_ofZ c)) = IZR (c * c) /\ (0 <= c * c)%Z)).
    { intros i0 Hi c. assert (Hc : (0 <= c <= Z.of_nat N)%Z) by (apply Hz; unfold zs; rewrite close_counts_spec; apply in_map_iff; exists i0; split; [reflexivity|exact Hi]).
      destruct (ofZ_exact c) as [Kc Ec]; [nia|]. split; [repeat split; try apply Kc; [exact Ec|lia]|].
      assert (Rc : rounded (fval (f64_ofZ c) * fval (f64_ofZ c)) (fmul (f64_ofZ c) (f64_ofZ c))) by (apply mul_spec; apply Kc).
      rewrite Ec, <- mult_IZR in Rc. destruct (rounded_exact _ _ Rc) as [K E]; [apply format_Z; nia| |split; [exact K|split; [exact E|nia]]].
      apply Rle_lt_trans with (p2 53); [rewrite <- abs_IZR, p2_Z by lia; apply IZR_le; nia|apply p2_lt; lia]. }
    pose proof (zsum_bounds zs (Z.of_nat N) Hz) as B1.
    assert (B2 : (0 <= zsum (map (fun z => z * z) zs) <= Z.of_nat (length zs) * (Z.of_nat N * Z.of_nat N))%Z).
    { replace (length zs) with (length (map (fun z => z * z)%Z zs)) by apply map_length. apply zsum_bounds. intros y Hy. apply in_map_iff in Hy. destruct Hy as [z [<- Hzz]]. specialize (Hz z Hzz). nia. }
    destruct (fsum_exact (map (fun i0 => f64_ofZ (Z.of_nat (self_count F64ops a2 (nth i0 unf []) (nth (i0 + snd p) unf [])))) os) zs (S754_zero false) 0 (ok_zero _)) as [K1 E1]; [reflexivity|lia| |rewrite fold_zsum; nia|].
    { unfold zs; rewrite close_counts_spec. clear - Each. induction os as [|i os IH]; cbn [map]; constructor; [apply (Each i); left; reflexivity|]. apply IH. intros i0 Hi. apply Each. right. exact Hi. }
    destruct (fsum_exact (map (fun i0 => let c := f64_ofZ (Z.of_nat (self_count F64ops a2 (nth i0 unf []) (nth (i0 + snd p) unf []))) in fmul c c) os) (map (fun z => z * z)%Z zs) (S754_zero false) 0 (ok_zero _)) as [K2 E2]; [reflexivity|lia| |rewrite fold_zsum; nia|].
    { unfold zs; rewrite close_counts_spec. rewrite map_map. clear - Each. induction os as [|i os IH]; cbn [map]; constructor; [apply (Each i); left; reflexivity|]. apply IH. intros i0 Hi. apply Each. right. exact Hi. }
    rewrite fold_zsum, Z.add_0_l in E1, E2.
    destruct (chi4_value zs N s1 s2) as [G1 [G2 [G3 G4]]]; try assumption; [intros C; rewrite C in Lz; cbn in Lz; lia|].
    rewrite Lz in *. split; [exact G1|]. split; [exact G2|]. split; [exact G3|exact G4].
  - assert (Eo : os = []) by (destruct os; [reflexivity|cbn in Hz0; lia]). eexists. split; [reflexivity|]. cbv zeta. unfold zs. rewrite Eo. cbn [close_counts map].
    assert (V0 : variance [] = 0) by (unfold variance; cbn; unfold Rdiv; ring). rewrite V0. unfold nsq. cbn [ndiv nsub nmul n0 F64ops].
    assert (NB : (Z.of_nat N <= 2 ^ 53)%Z) by nia. destruct (ofZ_exact (Z.of_nat N)) as [KM EM]; [lia|]. unfold nofnat. cbn [nofZ F64ops].
    assert (PM : 1 <= IZR (Z.of_nat N)) by (apply IZR_le; lia).
    assert (R5 : rounded (0 / IZR (Z.of_nat N)) (fdiv (S754_zero false) (f64_ofZ (Z.of_nat N)))) by (rewrite <- EM; apply (div_spec (S754_zero false)); try apply (ok_zero false); try apply KM; rewrite EM; lra).
    replace (0 / IZR (Z.of_nat N)) with 0 in R5 by (unfold Rdiv; ring). destruct (rounded_exact _ _ R5 format_0) as [Kq Eq]; [rewrite Rabs_R0; apply p2_pos|].
    change (fsub (S754_zero false) (fmul (S754_zero false) (S754_zero false))) with (S754_zero false).
    split; [exact Kq|]. rewrite Eq. split; [lra|]. split; [unfold Rdiv; rewrite Rmult_0_l, Rminus_0_r, Rabs_R0; apply Rmult_le_pos; [apply pos_INR|left; apply p2_pos]|reflexivity].
Qed.
