(** Proofs about bond angles in double precision (C142). *)
From Coq Require Import List ZArith Bool Arith Reals Lia Lra Psatz Floats.SpecFloat.
From Verif Require Import PyBase PyBaseFacts Num Spec_Stats NumFacts P_Text F64Round F64Ops F64Facts F64Sqrt P_F64Mean M_Helpers M_Dynamics M_Realspace M_BondAngle
  Spec_BondAngle P_BondAngle Spec_Doubles P_F64Time P_F64Overlap P_F64Msd P_F64Order P_F64Dot P_F64Dist P_Fit64 Spec_Angle64.
Import ListNotations.
Local Open Scope R_scope.

Definition sizes (v : list f64) : list R := map Rabs (map fval v).
Lemma dot_sizes : forall v w : list R, dot (map Rabs v) (map Rabs w) = rsum (map (fun p => Rabs (fst p * snd p)) (combine v w)).
Proof. induction v as [|a v IH]; intros [|b w]; cbn [map dot combine rsum]; try reflexivity. rewrite IH, <- Rabs_mult. reflexivity. Qed.
Lemma dot_sum : forall v w : list R, dot v w = rsum (map (fun p => fst p * snd p) (combine v w)).
Proof. induction v as [|a v IH]; intros [|b w]; cbn [map dot combine rsum]; try reflexivity. rewrite IH. reflexivity. Qed.
Lemma dot_abs_self : forall v : list R, dot (map Rabs v) (map Rabs v) = dot v v.
Proof. induction v as [|a v IH]; cbn [map dot]; [reflexivity|]. rewrite IH, <- Rabs_mult, Rabs_right by (apply Rle_ge, Rle_0_sqr). reflexivity. Qed.

Lemma tiny_rel : forall Y, p2 (-200) <= Y -> 1000 * tiny <= u * Y / 100.
Proof.
  intros Y H. assert (E : tiny * 1048576 <= u * p2 (-200)).
  { replace 1048576 with (p2 20) by (rewrite p2_Z by lia; reflexivity). unfold tiny, u. rewrite <- !p2_add. apply p2_le. lia. }
  assert (u * p2 (-200) <= u * Y) by (apply Rmult_le_compat_l; [left; apply u_pos|exact H]). pose proof tiny_pos. lra.
Qed.

Lemma vdot_close : forall v w, length v = length w -> (length v <= 1000)%nat -> (forall x, In x v -> ok x /\ Rabs (fval x) <= p2 100) -> (forall x, In x w -> ok x /\ Rabs (fval x) <= p2 100) ->
  let s := vdot F64ops v w in let q := dot (map Rabs (map fval v)) (map Rabs (map fval w)) in
  ok s /\ Rabs (fval s) <= p2 210 /\ Rabs (fval s - dot (map fval v) (map fval w)) <= (2 * INR (length v) + 2) * u * q + 2 * (INR (length v) * tiny).
Proof.
  intros v w L Hd Hv Hw s q.
  assert (D : INR (length v) <= 1000) by (replace 1000 with (INR 1000) by (rewrite INR_IZR_INZ; reflexivity); apply le_INR; exact Hd). pose proof (pos_INR (length v)) as D0.
  assert (X : exists l : list f64, l = map (fun p : f64 * f64 => fmul (fst p) (snd p)) (combine v w) /\ sum_of l s) by (eexists; split; [reflexivity|exact (nsum_sum_of _)]). destruct X as [l [El Hs]].
  assert (Le : length l = length v) by (rewrite El, map_length, combine_length; apply Nat.min_l; rewrite L; apply Nat.le_refl).
  destruct (sum_of_nearby 200 1 tiny l s ltac:(lia) ltac:(left; apply tiny_pos) Hs (map (fun p => (fst p * snd p, Rabs (fst p * snd p))) (combine (map fval v) (map fval w)))) as [Ks [Bs [_ [W _]]]].
  - rewrite Le. apply Z.le_trans with (Z.of_nat 1000); [apply Nat2Z.inj_le; exact Hd|cbn; lia].
  - rewrite El. clear - Hv Hw. revert w Hw. induction v as [|a v IH]; intros [|b w] Hw; cbn [map combine]; try constructor; cbn [fst snd].
    + destruct (Hv a (or_introl eq_refl)) as [Ka Ba]. destruct (Hw b (or_introl eq_refl)) as [Kb Bb]. destruct (mul_bound 100 100 a b Ka Kb Ba Bb ltac:(lia)) as [K [B E]].
      split; [exact K|]. split; [exact B|]. apply nearby_weaken with 1%nat (0 + tiny); [lia|lra|]. apply nearby_round with (fval a * fval b); [left; apply tiny_pos|apply nearby_refl|exact E].
    + apply IH; intros x Hx; [apply Hv|apply Hw]; right; exact Hx.
  - rewrite Le in Bs, W. rewrite !map_map in W. cbn [fst snd] in W. rewrite <- dot_sum in W. unfold q. rewrite dot_sizes. split; [exact Ks|]. split.
    + apply Rle_trans with (1 := Bs). change 210%Z with (10 + 200)%Z. rewrite p2_add. apply Rmult_le_compat_r; [left; apply p2_pos|]. rewrite p2_Z by lia. apply IZR_le. change (2 ^ 10)%Z with 1024%Z. lia.
    + pose proof u_small as U. apply nearby_error in W.
      * rewrite plus_INR in W. change (INR 1) with 1 in W. apply Rle_trans with (1 := W). apply Req_le. ring.
      * rewrite plus_INR. change (INR 1) with 1. assert ((1 + INR (length v)) * u <= 1001 * u) by (apply Rmult_le_compat_r; lra). lra.
Qed.

Lemma vnorm_close : forall v, bond v -> let n := vnorm F64ops v in let N := norm (map fval v) in
  ok n /\ 0 < N /\ p2 (-101) <= fval n <= p2 110 /\ p2 (-100) <= N /\ Rabs (fval n - N) <= (2 * INR (length v) + 5) * (u * N).
Proof.
  intros v [Hd [Hv HY]] n N. pose proof u_small as U. pose proof tiny_pos as T0. pose proof (pos_INR (length v)) as D0.
  assert (D : INR (length v) <= 1000) by (replace 1000 with (INR 1000) by (rewrite INR_IZR_INZ; reflexivity); apply le_INR; exact Hd).
  assert (En : n = SFsqrt fprec femax (vdot F64ops v v)).
  { unfold n, vnorm, vdot. cbn [nsqrt F64ops]. f_equal. f_equal. clear. induction v as [|a v IH]; cbn [map map2]; [reflexivity|]. rewrite IH. reflexivity. }
  destruct (vdot_close v v eq_refl Hd Hv Hv) as [Ks [Bs Es]]. rewrite dot_abs_self in Es. set (s := vdot F64ops v v) in *. set (Y := dot (map fval v) (map fval v)) in *.
  pose proof (tiny_rel Y HY) as T. assert (Td : INR (length v) * tiny <= 1000 * tiny) by (apply Rmult_le_compat_r; lra). assert (Y0 : 0 < Y) by (pose proof (p2_pos (-200)); lra).
  set (uY := u * Y) in *. assert (UY : 0 < uY < / 1000000 * Y) by (unfold uY; split; [apply Rmult_lt_0_compat; lra|apply Rmult_lt_compat_r; lra]).
  assert (DuY : 0 <= INR (length v) * uY <= 1000 * uY) by (split; [apply Rmult_le_pos; lra|apply Rmult_le_compat_r; lra]).
  assert (Er : Rabs (fval s - Y) <= (2 * INR (length v) + 3) * u * Y + 0).
  { apply Rle_trans with (1 := Es). rewrite !Rmult_assoc. fold uY. lra. }
  assert (S0 : 0 <= fval s) by (rewrite !Rmult_assoc in Er; fold uY in Er; apply Rabs_le_inv in Er; lra).
  assert (Rh : 0 <= (2 * INR (length v) + 3) * u) by (apply Rmult_le_pos; lra).
  pose proof (sqrt_perturbed (fval s) Y _ 0 S0 (Rlt_le _ _ Y0) Rh (Rle_refl 0) Er) as Q. rewrite sqrt_0, Rplus_0_r in Q. fold (norm (map fval v)) in Q. change (sqrt Y) with N in Q.
  assert (N0 : p2 (-100) <= N). { unfold N, norm. fold Y. rewrite <- (sqrt_square (p2 (-100))) by (left; apply p2_pos). apply sqrt_le_1_alt. rewrite <- p2_add. exact HY. }
  pose proof (p2_pos (-100)) as P100. assert (NP : 0 < N) by lra. set (uN := u * N). assert (UN : 0 < uN < / 1000000 * N) by (unfold uN; split; [apply Rmult_lt_0_compat; lra|apply Rmult_lt_compat_r; lra]).
  assert (DuN : 0 <= INR (length v) * uN <= 1000 * uN) by (split; [apply Rmult_le_pos; lra|apply Rmult_le_compat_r; lra]). rewrite !Rmult_assoc in Q. fold uN in Q.
  pose proof (sqrt_spec64 s (proj1 Ks) (proj2 Ks) S0) as R1. rewrite <- En in R1.
  assert (SB : sqrt (fval s) <= p2 105). { rewrite <- (sqrt_square (p2 105)) by (left; apply p2_pos). apply sqrt_le_1_alt. rewrite <- p2_add. change (105 + 105)%Z with 210%Z. apply Rabs_le_inv in Bs. change (num F64ops) with f64 in *. exact (proj2 Bs). }
  destruct (rounded_bounded _ _ (p2 105) R1) as [Kn Bn]; [apply format_p2; lia|rewrite Rabs_right by (apply Rle_ge, sqrt_pos); exact SB|apply p2_lt; lia|].
  pose proof (rounded_error _ _ R1 Kn) as E1. rewrite (Rabs_right (sqrt (fval s))) in E1 by (apply Rle_ge, sqrt_pos).
  assert (TN : tiny <= uN / 100).
  { assert (tiny * 128 <= u * p2 (-100)) by (replace 128 with (p2 7) by (rewrite p2_Z by lia; reflexivity); unfold tiny, u; rewrite <- !p2_add; apply p2_le; lia). assert (u * p2 (-100) <= uN) by (apply Rmult_le_compat_l; lra). lra. }
  apply Rabs_le_inv in Q. assert (us : u * sqrt (fval s) <= 11 / 10 * uN).
  { unfold uN. replace (11 / 10 * (u * N)) with (u * (11 / 10 * N)) by ring. apply Rmult_le_compat_l; lra. }
  apply Rabs_le_inv in E1. assert (B : Rabs (fval n - N) <= (2 * INR (length v) + 5) * uN) by (apply Rabs_le; lra).
  split; [exact Kn|]. split; [exact NP|]. split.
  - split; [|apply Rabs_le_inv in Bn; assert (p2 105 <= p2 110) by (apply p2_le; lia); lra]. assert (p2 (-100) = 2 * p2 (-101)) by (change (-100)%Z with (-101 + 1)%Z; apply p2_succ). apply Rabs_le_inv in B. lra.
  - split; [exact N0|exact B].
Qed.

Lemma clamp_close : forall c x e, ok c -> -1 <= x <= 1 -> Rabs (fval c - x) <= e -> let k := clamp F64ops c in ok k /\ -1 <= fval k <= 1 /\ Rabs (fval k - x) <= e.
Proof.
  intros c x e Kc Hx E k. unfold clamp in k. cbn [nle nlt n0 n1 nofZ F64ops] in k.
  destruct (ofZ_exact (-1) ltac:(cbn; lia)) as [K1 E1]. destruct (ofZ_exact 1 ltac:(cbn; lia)) as [K2 E2]. assert (K0 : ok (S754_zero false)) by apply ok_zero.
  assert (Z0 : fval (S754_zero false) = 0) by reflexivity. apply Rabs_le_inv in E.
  pose proof (leb_spec c (S754_zero false) Kc K0) as L0. rewrite Z0 in L0. pose proof (ltb_spec c (f64_ofZ (-1)) Kc K1) as L1. rewrite E1 in L1.
  pose proof (ltb_spec (f64_ofZ 1) c K2 Kc) as L2. rewrite E2 in L2. pose proof (ltb_spec (S754_zero false) c K0 Kc) as L3. rewrite Z0 in L3.
  pose proof (ltb_spec (S754_zero false) (f64_ofZ (-1)) K0 K1) as L4. rewrite Z0, E1 in L4. 
  assert (H1 : forall b : bool, (b = true <-> 0 < -1) -> b = false) by (intros [|] [H _]; [specialize (H eq_refl); lra|reflexivity]). apply H1 in L4.
  destruct (SFleb c (S754_zero false)) eqn:B0.
  - destruct (SFltb c (f64_ofZ (-1))) eqn:B1; unfold k; cbv zeta.
    + rewrite L4. destruct L1 as [L1 _]. specialize (L1 eq_refl). split; [exact K1|]. rewrite E1. split; [lra|]. apply Rabs_le. lra.
    + destruct L0 as [L0 _]. specialize (L0 eq_refl). assert (C : -1 <= fval c) by (destruct (Rlt_dec (fval c) (-1)) as [C|C]; [apply L1 in C; discriminate|lra]).
      destruct (SFltb (S754_zero false) c) eqn:B3; [destruct L3 as [L3 _]; specialize (L3 eq_refl); lra|]. split; [exact Kc|]. split; [lra|]. apply Rabs_le. lra.
  - assert (C : 0 < fval c) by (destruct (Rle_dec (fval c) 0) as [C|C]; [apply L0 in C; discriminate|lra]). unfold k; cbv zeta. rewrite (proj2 L3 C).
    destruct (SFltb (f64_ofZ 1) c) eqn:B2.
    + destruct L2 as [L2 _]. specialize (L2 eq_refl). split; [exact K2|]. change (n1 F64ops) with (f64_ofZ 1). rewrite E2. split; [lra|]. apply Rabs_le. lra.
    + assert (C2 : fval c <= 1) by (destruct (Rlt_dec 1 (fval c)) as [C2|C2]; [apply L2 in C2; discriminate|lra]). split; [exact Kc|]. split; [lra|]. apply Rabs_le. lra.
Qed.
