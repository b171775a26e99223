(** Rounding errors of the self part of the intermediate scattering function (C121). *)
From Coq Require Import List ZArith Bool Arith Reals Lia Lra Psatz Floats.SpecFloat Sorting.Permutation.
From Verif Require Import PyBase PyBaseFacts Num NumFacts Spec_Stats P_Text F64Round F64Ops F64Facts P_F64Mean P_F64Time P_F64Overlap P_F64Msd P_F64Order P_F64Dot P_F64Alpha P_F64Dist M_Helpers M_KGrid M_Fourier M_Fkt Spec_Doubles Spec_BondAngle Spec_KGrid Spec_Fourier Spec_Correlation Spec_Fkt
  P_Expo P_Tcf P_Fkt M_Expo64 M_Fkt64 Spec_Expo64 P_Expo64 P_Density64 P_Tcf64.
Import ListNotations.
Local Open Scope R_scope.

(** ** Products of factors of modulus one *)
Lemma faithful_pair : forall mul a b s t e f, faithful_product mul -> okc a -> okc b -> 0 <= e -> 0 <= f -> 1 + e <= 2 -> 1 + f <= 2 ->
  cdist (cval a) (cis s) <= e -> cdist (cval b) (cis t) <= f ->
  okc (mul a b) /\ cdist (cval (mul a b)) (cis (s + t)) <= (1 + e) * (1 + f) * (1 + 7 * u) - 1.
Proof.
  intros mul a b s t e f M Ka Kb E0 F0 E1 F1 Da Db. pose proof u_small as U.
  assert (Na : cnorm (cval a) <= 1 + e) by (pose proof (cnorm_near (cval a) (cis s)) as W; rewrite cnorm_cis in W; lra).
  assert (Nb : cnorm (cval b) <= 1 + f) by (pose proof (cnorm_near (cval b) (cis t)) as W; rewrite cnorm_cis in W; lra).
  destruct (faithful_small mul M a b Ka Kb) as [Km Dm]; [lra|lra|]. split; [exact Km|].
  rewrite <- cis_add. apply Rle_trans with (1 := cdist_tri _ (cmul (cval a) (cval b)) _).
  pose proof (cdist_mul (cval a) (cval b) (cis s) (cis t)) as CM. rewrite cnorm_cis, Rmult_1_l in CM.
  set (da := cdist (cval a) (cis s)) in *. set (db := cdist (cval b) (cis t)) in *. pose proof (cdist_pos (cval a) (cis s)) as Pz. fold da in Pz.
  set (na := cnorm (cval a)) in *. set (nb := cnorm (cval b)) in *. pose proof (cnorm_pos (cval a)) as Z0. pose proof (cnorm_pos (cval b)) as B0. fold na in Z0. fold nb in B0.
  change (p2 (-53)) with u in Dm. assert (T : p2 (-1070) <= u) by (apply p2_le; lia).
  assert (A1 : da * nb <= e * (1 + f)) by (apply Rmult_le_compat; lra).
  assert (A2 : na * nb <= (1 + e) * (1 + f)) by (apply Rmult_le_compat; lra).
  assert (A3 : 6 * u * (na * nb) <= 6 * u * ((1 + e) * (1 + f))) by (apply Rmult_le_compat_l; lra).
  assert (A4 : u * 1 <= u * ((1 + e) * (1 + f))) by (apply Rmult_le_compat_l; [lra|]; nra).
  lra.
Qed.

Lemma rprod1_app : forall l m, rprod1 (l ++ m) = rprod1 l * rprod1 m.
Proof. induction l as [|h l IH]; intros m; cbn [app rprod1]; [ring|]. rewrite IH. ring. Qed.
Lemma rprod1_perm : forall l m, Permutation l m -> rprod1 l = rprod1 m.
Proof. intros l m P. induction P; cbn [rprod1]; [reflexivity|rewrite IHP; reflexivity|ring|congruence]. Qed.

Definition unit_factor (z : f64 * f64) (q : R * R) : Prop := okc z /\ cdist (cval z) (cis (fst q)) <= snd q /\ 0 <= snd q <= / 8.
Definition slack (q : R * R) : R := snd q + 8 * u.

Lemma product_near : forall mul l z, faithful_product mul -> product_of mul l z -> forall qs, Forall2 unit_factor l qs -> rsum (map slack qs) <= / 2 ->
  okc z /\ cdist (cval z) (cis (rsum (map fst qs))) <= 2 * rsum (map slack qs).
Proof.
  intros mul l z M P. pose proof u_small as U.
  assert (Pos : forall l qs, Forall2 unit_factor l qs -> Forall (fun h => 0 <= h) (map slack qs)).
  { clear - U. intros l qs F. induction F as [|z q l qs [_ [_ H]] F IH]; cbn [map]; constructor; [unfold slack; lra|exact IH]. }
  assert (G : forall qs, Forall2 unit_factor l qs -> rsum (map slack qs) <= / 2 ->
    exists e, 0 <= e /\ okc z /\ cdist (cval z) (cis (rsum (map fst qs))) <= e /\ (1 + e) * (1 + 7 * u) <= rprod1 (map slack qs)).
  { induction P as [z|l1 l2 z1 z2 P1 IH1 P2 IH2|l l' z H P IH]; intros qs F S.
    - inversion F as [|? q ? ? [K [Dz B]] F']; subst. inversion F'; subst. cbn [map rsum fst]. exists (snd q). rewrite Rplus_0_r. split; [lra|]. split; [exact K|]. split; [exact Dz|].
      cbn [rprod1]. unfold slack. assert (snd q * u <= / 8 * u) by (apply Rmult_le_compat_r; lra). lra.
    - apply Forall2_app_inv_l in F. destruct F as [q1 [q2 [F1 [F2 ->]]]]. rewrite map_app, rsum_app in S. pose proof (rsum_pos' _ (Pos _ _ F1)) as R1. pose proof (rsum_pos' _ (Pos _ _ F2)) as R2.
      destruct (IH1 q1 F1 ltac:(lra)) as [e1 [E1 [K1 [D1 B1]]]]. destruct (IH2 q2 F2 ltac:(lra)) as [e2 [E2 [K2 [D2 B2]]]].
      pose proof (rprod1_small _ (Pos _ _ F1) ltac:(lra)) as S1. pose proof (rprod1_small _ (Pos _ _ F2) ltac:(lra)) as S2.
      assert (X1 : 0 <= e1 * u) by (apply Rmult_le_pos; lra). assert (X2 : 0 <= e2 * u) by (apply Rmult_le_pos; lra).
      destruct (faithful_pair mul z1 z2 _ _ e1 e2 M K1 K2 E1 E2 ltac:(lra) ltac:(lra) D1 D2) as [Km Dm].
      exists ((1 + e1) * (1 + e2) * (1 + 7 * u) - 1). rewrite map_app, map_app, rsum_app, rprod1_app.
      assert (Y : 1 <= (1 + e1) * (1 + e2)) by nra.
      split; [assert (0 <= (1 + e1) * (1 + e2) * (7 * u)) by (apply Rmult_le_pos; lra); lra|]. split; [exact Km|]. split; [exact Dm|].
      replace ((1 + ((1 + e1) * (1 + e2) * (1 + 7 * u) - 1)) * (1 + 7 * u)) with ((1 + e1) * (1 + 7 * u) * ((1 + e2) * (1 + 7 * u))) by ring.
      apply Rmult_le_compat; try assumption; apply Rmult_le_pos; lra.
    - destruct (Forall2_perm _ _ _ _ _ H qs F) as [m [F' Pm]]. assert (Ps : Permutation (map slack m) (map slack qs)) by (apply Permutation_map; exact Pm).
      destruct (IH m F') as [e [E [K [Dz B]]]]; [rewrite (rsum_perm _ _ Ps); exact S|]. exists e. rewrite (rsum_perm _ _ (Permutation_map fst Pm)) in Dz. rewrite (rprod1_perm _ _ Ps) in B. auto. }
  intros qs F S. destruct (G qs F S) as [e [E [K [Dz B]]]]. split; [exact K|]. pose proof (rprod1_small _ (Pos _ _ F) S) as PS.
  assert (0 <= e * u) by (apply Rmult_le_pos; lra). lra.
Qed.

(** The two ways of multiplying in the code. *)
Lemma flat_product_order : forall mul sum ex l, l <> [] -> product_of mul l (flat_product (Fops mul sum ex) l).
Proof.
  intros mul sum ex l H. destruct l as [|a r]; [congruence|]. cbn [flat_product].
  assert (G : forall r l0 z, product_of mul l0 z -> product_of mul (l0 ++ r) (fold_left mul r z)).
  { clear. induction r as [|b r IH]; intros l0 z P; cbn [fold_left]; [rewrite app_nil_r; exact P|].
    replace (l0 ++ b :: r) with ((l0 ++ [b]) ++ r) by (rewrite <- app_assoc; reflexivity). apply IH. apply product_mul; [exact P|constructor]. }
  apply (G r [a] a). constructor.
Qed.
Fixpoint doubled (l : list (f64 * f64)) : Prop := match l with [] => True | _ :: b => match b with [] => False | _ :: r => doubled r end end.
Lemma doubled_even : forall l, doubled l -> Nat.Even (length l).
Proof.
  assert (G : forall n l, (length l <= n)%nat -> doubled l -> Nat.Even (length l)).
  { induction n as [|n IH]; intros [|a [|b r]] H Dl; cbn [length doubled] in *; try lia; try (exists 0%nat; reflexivity); try contradiction.
    destruct (IH r ltac:(lia) Dl) as [m Em]. exists (S m). lia. }
  intros l. apply (G (length l)). lia.
Qed.
Lemma even_doubled : forall l, Nat.Even (length l) -> doubled l.
Proof.
  assert (G : forall n l, (length l <= n)%nat -> Nat.Even (length l) -> doubled l).
  { induction n as [|n IH]; intros [|a [|b r]] H [m Em]; cbn [length doubled] in *; try lia; try exact I. apply IH; [lia|]. exists (m - 1)%nat. lia. }
  intros l. apply (G (length l)). lia.
Qed.
Lemma paired_product_order : forall mul sum ex l, l <> [] -> doubled l -> product_of mul l (paired_product (Fops mul sum ex) l).
Proof.
  intros mul sum ex l H Dl. destruct l as [|a [|b r]]; [congruence|destruct Dl|]. cbn [paired_product doubled] in *.
  assert (G : forall n r l0 z, (length r <= n)%nat -> doubled r -> product_of mul l0 z -> product_of mul (l0 ++ r) (times_pairs (Fops mul sum ex) z r)).
  { clear. induction n as [|n IH]; intros r l0 z Hn Dr P.
    - destruct r; [|cbn in Hn; lia]. cbn [times_pairs]. rewrite app_nil_r. exact P.
    - destruct r as [|a [|b r]]; [cbn [times_pairs]; rewrite app_nil_r; exact P|destruct Dr|]. cbn [times_pairs doubled length] in *.
      replace (l0 ++ a :: b :: r) with ((l0 ++ [a; b]) ++ r) by (rewrite <- app_assoc; reflexivity). apply IH; [lia|exact Dr|]. apply product_mul; [exact P|].
      apply (product_mul mul [a] [b]); constructor. }
  apply (G (length r) r [a; b]); [lia|exact Dl|]. apply (product_mul mul [a] [b]); constructor.
Qed.

(** ** Sums of whole numbers *)
Lemma ints_sum : forall zs s z0, Forall (fun z => (0 <= z)%Z) zs -> ok s -> fval s = IZR z0 -> (0 <= z0)%Z -> (fold_left Z.add zs z0 <= 2 ^ 53)%Z ->
  ok (fold_left (SFadd fprec femax) (map f64_ofZ zs) s) /\ fval (fold_left (SFadd fprec femax) (map f64_ofZ zs) s) = IZR (fold_left Z.add zs z0).
Proof.
  induction zs as [|z zs IH]; intros s z0 F Ks Es H0 B; cbn [map fold_left] in *; [auto|]. inversion F as [|? ? Hz F']; subst.
  assert (Mono : forall l a, Forall (fun z => (0 <= z)%Z) l -> (a <= fold_left Z.add l a)%Z).
  { clear. induction l as [|x l IH]; intros a F; cbn [fold_left]; [lia|]. inversion F; subst. specialize (IH (a + x)%Z ltac:(assumption)). lia. }
  pose proof (Mono zs (z0 + z)%Z F') as Hm.
  destruct (ofZ_exact z) as [Kz Ez]; [lia|]. assert (R := add_spec s (f64_ofZ z) (proj1 Ks) (proj1 Kz) (proj2 Ks) (proj2 Kz)). rewrite Es, Ez, <- plus_IZR in R.
  destruct (rounded_exact _ _ R) as [Kr Er]; [apply format_Z; lia| |].
  { rewrite <- abs_IZR. apply Rle_lt_trans with (p2 53); [rewrite p2_Z by lia; apply IZR_le; lia|apply p2_lt; lia]. }
  apply IH; try assumption. lia.
Qed.
Lemma fold_add_nat : forall V (n : V -> nat) l a, fold_left Z.add (map (fun x => Z.of_nat (n x)) l) (Z.of_nat a) = Z.of_nat (a + list_sum (map n l)).
Proof. intros V n l. induction l as [|x l IH]; intros a; cbn [map fold_left list_sum fold_right]; [f_equal; lia|]. rewrite <- Nat2Z.inj_add, IH. f_equal. unfold list_sum. lia. Qed.
Lemma rsum_INR : forall V (n : V -> nat) l, rsum (map (fun x => INR (n x)) l) = INR (list_sum (map n l)).
Proof. intros V n l. induction l as [|x l IH]; [reflexivity|]. cbn [map rsum]. rewrite IH. change (list_sum (n x :: map n l)) with (n x + list_sum (map n l))%nat. rewrite plus_INR. reflexivity. Qed.

(** ** Ratio of accumulated values and accumulated weights *)
Lemma ratio_near : forall V (l : list V) (v : V -> f64) (n : V -> nat) (y : V -> R) W, l <> [] -> (Z.of_nat (length l) <= 2 ^ 49)%Z ->
  (forall x, In x l -> ok (v x) /\ Rabs (fval (v x) - y x) <= INR (n x) * W /\ Rabs (fval (v x)) <= 2 * INR (n x) /\ (1 <= n x)%nat) -> (Z.of_nat (list_sum (map n l)) <= 2 ^ 53)%Z ->
  let s := nsum F64ops (map v l) in let c := nsum F64ops (map (fun x => f64_ofZ (Z.of_nat (n x))) l) in let t := list_sum (map n l) in
  ok c /\ fval c = INR t /\ 0 < INR t /\ ok (SFdiv fprec femax s c) /\ Rabs (fval (SFdiv fprec femax s c) - rsum (map y l) / INR t) <= W + INR (4 * length l + 3) * u.
Proof.
  intros V l v n y W Hl HL Hv Ht s c t. pose proof u_small as U.
  destruct (ints_sum (map (fun x => Z.of_nat (n x)) l) (S754_zero false) 0) as [Kc Ec].
  { apply Forall_forall. intros z Hz. apply in_map_iff in Hz. destruct Hz as [x [<- _]]. lia. } { apply ok_zero. } { reflexivity. } { lia. }
  { pose proof (fold_add_nat V n l 0) as Q. cbn [Z.of_nat Nat.add] in Q. rewrite Q. exact Ht. }
  pose proof (fold_add_nat V n l 0) as Q. cbn [Z.of_nat Nat.add] in Q. rewrite Q, map_map, <- INR_IZR_INZ in *. fold t in Ec. change (fold_left (SFadd fprec femax) (map (fun x => f64_ofZ (Z.of_nat (n x))) l) (S754_zero false)) with c in Kc, Ec.
  assert (T1 : (1 <= t)%nat).
  { destruct l as [|x l]; [congruence|]. unfold t. cbn [map]. change (list_sum (n x :: map n l)) with (n x + list_sum (map n l))%nat. destruct (Hv x (or_introl eq_refl)) as [_ [_ [_ ?]]]. lia. }
  assert (T0 : 1 <= INR t) by (change 1 with (INR 1); apply le_INR; exact T1).
  split; [exact Kc|]. split; [exact Ec|]. split; [lra|].
  assert (Nx : forall x, In x l -> (n x <= t)%nat).
  { intros x Hx. unfold t. clear - Hx. induction l as [|a l IH]; [destruct Hx|]. cbn [map]. change (list_sum (n a :: map n l)) with (n a + list_sum (map n l))%nat. destruct Hx as [->|Hx]; [lia|]. specialize (IH Hx). lia. }
  destruct (sum_of_nearby 54 0 0 (map v l) s) with (qs := map (fun x => (fval (v x), Rabs (fval (v x)))) l) as [Ks [_ [_ [Ns _]]]]; try lia; try lra.
  { exact (nsum_sum_of (map v l)). } { rewrite map_length. exact HL. }
  { assert (X : forall x, In x l -> ok (v x) /\ Rabs (fval (v x)) <= p2 54).
    { intros x Hx. destruct (Hv x Hx) as [K [_ [B _]]]. split; [exact K|]. apply Rle_trans with (1 := B). pose proof (Nx x Hx) as Q1. apply le_INR in Q1.
      assert (INR t <= p2 53) by (rewrite p2_Z by lia; rewrite INR_IZR_INZ; apply IZR_le; exact Ht). assert (p2 54 = 2 * p2 53) by (change 54%Z with (1 + 53)%Z; rewrite p2_add; unfold p2 at 1; simpl powerRZ; lra). lra. }
    clear - X. induction l as [|x l IH]; cbn [map]; constructor; [|apply IH; intros; apply X; right; assumption]. cbn [fst snd]. destruct (X x (or_introl eq_refl)). split; [assumption|]. split; [assumption|]. apply nearby_refl. }
  apply nearby_error in Ns; [|apply few_roundings; rewrite map_length; cbn [Nat.add]; lia].
  rewrite map_length, !map_map in Ns. cbn [fst snd Nat.add] in Ns. rewrite !Rmult_0_r, Rplus_0_r in Ns.
  assert (A1 : rsum (map (fun x => Rabs (fval (v x))) l) <= 2 * INR t).
  { unfold t. rewrite <- rsum_INR. clear - Hv. induction l as [|x l IH]; cbn [map rsum]; [lra|]. specialize (IH ltac:(intros; apply Hv; right; assumption)). destruct (Hv x (or_introl eq_refl)) as [_ [_ [B _]]]. lra. }
  assert (A2 : Rabs (rsum (map (fun x => fval (v x)) l) - rsum (map y l)) <= INR t * W).
  { unfold t. rewrite <- rsum_INR. clear - Hv. induction l as [|x l IH]; cbn [map rsum]; [rewrite Rminus_diag_eq, Rabs_R0 by reflexivity; lra|]. specialize (IH ltac:(intros; apply Hv; right; assumption)). destruct (Hv x (or_introl eq_refl)) as [_ [B _]].
    match goal with |- Rabs ?e <= _ => replace e with ((fval (v x) - y x) + (rsum (map (fun x => fval (v x)) l) - rsum (map y l))) by ring end. apply Rle_trans with (1 := Rabs_triang _ _). lra. }
  set (L := INR (length l)) in *. assert (L0 : 0 <= L) by apply pos_INR.
  assert (A3 : Rabs (fval s - rsum (map (fun x => fval (v x)) l)) <= 4 * L * u * INR t).
  { apply Rle_trans with (1 := Ns). apply Rle_trans with (2 * L * u * (2 * INR t)); [|lra]. apply Rmult_le_compat_l; [|exact A1]. apply Rmult_le_pos; lra. }
  assert (Lu : L * u <= / 2) by (apply few_roundings; lia).
  assert (A4 : Rabs (fval s) <= 4 * INR t).
  { assert (Rabs (rsum (map (fun x => fval (v x)) l)) <= 2 * INR t).
    { apply Rle_trans with (2 := A1). clear. induction l as [|x l IH]; cbn [map rsum]; [rewrite Rabs_R0; lra|]. apply Rle_trans with (1 := Rabs_triang _ _). lra. }
    replace (fval s) with ((fval s - rsum (map (fun x => fval (v x)) l)) + rsum (map (fun x => fval (v x)) l)) by ring. apply Rle_trans with (1 := Rabs_triang _ _).
    assert (4 * L * u * INR t <= 2 * INR t) by (apply Rmult_le_compat_r; lra). lra. }
  assert (R := div_spec s c (proj1 Ks) (proj1 Kc) (proj2 Ks) (proj2 Kc) ltac:(lra)). rewrite Ec in R.
  assert (A5 : Rabs (fval s / INR t) <= 2 + 4 * (L * u)).
  { replace (fval s / INR t) with (((fval s - rsum (map (fun x => fval (v x)) l)) + rsum (map (fun x => fval (v x)) l)) / INR t) by (f_equal; ring).
    unfold Rdiv. rewrite Rabs_mult, (Rabs_right (/ INR t)) by (apply Rle_ge, Rlt_le, Rinv_0_lt_compat; lra). apply Rmult_le_reg_r with (INR t); [lra|]. rewrite Rmult_assoc, Rinv_l, Rmult_1_r by lra. apply Rle_trans with (1 := Rabs_triang _ _).
    assert (Rabs (rsum (map (fun x => fval (v x)) l)) <= 2 * INR t).
    { apply Rle_trans with (2 := A1). clear. induction l as [|x l IH]; cbn [map rsum]; [rewrite Rabs_R0; lra|]. apply Rle_trans with (1 := Rabs_triang _ _). lra. }
    lra. }
  destruct (rounded_bounded _ _ (p2 2) R) as [Kd _]; [apply format_p2; lia|apply Rle_trans with (1 := A5); unfold p2; simpl powerRZ; lra|apply p2_lt; lia|].
  split; [exact Kd|]. pose proof (rounded_error _ _ R Kd) as Ed. assert (Ty : tiny <= / 1000 * u).
  { apply Rle_trans with (p2 (-63)); [apply p2_le; lia|]. unfold u. change (-63)%Z with (-10 + -53)%Z. rewrite p2_add. assert (p2 (-10) <= / 1000) by (unfold p2; simpl powerRZ; lra). apply Rmult_le_compat_r; [left; apply p2_pos|assumption]. }
  replace (fval (SFdiv fprec femax s c) - rsum (map y l) / INR t) with ((fval (SFdiv fprec femax s c) - fval s / INR t) + ((fval s - rsum (map (fun x => fval (v x)) l)) + (rsum (map (fun x => fval (v x)) l) - rsum (map y l))) / INR t) by (field; lra).
  apply Rle_trans with (1 := Rabs_triang _ _).
  assert (A6 : Rabs (((fval s - rsum (map (fun x => fval (v x)) l)) + (rsum (map (fun x => fval (v x)) l) - rsum (map y l))) / INR t) <= 4 * L * u + W).
  { unfold Rdiv. rewrite Rabs_mult, (Rabs_right (/ INR t)) by (apply Rle_ge, Rlt_le, Rinv_0_lt_compat; lra). apply Rmult_le_reg_r with (INR t); [lra|]. rewrite Rmult_assoc, Rinv_l, Rmult_1_r by lra. apply Rle_trans with (1 := Rabs_triang _ _). lra. }
  assert (A7 : u * Rabs (fval s / INR t) <= u * (2 + / 2)).
  { apply Rmult_le_compat_l; [lra|]. apply Rle_trans with (1 := A5). assert (L * u <= / 8); [|lra]. unfold L, u. assert (INR (length l) <= p2 49) by (rewrite p2_Z by lia; rewrite INR_IZR_INZ; apply IZR_le; lia).
    apply Rle_trans with (p2 49 * p2 (-53)); [apply Rmult_le_compat_r; [left; apply p2_pos|assumption]|]. rewrite <- p2_add. unfold p2. simpl powerRZ. lra. }
  rewrite plus_INR, mult_INR. fold L. change (INR 3) with (1 + 1 + 1). change (INR 4) with (1 + 1 + 1 + 1). lra.
Qed.

(** ** The factors of one particle *)
Section Kernel.
Variables (mul : f64 * f64 -> f64 * f64 -> f64 * f64) (sum : list (f64 * f64) -> f64 * f64) (ex : f64 -> f64 * f64).
Let D := Fops mul sum ex.

Lemma factor_near : forall eps k0 nk x rows n a, faithful_product mul -> row_in D k0 nk x rows -> length k0 = length x -> length n = length x ->
  Forall (fun z => (- nk <= z <= nk)%Z) n -> fine_phases ex eps k0 x -> wave_error eps (map fval k0) n (map fval x) <= / 8 -> (a < length x)%nat ->
  let e := 2 * Rabs (IZR (nth a n 0%Z)) * phase_error eps (nth a (map fval k0) 0) (nth a (map fval x) 0) in
  exists r z, get rows a = Ok r /\ getZ r (nth a n 0%Z + nk) = Ok z /\ unit_factor z (IZR (nth a n 0%Z) * (nth a (map fval k0) 0 * nth a (map fval x) 0), e).
Proof.
  intros eps k0 nk x rows n a M [Lr Rr] Lk Ln Fn [He Fp] We Ha e.
  assert (Hn : (- nk <= nth a n 0 <= nk)%Z) by (rewrite Forall_forall in Fn; apply Fn, nth_In; lia).
  destruct (Rr a (nth a n 0%Z) (S754_zero false) (S754_zero false) (cx0 D)) as [La Na]; [exact Ha|assumption|].
  exists (nth a rows []). assert (Hr : (a < length rows)%nat) by (rewrite Lr; exact Ha).
  exists (entry D (cxexp D (cphmul D (nth a k0 (S754_zero false)) (nth a x (S754_zero false)))) (nth a n 0%Z)).
  split; [apply get_Ok; exact Hr|]. split.
  { rewrite (getZ_pos (cx D) _ _ (cx0 D)) by (rewrite La; lia). replace (nth a n 0 + nk)%Z with (nk + nth a n 0)%Z by lia. rewrite Na. reflexivity. }
  destruct (Fp a Ha) as [Kk [Kc [Pe [Ke De]]]]. cbv zeta in *.
  assert (Ek : nth a (map fval k0) 0 = fval (nth a k0 (S754_zero false))) by (change 0 with (fval (S754_zero false)); apply map_nth).
  assert (Ex : nth a (map fval x) 0 = fval (nth a x (S754_zero false))) by (change 0 with (fval (S754_zero false)); apply map_nth).
  assert (E8 : 0 <= e <= / 8).
  { split.
    - unfold e. pose proof (phase_error_pos eps (nth a (map fval k0) 0) (nth a (map fval x) 0) He). pose proof (Rabs_pos (IZR (nth a n 0%Z))). apply Rmult_le_pos; lra.
    - apply Rle_trans with (2 := We). rewrite wave_error_sum. pose proof u_small as U.
      assert (G : forall i (kk : list R) nn xx, (i < length kk)%nat -> (i < length nn)%nat -> (i < length xx)%nat ->
        2 * Rabs (IZR (nth i nn 0%Z)) * phase_error eps (nth i kk 0) (nth i xx 0) + 8 * u <= rsum (slacks eps kk nn xx)).
      { clear - He. induction i as [|i IH]; intros [|k kk] [|m nn] [|c xx] H1 H2 H3; cbn [length] in *; try lia; cbn [nth slacks rsum].
        - pose proof (rsum_pos' _ (slacks_pos eps kk nn xx He)). lra.
        - specialize (IH kk nn xx ltac:(lia) ltac:(lia) ltac:(lia)). pose proof (slacks_pos eps (k :: kk) (m :: nn) (c :: xx) He) as Q. cbn [slacks] in Q. inversion Q; subst. lra. }
      assert (L1 : (a < length (map fval k0))%nat) by (rewrite map_length; apply Nat.lt_le_trans with (1 := Ha); apply Nat.eq_le_incl; symmetry; exact Lk). assert (L2 : (a < length n)%nat) by (apply Nat.lt_le_trans with (1 := Ha); apply Nat.eq_le_incl; symmetry; exact Ln). assert (L3 : (a < length (map fval x))%nat) by (rewrite map_length; exact Ha).
      pose proof (G a _ _ _ L1 L2 L3). unfold e. lra. }
  unfold e in E8 |- *. rewrite Ek, Ex in *. set (k := nth a k0 (S754_zero false)) in *. set (c := nth a x (S754_zero false)) in *. set (v := nth a n 0%Z) in *.
  destruct (entry_near mul sum ex k c eps v M Kk Kc (phase_bounded _ _ _ He Pe) He) as [Kz Dz].
  { intros t ->. split; [exact Ke|exact De]. }
  { change u with (p2 (-53)). fold (phase_error eps (fval k) (fval c)). lra. }
  { change u with (p2 (-53)). fold (phase_error eps (fval k) (fval c)). exact Pe. }
  change u with (p2 (-53)) in Dz. fold (phase_error eps (fval k) (fval c)) in Dz.
  split; [exact Kz|]. cbn [fst snd]. split; [exact Dz|exact E8].
Qed.

Lemma factor_conj : forall z q, unit_factor z q -> unit_factor (cxconj D z) (- fst q, snd q).
Proof.
  intros z q [[Ka Kb] [Dz B]]. split; [split; cbn [cxconj D Fops fst snd]; [exact Ka|apply opp_ok; exact Kb]|]. cbn [fst snd]. split; [|exact B].
  assert (Ec : cval (cxconj D z) = cconj (cval z)) by (unfold cval, cconj; cbn [cxconj D Fops fst snd]; rewrite fval_opp; reflexivity).
  rewrite Ec, <- cis_conj, cdist_conj. exact Dz.
Qed.

Lemma pair_factors_near : forall eps k0 nk x y ra rb n, faithful_product mul -> row_in D k0 nk x ra -> row_in D k0 nk y rb ->
  length x = length k0 -> length y = length k0 -> length n = length k0 -> Forall (fun z => (- nk <= z <= nk)%Z) n -> fine_phases ex eps k0 x -> fine_phases ex eps k0 y ->
  wave_error eps (map fval k0) n (map fval x) <= / 8 -> wave_error eps (map fval k0) n (map fval y) <= / 8 ->
  exists zs qs, pair_factors D (length k0) ra rb (map (fun z => (z + nk)%Z) n) = Ok zs /\ Forall2 unit_factor zs qs /\ doubled zs /\ (k0 <> [] -> zs <> []) /\
    rsum (map fst qs) = dot (wave (map fval k0) n) (map fval x) - dot (wave (map fval k0) n) (map fval y) /\
    rsum (map slack qs) = wave_error eps (map fval k0) n (map fval x) + wave_error eps (map fval k0) n (map fval y).
Proof.
  intros eps k0 nk x y ra rb n M Rx Ry Lx Ly Ln Fn Fx Fy Wx Wy. unfold pair_factors.
  assert (G : forall m a, (a + m = length k0)%nat -> exists l qs,
    mapM (fun d => a <- get ra d ;; b <- get rb d ;; k <- get (map (fun z => (z + nk)%Z) n) d ;;
                   ea <- getZ a k ;; eb <- getZ b k ;; Ok [ea; cxconj D eb]) (seq a m) = Ok l /\
    Forall2 unit_factor (concat l) qs /\ doubled (concat l) /\ ((0 < m)%nat -> concat l <> []) /\
    rsum (map fst qs) = dot (wave (skipn a (map fval k0)) (skipn a n)) (skipn a (map fval x)) - dot (wave (skipn a (map fval k0)) (skipn a n)) (skipn a (map fval y)) /\
    rsum (map slack qs) = wave_error eps (skipn a (map fval k0)) (skipn a n) (skipn a (map fval x)) + wave_error eps (skipn a (map fval k0)) (skipn a n) (skipn a (map fval y))).
  { intros m. induction m as [|m IH]; intros a Ha.
    - exists [], []. cbn [seq mapM concat map rsum doubled]. split; [reflexivity|]. split; [constructor|]. split; [exact I|]. split; [lia|].
      assert (La : (length n <= a)%nat) by (rewrite Ln; lia). rewrite (skipn_all2 n) by exact La. unfold wave.
      destruct (skipn a (map fval k0)); cbn [combine map dot wave_error]; split; lra.
    - destruct (IH (S a)) as [l [qs [El [Fl [Dl [_ [S1 S2]]]]]]]; [lia|].
      assert (Hx : (a < length x)%nat) by (rewrite Lx; lia). assert (Hy : (a < length y)%nat) by (rewrite Ly; lia).
      destruct (factor_near eps k0 nk x ra n a M Rx (eq_sym Lx) ltac:(congruence) Fn Fx Wx Hx) as [r1 [z1 [G1 [Z1 U1]]]].
      destruct (factor_near eps k0 nk y rb n a M Ry (eq_sym Ly) ltac:(congruence) Fn Fy Wy Hy) as [r2 [z2 [G2 [Z2 U2]]]].
      cbv zeta in U1, U2. set (q1 := (IZR (nth a n 0%Z) * (nth a (map fval k0) 0 * nth a (map fval x) 0), 2 * Rabs (IZR (nth a n 0%Z)) * phase_error eps (nth a (map fval k0) 0) (nth a (map fval x) 0))) in *.
      set (q2 := (IZR (nth a n 0%Z) * (nth a (map fval k0) 0 * nth a (map fval y) 0), 2 * Rabs (IZR (nth a n 0%Z)) * phase_error eps (nth a (map fval k0) 0) (nth a (map fval y) 0))) in *.
      exists ([z1; cxconj D z2] :: l), (q1 :: (- fst q2, snd q2) :: qs). cbn [seq mapM]. rewrite G1, G2. cbn [bind].
      rewrite (get_Ok _ (map (fun z => (z + nk)%Z) n) a (0 + nk)%Z) by (rewrite map_length, Ln; lia). rewrite (map_nth (fun z => (z + nk)%Z)). cbn [bind]. rewrite Z1, Z2. cbn [bind].
      rewrite El. cbn [bind]. split; [reflexivity|]. cbn [concat app].
      split; [constructor; [exact U1|constructor; [exact (factor_conj z2 q2 U2)|exact Fl]]|]. split; [exact Dl|]. split; [discriminate|].
      assert (A0 : (a < length k0)%nat) by lia. assert (A1 : (a < length (map fval k0))%nat) by (rewrite map_length; exact A0). assert (A2 : (a < length n)%nat) by (rewrite Ln; lia). assert (A3 : (a < length (map fval x))%nat) by (rewrite map_length; exact Hx). assert (A4 : (a < length (map fval y))%nat) by (rewrite map_length; exact Hy).
      rewrite (skipn_nth R (map fval k0) a 0 A1), (skipn_nth Z n a 0%Z A2), (skipn_nth R (map fval x) a 0 A3), (skipn_nth R (map fval y) a 0 A4).
      cbn [map rsum fst snd wave combine dot wave_error]. unfold wave in S1. rewrite S1, S2. unfold slack, q1, q2. cbn [fst snd]. change u with (p2 (-53)). split; ring. }
  destruct (G (length k0) 0%nat eq_refl) as [l [qs [El [Fl [Dl [Nl [S1 S2]]]]]]]. exists (concat l), qs. rewrite El. cbn [bind]. split; [reflexivity|]. split; [exact Fl|]. split; [exact Dl|].
  split; [intros Hk; apply Nl; destruct k0; [congruence|cbn; lia]|]. split; [exact S1|exact S2].
Qed.

(** One particle, then one block of particles. *)

Lemma self_sum_near : forall prod eps k0 nk fa fb xa xb n W, faithful_product mul -> product_in_some_order mul prod -> sum_in_some_order sum -> k0 <> [] ->
  Forall2 (row_in D k0 nk) fa xa -> Forall2 (row_in D k0 nk) fb xb -> length fa = length fb -> (Z.of_nat (length fa) <= 2 ^ 49)%Z ->
  length n = length k0 -> Forall (fun z => (- nk <= z <= nk)%Z) n -> W <= / 8 ->
  (forall x, In x fa \/ In x fb -> length x = length k0 /\ fine_phases ex eps k0 x /\ wave_error eps (map fval k0) n (map fval x) <= W) ->
  exists l, mapM (fun p => f <- pair_factors D (length k0) (fst p) (snd p) (map (fun z => (z + nk)%Z) n) ;; Ok (prod f)) (combine xa xb) = Ok l /\
    ok (fst (sum l)) /\ Rabs (fval (fst (sum l)) - cos_sum (wave (map fval k0) n) (map (map fval) fa) (map (map fval) fb)) <= INR (length fa) * (4 * W + 4 * INR (length fa) * u) /\
    Rabs (fval (fst (sum l))) <= 2 * INR (length fa).
Proof.
  intros prod eps k0 nk fa fb xa xb n W M Hp Hs Hk Fa Fb Lab Hl Ln Fn W8 Hx.
  assert (G : exists l, mapM (fun p => f <- pair_factors D (length k0) (fst p) (snd p) (map (fun z => (z + nk)%Z) n) ;; Ok (prod f)) (combine xa xb) = Ok l /\ length l = length fa /\
    Forall2 (fun z t => okc z /\ cdist (cval z) (cis t) <= 4 * W) l (map (fun p => dot (wave (map fval k0) n) (fst p) - dot (wave (map fval k0) n) (snd p)) (combine (map (map fval) fa) (map (map fval) fb)))).
  { clear Hl. revert fb xb Fb Lab Hx. induction Fa as [|x rx fa xa Rx Fa IH]; intros fb xb Fb Lab Hx; [exists []; split; [reflexivity|]; split; [reflexivity|constructor]|].
    destruct Fb as [|y ry fb xb Ry Fb]; [discriminate|]. destruct (IH fb xb Fb) as [l [El [Ll F]]]; [injection Lab as Lab; exact Lab|intros z [Hz|Hz]; apply Hx; [left|right]; right; assumption|].
    destruct (Hx x (or_introl (or_introl eq_refl))) as [Lx [Px Wx]]. destruct (Hx y (or_intror (or_introl eq_refl))) as [Ly [Py Wy]].
    destruct (pair_factors_near eps k0 nk x y rx ry n M Rx Ry Lx Ly Ln Fn Px Py ltac:(lra) ltac:(lra)) as [zs [qs [Ez [Fz [Dz [Nz [S1 S2]]]]]]].
    cbn [combine mapM fst snd]. rewrite Ez. cbn [bind]. rewrite El. cbn [bind]. exists (prod zs :: l). split; [reflexivity|]. split; [cbn [length]; f_equal; exact Ll|]. cbn [map combine]. constructor; [|exact F]. cbn [fst snd].
    destruct (product_near mul zs (prod zs) M (Hp zs (Nz Hk) (doubled_even zs Dz)) qs Fz ltac:(lra)) as [Kz Cz]. split; [exact Kz|]. rewrite <- S1. lra. }
  destruct G as [l [El [Ll F]]]. exists l. split; [exact El|].
  assert (B : Forall (fun z => ok (fst z) /\ Rabs (fval (fst z)) <= 3 / 2) l).
  { clear - F W8. remember (map _ _) as ts. clear Heqts. induction F as [|z t l ts [[K _] Dz] F IH]; constructor; [|exact IH]. split; [exact K|].
    apply Rle_trans with (1 := cnorm_fst (cval z)). pose proof (cnorm_near (cval z) (cis t)) as Q. rewrite cnorm_cis in Q. lra. }
  assert (Lf : length (map fst l) = length fa) by (rewrite map_length; exact Ll).
  destruct (sum_near (map fst l) (fst (sum l)) (proj1 (Hs l))) as [Ks Es].
  { rewrite Lf. exact Hl. } { clear - B. induction B as [|z l [K Q] B IH]; cbn [map]; constructor; [split; [exact K|lra]|exact IH]. }
  split; [exact Ks|]. rewrite Lf, map_map in Es. set (L := INR (length fa)) in *.
  assert (Ec : Rabs (rsum (map (fun z => fval (fst z)) l) - cos_sum (wave (map fval k0) n) (map (map fval) fa) (map (map fval) fb)) <= L * (4 * W)).
  { unfold cos_sum. rewrite <- (map_map (fun p => dot (wave (map fval k0) n) (fst p) - dot (wave (map fval k0) n) (snd p)) cos). unfold L. rewrite <- Ll. clear - F.
    remember (map (fun p => dot _ (fst p) - _) _) as ts. clear Heqts. induction F as [|z t l ts [_ Dz] F IH]; [cbn; rewrite Rminus_diag_eq, Rabs_R0 by reflexivity; lra|].
    cbn [map rsum]. change (length (z :: l)) with (S (length l)). rewrite S_INR.
    match goal with |- Rabs ?e <= _ => replace e with ((fval (fst z) - cos t) + (rsum (map (fun z => fval (fst z)) l) - rsum (map cos ts))) by ring end. apply Rle_trans with (1 := Rabs_triang _ _).
    assert (Rabs (fval (fst z) - cos t) <= 4 * W) by (apply Rle_trans with (2 := Dz); apply (cnorm_fst (csub (cval z) (cis t)))). lra. }
  split.
  - match goal with |- Rabs (?a - ?b) <= _ => replace (a - b) with ((a - rsum (map (fun z => fval (fst z)) l)) + (rsum (map (fun z => fval (fst z)) l) - b)) by ring end. apply Rle_trans with (1 := Rabs_triang _ _). lra.
  - assert (Rabs (rsum (map (fun z => fval (fst z)) l)) <= 3 / 2 * L).
    { unfold L. rewrite <- Ll. clear - B. induction B as [|z l [_ Q] B IH]; [cbn; rewrite Rabs_R0; lra|]. cbn [map rsum]. change (length (z :: l)) with (S (length l)). rewrite S_INR. apply Rle_trans with (1 := Rabs_triang _ _). lra. }
    assert (L * u <= / 8).
    { unfold L, u. assert (INR (length fa) <= p2 49) by (rewrite p2_Z by lia; rewrite INR_IZR_INZ; apply IZR_le; lia). apply Rle_trans with (p2 49 * p2 (-53)); [apply Rmult_le_compat_r; [left; apply p2_pos|assumption]|]. rewrite <- p2_add. unfold p2. simpl powerRZ. lra. }
    assert (0 <= L) by apply pos_INR. assert (L * (L * u) <= L * / 8) by (apply Rmult_le_compat_l; lra).
    replace (fval (fst (sum l))) with ((fval (fst (sum l)) - rsum (map (fun z => fval (fst z)) l)) + rsum (map (fun z => fval (fst z)) l)) by ring. apply Rle_trans with (1 := Rabs_triang _ _). lra.
Qed.
End Kernel.
