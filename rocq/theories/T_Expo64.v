(** Tables of exponentials and densities in Fourier space in double precision: C120. *)
From Coq Require Import List ZArith Bool Arith Reals Lia Lra Psatz Floats.SpecFloat.
From Verif Require Import PyBase PyBaseFacts Num NumFacts Spec_Stats P_Text F64Round F64Ops F64Facts M_Helpers M_KGrid M_Fourier Spec_Doubles Spec_BondAngle Spec_KGrid Spec_Fourier
  P_F64Mean P_Expo M_Expo64 Spec_Expo64 P_Expo64 P_Density64.
Import ListNotations.
Local Open Scope R_scope.

Lemma Forall2_nth_both : forall X Y (P : X -> Y -> Prop) l m i dx dy, Forall2 P l m -> (i < length l)%nat -> P (nth i l dx) (nth i m dy).
Proof. intros X Y P l m i dx dy F. revert i. induction F as [|a b l m Q F IH]; intros [|i] Hi; cbn in *; try lia; [assumption|]. apply IH. lia. Qed.
Lemma Forall2_same_length : forall X Y (P : X -> Y -> Prop) l m, Forall2 P l m -> length l = length m.
Proof. intros X Y P l m F. induction F; cbn; congruence. Qed.

(** ** C120 *)
(** Whatever the complex arithmetic: the entry of wave-vector 0 is 1 and the entries of opposite
    wave-vectors are exact conjugates. *)
Theorem C120_conjugates : forall D k0 nk pos, (1 <= nk)%Z -> pos <> [] -> (forall x, In x pos -> (length x <= length k0)%nat) ->
  exists tab, expo_sphere_in D k0 nk pos = Ok tab /\ length tab = length pos /\
    forall p j n, (p < length pos)%nat -> (j < length (nth p pos []))%nat -> (1 <= n <= nk)%Z ->
      let row := nth j (nth p tab []) [] in
      nth (Z.to_nat nk) row (cx0 D) = cx1 D /\ nth (Z.to_nat (nk - n)) row (cx0 D) = cxconj D (nth (Z.to_nat (nk + n)) row (cx0 D)).
Proof.
  intros D k0 nk pos Hn Hp L. destruct (expo_sphere_in_ok D k0 nk pos Hn Hp L) as [tab [E F]]. exists tab. split; [exact E|]. split; [symmetry; exact (Forall2_same_length _ _ _ _ _ F)|].
  intros p j n Hpp Hj Hnn row. destruct (Forall2_nth_both _ _ _ _ _ p [] [] F Hpp) as [Lr Rr].
  assert (X : exists d, In d (nth p pos [])) by (destruct (nth p pos []) as [|d ?]; [cbn in Hj; lia|exists d; left; reflexivity]). destruct X as [dx _].
  split.
  - destruct (Rr j 0%Z dx dx (cx0 D) Hj ltac:(lia)) as [_ N0]. rewrite Z.add_0_r in N0. exact N0.
  - destruct (Rr j (- n)%Z dx dx (cx0 D) Hj ltac:(lia)) as [_ Nm]. destruct (Rr j n dx dx (cx0 D) Hj ltac:(lia)) as [_ Np].
    unfold row. rewrite Np. replace (nk - n)%Z with (nk + - n)%Z by lia. rewrite Nm. apply entry_neg. lia.
Qed.
Print Assumptions C120_conjugates.

(** In double precision entry n of the table is exp(i n k0 x) up to 2 |n| (eps + (|k0 x| + 8) 2^-53),
    eps being the error of the library's exponential: the recursion loses no more than a few
    roundings per factor. *)
Theorem C120_table : forall mul sum ex eps (k0 : list f64) nk (pos : list (list f64)),
  faithful_product mul -> (1 <= nk)%Z -> pos <> [] -> (forall x, In x pos -> (length x <= length k0)%nat) ->
  (forall x, In x pos -> fine_phases ex eps k0 x) ->
  exists tab, expo_sphere_in (Fops mul sum ex) k0 nk pos = Ok tab /\ length tab = length pos /\
    forall p j n, (p < length pos)%nat -> (j < length (nth p pos []))%nat -> (- nk <= n <= nk)%Z ->
      let k := fval (nth j k0 (S754_zero false)) in let x := fval (nth j (nth p pos []) (S754_zero false)) in
      Rabs (IZR n) * phase_error eps k x <= / 2 ->
      let z := nth (Z.to_nat (nk + n)) (nth j (nth p tab []) []) (S754_nan, S754_nan) in
      okc z /\ cdist (cval z) (cos (IZR n * (k * x)), sin (IZR n * (k * x))) <= 2 * Rabs (IZR n) * phase_error eps k x.
Proof.
  intros mul sum ex eps k0 nk pos M Hn Hp L Fp. destruct (expo_sphere_in_ok (Fops mul sum ex) k0 nk pos Hn Hp L) as [tab [E F]]. exists tab. split; [exact E|]. split; [symmetry; exact (Forall2_same_length _ _ _ _ _ F)|].
  intros p j n Hpp Hj Hnn k x Hs z. destruct (Forall2_nth_both _ _ _ _ _ p [] [] F Hpp) as [Lr Rr].
  destruct (Rr j n (S754_zero false) (S754_zero false) (S754_nan, S754_nan) Hj Hnn) as [_ Nz].
  destruct (Fp (nth p pos []) (nth_In _ _ Hpp)) as [He Fj]. destruct (Fj j Hj) as [Kk [Kc [Pe [Ke De]]]]. cbv zeta in Pe.
  assert (Ez : z = entry (Fops mul sum ex) (ex (SFmul fprec femax (nth j k0 (S754_zero false)) (nth j (nth p pos []) (S754_zero false)))) n) by exact Nz.
  rewrite Ez. apply entry_near; try assumption.
  - apply phase_bounded with eps; assumption.
  - intros t ->. split; assumption.
Qed.
Print Assumptions C120_table.

(** The density rho(k) of N particles, with the sum over particles in any order: the exact sum of
    exp(i k.r) up to twice the errors of the plane waves plus 8 N^2 2^-53. *)
Theorem C120_density : forall mul sum ex eps (k0 : list f64) nk (pos : list (list f64)) n,
  faithful_product mul -> sum_in_some_order sum -> (1 <= nk)%Z -> pos <> [] -> (Z.of_nat (length pos) <= 2 ^ 49)%Z ->
  (forall x, In x pos -> length x = length k0) -> length n = length k0 -> Forall (fun z => (- nk <= z <= nk)%Z) n ->
  (forall x, In x pos -> fine_phases ex eps k0 x /\ wave_error eps (map fval k0) n (map fval x) <= / 4) ->
  exists tab rho, expo_sphere_in (Fops mul sum ex) k0 nk pos = Ok tab /\
    density_in (Fops mul sum ex) (length k0) tab (map (fun z => (z + nk)%Z) n) = Ok rho /\ okc rho /\
    let k := wave (map fval k0) n in let r := map (map fval) pos in
    cdist (cval rho) (rho_re k r (unit_weights r), rho_im k r (unit_weights r))
      <= 2 * rsum (map (fun x => wave_error eps (map fval k0) n x) r) + 8 * (INR (length pos) * INR (length pos)) * p2 (-53).
Proof.
  intros mul sum ex eps k0 nk pos n M Hs Hn Hp Hl L Ln Fn Fp.
  destruct (expo_sphere_in_ok (Fops mul sum ex) k0 nk pos Hn Hp) as [tab [E F]]; [intros x Hx; apply Nat.eq_le_incl; exact (L x Hx)|].
  destruct (density_near mul sum ex eps k0 nk pos tab n M Hs Hl F L Ln Fn Fp) as [rho [Er [Kr Dr]]]. exists tab, rho. split; [exact E|]. split; [exact Er|]. split; [exact Kr|].
  cbv zeta in *. unfold rho_re, rho_im, unit_weights. rewrite !map_map.
  assert (W : forall g : R -> R, map (fun p => snd p * g (dot (wave (map fval k0) n) (fst p))) (combine (map (map fval) pos) (map (fun _ => 1) pos)) = map (fun x => g (dot (wave (map fval k0) n) (map fval x))) pos).
  { intros g. clear. induction pos as [|x pos IH]; [reflexivity|]. cbn [map combine fst snd]. rewrite IH, Rmult_1_l. reflexivity. }
  rewrite (W cos), (W sin). exact Dr.
Qed.
Print Assumptions C120_density.

(** The textbook product and the sum from left to right meet the hypotheses. *)
Theorem C120_plain : faithful_product plain_product /\ sum_in_some_order plain_sum.
Proof. split; [exact plain_product_faithful|exact plain_sum_order]. Qed.
Print Assumptions C120_plain.

(** ** A case: k0 = 1, particles at 1/2 and at the origin, an exponential right to 1/100. *)
Definition half64 : f64 := f64_frac 1 2.
Definition ex_exp (t : f64) : f64 * f64 :=
  if SFeqb t half64 then (S754_finite false 7904560997432656 (-53), S754_finite false 8636562708039152 (-54)) else (f64_ofZ 1, S754_zero false).

Lemma cos_half : 7 / 8 <= cos (/ 2) <= 7 / 8 + / 384.
Proof.
  destruct (pre_cos_bound (/ 2) 0) as [A B]; [lra|lra|]. unfold cos_approx in A, B. simpl sum_f_R0 in A, B. unfold cos_term in A, B. simpl in A, B. split; lra.
Qed.
Lemma sin_half : 23 / 48 <= sin (/ 2) <= 23 / 48 + / 3840.
Proof.
  destruct (pre_sin_bound (/ 2) 0) as [A B]; [lra|lra|]. unfold sin_approx in A, B. simpl sum_f_R0 in A, B. unfold sin_term in A, B. simpl in A, B. split; lra.
Qed.

Lemma half_value : ok half64 /\ fval half64 = / 2.
Proof.
  split; [split; [vm_compute; reflexivity|exact I]|]. replace half64 with (S754_finite false 4503599627370496 (-53)) by (vm_compute; reflexivity).
  cbn [fval]. unfold sgn, p2. simpl powerRZ. lra.
Qed.

Example C120_nonvacuous :
  (forall x, In x [[half64]; [S754_zero false]] -> fine_phases ex_exp (/ 100) [f64_ofZ 1] x /\ wave_error (/ 100) (map fval [f64_ofZ 1]) [3%Z] (map fval x) <= / 4) /\
  match expo_sphere_in (Fops plain_product plain_sum ex_exp) [f64_ofZ 1] 3 [[half64]; [S754_zero false]] with
  | Ok tab => map (fun rows => map (fun row => length row) rows) tab = [[7%nat]; [7%nat]] /\
      nth 6 (nth 0 (nth 0 tab []) []) (S754_nan, S754_nan) = (S754_finite false 5097152561150380 (-56), S754_finite false 8984636099947916 (-53))
  | Err _ => False
  end.
Proof.
  destruct half_value as [Kh Eh]. destruct (ofZ_exact 1) as [K1 E1]; [lia|]. pose proof u_small as U.
  assert (P : forall c, c = / 2 \/ c = 0 -> phase_error (/ 100) 1 c <= / 50).
  { intros c Hc. unfold phase_error. change (p2 (-53)) with u. rewrite Rmult_1_l. assert (Rabs c <= / 2) by (destruct Hc; subst; [rewrite Rabs_right; lra|rewrite Rabs_R0; lra]). pose proof (Rabs_pos c). nra. }
  split.
  - intros x [<-|[<-|[]]]; cbn [map]; rewrite ?E1, ?Eh; (split; [split; [lra|]|]).
    + intros [|j] Hj; [|cbn in Hj; lia]. cbv zeta. cbn [nth]. split; [exact K1|]. split; [exact Kh|]. rewrite E1, Eh. split; [pose proof (P (/ 2) (or_introl eq_refl)); lra|].
      replace (SFmul fprec femax (f64_ofZ 1) half64) with half64 by (vm_compute; reflexivity). rewrite Eh.
      replace (ex_exp half64) with (S754_finite false 7904560997432656 (-53), S754_finite false 8636562708039152 (-54)) by (vm_compute; reflexivity).
      split; [split; (split; [vm_compute; reflexivity|exact I])|]. unfold cdist. apply Rle_trans with (1 := cnorm_sum_abs _). unfold csub, cval, cis. cbn [fst snd fval]. unfold sgn, p2. simpl powerRZ.
      pose proof cos_half. pose proof sin_half.
      match goal with |- Rabs ?a + Rabs ?b <= _ => assert (Rabs a <= / 200) by (apply Rabs_le; lra); assert (Rabs b <= / 200) by (apply Rabs_le; lra) end. lra.
    + cbn [wave_error]. change (p2 (-53)) with u. rewrite (Rabs_right 3) by lra. pose proof (P (/ 2) (or_introl eq_refl)). lra.
    + intros [|j] Hj; [|cbn in Hj; lia]. cbv zeta. cbn [nth]. split; [exact K1|]. split; [apply ok_zero|]. rewrite E1. cbn [fval]. split; [pose proof (P 0 (or_intror eq_refl)); lra|].
      replace (SFmul fprec femax (f64_ofZ 1) (S754_zero false)) with (S754_zero false) by (vm_compute; reflexivity).
      replace (ex_exp (S754_zero false)) with (f64_ofZ 1, S754_zero false) by (vm_compute; reflexivity). cbn [fval].
      split; [split; [exact K1|apply ok_zero]|]. rewrite cis_0. replace (cval (f64_ofZ 1, S754_zero false)) with c1 by (unfold cval; cbn [fst snd]; rewrite E1; reflexivity). rewrite cdist_self. lra.
    + cbn [wave_error fval]. change (p2 (-53)) with u. rewrite (Rabs_right 3) by lra. pose proof (P 0 (or_intror eq_refl)). lra.
  - vm_compute. split; reflexivity.
Qed.
