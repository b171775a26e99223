(** Rounding errors of the tables of exponentials (C120). *)
From Coq Require Import List ZArith Bool Arith Reals Lia Lra Psatz Floats.SpecFloat.
From Verif Require Import PyBase PyBaseFacts Num NumFacts P_Text F64Round F64Ops F64Facts P_F64Mean P_F64Time P_F64Overlap P_F64Msd P_F64Dot P_F64Dist M_Helpers M_KGrid M_Fourier P_Expo M_Expo64 Spec_Expo64.
Import ListNotations.
Local Open Scope R_scope.

(** ** The exact instance is the model of M_Fourier *)
Lemma expo_row_exact : forall junk kj nk x, expo_row_in Cops junk kj nk x = expo_row junk kj nk x.
Proof. reflexivity. Qed.
Lemma expo_sphere_exact : forall k0 nk pos, expo_sphere_in Cops k0 nk pos = expo_sphere k0 nk pos.
Proof. reflexivity. Qed.

(** ** Entries of a table for any arithmetic *)
Fixpoint powers (D : carith) (e : cx D) (n : nat) : cx D :=
  match n with
  | O => cx1 D
  | S O => e
  | S m => cxmul D (powers D e m) e
  end.
Definition entry (D : carith) (e : cx D) (n : Z) : cx D :=
  if (0 <=? n)%Z then powers D e (Z.to_nat n) else cxconj D (powers D e (Z.to_nat (- n))).

Lemma entry_step : forall D e i, (2 <= i)%Z -> entry D e i = cxmul D (entry D e (i - 1)) (entry D e 1).
Proof.
  intros D e i Hi. unfold entry. destruct (Z.leb_spec 0 i); [|lia]. destruct (Z.leb_spec 0 (i - 1)); [|lia]. cbn [Z.leb Z.compare].
  change (Z.to_nat 1) with 1%nat. replace (Z.to_nat i) with (S (S (Z.to_nat (i - 2)))) by lia. replace (Z.to_nat (i - 1)) with (S (Z.to_nat (i - 2))) by lia. reflexivity.
Qed.
Lemma entry_neg : forall D e i, (1 <= i)%Z -> entry D e (- i) = cxconj D (entry D e i).
Proof.
  intros D e i Hi. unfold entry. destruct (Z.leb_spec 0 (- i)); [lia|]. destruct (Z.leb_spec 0 i); [|lia]. rewrite Z.opp_involutive. reflexivity.
Qed.

Definition good_in (D : carith) (nk : Z) (e : cx D) (lo hi : Z) (t : list (cx D)) : Prop :=
  length t = Z.to_nat (2 * nk + 1) /\ forall n d, (lo <= n <= hi)%Z -> nth (Z.to_nat (nk + n)) t d = entry D e n.

Lemma expo_row_in_good : forall D junk kj nk x, (1 <= nk)%Z -> length junk = Z.to_nat (2 * nk + 1) ->
  exists t, expo_row_in D junk kj nk x = Ok t /\ good_in D nk (cxexp D (cphmul D kj x)) (- nk) nk t.
Proof.
  intros D junk kj nk x Hn L. set (e := cxexp D (cphmul D kj x)).
  unfold expo_row_in. fold e.
  destruct (setidx_pos (cx D) junk nk (cx1 D)) as [t1 [E1 [L1 N1]]]; [lia|].
  destruct (setidx_pos (cx D) t1 (nk + 1) e) as [t2 [E2 [L2 N2]]]; [lia|].
  assert (G2 : getZ t2 (nk + 1) = Ok e).
  { rewrite (getZ_pos (cx D) t2 _ (cx0 D)) by lia. rewrite N2. destruct (Z.eqb_spec (Z.of_nat (Z.to_nat (nk + 1))) (nk + 1)); [reflexivity|lia]. }
  destruct (setidx_pos (cx D) t2 (nk - 1) (cxconj D e)) as [t3 [E3 [L3 N3]]]; [lia|].
  rewrite E1. cbn [bind]. rewrite E2. cbn [bind]. rewrite G2. cbn [bind]. rewrite E3. cbn [bind].
  assert (G3 : good_in D nk e (-1) 1 t3).
  { split; [congruence|]. intros n d Hn'. rewrite N3.
    destruct (Z.eqb_spec (Z.of_nat (Z.to_nat (nk + n))) (nk - 1)).
    - assert (n = (-1)%Z) by lia. subst n. reflexivity.
    - rewrite N2. destruct (Z.eqb_spec (Z.of_nat (Z.to_nat (nk + n))) (nk + 1)).
      + assert (n = 1%Z) by lia. subst n. reflexivity.
      + rewrite N1. destruct (Z.eqb_spec (Z.of_nat (Z.to_nat (nk + n))) nk); [|lia].
        assert (n = 0%Z) by lia. subst n. reflexivity. }
  clear - G3 Hn.
  assert (PR : forall i t lo, good_in D nk e lo (i - 1) t -> (lo <= 1)%Z -> (2 <= i <= nk)%Z ->
    exists a b, getZ t (nk + i - 1) = Ok a /\ getZ t (nk + 1) = Ok b /\ cxmul D a b = entry D e i).
  { intros i t lo [Lt Nt] Hlo Hi.
    exists (entry D e (i - 1)), (entry D e 1). split; [|split].
    - rewrite (getZ_pos (cx D) t _ (cx0 D)) by lia. f_equal.
      replace (nk + i - 1)%Z with (nk + (i - 1))%Z by lia. apply Nt. lia.
    - rewrite (getZ_pos (cx D) t _ (cx0 D)) by lia. f_equal. apply Nt. lia.
    - symmetry. apply entry_step. lia. }
  destruct (foldM_zrange _ (fun i t => good_in D nk e (-1) (i - 1) t)
    (fun t i => a <- getZ t (nk + i - 1) ;; b <- getZ t (nk + 1) ;; setidx t (nk + i) (cxmul D a b)) 2 (nk - 1) t3)
    as [t4 [E4 G4]].
  { intros i t Hi Gt. destruct (PR i t (-1)%Z Gt ltac:(lia) ltac:(lia)) as [a [b [Ea [Eb Eab]]]].
    rewrite Ea, Eb. cbn [bind]. destruct Gt as [Lt Nt].
    destruct (setidx_pos (cx D) t (nk + i) (cxmul D a b)) as [t' [E' [L' N']]]; [lia|].
    exists t'. split; [assumption|]. split; [congruence|]. intros n d Hn'. rewrite N'.
    destruct (Z.eqb_spec (Z.of_nat (Z.to_nat (nk + n))) (nk + i)).
    - assert (n = i) by lia. subst n. assumption.
    - apply Nt. lia. }
  { exact G3. }
  rewrite E4. cbn [bind].
  assert (G5 : good_in D nk e (-1) 1 t4).
  { destruct G4 as [Lt Nt]. split; [assumption|]. intros n d Hn'. apply Nt. lia. }
  clear E4 G4 G3.
  destruct (foldM_zrange _ (fun i t => good_in D nk e (- (i - 1)) (i - 1) t)
    (fun t i => a <- getZ t (nk + i - 1) ;; b <- getZ t (nk + 1) ;;
                    t <- setidx t (nk + i) (cxmul D a b) ;;
                    c <- getZ t (nk + i) ;;
                    setidx t (nk - i) (cxconj D c)) 2 nk t4) as [t5 [E5 G6]].
  { intros i t Hi Gt. destruct (PR i t (- (i - 1))%Z Gt ltac:(lia) ltac:(lia)) as [a [b [Ea [Eb Eab]]]].
    rewrite Ea, Eb. cbn [bind]. destruct Gt as [Lt Nt].
    destruct (setidx_pos (cx D) t (nk + i) (cxmul D a b)) as [t' [E' [L' N']]]; [lia|].
    rewrite E'. cbn [bind].
    assert (Gc : getZ t' (nk + i) = Ok (entry D e i)).
    { rewrite (getZ_pos (cx D) t' _ (cx0 D)) by lia. rewrite N'.
      destruct (Z.eqb_spec (Z.of_nat (Z.to_nat (nk + i))) (nk + i)); [congruence|lia]. }
    rewrite Gc. cbn [bind].
    destruct (setidx_pos (cx D) t' (nk - i) (cxconj D (entry D e i))) as [t'' [E'' [L'' N'']]]; [lia|].
    exists t''. split; [assumption|]. split; [congruence|]. intros n d Hn'. rewrite N''.
    destruct (Z.eqb_spec (Z.of_nat (Z.to_nat (nk + n))) (nk - i)).
    - assert (n = (- i)%Z) by lia. subst n. symmetry. apply entry_neg. lia.
    - rewrite N'. destruct (Z.eqb_spec (Z.of_nat (Z.to_nat (nk + n))) (nk + i)).
      + assert (n = i) by lia. subst n. assumption.
      + apply Nt. lia. }
  { exact G5. }
  exists t5. split; [exact E5|].
  replace (Z.max 2 (nk + 1)) with (nk + 1)%Z in G6 by lia.
  destruct G6 as [L6 N6]. split; [assumption|]. intros n d Hn'. apply N6. lia.
Qed.

Definition row_in (D : carith) (k0 : list (cph D)) (nk : Z) (x : list (cph D)) (rows : list (list (cx D))) : Prop :=
  length rows = length x /\
  forall j n dk dx d, (j < length x)%nat -> (- nk <= n <= nk)%Z ->
    length (nth j rows []) = Z.to_nat (2 * nk + 1) /\
    nth (Z.to_nat (nk + n)) (nth j rows []) d = entry D (cxexp D (cphmul D (nth j k0 dk) (nth j x dx))) n.

Lemma expo_particle_in_ok : forall D k0 nk x, (1 <= nk)%Z -> (length x <= length k0)%nat ->
  exists rows, expo_particle_in D k0 nk x = Ok rows /\ row_in D k0 nk x rows.
Proof.
  intros D k0 nk x Hn L. unfold expo_particle_in.
  destruct (mapM_seq (list (cx D)) (fun j => kj <- get k0 j ;; xj <- get x j ;;
                 expo_row_in D (repeat (cx0 D) (Z.to_nat (2 * nk + 1))) kj nk xj)
             (fun j t => forall dk dx, good_in D nk (cxexp D (cphmul D (nth j k0 dk) (nth j x dx))) (- nk) nk t) (length x)) as [rows [E [Lr F]]].
  - intros j Hj. destruct x as [|x0 x']; [cbn in Hj; lia|]. set (x := x0 :: x') in *. destruct k0 as [|q0 k']; [cbn in *; lia|]. set (k0 := q0 :: k') in *.
    rewrite (get_Ok _ k0 j q0) by lia. rewrite (get_Ok _ x j x0) by lia. cbn [bind].
    destruct (expo_row_in_good D (repeat (cx0 D) (Z.to_nat (2 * nk + 1))) (nth j k0 q0) nk (nth j x x0) Hn) as [t [Et Gt]]; [apply repeat_length|].
    exists t. split; [exact Et|]. intros dk dx. rewrite (nth_indep k0 dk q0) by lia. rewrite (nth_indep x dx x0) by lia. exact Gt.
  - exists rows. split; [assumption|]. split; [assumption|]. intros j n dk dx d Hj Hn'.
    destruct (F j [] Hj dk dx) as [Lj Nj]. auto.
Qed.

Lemma expo_sphere_in_ok : forall D k0 nk pos, (1 <= nk)%Z -> pos <> [] ->
  (forall x, In x pos -> (length x <= length k0)%nat) ->
  exists tab, expo_sphere_in D k0 nk pos = Ok tab /\ Forall2 (row_in D k0 nk) pos tab.
Proof.
  intros D k0 nk pos Hn Hp L. unfold expo_sphere_in. destruct pos as [|p r] eqn:E; [congruence|].
  rewrite <- E in *. apply mapM_Forall2. intros x Hx. apply expo_particle_in_ok; auto.
Qed.

(** ** The complex plane *)
Lemma cnorm_pos : forall z, 0 <= cnorm z.
Proof. intros. apply sqrt_pos. Qed.
Lemma cnorm_sq : forall z, cnorm z * cnorm z = fst z * fst z + snd z * snd z.
Proof. intros z. unfold cnorm. apply sqrt_sqrt. nra. Qed.
Lemma sq_le : forall a b, 0 <= b -> a * a <= b * b -> a <= b.
Proof. intros a b Hb H. destruct (Rle_dec a b) as [K|K]; [exact K|]. exfalso. nra. Qed.
Lemma cnorm_le : forall z b, 0 <= b -> fst z * fst z + snd z * snd z <= b * b -> cnorm z <= b.
Proof. intros z b Hb H. apply sq_le; [exact Hb|]. rewrite cnorm_sq. exact H. Qed.
Lemma cnorm_mul : forall a b, cnorm (cmul a b) = cnorm a * cnorm b.
Proof.
  intros a b. unfold cnorm. rewrite <- sqrt_mult by nra. f_equal. unfold cmul. cbn [fst snd]. ring.
Qed.
Lemma cauchy : forall a b, Rabs (fst a * fst b + snd a * snd b) <= cnorm a * cnorm b.
Proof.
  intros a b. apply sq_le; [apply Rmult_le_pos; apply cnorm_pos|].
  rewrite <- Rabs_mult, Rabs_right by (apply Rle_ge; apply Rle_0_sqr).
  replace (cnorm a * cnorm b * (cnorm a * cnorm b)) with ((cnorm a * cnorm a) * (cnorm b * cnorm b)) by ring. rewrite !cnorm_sq.
  pose proof (Rle_0_sqr (fst a * snd b - snd a * fst b)) as Q. unfold Rsqr in Q. nra.
Qed.
Lemma cnorm_add : forall a b, cnorm (cadd a b) <= cnorm a + cnorm b.
Proof.
  intros a b. apply cnorm_le; [pose proof (cnorm_pos a); pose proof (cnorm_pos b); lra|].
  pose proof (cnorm_sq a) as A. pose proof (cnorm_sq b) as B. pose proof (cauchy a b) as Q. pose proof (Rle_abs (fst a * fst b + snd a * snd b)).
  unfold cadd. cbn [fst snd]. nra.
Qed.
Lemma cnorm_fst : forall z, Rabs (fst z) <= cnorm z.
Proof.
  intros z. apply sq_le; [apply cnorm_pos|]. rewrite cnorm_sq, <- Rabs_mult, Rabs_right by (apply Rle_ge; apply Rle_0_sqr). pose proof (Rle_0_sqr (snd z)) as Q. unfold Rsqr in Q. lra.
Qed.
Lemma cnorm_snd : forall z, Rabs (snd z) <= cnorm z.
Proof.
  intros z. apply sq_le; [apply cnorm_pos|]. rewrite cnorm_sq, <- Rabs_mult, Rabs_right by (apply Rle_ge; apply Rle_0_sqr). pose proof (Rle_0_sqr (fst z)) as Q. unfold Rsqr in Q. lra.
Qed.
Lemma cnorm_sum_abs : forall z, cnorm z <= Rabs (fst z) + Rabs (snd z).
Proof.
  intros z. pose proof (Rabs_pos (fst z)). pose proof (Rabs_pos (snd z)). apply cnorm_le; [lra|].
  assert (A : forall t, t * t = Rabs t * Rabs t) by (intros t; rewrite <- Rabs_mult, Rabs_right; [reflexivity|apply Rle_ge; apply Rle_0_sqr]).
  rewrite (A (fst z)), (A (snd z)). nra.
Qed.
Lemma cnorm_conj : forall z, cnorm (cconj z) = cnorm z.
Proof. intros z. unfold cnorm, cconj. cbn [fst snd]. f_equal. ring. Qed.
Lemma cnorm_cis : forall t, cnorm (cis t) = 1.
Proof.
  intros t. unfold cnorm, cis. cbn [fst snd]. pose proof (sin2_cos2 t) as Q. unfold Rsqr in Q. replace (cos t * cos t + sin t * sin t) with 1 by lra. apply sqrt_1.
Qed.
Lemma cdist_pos : forall a b, 0 <= cdist a b.
Proof. intros. apply cnorm_pos. Qed.
Lemma cdist_self : forall a, cdist a a = 0.
Proof. intros a. unfold cdist, cnorm, csub. cbn [fst snd]. replace ((fst a - fst a) * (fst a - fst a) + (snd a - snd a) * (snd a - snd a)) with 0 by ring. apply sqrt_0. Qed.
Lemma cdist_tri : forall a b c, cdist a c <= cdist a b + cdist b c.
Proof.
  intros a b c. unfold cdist. replace (csub a c) with (cadd (csub a b) (csub b c)); [apply cnorm_add|]. apply c_eq; cbn; ring.
Qed.
Lemma cdist_conj : forall a b, cdist (cconj a) (cconj b) = cdist a b.
Proof. intros a b. unfold cdist. rewrite <- (cnorm_conj (csub a b)). f_equal. apply c_eq; cbn; ring. Qed.
Lemma cnorm_near : forall a b, cnorm a <= cnorm b + cdist a b.
Proof.
  intros a b. unfold cdist. replace a with (cadd b (csub a b)) at 1; [apply cnorm_add|]. apply c_eq; cbn; ring.
Qed.
Lemma cdist_mul : forall a b c d, cdist (cmul a b) (cmul c d) <= cdist a c * cnorm b + cnorm c * cdist b d.
Proof.
  intros a b c d. unfold cdist. rewrite <- !cnorm_mul. replace (csub (cmul a b) (cmul c d)) with (cadd (cmul (csub a c) b) (cmul c (csub b d))); [apply cnorm_add|]. apply c_eq; cbn; ring.
Qed.

(** The chord is shorter than the arc. *)
Lemma sin_le_id : forall x, 0 <= x -> sin x <= x.
Proof.
  intros x Hx. destruct (Req_dec x 0) as [->|N]; [rewrite sin_0; lra|]. left. apply sin_lt_x. lra.
Qed.
Lemma abs_sin : forall x, Rabs (sin x) <= Rabs x.
Proof.
  assert (P : forall x, 0 <= x -> Rabs (sin x) <= x).
  { intros x Hx. apply Rabs_le. split; [|apply sin_le_id; exact Hx].
    destruct (Rle_dec x 1) as [K|K]; [|pose proof (SIN_bound x); lra].
    pose proof PI_RGT_0. pose proof PI2_1. assert (0 <= sin x) by (apply sin_ge_0; lra). lra. }
  intros x. destruct (Rle_dec 0 x) as [K|K].
  - rewrite (Rabs_right x) by lra. apply P. exact K.
  - rewrite (Rabs_left x) by lra. rewrite <- Rabs_Ropp, <- sin_neg. apply P. lra.
Qed.
Lemma chord : forall a b, cdist (cis a) (cis b) <= Rabs (a - b).
Proof.
  intros a b. unfold cdist. apply cnorm_le; [apply Rabs_pos|].
  unfold csub, cis. cbn [fst snd].
  assert (E : (cos a - cos b) * (cos a - cos b) + (sin a - sin b) * (sin a - sin b) = (2 * sin ((a - b) / 2)) * (2 * sin ((a - b) / 2))).
  { assert (Q : cos (a - b) = 1 - 2 * sin ((a - b) / 2) * sin ((a - b) / 2)) by (rewrite <- cos_2a_sin; f_equal; field).
    rewrite cos_minus in Q. pose proof (sin2_cos2 a) as A. pose proof (sin2_cos2 b) as B. unfold Rsqr in A, B. nra. }
  rewrite E. pose proof (abs_sin ((a - b) / 2)) as S. set (s := sin ((a - b) / 2)) in *.
  replace (Rabs ((a - b) / 2)) with (Rabs (a - b) / 2) in S by (unfold Rdiv; rewrite Rabs_mult, (Rabs_right (/ 2)) by lra; reflexivity).
  replace (2 * s * (2 * s)) with (Rabs (2 * s) * Rabs (2 * s)) by (rewrite <- Rabs_mult; apply Rabs_right; apply Rle_ge; apply Rle_0_sqr).
  rewrite Rabs_mult, (Rabs_right 2) by lra. pose proof (Rabs_pos s). apply Rmult_le_compat; lra.
Qed.

(** ** Products *)
Lemma plain_product_faithful : faithful_product plain_product.
Proof.
  intros [a b] [c d] [Ka Kb] [Kc Kd] Na Nb. cbn [fst snd] in *. unfold plain_product. cbn [fst snd].
  assert (CA := cnorm_fst (cval (a, b))). assert (CB := cnorm_snd (cval (a, b))). assert (CC := cnorm_fst (cval (c, d))). assert (CD := cnorm_snd (cval (c, d))).
  set (P := cnorm (cval (a, b))) in *. set (Q := cnorm (cval (c, d))) in *. unfold cval in CA, CB, CC, CD. cbn [fst snd] in *.
  assert (Hy : forall x y, ok x -> ok y -> Rabs (fval x) <= p2 400 -> Rabs (fval y) <= p2 400 -> let t := SFmul fprec femax x y in
    ok t /\ Rabs (fval t) <= p2 800 /\ Rabs (fval t - fval x * fval y) <= u * Rabs (fval x * fval y) + tiny).
  { intros x y Kx Ky Bx By t. assert (R1 : rounded (fval x * fval y) t) by (apply mul_spec; try apply Kx; apply Ky).
    destruct (rounded_bounded _ _ (p2 800) R1) as [Kt Bt].
    - apply format_p2. lia.
    - rewrite Rabs_mult. replace (p2 800) with (p2 400 * p2 400) by (rewrite <- p2_add; reflexivity). apply Rmult_le_compat; try apply Rabs_pos; assumption.
    - apply p2_lt. lia.
    - split; [exact Kt|]. split; [exact Bt|]. apply rounded_error; assumption. }
  destruct (Hy a c Ka Kc ltac:(lra) ltac:(lra)) as [K1 [B1 E1]]. destruct (Hy b d Kb Kd ltac:(lra) ltac:(lra)) as [K2 [B2 E2]].
  destruct (Hy a d Ka Kd ltac:(lra) ltac:(lra)) as [K3 [B3 E3]]. destruct (Hy b c Kb Kc ltac:(lra) ltac:(lra)) as [K4 [B4 E4]]. clear Hy. cbv zeta in *.
  set (ac := SFmul fprec femax a c) in *. set (bd := SFmul fprec femax b d) in *. set (ad := SFmul fprec femax a d) in *. set (bc := SFmul fprec femax b c) in *.
  assert (R5 : rounded (fval ac - fval bd) (SFsub fprec femax ac bd)) by (apply sub_spec; try apply K1; apply K2).
  assert (R6 : rounded (fval ad + fval bc) (SFadd fprec femax ad bc)) by (apply add_spec; try apply K3; apply K4).
  assert (P8 : p2 801 = p2 800 + p2 800) by (change 801%Z with (1 + 800)%Z; rewrite p2_add; change (p2 1) with (2 * 1); ring).
  destruct (rounded_bounded _ _ (p2 801) R5) as [K5 B5]; [apply format_p2; lia| |apply p2_lt; lia|].
  { unfold Rminus. apply Rle_trans with (1 := Rabs_triang _ _). rewrite Rabs_Ropp. lra. }
  destruct (rounded_bounded _ _ (p2 801) R6) as [K6 B6]; [apply format_p2; lia| |apply p2_lt; lia|].
  { apply Rle_trans with (1 := Rabs_triang _ _). lra. }
  split; [split; assumption|].
  pose proof (rounded_error _ _ R5 K5) as E5. pose proof (rounded_error _ _ R6 K6) as E6.
  assert (X : Rabs (fval a) * Rabs (fval c) + Rabs (fval b) * Rabs (fval d) <= P * Q).
  { pose proof (cauchy (Rabs (fval a), Rabs (fval b)) (Rabs (fval c), Rabs (fval d))) as W. cbn [fst snd] in W.
    replace (cnorm (Rabs (fval a), Rabs (fval b))) with P in W by (unfold P, cnorm, cval; cbn [fst snd]; rewrite <- !Rabs_mult, !Rabs_right by (apply Rle_ge; apply Rle_0_sqr); reflexivity).
    replace (cnorm (Rabs (fval c), Rabs (fval d))) with Q in W by (unfold Q, cnorm, cval; cbn [fst snd]; rewrite <- !Rabs_mult, !Rabs_right by (apply Rle_ge; apply Rle_0_sqr); reflexivity).
    apply Rle_trans with (2 := W). apply Rle_abs. }
  assert (Y : Rabs (fval a) * Rabs (fval d) + Rabs (fval b) * Rabs (fval c) <= P * Q).
  { pose proof (cauchy (Rabs (fval a), Rabs (fval b)) (Rabs (fval d), Rabs (fval c))) as W. cbn [fst snd] in W.
    replace (cnorm (Rabs (fval a), Rabs (fval b))) with P in W by (unfold P, cnorm, cval; cbn [fst snd]; rewrite <- !Rabs_mult, !Rabs_right by (apply Rle_ge; apply Rle_0_sqr); reflexivity).
    replace (cnorm (Rabs (fval d), Rabs (fval c))) with Q in W by (unfold Q, cnorm, cval; cbn [fst snd]; rewrite <- !Rabs_mult, !Rabs_right by (apply Rle_ge; apply Rle_0_sqr); f_equal; ring).
    apply Rle_trans with (2 := W). apply Rle_abs. }
  rewrite Rabs_mult in E1, E2, E3, E4.
  pose proof u_small as U. pose proof tiny_pos as T.
  assert (G : forall v1 v2 w1 w2 z a1 a2, Rabs (v1 - w1) <= u * a1 + tiny -> Rabs (v2 - w2) <= u * a2 + tiny -> Rabs w1 <= a1 -> Rabs w2 <= a2 ->
    Rabs (z - (v1 + v2)) <= u * Rabs (v1 + v2) + tiny -> Rabs (z - (w1 + w2)) <= 3 * u * (a1 + a2) + 4 * tiny).
  { clear - U T. intros v1 v2 w1 w2 z a1 a2 H1 H2 H3 H4 H5.
    assert (A1 : Rabs (v1 + v2) <= (a1 + a2) + (u * (a1 + a2) + 2 * tiny)).
    { replace (v1 + v2) with ((w1 + w2) + ((v1 - w1) + (v2 - w2))) by ring. apply Rle_trans with (1 := Rabs_triang _ _).
      pose proof (Rabs_triang w1 w2). pose proof (Rabs_triang (v1 - w1) (v2 - w2)). lra. }
    assert (A0 : 0 <= a1 + a2) by (pose proof (Rabs_pos w1); pose proof (Rabs_pos w2); lra).
    replace (z - (w1 + w2)) with ((z - (v1 + v2)) + ((v1 - w1) + (v2 - w2))) by ring. apply Rle_trans with (1 := Rabs_triang _ _).
    pose proof (Rabs_triang (v1 - w1) (v2 - w2)). set (q := a1 + a2) in *.
    assert (Z1 : u * Rabs (v1 + v2) <= u * (q + (u * q + 2 * tiny))) by (apply Rmult_le_compat_l; lra).
    assert (Z2 : 0 <= u * q) by (apply Rmult_le_pos; lra). assert (Z3 : u * (u * q) <= / 1000000 * (u * q)) by (apply Rmult_le_compat_r; lra).
    assert (Z4 : u * tiny <= / 1000000 * tiny) by (apply Rmult_le_compat_r; lra).
    replace (u * (q + (u * q + 2 * tiny))) with (u * q + u * (u * q) + 2 * (u * tiny)) in Z1 by ring.
    replace (3 * u * q) with (3 * (u * q)) by ring. replace (u * a1 + tiny + (u * a2 + tiny)) with (u * q + 2 * tiny) in * by (unfold q; ring).
    assert (Z5 : u * a1 + u * a2 = u * q) by (unfold q; ring). lra. }
  assert (G5 := G (fval ac) (- fval bd) (fval a * fval c) (- (fval b * fval d)) (fval (SFsub fprec femax ac bd)) (Rabs (fval a) * Rabs (fval c)) (Rabs (fval b) * Rabs (fval d))).
  assert (G6 := G (fval ad) (fval bc) (fval a * fval d) (fval b * fval c) (fval (SFadd fprec femax ad bc)) (Rabs (fval a) * Rabs (fval d)) (Rabs (fval b) * Rabs (fval c))).
  rewrite Rabs_Ropp, !Rabs_mult in G5. rewrite !Rabs_mult in G6.
  specialize (G5 E1). replace (- fval bd - - (fval b * fval d)) with (- (fval bd - fval b * fval d)) in G5 by ring. rewrite Rabs_Ropp in G5. specialize (G5 E2 (Rle_refl _) (Rle_refl _) E5).
  specialize (G6 E3 E4 (Rle_refl _) (Rle_refl _) E6).
  unfold cdist. apply Rle_trans with (1 := cnorm_sum_abs _). unfold csub, cmul, cval. cbn [fst snd].
  replace (fval a * fval c - fval b * fval d) with (fval a * fval c + - (fval b * fval d)) by ring.
  change (p2 (-53)) with u. replace (p2 (-1070)) with (32 * tiny) by (unfold tiny; replace (-1070)%Z with (5 + -1075)%Z by reflexivity; rewrite p2_add; unfold p2 at 2; simpl powerRZ; lra).
  set (m1 := Rabs (fval a) * Rabs (fval c) + Rabs (fval b) * Rabs (fval d)) in *. set (m2 := Rabs (fval a) * Rabs (fval d) + Rabs (fval b) * Rabs (fval c)) in *. set (m := P * Q) in *.
  assert (u * m1 <= u * m) by (apply Rmult_le_compat_l; lra). assert (u * m2 <= u * m) by (apply Rmult_le_compat_l; lra). lra.
Qed.

Lemma faithful_small : forall mul, faithful_product mul -> forall a b, okc a -> okc b -> cnorm (cval a) <= 2 -> cnorm (cval b) <= 2 ->
    okc (mul a b) /\ cdist (cval (mul a b)) (cmul (cval a) (cval b)) <= 6 * p2 (-53) * (cnorm (cval a) * cnorm (cval b)) + p2 (-1070).
Proof.
  intros mul M a b Ka Kb Na Nb. assert (2 <= p2 400) by (replace 2 with (p2 1) by (unfold p2; simpl powerRZ; lra); apply p2_le; lia). apply M; try assumption; lra.
Qed.

(** ** The recursion *)
Lemma pow_small : forall n h, 0 <= h -> INR n * h <= / 2 -> (1 + h) ^ n <= 1 + 2 * INR n * h.
Proof.
  intros n h Hh. induction n as [|n IH]; intros H; [cbn; lra|]. rewrite S_INR in *. cbn [pow]. assert (N : 0 <= INR n) by apply pos_INR.
  assert (A : INR n * h <= / 2) by nra. specialize (IH A). set (q := INR n * h) in *.
  replace (2 * INR n * h) with (2 * q) in IH by (unfold q; ring). replace (2 * (INR n + 1) * h) with (2 * q + 2 * h) by (unfold q; ring).
  assert (0 <= q) by (unfold q; apply Rmult_le_pos; lra).
  apply Rle_trans with ((1 + h) * (1 + 2 * q)); [apply Rmult_le_compat_l; lra|]. nra.
Qed.

(** Distance of entry n to the n-th power of a point of the circle. *)
Lemma powers_near : forall mul sum ex e t h n, faithful_product mul -> okc e -> cdist (cval e) (cis t) <= h -> h <= / 8 ->
  let g := h + 7 * u in INR n * g <= / 2 ->
  okc (powers (Fops mul sum ex) e n) /\ cdist (cval (powers (Fops mul sum ex) e n)) (cis (INR n * t)) <= (1 + g) ^ n - 1.
Proof.
  intros mul sum ex e t h n M Ke He Hh g. pose proof u_small as U. assert (H0 : 0 <= h) by (apply Rle_trans with (2 := He); apply cdist_pos).
  assert (G0 : 0 <= g) by (unfold g; lra).
  assert (Ne : cnorm (cval e) <= 1 + h) by (pose proof (cnorm_near (cval e) (cis t)) as Q; rewrite cnorm_cis in Q; lra).
  assert (Zero : okc (powers (Fops mul sum ex) e 0) /\ cdist (cval (powers (Fops mul sum ex) e 0)) (cis (INR 0 * t)) <= (1 + g) ^ 0 - 1).
  { destruct (ofZ_exact 1) as [K1 E1]; [lia|]. cbn [powers Fops cx1]. split; [split; cbn [fst snd]; [exact K1|apply ok_zero]|].
    replace (cval (f64_ofZ 1, S754_zero false)) with c1 by (unfold cval; cbn [fst snd]; rewrite E1; reflexivity).
    cbn [INR pow]. rewrite Rmult_0_l, cis_0, cdist_self. lra. }
  assert (One : okc (powers (Fops mul sum ex) e 1) /\ cdist (cval (powers (Fops mul sum ex) e 1)) (cis (INR 1 * t)) <= (1 + g) ^ 1 - 1).
  { cbn [powers]. split; [exact Ke|]. cbn [INR pow]. rewrite Rmult_1_l. apply Rle_trans with (1 := He). unfold g. lra. }
  induction n as [|n IH]; intros Hn; [exact Zero|]. destruct n as [|n]; [exact One|].
  assert (Hn' : INR (S n) * g <= / 2) by (rewrite (S_INR (S n)) in Hn; nra).
  destruct (IH Hn') as [Kz Dz]. set (z := powers (Fops mul sum ex) e (S n)) in *.
  change (powers (Fops mul sum ex) e (S (S n))) with (mul z e).
  pose proof (pow_small (S n) g G0 Hn') as PS. set (q := (1 + g) ^ S n) in *. change ((1 + g) ^ S (S n)) with ((1 + g) * q).
  assert (Q1 : q <= 2) by lra.
  assert (Nz : cnorm (cval z) <= q) by (pose proof (cnorm_near (cval z) (cis (INR (S n) * t))) as W; rewrite cnorm_cis in W; lra).
  destruct (faithful_small mul M z e Kz Ke ltac:(lra) ltac:(lra)) as [Km Dm]. split; [exact Km|].
  assert (C1 : cis (INR (S (S n)) * t) = cmul (cis (INR (S n) * t)) (cis t)) by (rewrite cis_add; f_equal; rewrite (S_INR (S n)); ring).
  rewrite C1. apply Rle_trans with (1 := cdist_tri _ (cmul (cval z) (cval e)) _).
  pose proof (cdist_mul (cval z) (cval e) (cis (INR (S n) * t)) (cis t)) as CM. rewrite cnorm_cis, Rmult_1_l in CM.
  set (dz := cdist (cval z) (cis (INR (S n) * t))) in *. set (de := cdist (cval e) (cis t)) in *. pose proof (cdist_pos (cval z) (cis (INR (S n) * t))) as Pz. fold dz in Pz.
  set (nz := cnorm (cval z)) in *. set (ne := cnorm (cval e)) in *. pose proof (cnorm_pos (cval z)) as Z0. pose proof (cnorm_pos (cval e)) as E0. fold nz in Z0. fold ne in E0.
  change (p2 (-53)) with u in Dm.
  assert (T : p2 (-1070) <= / 16 * u).
  { unfold u. apply Rle_trans with (p2 (-57)); [apply p2_le; lia|]. right. replace (-57)%Z with (-4 + -53)%Z by reflexivity. rewrite p2_add. unfold p2 at 1. simpl powerRZ. lra. }
  assert (A1 : dz * ne <= (q - 1) * (1 + h)) by (apply Rmult_le_compat; lra).
  assert (A2 : nz * ne <= q * (1 + h)) by (apply Rmult_le_compat; lra).
  assert (A3 : 6 * u * (nz * ne) <= 6 * u * (q * (1 + h))) by (apply Rmult_le_compat_l; lra).
  assert (Q0 : 1 <= q) by (unfold q; apply pow_R1_Rle; lra).
  unfold g. 
  assert (A4 : u * (q * h) <= u * (q * / 8)) by (apply Rmult_le_compat_l; [lra|]; apply Rmult_le_compat_l; lra).
  assert (A5 : u * 1 <= u * q) by (apply Rmult_le_compat_l; lra).
  nra.
Qed.

(** One entry of the table in double precision. *)
Lemma entry_near : forall mul sum ex k x eps n, faithful_product mul -> ok k -> ok x -> Rabs (fval k * fval x) <= p2 1000 -> 0 <= eps ->
  (forall t, t = SFmul fprec femax k x -> okc (ex t) /\ cdist (cval (ex t)) (cis (fval t)) <= eps) ->
  Rabs (IZR n) * (eps + u * (Rabs (fval k * fval x) + 8)) <= / 2 -> eps + u * (Rabs (fval k * fval x) + 8) <= / 8 ->
  let z := entry (Fops mul sum ex) (ex (SFmul fprec femax k x)) n in
  okc z /\ cdist (cval z) (cis (IZR n * (fval k * fval x))) <= 2 * Rabs (IZR n) * (eps + u * (Rabs (fval k * fval x) + 8)).
Proof.
  intros mul sum ex k x eps n M Kk Kx B He Hex Hn H8 z.
  set (th := SFmul fprec femax k x) in *. assert (R1 : rounded (fval k * fval x) th) by (apply mul_spec; try apply Kk; apply Kx).
  destruct (rounded_bounded _ _ (p2 1000) R1) as [Kt Bt]; [apply format_p2; lia|exact B|apply p2_lt; lia|].
  pose proof (rounded_error _ _ R1 Kt) as Et. set (t := fval k * fval x) in *. destruct (Hex th eq_refl) as [Ke De].
  pose proof u_small as U. pose proof tiny_pos as T0. assert (T : tiny <= u) by (apply p2_le; lia).
  set (h := eps + u * Rabs t + tiny).
  assert (De' : cdist (cval (ex th)) (cis t) <= h) by (apply Rle_trans with (1 := cdist_tri _ (cis (fval th)) _); pose proof (chord (fval th) t); unfold h; lra).
  assert (Hg : h + 7 * u <= eps + u * (Rabs t + 8)) by (unfold h; lra). set (G := eps + u * (Rabs t + 8)) in *.
  assert (P0 : 0 <= h) by (unfold h; pose proof (Rabs_pos t); nra).
  assert (Main : forall m : nat, INR m = Rabs (IZR n) ->
     okc (powers (Fops mul sum ex) (ex th) m) /\ cdist (cval (powers (Fops mul sum ex) (ex th) m)) (cis (INR m * t)) <= 2 * Rabs (IZR n) * G).
  { intros m Em. assert (Hm : INR m * (h + 7 * u) <= / 2) by (rewrite Em; apply Rle_trans with (2 := Hn); apply Rmult_le_compat_l; [apply Rabs_pos|exact Hg]).
    destruct (powers_near mul sum ex (ex th) t h m M Ke De') as [K1 D1]; [lra|exact Hm|]. split; [exact K1|].
    apply Rle_trans with (1 := D1). pose proof (pow_small m (h + 7 * u) ltac:(lra) Hm) as PS. rewrite Em in PS.
    assert (2 * Rabs (IZR n) * (h + 7 * u) <= 2 * Rabs (IZR n) * G) by (apply Rmult_le_compat_l; [pose proof (Rabs_pos (IZR n)); lra|exact Hg]). lra. }
  unfold z, entry. destruct (Z.leb_spec 0 n) as [S|S].
  - assert (E : INR (Z.to_nat n) = IZR n) by (rewrite INR_IZR_INZ, Z2Nat.id by lia; reflexivity).
    destruct (Main (Z.to_nat n)) as [K1 D1]; [rewrite E; symmetry; apply Rabs_right, Rle_ge, IZR_le; lia|]. rewrite E in D1. split; [exact K1|exact D1].
  - assert (E : INR (Z.to_nat (- n)) = - IZR n) by (rewrite INR_IZR_INZ, Z2Nat.id by lia; apply opp_IZR).
    destruct (Main (Z.to_nat (- n))) as [K1 D1]; [rewrite E; symmetry; apply Rabs_left, IZR_lt; lia|]. rewrite E in D1.
    set (w := powers (Fops mul sum ex) (ex th) (Z.to_nat (- n))) in *.
    assert (Kc : okc (cxconj (Fops mul sum ex) w)) by (destruct K1 as [Ka Kb]; split; cbn [cxconj Fops fst snd]; [exact Ka|apply opp_ok; exact Kb]).
    split; [exact Kc|]. assert (Ec : cval (cxconj (Fops mul sum ex) w) = cconj (cval w)) by (unfold cval, cconj; cbn [cxconj Fops fst snd]; rewrite fval_opp; reflexivity).
    rewrite Ec. replace (cis (IZR n * t)) with (cconj (cis (- IZR n * t))) by (rewrite cis_conj; f_equal; ring). rewrite cdist_conj. exact D1.
Qed.
