(** Rounding errors of densities and of products of densities (C122, C123). *)
From Coq Require Import List ZArith Bool Arith Reals Lia Lra Psatz Floats.SpecFloat Sorting.Permutation.
From Verif Require Import PyBase PyBaseFacts Num NumFacts Spec_Stats P_Text F64Round F64Ops F64Facts P_F64Mean P_F64Time P_F64Order P_F64Dot P_F64Alpha M_Helpers M_KGrid M_Fourier M_Fkt Spec_Doubles Spec_BondAngle Spec_KGrid Spec_Fourier
  P_F64Dist P_Overlap P_Expo M_Expo64 M_Fkt64 M_Collective64 Spec_Expo64 Spec_Collective64 P_Expo64 P_Density64 P_Fkt64.
Import ListNotations.
Local Open Scope R_scope.

(** The exact density. *)
Definition rho_of (k : list R) (f : list (list R)) : C := (rsum (map (fun x => cos (dot k x)) f), rsum (map (fun x => sin (dot k x)) f)).

Lemma rho_of_norm : forall k f, cnorm (rho_of k f) <= INR (length f).
Proof.
  intros k f. unfold rho_of. induction f as [|x f IH].
  - cbn [map rsum length INR]. unfold cnorm. cbn [fst snd]. rewrite Rmult_0_l, Rplus_0_l, sqrt_0. lra.
  - cbn [map rsum]. change (length (x :: f)) with (S (length f)). rewrite S_INR.
    pose proof (cnorm_add (cis (dot k x)) (rsum (map (fun x => cos (dot k x)) f), rsum (map (fun x => sin (dot k x)) f))) as Q. rewrite cnorm_cis in Q. unfold cadd, cis in Q. cbn [fst snd] in Q. lra.
Qed.

Lemma density_cross_rho : forall k f g, density_cross k f g = fst (rho_of k f) * fst (rho_of k g) + snd (rho_of k f) * snd (rho_of k g).
Proof.
  intros k f g. unfold density_cross, rho_re, rho_im, rho_of. cbn [fst snd].
  assert (G : forall (t : R -> R) (h : list (list R)), rsum (map (fun p => snd p * t (dot k (fst p))) (combine h (unit_weights h))) = rsum (map (fun x => t (dot k x)) h)).
  { intros t h. unfold unit_weights. induction h as [|x h IH]; [reflexivity|]. cbn [map combine rsum fst snd]. rewrite IH. ring. }
  rewrite !G. reflexivity.
Qed.

Lemma u_list : forall n, (Z.of_nat n <= 2 ^ 49)%Z -> INR n * u <= / 16.
Proof.
  intros n H. unfold u. assert (INR n <= p2 49) by (rewrite p2_Z by lia; rewrite INR_IZR_INZ; apply IZR_le; exact H).
  apply Rle_trans with (p2 49 * p2 (-53)); [apply Rmult_le_compat_r; [left; apply p2_pos|assumption]|]. rewrite <- p2_add. unfold p2. simpl powerRZ. lra.
Qed.
Lemma speck : p2 (-1070) <= / 1000 * u.
Proof.
  apply Rle_trans with (p2 (-63)); [apply p2_le; lia|]. unfold u. change (-63)%Z with (-10 + -53)%Z. rewrite p2_add. assert (p2 (-10) <= / 1000) by (unfold p2; simpl powerRZ; lra). apply Rmult_le_compat_r; [left; apply p2_pos|assumption].
Qed.

Section Density.
Variables (mul : f64 * f64 -> f64 * f64 -> f64 * f64) (sum : list (f64 * f64) -> f64 * f64) (ex : f64 -> f64 * f64).
Let D := Fops mul sum ex.

Lemma plane_factors_near : forall eps k0 nk x rows n, faithful_product mul -> row_in D k0 nk x rows ->
  length x = length k0 -> length n = length k0 -> Forall (fun z => (- nk <= z <= nk)%Z) n -> fine_phases ex eps k0 x ->
  wave_error eps (map fval k0) n (map fval x) <= / 8 ->
  exists zs qs, plane_factors D (length k0) rows (map (fun z => (z + nk)%Z) n) = Ok zs /\ Forall2 unit_factor zs qs /\ length zs = length k0 /\
    rsum (map fst qs) = dot (wave (map fval k0) n) (map fval x) /\ rsum (map slack qs) = wave_error eps (map fval k0) n (map fval x).
Proof.
  intros eps k0 nk x rows n M Rx Lx Ln Fn Fx Wx. unfold plane_factors.
  assert (G : forall m a, (a + m = length k0)%nat -> exists l qs,
    mapM (fun d => r <- get rows d ;; k <- get (map (fun z => (z + nk)%Z) n) d ;; getZ r k) (seq a m) = Ok l /\
    Forall2 unit_factor l qs /\ length l = m /\
    rsum (map fst qs) = dot (wave (skipn a (map fval k0)) (skipn a n)) (skipn a (map fval x)) /\
    rsum (map slack qs) = wave_error eps (skipn a (map fval k0)) (skipn a n) (skipn a (map fval x))).
  { intros m. induction m as [|m IH]; intros a Ha.
    - exists [], []. cbn [seq mapM map rsum]. split; [reflexivity|]. split; [constructor|]. split; [reflexivity|].
      assert (La : (length n <= a)%nat) by (rewrite Ln; lia). rewrite (skipn_all2 n) by exact La. unfold wave.
      destruct (skipn a (map fval k0)); cbn [combine map dot wave_error]; split; lra.
    - destruct (IH (S a)) as [l [qs [El [Fl [Ll [S1 S2]]]]]]; [lia|].
      assert (Hx : (a < length x)%nat) by (rewrite Lx; lia).
      destruct (factor_near mul sum ex eps k0 nk x rows n a M Rx (eq_sym Lx) (eq_trans Ln (eq_sym Lx)) Fn Fx Wx Hx) as [r1 [z1 [G1 [Z1 U1]]]].
      fold D in G1, Z1, U1. cbv zeta in U1. set (q1 := (IZR (nth a n 0%Z) * (nth a (map fval k0) 0 * nth a (map fval x) 0), 2 * Rabs (IZR (nth a n 0%Z)) * phase_error eps (nth a (map fval k0) 0) (nth a (map fval x) 0))) in *.
      exists (z1 :: l), (q1 :: qs). cbn [seq mapM]. rewrite G1. cbn [bind].
      rewrite (get_Ok _ (map (fun z => (z + nk)%Z) n) a (0 + nk)%Z) by (rewrite map_length, Ln; lia). rewrite (map_nth (fun z => (z + nk)%Z)). cbn [bind].
      rewrite Z1. cbn [bind]. rewrite El. cbn [bind]. split; [reflexivity|].
      split; [constructor; [exact U1|exact Fl]|]. split; [cbn [length]; f_equal; exact Ll|].
      assert (A0 : (a < length k0)%nat) by lia. assert (A1 : (a < length (map fval k0))%nat) by (rewrite map_length; exact A0). assert (A2 : (a < length n)%nat) by (rewrite Ln; lia). assert (A3 : (a < length (map fval x))%nat) by (rewrite map_length; exact Hx).
      rewrite (skipn_nth R (map fval k0) a 0 A1), (skipn_nth Z n a 0%Z A2), (skipn_nth R (map fval x) a 0 A3).
      cbn [map rsum fst snd wave combine dot wave_error]. unfold wave in S1. rewrite S1, S2. unfold slack, q1. cbn [fst snd]. change u with (p2 (-53)). split; ring. }
  destruct (G (length k0) 0%nat eq_refl) as [l [qs [El [Fl [Ll [S1 S2]]]]]]. exists l, qs. split; [exact El|]. split; [exact Fl|]. split; [exact Ll|]. split; [exact S1|exact S2].
Qed.

Lemma unit_one : unit_factor (f64_ofZ 1, S754_zero false) (0, 0).
Proof.
  destruct (ofZ_exact 1) as [K1 E1]; [lia|]. split; [split; cbn [fst snd]; [exact K1|apply ok_zero]|]. cbn [fst snd]. split; [|lra].
  rewrite cis_0. replace (cval (f64_ofZ 1, S754_zero false)) with c1 by (unfold cval; cbn [fst snd]; rewrite E1; reflexivity). rewrite cdist_self. lra.
Qed.

Lemma density_by_near : forall prod eps k0 nk f tab n W, faithful_product mul -> wave_product mul prod -> sum_in_some_order sum -> k0 <> [] ->
  Forall2 (row_in D k0 nk) f tab -> (Z.of_nat (length f) <= 2 ^ 49)%Z ->
  length n = length k0 -> Forall (fun z => (- nk <= z <= nk)%Z) n -> W <= / 16 ->
  (forall x, In x f -> length x = length k0 /\ fine_phases ex eps k0 x /\ wave_error eps (map fval k0) n (map fval x) <= W) ->
  exists rho, density_by D prod (length k0) tab (map (fun z => (z + nk)%Z) n) = Ok rho /\ okc rho /\
    cdist (cval rho) (rho_of (wave (map fval k0) n) (map (map fval) f)) <= INR (length f) * (2 * W + 16 * u + 8 * INR (length f) * u).
Proof.
  intros prod eps k0 nk f tab n W M Hp Hs Hk F Hl Ln Fn W16 Hx. pose proof u_small as U. unfold density_by.
  assert (G : exists zs, mapM (fun rows => f <- plane_factors D (length k0) rows (map (fun z => (z + nk)%Z) n) ;; Ok (prod f)) tab = Ok zs /\ length zs = length f /\
    Forall2 (fun z p => okc z /\ cnorm (cval z) <= 2 /\ cdist (cval z) (fst p) <= snd p) zs
      (combine (map (fun x => cis (dot (wave (map fval k0) n) (map fval x))) f) (map (fun _ => 2 * W + 16 * u) f))).
  { clear Hl. induction F as [|x rows f tab R F IH]; [exists []; split; [reflexivity|]; split; [reflexivity|constructor]|].
    destruct IH as [zs [E [L Z]]]; [intros; apply Hx; right; assumption|].
    destruct (Hx x (or_introl eq_refl)) as [Lx [Px Wx]].
    destruct (plane_factors_near eps k0 nk x rows n M R Lx Ln Fn Px ltac:(lra)) as [fs [qs [Ef [Ff [Lf [S1 S2]]]]]].
    assert (Nf : fs <> []) by (destruct fs; [destruct k0; [congruence|discriminate Lf]|discriminate]).
    assert (Pn : okc (prod fs) /\ cdist (cval (prod fs)) (cis (dot (wave (map fval k0) n) (map fval x))) <= 2 * W + 16 * u).
    { destruct (Hp fs Nf) as [P|P].
      - destruct (product_near mul fs (prod fs) M P qs Ff ltac:(rewrite S2; lra)) as [Kz Cz]. rewrite S1, S2 in Cz. split; [exact Kz|lra].
      - destruct (product_near mul _ (prod fs) M P ((0, 0) :: qs)) as [Kz Cz]; [constructor; [exact unit_one|exact Ff]|cbn [map rsum]; unfold slack at 1; cbn [snd]; lra|].
        cbn [map rsum fst] in Cz. unfold slack at 1 in Cz. cbn [snd] in Cz. rewrite S1, S2, Rplus_0_l in Cz. split; [exact Kz|lra]. }
    destruct Pn as [Kz Dz].
    exists (prod fs :: zs). cbn [mapM]. rewrite Ef. cbn [bind]. rewrite E. cbn [bind]. split; [reflexivity|]. split; [cbn [length]; f_equal; exact L|].
    cbn [map combine]. constructor; [|exact Z]. cbn [fst snd]. split; [exact Kz|]. split; [|exact Dz].
    pose proof (cnorm_near (cval (prod fs)) (cis (dot (wave (map fval k0) n) (map fval x)))) as Q. rewrite cnorm_cis in Q. lra. }
  destruct G as [zs [E [L Z]]]. exists (sum zs). split; [exact (eq_trans (f_equal (fun z => l <- z ;; Ok (cxsum D l)) E) eq_refl)|].
  assert (L0 : (Z.of_nat (length zs) <= 2 ^ 49)%Z) by (rewrite L; exact Hl).
  assert (L1 : forall Y (g : list (cph D) -> Y), length (map g f) = length zs) by (intros; rewrite map_length; symmetry; exact L).
  destruct (csum_near sum zs _ _ Hs L0 Z (L1 _ _) (L1 _ _)) as [K1 D1]. split; [exact K1|].
  rewrite !map_map in D1. cbn [cis fst snd] in D1. assert (L' : @length (f64 * f64) zs = @length (list f64) f) by exact L. rewrite L' in D1.
  unfold rho_of. rewrite !map_map. apply Rle_trans with (1 := D1). right.
  assert (Q : forall X (l : list X) c, rsum (map (fun _ => c) l) = INR (length l) * c).
  { intros X l c. induction l as [|a l IH]; [cbn; ring|]. cbn [map rsum]. rewrite IH. change (length (a :: l)) with (S (length l)). rewrite S_INR. ring. }
  rewrite Q. change (@length (list (cph D)) f) with (@length (list f64) f). ring.
Qed.

(** A product of two densities. *)
Lemma cross_near : forall a b r s N M g, faithful_product mul -> okc a -> okc b -> 1 <= N -> 1 <= M -> N <= p2 49 -> M <= p2 49 -> 0 <= g <= / 2 ->
  cnorm r <= N -> cnorm s <= M -> cdist (cval a) r <= N * g -> cdist (cval b) s <= M * g ->
  let v := fst (mul a (cxconj D b)) in
  ok v /\ Rabs (fval v - (fst r * fst s + snd r * snd s)) <= N * M * (3 * g + 16 * u) /\ Rabs (fval v) <= 3 * (N * M).
Proof.
  intros a b r s N M g Hm Ka Kb N1 M1 N49 M49 [G0 G1] Nr Ns Da Db v. pose proof u_small as U. pose proof speck as T.
  assert (Kc : okc (cxconj D b)) by (destruct Kb as [Ka' Kb']; split; cbn [cxconj D Fops fst snd]; [exact Ka'|apply opp_ok; exact Kb']).
  assert (Ec : cval (cxconj D b) = cconj (cval b)) by (unfold cval, cconj; cbn [cxconj D Fops fst snd]; rewrite fval_opp; reflexivity).
  assert (Na : cnorm (cval a) <= N * (1 + g)) by (pose proof (cnorm_near (cval a) r); lra).
  assert (Nb : cnorm (cval b) <= M * (1 + g)) by (pose proof (cnorm_near (cval b) s); lra).
  assert (P4 : 2 * p2 49 <= p2 400).
  { apply Rle_trans with (p2 50); [right; change 50%Z with (1 + 49)%Z; rewrite (p2_add 1 49); change (p2 1) with (2 * 1); ring|apply p2_le; lia]. }
  assert (X1 : N * g <= N * / 2) by (apply Rmult_le_compat_l; lra). assert (X2 : M * g <= M * / 2) by (apply Rmult_le_compat_l; lra).
  destruct (Hm a (cxconj D b) Ka Kc ltac:(lra)) as [Km Dm].
  { rewrite Ec, cnorm_conj. lra. }
  rewrite Ec, cnorm_conj in Dm. change (p2 (-53)) with u in Dm.
  pose proof (cdist_mul (cval a) (cconj (cval b)) r (cconj s)) as CM. rewrite cdist_conj, cnorm_conj in CM.
  pose proof (cnorm_pos (cval a)) as A0. pose proof (cnorm_pos (cval b)) as B0. pose proof (cnorm_pos r) as R0. pose proof (cdist_pos (cval a) r) as Da0. pose proof (cdist_pos (cval b) s) as Db0.
  set (na := cnorm (cval a)) in *. set (nb := cnorm (cval b)) in *. set (da := cdist (cval a) r) in *. set (db := cdist (cval b) s) in *. set (nr := cnorm r) in *.
  assert (Y1 : da * nb <= N * g * (M * (1 + g))) by (apply Rmult_le_compat; lra).
  assert (Y2 : nr * db <= N * (M * g)) by (apply Rmult_le_compat; lra).
  assert (Y3 : na * nb <= N * (1 + g) * (M * (1 + g))) by (apply Rmult_le_compat; lra).
  set (P := N * M). assert (P1 : 1 <= P) by (unfold P; nra).
  replace (N * g * (M * (1 + g))) with (P * g + P * (g * g)) in Y1 by (unfold P; ring). replace (N * (M * g)) with (P * g) in Y2 by (unfold P; ring).
  replace (N * (1 + g) * (M * (1 + g))) with (P * (1 + 2 * g + g * g)) in Y3 by (unfold P; ring).
  assert (Gg : g * g <= / 2 * g) by (apply Rmult_le_compat_r; lra). assert (Pg : P * (g * g) <= P * (/ 2 * g)) by (apply Rmult_le_compat_l; lra).
  assert (Y4 : na * nb <= P * (9 / 4)) by (apply Rle_trans with (1 := Y3); apply Rmult_le_compat_l; lra).
  assert (Y5 : 6 * u * (na * nb) <= 6 * u * (P * (9 / 4))) by (apply Rmult_le_compat_l; lra).
  assert (Pu : u <= P * u) by (rewrite <- (Rmult_1_l u) at 1; apply Rmult_le_compat_r; lra).
  assert (Dt : cdist (cval (mul a (cxconj D b))) (cmul r (cconj s)) <= P * (5 / 2 * g) + P * (14 * u)).
  { apply Rle_trans with (1 := cdist_tri _ (cmul (cval a) (cconj (cval b))) _). assert (6 * u * (P * (9 / 4)) = 27 / 2 * (P * u)) by field. lra. }
  split; [exact (proj1 Km)|].
  assert (Er : Rabs (fval v - (fst r * fst s + snd r * snd s)) <= P * (5 / 2 * g) + P * (14 * u)).
  { apply Rle_trans with (2 := Dt). pose proof (cnorm_fst (csub (cval (mul a (cxconj D b))) (cmul r (cconj s)))) as Q. unfold cdist.
    replace (fval v - (fst r * fst s + snd r * snd s)) with (fst (csub (cval (mul a (cxconj D b))) (cmul r (cconj s)))); [exact Q|].
    unfold csub, cmul, cconj, cval. cbn [fst snd]. fold v. ring. }
  assert (Pg0 : 0 <= P * g) by (apply Rmult_le_pos; lra). assert (Pg1 : P * g <= P * / 2) by (apply Rmult_le_compat_l; lra).
  split; [lra|].
  assert (Ev : Rabs (fst r * fst s + snd r * snd s) <= P).
  { apply Rle_trans with (1 := cauchy r s). unfold P. fold nr. apply Rmult_le_compat; try lra. apply cnorm_pos. }
  replace (fval v) with ((fval v - (fst r * fst s + snd r * snd s)) + (fst r * fst s + snd r * snd s)) by ring. apply Rle_trans with (1 := Rabs_triang _ _).
  assert (P * u <= P * / 1000000) by (apply Rmult_le_compat_l; lra). lra.
Qed.
End Density.

(** ** Means *)
Lemma mean_near : forall V (l : list V) (v : V -> f64) (y : V -> R) s E e2 B, sum_of (map v l) s -> l <> [] -> (Z.of_nat (length l) <= 2 ^ 49)%Z -> (-1074 <= e2 <= 900)%Z -> B <= p2 e2 ->
  (forall x, In x l -> ok (v x) /\ Rabs (fval (v x) - y x) <= E /\ Rabs (fval (v x)) <= B) ->
  ok s /\ Rabs (fval s) <= 2 * (INR (length l) * B) /\ Rabs (fval s / INR (length l)) <= 2 * B /\ Rabs (fval s / INR (length l) - rmean (map y l)) <= E + 2 * INR (length l) * u * B.
Proof.
  intros V l v y s E e2 B Hs Hl HL He HB Hv. pose proof u_small as U. pose proof (u_list _ HL) as Lu.
  assert (L1 : 1 <= INR (length l)) by (change 1 with (INR 1); apply le_INR; destruct l; [congruence|cbn; lia]).
  assert (B0 : 0 <= B).
  { destruct l as [|x l]; [congruence|]. destruct (Hv x (or_introl eq_refl)) as [_ [_ Q]]. pose proof (Rabs_pos (fval (v x))). lra. }
  destruct (sum_of_nearby e2 0 0 (map v l) s He (Rle_refl 0) Hs) with (qs := map (fun x => (fval (v x), Rabs (fval (v x)))) l) as [Ks [_ [_ [Ns _]]]].
  { rewrite map_length. exact HL. }
  { clear - Hv HB. induction l as [|x l IH]; cbn [map]; constructor; [|apply IH; intros; apply Hv; right; assumption]. destruct (Hv x (or_introl eq_refl)) as [K [_ Q]]. cbn [fst snd]. split; [exact K|]. split; [lra|]. apply nearby_refl. }
  split; [exact Ks|].
  apply nearby_error in Ns; [|apply few_roundings; rewrite map_length; cbn [Nat.add]; lia].
  rewrite map_length, !map_map in Ns. cbn [fst snd Nat.add] in Ns. rewrite !Rmult_0_r, Rplus_0_r in Ns.
  set (L := INR (length l)) in *.
  assert (A1 : rsum (map (fun x => Rabs (fval (v x))) l) <= L * B).
  { unfold L. clear - Hv. induction l as [|x l IH]; [cbn; lra|]. cbn [map rsum]. change (length (x :: l)) with (S (length l)). rewrite S_INR. specialize (IH ltac:(intros; apply Hv; right; assumption)). destruct (Hv x (or_introl eq_refl)) as [_ [_ Q]]. lra. }
  assert (A2 : Rabs (rsum (map (fun x => fval (v x)) l) - rsum (map y l)) <= L * E).
  { unfold L. clear - Hv. induction l as [|x l IH]; [cbn; rewrite Rminus_diag_eq, Rabs_R0 by reflexivity; lra|]. cbn [map rsum]. change (length (x :: l)) with (S (length l)). rewrite S_INR. specialize (IH ltac:(intros; apply Hv; right; assumption)). destruct (Hv x (or_introl eq_refl)) as [_ [Q _]].
    match goal with |- Rabs ?e <= _ => replace e with ((fval (v x) - y x) + (rsum (map (fun x => fval (v x)) l) - rsum (map y l))) by ring end. apply Rle_trans with (1 := Rabs_triang _ _). lra. }
  assert (A3 : Rabs (rsum (map (fun x => fval (v x)) l)) <= L * B).
  { apply Rle_trans with (2 := A1). clear. induction l as [|x l IH]; cbn [map rsum]; [rewrite Rabs_R0; lra|]. apply Rle_trans with (1 := Rabs_triang _ _). lra. }
  assert (A4 : 2 * L * u * rsum (map (fun x => Rabs (fval (v x))) l) <= 2 * L * u * (L * B)) by (apply Rmult_le_compat_l; [apply Rmult_le_pos; lra|exact A1]).
  assert (LB : 0 <= L * B) by (apply Rmult_le_pos; lra).
  assert (A5 : 2 * L * u * (L * B) <= 1 * (L * B)) by (apply Rmult_le_compat_r; lra).
  assert (A6 : Rabs (fval s) <= 2 * (L * B)).
  { replace (fval s) with ((fval s - rsum (map (fun x => fval (v x)) l)) + rsum (map (fun x => fval (v x)) l)) by ring. apply Rle_trans with (1 := Rabs_triang _ _). lra. }
  assert (Dv : forall t, Rabs (t / L) = Rabs t / L) by (intros t; unfold Rdiv; rewrite Rabs_mult, (Rabs_right (/ L)); [reflexivity|]; apply Rle_ge, Rlt_le, Rinv_0_lt_compat; lra).
  assert (Le : forall t c, Rabs t <= L * c -> Rabs (t / L) <= c).
  { intros t c H. rewrite Dv. apply Rmult_le_reg_r with L; [lra|]. unfold Rdiv. rewrite Rmult_assoc, Rinv_l, Rmult_1_r by lra. lra. }
  split; [exact A6|]. split; [apply Le; lra|].
  unfold rmean. rewrite map_length. fold L. replace (fval s / L - rsum (map y l) / L) with ((fval s - rsum (map y l)) / L) by (field; lra). apply Le.
  replace (fval s - rsum (map y l)) with ((fval s - rsum (map (fun x => fval (v x)) l)) + (rsum (map (fun x => fval (v x)) l) - rsum (map y l))) by ring. apply Rle_trans with (1 := Rabs_triang _ _). lra.
Qed.

(** ** Dictionaries of densities *)
Lemma kget_set_same : forall D d k v, kget_in D (kset_in D d k v) k = v.
Proof.
  intros D d k v. assert (E : same_key k k = true) by (unfold same_key; destruct (list_eq_dec Z.eq_dec k k); congruence).
  induction d as [|[k' v'] d IH]; cbn [kset_in kget_in]; [rewrite E; reflexivity|]. destruct (same_key k k') eqn:Q; cbn [kget_in]; rewrite Q; [reflexivity|exact IH].
Qed.
Lemma kget_set_other : forall D d k k2 v, k2 <> k -> kget_in D (kset_in D d k v) k2 = kget_in D d k2.
Proof.
  intros D d k k2 v H. assert (E : same_key k2 k = false) by (unfold same_key; destruct (list_eq_dec Z.eq_dec k2 k); congruence).
  induction d as [|[k' v'] d IH]; cbn [kset_in kget_in]; [rewrite E; reflexivity|]. destruct (same_key k k') eqn:Q; cbn [kget_in].
  - unfold same_key in Q. destruct (list_eq_dec Z.eq_dec k k'); [|discriminate]. subst k'. rewrite E. reflexivity.
  - destruct (same_key k2 k'); [reflexivity|exact IH].
Qed.
Lemma tabulate_in_ok : forall D prod nd tab (rho : list Z -> cx D) kvecs, (forall k, In k kvecs -> density_by D prod nd tab k = Ok (rho k)) ->
  exists d, tabulate_in D prod nd tab kvecs = Ok d /\ forall k, In k kvecs -> kget_in D d k = rho k.
Proof.
  intros D prod nd tab rho kvecs H. unfold tabulate_in.
  assert (G : forall l d0, (forall k, In k l -> density_by D prod nd tab k = Ok (rho k)) -> exists d, foldM (fun d kvec => r <- density_by D prod nd tab kvec ;; Ok (kset_in D d kvec r)) d0 l = Ok d /\
    forall k, (In k l \/ kget_in D d0 k = rho k) -> kget_in D d k = rho k).
  { clear H kvecs. intros l. induction l as [|k l IH]; intros d0 H; [exists d0; split; [reflexivity|]; intros k [[]|E]; exact E|].
    cbn [foldM]. rewrite (H k (or_introl eq_refl)). cbn [bind]. destruct (IH (kset_in D d0 k (rho k))) as [d [Ed Gd]]; [intros; apply H; right; assumption|].
    exists d. split; [exact Ed|]. intros k2 Hk. apply Gd. destruct (list_eq_dec Z.eq_dec k2 k) as [->|Ne]; [right; apply kget_set_same|].
    destruct Hk as [[->|Hk]|Hk]; [congruence|left; exact Hk|right; rewrite kget_set_other by exact Ne; exact Hk]. }
  destruct (G kvecs [] H) as [d [Ed Gd]]. exists d. split; [exact Ed|]. intros k Hk. apply Gd. left. exact Hk.
Qed.
