(** Rounding errors of plane waves and densities in Fourier space (C120). *)
From Coq Require Import List ZArith Bool Arith Reals Lia Lra Psatz Floats.SpecFloat.
From Verif Require Import PyBase PyBaseFacts Num NumFacts Spec_Stats P_Text F64Round F64Ops F64Facts P_F64Mean P_F64Time P_F64Overlap P_F64Msd P_F64Order P_F64Dot P_F64Alpha P_F64Dist M_Helpers M_KGrid M_Fourier Spec_Doubles Spec_BondAngle Spec_KGrid Spec_Fourier P_Expo M_Expo64 Spec_Expo64 P_Expo64.
Import ListNotations.
Local Open Scope R_scope.

Fixpoint rprod1 (l : list R) : R := match l with [] => 1 | h :: r => (1 + h) * rprod1 r end.
Lemma rprod1_ge : forall l, Forall (fun h => 0 <= h) l -> 1 <= rprod1 l.
Proof. intros l F. induction F as [|h l H F IH]; cbn [rprod1]; [lra|]. nra. Qed.
Lemma rsum_pos' : forall l, Forall (fun h => 0 <= h) l -> 0 <= rsum l.
Proof. intros l F. induction F; cbn [rsum]; lra. Qed.
Lemma rprod1_small : forall l, Forall (fun h => 0 <= h) l -> rsum l <= / 2 -> rprod1 l <= 1 + 2 * rsum l.
Proof.
  intros l F. induction F as [|h l H F IH]; cbn [rprod1 rsum]; intros S; [lra|]. pose proof (rsum_pos' l F) as P.
  specialize (IH ltac:(lra)). apply Rle_trans with ((1 + h) * (1 + 2 * rsum l)); [apply Rmult_le_compat_l; lra|]. nra.
Qed.

Lemma faithful_step : forall mul a b s t q e, faithful_product mul -> okc a -> okc b -> 1 <= q -> 0 <= e -> e <= / 4 -> q * (1 + (e + 8 * u)) <= 2 ->
  cdist (cval a) (cis s) <= q - 1 -> cdist (cval b) (cis t) <= e ->
  okc (mul a b) /\ cdist (cval (mul a b)) (cis (s + t)) <= q * (1 + (e + 8 * u)) - 1.
Proof.
  intros mul a b s t q e M Ka Kb Q1 E0 E4 Q2 Da Db. pose proof u_small as U.
  assert (Na : cnorm (cval a) <= q) by (pose proof (cnorm_near (cval a) (cis s)) as W; rewrite cnorm_cis in W; lra).
  assert (Nb : cnorm (cval b) <= 1 + e) by (pose proof (cnorm_near (cval b) (cis t)) as W; rewrite cnorm_cis in W; lra).
  destruct (faithful_small mul M a b Ka Kb) as [Km Dm]; [nra|lra|]. split; [exact Km|].
  rewrite <- cis_add. apply Rle_trans with (1 := cdist_tri _ (cmul (cval a) (cval b)) _).
  pose proof (cdist_mul (cval a) (cval b) (cis s) (cis t)) as CM. rewrite cnorm_cis, Rmult_1_l in CM.
  set (da := cdist (cval a) (cis s)) in *. set (db := cdist (cval b) (cis t)) in *. pose proof (cdist_pos (cval a) (cis s)) as Pz. fold da in Pz.
  set (na := cnorm (cval a)) in *. set (nb := cnorm (cval b)) in *. pose proof (cnorm_pos (cval a)) as Z0. pose proof (cnorm_pos (cval b)) as B0. fold na in Z0. fold nb in B0.
  change (p2 (-53)) with u in Dm.
  assert (T : p2 (-1070) <= / 16 * u).
  { unfold u. apply Rle_trans with (p2 (-57)); [apply p2_le; lia|]. right. replace (-57)%Z with (-4 + -53)%Z by reflexivity. rewrite p2_add. unfold p2 at 1. simpl powerRZ. lra. }
  assert (A1 : da * nb <= (q - 1) * (1 + e)) by (apply Rmult_le_compat; lra).
  assert (A2 : na * nb <= q * (1 + e)) by (apply Rmult_le_compat; lra).
  assert (A3 : 6 * u * (na * nb) <= 6 * u * (q * (1 + e))) by (apply Rmult_le_compat_l; lra).
  assert (A4 : u * (q * e) <= u * (q * / 4)) by (apply Rmult_le_compat_l; [lra|]; apply Rmult_le_compat_l; lra).
  assert (A5 : u * 1 <= u * q) by (apply Rmult_le_compat_l; lra).
  nra.
Qed.

(** The errors of the directions, one by one. *)
Fixpoint slacks (eps : R) (k0 : list R) (n : list Z) (x : list R) : list R :=
  match k0, n, x with
  | k :: k0', m :: n', c :: x' => (2 * Rabs (IZR m) * phase_error eps k c + 8 * u) :: slacks eps k0' n' x'
  | _, _, _ => []
  end.
Lemma wave_error_sum : forall eps k0 n x, wave_error eps k0 n x = rsum (slacks eps k0 n x).
Proof.
  intros eps k0. induction k0 as [|k k0 IH]; intros [|m n] [|c x]; try reflexivity. cbn [wave_error slacks rsum]. rewrite IH. reflexivity.
Qed.
Lemma phase_error_pos : forall eps k c, 0 <= eps -> 0 <= phase_error eps k c.
Proof. intros eps k c H. unfold phase_error. change (p2 (-53)) with u. pose proof u_small. pose proof (Rabs_pos (k * c)). nra. Qed.
Lemma slacks_pos : forall eps k0 n x, 0 <= eps -> Forall (fun h => 0 <= h) (slacks eps k0 n x).
Proof.
  intros eps k0. induction k0 as [|k k0 IH]; intros [|m n] [|c x] H; cbn [slacks]; try constructor; [|apply IH; exact H].
  pose proof u_small. pose proof (phase_error_pos eps k c H). pose proof (Rabs_pos (IZR m)). assert (0 <= 2 * Rabs (IZR m) * phase_error eps k c) by (apply Rmult_le_pos; lra). lra.
Qed.
Lemma wave_error_pos : forall eps k0 n x, 0 <= eps -> 0 <= wave_error eps k0 n x.
Proof. intros. rewrite wave_error_sum. apply rsum_pos', slacks_pos. assumption. Qed.

Lemma phase_bounded : forall eps k c, 0 <= eps -> phase_error eps k c <= / 8 -> Rabs (k * c) <= p2 1000.
Proof.
  intros eps k c H0 H. unfold phase_error in H. pose proof (p2_pos (-53)) as P. pose proof (Rabs_pos (k * c)).
  assert (A : p2 (-53) * Rabs (k * c) <= p2 (-53) * p2 1000).
  { apply Rle_trans with 1; [nra|]. rewrite <- p2_add. replace 1 with (p2 0) by reflexivity. apply p2_le. lia. }
  apply Rmult_le_reg_l with (2 := A). exact P.
Qed.

Section Wave.
Variables (mul : f64 * f64 -> f64 * f64 -> f64 * f64) (sum : list (f64 * f64) -> f64 * f64) (ex : f64 -> f64 * f64).
Let D := Fops mul sum ex.

Lemma plane_wave_near : forall eps k0 nk x rows n, faithful_product mul -> row_in D k0 nk x rows -> length k0 = length x -> length n = length x ->
  Forall (fun z => (- nk <= z <= nk)%Z) n -> fine_phases ex eps k0 x -> wave_error eps (map fval k0) n (map fval x) <= / 4 ->
  exists z, plane_wave_in D (length x) rows (map (fun z => (z + nk)%Z) n) (cx1 D) = Ok z /\ okc z /\
    cdist (cval z) (cis (dot (wave (map fval k0) n) (map fval x))) <= 2 * wave_error eps (map fval k0) n (map fval x).
Proof.
  intros eps k0 nk x rows n M [Lr Rr] Lk Ln Fn [He Fp] We. unfold plane_wave_in.
  set (fk := map fval k0). set (fx := map fval x). assert (Lfk : length fk = length x) by (unfold fk; rewrite map_length; exact Lk). assert (Lfx : length fx = length x) by (unfold fx; rewrite map_length; reflexivity).
  assert (G : forall m a w s q, (a + m = length x)%nat -> okc w -> 1 <= q -> q * rprod1 (slacks eps (skipn a fk) (skipn a n) (skipn a fx)) <= 2 ->
    rsum (slacks eps (skipn a fk) (skipn a n) (skipn a fx)) <= / 4 -> cdist (cval w) (cis s) <= q - 1 ->
    exists z, foldM (fun acc d => r <- get rows d ;; k <- get (map (fun z => (z + nk)%Z) n) d ;; e <- getZ r k ;; Ok (cxmul D acc e))
        w (seq a m) = Ok z /\ okc z /\ cdist (cval z) (cis (s + dot (wave (skipn a fk) (skipn a n)) (skipn a fx))) <= q * rprod1 (slacks eps (skipn a fk) (skipn a n) (skipn a fx)) - 1).
  { intros m. induction m as [|m IH]; intros a w s q Ha Kw Q1 Q2 Q4 Dw.
    - exists w. cbn [seq foldM]. split; [reflexivity|]. split; [exact Kw|]. rewrite (skipn_all2 fk), (skipn_all2 fx), (skipn_all2 n) by lia. cbn [wave combine map dot slacks rprod1]. rewrite Rplus_0_r. lra.
    - cbn [seq foldM].
      assert (Hn : (- nk <= nth a n 0 <= nk)%Z) by (rewrite Forall_forall in Fn; apply Fn, nth_In; lia).
      destruct (Rr a (nth a n 0%Z) (S754_zero false) (S754_zero false) (cx0 D)) as [La Na]; [lia|assumption|].
      rewrite (get_Ok _ rows a []) by (fold D in Lr; lia). cbn [bind].
      rewrite (get_Ok _ (map (fun z => (z + nk)%Z) n) a (0 + nk)%Z) by (rewrite map_length; lia).
      rewrite (map_nth (fun z => (z + nk)%Z)). cbn [bind].
      rewrite (getZ_pos (cx D) _ _ (cx0 D)) by (rewrite La; lia).
      replace (nth a n 0 + nk)%Z with (nk + nth a n 0)%Z by lia. rewrite Na. cbn [bind].
      rewrite (skipn_nth R fk a 0), (skipn_nth Z n a 0%Z), (skipn_nth R fx a 0) in * by lia. cbn [wave combine map dot slacks rprod1 rsum fst snd] in *.
      set (rest := slacks eps (skipn (S a) fk) (skipn (S a) n) (skipn (S a) fx)) in *.
      assert (Fr : Forall (fun h => 0 <= h) rest) by (apply slacks_pos; exact He). pose proof (rprod1_ge rest Fr) as Pr. pose proof (rsum_pos' rest Fr) as Sr.
      assert (Hax : (a < length x)%nat) by lia. destruct (Fp a Hax) as [Kk [Kc [Pe [Ke De]]]].
      assert (Ek : nth a fk 0 = fval (nth a k0 (S754_zero false))) by (unfold fk; change 0 with (fval (S754_zero false)); apply map_nth).
      assert (Ex : nth a fx 0 = fval (nth a x (S754_zero false))) by (unfold fx; change 0 with (fval (S754_zero false)); apply map_nth).
      rewrite Ek, Ex in *. set (k := nth a k0 (S754_zero false)) in *. set (c := nth a x (S754_zero false)) in *. set (v := nth a n 0%Z) in *.
      pose proof (phase_error_pos eps (fval k) (fval c) He) as Pp. pose proof u_small as U. pose proof (Rabs_pos (IZR v)) as Pv. assert (Pm : 0 <= Rabs (IZR v) * phase_error eps (fval k) (fval c)) by (apply Rmult_le_pos; lra).
      set (e := 2 * Rabs (IZR v) * phase_error eps (fval k) (fval c)) in *. assert (Ee : e = 2 * (Rabs (IZR v) * phase_error eps (fval k) (fval c))) by (unfold e; ring).
      destruct (entry_near mul sum ex k c eps v M Kk Kc (phase_bounded _ _ _ He Pe) He) as [Kz Dz].
      { intros t ->. split; [exact Ke|exact De]. }
      { fold (phase_error eps (fval k) (fval c)). change u with (p2 (-53)). fold (phase_error eps (fval k) (fval c)). lra. }
      { change u with (p2 (-53)). fold (phase_error eps (fval k) (fval c)). exact Pe. }
      change u with (p2 (-53)) in Dz. fold (phase_error eps (fval k) (fval c)) in Dz. fold e in Dz.
      change (cxexp D (cphmul D k c)) with (ex (SFmul fprec femax k c)). change (cxmul D w) with (mul w). fold D in Kz, Dz.
      set (zv := entry D (ex (SFmul fprec femax k c)) v) in *.
      destruct (faithful_step mul w zv s (IZR v * (fval k * fval c)) q e M Kw Kz Q1 ltac:(lra) ltac:(lra)) as [Km Dm]; [nra|exact Dw|exact Dz|].
      destruct (IH (S a) (mul w zv) (s + IZR v * (fval k * fval c)) (q * (1 + (e + 8 * u)))) as [z [Ez [Kz' Dz']]]; [lia|exact Km|nra|fold rest; rewrite Rmult_assoc; exact Q2|fold rest; lra|exact Dm|].
      exists z. split; [exact Ez|]. split; [exact Kz'|]. fold rest in Dz'.
      replace (s + (fval k * IZR v * fval c + dot (map (fun p => fst p * IZR (snd p)) (combine (skipn (S a) fk) (skipn (S a) n))) (skipn (S a) fx)))
        with (s + IZR v * (fval k * fval c) + dot (wave (skipn (S a) fk) (skipn (S a) n)) (skipn (S a) fx)) by (unfold wave; ring).
      rewrite <- (Rmult_assoc q). exact Dz'. }
  rewrite wave_error_sum in *. fold fk fx in We |- *. set (hs := slacks eps fk n fx) in *.
  assert (Fh : Forall (fun h => 0 <= h) hs) by (apply slacks_pos; exact He). pose proof (rprod1_small hs Fh ltac:(lra)) as PS.
  destruct (powers_near mul sum ex (f64_ofZ 1, S754_zero false) 0 0 0 M) as [K1 D1]; try lra.
  { destruct (ofZ_exact 1) as [K1 E1]; [lia|]. split; [exact K1|apply ok_zero]. }
  { rewrite cis_0. destruct (ofZ_exact 1) as [K1 E1]; [lia|]. unfold cval. cbn [fst snd]. rewrite E1. change (cdist c1 c1 <= 0). rewrite cdist_self. lra. }
  { cbn [INR]. lra. }
  destruct (G (length x) 0%nat (cx1 D) 0 1) as [z [Ez [Kz Dz]]]; cbn [skipn]; fold hs; try lra; try lia.
  - exact K1.
  - change (cval (cx1 D)) with (cval (powers (Fops mul sum ex) (f64_ofZ 1, S754_zero false) 0)). cbn [INR pow] in D1. rewrite Rmult_0_r in D1. exact D1.
  - exists z. split; [exact Ez|]. split; [exact Kz|]. cbn [skipn] in Dz. fold hs in Dz. rewrite Rplus_0_l in Dz. lra.
Qed.

Lemma rsum_abs_le : forall (l : list R) b, Forall (fun v => Rabs v <= b) l -> rsum (map Rabs l) <= INR (length l) * b.
Proof.
  intros l b F. induction F as [|v l H F IH]; [cbn; lra|]. cbn [map rsum length]. rewrite S_INR. lra.
Qed.

(** Sum of doubles in any order, all of size at most 2. *)
Lemma sum_near : forall l s, sum_of l s -> (Z.of_nat (length l) <= 2 ^ 49)%Z -> Forall (fun v => ok v /\ Rabs (fval v) <= 2) l ->
  ok s /\ Rabs (fval s - rsum (map fval l)) <= 4 * (INR (length l) * INR (length l)) * u.
Proof.
  intros l s Hs Hl F. destruct (sum_of_nearby 1 0 0 l s) with (qs := map (fun v => (fval v, Rabs (fval v))) l) as [Ks [_ [_ [W _]]]]; try lia; try lra; try assumption.
  - clear - F. induction F as [|v l [K B] F IH]; cbn [map]; constructor; [|exact IH]. cbn [fst snd]. split; [exact K|]. split; [unfold p2; simpl powerRZ; lra|]. apply nearby_refl.
  - split; [exact Ks|]. rewrite !map_map in W. cbn [fst snd] in W. apply nearby_error in W.
    + cbn [Nat.add] in W. rewrite Rmult_0_r in W. apply Rle_trans with (1 := W).
      assert (B : rsum (map (fun v => Rabs (fval v)) l) <= INR (length l) * 2).
      { rewrite <- (map_map fval Rabs). rewrite <- (map_length fval l). apply rsum_abs_le. clear - F. induction F as [|v l [K B] F IH]; cbn [map]; constructor; assumption. }
      pose proof u_small. pose proof (pos_INR (length l)). assert (0 <= 2 * INR (length l) * u) by (repeat apply Rmult_le_pos; lra).
      assert (2 * INR (length l) * u * rsum (map (fun v => Rabs (fval v)) l) <= 2 * INR (length l) * u * (INR (length l) * 2)) by (apply Rmult_le_compat_l; assumption). lra.
    + apply few_roundings. cbn [Nat.add]. lia.
Qed.

Lemma csum_near : forall (zs : list (f64 * f64)) (ws : list C) es, sum_in_some_order sum -> (Z.of_nat (length zs) <= 2 ^ 49)%Z ->
  Forall2 (fun z p => okc z /\ cnorm (cval z) <= 2 /\ cdist (cval z) (fst p) <= snd p) zs (combine ws es) -> length ws = length zs -> length es = length zs ->
  okc (sum zs) /\ cdist (cval (sum zs)) (rsum (map fst ws), rsum (map snd ws)) <= rsum es + 8 * (INR (length zs) * INR (length zs)) * u.
Proof.
  intros zs ws es Hs Hl F L1 L2. destruct (Hs zs) as [H1 H2].
  assert (Z : Forall (fun z => okc z /\ cnorm (cval z) <= 2) zs).
  { clear - F. remember (combine ws es) as q. clear Heqq. induction F as [|z p zs q [A [B C]] F IH]; constructor; [split; assumption|exact IH]. }
  destruct (sum_near (map fst zs) (fst (sum zs)) H1) as [K1 E1]; [rewrite map_length; exact Hl| |].
  { clear - Z. induction Z as [|z zs [[A A'] B] Z IH]; cbn [map]; constructor; [|exact IH]. split; [exact A|]. apply Rle_trans with (2 := B). apply (cnorm_fst (cval z)). }
  destruct (sum_near (map snd zs) (snd (sum zs)) H2) as [K2 E2]; [rewrite map_length; exact Hl| |].
  { clear - Z. induction Z as [|z zs [[A A'] B] Z IH]; cbn [map]; constructor; [|exact IH]. split; [exact A'|]. apply Rle_trans with (2 := B). apply (cnorm_snd (cval z)). }
  split; [split; assumption|]. rewrite !map_length, !map_map in *.
  apply Rle_trans with (1 := cdist_tri _ (rsum (map (fun z => fval (fst z)) zs), rsum (map (fun z => fval (snd z)) zs)) _).
  assert (A : cdist (rsum (map (fun z => fval (fst z)) zs), rsum (map (fun z => fval (snd z)) zs)) (rsum (map fst ws), rsum (map snd ws)) <= rsum es).
  { clear - F L1 L2. revert ws es F L1 L2. induction zs as [|z zs IH]; intros [|w ws] [|e es] F L1 L2; try discriminate.
    - cbn [map rsum]. rewrite cdist_self. lra.
    - cbn [combine] in F. inversion F as [|? ? ? ? [_ [_ Dz]] F']; subst. cbn [fst snd] in Dz. cbn [map rsum]. specialize (IH ws es F' ltac:(cbn in L1; lia) ltac:(cbn in L2; lia)).
      unfold cdist in *. match goal with |- cnorm ?t <= _ => replace t with (cadd (csub (cval z) w) (csub (rsum (map (fun z => fval (fst z)) zs), rsum (map (fun z => fval (snd z)) zs)) (rsum (map fst ws), rsum (map snd ws)))) by (apply c_eq; unfold cadd, csub, cval; cbn [fst snd]; ring) end.
      apply Rle_trans with (1 := cnorm_add _ _). lra. }
  assert (B : cdist (cval (sum zs)) (rsum (map (fun z => fval (fst z)) zs), rsum (map (fun z => fval (snd z)) zs)) <= 8 * (INR (length zs) * INR (length zs)) * u).
  { unfold cdist. apply Rle_trans with (1 := cnorm_sum_abs _). unfold csub, cval. cbn [fst snd]. lra. }
  lra.
Qed.

(** The density of one frame. *)
Lemma density_near : forall eps k0 nk pos tab n, faithful_product mul -> sum_in_some_order sum -> (Z.of_nat (length pos) <= 2 ^ 49)%Z ->
  Forall2 (row_in D k0 nk) pos tab -> (forall x, In x pos -> length x = length k0) -> length n = length k0 ->
  Forall (fun z => (- nk <= z <= nk)%Z) n -> (forall x, In x pos -> fine_phases ex eps k0 x /\ wave_error eps (map fval k0) n (map fval x) <= / 4) ->
  exists rho, density_in D (length k0) tab (map (fun z => (z + nk)%Z) n) = Ok rho /\ okc rho /\
    let k := wave (map fval k0) n in
    cdist (cval rho) (rsum (map (fun x => cos (dot k (map fval x))) pos), rsum (map (fun x => sin (dot k (map fval x))) pos))
      <= 2 * rsum (map (fun x => wave_error eps (map fval k0) n (map fval x)) pos) + 8 * (INR (length pos) * INR (length pos)) * u.
Proof.
  intros eps k0 nk pos tab n M Hs Hl F Lx Ln Fn Fp. unfold density_in. cbv zeta.
  assert (G : exists zs, mapM (fun rows => plane_wave_in D (length k0) rows (map (fun z => (z + nk)%Z) n) (cx1 D)) tab = Ok zs /\ length zs = length pos /\
    Forall2 (fun z p => okc z /\ cnorm (cval z) <= 2 /\ cdist (cval z) (fst p) <= snd p) zs
      (combine (map (fun x => cis (dot (wave (map fval k0) n) (map fval x))) pos) (map (fun x => 2 * wave_error eps (map fval k0) n (map fval x)) pos))).
  { clear Hl. induction F as [|x rows pos tab R F IH]; [exists []; split; [reflexivity|]; split; [reflexivity|constructor]|].
    destruct IH as [zs [E [L Z]]]; [intros; apply Lx; right; assumption|intros; apply Fp; right; assumption|].
    destruct (Fp x (or_introl eq_refl)) as [Fx Wx]. pose proof (Lx x (or_introl eq_refl)) as Lx'.
    destruct (plane_wave_near eps k0 nk x rows n M R ltac:(congruence) ltac:(congruence) Fn Fx Wx) as [z [Ez [Kz Dz]]]. rewrite Lx' in Ez.
    exists (z :: zs). cbn [mapM]. rewrite Ez. cbn [bind]. rewrite E. cbn [bind]. split; [reflexivity|]. split; [cbn [length]; lia|].
    cbn [map combine]. constructor; [|exact Z]. cbn [fst snd]. split; [exact Kz|]. split; [|exact Dz].
    pose proof (cnorm_near (cval z) (cis (dot (wave (map fval k0) n) (map fval x)))) as W. rewrite cnorm_cis in W. lra. }
  destruct G as [zs [E [L Z]]]. rewrite E. cbn [bind]. exists (sum zs). split; [reflexivity|].
  assert (L0 : (Z.of_nat (length zs) <= 2 ^ 49)%Z) by (rewrite L; exact Hl).
  assert (L1 : forall Y (g : list (cph D) -> Y), length (map g pos) = length zs) by (intros; rewrite map_length; symmetry; exact L).
  destruct (csum_near zs _ _ Hs L0 Z (L1 _ _) (L1 _ _)) as [K1 D1]. split; [exact K1|].
  rewrite !map_map in D1. cbn [cis fst snd] in D1. change (@length (f64 * f64) zs) with (@length (cx D) zs) in D1. rewrite L in D1.
  replace (rsum (map (fun x => 2 * wave_error eps (map fval k0) n (map fval x)) pos)) with (2 * rsum (map (fun x => wave_error eps (map fval k0) n (map fval x)) pos)) in D1; [exact D1|].
  clear. induction pos as [|x pos IH]; cbn [map rsum]; lra.
Qed.
End Wave.

Lemma plain_sum_order : sum_in_some_order plain_sum.
Proof. intros l. split; [exact (nsum_sum_of (map fst l))|exact (nsum_sum_of (map snd l))]. Qed.
