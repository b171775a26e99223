(** The structure factor in double precision: C123. *)
From Coq Require Import List ZArith Bool Arith Reals Lia Lra Psatz Floats.SpecFloat.
From Verif Require Import PyBase PyBaseFacts Num NumFacts Spec_Stats P_Text F64Round F64Ops F64Facts P_F64Mean P_F64Time P_F64Order P_F64Dot P_F64Alpha M_Helpers M_KGrid M_Fourier M_Fkt Spec_Doubles Spec_BondAngle Spec_KGrid Spec_Fourier Spec_Correlation
  P_Expo P_Sk P_Sk3 P_Fkt P_Fkt2 M_Expo64 M_Fkt64 M_Collective64 Spec_Expo64 Spec_Collective64 P_Expo64 P_Density64 P_Fkt64 P_Collective64 P_Sk64 T_Expo64 T_Fkt64 T_Collective64.
Import ListNotations.
Local Open Scope R_scope.

(** ** C123 *)
(** S(k) in double precision, in two and three dimensions, without weights and in a cell that
    does not change: the sum of products and S(k) itself.  [W] bounds the rounding errors of all the plane
    waves, N0 and N1 the numbers of particles of the two groups. *)
Theorem C123_structure_factor_accuracy : forall mul sum ex prod quot root eps W k0 nk shells skip (pos0 : list (list (list f64))) pos1 N0 N1,
  let D := Fops mul sum ex in let other := match pos1 with None => pos0 | Some q => q end in
  faithful_product mul -> wave_product mul prod -> sum_in_some_order sum -> fair_quotient quot -> fair_root root ->
  (1 <= nk)%Z -> (length k0 = 2 \/ length k0 = 3)%nat -> (forall kl, In kl shells -> kl <> []) ->
  (forall kl t, In kl shells -> In t kl -> length t = length k0 /\ Forall (fun z => (0 <= z <= 2 * nk)%Z) t) ->
  (1 <= skip)%nat -> pos0 <> [] -> length other = length pos0 ->
  (forall f, In f pos0 -> f <> [] /\ (length f <= N0)%nat) -> (forall f, In f other -> f <> [] /\ (length f <= N1)%nat) -> (Z.of_nat N0 <= 2 ^ 47)%Z -> (Z.of_nat N1 <= 2 ^ 47)%Z ->
  (Z.of_nat (N0 * length pos0) <= 2 ^ 53)%Z -> (Z.of_nat (N1 * length pos0) <= 2 ^ 53)%Z ->
  (forall kl, In kl shells -> (Z.of_nat (length kl * length pos0) <= 2 ^ 49)%Z) -> W <= / 16 ->
  (forall f x, In f pos0 \/ In f other -> In x f -> length x = length k0 /\ fine_phases ex eps k0 x /\
     forall kl t, In kl shells -> In t kl -> wave_error eps (map fval k0) (unshift nk t) (map fval x) <= W) ->
  exists vals, sk_values_in D F64ops (@fst f64 f64) prod quot root k0 nk shells (length shells) skip pos0 pos1 = Ok vals /\ length vals = length shells /\
    forall j, (j < length shells)%nat ->
      let kl := nth j shells [] in let v := nth j vals (S754_nan, S754_nan) in
      let r0 := map (map (map fval)) pos0 in let r1 := map (map (map fval)) other in
      let y := shell_mean (fun k i => density_cross k (nth i r0 []) (nth i r1 [])) skip (length pos0) (map (fun t => wave (map fval k0) (unshift nk t)) kl) in
      let n := (length kl * length (origins 0 skip (length pos0)))%nat in let s := sqrt (mean_N r0 * mean_N r1) in
      ok (snd v) /\ Rabs (fval (snd v) - y) <= INR N0 * INR N1 * (6 * W + INR (24 * (N0 + N1) + 6 * n + 84) * p2 (-53)) /\
      ok (fst v) /\ Rabs (fval (fst v) - y / s) <= INR N0 * INR N1 / s * (6 * W + INR (24 * (N0 + N1) + 6 * n + 148) * p2 (-53)).
Proof.
  intros mul sum ex prod quot root eps W k0 nk shells skip pos0 pos1 N0 N1 D other M Hp Hs Hq Hr Hn Hk2 Hkl Ht Hskip Hpos Lo Hf0 Hf1 HN0 HN1 HT0 HT1 Hsize W16 Hx.
  pose proof u_small as U.
  assert (Hk : k0 <> []) by (destruct k0; [destruct Hk2; discriminate|discriminate]).
  assert (Hoth : other <> []) by (intros E; rewrite E in Lo; destruct pos0; [congruence|discriminate]).
  set (vs := fun t : list Z => wave (map fval k0) (unshift nk t)).
  set (tab := fun f : list (list f64) => match expo_sphere_in D k0 nk f with Ok t => t | Err _ => [] end).
  set (rho := fun f t => match density_by D prod (length k0) (tab f) t with Ok r => r | Err _ => cx0 D end).
  (* the density of a frame *)
  assert (Dens : forall f N, In f pos0 \/ In f other -> f <> [] -> (length f <= N)%nat -> (Z.of_nat N <= 2 ^ 47)%Z ->
    expo_sphere_in D k0 nk f = Ok (tab f) /\ forall kl t, In kl shells -> In t kl -> density_by D prod (length k0) (tab f) t = Ok (rho f t) /\ good_density k0 nk W N f t (rho f t)).
  { intros f N Hfi Nf Lf HN.
    destruct (expo_sphere_in_ok D k0 nk f Hn Nf) as [tb [Et Ft]]; [intros x Hxi; destruct (Hx f x Hfi Hxi) as [Q _]; exact (Nat.eq_le_incl _ _ Q)|].
    assert (E : tab f = tb) by exact (f_equal (fun z => match z with Ok t => t | Err _ => [] end) Et).
    split; [rewrite E; exact Et|]. intros kl t H1 H2. destruct (Ht kl t H1 H2) as [Lt Fz].
    destruct (frame_density mul sum ex prod eps k0 nk f tb t W N M Hp Hs Hk Ft Nf Lf ltac:(lia) Lt Fz W16) as [r [Er Gr]].
    { intros x Hxi. destruct (Hx f x Hfi Hxi) as [Q1 [Q2 Q3]]. split; [exact Q1|]. split; [exact Q2|]. apply (Q3 kl t); assumption. }
    rewrite <- E in Er. assert (Eq : rho f t = r) by exact (f_equal (fun z => match z with Ok r => r | Err _ => cx0 D end) Er). rewrite Eq. split; [exact Er|exact Gr]. }
  set (g := 2 * W + 16 * u + 8 * (INR N0 + INR N1) * u).
  set (val := fun i t => prod_re D F64ops (@fst f64 f64) (rho (nth i pos0 []) t, rho (nth i other []) t)).
  assert (Nz : forall N l, (forall f : list (list f64), In f l -> f <> [] /\ (length f <= N)%nat) -> l <> [] -> 1 <= INR N).
  { intros N l H Hl. destruct l as [|f l]; [congruence|]. destruct (H f (or_introl eq_refl)) as [Q1 Q2]. change 1 with (INR 1). apply le_INR. destruct f; [congruence|]. cbn [length] in Q2. lia. }
  assert (Small : forall N, (Z.of_nat N <= 2 ^ 47)%Z -> INR N * u <= / 64 /\ INR N <= p2 47).
  { intros N HN. assert (Q : INR N <= p2 47) by (rewrite p2_Z by lia; rewrite INR_IZR_INZ; apply IZR_le; exact HN). split; [|exact Q].
    unfold u. apply Rle_trans with (p2 47 * p2 (-53)); [apply Rmult_le_compat_r; [left; apply p2_pos|exact Q]|]. rewrite <- p2_add. unfold p2. simpl powerRZ. lra. }
  destruct (Small N0 HN0) as [S0 B0]. destruct (Small N1 HN1) as [S1 B1]. clear Small.
  assert (O0 : 1 <= INR N0) by (apply (Nz N0 pos0 Hf0 Hpos)). assert (O1 : 1 <= INR N1) by (apply (Nz N1 other Hf1 Hoth)).
  assert (M0 : 0 <= INR N0 * u) by (apply Rmult_le_pos; lra). assert (M1 : 0 <= INR N1 * u) by (apply Rmult_le_pos; lra).
  assert (P49 : p2 47 <= p2 49) by (apply p2_le; lia). assert (P53 : p2 47 <= p2 53) by (apply p2_le; lia).
  set (P := INR N0 * INR N1). assert (P1 : 1 <= P) by (unfold P; nra).
  assert (PB : 3 * P <= p2 98).
  { assert (P <= p2 47 * p2 47) by (unfold P; apply Rmult_le_compat; lra). assert (p2 98 = 16 * (p2 47 * p2 47)) by (rewrite <- p2_add; change 98%Z with (4 + (47 + 47))%Z; rewrite (p2_add 4 (47 + 47)); unfold p2 at 1; simpl powerRZ; lra). lra. }
  (* one product of two densities *)
  assert (Term : forall kl t i, In kl shells -> In t kl -> (i < length pos0)%nat ->
    ok (val i t) /\ Rabs (fval (val i t) - density_cross (vs t) (map (map fval) (nth i pos0 [])) (map (map fval) (nth i other []))) <= P * (3 * g + 16 * u) /\ Rabs (fval (val i t)) <= 3 * P
    /\ Rabs (density_cross (vs t) (map (map fval) (nth i pos0 [])) (map (map fval) (nth i other []))) <= P).
  { intros kl t i H1 H2 Hi. assert (Hi' : (i < length other)%nat) by (rewrite Lo; exact Hi).
    pose proof (nth_In pos0 [] Hi) as I0. pose proof (nth_In other [] Hi') as I1. destruct (Hf0 _ I0) as [Na La]. destruct (Hf1 _ I1) as [Nb Lb].
    destruct (Dens _ N0 (or_introl I0) Na La HN0) as [_ Ga]. destruct (Dens _ N1 (or_intror I1) Nb Lb HN1) as [_ Gb].
    destruct (Ga kl t H1 H2) as [_ [Ka [Da Ca]]]. destruct (Gb kl t H1 H2) as [_ [Kb [Db Cb]]]. clear Ga Gb.
    assert (W0 : 0 <= W).
    { destruct (nth i pos0 []) as [|x xs] eqn:E; [congruence|]. destruct (Hx _ x (or_introl I0) (or_introl eq_refl)) as [_ [[He _] Wx]].
      specialize (Wx kl t H1 H2). pose proof (wave_error_pos eps (map fval k0) (unshift nk t) (map fval x) He). lra. }
    rewrite density_cross_rho. fold (vs t) in Da, Db, Ca, Cb.
    assert (X := cross_near mul sum ex (rho (nth i pos0 []) t) (rho (nth i other []) t) (rho_of (vs t) (map (map fval) (nth i pos0 []))) (rho_of (vs t) (map (map fval) (nth i other []))) (INR N0) (INR N1) g M Ka Kb O0 O1 ltac:(lra) ltac:(lra)).
    destruct X as [X1 [X2 X3]]; try assumption.
    - split; unfold g; lra.
    - apply Rle_trans with (1 := Da). apply Rmult_le_compat_l; [lra|]. unfold g. lra.
    - apply Rle_trans with (1 := Db). apply Rmult_le_compat_l; [lra|]. unfold g. lra.
    - split; [exact X1|]. split; [exact X2|]. split; [exact X3|].
      set (ra := rho_of (vs t) (map (map fval) (nth i pos0 []))) in *. set (rb := rho_of (vs t) (map (map fval) (nth i other []))) in *.
      pose proof (cnorm_fst (cmul ra (cconj rb))) as Y. rewrite cnorm_mul, cnorm_conj in Y. unfold cmul, cconj in Y. cbn [fst snd] in Y.
      replace (fst ra * fst rb + snd ra * snd rb) with (fst ra * fst rb - snd ra * - snd rb) by ring. apply Rle_trans with (1 := Y).
      unfold P. apply Rmult_le_compat; try assumption; apply cnorm_pos. }
  (* the loop *)
  set (os := origins 0 skip (length pos0)).
  assert (Eos : py_range 0 (length pos0) skip = Ok os) by (apply py_range_spec; exact Hskip).
  assert (Los : (length os <= length pos0)%nat) by (unfold os, origins; rewrite <- (seq_length (length pos0) 0) at 2; apply P_Overlap.filter_length_le).
  assert (Nos : os <> []) by (apply origins_nonempty; [exact Hskip|destruct pos0; [congruence|cbn; lia]]).
  assert (Run : foldM (sk_step_in D F64ops (@fst f64 f64) prod k0 nk shells pos0 pos1) (repeat (0%nat, n0 F64ops) (length shells)) os
    = Ok (map (fun kl => ((0 + length os * length kl)%nat, fold_left (nadd F64ops) (flat_map (fun i => map (val i) kl) os) (n0 F64ops))) shells)).
  { assert (Er : forall (X : Type) (c : X) (Y : Type) (l : list Y), repeat c (length l) = map (fun _ => c) l) by (intros X c Y l; induction l as [|a l IH]; [reflexivity|cbn; rewrite IH; reflexivity]).
    rewrite Er. refine (sk_frames_run F64ops (sk_step_in D F64ops (@fst f64 f64) prod k0 nk shells pos0 pos1) val shells os (fun _ => (0%nat, n0 F64ops)) _).
    intros i F Hi. apply origins_lt in Hi. assert (Hi' : (i < length other)%nat) by (rewrite Lo; exact Hi).
    pose proof (nth_In pos0 [] Hi) as I0. pose proof (nth_In other [] Hi') as I1. destruct (Hf0 _ I0) as [Na La]. destruct (Hf1 _ I1) as [Nb Lb].
    destruct (Dens _ N0 (or_introl I0) Na La HN0) as [Ea Ga]. destruct (Dens _ N1 (or_intror I1) Nb Lb HN1) as [Eb Gb].
    unfold sk_step_in. refine (eq_trans (f_equal (fun z => f0 <- z ;; _) (get_Ok _ pos0 i [] Hi)) _). cbn [bind].
    refine (eq_trans (f_equal (fun z => tab0 <- z ;; _) Ea) _). cbn [bind].
    assert (E1 : match pos1 with None => Ok (tab (nth i pos0 [])) | Some q => f1 <- get q i ;; expo_sphere_in D k0 nk f1 end = Ok (tab (nth i other []))).
    { unfold other in *. destruct pos1 as [q|]; [|reflexivity]. refine (eq_trans (f_equal (fun z => f1 <- z ;; _) (get_Ok _ q i [] Hi')) _). exact Eb. }
    refine (eq_trans (f_equal (fun z => tab1 <- z ;; _) E1) _). cbn [bind].
    apply (sk_shells_in_run D F64ops (@fst f64 f64) _ (fun t => (rho (nth i pos0 []) t, rho (nth i other []) t))).
    intros kl t H1 H2. refine (eq_trans (f_equal (fun z => a <- z ;; _) (proj1 (Ga kl t H1 H2))) _). cbn [bind].
    refine (eq_trans (f_equal (fun z => b <- z ;; _) (proj1 (Gb kl t H1 H2))) _). reflexivity. }
  (* the norm *)
  assert (HT1' : (Z.of_nat (N1 * length other) <= 2 ^ 53)%Z) by (rewrite Lo; exact HT1).
  destruct (mean_number_near pos0 N0 Hpos Hf0 HT0) as [Km0 [Bm0 Em0]]. destruct (mean_number_near other N1 Hoth Hf1 HT1') as [Km1 [Bm1 Em1]].
  fold (mean_N (map (map (map fval)) pos0)) in Bm0, Em0. fold (mean_N (map (map (map fval)) other)) in Bm1, Em1.
  set (m0 := mean_N (map (map (map fval)) pos0)) in *. set (m1 := mean_N (map (map (map fval)) other)) in *.
  destruct (norm_near root _ _ m0 m1 Hr Km0 Km1) as [Kn En]; [lra|lra|exact Em0|exact Em1|].
  set (nrm := root (SFmul fprec femax (mean_number_in F64ops pos0) (mean_number_in F64ops other))) in *.
  set (s := sqrt (m0 * m1)) in *.
  assert (Sb : 1 <= s <= p2 53).
  { unfold s. split; [rewrite <- sqrt_1; apply sqrt_le_1_alt; nra|]. rewrite <- (sqrt_square (p2 53)) by (left; apply p2_pos). apply sqrt_le_1_alt. apply Rmult_le_compat; lra. }
  exists (map (fun kl => let v := quot (fold_left (nadd F64ops) (flat_map (fun i => map (val i) kl) os) (n0 F64ops)) (length os * length kl)%nat in (SFdiv fprec femax v nrm, v)) shells).
  split.
  { unfold sk_values_in. refine (eq_trans (f_equal (fun z => rng <- z ;; _) Eos) _). cbn [bind]. refine (eq_trans (f_equal (fun z => accs <- z ;; _) Run) _). cbn [bind].
    assert (E1 : match pos1 with None => mean_number_in F64ops pos0 | Some q => mean_number_in F64ops q end = mean_number_in F64ops other) by (unfold other; destruct pos1; reflexivity).
    cbv zeta. assert (G : forall l, (forall kl, In kl l -> kl <> []) -> mapM (fun a : sk_acc_in F64ops => if (fst a =? 0)%nat then Err ZeroDivisionError
                 else Ok (ndiv F64ops (quot (snd a) (fst a)) nrm, quot (snd a) (fst a))) (map (fun kl => ((0 + length os * length kl)%nat, fold_left (nadd F64ops) (flat_map (fun i => map (val i) kl) os) (n0 F64ops))) l)
      = Ok (map (fun kl => let v := quot (fold_left (nadd F64ops) (flat_map (fun i => map (val i) kl) os) (n0 F64ops)) (length os * length kl)%nat in (SFdiv fprec femax v nrm, v)) l)).
    { clear - Nos. induction l as [|kl l IH]; intros H; [reflexivity|]. cbn [map mapM fst snd]. rewrite Nat.add_0_l.
      assert (E0 : (length os * length kl =? 0)%nat = false) by (apply Nat.eqb_neq; assert (kl <> []) by (apply H; left; reflexivity); destruct os; [congruence|]; destruct kl; [congruence|]; cbn [length]; nia).
      rewrite E0. cbn [bind]. rewrite IH by (intros; apply H; right; assumption). reflexivity. }
    refine (eq_trans _ (G shells Hkl)). unfold nrm. rewrite <- E1. reflexivity. }
  split; [apply map_length|]. intros j Hj. cbv zeta. rewrite (nth_map_lt _ _ _ _ _ [] _ Hj). cbn [fst snd].
  set (kl := nth j shells []) in *. assert (Ikl : In kl shells) by (apply nth_In; exact Hj). specialize (Hsize kl Ikl). assert (Nkl := Hkl kl Ikl).
  set (n := (length kl * length os)%nat).
  assert (Sz : (n <= length kl * length pos0)%nat) by (apply Nat.mul_le_mono_l; exact Los).
  assert (n1 : (1 <= n)%nat) by (unfold n; destruct kl; [congruence|]; destruct os; [congruence|]; cbn [length]; nia).
  set (l := flat_map (fun i => map (fun t => (i, t)) kl) os).
  assert (Ll : length l = n).
  { unfold l, n. rewrite Nat.mul_comm. clear. induction os as [|i os IH]; [reflexivity|]. cbn [flat_map length]. rewrite app_length, map_length, IH. reflexivity. }
  assert (Hl0 : l <> []) by (intros E; rewrite E in Ll; cbn in Ll; lia).
  assert (Ev : flat_map (fun i => map (val i) kl) os = map (fun p => val (fst p) (snd p)) l).
  { unfold l. rewrite map_flat_map. apply flat_map_ext. intros i. rewrite map_map. reflexivity. }
  assert (Lin : forall p, In p l -> (fst p < length pos0)%nat /\ In (snd p) kl).
  { intros p Hp'. unfold l in Hp'. apply in_flat_map in Hp'. destruct Hp' as [i [H1 H2]]. apply in_map_iff in H2. destruct H2 as [t [<- H3]]. split; [exact (origins_lt _ _ _ H1)|exact H3]. }
  set (sm := fold_left (nadd F64ops) (flat_map (fun i => map (val i) kl) os) (n0 F64ops)).
  set (yy := fun p : nat * list Z => density_cross (vs (snd p)) (map (map fval) (nth (fst p) pos0 [])) (map (map fval) (nth (fst p) other []))).
  destruct (mean_near _ l (fun p => val (fst p) (snd p)) yy sm (P * (3 * g + 16 * u)) 98 (3 * P)) as [Ks [Bs [Bm Em]]].
  { unfold sm. rewrite Ev. exact (nsum_sum_of _). } { exact Hl0. } { rewrite Ll. lia. } { lia. } { exact PB. }
  { intros p Hp'. destruct (Lin p Hp') as [H1 H2]. destruct (Term kl (snd p) (fst p) Ikl H2 H1) as [X1 [X2 [X3 _]]]. split; [exact X1|]. split; [exact X2|exact X3]. }
  rewrite Ll in *.
  assert (Ey : rmean (map yy l) = shell_mean (fun k i => density_cross k (nth i (map (map (map fval)) pos0) []) (nth i (map (map (map fval)) other) [])) skip (length pos0) (map vs kl)).
  { unfold shell_mean. fold os. f_equal. unfold l. rewrite map_flat_map. apply flat_map_ext. intros i. rewrite !map_map. apply map_ext. intros t. unfold yy. cbn [fst snd].
    assert (Nr : forall (l : list (list (list f64))) c, nth c (map (map (map fval)) l) [] = map (map fval) (nth c l [])) by (intros l' c'; change (@nil (list R)) with (map (map fval) []) at 1; apply map_nth).
    rewrite !Nr. reflexivity. }
  set (y := shell_mean _ _ _ _) in *. rewrite Ey in Em.
  assert (A1 : 1 <= INR n) by (change 1 with (INR 1); apply le_INR; exact n1).
  assert (By : Rabs y <= P).
  { rewrite <- Ey. unfold rmean. rewrite map_length, Ll. unfold Rdiv. rewrite Rabs_mult, Rabs_inv, (Rabs_right (INR n)) by lra.
    apply Rmult_le_reg_r with (INR n); [lra|]. rewrite Rmult_assoc, Rinv_l, Rmult_1_r by lra. apply Rle_trans with (1 := rsum_abs _).
    apply Rle_trans with (INR (length (map yy l)) * P); [apply rsum_abs_le|rewrite map_length, Ll; lra].
    apply Forall_forall. intros z Hz. apply in_map_iff in Hz. destruct Hz as [p [<- Hp']]. destruct (Lin p Hp') as [H1 H2]. apply (Term kl (snd p) (fst p) Ikl H2 H1). }
  assert (nb : (Z.of_nat n <= 2 ^ 49)%Z) by lia.
  replace (length os * length kl)%nat with n by (unfold n; lia).
  assert (Bs' : Rabs (fval sm) <= p2 500).
  { apply Rle_trans with (1 := Bs). assert (INR n <= p2 49) by (rewrite p2_Z by lia; rewrite INR_IZR_INZ; apply IZR_le; exact nb).
    assert (INR n * (3 * P) <= p2 49 * p2 98) by (apply Rmult_le_compat; lra). rewrite <- p2_add in H0. apply Rle_trans with (p2 148); [|apply p2_le; lia]. change 148%Z with (1 + (49 + 98))%Z. rewrite p2_add. unfold p2 at 1. simpl powerRZ. lra. }
  destruct (Hq sm n Ks Bs' n1 ltac:(lia)) as [Kv Ev']. set (v := quot sm n) in *.
  change (p2 (-53)) with u in *. pose proof speck as Sp.
  set (nn := INR n) in *. assert (Pu : u <= P * u) by (rewrite <- (Rmult_1_l u) at 1; apply Rmult_le_compat_r; lra).
  assert (R1 : 3 * u * Rabs (fval sm / nn) <= 3 * u * (2 * (3 * P))) by (apply Rmult_le_compat_l; lra).
  set (e := 6 * W + (24 * (INR N0 + INR N1) + 6 * nn + 84) * u).
  assert (Bv : Rabs (fval v - y) <= P * e).
  { replace (fval v - y) with ((fval v - fval sm / nn) + (fval sm / nn - y)) by ring. apply Rle_trans with (1 := Rabs_triang _ _).
    replace (P * (3 * g + 16 * u)) with (6 * (P * W) + 64 * (P * u) + 24 * (INR N0 + INR N1) * (P * u)) in Em by (unfold g; ring).
    replace (P * e) with (6 * (P * W) + 24 * (INR N0 + INR N1) * (P * u) + 6 * nn * (P * u) + 84 * (P * u)) by (unfold e; ring).
    replace (2 * nn * u * (3 * P)) with (6 * nn * (P * u)) in Em by ring. lra. }
  assert (Nu : nn * u <= / 16) by (apply u_list; exact nb).
  assert (W0 : 0 <= e).
  { apply Rmult_le_reg_l with P; [lra|]. rewrite Rmult_0_r. apply Rle_trans with (2 := Bv). apply Rabs_pos. }
  assert (E4 : e <= 4) by (unfold e; lra).
  destruct (quotient_near v nrm y s P e Kv Kn (proj1 Sb) (proj2 Sb) P1 ltac:(lra) (conj W0 E4) By Bv En) as [Kd Ed].
  assert (F1 : INR (24 * (N0 + N1) + 6 * n + 84) = 24 * (INR N0 + INR N1) + 6 * nn + 84).
  { rewrite !plus_INR, !mult_INR, plus_INR. replace (INR 24) with 24 by (cbn; lra). replace (INR 6) with 6 by (cbn; lra). replace (INR 84) with 84 by (rewrite INR_IZR_INZ; reflexivity). reflexivity. }
  assert (F2 : INR (24 * (N0 + N1) + 6 * n + 148) = 24 * (INR N0 + INR N1) + 6 * nn + 148).
  { rewrite !plus_INR, !mult_INR, plus_INR. replace (INR 24) with 24 by (cbn; lra). replace (INR 6) with 6 by (cbn; lra). replace (INR 148) with 148 by (rewrite INR_IZR_INZ; reflexivity). reflexivity. }
  split; [exact Kv|]. split; [rewrite F1; exact Bv|]. split; [exact Kd|]. rewrite F2.
  replace (6 * W + (24 * (INR N0 + INR N1) + 6 * nn + 148) * u) with (e + 64 * u) by (unfold e; ring). exact Ed.
Qed.
Print Assumptions C123_structure_factor_accuracy.

(** The double precision operations meet the requirements. *)
Theorem C123_operations : fair_quotient (fun a n => SFdiv fprec femax a (f64_ofZ (Z.of_nat n))) /\ fair_root (fun x => SFsqrt fprec femax x).
Proof. split; [exact plain_quotient|exact plain_root]. Qed.
Print Assumptions C123_operations.

(** A shell without vectors: no result, in any arithmetic. *)
Lemma sk_shells_in_count : forall D A re rho shells (accs : list (sk_acc_in A)) accs' j, sk_shells_in D A re rho accs shells = Ok accs' -> nth_error shells j = Some [] ->
  nth_error accs' j = nth_error accs j.
Proof.
  intros D A re rho shells. induction shells as [|kl sr IH]; intros accs accs' j H Hj; [destruct j; discriminate|].
  cbn [sk_shells_in] in H. destruct kl as [|t kl].
  - destruct accs as [|a ar].
    + assert (G : forall sr r, sk_shells_in D A re rho [] sr = Ok r -> r = []).
      { clear. induction sr as [|kl sr IH]; intros r H; [injection H; auto|]. cbn [sk_shells_in] in H. destruct kl; [apply IH; exact H|discriminate]. }
      rewrite (G _ _ H). reflexivity.
    + destruct (sk_shells_in D A re rho ar sr) as [rest|] eqn:E; [|discriminate]. cbn [bind] in H. injection H as <-. destruct j as [|j]; [reflexivity|]. cbn [nth_error] in *. apply (IH ar rest j E Hj).
  - destruct accs as [|a ar]; [discriminate|]. destruct (foldM _ a (t :: kl)) as [a'|]; [|discriminate]. cbn [bind] in H.
    destruct (sk_shells_in D A re rho ar sr) as [rest|] eqn:E; [|discriminate]. cbn [bind] in H. injection H as <-. destruct j as [|j]; [discriminate|]. cbn [nth_error] in *. apply (IH ar rest j E Hj).
Qed.
Theorem C123_empty_shell : forall D A re prod quot root k0 nk shells skip pos0 pos1 vals, In [] shells ->
  sk_values_in D A re prod quot root k0 nk shells (length shells) skip pos0 pos1 <> Ok vals.
Proof.
  intros D A re prod quot root k0 nk shells skip pos0 pos1 vals HI H. apply In_nth_error in HI. destruct HI as [j Hj].
  assert (Lj : (j < length shells)%nat) by (apply nth_error_Some; congruence).
  unfold sk_values_in in H. destruct (py_range 0 (length pos0) skip) as [rng|]; [|discriminate]. cbn [bind] in H.
  assert (G : forall rng accs accs', foldM (sk_step_in D A re prod k0 nk shells pos0 pos1) accs rng = Ok accs' -> nth_error accs' j = nth_error accs j).
  { clear - Hj. induction rng as [|i rng IH]; intros accs accs' H; cbn [foldM] in H; [injection H as <-; reflexivity|].
    destruct (sk_step_in D A re prod k0 nk shells pos0 pos1 accs i) as [accs1|] eqn:E; [|discriminate]. cbn [bind] in H. rewrite (IH _ _ H).
    unfold sk_step_in in E. destruct (get pos0 i) as [f0|]; [|discriminate]. cbn [bind] in E. destruct (expo_sphere_in D k0 nk f0) as [tab0|]; [|discriminate]. cbn [bind] in E.
    destruct (match pos1 with None => Ok tab0 | Some q => f1 <- get q i ;; expo_sphere_in D k0 nk f1 end) as [tab1|]; [|discriminate]. cbn [bind] in E.
    apply (sk_shells_in_count _ _ _ _ _ _ _ j E Hj). }
  destruct (foldM _ _ rng) as [accs|] eqn:E; [|discriminate]. cbn [bind] in H. apply G in E.
  assert (E0 : nth_error (repeat (0%nat, n0 A) (length shells)) j = Some (0%nat, n0 A)) by (apply nth_error_repeat; exact Lj). assert (E1 := eq_trans E E0). clear E E0. rename E1 into E.
  cbv zeta in H. clear - E H. revert j vals E H. induction accs as [|a accs IH]; intros j vals E H; [destruct j; discriminate|].
  cbn [mapM] in H. destruct j as [|j]; cbn [nth_error] in E.
  - injection E as ->. cbn in H. discriminate.
  - destruct (fst a =? 0)%nat; [discriminate|]. cbn [bind] in H. destruct (mapM _ accs) as [r|] eqn:Q; [|discriminate]. apply (IH j r E). reflexivity.
Qed.
Print Assumptions C123_empty_shell.

(** ** A case: the particles of C122 at two times. *)
Example C123_nonvacuous :
  (forall f x, In f pos122 -> In x f -> length x = 2%nat /\ fine_phases ex_exp (/ 100) [f64_ofZ 1; f64_ofZ 1] x /\
     forall kl t, In kl [[[4; 3]; [3; 4]]]%Z -> In t kl -> wave_error (/ 100) (map fval [f64_ofZ 1; f64_ofZ 1]) (unshift 3 t) (map fval x) <= / 16) /\
  sk_values_in (Fops plain_product plain_sum ex_exp) F64ops (@fst f64 f64) (weight_product (Fops plain_product plain_sum ex_exp))
    (fun a n => SFdiv fprec femax a (f64_ofZ (Z.of_nat n))) (fun x => SFsqrt fprec femax x)
    [f64_ofZ 1; f64_ofZ 1] 3 [[[4; 3]; [3; 4]]]%Z 1 1 pos122 None = Ok [(S754_finite false 8593709908250366 (-52), S754_finite false 8593709908250366 (-51))] /\
  sk_values_in (Fops plain_product plain_sum ex_exp) F64ops (@fst f64 f64) (weight_product (Fops plain_product plain_sum ex_exp))
    (fun a n => SFdiv fprec femax a (f64_ofZ (Z.of_nat n))) (fun x => SFsqrt fprec femax x)
    [f64_ofZ 1; f64_ofZ 1] 3 [[[4; 3]; [3; 4]]; []]%Z 2 1 pos122 None = Err ZeroDivisionError.
Proof. split; [exact pos122_fine|]. split; vm_compute; reflexivity. Qed.
