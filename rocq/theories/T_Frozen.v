(** A trajectory in which nothing moves: C111. *)
From Coq Require Import Ascii String List ZArith Bool Arith Reals Lia Lra Sorting.Sorted Floats.SpecFloat.
From Verif Require Import PyBase PyBaseFacts Num Spec_Stats NumFacts P_Text F64Round F64Ops F64Facts M_Helpers M_Correlation M_Dynamics
  Spec_Correlation P_Correlation Spec_Time P_Time P_Skip Spec_Dynamics P_Dynamics P_Chi4 Spec_Doubles P_F64Time P_F64Mean P_F64Overlap P_F64Msd P_F64Chi4
  T_Dynamics T_Doubles T_Doubles2 T_Doubles3.
Import ListNotations.
Local Open Scope R_scope.

(** ** C111 *)
Definition frozen {X} (frames : list X) : Prop := forall x y, In x frames -> In y frames -> x = y.

(** The mean square displacement is exactly 0 at all times. *)
Theorem C111_msd :
  forall (tr : traj F64ops) grid rmax ts n no (x : list (frame F64ops)) N d g v,
  length (t_steps tr) = length x -> frames_shape N d x -> feasible N d tr -> moderate_frames x -> frozen x ->
  msd_compute F64ops tr grid rmax ts n no x = Ok (g, v) -> forall e : f64, In e v -> ok e /\ fval e = 0.
Proof.
  intros tr grid rmax ts n no x N d g v Hl Sh Fe Mod Fr H e He. split; [apply (proj1 (C100_msd_sign tr grid rmax ts n no x N d g v Hl Sh Fe Mod H) e He)|].
  destruct Fe as [N1 [N2 [N3 Few]]].
  destruct (msd_compute_inv _ _ _ _ _ _ _ _ _ H) as [skip [dg [tg [E1 [E2 [E3 E4]]]]]].
  destruct (offset_compute_spec F64ops _ _ tr dg skip x [] g v Hl E4) as [dts [Eg G]].
  apply (In_nth _ _ (S754_zero false)) in He. destruct He as [k [Hk Ek]].
  destruct (grouped_values F64ops _ _ _ _ _ _ _ _ k (S754_zero false) G Hk) as [_ [Nq [Ev Hq]]]. cbv zeta in *. rewrite (eq_trans (eq_sym Ek) Ev).
  assert (V : forall w, In w (map (pair_val (msd F64ops) x []) (pairs_at (t_steps tr) (nth k dts 0%Z) (admitted dg skip (length x)))) -> ok w /\ 0 <= fval w <= p2 849 /\ fval w = 0).
  { intros w Hw. apply in_map_iff in Hw. destruct Hw as [p [<- Hp]]. destruct (admitted_frames _ _ _ _ (proj1 (Hq p Hp))) as [I1 I2].
    destruct (Sh _ I1) as [La Ra]. destruct (msd_bounds (nth (fst p) x []) (nth (snd p) x []) d) as [B1 [B2 B3]]; rewrite ?La; try assumption; try lia; try (intros r c; apply Mod; assumption).
    unfold pair_val. split; [exact B1|]. split; [exact B2|]. apply B3. apply Fr; assumption. }
  apply (zero_mean 849); [lia|intros C; apply map_eq_nil in C; contradiction| |intros w Hw; destruct (V w Hw) as [? [? _]]; split; assumption|intros w Hw; apply (V w Hw)].
  rewrite map_length. pose proof (pairs_le F64ops _ _ _ _ _ _ skip (nth k dts 0%Z) (length x) E3) as B. rewrite <- Hl in *. lia.
Qed.
Print Assumptions C111_msd.

(** The self overlap is exactly 1 at all times, for every threshold. *)
Theorem C111_self_overlap :
  forall (tr : traj F64ops) grid n a (unf : list (frame F64ops)) N g v,
  length (t_steps tr) = length unf -> (forall x, In x unf -> length x = N) -> (1 <= N)%nat -> (Z.of_nat N <= 2 ^ 53)%Z -> few_pairs tr ->
  finite_frames unf -> ok a -> p2 (-500) <= Rabs (fval a) <= p2 500 -> frozen unf ->
  self_overlap_compute F64ops tr grid n a unf = Ok (g, v) -> forall e : f64, In e v -> fval e = 1.
Proof.
  intros tr grid n a unf N g v Hl HN N1 N2 Few Fin Ka Ba Fr H e He. unfold self_overlap_compute in H.
  destruct (grid_compute_inv _ _ _ _ _ _ _ _ H) as [skip [dg [_ [E2 E3]]]].
  destruct (offset_compute_spec F64ops _ _ tr dg skip unf [] g v Hl E3) as [dts [Eg G]].
  apply (In_nth _ _ (S754_zero false)) in He. destruct He as [k [Hk Ek]].
  destruct (grouped_values F64ops _ _ _ _ _ _ _ _ k (S754_zero false) G Hk) as [Lv [Nq [Ev Hq]]]. cbv zeta in *. rewrite (eq_trans (eq_sym Ek) Ev).
  apply mean_one; [intros C; apply map_eq_nil in C; contradiction| |].
  { rewrite map_length. pose proof (pairs_le F64ops _ _ _ _ _ _ skip (nth k dts 0%Z) (length unf) E2) as B. unfold few_pairs in Few. rewrite <- Hl in *. lia. }
  intros w Hw. apply in_map_iff in Hw. destruct Hw as [p [<- Hp]]. destruct (admitted_frames _ _ _ _ (proj1 (Hq p Hp))) as [I1 I2].
  unfold pair_val. rewrite (Fr _ _ I2 I1). unfold self_overlap_f. destruct (square_pos a Ka Ba) as [K2 P2].
  rewrite count_self; [|exact K2|exact P2|intros r c Hr Hc; exact (Fin _ r c I1 Hr Hc)]. rewrite (HN _ I1). split; [|apply frac_one; assumption].
  destruct (frac_spec N N) as [K _]; [lia|assumption|assumption|exact K].
Qed.
Print Assumptions C111_self_overlap.

(** chi4 is exactly 0 at all times. *)
Theorem C111_chi4 :
  forall (tr : traj F64ops) grid n a (unf : list (frame F64ops)) N r t v,
  unf <> [] -> length (t_steps tr) = length unf -> (forall x, In x unf -> length x = N) -> (1 <= N)%nat ->
  (Z.of_nat (length unf) * (Z.of_nat N * Z.of_nat N) <= 2 ^ 49)%Z -> frozen unf ->
  chi4_compute F64ops tr grid n a unf = Ok r -> In (t, v) r -> ok v /\ fval v = 0.
Proof.
  intros tr grid n a unf N r t v Hne Hl HN N1 HB Fr H Hin.
  destruct (C101_chi4_accuracy tr grid n a unf N r Hne Hl HN N1 HB H) as [skip [dg [_ [E2 F]]]].
  destruct (Forall2_In_r _ _ _ _ _ _ F Hin) as [p [Hp [Et [K [_ [_ G]]]]]]. cbn [fst snd] in Et, K, G. split; [exact K|].
  set (x0 := nth 0 unf []). assert (I0 : In x0 unf) by (apply nth_In; destruct unf; [congruence|cbn; lia]).
  apply (G (Z.of_nat (self_count F64ops (SFmul fprec femax a a) x0 x0))). intros z Hz. rewrite close_counts_spec in Hz. apply in_map_iff in Hz. destruct Hz as [i [<- Hi]].
  assert (Hi2 : (i + snd p < length unf)%nat).
  { unfold origins in Hi. apply filter_In in Hi. destruct Hi as [Hi _]. apply in_seq in Hi. lia. }
  do 2 f_equal; apply Fr; try exact I0; apply nth_In; lia.
Qed.
Print Assumptions C111_chi4.

(** ** The non-Gaussian parameter *)
Lemma zero_form : forall x, ok x -> fval x = 0 -> exists s, x = S754_zero s.
Proof.
  intros x [_ F] Z. destruct x as [s| | |s m e]; cbn in F; try contradiction; [exists s; reflexivity|].
  exfalso. cbn in Z. destruct (Rmult_integral _ _ Z) as [A|A]; [destruct s; cbn in A; lra|].
  destruct (Rmult_integral _ _ A) as [B|B]; [apply eq_IZR in B; discriminate|]. pose proof (p2_pos e) as Q. unfold p2 in Q. rewrite B in Q. exact (Rlt_irrefl _ Q).
Qed.

Lemma div_zero_form : forall x (N : nat), ok x -> fval x = 0 -> (1 <= N)%nat -> (Z.of_nat N <= 2 ^ 53)%Z -> exists s, ndiv F64ops x (nofnat F64ops N) = S754_zero s.
Proof.
  intros x N K Z N1 N2. destruct (zero_form x K Z) as [s ->].
  assert (F : ok (f64_ofZ (Z.of_nat N)) /\ fval (f64_ofZ (Z.of_nat N)) = IZR (Z.of_nat N)) by (apply ofZ_exact; lia).
  cbn [ndiv nofnat F64ops]. unfold nofnat. cbn [nofZ F64ops]. destruct F as [[_ F1] F2].
  destruct (f64_ofZ (Z.of_nat N)) as [s'| | |s' m e]; cbn in F1, F2; try contradiction; [exfalso; apply (IZR_lt 0) in N1 || idtac|].
  - assert (0 < IZR (Z.of_nat N)) by (apply IZR_lt; lia). lra.
  - eexists. reflexivity.
Qed.

Lemma terms_self : forall r : list f64, (forall c, In c r -> ok c) ->
  forall v : f64, In v (map2 (fun a b : f64 => nsq F64ops (nsub F64ops a b)) r r) -> ok v /\ fval v = 0.
Proof.
  induction r as [|c r IH]; intros Fc v Hv; [destruct Hv|]. destruct Hv as [Hv|Hv]; [|apply IH; [intros c' Hc'; apply Fc; right; exact Hc'|exact Hv]].
  destruct (sub_self c (Fc c (or_introl eq_refl))) as [K Z]. destruct (zero_form _ K Z) as [s Es]. subst v. 
  assert (E : nsq F64ops (nsub F64ops c c) = SFmul fprec femax (S754_zero s) (S754_zero s)) by (rewrite <- Es; reflexivity).
  change (ok (nsq F64ops (nsub F64ops c c)) /\ fval (nsq F64ops (nsub F64ops c c)) = 0). rewrite E. destruct s; split; try apply ok_zero; reflexivity.
Qed.

Lemma alpha_frozen : forall (i j : nat) (x : frame F64ops), i <> j -> (1 <= length x)%nat -> (Z.of_nat (length x) <= 2 ^ 53)%Z ->
  (forall r c, In r x -> In c r -> ok c) -> alpha_2 F64ops (i, x) (j, x) = S754_nan.
Proof.
  intros i j x Hij N1 N2 Fin. unfold alpha_2. cbn [fst snd]. rewrite (proj2 (Nat.eqb_neq i j) Hij). cbv zeta.
  assert (R : forall p, In p (combine x x) -> fst p = snd p /\ In (fst p) x).
  { clear. induction x as [|a x IH]; [intros p []|]. intros p [<-|H]; [split; [reflexivity|left; reflexivity]|]. destruct (IH p H) as [A B]. split; [exact A|right; exact B]. }
  assert (S4 : exists s, ndiv F64ops (nsum F64ops (map (nsq F64ops) (map (fun p => sqdist F64ops (fst p) (snd p)) (combine x x)))) (nofnat F64ops (length x)) = S754_zero s).
  { destruct (sum_zeros (map (nsq F64ops) (map (fun p => sqdist F64ops (fst p) (snd p)) (combine x x))) (S754_zero false) (ok_zero false) eq_refl) as [K Z].
    - intros v Hv. rewrite map_map in Hv. apply in_map_iff in Hv. destruct Hv as [p [<- Hp]]. destruct (R p Hp) as [Ep Hin]. rewrite <- Ep.
      destruct (sqdist_self (fst p) (fun c => Fin _ c Hin)) as [K Z]. destruct (zero_form _ K Z) as [s Es].
      unfold nsq. rewrite Es. destruct s; split; try apply ok_zero; reflexivity.
    - apply div_zero_form; assumption. }
  assert (S2 : exists s, msd F64ops x x = S754_zero s).
  { unfold msd. apply div_zero_form; try assumption;
    (destruct (sum_zeros (flat_map (fun p => map2 (fun a b => nsq F64ops (nsub F64ops a b)) (fst p) (snd p)) (combine x x)) (S754_zero false) (ok_zero false) eq_refl) as [K Z]; [|first [exact K|exact Z]]).
    all: intros v Hv; apply in_flat_map in Hv; destruct Hv as [p [Hp Hv]]; destruct (R p Hp) as [Ep Hin]; rewrite <- Ep in Hv.
    all: assert (Fc : forall c, In c (fst p) -> ok c) by (intros c; apply Fin; exact Hin).
    all: exact (terms_self _ Fc v Hv). }
  destruct S4 as [s4 ->]. destruct S2 as [s2 ->]. destruct s4, s2; reflexivity.
Qed.

Lemma nan_mean : forall l : list f64, l <> [] -> (forall v, In v l -> v = S754_nan) -> nmean F64ops l = S754_nan.
Proof.
  intros l Hne H. assert (S : nsum F64ops l = S754_nan).
  { unfold nsum. destruct l as [|a l]; [congruence|]. cbn [fold_left]. rewrite (H a (or_introl eq_refl)). 
    assert (E : forall m : list f64, fold_left (nadd F64ops) m S754_nan = S754_nan) by (intros m; induction m as [|b m IH]; [reflexivity|cbn [fold_left]; exact IH]).
    apply E. }
  unfold nmean. rewrite S. reflexivity.
Qed.

Lemma with_id_nth : forall (frames : list (frame F64ops)) i, (i < length frames)%nat -> nth i (with_id F64ops frames) (0%nat, []) = (i, nth i frames []).
Proof.
  intros frames i H. unfold with_id. rewrite combine_nth by apply seq_length. rewrite seq_nth by exact H. reflexivity.
Qed.

(** The non-Gaussian parameter is not a number at every time but zero: it divides 0
    by 0. *)
Theorem C111_alpha2_refuted :
  forall (tr : traj F64ops) grid n (unf : list (frame F64ops)) N g v,
  length (t_steps tr) = length unf -> (forall x, In x unf -> length x = N) -> (1 <= N)%nat -> (Z.of_nat N <= 2 ^ 53)%Z ->
  StronglySorted Z.lt (t_steps tr) -> ok (t_dt tr) -> finite_frames unf -> frozen unf ->
  alpha2_compute F64ops tr grid n unf = Ok (g, v) ->
  forall k, (k < length v)%nat -> fval (nth k g (S754_zero false)) <> 0 -> nth k v (S754_zero false) = S754_nan.
Proof.
  intros tr grid n unf N g v Hl HN N1 N2 So Kt Fin Fr H k Hk Zk. unfold alpha2_compute in H.
  destruct (grid_compute_inv _ _ _ _ _ _ _ _ H) as [skip [dg [_ [E2 E3]]]].
  assert (Lw : length (with_id F64ops unf) = length unf) by (unfold with_id; rewrite combine_length, seq_length; lia).
  destruct (offset_compute_spec F64ops _ _ tr dg skip (with_id F64ops unf) (0%nat, []) g v (eq_trans Hl (eq_sym Lw)) E3) as [dts [Eg G]].
  destruct (grouped_values F64ops _ _ _ _ _ _ _ _ k (S754_zero false) G Hk) as [Lv [Nq [Ev Hq]]]. cbv zeta in *. rewrite Ev.
  apply nan_mean; [intros C; apply map_eq_nil in C; contradiction|].
  intros w Hw. apply in_map_iff in Hw. destruct Hw as [p [<- Hp]]. destruct (Hq p Hp) as [Hp1 Hp2]. pose proof (admitted_range _ _ _ _ Hp1) as Rg. rewrite Lw in Rg.
  unfold pair_val. rewrite !with_id_nth by lia.
  assert (I1 : In (nth (fst p) unf []) unf) by (apply nth_In; lia). assert (I2 : In (nth (snd p) unf []) unf) by (apply nth_In; lia).
  rewrite (Fr _ _ I2 I1). apply alpha_frozen; [|rewrite (HN _ I1); exact N1|rewrite (HN _ I1); exact N2|intros r c Hr Hc; exact (Fin _ r c I1 Hr Hc)].
  intros E. apply Zk. subst g. rewrite Lv in Hk.
  rewrite (nth_indep _ _ (nmul F64ops (nofZ F64ops 0) (t_dt tr))) by (rewrite map_length; exact Hk). rewrite (map_nth (fun ti => nmul F64ops (nofZ F64ops ti) (t_dt tr))).
  rewrite <- Hp2. unfold pair_dt. rewrite E, Z.sub_diag. destruct Kt as [_ F]. destruct (t_dt tr); cbn in F; try contradiction; reflexivity.
Qed.
Print Assumptions C111_alpha2_refuted.

(** Two particles that do not move, four frames. *)
Definition still_frames : list (frame F64ops) := repeat (map (map (fun z => f64_frac z 10)) [[1; 2]; [7; 3]]%Z) 4.
Example C111_nonvacuous :
  frames_shape 2 2 still_frames /\ feasible 2 2 tenth_tr /\ moderate_frames still_frames /\ finite_frames still_frames /\ frozen still_frames /\ few_pairs tenth_tr /\
  msd_compute F64ops tenth_tr (Some (map (fun z => f64_frac z 10) [0; 1; 3]%Z)) (f64_ofZ (-1)) 30 (NoInt (-1)) false still_frames
  = Ok ([f64_ofZ 0; f64_frac 1 10; nmul F64ops (f64_ofZ 3) (f64_frac 1 10)], [f64_ofZ 0; f64_ofZ 0; f64_ofZ 0]) /\
  self_overlap_compute F64ops tenth_tr (map (fun z => f64_frac z 10) [0; 1; 3]%Z) (NoInt (-1)) (f64_frac 3 10) still_frames
  = Ok ([f64_ofZ 0; f64_frac 1 10; nmul F64ops (f64_ofZ 3) (f64_frac 1 10)], [f64_ofZ 1; f64_ofZ 1; f64_ofZ 1]) /\
  chi4_compute F64ops tenth_tr (map (fun z => f64_frac z 10) [0; 1]%Z) (NoInt (-1)) (f64_frac 3 10) still_frames
  = Ok [(f64_ofZ 0, f64_ofZ 0); (f64_frac 1 10, f64_ofZ 0)] /\
  alpha2_compute F64ops tenth_tr (map (fun z => f64_frac z 10) [0; 1; 3]%Z) (NoInt (-1)) still_frames
  = Ok ([f64_ofZ 0; f64_frac 1 10; nmul F64ops (f64_ofZ 3) (f64_frac 1 10)], [f64_ofZ 0; S754_nan; S754_nan]).
Proof.
  split; [|split; [|split; [|split; [|split; [|split]]]]].
  - intros x Hx. apply repeat_spec in Hx. subst x. split; [reflexivity|]. intros r [<-|[<-|[]]]; reflexivity.
  - exact (proj1 (proj2 C100_nonvacuous)).
  - apply (plain_frames still_frames). vm_compute. reflexivity.
  - apply finite_check. vm_compute. reflexivity.
  - intros x y Hx Hy. apply repeat_spec in Hx, Hy. congruence.
  - exact (proj1 C99_nonvacuous).
  - split; [vm_compute; reflexivity|]. split; [vm_compute; reflexivity|]. split; [vm_compute; reflexivity|vm_compute; reflexivity].
Qed.
