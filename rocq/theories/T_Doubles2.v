(** The mean square displacement in double precision: C100. *)
From Coq Require Import Ascii String List ZArith Bool Arith Reals Lia Lra Sorting.Sorted Floats.SpecFloat.
From Verif Require Import PyBase PyBaseFacts Num Spec_Stats NumFacts P_Text F64Round F64Ops F64Facts M_Helpers M_Correlation M_Dynamics
  Spec_Correlation Spec_Time P_Time P_Skip Spec_Dynamics P_Dynamics Spec_Doubles P_F64Time P_F64Mean P_F64Overlap P_F64Msd P_F64Order T_Dynamics T_Doubles.
Import ListNotations.
Local Open Scope R_scope.

(** ** C100 *)
(** Frames of N particles in d dimensions. *)
Definition frames_shape (N d : nat) (frames : list (frame F64ops)) : Prop :=
  forall x, In x frames -> length x = N /\ forall r, In r x -> length r = d.

(** At most 2^47 coordinates per frame and 2^48 pairs of frames. *)
Definition feasible (N d : nat) (tr : traj F64ops) : Prop :=
  (1 <= N)%nat /\ (Z.of_nat N <= 2 ^ 47)%Z /\ (Z.of_nat (N * d) <= 2 ^ 47)%Z /\
  (Z.of_nat (Nat.max 1 (t_bs tr) * length (t_steps tr) * length (t_steps tr)) <= 2 ^ 48)%Z.

(** The k-th value of the mean square displacement, as computed in double precision,
    is the exact mean of the squared displacements of the particles over all the
    pairs of frames with the k-th time difference, up to a relative error of
    (N d + pairs + 5) 2^-52. *)
Theorem C100_msd_accuracy :
  forall (tr : traj F64ops) grid rmax ts n no (x : list (frame F64ops)) N d g v,
  length (t_steps tr) = length x -> frames_shape N d x -> feasible N d tr -> moderate_frames x -> resolved x ->
  msd_compute F64ops tr grid rmax ts n no x = Ok (g, v) ->
  exists dg skip dts tg,
    adjust_skip F64ops (length (t_steps tr)) (t_npart tr) (t_bs tr) n = Ok skip /\
    msd_grid F64ops tr grid rmax ts x = Ok tg /\
    setup_t_grid F64ops (t_steps tr) (t_bs tr) (t_dt tr) tg (not_str_1 F64ops n && negb no) = Ok dg /\
    g = map (fun ti => nmul F64ops (nofZ F64ops ti) (t_dt tr)) dts /\ StronglySorted Z.lt dts /\ length v = length dts /\
    (forall dt, In dt dts <-> exists p, In p (admitted dg skip (length x)) /\ pair_dt (t_steps tr) p = dt) /\
    forall k, (k < length v)%nat ->
      let qs := pairs_at (t_steps tr) (nth k dts 0%Z) (admitted dg skip (length x)) in
      let exact := rmean (map (fun p => mean_over (fun z => z) (values (nth (fst p) x [])) (values (nth (snd p) x []))) qs) in
      qs <> [] /\
      Rabs (fval (nth k v (S754_zero false)) - exact) <= (INR (N * d) + INR (length qs) + 5) * p2 (-52) * exact.
Proof.
  intros tr grid rmax ts n no x N d g v Hl Sh [N1 [N2 [N3 Few]]] Mod Res H.
  destruct (msd_compute_inv _ _ _ _ _ _ _ _ _ H) as [skip [dg [tg [E1 [E2 [E3 E4]]]]]].
  destruct (offset_compute_spec F64ops _ _ tr dg skip x [] g v Hl E4) as [dts [Eg G]].
  exists dg, skip, dts, tg. split; [exact E1|]. split; [exact E2|]. split; [exact E3|]. split; [exact Eg|]. split; [apply G|].
  split; [rewrite (proj2 (proj2 G)), map_length; reflexivity|]. split; [apply (proj1 (proj2 G))|].
  intros k Hk qs exact. destruct (grouped_values F64ops _ _ _ _ _ _ _ _ k (S754_zero false) G Hk) as [_ [Nq [Ev Hq]]]. cbv zeta in *. fold qs in Nq, Ev, Hq.
  split; [exact Nq|].
  assert (LQ : (Z.of_nat (length qs) <= 2 ^ 48)%Z).
  { pose proof (pairs_le F64ops _ _ _ _ _ _ skip (nth k dts 0%Z) (length x) E3) as B. fold qs in B. rewrite <- Hl in B at 1. lia. }
  assert (W : within (N * d + 4 + length qs + 1) (fval (nmean F64ops (map (pair_val (msd F64ops) x []) qs))) exact).
  { unfold exact. apply (mean_within (-853) 849 (N * d + 4)); try lia; [exact Nq|].
    intros p Hp. destruct (admitted_frames _ _ _ _ (proj1 (Hq p Hp))) as [I1 I2]. set (a := nth (fst p) x []) in *. set (b := nth (snd p) x []) in *.
    destruct (Sh a I1) as [La Ra]. destruct (Sh b I2) as [Lb _].
    destruct (msd_within a b d) as [K [B [W A]]].
    - rewrite La, Lb. reflexivity.
    - rewrite La. exact N1.
    - exact Ra.
    - rewrite La. lia.
    - rewrite La. lia.
    - intros r s c e Hrs Hce. pose proof (in_combine_l _ _ _ _ Hrs). pose proof (in_combine_r _ _ _ _ Hrs). pose proof (in_combine_l _ _ _ _ Hce). pose proof (in_combine_r _ _ _ _ Hce).
      destruct (Mod a r c) as [? ?]; try assumption. destruct (Mod b s e) as [? ?]; try assumption. pose proof (Res a b r s c e I1 I2 Hrs Hce). auto.
    - rewrite La in W. cbv zeta in *. unfold pair_val. fold a b. auto. }
  apply within_error in W.
  - refine (Rle_trans _ _ _ (Req_le _ _ (f_equal (fun z : f64 => Rabs (fval z - exact)) Ev)) _). apply Rle_trans with (1 := W).
    right. replace (N * d + 4 + length qs + 1)%nat with (N * d + length qs + 5)%nat by lia. rewrite !plus_INR. replace (INR 5) with 5 by (cbn [INR]; lra).
    unfold u. replace (p2 (-52)) with (2 * p2 (-53)) by (replace (-52)%Z with (1 + -53)%Z by reflexivity; rewrite p2_add; unfold p2 at 2; simpl powerRZ; lra). ring.
  - unfold u. assert (B : INR (N * d + 4 + length qs + 1) <= p2 50) by (rewrite p2_Z by lia; rewrite INR_IZR_INZ; apply IZR_le; lia).
    apply Rle_trans with (p2 50 * p2 (-53)); [apply Rmult_le_compat_r; [left; apply p2_pos|assumption]|]. rewrite <- p2_add. unfold p2. simpl. lra.
Qed.
Print Assumptions C100_msd_accuracy.

(** The same holds if the squared differences of two frames are added up in any other
    order (numpy adds in blocks), even one that depends on the frames. *)
Theorem C100_any_order :
  forall (tr : traj F64ops) (f : frame F64ops -> frame F64ops -> f64) dg skip (x : list (frame F64ops)) N d g v,
  length (t_steps tr) = length x -> frames_shape N d x -> (1 <= N)%nat -> (Z.of_nat N <= 2 ^ 47)%Z -> (Z.of_nat (N * d) <= 2 ^ 47)%Z ->
  (Z.of_nat (length (admitted dg skip (length x))) <= 2 ^ 48)%Z -> moderate_frames x -> resolved x ->
  (forall a b, In a x -> In b x -> exists s, sum_of (squares a b) s /\ f a b = SFdiv fprec femax s (f64_ofZ (Z.of_nat N))) ->
  offset_compute F64ops f tr dg skip x = Ok (g, v) ->
  exists dts, g = map (fun ti => nmul F64ops (nofZ F64ops ti) (t_dt tr)) dts /\ StronglySorted Z.lt dts /\ length v = length dts /\
    (forall dt, In dt dts <-> exists p, In p (admitted dg skip (length x)) /\ pair_dt (t_steps tr) p = dt) /\
    forall k, (k < length v)%nat ->
      let qs := pairs_at (t_steps tr) (nth k dts 0%Z) (admitted dg skip (length x)) in
      let exact := rmean (map (fun p => mean_over (fun z => z) (values (nth (fst p) x [])) (values (nth (snd p) x []))) qs) in
      qs <> [] /\
      Rabs (fval (nth k v (S754_zero false)) - exact) <= (INR (N * d) + INR (length qs) + 5) * p2 (-52) * exact.
Proof.
  intros tr f dg skip x N d g v Hl Sh N1 N2 N3 Few Mod Res Hf E4.
  destruct (offset_compute_spec F64ops _ f tr dg skip x [] g v Hl E4) as [dts [Eg G]].
  exists dts. split; [exact Eg|]. split; [apply G|].
  split; [rewrite (proj2 (proj2 G)), map_length; reflexivity|]. split; [apply (proj1 (proj2 G))|].
  intros k Hk qs exact. destruct (grouped_values F64ops _ _ _ _ _ _ _ _ k (S754_zero false) G Hk) as [_ [Nq [Ev Hq]]]. cbv zeta in *. fold qs in Nq, Ev, Hq.
  split; [exact Nq|].
  assert (LQ : (Z.of_nat (length qs) <= 2 ^ 48)%Z).
  { assert (B : (length qs <= length (admitted dg skip (length x)))%nat) by (unfold qs, pairs_at; apply filter_le). lia. }
  assert (W : within (N * d + 4 + length qs + 1) (fval (nmean F64ops (map (pair_val (A:=F64ops) f x []) qs))) exact).
  { unfold exact. apply (mean_within (-853) 849 (N * d + 4)); try lia; [exact Nq|].
    intros p Hp. destruct (admitted_frames _ _ _ _ (proj1 (Hq p Hp))) as [I1 I2]. set (a := nth (fst p) x []) in *. set (b := nth (snd p) x []) in *.
    destruct (Sh a I1) as [La Ra]. destruct (Sh b I2) as [Lb _]. destruct (Hf a b I1 I2) as [s [Hs Ef]].
    destruct (frame_within a b d s) as [K [B [W A]]].
    - rewrite La, Lb. reflexivity.
    - rewrite La. exact N1.
    - exact Ra.
    - rewrite La. lia.
    - rewrite La. lia.
    - intros r s' c e Hrs Hce. pose proof (in_combine_l _ _ _ _ Hrs). pose proof (in_combine_r _ _ _ _ Hrs). pose proof (in_combine_l _ _ _ _ Hce). pose proof (in_combine_r _ _ _ _ Hce).
      destruct (Mod a r c) as [? ?]; try assumption. destruct (Mod b s' e) as [? ?]; try assumption. pose proof (Res a b r s' c e I1 I2 Hrs Hce). auto.
    - exact Hs.
    - rewrite La in K, B, W. cbv zeta in *. unfold pair_val. fold a b. rewrite Ef. auto. }
  apply within_error in W.
  - refine (Rle_trans _ _ _ (Req_le _ _ (f_equal (fun z : f64 => Rabs (fval z - exact)) Ev)) _). apply Rle_trans with (1 := W).
    right. replace (N * d + 4 + length qs + 1)%nat with (N * d + length qs + 5)%nat by lia. rewrite !plus_INR. replace (INR 5) with 5 by (cbn [INR]; lra).
    unfold u. replace (p2 (-52)) with (2 * p2 (-53)) by (replace (-52)%Z with (1 + -53)%Z by reflexivity; rewrite p2_add; unfold p2 at 2; simpl powerRZ; lra). ring.
  - unfold u. assert (B : INR (N * d + 4 + length qs + 1) <= p2 50) by (rewrite p2_Z by lia; rewrite INR_IZR_INZ; apply IZR_le; lia).
    apply Rle_trans with (p2 50 * p2 (-53)); [apply Rmult_le_compat_r; [left; apply p2_pos|assumption]|]. rewrite <- p2_add. unfold p2. simpl. lra.
Qed.
Print Assumptions C100_any_order.

(** The sum of the model, and the sum in pairs. *)
Example C100_orders : forall (a b : frame F64ops) (x y z t : f64),
  sum_of (squares a b) (nsum F64ops (squares a b)) /\
  sum_of [x; y; z; t] (SFadd fprec femax (SFadd fprec femax x y) (SFadd fprec femax z t)).
Proof. intros. split; [apply nsum_sum_of|]. exact (sum_add [x; y] [z; t] _ _ (sum_add [x] [y] _ _ (sum_one x) (sum_one y)) (sum_add [z] [t] _ _ (sum_one z) (sum_one t))). Qed.

(** Whatever the size of the displacements, the values are finite, nonnegative and
    exactly 0 at time zero. *)
Theorem C100_msd_sign :
  forall (tr : traj F64ops) grid rmax ts n no (x : list (frame F64ops)) N d g v,
  length (t_steps tr) = length x -> frames_shape N d x -> feasible N d tr -> moderate_frames x ->
  msd_compute F64ops tr grid rmax ts n no x = Ok (g, v) ->
  (forall e : f64, In e v -> ok e /\ 0 <= fval e) /\
  (StronglySorted Z.lt (t_steps tr) -> moderate_steps (t_steps tr) (t_dt tr) ->
   forall k, (k < length v)%nat -> fval (nth k g (S754_zero false)) = 0 -> fval (nth k v (S754_zero false)) = 0).
Proof.
  intros tr grid rmax ts n no x N d g v Hl Sh [N1 [N2 [N3 Few]]] Mod H.
  destruct (msd_compute_inv _ _ _ _ _ _ _ _ _ H) as [skip [dg [tg [E1 [E2 [E3 E4]]]]]].
  destruct (offset_compute_spec F64ops _ _ tr dg skip x [] g v Hl E4) as [dts [Eg G]].
  assert (LQ : forall z, (Z.of_nat (length (pairs_at (t_steps tr) z (admitted dg skip (length x)))) <= 2 ^ 48)%Z).
  { intros z. pose proof (pairs_le F64ops _ _ _ _ _ _ skip z (length x) E3) as B. rewrite <- Hl in *. lia. }
  assert (V : forall a b, In a x -> In b x -> ok (msd F64ops a b) /\ 0 <= fval (msd F64ops a b) <= p2 849 /\ (a = b -> fval (msd F64ops a b) = 0)).
  { intros a b Ha Hb. destruct (Sh a Ha) as [La Ra]. apply (msd_bounds a b d); rewrite ?La; try assumption; try lia; intros r c; [apply Mod|apply Mod]; assumption. }
  split.
  - intros e He. apply (In_nth _ _ (S754_zero false)) in He. destruct He as [k [Hk Ek]].
    destruct (grouped_values F64ops _ _ _ _ _ _ _ _ k (S754_zero false) G Hk) as [_ [Nq [Ev Hq]]]. cbv zeta in *. rewrite (eq_trans (eq_sym Ek) Ev).
    enough (B : ok (nmean F64ops (map (pair_val (msd F64ops) x []) (pairs_at (t_steps tr) (nth k dts 0%Z) (admitted dg skip (length x))))) /\ 0 <= fval (nmean F64ops (map (pair_val (msd F64ops) x []) (pairs_at (t_steps tr) (nth k dts 0%Z) (admitted dg skip (length x))))) <= p2 849) by (split; [apply B|apply (proj2 B)]).
    apply fmean_bounds; [lia|intros C; apply map_eq_nil in C; contradiction|rewrite map_length; specialize (LQ (nth k dts 0%Z)); lia|].
    intros w Hw. apply in_map_iff in Hw. destruct Hw as [p [<- Hp]]. destruct (admitted_frames _ _ _ _ (proj1 (Hq p Hp))) as [I1 I2]. destruct (V _ _ I1 I2) as [? [? _]]. split; assumption.
  - intros So Ms k Hk Zk.
    destruct (grouped_values F64ops _ _ _ _ _ _ _ _ k (S754_zero false) G Hk) as [Lv [Nq [Ev Hq]]]. cbv zeta in *.
    assert (Zd : nth k dts 0%Z = 0%Z).
    { subst g. rewrite Lv in Hk.
      rewrite (nth_indep _ _ (nmul F64ops (nofZ F64ops 0) (t_dt tr))) in Zk by (rewrite map_length; exact Hk). rewrite (map_nth (fun ti => nmul F64ops (nofZ F64ops ti) (t_dt tr))) in Zk.
      set (dd := nth k dts 0%Z) in *. assert (X : exists p, In p (admitted dg skip (length x)) /\ pair_dt (t_steps tr) p = dd) by (apply (proj1 (proj2 G)); apply nth_In; exact Hk).
      destruct X as [p [Hp Ep]]. apply admitted_range in Hp. destruct Ms as [Kd [Nd Md]]. destruct (Md (fst p) (snd p)) as [M1 M2]; [lia|lia|]. fold (pair_dt (t_steps tr) p) in M1, M2. rewrite Ep in M1, M2.
      destruct (time_near (t_dt tr) dd Kd M1 M2) as [_ E]. cbv zeta in E. rewrite Zk in E. rewrite Rminus_0_l, Rabs_Ropp in E.
      pose proof u_small. pose proof (Rabs_pos (IZR dd * fval (t_dt tr))) as Pp. assert (Z0 : Rabs (IZR dd * fval (t_dt tr)) = 0) by nra.
      destruct (Req_dec (IZR dd * fval (t_dt tr)) 0) as [Z1|Z1]; [|apply Rabs_pos_lt in Z1; lra]. apply Rmult_integral in Z1. destruct Z1 as [Z1|Z1]; [apply eq_IZR in Z1; exact Z1|contradiction]. }
    rewrite Zd in *. refine (eq_trans (f_equal fval Ev) _).
    assert (Each : forall w, In w (map (pair_val (msd F64ops) x []) (pairs_at (t_steps tr) 0%Z (admitted dg skip (length x)))) -> (ok w /\ 0 <= fval w <= p2 849) /\ fval w = 0).
    { intros w Hw. apply in_map_iff in Hw. destruct Hw as [p [<- Hp]]. destruct (Hq p Hp) as [Hp1 Hp2]. pose proof (admitted_range _ _ _ _ Hp1) as Rg.
      apply (pair_dt_zero _ p So) in Hp2; [|lia]. unfold pair_val. rewrite Hp2. assert (Hx : In (nth (snd p) x []) x) by (apply nth_In; lia).
      destruct (V _ _ Hx Hx) as [K1 [K2 K3]]. split; [split; assumption|apply K3; reflexivity]. }
    apply (zero_mean 849); [lia|intros C; apply map_eq_nil in C; contradiction|rewrite map_length; specialize (LQ 0%Z); lia|intros w Hw; apply (Each w Hw)|intros w Hw; apply (Each w Hw)].
Qed.
Print Assumptions C100_msd_sign.

(** Displacements are resolved as soon as every coordinate is 0 or at least 2^-347. *)
Lemma resolved_magnitude : forall frames : list (frame F64ops),
  (forall x r c, In x frames -> In r x -> In c r -> ok c /\ (fval c = 0 \/ p2 (-347) <= Rabs (fval c))) -> resolved frames.
Proof.
  intros frames H. assert (M : forall x r c, In x frames -> In r x -> In c r -> exists k : Z, fval c = IZR k * p2 (-400)).
  { intros x r c Hx Hr Hc. destruct (H x r c Hx Hr Hc) as [[V F] B]. destruct c as [s|s| |s m e]; try (exists 0%Z; cbn [fval]; ring). cbn [fval] in *. fold (p2 e) in *.
    apply valid_iff in V. assert (Sg : Rabs (sgn s) = 1) by (destruct s; cbn [sgn]; [rewrite Rabs_left by lra; lra|rewrite Rabs_right by lra; lra]).
    pose proof (p2_pos e) as Pe. assert (Pm : 1 <= IZR (Z.pos m)) by (apply IZR_le; lia).
    assert (Hm : IZR (Z.pos m) <= p2 53) by (rewrite p2_Z by lia; apply IZR_le; lia).
    assert (Ee : (-400 <= e)%Z).
    { destruct B as [B|B].
      - exfalso. assert (sgn s <> 0) by (intros C; rewrite C, Rabs_R0 in Sg; lra). assert (IZR (Z.pos m) * p2 e <> 0) by (apply Rmult_integral_contrapositive; lra). apply Rmult_integral in B. tauto.
      - rewrite Rabs_mult, Sg, Rmult_1_l, Rabs_mult, (Rabs_right (IZR (Z.pos m))), (Rabs_right (p2 e)) in B by lra.
        destruct (Z_lt_le_dec e (-400)) as [L|L]; [|exact L]. exfalso. assert (C : p2 (-347) <= p2 53 * p2 e) by (apply Rle_trans with (1 := B); apply Rmult_le_compat_r; lra).
        rewrite <- p2_add in C. assert (p2 (53 + e) < p2 (-347)) by (apply p2_lt; lia). lra. }
    exists ((if s then -1 else 1) * Z.pos m * 2 ^ (e + 400))%Z. rewrite !mult_IZR, <- (p2_Z (e + 400)) by lia. rewrite !Rmult_assoc, <- p2_add. replace (e + 400 + -400)%Z with e by lia.
    destruct s; cbn [sgn]; ring. }
  intros x y r s a b Hx Hy Hrs Hab. destruct (M x r a Hx (in_combine_l _ _ _ _ Hrs) (in_combine_l _ _ _ _ Hab)) as [i Ei]. destruct (M y s b Hy (in_combine_r _ _ _ _ Hrs) (in_combine_r _ _ _ _ Hab)) as [j Ej].
  rewrite Ei, Ej. destruct (Z.eq_dec i j) as [-> |D]; [left; reflexivity|right]. rewrite <- Rmult_minus_distr_r, <- minus_IZR, Rabs_mult, (Rabs_right (p2 (-400))) by (left; apply p2_pos).
  rewrite <- (Rmult_1_l (p2 (-400))) at 1. apply Rmult_le_compat_r; [left; apply p2_pos|]. rewrite <- abs_IZR. apply IZR_le. lia.
Qed.

(** Decidable version of the hypotheses on the coordinates. *)
Definition plain (c : f64) : bool :=
  okb c && match c with S754_finite _ _ e => (-347 <=? e)%Z && (e <=? 300)%Z | _ => true end.
Lemma plain_spec : forall c, plain c = true -> ok c /\ Rabs (fval c) <= p2 400 /\ (fval c = 0 \/ p2 (-347) <= Rabs (fval c)).
Proof.
  intros c H. unfold plain in H. apply andb_true_iff in H. destruct H as [O H]. apply okb_ok in O. split; [exact O|]. destruct c as [s|s| |s m e]; cbn [fval]; try (rewrite Rabs_R0; split; [left; apply p2_pos|left; reflexivity]).
  apply andb_true_iff in H. destruct H as [H1 H2]. apply Z.leb_le in H1. apply Z.leb_le in H2. fold (p2 e). destruct O as [V _]. apply valid_iff in V.
  assert (Sg : Rabs (sgn s) = 1) by (destruct s; cbn [sgn]; [rewrite Rabs_left by lra; lra|rewrite Rabs_right by lra; lra]).
  pose proof (p2_pos e) as Pe. assert (Pm : 1 <= IZR (Z.pos m)) by (apply IZR_le; lia). assert (Hm : IZR (Z.pos m) <= p2 53) by (rewrite p2_Z by lia; apply IZR_le; lia).
  rewrite Rabs_mult, Sg, Rmult_1_l, Rabs_mult, (Rabs_right (IZR (Z.pos m))), (Rabs_right (p2 e)) by lra. split.
  - apply Rle_trans with (p2 53 * p2 300); [|rewrite <- p2_add; apply p2_le; lia]. apply Rmult_le_compat; try lra. apply p2_le. exact H2.
  - right. apply Rle_trans with (1 * p2 e); [rewrite Rmult_1_l; apply p2_le; exact H1|]. apply Rmult_le_compat_r; lra.
Qed.
Lemma plain_frames : forall frames : list (frame F64ops), forallb (forallb (forallb plain)) frames = true -> moderate_frames frames /\ resolved frames.
Proof.
  intros frames H. assert (G : forall x r c, In x frames -> In r x -> In c r -> plain c = true).
  { intros x r c Hx Hr Hc. rewrite forallb_forall in H. specialize (H x Hx). rewrite forallb_forall in H. specialize (H r Hr). rewrite forallb_forall in H. apply H. exact Hc. }
  split.
  - intros x r c Hx Hr Hc. destruct (plain_spec c (G x r c Hx Hr Hc)) as [? [? _]]. split; assumption.
  - apply resolved_magnitude. intros x r c Hx Hr Hc. destruct (plain_spec c (G x r c Hx Hr Hc)) as [? [_ ?]]. split; assumption.
Qed.

(** Coordinates in tenths: the values at the times 0.1 and 0.3 are one unit in the last
    place above 4/300 and 9/100. *)
Definition tenth_frames : list (frame F64ops) :=
  map (map (map (fun z => f64_frac z 10))) [[[0; 0]; [1; 1]]; [[1; 0]; [1; 1]]; [[2; 0]; [1; 2]]; [[3; 0]; [1; 4]]]%Z.
Example C100_nonvacuous :
  frames_shape 2 2 tenth_frames /\ feasible 2 2 tenth_tr /\ moderate_frames tenth_frames /\ resolved tenth_frames /\
  msd_compute F64ops tenth_tr (Some (map (fun z => f64_frac z 10) [0; 1; 3]%Z)) (f64_ofZ (-1)) 30 (NoInt (-1)) false tenth_frames
  = Ok ([f64_ofZ 0; f64_frac 1 10; nmul F64ops (f64_ofZ 3) (f64_frac 1 10)], [f64_ofZ 0; S754_finite false 7686143364045648 (-59); S754_finite false 6485183463413515 (-56)]) /\
  f64_frac 4 300 = S754_finite false 7686143364045647 (-59) /\ f64_frac 9 100 = S754_finite false 6485183463413514 (-56).
Proof.
  split; [intros x [<-|[<-|[<-|[<-|[]]]]]; (split; [reflexivity|intros r [<-|[<-|[]]]; reflexivity])|].
  split; [unfold feasible; cbn; lia|]. destruct (plain_frames tenth_frames) as [A B]; [vm_compute; reflexivity|]. split; [exact A|]. split; [exact B|].
  split; [vm_compute; reflexivity|split; vm_compute; reflexivity].
Qed.
