(** The stress autocorrelation in double precision: C128. *)
From Coq Require Import Ascii String List ZArith Bool Arith Reals Lia Lra Sorting.Sorted Floats.SpecFloat.
From Verif Require Import PyBase PyBaseFacts Num Spec_Stats NumFacts P_Text F64Round F64Ops F64Facts M_Helpers M_Correlation M_Dynamics
  Spec_Correlation Spec_Time P_Time P_Skip Spec_Dynamics P_Dynamics P_Dynamics2 P_Vacf Spec_Velocity Spec_Doubles Spec_Dot P_F64Time P_F64Mean P_F64Overlap P_F64Msd P_F64Order P_F64Dot Spec_Stress64 P_Stress64 T_Dynamics T_Doubles T_Doubles2 T_Dot.
Import ListNotations.
Local Open Scope R_scope.

(** The average over the pairs of the mean product of the three components, over the volume. *)
Definition stress_average (stress : list (list R)) (qs : list (nat * nat)) (volume : R) : R :=
  rmean (map (fun p => dotv (nth (fst p) stress []) (nth (snd p) stress []) / 3) qs) / volume.
Definition true_stresses (mass : list f64) (virial vel : list (frame F64ops)) : list (list R) := map (fun sv => true_stress mass (fst sv) (snd sv)) (combine virial vel).
Definition stress_sizes (mass : list f64) (virial vel : list (frame F64ops)) : list (list R) := map (fun sv => stress_size mass (fst sv) (snd sv)) (combine virial vel).

Lemma stress_frame_nearby : forall N mass (s vel : frame F64ops) st, stress_data N mass s vel -> (Z.of_nat N <= 2 ^ 40)%Z -> stress_by mass s vel st ->
  Forall2 (fun v q => ok v /\ Rabs (fval v) <= p2 341 /\ nearby (N + 3) (p2 (-934)) (fval v) (fst q) (snd q) /\ snd q <= p2 341) st
    (combine (true_stress mass s vel) (stress_size mass s vel)).
Proof.
  intros N mass s vel st D HN F. unfold stress_by in F. inversion F as [|? c1 ? st1 H1 F1]; subst. inversion F1 as [|? c2 ? st2 H2 F2]; subst. inversion F2 as [|? c3 ? st3 H3 F3]; subst. inversion F3; subst.
  pose proof (component_nearby N mass s vel D HN) as Q.
  constructor; [exact (Q 0%nat 1%nat c1 ltac:(lia) ltac:(lia) H1)|]. constructor; [exact (Q 0%nat 2%nat c2 ltac:(lia) ltac:(lia) H2)|]. constructor; [exact (Q 1%nat 2%nat c3 ltac:(lia) ltac:(lia) H3)|]. constructor.
Qed.

Lemma Forall2_nth_eq : forall (X Y : Type) (P : X -> Y -> Prop) l l' i d d', Forall2 P l l' -> (i < length l)%nat -> P (nth i l d) (nth i l' d').
Proof. intros X Y P l l' i d d' F. revert i. induction F; intros [|i] H'; cbn [length nth] in *; try lia; [assumption|]. apply IHF. lia. Qed.
Lemma Forall2_len : forall (X Y : Type) (P : X -> Y -> Prop) l l', Forall2 P l l' -> length l = length l'.
Proof. intros X Y P l l' F. induction F; cbn [length]; [reflexivity|f_equal; assumption]. Qed.

(** ** C128 *)
(** Whatever the order of the sums over the particles and over the components, the k-th value is the
    exact average of the mean product of the off-diagonal stresses over the pairs of frames with
    the k-th time difference, divided by the volume, up to (2 N + pairs + 13) 2^-52 times the same
    average of the sizes, and an underflow of 2^-486. *)
Theorem C128_any_order :
  forall (tr : traj F64ops) (f : list f64 -> list f64 -> f64) dg skip (volume : f64) mass (virial vel : list (frame F64ops)) (stress : list (list f64)) N g v,
  length (t_steps tr) = length vel -> length virial = length vel ->
  (forall s x, In (s, x) (combine virial vel) -> stress_data N mass s x) -> (Z.of_nat N <= 2 ^ 40)%Z ->
  (Z.of_nat (length (admitted dg skip (length vel))) <= 2 ^ 48)%Z -> ok volume -> p2 (-100) <= fval volume <= p2 100 ->
  Forall2 (fun sv st => stress_by mass (fst sv) (snd sv) st) (combine virial vel) stress ->
  (forall a b, In a stress -> In b stress -> exists s, sum_of (map2 (SFmul fprec femax) a b) s /\ f a b = SFdiv fprec femax s (f64_ofZ 3)) ->
  offset_compute F64ops f tr dg skip stress = Ok (g, v) ->
  exists dts, g = map (fun ti => nmul F64ops (nofZ F64ops ti) (t_dt tr)) dts /\ StronglySorted Z.lt dts /\ length v = length dts /\
    (forall dt, In dt dts <-> exists p, In p (admitted dg skip (length vel)) /\ pair_dt (t_steps tr) p = dt) /\
    forall k, (k < length v)%nat ->
      let qs := pairs_at (t_steps tr) (nth k dts 0%Z) (admitted dg skip (length vel)) in
      qs <> [] /\
      Rabs (fval (SFdiv fprec femax (nth k v (S754_zero false)) volume) - stress_average (true_stresses mass virial vel) qs (fval volume))
        <= (2 * INR N + INR (length qs) + 13) * p2 (-52) * stress_average (stress_sizes mass virial vel) qs (fval volume) + p2 (-486).
Proof.
  intros tr f dg skip volume mass virial vel st N g v Hl Hlv D HN Few KV BV Fst Hf E4.
  assert (Lc : length (combine virial vel) = length vel) by (rewrite combine_length, Hlv; apply Nat.min_id).
  assert (Ls : length st = length vel) by (rewrite <- (Forall2_len _ _ _ _ _ Fst); exact Lc).
  destruct (offset_compute_spec F64ops _ f tr dg skip st [] g v (eq_trans Hl (eq_sym Ls)) E4) as [dts [Eg G]]. rewrite Ls in G.
  exists dts. split; [exact Eg|]. split; [apply G|].
  split; [rewrite (proj2 (proj2 G)), map_length; reflexivity|]. split; [apply (proj1 (proj2 G))|].
  intros k Hk qs. destruct (grouped_values F64ops _ _ _ _ _ _ _ _ k (S754_zero false) G Hk) as [_ [Nq [Ev Hq]]]. cbv zeta in *. fold qs in Nq, Ev, Hq.
  split; [exact Nq|].
  assert (LQ : (Z.of_nat (length qs) <= 2 ^ 48)%Z).
  { assert (B : (length qs <= length (admitted dg skip (length vel)))%nat) by (unfold qs, pairs_at; apply filter_le). lia. }
  assert (Q1 : (1 <= length qs)%nat) by (destruct qs; [congruence|cbn [length]; lia]).
  set (h := pair_val (A:=F64ops) f st []) in *. set (TS := true_stresses mass virial vel). set (SZ := stress_sizes mass virial vel).
  set (gg := fun p : nat * nat => dotv (nth (fst p) TS []) (nth (snd p) TS []) / 3). set (aa := fun p : nat * nat => dotv (nth (fst p) SZ []) (nth (snd p) SZ []) / 3).
  assert (Row : forall i, (i < length vel)%nat -> Forall2 (fun v q => ok v /\ Rabs (fval v) <= p2 341 /\ nearby (N + 3) (p2 (-934)) (fval v) (fst q) (snd q) /\ snd q <= p2 341)
     (nth i st []) (combine (nth i TS []) (nth i SZ [])) /\ length (nth i TS []) = 3%nat /\ length (nth i SZ []) = 3%nat).
  { intros i Hi. assert (Hi' : (i < length (combine virial vel))%nat) by (rewrite Lc; exact Hi). set (sv := nth i (combine virial vel) ([], [])).
    assert (ET : nth i TS [] = true_stress mass (fst sv) (snd sv)) by (unfold TS, true_stresses; exact (nth_map_lt _ _ _ _ _ _ ([], []) Hi')).
    assert (ES : nth i SZ [] = stress_size mass (fst sv) (snd sv)) by (unfold SZ, stress_sizes; exact (nth_map_lt _ _ _ _ _ _ ([], []) Hi')).
    rewrite ET, ES. split; [|split; reflexivity]. apply stress_frame_nearby; [|exact HN|exact (Forall2_nth_eq _ _ _ _ _ i ([], []) [] Fst Hi')].
    apply D. rewrite <- surjective_pairing. apply nth_In. exact Hi'. }
  assert (W0 : forall p, In p qs -> ok (h p) /\ Rabs (fval (h p)) <= p2 731 /\ nearby (2 * N + 11) (p2 (-589)) (fval (h p)) (gg p) (aa p)).
  { intros p Hp. destruct (admitted_range _ _ _ _ (proj1 (Hq p Hp))) as [I1 I2].
    destruct (Row (fst p)) as [F1 [L1 L2]]; [lia|]. destruct (Row (snd p)) as [F2 [L3 L4]]; [lia|].
    destruct (Hf (nth (fst p) st []) (nth (snd p) st [])) as [s [Hs Ef]]; [apply nth_In; rewrite Ls; lia|apply nth_In; rewrite Ls; lia|].
    unfold h, pair_val. rewrite Ef. exact (stress_pair_nearby N _ _ _ _ _ _ s HN F1 F2 L1 L2 L3 L4 Hs). }
  destruct (quotient_nearby 731 (2 * N + 11) (p2 (-589)) (map h qs) (nsum F64ops (map h qs)) (map (fun p => (gg p, aa p)) qs) (length qs)) as [Km [Bm W]]; rewrite ?map_length; try assumption; try lia.
  { left. apply p2_pos. }
  { apply nsum_sum_of. }
  { clear - W0. induction qs as [|p qs IH]; cbn [map]; constructor; [apply W0; left; reflexivity|]. apply IH. intros q Hq. apply W0. right. exact Hq. }
  cbv zeta in Km, Bm, W. rewrite map_length, !map_map in W. cbn [fst snd] in W. set (m := SFdiv fprec femax (nsum F64ops (map h qs)) (f64_ofZ (Z.of_nat (length qs)))) in *.
  assert (Em : nth k v (S754_zero false) = m) by (refine (eq_trans Ev _); unfold nmean, m, nofnat; rewrite map_length; reflexivity).
  assert (IQ : 1 <= INR (length qs)) by (apply (le_INR 1); exact Q1).
  assert (W1 : nearby (2 * N + length qs + 12) (p2 (-588)) (fval m) (rmean (map gg qs)) (rmean (map aa qs))).
  { unfold rmean. rewrite !map_length. apply nearby_weaken with (3 := W); [lia|]. replace (INR (length qs) * p2 (-589) / INR (length qs)) with (p2 (-589)) by (field; lra).
    assert (Q4 : tiny <= p2 (-589)) by (apply p2_le; lia). pose proof (p2_double (-589)) as Q5. change (-589 + 1)%Z with (-588)%Z in Q5. lra. }
  pose proof (p2_pos (-100)) as PV. assert (IV : 0 < / fval volume) by (apply Rinv_0_lt_compat; lra).
  assert (IV2 : / fval volume <= p2 100).
  { apply Rle_trans with (/ p2 (-100)); [apply Rinv_le_contravar; lra|]. right. apply Rmult_eq_reg_l with (p2 (-100)); [|lra]. rewrite Rinv_r by lra. rewrite <- p2_add. unfold p2. simpl. reflexivity. }
  assert (R1 : rounded (fval m / fval volume) (SFdiv fprec femax m volume)) by (apply div_spec; try apply Km; try apply KV; lra).
  assert (Bd : Rabs (fval m / fval volume) <= p2 880).
  { unfold Rdiv. rewrite Rabs_mult, (Rabs_right (/ fval volume)) by lra. change 880%Z with ((49 + 731) + 100)%Z. rewrite p2_add. apply Rmult_le_compat; [apply Rabs_pos|lra|exact Bm|exact IV2]. }
  destruct (rounded_bounded _ _ (p2 880) R1) as [Kd Bd']; [apply format_p2; lia|exact Bd|apply p2_lt; lia|].
  assert (W2 : nearby (2 * N + length qs + 13) (p2 (-487)) (fval (SFdiv fprec femax m volume)) (stress_average TS qs (fval volume)) (stress_average SZ qs (fval volume))).
  { pose proof (nearby_round _ _ tiny _ _ _ _ (Rlt_le _ _ tiny_pos) (nearby_scale _ _ _ _ _ _ (Rlt_le _ _ IV) W1) (rounded_error _ _ R1 Kd)) as M.
    apply nearby_weaken with (3 := M); [lia|]. assert (Q2 : p2 (-588) * / fval volume <= p2 (-588) * p2 100) by (apply Rmult_le_compat_l; [left; apply p2_pos|exact IV2]).
    rewrite <- p2_add in Q2. change (-588 + 100)%Z with (-488)%Z in Q2. assert (Q4 : tiny <= p2 (-488)) by (apply p2_le; lia). pose proof (p2_double (-488)) as Q5. change (-488 + 1)%Z with (-487)%Z in Q5. lra. }
  apply nearby_error in W2.
  - refine (Rle_trans _ _ _ (Req_le _ _ (f_equal (fun z : f64 => Rabs (fval (SFdiv fprec femax z volume) - stress_average TS qs (fval volume))) Em)) _). apply Rle_trans with (1 := W2).
    right. rewrite !plus_INR, mult_INR. replace (INR 13) with 13 by (cbn [INR]; lra). replace (INR 2) with 2 by (cbn [INR]; lra).
    unfold u. pose proof (p2_double (-487)) as D1. pose proof (p2_double (-53)) as D2. change (-487 + 1)%Z with (-486)%Z in D1. change (-53 + 1)%Z with (-52)%Z in D2. rewrite <- D1, <- D2. ring.
  - unfold u. assert (B : INR (2 * N + length qs + 13) <= p2 50) by (rewrite p2_Z by lia; rewrite INR_IZR_INZ; apply IZR_le; lia).
    apply Rle_trans with (p2 50 * p2 (-53)); [apply Rmult_le_compat_r; [left; apply p2_pos|assumption]|]. rewrite <- p2_add. unfold p2. simpl. lra.
Qed.
Print Assumptions C128_any_order.

Lemma get_Ok_nth : forall (X : Type) (l : list X) i x d, get l i = Ok x -> x = nth i l d.
Proof. intros X l i x d H. apply get_inv in H. destruct H as [_ H]. symmetry. apply nth_error_nth. exact H. Qed.

(** The sums of the model are among them. *)
Lemma stress_frame_by : forall N mass (s x : frame F64ops) st, stress_data N mass s x -> stress_frame F64ops mass s x = Ok st -> stress_by mass s x st.
Proof.
  intros N mass s x st [Lm [Lv [Ls [Ls3 [Lv3 _]]]]] E. unfold stress_frame in E.
  assert (K : forall jk c, (fst jk < 3)%nat -> (snd jk < 3)%nat -> (sjk <- entry F64ops s (fst jk) (snd jk) ;;
    kin <- mapM (fun mv => vj <- get (snd mv) (fst jk) ;; vk <- get (snd mv) (snd jk) ;; Ok (nmul F64ops (nmul F64ops (fst mv) vj) vk)) (combine mass x) ;;
    Ok (nadd F64ops sjk (nsum F64ops kin))) = Ok c -> component_by mass s x jk c).
  { intros [j k] c Hj Hk H. cbn [fst snd] in *. apply bind_Ok_inv in H. destruct H as [sjk [E1 H]]. apply bind_Ok_inv in H. destruct H as [kin [E2 H]]. apply Ok_inj in H. subst c.
    unfold entry in E1. apply bind_Ok_inv in E1. destruct E1 as [r [E1 E1']]. pose proof (get_Ok_nth _ _ _ _ [] E1) as Er. pose proof (get_Ok_nth _ _ _ _ (S754_zero false) E1') as Es.
    exists (nsum F64ops kin). split; [|subst; reflexivity].
    rewrite (mapM_pure _ _ _ (fun mv => SFmul fprec femax (SFmul fprec femax (fst mv) (nth j (snd mv) (S754_zero false))) (nth k (snd mv) (S754_zero false)))) in E2.
    - apply Ok_inj in E2. rewrite <- E2. apply nsum_sum_of.
    - intros [m r'] Hin. cbn [fst snd]. pose proof (in_combine_r _ _ _ _ Hin) as I2. pose proof (Lv3 r' I2) as L3.
      assert (Gj : get r' j = Ok (nth j r' (S754_zero false))) by (apply get_Ok; exact (eq_ind_r (fun q => (j < q)%nat) Hj L3)).
      assert (Gk : get r' k = Ok (nth k r' (S754_zero false))) by (apply get_Ok; exact (eq_ind_r (fun q => (k < q)%nat) Hk L3)).
      refine (eq_trans (f_equal (fun z => bind z _) Gj) _). cbn [bind]. refine (eq_trans (f_equal (fun z => bind z _) Gk) _). reflexivity. }
  cbn [mapM] in E. apply bind_Ok_inv in E. destruct E as [c1 [E1 E]]. apply bind_Ok_inv in E. destruct E as [l1 [E E']]. apply Ok_inj in E'. subst st.
  apply bind_Ok_inv in E. destruct E as [c2 [E2 E]]. apply bind_Ok_inv in E. destruct E as [l2 [E E']]. apply Ok_inj in E'. subst l1.
  apply bind_Ok_inv in E. destruct E as [c3 [E3 E]]. apply bind_Ok_inv in E. destruct E as [l3 [E E']]. apply Ok_inj in E'. subst l2. apply Ok_inj in E. subst l3.
  constructor; [apply K; cbn; try lia; exact E1|]. constructor; [apply K; cbn; try lia; exact E2|]. constructor; [apply K; cbn; try lia; exact E3|]. constructor.
Qed.

(** The class itself, with the time grid it is given. *)
Theorem C128_sacf_accuracy :
  forall (tr : traj F64ops) tgrid n (volume : f64) mass (virial vel : list (frame F64ops)) N g v,
  length (t_steps tr) = length vel -> length virial = length vel ->
  (forall s x, In (s, x) (combine virial vel) -> stress_data N mass s x) -> feasible N 3 tr -> (Z.of_nat N <= 2 ^ 40)%Z ->
  ok volume -> p2 (-100) <= fval volume <= p2 100 ->
  sacf_compute F64ops tr tgrid n volume mass virial vel = Ok (g, v) ->
  exists dg dts,
    setup_t_grid F64ops (t_steps tr) (t_bs tr) (t_dt tr) tgrid (not_str_1 F64ops n) = Ok dg /\
    g = map (fun ti => nmul F64ops (nofZ F64ops ti) (t_dt tr)) dts /\ StronglySorted Z.lt dts /\ length v = length dts /\
    (forall dt, In dt dts <-> exists p, In p (admitted dg (t_bs tr) (length vel)) /\ pair_dt (t_steps tr) p = dt) /\
    forall k, (k < length v)%nat ->
      let qs := pairs_at (t_steps tr) (nth k dts 0%Z) (admitted dg (t_bs tr) (length vel)) in
      qs <> [] /\
      Rabs (fval (nth k v (S754_zero false)) - stress_average (true_stresses mass virial vel) qs (fval volume))
        <= (2 * INR N + INR (length qs) + 13) * p2 (-52) * stress_average (stress_sizes mass virial vel) qs (fval volume) + p2 (-486).
Proof.
  intros tr tgrid n volume mass virial vel N g v Hl Hlv D Hf HN KV BV E. unfold sacf_compute in E.
  apply bind_Ok_inv in E. destruct E as [sk [_ E]]. apply bind_Ok_inv in E. destruct E as [dg [E3 E]].
  apply bind_Ok_inv in E. destruct E as [st [Est E]]. apply bind_Ok_inv in E. destruct E as [[g0 v0] [Er E]].
  apply Ok_inj in E. injection E as <- <-. cbn [fst snd].
  assert (Fst : Forall2 (fun sv s => stress_by mass (fst sv) (snd sv) s) (combine virial vel) st).
  { assert (D' : forall sv, In sv (combine virial vel) -> stress_data N mass (fst sv) (snd sv)) by (intros [s x] H; apply D; exact H). change (mapM (fun sv : frame F64ops * frame F64ops => stress_frame F64ops mass (fst sv) (snd sv)) (combine virial vel) = Ok st) in Est. clear - D' Est. revert st Est. generalize dependent (@combine (frame F64ops) (frame F64ops) virial vel). intros l D'. induction l as [|sv l IH]; intros st E; cbn [mapM] in E.
    - injection E as <-. constructor.
    - apply bind_Ok_inv in E. destruct E as [c [E1 E]]. apply bind_Ok_inv in E. destruct E as [st' [E2 E]]. injection E as <-. constructor.
      + apply stress_frame_by with N; [apply D'; left; reflexivity|exact E1].
      + apply IH; [intros q Hq; apply D'; right; exact Hq|exact E2]. }
  assert (Lst : forall a, In a st -> length a = 3%nat).
  { intros a Ha. destruct (In_nth _ _ [] Ha) as [i [Hi Ei]]. assert (Hc : (i < length (combine virial vel))%nat) by (rewrite (Forall2_len _ _ _ _ _ Fst); exact Hi).
    pose proof (Forall2_nth_eq _ _ _ _ _ i ([], []) [] Fst Hc) as Q. rewrite <- Ei. symmetry. exact (Forall2_len _ _ _ _ _ Q). }
  destruct (C128_any_order tr (sacf_f F64ops) dg (t_bs tr) volume mass virial vel st N g0 v0) as [dts [A1 [A2 [A3 [A4 A5]]]]]; try assumption.
  - pose proof (admitted_le dg (t_bs tr) (length vel)) as B1. pose proof (grid_le F64ops _ _ _ _ _ _ E3) as B2.
    assert (B : (length (admitted dg (t_bs tr) (length vel)) <= Nat.max 1 (t_bs tr) * length (t_steps tr) * length vel)%nat) by (apply Nat.le_trans with (1 := B1); apply Nat.mul_le_mono_r; exact B2).
    rewrite <- Hl in B at 2. unfold feasible in Hf. lia.
  - intros a b Ha _. exists (nsum F64ops (map2 (SFmul fprec femax) a b)). split; [apply nsum_sum_of|]. unfold sacf_f, nofnat. rewrite (Lst a Ha). reflexivity.
  - exists dg, dts. split; [exact E3|]. split; [exact A1|]. split; [exact A2|]. split; [rewrite map_length; exact A3|]. split; [exact A4|].
    intros k Hk. rewrite map_length in Hk. destruct (A5 k Hk) as [C1 C2]. split; [exact C1|].
    refine (Rle_trans _ _ _ (Req_le _ _ (f_equal (fun z : f64 => Rabs (fval z - _)) (nth_map_lt _ _ _ _ _ _ (S754_zero false) Hk))) _). exact C2.
Qed.
Print Assumptions C128_sacf_accuracy.

(** The sizes are at least the absolute values of the stresses, with equality when the virials, masses and
    velocities are not negative, so that the error is then relative to the value itself. *)
Theorem C128_size : forall (mass : list f64) (s vel : frame F64ops) k, (k < 3)%nat -> length s = 3%nat ->
  Rabs (nth k (true_stress mass s vel) 0) <= nth k (stress_size mass s vel) 0 /\
  ((forall m, In m mass -> 0 <= fval m) -> (forall r c, In r vel -> In c r -> 0 <= fval c) -> (forall r c, In r s -> In c r -> 0 <= fval c) ->
   nth k (true_stress mass s vel) 0 = nth k (stress_size mass s vel) 0).
Proof.
  intros mass s vel k Hk Ls.
  assert (Na : forall i (l : list R), nth i (map Rabs l) 0 = Rabs (nth i l 0)) by (intros i l; rewrite <- Rabs_R0 at 1; apply map_nth).
  assert (Nn : forall i (l : list (list R)), nth i (map (map Rabs) l) [] = map Rabs (nth i l [])) by (intros i l; change (@nil R) with (map Rabs []) at 1; apply map_nth).
  assert (P : forall j q, Rabs (nth q (nth j (values s) []) 0 + rsum (map (fun mv => fst mv * nth j (snd mv) 0 * nth q (snd mv) 0) (combine (map fval mass) (values vel))))
     <= nth q (nth j (map (map Rabs) (values s)) []) 0 + rsum (map (fun mv => fst mv * nth j (snd mv) 0 * nth q (snd mv) 0) (combine (map Rabs (map fval mass)) (map (map Rabs) (values vel))))).
  { intros j q. apply Rle_trans with (1 := Rabs_triang _ _). rewrite Nn, Na. apply Rplus_le_compat_l. generalize (map fval mass) (values vel). clear - Na. induction l as [|m l IH]; intros [|r v]; cbn [combine map rsum fst snd]; rewrite ?Rabs_R0; try lra.
    apply Rle_trans with (1 := Rabs_triang _ _). rewrite !Na, !Rabs_mult. pose proof (IH v). lra. }
  assert (P0 : (forall m, In m mass -> 0 <= fval m) -> (forall r c, In r vel -> In c r -> 0 <= fval c) -> (forall r c, In r s -> In c r -> 0 <= fval c) ->
     map Rabs (map fval mass) = map fval mass /\ map (map Rabs) (values vel) = values vel /\ map (map Rabs) (values s) = values s).
  { intros H1 H2 H3. assert (V : forall l : list f64, (forall c, In c l -> 0 <= fval c) -> map Rabs (map fval l) = map fval l).
    { intros l H. rewrite map_map. apply map_ext_in. intros c Hc. apply Rabs_right. apply Rle_ge. apply H. exact Hc. }
    split; [apply V; exact H1|]. unfold values. split; rewrite map_map; apply map_ext_in; intros r Hr; apply V; intros c Hc; [apply (H2 r)|apply (H3 r)]; assumption. }
  split.
  - destruct k as [|[|[|]]]; [apply P|apply P|apply P|lia].
  - intros H1 H2 H3. destruct (P0 H1 H2 H3) as [Q1 [Q2 Q3]]. unfold true_stress, stress_size. rewrite Q1, Q2, Q3. reflexivity.
Qed.
Print Assumptions C128_size.

Definition stress_tr : traj F64ops := mkTraj (A:=F64ops) [0; 1]%Z 1 (f64_ofZ 1) (f64_ofZ 1) 1.
Definition stress_virial : list (frame F64ops) := map (map (map (fun z => f64_frac z 10))) [[[0; 1; 0]; [1; 0; 0]; [0; 0; 0]]; [[0; 2; 0]; [2; 0; 0]; [0; 0; 0]]]%Z.
Definition stress_vel : list (frame F64ops) := map (map (map (fun z => f64_frac z 10))) [[[1; 2; 0]]; [[1; 1; -3]]]%Z.
Example C128_nonvacuous :
  length (t_steps stress_tr) = length stress_vel /\ length stress_virial = length stress_vel /\
  (forall s x, In (s, x) (combine stress_virial stress_vel) -> stress_data 1 [f64_ofZ 1] s x) /\ feasible 1 3 stress_tr /\
  ok (f64_ofZ 2) /\ p2 (-100) <= fval (f64_ofZ 2) <= p2 100 /\
  exists g v, sacf_compute F64ops stress_tr (map f64_ofZ [0; 1]%Z) (NoInt (-1)) (f64_ofZ 2) [f64_ofZ 1] stress_virial stress_vel = Ok (g, v) /\ length v = 2%nat.
Proof.
  split; [reflexivity|]. split; [reflexivity|].
  destruct (ofZ_exact 1) as [K1 E1]; [lia|]. destruct (ofZ_exact 2) as [K2 E2]; [lia|]. destruct (ofZ_exact 10) as [K10 E10]; [lia|].
  assert (P1 : forall e, (0 <= e)%Z -> 1 <= p2 e) by (intros e He; apply Rle_trans with (p2 0); [unfold p2; simpl; lra|apply p2_le; lia]).
  assert (T : forall z, (-10 <= z <= 10)%Z -> ok (f64_frac z 10) /\ Rabs (fval (f64_frac z 10)) <= 1).
  { intros z Hz. destruct (ofZ_exact z) as [Kz Ez]; [lia|]. assert (R1 : rounded (fval (f64_ofZ z) / fval (f64_ofZ 10)) (f64_frac z 10)) by (apply div_spec; try apply Kz; try apply K10; rewrite E10; lra).
    rewrite Ez, E10 in R1. apply (rounded_bounded _ _ 1 R1); [apply (format_Z 1); lia| |apply Rlt_le_trans with (p2 1); [unfold p2; simpl; lra|apply p2_le; lia]].
    assert (-10 <= IZR z <= 10) by (split; apply IZR_le; lia). apply Rabs_le. lra. }
  assert (M : forall (l : list (list (list Z))), (forall x r c, In x l -> In r x -> In c r -> (-10 <= c <= 10)%Z) -> forall x r c, In x (map (map (map (fun z => f64_frac z 10))) l) -> In r x -> In c r -> ok c /\ Rabs (fval c) <= 1).
  { intros l Hl x r c Hx Hr Hc. apply in_map_iff in Hx. destruct Hx as [x0 [<- Hx]]. apply in_map_iff in Hr. destruct Hr as [r0 [<- Hr]]. apply in_map_iff in Hc. destruct Hc as [c0 [<- Hc]]. apply T. apply (Hl x0 r0); assumption. }
  assert (Mv : forall x r c, In x stress_vel -> In r x -> In c r -> ok c /\ Rabs (fval c) <= 1).
  { apply M. intros x r c Hx Hr Hc. destruct Hx as [<-|[<-|[]]]; destruct Hr as [<-|[]]; destruct Hc as [<-|[<-|[<-|[]]]]; lia. }
  assert (Ms : forall x r c, In x stress_virial -> In r x -> In c r -> ok c /\ Rabs (fval c) <= 1).
  { apply M. intros x r c Hx Hr Hc. destruct Hx as [<-|[<-|[]]]; destruct Hr as [<-|[<-|[<-|[]]]]; destruct Hc as [<-|[<-|[<-|[]]]]; lia. }
  split.
  { intros s x H. assert (Is : In s stress_virial) by (exact (in_combine_l _ _ _ _ H)). assert (Ix : In x stress_vel) by (exact (in_combine_r _ _ _ _ H)).
    assert (Sx : forall y, In y stress_vel -> length y = 1%nat /\ forall r, In r y -> length r = 3%nat) by (intros y [<-|[<-|[]]]; (split; [reflexivity|intros r [<-|[]]; reflexivity])).
    assert (Ss : forall y, In y stress_virial -> length y = 3%nat /\ forall r, In r y -> length r = 3%nat) by (intros y [<-|[<-|[]]]; (split; [reflexivity|intros r [<-|[<-|[<-|[]]]]; reflexivity])).
    unfold stress_data. split; [reflexivity|]. split; [apply Sx; exact Ix|]. split; [apply Ss; exact Is|]. split; [apply Ss; exact Is|]. split; [apply Sx; exact Ix|].
    split; [intros m [<-|[]]; split; [exact K1|rewrite E1, Rabs_R1; apply P1; lia]|]. pose proof (P1 100%Z ltac:(lia)). pose proof (P1 300%Z ltac:(lia)).
    split; [intros r c Hr Hc; destruct (Mv x r c Ix Hr Hc); split; [assumption|lra]|intros r c Hr Hc; destruct (Ms s r c Is Hr Hc); split; [assumption|lra]]. }
  split; [unfold feasible; cbn; lia|]. split; [exact K2|]. split; [rewrite E2; split; [apply Rle_trans with (p2 0); [apply p2_le; lia|unfold p2; simpl; lra]|apply Rle_trans with (p2 1); [unfold p2; simpl; lra|apply p2_le; lia]]|].
  eexists. eexists. split; [vm_compute; reflexivity|reflexivity].
Qed.
