(** The self part of the intermediate scattering function in double precision: C121. *)
From Coq Require Import List ZArith Bool Arith Reals Lia Lra Psatz Floats.SpecFloat Sorting.Permutation.
From Verif Require Import PyBase PyBaseFacts Num NumFacts Spec_Stats P_Text F64Round F64Ops F64Facts P_F64Mean P_F64Time P_F64Order P_F64Dot P_F64Alpha M_Helpers M_KGrid M_Fourier M_Fkt Spec_Doubles Spec_BondAngle Spec_KGrid Spec_Fourier Spec_Correlation Spec_Fkt
  P_Overlap P_Expo P_Tcf P_Fkt P_Fkt2 M_Expo64 M_Fkt64 Spec_Expo64 P_Expo64 P_Density64 P_Tcf64 P_Fkt64 T_Expo64.
Import ListNotations.
Local Open Scope R_scope.

(** ** Auxiliary facts *)
Lemma expo_frames_in_ok : forall D k0 nk pos, (1 <= nk)%Z -> pos <> [] -> (forall f x, In f pos -> In x f -> length x = length k0) ->
  exists x, expo_frames_in D k0 nk pos = Ok x /\ Forall2 (Forall2 (row_in D k0 nk)) pos x.
Proof.
  intros D k0 nk pos Hn Hp L. unfold expo_frames_in. destruct pos as [|f r] eqn:E; [congruence|]. rewrite <- E in *.
  apply mapM_Forall2. intros g Hg. apply mapM_Forall2. intros y Hy. apply expo_particle_in_ok; [exact Hn|]. rewrite (L g y Hg Hy). lia.
Qed.

Section Kernels.
Variables (mul : f64 * f64 -> f64 * f64 -> f64 * f64) (sum : list (f64 * f64) -> f64 * f64) (ex : f64 -> f64 * f64).
Let D := Fops mul sum ex.

(** The two implementations: numpy and Fortran. *)
Inductive self_kernel : (nat -> list (list (list (list (f64 * f64)))) -> list Z -> nat -> nat -> res f64) -> Prop :=
| kernel_numpy : forall prod, product_in_some_order mul prod -> self_kernel (self_sum_in D F64ops (@fst f64 f64) prod)
| kernel_fortran : self_kernel (self_sum_fast_in D F64ops (@fst f64 f64)).

Lemma shift_back : forall nk t, map (fun z => (z + nk)%Z) (unshift nk t) = t.
Proof. intros nk t. unfold unshift. rewrite map_map. rewrite <- (map_id t) at 2. apply map_ext. intros; lia. Qed.

Lemma self_kernel_near : forall kern eps k0 nk part x t a b W nb, self_kernel kern -> faithful_product mul -> sum_in_some_order sum -> k0 <> [] ->
  Forall2 (Forall2 (row_in D k0 nk)) part x -> (forall f, In f part -> length f = nb) -> (Z.of_nat nb <= 2 ^ 49)%Z -> (a < length part)%nat -> (b < length part)%nat ->
  length t = length k0 -> Forall (fun z => (0 <= z <= 2 * nk)%Z) t -> W <= / 8 ->
  (forall f y, In f part -> In y f -> length y = length k0 /\ fine_phases ex eps k0 y /\ wave_error eps (map fval k0) (unshift nk t) (map fval y) <= W) ->
  exists v, kern (length k0) x t a b = Ok v /\ ok v /\
    Rabs (fval v - cos_sum (wave (map fval k0) (unshift nk t)) (map (map fval) (nth a part [])) (map (map fval) (nth b part []))) <= INR nb * (4 * W + 4 * INR nb * u) /\
    Rabs (fval v) <= 2 * INR nb.
Proof.
  intros kern eps k0 nk part x t a b W nb HK M Hs Hk F Lf Hnb Ha Hb Lt Ft W8 Hx.
  assert (G : forall prod c d, product_in_some_order mul prod -> (c < length part)%nat -> (d < length part)%nat ->
    exists v, self_sum_in D F64ops (@fst f64 f64) prod (length k0) x t c d = Ok v /\ ok v /\
    Rabs (fval v - cos_sum (wave (map fval k0) (unshift nk t)) (map (map fval) (nth c part [])) (map (map fval) (nth d part []))) <= INR nb * (4 * W + 4 * INR nb * u) /\
    Rabs (fval v) <= 2 * INR nb).
  { clear HK Ha Hb kern. intros prod c d Hp Hc Hd.
    destruct (Forall2_nth_error _ _ _ _ _ c [] F Hc) as [xc [Ec Fc]]. destruct (Forall2_nth_error _ _ _ _ _ d [] F Hd) as [xd [Ed Fd]].
    assert (Lc : length (nth c part []) = nb) by (apply Lf, nth_In; exact Hc). assert (Ld : length (nth d part []) = nb) by (apply Lf, nth_In; exact Hd).
    assert (Lcd : length (nth c part []) = length (nth d part [])) by (rewrite Lc, Ld; reflexivity).
    assert (Hnc : (Z.of_nat (length (nth c part [])) <= 2 ^ 49)%Z) by (rewrite Lc; exact Hnb).
    assert (Lu : length (unshift nk t) = length k0) by (unfold unshift; rewrite map_length; exact Lt).
    assert (Fu : Forall (fun z => (- nk <= z <= nk)%Z) (unshift nk t)).
    { unfold unshift. apply Forall_forall. intros z Hz. apply in_map_iff in Hz. destruct Hz as [w [<- Hw]]. rewrite Forall_forall in Ft. specialize (Ft w Hw). lia. }
    destruct (self_sum_near mul sum ex prod eps k0 nk _ _ xc xd (unshift nk t) W M Hp Hs Hk Fc Fd Lcd Hnc Lu Fu W8) as [l [El [Kl [Bl Sl]]]].
    { intros y [Hy|Hy]; [apply (Hx (nth c part []) y)|apply (Hx (nth d part []) y)]; try exact Hy; apply nth_In; assumption. }
    rewrite shift_back in El. exists (fst (sum l)). split; [unfold self_sum_in, get; rewrite Ec, Ed; cbn [bind]; exact (eq_trans (f_equal (fun z => l <- z ;; Ok (fst (cxsum D l))) El) eq_refl)|]. split; [exact Kl|].
    rewrite <- Lc. split; [exact Bl|exact Sl]. }
  destruct HK as [prod Hp|]; [apply G; assumption|]. destruct (G (flat_product D) b a) as [v [Ev [Kv [Bv Sv]]]]; [|assumption|assumption|].
  { intros l Hl _. apply flat_product_order. exact Hl. }
  exists v. split; [exact Ev|]. split; [exact Kv|]. split; [|exact Sv]. rewrite cos_sum_swap. exact Bv.
Qed.
End Kernels.

(** Number of particles in block [j], and the sums over visits. *)
Lemma visits_sum : forall J Key steps ps (js : list J) kl d (f : J -> Key -> nat -> nat -> R),
  rsum (map (fun v => f (fst (fst v)) (snd (fst v)) (fst (snd v)) (snd (snd v))) (visits J Key steps ps js kl d)) =
  rsum (map (fun k => rsum (map (fun p => rsum (map (fun j => f j k (fst p) (snd p)) js)) (pairs_at steps d ps))) kl).
Proof.
  intros J Key steps ps js kl d f. unfold visits. rewrite rsum_flat_map. etransitivity.
  { apply rsum_ext. intros j _. rewrite rsum_flat_map. apply rsum_ext. intros k _. rewrite map_map. cbn [fst snd]. reflexivity. }
  rewrite rsum_swap. apply rsum_ext. intros k _. apply rsum_swap.
Qed.
Lemma visits_length : forall J Key steps ps (js : list J) (kl : list Key) d, length (visits J Key steps ps js kl d) = (length js * (length kl * length (pairs_at steps d ps)))%nat.
Proof.
  intros. unfold visits. apply flat_map_length_const. intros j _. apply flat_map_length_const. intros k _. apply map_length.
Qed.
Lemma visits_In : forall J Key steps ps (js : list J) (kl : list Key) d v, In v (visits J Key steps ps js kl d) ->
  In (fst (fst v)) js /\ In (snd (fst v)) kl /\ In (snd v) ps.
Proof.
  intros J Key steps ps js kl d v H. unfold visits in H. apply in_flat_map in H. destruct H as [j [Hj H]]. apply in_flat_map in H. destruct H as [k [Hk H]]. apply in_map_iff in H. destruct H as [p [<- Hp]].
  cbn [fst snd]. split; [exact Hj|]. split; [exact Hk|]. apply filter_In in Hp. apply Hp.
Qed.

Lemma block_size : forall X (f : list X) b j N, (1 <= b)%nat -> length f = N -> In j (map (fun k => 0 + k * b)%nat (seq 0 ((N - 0 + (b - 1)) / b))) ->
  (1 <= length (firstn b (skipn j f)) <= b)%nat /\ length (firstn b (skipn j f)) = Nat.min b (N - j).
Proof.
  intros X f b j N Hb L Hj. apply in_map_iff in Hj. destruct Hj as [k [<- Hk]]. apply in_seq in Hk. rewrite firstn_length, skipn_length, L. cbn [Nat.add].
  pose proof (Nat.div_mod (N - 0 + (b - 1)) b ltac:(lia)) as Q. set (q := ((N - 0 + (b - 1)) / b)%nat) in *.
  assert (k * b + b <= q * b)%nat by nia. assert (k * b < N)%nat by lia. split; [lia|reflexivity].
Qed.

(** ** C121 *)
(** F_s(k,t) in double precision.  [W] bounds the rounding errors of all the plane waves, each value
    comes out as the exact average over vectors, origins and particles up to 4 W plus a rounding
    error proportional to the number of terms added. *)
Theorem C121_self_accuracy : forall mul sum ex kern eps W block k0 nk shells steps dgrid skip (pos : list (list (list f64))) N,
  let D := Fops mul sum ex in let ps := admitted dgrid skip (length pos) in
  faithful_product mul -> sum_in_some_order sum -> self_kernel mul sum ex kern ->
  (1 <= nk)%Z -> k0 <> [] -> shells <> [] -> (forall kl, In kl shells -> kl <> []) ->
  (forall kl t, In kl shells -> In t kl -> length t = length k0 /\ Forall (fun z => (0 <= z <= 2 * nk)%Z) t) ->
  (1 <= skip)%nat -> length steps = length pos -> pos <> [] -> (1 <= N)%nat -> (Z.of_nat N <= 2 ^ 49)%Z -> (forall f, In f pos -> length f = N) -> (1 <= block N)%nat ->
  (forall kl, In kl shells -> (Z.of_nat (N * (length kl * length ps)) <= 2 ^ 49)%Z) -> W <= / 8 ->
  (forall f x, In f pos -> In x f -> length x = length k0 /\ fine_phases ex eps k0 x /\
     forall kl t, In kl shells -> In t kl -> wave_error eps (map fval k0) (unshift nk t) (map fval x) <= W) ->
  exists dts vals, reported steps ps dts /\
    self_values_in D F64ops kern block k0 nk shells (length shells) steps dgrid skip pos = Ok (dts, vals) /\ length vals = length shells /\
    forall s i, (s < length shells)%nat -> (i < length dts)%nat ->
      let v := nth i (nth s vals []) S754_nan in let d := nth i dts 0%Z in let kl := nth s shells [] in let r := map (map (map fval)) pos in
      let blocks := ((N + (block N - 1)) / block N)%nat in
      ok v /\ Rabs (fval v - pair_mean (fun k a b => fs_pair k (nth a r []) (nth b r [])) steps ps (map (fun t => wave (map fval k0) (unshift nk t)) kl) d)
        <= 4 * W + INR (4 * (block N + blocks * (length kl * length (pairs_at steps d ps))) + 3) * p2 (-53).
Proof.
  intros mul sum ex kern eps W block k0 nk shells steps dgrid skip pos N D ps M Hs HK Hn Hk Hsh Hkl Ht Hskip Ls Hp HN HNZ Hf Hb Hsize W8 Hx.
  set (js := map (fun k => 0 + k * block N)%nat (seq 0 ((N - 0 + (block N - 1)) / block N))).
  set (blk := fun j (f : list (list f64)) => firstn (block N) (skipn j f)).
  set (vv := fun j t a b => match (x <- expo_frames_in D k0 nk (map (blk j) pos) ;; kern (length k0) x t a b) with Ok v => v | Err _ => S754_nan end).
  assert (L0 : length (nth 0 pos []) = N) by (apply Hf; apply nth_In; destruct pos; [congruence|cbn; lia]).
  set (nb := fun j => length (blk j (nth 0 pos []))).
  assert (Hnb : forall j, In j js -> (1 <= nb j <= block N)%nat /\ nb j = Nat.min (block N) (N - j)) by (intros j Hj; apply block_size with (N := N); assumption).
  set (vs := fun t : list Z => wave (map fval k0) (unshift nk t)).
  set (r := map (map (map fval)) pos).
  assert (Near : forall j, In j js -> exists x, expo_frames_in D k0 nk (map (blk j) pos) = Ok x /\
     forall kl t a b, In kl shells -> In t kl -> (a < length pos)%nat -> (b < length pos)%nat ->
       kern (length k0) x t a b = Ok (vv j t a b) /\ ok (vv j t a b) /\
       Rabs (fval (vv j t a b) - cos_sum (vs t) (map (map fval) (blk j (nth a pos []))) (map (map fval) (blk j (nth b pos [])))) <= INR (nb j) * (4 * W + 4 * INR (nb j) * u) /\
       Rabs (fval (vv j t a b)) <= 2 * INR (nb j)).
  { intros j Hj.
    assert (In_blk : forall f y, In y (blk j f) -> In y f).
    { intros f y Hy. unfold blk in Hy. rewrite <- (firstn_skipn j f). apply in_or_app. right. rewrite <- (firstn_skipn (block N) (skipn j f)). apply in_or_app. left. exact Hy. }
    destruct (expo_frames_in_ok D k0 nk (map (blk j) pos) Hn) as [x [Ex Fx]].
    { destruct pos; [congruence|discriminate]. }
    { intros f y Hfi Hy. apply in_map_iff in Hfi. destruct Hfi as [g [<- Hg]]. apply (Hx g y Hg). apply In_blk. exact Hy. }
    exists x. split; [exact Ex|]. intros kl t a b Hkl' Htk Ha Hb'. destruct (Ht kl t Hkl' Htk) as [Lt Ft].
    assert (Lm : forall c, (c < length pos)%nat -> (c < length (map (blk j) pos))%nat) by (intros; rewrite map_length; assumption).
    destruct (self_kernel_near mul sum ex kern eps k0 nk (map (blk j) pos) x t a b W (nb j) HK M Hs Hk Fx) as [v [Ev [Kv [Bv Sv]]]]; try assumption.
    { intros f Hfi. apply in_map_iff in Hfi. destruct Hfi as [g [<- Hg]]. destruct (block_size _ g (block N) j N Hb (Hf g Hg) Hj) as [_ E1]. destruct (Hnb j Hj) as [_ E2]. rewrite E2. exact E1. }
    { destruct (Hnb j Hj) as [_ E2]. rewrite E2. lia. } { apply Lm; exact Ha. } { apply Lm; exact Hb'. }
    { intros f y Hfi Hy. apply in_map_iff in Hfi. destruct Hfi as [g [<- Hg]]. destruct (Hx g y Hg (In_blk g y Hy)) as [Q1 [Q2 Q3]]. split; [exact Q1|]. split; [exact Q2|]. apply (Q3 kl t); assumption. }
    assert (Evv : vv j t a b = v) by (unfold vv; rewrite Ex; cbn [bind]; exact (f_equal (fun z => match z with Ok v => v | Err _ => S754_nan end) Ev)). rewrite Evv. split; [exact Ev|]. split; [exact Kv|]. split; [|exact Sv].
    assert (Nm : forall c, nth c (map (blk j) pos) [] = blk j (nth c pos [])).
    { intros c. assert (E0 : blk j [] = []) by (unfold blk; rewrite skipn_nil, firstn_nil; reflexivity). rewrite <- E0 at 1. apply map_nth. }
    rewrite !Nm in Bv. exact Bv. }
  assert (Run : self_loop_in D F64ops kern block k0 nk shells (length shells) steps dgrid skip pos =
    Ok (map (fun kl => ev_in F64ops (all_events_in F64ops nat (list Z) vv (fun j => nofZ F64ops (Z.of_nat (nb j))) steps ps js kl) (tcf_in0 F64ops)) shells)).
  { apply (self_loop_in_ok D F64ops kern block k0 nk shells steps dgrid skip pos N vv); try assumption. intros j Hj. destruct (Near j Hj) as [x [Ex Vx]]. exists x. split; [exact Ex|].
    intros kl t a b H1 H2 H3 H4. destruct (Vx kl t a b H1 H2 H3 H4) as [Q _]. exact Q. }
  assert (Ljs : length js = ((N + (block N - 1)) / block N)%nat) by (unfold js; rewrite map_length, seq_length, Nat.sub_0_r; reflexivity).
  assert (Hjs : js <> []).
  { intros E. apply (f_equal (@length nat)) in E. rewrite Ljs in E. cbn in E. apply Nat.div_small_iff in E; lia. }
  (* the exact sum of the visits of one shell and one time *)
  assert (Tot : forall kl d, list_sum (map (fun v : nat * list Z * (nat * nat) => nb (fst (fst v))) (visits nat (list Z) steps ps js kl d)) = (N * (length kl * length (pairs_at steps d ps)))%nat).
  { intros kl d. apply INR_eq. rewrite <- rsum_INR. rewrite (visits_sum nat (list Z) steps ps js kl d (fun j _ _ _ => INR (nb j))).
    rewrite (rsum_ext _ _ (fun _ => INR (length (pairs_at steps d ps)) * INR N)).
    - rewrite rsum_const, !mult_INR. ring.
    - intros k _. rewrite rsum_const. f_equal. unfold nb, blk.
      rewrite (rsum_ext _ _ (fun j => rsum (map (fun _ : list f64 => 1) (firstn (block N) (skipn j (nth 0 pos [])))))) by (intros j _; rewrite rsum_const; ring).
      unfold js. rewrite rsum_blocks by assumption. rewrite rsum_const, L0. ring. }
  assert (Val : forall kl d, In kl shells -> (exists p, In p ps /\ pair_dt steps p = d) ->
    let s := nsum F64ops (acf_terms F64ops nat (list Z) vv steps ps js kl d) in let c := nsum F64ops (cnt_terms F64ops nat (list Z) (fun j => nofZ F64ops (Z.of_nat (nb j))) steps ps js kl d) in
    ok c /\ 0 < fval c /\ ok (SFdiv fprec femax s c) /\
    Rabs (fval (SFdiv fprec femax s c) - pair_mean (fun k a b => fs_pair k (nth a r []) (nth b r [])) steps ps (map vs kl) d)
      <= 4 * W + INR (4 * (block N + length js * (length kl * length (pairs_at steps d ps))) + 3) * u).
  { intros kl d Hkl' [p [Hpp Hd]]. pose proof u_small as U.
    assert (Hq : (1 <= length (pairs_at steps d ps))%nat).
    { assert (H : In p (pairs_at steps d ps)) by (apply filter_In; split; [assumption|apply Z.eqb_eq; assumption]). destruct (pairs_at steps d ps); [destruct H|cbn; lia]. }
    assert (Hk1 : (1 <= length kl)%nat) by (specialize (Hkl kl Hkl'); destruct kl; [congruence|cbn; lia]).
    assert (Hq2 : (length (pairs_at steps d ps) <= length ps)%nat) by (unfold pairs_at; apply P_Overlap.filter_length_le).
    specialize (Hsize kl Hkl').
    assert (Sz : (N * (length kl * length (pairs_at steps d ps)) <= N * (length kl * length ps))%nat) by (repeat apply Nat.mul_le_mono_l; exact Hq2).
    assert (Ljs' : (length js <= N)%nat) by (rewrite Ljs; apply Nat.div_le_upper_bound; nia).
    assert (Lv : (length (visits nat (list Z) steps ps js kl d) <= N * (length kl * length (pairs_at steps d ps)))%nat) by (rewrite visits_length; apply Nat.mul_le_mono_r; exact Ljs').
    destruct (ratio_near _ (visits nat (list Z) steps ps js kl d) (fun v => vv (fst (fst v)) (snd (fst v)) (fst (snd v)) (snd (snd v))) (fun v => nb (fst (fst v)))
       (fun v => cos_sum (vs (snd (fst v))) (map (map fval) (blk (fst (fst v)) (nth (fst (snd v)) pos []))) (map (map fval) (blk (fst (fst v)) (nth (snd (snd v)) pos [])))) (4 * W + 4 * INR (block N) * u)) as [Kc [Ec [Tc [Kd Bd]]]].
    - intros E. apply (f_equal (@length _)) in E. rewrite visits_length in E. cbn in E. destruct js; [congruence|]. cbn [length] in E. nia.
    - lia.
    - intros v Hv. apply visits_In in Hv. destruct Hv as [H1 [H2 H3]]. apply admitted_lt in H3. destruct H3 as [H3 H4]. destruct (Near _ H1) as [x [_ Vx]]. destruct (Vx kl _ _ _ Hkl' H2 H3 H4) as [_ [Q1 [Q2 Q3]]]. destruct (Hnb _ H1) as [[Q4 Q5] _].
      split; [exact Q1|]. split; [|split; [exact Q3|exact Q4]]. apply Rle_trans with (1 := Q2). apply Rmult_le_compat_l; [apply pos_INR|]. apply le_INR in Q5. assert (INR (nb (fst (fst v))) * u <= INR (block N) * u) by (apply Rmult_le_compat_r; lra). lra.
    - rewrite Tot. lia.
    - cbv zeta in Kc, Ec, Tc, Kd, Bd. rewrite Tot, visits_length in *. split; [exact Kc|]. split; [apply Rlt_le_trans with (1 := Tc); right; symmetry; exact Ec|]. split; [exact Kd|].
      assert (Ex : rsum (map (fun v => cos_sum (vs (snd (fst v))) (map (map fval) (blk (fst (fst v)) (nth (fst (snd v)) pos []))) (map (map fval) (blk (fst (fst v)) (nth (snd (snd v)) pos [])))) (visits nat (list Z) steps ps js kl d)) / INR (N * (length kl * length (pairs_at steps d ps))) =
        pair_mean (fun k a b => fs_pair k (nth a r []) (nth b r [])) steps ps (map vs kl) d).
      { rewrite (visits_sum nat (list Z) steps ps js kl d (fun j t a b => cos_sum (vs t) (map (map fval) (blk j (nth a pos []))) (map (map fval) (blk j (nth b pos []))))).
        rewrite <- (pair_mean_map _ vs (fun k a b => fs_pair (vs k) (nth a r []) (nth b r []))) by reflexivity.
        unfold rmean. rewrite (flat_map_length_const _ _ _ (length (pairs_at steps d ps))) by (intros; apply map_length).
        rewrite <- (map_id (flat_map _ kl)), rsum_flat_map.
        rewrite (rsum_ext _ (fun k => rsum (map (fun p => rsum (map _ js)) (pairs_at steps d ps))) (fun k => INR N * rsum (map (fun x => x) (map (fun p => fs_pair (vs k) (nth (fst p) r []) (nth (snd p) r [])) (pairs_at steps d ps))))).
        - rewrite rsum_scal, !mult_INR. assert (INR N <> 0) by (apply not_0_INR; lia). assert (INR (length kl) <> 0) by (apply not_0_INR; lia). assert (INR (length (pairs_at steps d ps)) <> 0) by (apply not_0_INR; lia). field. auto.
        - intros k _. rewrite map_id, <- rsum_scal. apply rsum_ext. intros q Hq'. apply filter_In in Hq'. destruct Hq' as [Hq' _]. apply admitted_lt in Hq'. destruct Hq' as [Ha Hb'].
          assert (Nr : forall c, nth c r [] = map (map fval) (nth c pos [])) by (intros c; unfold r; change (@nil (list R)) with (map (map fval) []) at 1; apply map_nth).
          assert (La : length (nth (fst q) r []) = N) by (rewrite Nr, map_length; apply Hf, nth_In; exact Ha). assert (Lb : length (nth (snd q) r []) = N) by (rewrite Nr, map_length; apply Hf, nth_In; exact Hb').
          unfold fs_pair, rmean. rewrite map_length, combine_length, La, Lb, Nat.min_id.
          rewrite <- (rsum_blocks _ _ (combine (nth (fst q) r []) (nth (snd q) r [])) (block N) N) by (try assumption; rewrite combine_length, La, Lb; lia). fold js.
          assert (INR N <> 0) by (apply not_0_INR; lia). field_simplify; [|assumption]. apply rsum_ext. intros j _. unfold cos_sum, blk. rewrite !Nr, <- !(firstn_map (map fval)), <- !(skipn_map (map fval)), <- combine_skipn, <- combine_firstn. reflexivity. }
      rewrite Ex in Bd. apply Rle_trans with (1 := Bd). rewrite !plus_INR, !mult_INR, plus_INR, !mult_INR. change (INR 4) with (1 + 1 + 1 + 1). change (INR 3) with (1 + 1 + 1). lra. }
  destruct (tcf_values_in_all F64ops nat (list Z) vv (fun j => nofZ F64ops (Z.of_nat (nb j))) steps ps js shells Hsh Hjs Hkl) as [dts [Rd Ev]].
  { intros kl d H1 H2. destruct (Val kl d H1 H2) as [Kc [Pc _]]. destruct (neq F64ops _ _) eqn:E; [|reflexivity]. apply (eqb_spec _ (S754_zero false) Kc (ok_zero false)) in E. cbn [fval] in E. lra. }
  exists dts. eexists. split; [exact Rd|]. split; [unfold self_values_in; rewrite Run; cbn [bind]; exact Ev|]. split; [rewrite map_length; reflexivity|].
  intros s i Hss Hi. cbv zeta. rewrite (nth_map_lt _ _ _ _ _ [] _ Hss). rewrite (nth_map_lt _ _ _ _ _ 0%Z _ Hi).
  destruct (Val (nth s shells []) (nth i dts 0%Z)) as [_ [_ [Kv Bv]]]; [apply nth_In; exact Hss|apply Rd, nth_In; exact Hi|]. rewrite Ljs in Bv. split; [exact Kv|exact Bv].
Qed.
Print Assumptions C121_self_accuracy.

(** The products and sums of the code meet the hypotheses. *)
Theorem C121_products : forall mul sum ex,
  product_in_some_order mul (flat_product (Fops mul sum ex)) /\ product_in_some_order mul (paired_product (Fops mul sum ex)).
Proof.
  intros mul sum ex. split; intros l Hl He; [apply flat_product_order; exact Hl|apply paired_product_order; [exact Hl|apply even_doubled; exact He]].
Qed.
Print Assumptions C121_products.

(** Two runs on the same data, with any block sizes and either implementation, report the same
    times and values that agree up to the two error bounds. *)
Theorem C121_agree : forall mul sum ex kern kern' eps W block block' k0 nk shells steps dgrid skip (pos : list (list (list f64))) N,
  let D := Fops mul sum ex in let ps := admitted dgrid skip (length pos) in
  faithful_product mul -> sum_in_some_order sum -> self_kernel mul sum ex kern -> self_kernel mul sum ex kern' ->
  (1 <= nk)%Z -> k0 <> [] -> shells <> [] -> (forall kl, In kl shells -> kl <> []) ->
  (forall kl t, In kl shells -> In t kl -> length t = length k0 /\ Forall (fun z => (0 <= z <= 2 * nk)%Z) t) ->
  (1 <= skip)%nat -> length steps = length pos -> pos <> [] -> (1 <= N)%nat -> (Z.of_nat N <= 2 ^ 49)%Z -> (forall f, In f pos -> length f = N) -> (1 <= block N <= N)%nat -> (1 <= block' N <= N)%nat ->
  (forall kl, In kl shells -> (Z.of_nat (N * (length kl * length ps)) <= 2 ^ 49)%Z) -> W <= / 8 ->
  (forall f x, In f pos -> In x f -> length x = length k0 /\ fine_phases ex eps k0 x /\
     forall kl t, In kl shells -> In t kl -> wave_error eps (map fval k0) (unshift nk t) (map fval x) <= W) ->
  exists dts vals vals', self_values_in D F64ops kern block k0 nk shells (length shells) steps dgrid skip pos = Ok (dts, vals) /\
    self_values_in D F64ops kern' block' k0 nk shells (length shells) steps dgrid skip pos = Ok (dts, vals') /\
    forall s i, (s < length shells)%nat -> (i < length dts)%nat ->
      let v := nth i (nth s vals []) S754_nan in let v' := nth i (nth s vals' []) S754_nan in
      ok v /\ ok v' /\ Rabs (fval v - fval v') <= 8 * W + INR (8 * N * (1 + length (nth s shells []) * length ps) + 6) * p2 (-53).
Proof.
  intros mul sum ex kern kern' eps W block block' k0 nk shells steps dgrid skip pos N D ps M Hs HK HK' Hn Hk Hsh Hkl Ht Hskip Ls Hp HN HNZ Hf Hb Hb' Hsize W8 Hx.
  destruct (C121_self_accuracy mul sum ex kern eps W block k0 nk shells steps dgrid skip pos N M Hs HK Hn Hk Hsh Hkl Ht Hskip Ls Hp HN HNZ Hf (proj1 Hb) Hsize W8 Hx) as [dts [vals [R1 [E1 [L1 V1]]]]].
  destruct (C121_self_accuracy mul sum ex kern' eps W block' k0 nk shells steps dgrid skip pos N M Hs HK' Hn Hk Hsh Hkl Ht Hskip Ls Hp HN HNZ Hf (proj1 Hb') Hsize W8 Hx) as [dts' [vals' [R2 [E2 [L2 V2]]]]].
  assert (dts' = dts) as ->. { destruct R1 as [S1 H1]. destruct R2 as [S2 H2]. apply sorted_lt_irr_ext; try assumption. intros d. rewrite H1, H2. reflexivity. }
  exists dts, vals, vals'. split; [exact E1|]. split; [exact E2|]. intros s i Hss Hi. cbv zeta. destruct (V1 s i Hss Hi) as [K1 B1]. destruct (V2 s i Hss Hi) as [K2 B2]. split; [exact K1|]. split; [exact K2|].
  cbv zeta in B1, B2. fold ps in B1, B2. set (kl := nth s shells []) in *. set (d := nth i dts 0%Z) in *. set (ex' := pair_mean _ _ _ _ _) in *. set (v := nth i (nth s vals []) S754_nan) in *. set (v' := nth i (nth s vals' []) S754_nan) in *.
  assert (Q : (length (pairs_at steps d ps) <= length ps)%nat) by (unfold pairs_at; apply P_Overlap.filter_length_le).
  assert (G : forall b, (1 <= b <= N)%nat -> (4 * (b + (N + (b - 1)) / b * (length kl * length (pairs_at steps d ps))) + 3 <= 4 * N * (1 + length kl * length ps) + 3)%nat).
  { intros b Hbb. assert ((N + (b - 1)) / b <= N)%nat by (apply Nat.div_le_upper_bound; nia). assert (length kl * length (pairs_at steps d ps) <= length kl * length ps)%nat by (apply Nat.mul_le_mono_l; exact Q).
    assert ((N + (b - 1)) / b * (length kl * length (pairs_at steps d ps)) <= N * (length kl * length ps))%nat by (apply Nat.mul_le_mono; assumption). lia. }
  pose proof (le_INR _ _ (G _ Hb)) as G1. pose proof (le_INR _ _ (G _ Hb')) as G2. pose proof (p2_pos (-53)) as P.
  replace (fval v - fval v') with ((fval v - ex') - (fval v' - ex')) by ring. apply Rle_trans with (1 := Rabs_triang _ _). rewrite Rabs_Ropp.
  replace (8 * N * (1 + length kl * length ps) + 6)%nat with ((4 * N * (1 + length kl * length ps) + 3) + (4 * N * (1 + length kl * length ps) + 3))%nat by lia. rewrite plus_INR.
  apply Rmult_le_compat_r with (r := p2 (-53)) in G1; [|lra]. apply Rmult_le_compat_r with (r := p2 (-53)) in G2; [|lra]. lra.
Qed.
Print Assumptions C121_agree.

(** The division by the value at t = 0, in place: the first value becomes exactly 1 and
    therefore the other values stay exactly as they are. *)
Theorem C121_normalised : forall v0 rest, ok v0 -> fval v0 <> 0 -> Forall ok rest ->
  exists w out, normalize_in F64ops (v0 :: rest) = Ok (w :: out) /\ ok w /\ fval w = 1 /\ Forall2 (fun v v' => ok v' /\ fval v' = fval v) rest out.
Proof.
  intros v0 rest K0 N0 F. set (w := SFdiv fprec femax v0 v0).
  assert (Rw := div_spec v0 v0 (proj1 K0) (proj1 K0) (proj2 K0) (proj2 K0) N0). replace (fval v0 / fval v0) with (IZR 1) in Rw by (field; exact N0).
  destruct (rounded_exact _ _ Rw) as [Kw Ew]; [apply format_Z; lia|rewrite Rabs_right by lra; change (IZR 1) with (p2 0); apply p2_lt; lia|]. fold w in Kw, Ew.
  assert (G : forall (done rest : list (num F64ops)) i, Forall ok rest -> i = S (length done) ->
    exists out, foldM (fun row i => v <- get row i ;; v0 <- get row 0 ;; setidx row (Z.of_nat i) (ndiv F64ops v v0)) (w :: done ++ rest) (seq i (length rest)) = Ok (w :: done ++ out) /\
      Forall2 (fun v v' => ok v' /\ fval v' = fval v) rest out).
  { clear - Kw Ew. intros done rest. revert done. induction rest as [|v rest IH]; intros done i F Hi; [exists []; split; [reflexivity|constructor]|].
    inversion F as [|? ? Kv F']; subst. cbn [length seq foldM].
    assert (G1 : @get (num F64ops) (w :: done ++ v :: rest) (S (length done)) = Ok v) by (unfold get; cbn [nth_error]; rewrite nth_error_app2, Nat.sub_diag by lia; reflexivity).
    rewrite G1. cbn [bind]. change (@get (num F64ops) (w :: done ++ v :: rest) 0) with (@Ok (num F64ops) w). cbn [bind].
    set (q := SFdiv fprec femax v w).
    assert (Rq := div_spec v w (proj1 Kv) (proj1 Kw) (proj2 Kv) (proj2 Kw) ltac:(lra)). rewrite Ew in Rq. replace (fval v / 1) with (fval v) in Rq by field.
    destruct (rounded_exact _ _ Rq) as [Kq Eq]; [apply ok_format; exact Kv|apply ok_bound; exact Kv|]. fold q in Kq, Eq.
    assert (Es : @setidx (num F64ops) (w :: done ++ v :: rest) (Z.of_nat (S (length done))) (ndiv F64ops v w) = Ok (w :: (done ++ [q]) ++ rest)).
    { rewrite setidx_nat by (cbn [length]; rewrite app_length; cbn [length]; lia). cbn [firstn app]. change (skipn (S (S (length done))) (w :: done ++ v :: rest)) with (skipn (S (length done)) (done ++ v :: rest)). rewrite firstn_app, Nat.sub_diag, firstn_all, firstn_O, app_nil_r.
      replace (skipn (S (length done)) (done ++ v :: rest)) with rest; [rewrite <- app_assoc; reflexivity|]. rewrite skipn_app, skipn_all2 by lia. replace (S (length done) - length done)%nat with 1%nat by lia. reflexivity. }
    rewrite Es. cbn [bind]. destruct (IH (done ++ [q]) (S (S (length done))) F') as [out [Eo Fo]]; [rewrite app_length; cbn; lia|].
    exists (q :: out). split; [|constructor; [split; assumption|exact Fo]]. rewrite Eo. rewrite <- app_assoc. reflexivity. }
  destruct (G [] rest 1%nat F eq_refl) as [out [Eo Fo]]. exists w, out. split; [|split; [exact Kw|split; [exact Ew|exact Fo]]].
  unfold normalize_in. cbn [length seq foldM]. change (@get (num F64ops) (v0 :: rest) 0) with (@Ok (num F64ops) v0). cbn [bind]. rewrite setidx_nat by (cbn [length]; lia). cbn [bind firstn skipn app]. exact Eo.
Qed.
Print Assumptions C121_normalised.

(** ** A case: two particles that swap places, k = 1, and the exponential of C120. *)
Definition pos121 : list (list (list f64)) := [[[half64]; [S754_zero false]]; [[S754_zero false]; [half64]]].
Example C121_nonvacuous :
  (forall f x, In f pos121 -> In x f -> length x = 1%nat /\ fine_phases ex_exp (/ 100) [f64_ofZ 1] x /\
     forall kl t, In kl [[[4%Z]]] -> In t kl -> wave_error (/ 100) (map fval [f64_ofZ 1]) (unshift 3 t) (map fval x) <= / 8) /\
  self_values_in (Fops plain_product plain_sum ex_exp) F64ops (self_sum_fast_in (Fops plain_product plain_sum ex_exp) F64ops (@fst f64 f64)) (fun _ => 1%nat)
    [f64_ofZ 1] 3 [[[4%Z]]] 1 [0; 10]%Z [(0, 0); (0, 1)]%nat 1 pos121 = Ok ([0; 10]%Z, [[S754_finite false 4503599627370496 (-52); S754_finite false 7904560997432656 (-53)]]).
Proof.
  destruct C120_nonvacuous as [H _]. split.
  - intros f x Hf Hx. assert (Hx' : In x [[half64]; [S754_zero false]]) by (destruct Hf as [<-|[<-|[]]]; destruct Hx as [<-|[<-|[]]]; cbn; auto). destruct (H x Hx') as [F Wx].
    assert (Lx : length x = 1%nat) by (destruct Hx' as [<-|[<-|[]]]; reflexivity). split; [exact Lx|]. split; [exact F|]. intros kl t [<-|[]] [<-|[]].
    destruct x as [|c [|? ?]]; try discriminate. cbn [map unshift wave_error] in *. change (4 - 3)%Z with 1%Z. change (p2 (-53)) with u in *. rewrite Rabs_right in * by lra.
    pose proof u_small as U. lra.
  - vm_compute. reflexivity.
Qed.

