(** The velocity autocorrelation in double precision: C114. *)
From Coq Require Import Ascii String List ZArith Bool Arith Reals Lia Lra Sorting.Sorted Floats.SpecFloat.
From Verif Require Import PyBase PyBaseFacts Num Spec_Stats NumFacts P_Text F64Round F64Ops F64Facts M_Helpers M_Correlation M_Dynamics
  Spec_Correlation Spec_Time P_Time P_Skip Spec_Dynamics P_Dynamics Spec_Doubles Spec_Dot P_F64Time P_F64Mean P_F64Overlap P_F64Msd P_F64Order P_F64Dot T_Dynamics T_Doubles T_Doubles2.
Import ListNotations.
Local Open Scope R_scope.

(** ** C114 *)
(** Whatever the order in which the products of the components of two frames are added
    up, the k-th value is the exact mean of the scalar products of the velocities
    over all the pairs of frames with the k-th time difference, up to
    (N d + pairs + 3) 2^-52 times the mean of the products of the sizes of the components,
    and an underflow of (d + 2) 2^-1074. *)
Theorem C114_any_order :
  forall (tr : traj F64ops) (f : frame F64ops -> frame F64ops -> f64) dg skip (vel : list (frame F64ops)) N d g v,
  length (t_steps tr) = length vel -> frames_shape N d vel -> (1 <= N)%nat -> (Z.of_nat N <= 2 ^ 47)%Z -> (Z.of_nat (N * d) <= 2 ^ 47)%Z ->
  (Z.of_nat (length (admitted dg skip (length vel))) <= 2 ^ 48)%Z -> moderate_frames vel ->
  (forall a b, In a vel -> In b vel -> exists s, sum_of (products a b) s /\ f a b = SFdiv fprec femax s (f64_ofZ (Z.of_nat N))) ->
  offset_compute F64ops f tr dg skip vel = Ok (g, v) ->
  exists dts, g = map (fun ti => nmul F64ops (nofZ F64ops ti) (t_dt tr)) dts /\ StronglySorted Z.lt dts /\ length v = length dts /\
    (forall dt, In dt dts <-> exists p, In p (admitted dg skip (length vel)) /\ pair_dt (t_steps tr) p = dt) /\
    forall k, (k < length v)%nat ->
      let qs := pairs_at (t_steps tr) (nth k dts 0%Z) (admitted dg skip (length vel)) in
      let exact := rmean (map (fun p => mean_dot (values (nth (fst p) vel [])) (values (nth (snd p) vel []))) qs) in
      let size := rmean (map (fun p => mean_size (values (nth (fst p) vel [])) (values (nth (snd p) vel []))) qs) in
      qs <> [] /\
      Rabs (fval (nth k v (S754_zero false)) - exact) <= (INR (N * d) + INR (length qs) + 3) * p2 (-52) * size + (INR d + 2) * p2 (-1074).
Proof.
  intros tr f dg skip x N d g v Hl Sh N1 N2 N3 Few Mod Hf E4.
  destruct (offset_compute_spec F64ops _ f tr dg skip x [] g v Hl E4) as [dts [Eg G]].
  exists dts. split; [exact Eg|]. split; [apply G|].
  split; [rewrite (proj2 (proj2 G)), map_length; reflexivity|]. split; [apply (proj1 (proj2 G))|].
  intros k Hk qs exact size. destruct (grouped_values F64ops _ _ _ _ _ _ _ _ k (S754_zero false) G Hk) as [_ [Nq [Ev Hq]]]. cbv zeta in *. fold qs in Nq, Ev, Hq.
  split; [exact Nq|].
  assert (LQ : (Z.of_nat (length qs) <= 2 ^ 48)%Z).
  { assert (B : (length qs <= length (admitted dg skip (length x)))%nat) by (unfold qs, pairs_at; apply filter_le). lia. }
  assert (W : nearby (N * d + 2 + length qs + 1) ((INR d + 1) * tiny + tiny) (fval (nmean F64ops (map (pair_val (A:=F64ops) f x []) qs))) exact size).
  { unfold exact, size. apply (mean_nearby 849 (N * d + 2)); try lia; [apply Rmult_le_pos; [pose proof (pos_INR d); lra|left; apply tiny_pos]|exact Nq|].
    intros p Hp. destruct (admitted_frames _ _ _ _ (proj1 (Hq p Hp))) as [I1 I2]. set (a := nth (fst p) x []) in *. set (b := nth (snd p) x []) in *.
    destruct (Sh a I1) as [La Ra]. destruct (Sh b I2) as [Lb _]. destruct (Hf a b I1 I2) as [s [Hs Ef]].
    destruct (dot_nearby a b d s) as [K [B W]].
    - rewrite La, Lb. reflexivity.
    - rewrite La. exact N1.
    - exact Ra.
    - rewrite La. lia.
    - rewrite La. lia.
    - intros r c Hr Hc. apply (Mod a r c); assumption.
    - intros r c Hr Hc. apply (Mod b r c); assumption.
    - exact Hs.
    - rewrite La in K, B, W. cbv zeta in *. unfold pair_val. fold a b. rewrite Ef. auto. }
  apply nearby_error in W.
  - refine (Rle_trans _ _ _ (Req_le _ _ (f_equal (fun z : f64 => Rabs (fval z - exact)) Ev)) _). apply Rle_trans with (1 := W).
    right. replace (N * d + 2 + length qs + 1)%nat with (N * d + length qs + 3)%nat by lia. rewrite !plus_INR. replace (INR 3) with 3 by (cbn [INR]; lra).
    unfold u, tiny. replace (p2 (-52)) with (2 * p2 (-53)) by (replace (-52)%Z with (1 + -53)%Z by reflexivity; rewrite p2_add; unfold p2 at 2; simpl powerRZ; lra).
    replace (p2 (-1074)) with (2 * p2 (-1075)) by (replace (-1074)%Z with (1 + -1075)%Z by reflexivity; rewrite p2_add; unfold p2 at 2; simpl powerRZ; lra). ring.
  - unfold u. assert (B : INR (N * d + 2 + length qs + 1) <= p2 50) by (rewrite p2_Z by lia; rewrite INR_IZR_INZ; apply IZR_le; lia).
    apply Rle_trans with (p2 50 * p2 (-53)); [apply Rmult_le_compat_r; [left; apply p2_pos|assumption]|]. rewrite <- p2_add. unfold p2. simpl. lra.
Qed.
Print Assumptions C114_any_order.

(** The class itself, with the time grid it is given. *)
Theorem C114_vacf_accuracy :
  forall (tr : traj F64ops) tgrid n (vel : list (frame F64ops)) N d g v,
  length (t_steps tr) = length vel -> frames_shape N d vel -> feasible N d tr -> moderate_frames vel ->
  vacf_compute F64ops tr (Some tgrid) n vel = Ok (g, v) ->
  exists dg dts,
    setup_t_grid F64ops (t_steps tr) (t_bs tr) (t_dt tr) tgrid (not_str_1 F64ops n) = Ok dg /\
    g = map (fun ti => nmul F64ops (nofZ F64ops ti) (t_dt tr)) dts /\ StronglySorted Z.lt dts /\ length v = length dts /\
    (forall dt, In dt dts <-> exists p, In p (admitted dg (t_bs tr) (length vel)) /\ pair_dt (t_steps tr) p = dt) /\
    forall k, (k < length v)%nat ->
      let qs := pairs_at (t_steps tr) (nth k dts 0%Z) (admitted dg (t_bs tr) (length vel)) in
      let exact := rmean (map (fun p => mean_dot (values (nth (fst p) vel [])) (values (nth (snd p) vel []))) qs) in
      let size := rmean (map (fun p => mean_size (values (nth (fst p) vel [])) (values (nth (snd p) vel []))) qs) in
      qs <> [] /\
      Rabs (fval (nth k v (S754_zero false)) - exact) <= (INR (N * d) + INR (length qs) + 3) * p2 (-52) * size + (INR d + 2) * p2 (-1074).
Proof.
  intros tr tgrid n vel N d g v Hl Sh [N1 [N2 [N3 Few]]] Mod H. unfold vacf_compute in H.
  apply bind_Ok_inv in H. destruct H as [sk [_ H]]. apply bind_Ok_inv in H. destruct H as [dg [E3 E4]].
  destruct (C114_any_order tr (vacf_f F64ops) dg (t_bs tr) vel N d g v) as [dts D]; try assumption.
  - pose proof (admitted_le dg (t_bs tr) (length vel)) as B1. pose proof (grid_le F64ops _ _ _ _ _ _ E3) as B2.
    assert (B : (length (admitted dg (t_bs tr) (length vel)) <= Nat.max 1 (t_bs tr) * length (t_steps tr) * length vel)%nat) by (apply Nat.le_trans with (1 := B1); apply Nat.mul_le_mono_r; exact B2).
    rewrite <- Hl in B at 2. lia.
  - intros a b Ha _. exists (nsum F64ops (products a b)). split; [apply nsum_sum_of|]. unfold vacf_f. rewrite (proj1 (Sh a Ha)). reflexivity.
  - exists dg, dts. split; [exact E3|exact D].
Qed.
Print Assumptions C114_vacf_accuracy.

(** The size in the bound is at most the mean of the two mean square velocities, and at
    time zero it is the mean square velocity itself, so that the relative error of the first value
    is as small as that of a mean square displacement. *)
Theorem C114_size : forall (x y : list (list R)), length x = length y ->
  (forall r s, In (r, s) (combine x y) -> length r = length s) ->
  Rabs (mean_dot x y) <= mean_size x y <= (mean_dot x x + mean_dot y y) / 2 /\ mean_size x x = mean_dot x x.
Proof.
  intros x y Hl Hd. unfold mean_dot, mean_size, rmean. rewrite !map_length, !combine_length, <- Hl, !Nat.min_id.
  assert (I : 0 <= / INR (length x)).
  { destruct (length x) as [|m]; [cbn [INR]; rewrite Rinv_0; lra|]. left. apply Rinv_0_lt_compat. apply lt_0_INR. lia. }
  assert (D : forall r s, length r = length s -> Rabs (dotv r s) <= dotv (map Rabs r) (map Rabs s) <= (dotv r r + dotv s s) / 2 /\ dotv (map Rabs r) (map Rabs r) = dotv r r).
  { clear. induction r as [|a r IH]; intros [|b s] H; try discriminate; cbn [map dotv].
    - rewrite Rabs_R0. lra.
    - injection H as H. destruct (IH s H) as [[A B] C]. split.
      + split; [apply Rle_trans with (1 := Rabs_triang _ _); rewrite Rabs_mult; lra|].
        pose proof (Rle_0_sqr (Rabs a - Rabs b)) as Q. unfold Rsqr in Q. assert (Ea : Rabs a * Rabs a = a * a) by (rewrite <- Rabs_mult; apply Rabs_right; apply Rle_ge, Rle_0_sqr).
        assert (Eb : Rabs b * Rabs b = b * b) by (rewrite <- Rabs_mult; apply Rabs_right; apply Rle_ge, Rle_0_sqr). lra.
      + rewrite C. f_equal. rewrite <- Rabs_mult. apply Rabs_right. apply Rle_ge, Rle_0_sqr. }
  assert (S1 : Rabs (rsum (map (fun p => dotv (fst p) (snd p)) (combine x y))) <= rsum (map (fun p => dotv (map Rabs (fst p)) (map Rabs (snd p))) (combine x y))
     <= (rsum (map (fun p => dotv (fst p) (snd p)) (combine x x)) + rsum (map (fun p => dotv (fst p) (snd p)) (combine y y))) / 2 /\
     rsum (map (fun p => dotv (map Rabs (fst p)) (map Rabs (snd p))) (combine x x)) = rsum (map (fun p => dotv (fst p) (snd p)) (combine x x))).
  { clear I. revert y Hl Hd. induction x as [|r x IH]; intros [|s y] Hl Hd; try discriminate; cbn [combine map rsum fst snd].
    - rewrite Rabs_R0. lra.
    - injection Hl as Hl. destruct (IH y Hl) as [[A B] C]; [intros r' s' H'; apply Hd; right; exact H'|]. destruct (D r s (Hd r s (or_introl eq_refl))) as [[A' B'] C'].
      split; [split; [apply Rle_trans with (1 := Rabs_triang _ _); lra|lra]|]. rewrite C, C'. reflexivity. }
  destruct S1 as [[A B] C]. unfold Rdiv. split; [split|].
  - rewrite Rabs_mult, (Rabs_right (/ INR (length x))) by lra. apply Rmult_le_compat_r; assumption.
  - rewrite <- Rmult_plus_distr_r, Rmult_assoc, (Rmult_comm (/ INR (length x))), <- Rmult_assoc. apply Rmult_le_compat_r; assumption.
  - rewrite C. reflexivity.
Qed.
Print Assumptions C114_size.

(** No bound relative to the value itself holds: (1, 2^-30, 1) and (1, 2^-30, -1) have scalar
    product 2^-60, which is computed as 0. *)
Definition cancel_vel : list (frame F64ops) :=
  [[[f64_ofZ 1; f64_frac 1 (2 ^ 30); f64_ofZ 1]]; [[f64_ofZ 1; f64_frac 1 (2 ^ 30); f64_ofZ (-1)]]].
Definition cancel_tr : traj F64ops := mkTraj (A:=F64ops) [0; 1]%Z 1 (f64_ofZ 1) (f64_ofZ 1) 1.

Theorem C114_cancellation :
  frames_shape 1 3 cancel_vel /\ feasible 1 3 cancel_tr /\ moderate_frames cancel_vel /\
  (exists g v, vacf_compute F64ops cancel_tr (Some [f64_ofZ 1]) (NoInt (-1)) cancel_vel = Ok (g, v) /\ map fval g = [1] /\ map fval v = [0]) /\
  mean_dot (values (nth 0 cancel_vel [])) (values (nth 1 cancel_vel [])) = p2 (-60).
Proof.
  split; [intros x [<-|[<-|[]]]; (split; [reflexivity|intros r [<-|[]]; reflexivity])|].
  split; [unfold feasible; cbn; lia|]. destruct (plain_frames cancel_vel) as [A B]; [vm_compute; reflexivity|]. split; [exact A|].
  assert (V0 : fval (f64_ofZ 0) = 0) by (apply ofZ_exact; lia). assert (V1 : fval (f64_ofZ 1) = 1) by (apply ofZ_exact; lia). assert (V2 : fval (f64_ofZ (-1)) = -1) by (apply ofZ_exact; lia).
  split.
  - exists [f64_ofZ 1], [f64_ofZ 0]. split; [vm_compute; reflexivity|]. cbn [map]. rewrite V0, V1. split; reflexivity.
  - assert (V : fval (f64_frac 1 (2 ^ 30)) = p2 (-30)).
    { replace (f64_frac 1 (2 ^ 30)) with (S754_finite false 4503599627370496 (-82)) by (vm_compute; reflexivity). cbn [fval]. change (-30)%Z with (52 + -82)%Z. rewrite p2_add, (p2_Z 52) by lia. unfold sgn, p2. change (2 ^ 52)%Z with 4503599627370496%Z. ring. }
    unfold cancel_vel, values, mean_dot, rmean. cbn [nth map combine fst snd dotv rsum length INR]. change (-60)%Z with (-30 + -30)%Z. rewrite p2_add.
    refine (eq_trans (f_equal (fun z => z / 1) _) _); [rewrite V, V1, V2; reflexivity|]. field.
Qed.
Print Assumptions C114_cancellation.

Example C114_nonvacuous :
  frames_shape 2 2 tenth_frames /\ feasible 2 2 tenth_tr /\ moderate_frames tenth_frames /\
  exists g v, vacf_compute F64ops tenth_tr (Some (map (fun z => f64_frac z 10) [0; 1; 3]%Z)) (NoInt (-1)) tenth_frames = Ok (g, v) /\ length v = 3%nat.
Proof.
  split; [exact (proj1 C100_nonvacuous)|]. split; [exact (proj1 (proj2 C100_nonvacuous))|]. split; [exact (proj1 (proj2 (proj2 C100_nonvacuous)))|].
  eexists. eexists. split; [vm_compute; reflexivity|reflexivity].
Qed.
