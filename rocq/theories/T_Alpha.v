(** The non-Gaussian parameter in double precision: C117. *)
From Coq Require Import Ascii String List ZArith Bool Arith Reals Lia Lra Sorting.Sorted Floats.SpecFloat.
From Verif Require Import PyBase PyBaseFacts Num Spec_Stats NumFacts P_Text F64Round F64Ops F64Facts M_Helpers M_Correlation M_Dynamics
  Spec_Correlation Spec_Time P_Time P_Skip Spec_Dynamics P_Dynamics P_Overlap Spec_Doubles Spec_Alpha P_F64Time P_F64Mean P_F64Overlap P_F64Msd P_F64Order P_F64Dot P_F64Alpha T_Dynamics T_Doubles T_Doubles2.
Import ListNotations.
Local Open Scope R_scope.

Lemma with_id_at : forall (fr : list (frame F64ops)) i dfl, (i < length fr)%nat -> nth i (with_id F64ops fr) dfl = (i, nth i fr []).
Proof.
  intros fr i dfl Hi. rewrite (nth_indep _ dfl (0%nat, [])) by (unfold with_id; rewrite combine_length, seq_length; lia).
  unfold with_id. rewrite combine_nth by (rewrite seq_length; reflexivity). rewrite seq_nth by exact Hi. reflexivity.
Qed.

Lemma rows_in_order : forall l : list (list f64 * list f64), Forall2 (fun p r => sum_of (row_squares (fst p) (snd p)) r) l (map (fun p => sqdist F64ops (fst p) (snd p)) l).
Proof. induction l as [|[r s] l IH]; cbn [map]; constructor; [|exact IH]. cbn [fst snd]. unfold sqdist. apply (nsum_sum_of (row_squares r s)). Qed.

(** ** C117 *)
(** Frames of N particles in d dimensions whose coordinates are up to 2^200 and change by zero
    or at least 2^-200, with some particle moving between any two frames: whatever the order of
    the sums over coordinates and particles, the k-th value is the exact mean of the non-Gaussian
    parameters of the pairs of frames with the k-th time difference, up to
    (4 N d + 2 d + N + pairs + 32) 2^-52 times the mean of 3 <dr^4> / (5 <dr^2>^2) + 1. *)
Theorem C117_any_order :
  forall (tr : traj F64ops) (f : nat * frame F64ops -> nat * frame F64ops -> f64) dg skip (x : list (frame F64ops)) N d g v,
  length (t_steps tr) = length x -> frames_shape N d x -> (1 <= N)%nat -> (Z.of_nat N <= 2 ^ 47)%Z -> (Z.of_nat (N * d) <= 2 ^ 47)%Z ->
  (Z.of_nat (length (admitted dg skip (length x))) <= 2 ^ 48)%Z ->
  (forall a b, In a x -> In b x -> medium_pair a b) ->
  (forall i j, (i < length x)%nat -> (j < length x)%nat -> i <> j -> 0 < mean_over (fun z => z) (values (nth i x [])) (values (nth j x []))) ->
  (forall i a b, f (i, a) (i, b) = f64_ofZ 0) -> (forall i j a b, i <> j -> In a x -> In b x -> alpha_by a b (f (i, a) (j, b))) ->
  offset_compute F64ops f tr dg skip (with_id F64ops x) = Ok (g, v) ->
  exists dts, g = map (fun ti => nmul F64ops (nofZ F64ops ti) (t_dt tr)) dts /\ StronglySorted Z.lt dts /\ length v = length dts /\
    (forall dt, In dt dts <-> exists p, In p (admitted dg skip (length x)) /\ pair_dt (t_steps tr) p = dt) /\
    forall k, (k < length v)%nat ->
      let qs := pairs_at (t_steps tr) (nth k dts 0%Z) (admitted dg skip (length x)) in
      let over (h : list (list R) -> list (list R) -> R) := rmean (map (fun p => if (fst p =? snd p)%nat then 0 else h (values (nth (fst p) x [])) (values (nth (snd p) x []))) qs) in
      qs <> [] /\
      Rabs (fval (nth k v (S754_zero false)) - over non_gaussian) <=
        (4 * INR (N * d) + 2 * INR d + INR N + INR (length qs) + 32) * p2 (-52) * over (fun a b => kurtosis a b + 1) + p2 (-1073).
Proof.
  intros tr f dg skip x N d g v Hl Sh N1 N2 N3 Few Med Mov F0 Fd E4.
  assert (Lw : length (with_id F64ops x) = length x) by (unfold with_id; rewrite combine_length, seq_length; change (num F64ops) with f64; lia).
  destruct (offset_compute_spec F64ops _ f tr dg skip (with_id F64ops x) (0%nat, []) g v) as [dts [Eg G]]; [rewrite Lw; exact Hl|exact E4|]. rewrite Lw in G.
  exists dts. split; [exact Eg|]. split; [apply G|].
  split; [rewrite (proj2 (proj2 G)), map_length; reflexivity|]. split; [apply (proj1 (proj2 G))|].
  intros k Hk qs over. destruct (grouped_values F64ops _ _ _ _ _ _ _ _ k (S754_zero false) G Hk) as [_ [Nq [Ev Hq]]]. cbv zeta in *. fold qs in Nq, Ev, Hq.
  split; [exact Nq|].
  assert (LQ : (Z.of_nat (length qs) <= 2 ^ 48)%Z).
  { assert (B : (length qs <= length (admitted dg skip (length x)))%nat) by (unfold qs, pairs_at; apply filter_le). lia. }
  assert (W : nearby (4 * (N * d) + 2 * d + N + 31 + length qs + 1) (tiny + tiny) (fval (nmean F64ops (map (pair_val (A:=F64ops) f (with_id F64ops x) (0%nat, [])) qs))) (over non_gaussian) (over (fun a b => kurtosis a b + 1))).
  { unfold over. apply (mean_nearby 50 (4 * (N * d) + 2 * d + N + 31)); try lia; [left; apply tiny_pos|exact Nq|].
    intros p Hp. pose proof (admitted_range _ _ _ _ (proj1 (Hq p Hp))) as Rg. destruct (admitted_frames _ _ _ _ (proj1 (Hq p Hp))) as [I1 I2].
    unfold pair_val. rewrite !with_id_at by lia. destruct (Nat.eqb_spec (fst p) (snd p)) as [E|E].
    - rewrite <- E, F0. destruct (ofZ_exact 0) as [K0 E0]; [lia|]. rewrite E0. split; [exact K0|]. rewrite Rabs_R0. split; [left; apply p2_pos|].
      apply nearby_weaken with 0%nat 0; [lia|left; apply tiny_pos|]. pose proof (nearby_refl 0) as Q. rewrite Rabs_R0 in Q. exact Q.
    - destruct (Sh _ I1) as [La Ra]. destruct (Sh _ I2) as [Lb _].
      apply (alpha_nearby _ _ N d La Lb N1 Ra N2 N3 (Med _ _ I1 I2)); [apply Fd; assumption|apply Mov; lia]. }
  apply nearby_error in W.
  - refine (Rle_trans _ _ _ (Req_le _ _ (f_equal (fun z : f64 => Rabs (fval z - over non_gaussian)) Ev)) _). apply Rle_trans with (1 := W).
    right. replace (4 * (N * d) + 2 * d + N + 31 + length qs + 1)%nat with (4 * (N * d) + 2 * d + N + length qs + 32)%nat by lia. rewrite !plus_INR, (mult_INR 4), (mult_INR 2).
    replace (INR 32) with 32 by (rewrite INR_IZR_INZ; reflexivity). replace (INR 4) with 4 by (cbn [INR]; lra). replace (INR 2) with 2 by (cbn [INR]; lra).
    unfold u, tiny. replace (p2 (-52)) with (2 * p2 (-53)) by (replace (-52)%Z with (1 + -53)%Z by reflexivity; rewrite p2_add; unfold p2 at 2; simpl powerRZ; lra).
    replace (p2 (-1073)) with (4 * p2 (-1075)) by (replace (-1073)%Z with (2 + -1075)%Z by reflexivity; rewrite p2_add; unfold p2 at 2; simpl powerRZ; lra). ring.
  - apply few_roundings. assert (D0 : (d <= N * d)%nat) by nia. lia.
Qed.
Print Assumptions C117_any_order.

(** The class itself, adding from left to right. *)
Theorem C117_alpha2_accuracy :
  forall (tr : traj F64ops) grid n (x : list (frame F64ops)) N d g v,
  length (t_steps tr) = length x -> frames_shape N d x -> feasible N d tr ->
  (forall a b, In a x -> In b x -> medium_pair a b) ->
  (forall i j, (i < length x)%nat -> (j < length x)%nat -> i <> j -> 0 < mean_over (fun z => z) (values (nth i x [])) (values (nth j x []))) ->
  alpha2_compute F64ops tr grid n x = Ok (g, v) ->
  exists dg skip dts,
    adjust_skip F64ops (length (t_steps tr)) (t_npart tr) (t_bs tr) n = Ok skip /\
    setup_t_grid F64ops (t_steps tr) (t_bs tr) (t_dt tr) grid (not_str_1 F64ops n) = Ok dg /\
    g = map (fun ti => nmul F64ops (nofZ F64ops ti) (t_dt tr)) dts /\ StronglySorted Z.lt dts /\ length v = length dts /\
    (forall dt, In dt dts <-> exists p, In p (admitted dg skip (length x)) /\ pair_dt (t_steps tr) p = dt) /\
    forall k, (k < length v)%nat ->
      let qs := pairs_at (t_steps tr) (nth k dts 0%Z) (admitted dg skip (length x)) in
      let over (h : list (list R) -> list (list R) -> R) := rmean (map (fun p => if (fst p =? snd p)%nat then 0 else h (values (nth (fst p) x [])) (values (nth (snd p) x []))) qs) in
      qs <> [] /\
      Rabs (fval (nth k v (S754_zero false)) - over non_gaussian) <=
        (4 * INR (N * d) + 2 * INR d + INR N + INR (length qs) + 32) * p2 (-52) * over (fun a b => kurtosis a b + 1) + p2 (-1073).
Proof.
  intros tr grid n x N d g v Hl Sh [N1 [N2 [N3 Few]]] Med Mov H. unfold alpha2_compute, grid_compute in H.
  apply bind_Ok_inv in H. destruct H as [skip [E1 H]]. apply bind_Ok_inv in H. destruct H as [dg [E3 E4]].
  destruct (C117_any_order tr (alpha_2 F64ops) dg skip x N d g v) as [dts D]; try assumption.
  - pose proof (admitted_le dg skip (length x)) as B1. pose proof (grid_le F64ops _ _ _ _ _ _ E3) as B2.
    assert (B : (length (admitted dg skip (length x)) <= Nat.max 1 (t_bs tr) * length (t_steps tr) * length x)%nat) by (apply Nat.le_trans with (1 := B1); apply Nat.mul_le_mono_r; exact B2).
    rewrite <- Hl in B at 2. lia.
  - intros i a b. unfold alpha_2. cbn [fst]. rewrite Nat.eqb_refl. reflexivity.
  - intros i j a b Hij Ha Hb. exists (nsum F64ops (squares a b)), (map (fun p => sqdist F64ops (fst p) (snd p)) (combine a b)), (nsum F64ops (map (nsq F64ops) (map (fun p => sqdist F64ops (fst p) (snd p)) (combine a b)))).
    split; [apply nsum_sum_of|]. split.
    + exact (rows_in_order (combine a b)).
    + split; [apply (nsum_sum_of (map (nsq F64ops) _))|]. unfold alpha_2. cbn [fst snd]. destruct (Nat.eqb_spec i j); [contradiction|]. reflexivity.
  - exists dg, skip, dts. split; [exact E1|]. split; [exact E3|exact D].
Qed.
Print Assumptions C117_alpha2_accuracy.

(** The kurtosis in the bound is between 3/5 and the number of particles. *)
Theorem C117_size :
  forall (x y : frame F64ops) N, length x = N -> length y = N -> (1 <= N)%nat -> 0 < mean_over (fun z => z) (values x) (values y) ->
  3 / 5 <= kurtosis (values x) (values y) <= INR N /\ non_gaussian (values x) (values y) = kurtosis (values x) (values y) - 1.
Proof. intros x y N Lx Ly N1 P. split; [|reflexivity]. apply kurtosis_range; assumption. Qed.
Print Assumptions C117_size.

(** Two particles in two dimensions on a lattice. *)
Definition lattice : list (list (list Z)) := [[[0; 0]; [1; 1]]; [[1; 0]; [1; 1]]; [[2; 0]; [1; 3]]]%Z.
Definition lattice_frames : list (frame F64ops) := map (map (map f64_ofZ)) lattice.
Definition lattice_tr : traj F64ops := mkTraj (A:=F64ops) [0; 1; 2]%Z 1%nat (f64_ofZ 1) (f64_ofZ 2) 2%nat.

Lemma lattice_values : forall x, In x lattice -> values (map (map f64_ofZ) x) = map (map IZR) x.
Proof.
  intros x Hx. unfold values. rewrite map_map. apply map_ext_in. intros r Hr. rewrite map_map. apply map_ext_in. intros c Hc. apply ofZ_exact.
  destruct Hx as [<-|[<-|[<-|[]]]]; destruct Hr as [<-|[<-|[]]]; destruct Hc as [<-|[<-|[]]]; lia.
Qed.

Example C117_nonvacuous :
  frames_shape 2 2 lattice_frames /\ feasible 2 2 lattice_tr /\ (forall a b, In a lattice_frames -> In b lattice_frames -> medium_pair a b) /\
  (forall i j, (i < length lattice_frames)%nat -> (j < length lattice_frames)%nat -> i <> j -> 0 < mean_over (fun z => z) (values (nth i lattice_frames [])) (values (nth j lattice_frames []))) /\
  alpha2_compute F64ops lattice_tr (map f64_ofZ [0; 1; 2]%Z) (NoInt (-1)) lattice_frames = Ok (map f64_ofZ [0; 1; 2]%Z, [f64_ofZ 0; S754_finite false 4611686018427360 (-59); S754_finite true 7205759403792794 (-54)]) /\
  f64_frac 8 1000 = S754_finite false 4611686018427388 (-59).
Proof.
  split; [intros x [<-|[<-|[<-|[]]]]; (split; [reflexivity|intros r [<-|[<-|[]]]; reflexivity])|]. split; [unfold feasible; cbn; lia|]. split; [|split].
  - assert (Q : forall x r c, In x lattice_frames -> In r x -> In c r -> exists z, c = f64_ofZ z /\ (0 <= z <= 3)%Z).
    { intros x r c Hx Hr Hc. unfold lattice_frames, lattice in Hx. cbn [map] in Hx. destruct Hx as [<-|[<-|[<-|[]]]]; destruct Hr as [<-|[<-|[]]]; destruct Hc as [<-|[<-|[]]]; eexists; (split; [reflexivity|lia]). }
    intros x y Hx Hy r s a b Hrs Hab. destruct (Q x r a Hx (in_combine_l _ _ _ _ Hrs) (in_combine_l _ _ _ _ Hab)) as [z [-> Bz]]. destruct (Q y s b Hy (in_combine_r _ _ _ _ Hrs) (in_combine_r _ _ _ _ Hab)) as [w [-> Bw]].
    destruct (ofZ_exact z) as [Kz Ez]; [lia|]. destruct (ofZ_exact w) as [Kw Ew]; [lia|]. rewrite Ez, Ew. rewrite <- minus_IZR, <- !abs_IZR.
    assert (B : 4 <= p2 200) by (apply Rle_trans with (p2 2); [unfold p2; simpl; lra|apply p2_le; lia]). assert (B' : p2 (-200) <= 1) by (apply Rle_trans with (p2 0); [apply p2_le; lia|unfold p2; simpl; lra]).
    split; [exact Kz|]. split; [exact Kw|]. split; [apply Rle_trans with (2 := B); apply IZR_le; lia|]. split; [apply Rle_trans with (2 := B); apply IZR_le; lia|].
    destruct (Z.eq_dec z w) as [-> |Nz]; [left; reflexivity|right]. apply Rle_trans with (1 := B'). apply IZR_le. lia.
  - intros i j Hi Hj Hij. cbn [length lattice_frames lattice map] in Hi, Hj.
    assert (E : forall k, (k < 3)%nat -> values (nth k lattice_frames []) = map (map IZR) (nth k lattice [])).
    { intros k Hk. destruct k as [|[|[|k]]]; [apply (lattice_values (nth 0 lattice []))|apply (lattice_values (nth 1 lattice []))|apply (lattice_values (nth 2 lattice []))|lia]; cbn; tauto. }
    rewrite !E by assumption. clear E.
    destruct i as [|[|[|i]]]; [| | |lia]; (destruct j as [|[|[|j]]]; [| | |lia]); try lia; unfold mean_over, rmean, lattice; cbn [nth map combine fst snd dist2 rsum length INR]; lra.
  - split; vm_compute; reflexivity.
Qed.
