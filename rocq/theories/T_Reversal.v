(** Reversing the direction of time: C109. *)
From Coq Require Import Ascii String List ZArith Bool Arith Reals Lia Lra Sorting.Sorted Sorting.Permutation Floats.SpecFloat.
From Verif Require Import PyBase PyBaseFacts Num Spec_Stats NumFacts M_Helpers M_Correlation M_Dynamics Spec_Correlation Spec_Time P_Correlation P_Time P_Skip
  P_Dynamics P_Dynamics2 P_Symmetry P_Uniform.
Import ListNotations.
Local Open Scope R_scope.

(** ** Pairs *)
Lemma map_flip_seq : forall X (h : nat -> X) m, map (fun i => h (m - 1 - i)%nat) (seq 0 m) = rev (map h (seq 0 m)).
Proof.
  intros X h m. apply nth_ext with (d := h 0%nat) (d' := h 0%nat); [rewrite rev_length, !map_length; reflexivity|].
  intros i Hi. rewrite map_length, seq_length in Hi. rewrite rev_nth by (rewrite map_length, seq_length; exact Hi). rewrite map_length, seq_length.
  rewrite !(nth_map_lt _ _ _ _ _ _ 0%nat) by (rewrite seq_length; lia). rewrite !seq_nth by lia. f_equal. lia.
Qed.

Section Reverse.
Variables (X : Type) (f : X -> X -> R) (x : list X) (dflt : X).
Hypothesis sym : forall a b, In a x -> In b x -> f a b = f b a.

Lemma mean_reverse : forall k, (k < length x)%nat ->
  nmean Rops (map (pair_val (A:=Rops) f (rev x) dflt) (apart (length x) k)) = nmean Rops (map (pair_val (A:=Rops) f x dflt) (apart (length x) k)).
Proof.
  intros k Hk. unfold apart. rewrite !map_map. set (m := (length x - k)%nat).
  assert (E : map (fun i => pair_val (A:=Rops) f (rev x) dflt ((i + k)%nat, i)) (seq 0 m)
            = map (fun i => (fun j => pair_val (A:=Rops) f x dflt ((j + k)%nat, j)) (m - 1 - i)%nat) (seq 0 m)).
  { apply map_ext_in. intros i Hi. apply in_seq in Hi. unfold pair_val. cbn [fst snd]. rewrite !rev_nth by lia.
    rewrite sym by (apply nth_In; lia). f_equal; f_equal; lia. }
  rewrite E. rewrite (map_flip_seq _ (fun j => pair_val (A:=Rops) f x dflt ((j + k)%nat, j))). rewrite !nmean_R, rev_length. f_equal.
  apply rsum_perm. apply Permutation_sym, Permutation_rev.
Qed.

Lemma offset_reverse : forall (tr : traj Rops) dg e, length (t_steps tr) = length x -> every e (t_steps tr) -> (0 < e)%Z ->
  (forall p, In p dg -> usable (t_steps tr) [0%nat] p) -> StronglySorted Z.lt (map (lag_dt (t_steps tr)) dg) ->
  offset_compute Rops f tr dg 1 (rev x) = offset_compute Rops f tr dg 1 x.
Proof.
  intros tr dg e Hl Ev He U S. unfold offset_compute.
  destruct (gcf_offset_correct Rops X f (t_steps tr) x dflt Hl dg 1 (le_n 1)) as [dt [v [E [S1 [P1 V1]]]]].
  assert (Hl' : length (t_steps tr) = length (rev x)) by (rewrite rev_length; exact Hl).
  destruct (gcf_offset_correct Rops X f (t_steps tr) (rev x) dflt Hl' dg 1 (le_n 1)) as [dt' [v' [E' [S2 [P2 V2]]]]].
  change (gcf_offset Rops f dg 1 (t_steps tr) x = Ok (dt, v)) in E. change (gcf_offset Rops f dg 1 (t_steps tr) (rev x) = Ok (dt', v')) in E'.
  rewrite E, E'. cbn [bind fst snd]. rewrite rev_length in P2, V2.
  assert (Ed : dt' = dt).
  { apply (sorted_ext Z Z.lt); try assumption; [apply Z.lt_irrefl|apply Z.lt_trans|]. intros z. rewrite P1, P2. reflexivity. }
  subst dt'. repeat f_equal. rewrite V1, V2. apply map_ext_in. intros d Hd. rewrite <- Hl in P1.
  destruct (proj1 (every_dts e _ dg dt Ev He U P1 d) Hd) as [k [Hk ->]]. rewrite <- Hl. rewrite every_pairs by assumption.
  rewrite Hl. apply mean_reverse. destruct (U _ Hk) as [_ L]. cbn [fst snd] in L. lia.
Qed.
End Reverse.

(** ** Symmetric functions of two frames *)
Lemma combine_sym_map : forall X Y (h : X -> X -> Y) (x y : list X), (forall a b, h a b = h b a) ->
  map (fun p => h (fst p) (snd p)) (combine x y) = map (fun p => h (fst p) (snd p)) (combine y x).
Proof. intros X Y h x. induction x as [|a x IH]; intros [|b y] H; try reflexivity. cbn [combine map fst snd]. rewrite H, IH by assumption. reflexivity. Qed.
Lemma map2_sym : forall X Y (h : X -> X -> Y) (r s : list X), (forall a b, h a b = h b a) -> map2 h r s = map2 h s r.
Proof. intros X Y h r s H. apply combine_sym_map. exact H. Qed.
Lemma flat2_sym : forall X Y (h : X -> X -> list Y) (x y : list X), (forall a b, h a b = h b a) ->
  flat_map (fun p => h (fst p) (snd p)) (combine x y) = flat_map (fun p => h (fst p) (snd p)) (combine y x).
Proof. intros X Y h x. induction x as [|a x IH]; intros [|b y] H; try reflexivity. cbn [combine flat_map fst snd]. rewrite H, IH by assumption. reflexivity. Qed.
Lemma combine_sym_count : forall X (h : X -> X -> bool) (x y : list X), (forall a b, h a b = h b a) ->
  length (filter (fun p => h (fst p) (snd p)) (combine x y)) = length (filter (fun p => h (fst p) (snd p)) (combine y x)).
Proof. intros X h x. induction x as [|a x IH]; intros [|b y] H; try reflexivity. cbn [combine filter fst snd]. rewrite H. destruct (h b a); cbn [length]; rewrite IH by assumption; reflexivity. Qed.

Lemma sq_sym : forall a b : R, nsq Rops (nsub Rops a b) = nsq Rops (nsub Rops b a).
Proof. intros a b. change ((a - b) * (a - b) = (b - a) * (b - a)). ring. Qed.
Lemma sqdist_sym : forall r s : list R, sqdist Rops r s = sqdist Rops s r.
Proof. intros r s. unfold sqdist. f_equal. apply map2_sym. exact sq_sym. Qed.
Lemma msd_sym : forall x y : list (list R), length x = length y -> msd Rops x y = msd Rops y x.
Proof.
  intros x y L. unfold msd. apply f_equal2; [f_equal|exact (f_equal (nofnat Rops) L)]. apply (flat2_sym _ _ (map2 (fun a b => nsq Rops (nsub Rops a b)))).
  intros a b. apply map2_sym. exact sq_sym.
Qed.
Lemma vacf_sym : forall x y : list (list R), length x = length y -> vacf_f Rops x y = vacf_f Rops y x.
Proof.
  intros x y L. unfold vacf_f. apply f_equal2; [f_equal|exact (f_equal (nofnat Rops) L)]. apply (flat2_sym _ _ (map2 (nmul Rops))).
  intros a b. apply map2_sym. intros c d. exact (Rmult_comm c d).
Qed.
Lemma self_sym : forall a2 (x y : list (list R)), length x = length y -> self_overlap_f Rops a2 x y = self_overlap_f Rops a2 y x.
Proof.
  intros a2 x y L. unfold self_overlap_f, self_count. apply f_equal2; [f_equal|exact (f_equal (nofnat Rops) L)]. apply (combine_sym_count _ (fun r s => nlt Rops (sqdist Rops r s) a2)).
  intros r s. rewrite sqdist_sym. reflexivity.
Qed.
Lemma product_nil : forall X Y (P : X * Y -> bool) (y : list Y), filter P (flat_map (fun yi => map (fun xj => (xj, yi)) []) y) = [].
Proof. intros X Y P y. induction y as [|b y IH]; [reflexivity|exact IH]. Qed.
Lemma product_cons : forall X Y (P : X * Y -> bool) a (x : list X) (y : list Y),
  length (filter P (flat_map (fun yi => map (fun xj => (xj, yi)) (a :: x)) y)) =
  (length (filter (fun b => P (a, b)) y) + length (filter P (flat_map (fun yi => map (fun xj => (xj, yi)) x) y)))%nat.
Proof.
  intros X Y P a x y. induction y as [|b y IH]; [reflexivity|]. cbn [flat_map map]. rewrite !filter_app, !app_length. cbn [map app] in *.
  change (map (fun xj => (xj, b)) (a :: x)) with ((a, b) :: map (fun xj => (xj, b)) x). cbn [filter].
  destruct (P (a, b)); cbn [length app] in *; rewrite ?app_length; cbn [length]; lia.
Qed.
Lemma product_swap : forall X Y (P : X -> Y -> bool) (x : list X) (y : list Y),
  length (filter (fun p => P (fst p) (snd p)) (flat_map (fun yi => map (fun xj => (xj, yi)) x) y)) =
  length (filter (fun p => P (snd p) (fst p)) (flat_map (fun xi => map (fun yj => (yj, xi)) y) x)).
Proof.
  intros X Y P x y. induction x as [|a x IH]; [rewrite product_nil; reflexivity|]. rewrite product_cons, IH. cbn [flat_map]. rewrite filter_app, app_length. f_equal.
  clear. cbn [fst snd]. induction y as [|b y IH]; [reflexivity|]. cbn [map filter fst snd]. destruct (P a b); cbn [length]; rewrite IH; reflexivity.
Qed.
Lemma coll_sym : forall a2 (x y : list (list R)), length x = length y -> coll_overlap_f Rops a2 x y = coll_overlap_f Rops a2 y x.
Proof.
  intros a2 x y L. unfold coll_overlap_f, coll_count. apply f_equal2; [f_equal|exact (f_equal (nofnat Rops) L)].
  rewrite (product_swap _ _ (fun r s => nlt Rops (sqdist Rops r s) a2)). f_equal. apply filter_ext. intros [r s]. cbn [fst snd]. rewrite sqdist_sym. reflexivity.
Qed.
Lemma alpha2_sym : forall (i j : nat) (x y : list (list R)), length x = length y -> alpha_2 Rops (i, x) (j, y) = alpha_2 Rops (j, y) (i, x).
Proof.
  intros i j x y L. unfold alpha_2. cbn [fst snd]. rewrite (Nat.eqb_sym i j). destruct (j =? i)%nat; [reflexivity|]. rewrite (msd_sym x y L).
  rewrite (combine_sym_map _ _ (sqdist Rops) x y sqdist_sym). apply f_equal2; [|reflexivity]. apply f_equal2; [|reflexivity]. apply f_equal, f_equal.
  exact (f_equal (nofnat Rops) L).
Qed.

(** ** C109 *)
(** The trajectory seen backwards: the last frame comes first, at the step of the first. *)
Definition backwards {A} (tr : traj A) : traj A :=
  mkTraj (map (fun s => nth 0 (t_steps tr) 0 + last (t_steps tr) 0 - s)%Z (rev (t_steps tr))) (t_bs tr) (t_dt tr) (t_total tr) (t_npart tr).

Lemma backwards_every : forall A e (tr : traj A), every e (t_steps tr) -> backwards tr = tr.
Proof.
  intros A e [steps bs dt total np] Ev. unfold backwards. cbn [t_steps t_bs t_dt t_total t_npart] in *. f_equal.
  destruct steps as [|s0 steps0]; [reflexivity|]. set (steps := s0 :: steps0) in *. assert (L : (1 <= length steps)%nat) by (cbn; lia).
  assert (La : last steps 0%Z = nth (length steps - 1) steps 0%Z).
  { clear. induction steps as [|a l IH]; [reflexivity|]. destruct l as [|b l]; [reflexivity|]. cbn [last]. cbn [last] in IH. rewrite IH. cbn [length]. replace (S (S (length l)) - 1)%nat with (S (S (length l) - 1)) by lia. reflexivity. }
  apply nth_ext with (d := 0%Z) (d' := 0%Z); [rewrite map_length, rev_length; reflexivity|].
  intros i Hi. rewrite map_length, rev_length in Hi. rewrite (nth_map_lt _ _ _ _ _ _ 0%Z) by (rewrite rev_length; exact Hi).
  rewrite rev_nth by exact Hi. rewrite La, (Ev (length steps - 1)%nat), (Ev (length steps - S i)%nat), (Ev i Hi) by lia. rewrite !Nat2Z.inj_sub, !(Nat2Z.inj_succ i) by lia. change (Z.of_nat 1) with 1%Z. unfold Z.succ. ring.
Qed.

(** Frames of the same particles stored at regular intervals, without blocks; all origins. *)
Definition regular (e : Z) (tr : traj Rops) (x : list (list (list R))) : Prop :=
  every e (t_steps tr) /\ (0 < e)%Z /\ t_bs tr = 1%nat /\ length (t_steps tr) = length x /\ exists N, forall a, In a x -> length a = N.

Lemma setup_regular : forall (tr : traj Rops) g o dg, t_bs tr = 1%nat -> setup_t_grid Rops (t_steps tr) (t_bs tr) (t_dt tr) g o = Ok dg ->
  (forall p, In p dg -> usable (t_steps tr) [0%nat] p) /\ StronglySorted Z.lt (map (lag_dt (t_steps tr)) dg).
Proof.
  intros tr g o dg Hb E. destruct (setup_t_grid_correct _ _ _ _ _ _ _ E) as [_ [_ [S0 [U _]]]]. split; [|exact S0].
  intros p Hp. rewrite Hb, the_offsets_1 in U. apply U. exact Hp.
Qed.

Lemma grid_reverse : forall X (f : X -> X -> R) (x : list X) (dflt : X) e (tr : traj Rops) grid,
  every e (t_steps tr) -> (0 < e)%Z -> t_bs tr = 1%nat -> length (t_steps tr) = length x ->
  (forall a b, In a x -> In b x -> f a b = f b a) ->
  grid_compute Rops f tr grid (NoInt (-1)) (rev x) = grid_compute Rops f tr grid (NoInt (-1)) x.
Proof.
  intros X f x dflt e tr grid Ev He Hb Hl Sy. unfold grid_compute. rewrite adjust_skip_neg by lia. cbn [bind].
  destruct (setup_t_grid Rops (t_steps tr) (t_bs tr) (t_dt tr) grid _) as [dg|] eqn:Es; cbn [bind]; [|reflexivity].
  destruct (setup_regular tr _ _ dg Hb Es) as [U S]. rewrite Hb.
  destruct (t_steps tr) as [|s0 ss] eqn:Et.
  - destruct x; [reflexivity|discriminate].
  - replace (Nat.min (length (s0 :: ss)) 1) with 1%nat by (cbn; lia). rewrite <- Et in *. apply (offset_reverse X f x dflt Sy tr dg e); assumption.
Qed.

Theorem C109_msd_partial : forall e (tr : traj Rops) grid rmax ts no (x : list (list (list R))), regular e tr x ->
  msd_compute Rops (backwards tr) grid rmax ts (NoInt (-1)) no (rev x) = msd_compute Rops tr grid rmax ts (NoInt (-1)) no x.
Proof.
  intros e tr grid rmax ts no x [Ev [He [Hb [Hl [N HN]]]]]. rewrite (backwards_every _ e) by exact Ev. unfold msd_compute. rewrite adjust_skip_neg by lia. cbn [bind].
  assert (Sy : forall a b, In a x -> In b x -> msd Rops a b = msd Rops b a) by (intros a b Ha Hb'; apply msd_sym; rewrite (HN a Ha), (HN b Hb'); reflexivity).
  assert (G : msd_grid Rops tr grid rmax ts (rev x) = msd_grid Rops tr grid rmax ts x).
  { unfold msd_grid. destruct grid as [g|]; [reflexivity|]. destruct (nlt Rops (n0 Rops) rmax); [|reflexivity].
    destruct x as [|a x0]; [reflexivity|]. set (x := a :: x0) in *.
    assert (Lx : (1 <= length x)%nat) by (cbn; lia).
    assert (G1 : forall y : list (list (list R)), (1 <= length y)%nat -> getZ y (-1) = Ok (nth (length y - 1) y []) /\ get y 0 = Ok (nth 0 y [])).
    { intros y Ly. split; [|apply get_Ok; lia]. unfold getZ. cbn [Z.ltb Z.compare]. replace (-1 + Z.of_nat (length y) <? 0)%Z with false by (symmetry; apply Z.ltb_ge; lia).
      replace (Z.to_nat (-1 + Z.of_nat (length y))) with (length y - 1)%nat by lia. apply get_Ok. lia. }
    destruct (G1 x Lx) as [A1 A2]. destruct (G1 (rev x)) as [B1 B2]; [rewrite rev_length; exact Lx|].
    flatR. rewrite A1, A2, B1, B2. cbn [bind]. rewrite rev_length, !rev_nth by lia. replace (length x - S (length x - 1))%nat with 0%nat by lia.
    rewrite (Sy (nth 0 x []) (nth (length x - 1) x [])) by (apply nth_In; lia). reflexivity. }
  rewrite G. destruct (msd_grid Rops tr grid rmax ts x) as [g|]; cbn [bind]; [|reflexivity].
  destruct (setup_t_grid Rops (t_steps tr) (t_bs tr) (t_dt tr) g _) as [dg|] eqn:Es; cbn [bind]; [|reflexivity].
  destruct (setup_regular tr _ _ dg Hb Es) as [U S]. rewrite Hb.
  destruct (t_steps tr) as [|s0 ss] eqn:Et.
  - destruct x; [reflexivity|discriminate].
  - replace (Nat.min (length (s0 :: ss)) 1) with 1%nat by (cbn; lia). rewrite <- Et in *. apply (offset_reverse _ (msd Rops) x [] Sy tr dg e); assumption.
Qed.
Print Assumptions C109_msd_partial.

Theorem C109_overlap_partial : forall e (tr : traj Rops) grid a (x : list (list (list R))), regular e tr x ->
  self_overlap_compute Rops (backwards tr) grid (NoInt (-1)) a (rev x) = self_overlap_compute Rops tr grid (NoInt (-1)) a x /\
  coll_overlap_compute Rops (backwards tr) grid (NoInt (-1)) a (rev x) = coll_overlap_compute Rops tr grid (NoInt (-1)) a x.
Proof.
  intros e tr grid a x [Ev [He [Hb [Hl [N HN]]]]]. rewrite (backwards_every _ e) by exact Ev. unfold self_overlap_compute, coll_overlap_compute.
  split; apply (grid_reverse _ _ x [] e); try assumption; intros u v Hu Hv; [apply self_sym|apply coll_sym]; rewrite (HN u Hu), (HN v Hv); reflexivity.
Qed.
Print Assumptions C109_overlap_partial.

Theorem C109_alpha2_partial : forall e (tr : traj Rops) grid (x : list (list (list R))), regular e tr x ->
  alpha2_compute Rops (backwards tr) grid (NoInt (-1)) (rev x) = alpha2_compute Rops tr grid (NoInt (-1)) x.
Proof.
  intros e tr grid x [Ev [He [Hb [Hl [N HN]]]]]. rewrite (backwards_every _ e) by exact Ev. unfold alpha2_compute.
  rewrite <- (grid_reverse _ (alpha_2 Rops) (with_id Rops x) (0%nat, []) e); try assumption.
  - assert (L1 : forall y : list (list (list R)), length (with_id Rops y) = length y) by (intros y; exact (with_id_length Rops y)).
    assert (L2 : forall (y : list (list (list R))) i, (i < length y)%nat -> nth i (with_id Rops y) (0%nat, []) = (i, nth i y [])) by (intros y i; exact (with_id_nth Rops y i)).
    apply (grid_compute_ext _ _ _ _ _ _ _ _ _ _ (0%nat, []) (0%nat, [])).
    + exact (eq_trans (L1 (rev x)) (eq_trans (rev_length x) (eq_sym (eq_trans (rev_length (with_id Rops x)) (L1 x))))).
    + exact (eq_trans Hl (eq_sym (eq_trans (L1 (rev x)) (rev_length x)))).
    + intros i j Hi Hj. change (i < length (with_id Rops (rev x)))%nat in Hi. change (j < length (with_id Rops (rev x)))%nat in Hj. rewrite L1, rev_length in Hi, Hj.
      assert (L3 : forall k, (k < length x)%nat -> nth k (with_id Rops (rev x)) (0%nat, []) = (k, nth (length x - S k) x [])).
      { intros k Hk. rewrite L2 by (rewrite rev_length; exact Hk). rewrite rev_nth by exact Hk. reflexivity. }
      assert (L4 : forall k, (k < length x)%nat -> nth k (rev (with_id Rops x)) (0%nat, []) = ((length x - S k)%nat, nth (length x - S k) x [])).
      { intros k Hk. rewrite rev_nth by (rewrite L1; exact Hk). rewrite L1. apply L2. lia. }
      change (alpha_2 Rops (nth i (with_id Rops (rev x)) (0%nat, [])) (nth j (with_id Rops (rev x)) (0%nat, [])) = alpha_2 Rops (nth i (rev (with_id Rops x)) (0%nat, [])) (nth j (rev (with_id Rops x)) (0%nat, []))).
      rewrite (L3 i Hi), (L3 j Hj), (L4 i Hi), (L4 j Hj).
      unfold alpha_2. cbn [fst snd]. replace (length x - S i =? length x - S j)%nat with (i =? j)%nat; [reflexivity|].
      apply eq_true_iff_eq. rewrite !Nat.eqb_eq. lia.
  - exact (eq_trans Hl (eq_sym (with_id_length Rops x))).
  - intros [i u] [j v] Hu Hv. apply in_combine_r in Hu, Hv. apply alpha2_sym. rewrite (HN u Hu), (HN v Hv). reflexivity.
Qed.
Print Assumptions C109_alpha2_partial.

(** Velocities change sign when time is reversed. *)
Definition opposite (x : list (list R)) : list (list R) := map (map Ropp) x.

Lemma opposite_vacf : forall x y, vacf_f Rops (opposite x) (opposite y) = vacf_f Rops x y.
Proof.
  intros x y. unfold vacf_f, opposite. apply f_equal2; [f_equal|unfold nofnat; rewrite map_length; reflexivity].
  revert y. induction x as [|r x IH]; intros [|s y]; try reflexivity. cbn [map combine flat_map fst snd]. f_equal; [|apply IH].
  revert s. induction r as [|a r IHr]; intros [|b s]; try reflexivity. unfold map2 in *. cbn [map combine fst snd]. f_equal; [|apply IHr].
  change (- a * - b = a * b). ring.
Qed.

Theorem C109_vacf_partial : forall e (tr : traj Rops) grid n (x : list (list (list R))), regular e tr x ->
  vacf_compute Rops (backwards tr) grid n (rev (map opposite x)) = vacf_compute Rops tr grid n x.
Proof.
  intros e tr grid n x [Ev [He [Hb [Hl [N HN]]]]]. rewrite (backwards_every _ e) by exact Ev.
  rewrite <- map_rev. rewrite vacf_compute_map; [|rewrite rev_length; exact Hl|intros; apply opposite_vacf].
  unfold vacf_compute. destruct (adjust_skip Rops _ _ _ n) as [skip|]; cbn [bind]; [|reflexivity]. destruct grid as [g|]; [|reflexivity].
  destruct (setup_t_grid Rops (t_steps tr) (t_bs tr) (t_dt tr) g _) as [dg|] eqn:Es; cbn [bind]; [|reflexivity].
  destruct (setup_regular tr _ _ dg Hb Es) as [U S]. rewrite Hb.
  apply (offset_reverse _ (vacf_f Rops) x [] ) with (e := e); try assumption. intros u v Hu Hv. apply vacf_sym. rewrite (HN u Hu), (HN v Hv). reflexivity.
Qed.
Print Assumptions C109_vacf_partial.

(** chi4 leaves out the last origin (C22), hence depends on the direction of time: two
    particles at rest that move together in the last frame. *)
Definition three_steps : traj F64ops := mkTraj (A:=F64ops) [0; 1; 2; 3]%Z 1 (f64_ofZ 1) (f64_ofZ 3) 2.
Definition last_move : list (frame F64ops) := map (map (map f64_ofZ)) [[[0]; [0]]; [[0]; [0]]; [[0]; [0]]; [[5]; [5]]]%Z.
Theorem C109_chi4_refuted :
  every 1 (t_steps three_steps) /\ t_bs three_steps = 1%nat /\
  chi4_compute F64ops three_steps [f64_ofZ 1] (NoInt (-1)) (f64_ofZ 1) last_move = Ok [(f64_ofZ 1, f64_ofZ 0)] /\
  chi4_compute F64ops (backwards three_steps) [f64_ofZ 1] (NoInt (-1)) (f64_ofZ 1) (rev last_move) = Ok [(f64_ofZ 1, f64_frac 1 2)].
Proof.
  split; [intros [|[|[|[|i]]]] Hi; try reflexivity; cbn in Hi; lia|]. split; [reflexivity|]. split; vm_compute; reflexivity.
Qed.
Print Assumptions C109_chi4_refuted.

(** One particle that first makes a short, then a long step; the same in doubles. *)
Example C109_nonvacuous :
  regular 10 (mkTraj (A:=Rops) [5; 15; 25]%Z 1 (/ 2) 10 1) [[[0]]; [[1]]; [[3]]] /\ rev [[[0]]; [[1]]; [[3]]] <> [[[0]]; [[1]]; [[3]]] /\
  let tr := mkTraj (A:=F64ops) [5; 15; 25]%Z 1 (f64_frac 1 2) (f64_ofZ 10) 1 in
  let x := map (map (map f64_ofZ)) [[[0]]; [[1]]; [[3]]]%Z in
  t_steps (backwards tr) = t_steps tr /\
  msd_compute F64ops tr (Some (map f64_ofZ [0; 5; 10]%Z)) (f64_ofZ (-1)) 30 (NoInt (-1)) false x = Ok (map f64_ofZ [0; 5; 10]%Z, [f64_ofZ 0; f64_frac 5 2; f64_ofZ 9]) /\
  msd_compute F64ops (backwards tr) (Some (map f64_ofZ [0; 5; 10]%Z)) (f64_ofZ (-1)) 30 (NoInt (-1)) false (rev x) = Ok (map f64_ofZ [0; 5; 10]%Z, [f64_ofZ 0; f64_frac 5 2; f64_ofZ 9]).
Proof.
  split.
  { split; [intros [|[|[|i]]] Hi; try reflexivity; cbn in Hi; lia|]. split; [lia|]. split; [reflexivity|]. split; [reflexivity|]. exists 1%nat.
    intros a [<-|[<-|[<-|[]]]]; reflexivity. }
  split; [intros E; injection E; lra|]. cbv zeta. split; [reflexivity|]. split; vm_compute; reflexivity.
Qed.
