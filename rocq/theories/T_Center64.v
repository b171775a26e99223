(** Removal of the center of mass in double precision (C133). *)
From Coq Require Import List ZArith Bool Arith Reals Lia Lra Psatz Floats.SpecFloat.
From Verif Require Import PyBase PyBaseFacts Num Spec_Stats NumFacts P_Text F64Round F64Ops F64Facts P_F64Mean P_F64Time P_F64Dot P_F64Order M_Helpers M_Dynamics Spec_Doubles Spec_Fit64 P_Fit64 Spec_Center64 P_Center64.
Import ListNotations.
Local Open Scope R_scope.

(** The vector that is subtracted, one coordinate at a time *)
Definition shift64 (k : nat) (ps : list (f64 * list f64)) : f64 :=
  fdiv (nsum F64ops (products_of (map (fun p : f64 * list f64 => nth k (snd p) (S754_zero false)) ps) (map fst ps))) (nsum F64ops (map fst ps)).

Lemma products_pairs : forall k (ps : list (f64 * list f64)), products_of (map (fun p : f64 * list f64 => nth k (snd p) (S754_zero false)) ps) (map fst ps)
  = map (fun p : f64 * list f64 => fmul (nth k (snd p) (S754_zero false)) (fst p)) ps.
Proof. intros k. unfold products_of. induction ps as [|p ps IH]; cbn [map combine fst snd]; [reflexivity|]. rewrite IH. reflexivity. Qed.

Lemma fix_cm64 : forall d (ps : list (f64 * list f64)), massive d ps ->
  exists qs : list (f64 * list f64), fix_cm_frame F64ops ps = Ok qs /\ length qs = length ps /\ map fst qs = map fst ps /\ (forall q, In q qs -> length (snd q) = d) /\
  forall i p q k, nth_error ps i = Some p -> nth_error qs i = Some q -> (k < d)%nat -> fst q = fst p /\ nth k (snd q) (S754_zero false) = fsub (nth k (snd p) (S754_zero false)) (shift64 k ps).
Proof.
  intros d ps H. destruct H as [N1 [_ H]]. destruct ps as [|p0 ps0] eqn:Ep; [cbn [length] in N1; lia|]. rewrite <- Ep in *.
  assert (L0 : length (snd p0) = d) by (apply H; rewrite Ep; left; reflexivity).
  assert (Dim : forall p : f64 * list f64, In p ps -> length (snd p) = d) by (intros p Hp; apply (H p Hp)).
  pose proof (com_state F64ops d ps (repeat (n0 F64ops) d) (n0 F64ops) (repeat_length _ _) Dim) as [Lc [Mc Cc]].
  set (cm := center_of_mass F64ops ps (length (snd p0))).
  assert (Lcm : length cm = d) by (unfold cm, center_of_mass; rewrite map_length, L0; exact Lc).
  assert (Ccm : forall k, (k < d)%nat -> nth k cm (S754_zero false) = shift64 k ps).
  { intros k Hk. unfold cm, center_of_mass. rewrite L0.
    rewrite (nth_indep _ (S754_zero false) (ndiv F64ops (S754_zero false) (snd (fold_left (fun st p => (vadd F64ops (fst st) (vscale F64ops (fst p) (snd p)), nadd F64ops (snd st) (fst p))) ps (repeat (n0 F64ops) d, n0 F64ops))))) by (rewrite map_length; lia).
    refine (eq_trans (map_nth (fun c => ndiv F64ops c (snd (fold_left (fun st p => (vadd F64ops (fst st) (vscale F64ops (fst p) (snd p)), nadd F64ops (snd st) (fst p))) ps (repeat (n0 F64ops) d, n0 F64ops)))) _ (S754_zero false) k) _).
    unfold shift64. change fdiv with (ndiv F64ops). f_equal; [|exact Mc]. refine (eq_trans (Cc k (S754_zero false) Hk) _). rewrite products_pairs.
    unfold nsum. f_equal. change (S754_zero false) with (n0 F64ops). apply nth_repeat. }
  exists (map (fun p : f64 * list f64 => (fst p, vsub F64ops (snd p) cm)) ps).
  split; [|split; [apply map_length|split; [rewrite map_map; reflexivity|split]]].
  - unfold fix_cm_frame. assert (G : get ps 0 = Ok p0) by (rewrite Ep; reflexivity). refine (eq_trans (f_equal (fun z => bind z _) G) _). reflexivity.
  - intros q Hq. apply in_map_iff in Hq. destruct Hq as [p [<- Hp]]. cbn [snd]. unfold vsub. refine (eq_trans (map2_len _ _ _) _). pose proof (Dim p Hp). change (num F64ops) with f64 in *. lia.
  - intros i p q k Hp Hq Hk. rewrite nth_error_map in Hq. rewrite Hp in Hq. cbn [option_map] in Hq. inversion Hq. subst q. cbn [fst snd]. split; [reflexivity|].
    unfold vsub. assert (Lp : length (snd p) = d) by (apply Dim; apply (nth_error_In _ _ Hp)).
    refine (eq_trans (nth_map2 (nsub F64ops) (snd p) cm k (S754_zero false) (S754_zero false) (S754_zero false) ltac:(change (num F64ops) with f64; lia) ltac:(change (num F64ops) with f64 in *; lia)) _).
    rewrite (Ccm k Hk). reflexivity.
Qed.

Lemma forall2_nth : forall {X Y} (P : X -> Y -> Prop) (l : list X) (m : list Y), length l = length m -> (forall i x y, nth_error l i = Some x -> nth_error m i = Some y -> P x y) -> Forall2 P l m.
Proof.
  intros X Y P. induction l as [|x l IH]; intros [|y m] L H; cbn [length] in L; try lia; constructor; [exact (H 0%nat x y eq_refl eq_refl)|].
  apply IH; [lia|]. intros i x' y' A B. exact (H (S i) x' y' A B).
Qed.

(** Every coordinate is that relative to the center of mass, up to rounding errors. *)
Theorem C133_positions : forall d (ps : list (f64 * list f64)), massive d ps ->
  exists qs : list (f64 * list f64), fix_cm_frame F64ops ps = Ok qs /\ map fst qs = map fst ps /\
  forall i p q k, nth_error ps i = Some p -> nth_error qs i = Some q -> (k < d)%nat ->
    length (snd q) = d /\ ok (nth k (snd q) (S754_zero false)) /\
    Rabs (coord k q - (coord k p - center k ps)) <= 6 * (INR (length ps) + 1) * u * (Rabs (coord k p) + extent k ps) + p2 (-979).
Proof.
  intros d ps H. destruct (fix_cm64 d ps H) as [qs [E [L [F [Dq Q]]]]]. exists qs. split; [exact E|]. split; [exact F|].
  intros i p q k Hp Hq Hk. split; [exact (Dq q (nth_error_In _ _ Hq))|]. destruct (Q i p q k Hp Hq Hk) as [_ Eq].
  destruct (shifted_error d ps k H Hk p (nth_error_In _ _ Hp)) as [K B]. unfold coord at 1. rewrite Eq. split; [exact K|exact B].
Qed.
Print Assumptions C133_positions.

(** The new center of mass is at the origin up to rounding errors. *)
Theorem C133_center : forall d (ps : list (f64 * list f64)) k, massive d ps -> (k < d)%nat ->
  exists qs : list (f64 * list f64), fix_cm_frame F64ops ps = Ok qs /\ Rabs (center k qs) <= 12 * (INR (length ps) + 1) * u * extent k ps + p2 (-979).
Proof.
  intros d ps k H Hk. destruct (fix_cm64 d ps H) as [qs [E [L [F [Dq Q]]]]]. exists qs. split; [exact E|].
  assert (P : Forall2 (fun p q => fst q = fst p /\ Rabs (coord k q - (coord k p - center k ps)) <= 6 * (INR (length ps) + 1) * u * (Rabs (coord k p) + extent k ps) + p2 (-979)) ps qs).
  { apply forall2_nth; [symmetry; exact L|]. intros i p q Hp Hq. destruct (Q i p q k Hp Hq Hk) as [Ef Eq]. split; [exact Ef|].
    destruct (shifted_error d ps k H Hk p (nth_error_In _ _ Hp)) as [_ B]. unfold coord at 1. rewrite Eq. exact B. }
  destruct (center_error d ps k H Hk) as [PM _]. set (M := rsum (map (fun p : f64 * list f64 => fval (fst p)) ps)) in *.
  set (r := 6 * (INR (length ps) + 1) * u) in *. set (X := center k ps) in *. set (a := extent k ps) in *. set (b := p2 (-979)) in *.
  assert (EM : rsum (map (fun p : f64 * list f64 => fval (fst p)) qs) = M).
  { unfold M. clear - P. induction P as [|p q l m [E _] _ IH]; cbn [map rsum]; [reflexivity|]. rewrite E, IH. reflexivity. }
  set (T := rsum (map (fun p : f64 * list f64 => fval (fst p) * coord k p) ps)). set (B := rsum (map (fun p : f64 * list f64 => fval (fst p) * Rabs (coord k p)) ps)).
  assert (EX : X * M = T) by (unfold X, center, mass_average; fold M T; field; lra). assert (Ea : a * M = B) by (unfold a, extent, mass_average; fold M B; field; lra).
  assert (G : Rabs (rsum (map (fun q : f64 * list f64 => fval (fst q) * coord k q) qs) - (T - X * M)) <= r * (B + a * M) + b * M).
  { unfold T, B, M. destruct H as [_ [_ H]]. clear - P H. clearbody r X a b. induction P as [|p q l m [E Z] _ IH]; cbn [map rsum].
    - replace (0 - (0 - X * 0)) with 0 by ring. rewrite Rabs_R0. lra.
    - specialize (IH (fun p' Hp => H p' (or_intror Hp))). destruct (H p (or_introl eq_refl)) as [_ [_ [[Q _] _]]]. pose proof (p2_pos (-60)) as P60. rewrite E.
      set (mp := fval (fst p)) in *.
      match goal with |- Rabs (mp * coord k q + ?sq - (mp * coord k p + ?sp - X * (mp + ?sm))) <= _ => replace (mp * coord k q + sq - (mp * coord k p + sp - X * (mp + sm))) with (mp * (coord k q - (coord k p - X)) + (sq - (sp - X * sm))) by ring end.
      eapply Rle_trans; [apply Rabs_triang|]. rewrite Rabs_mult, (Rabs_right mp) by lra. pose proof (Rmult_le_compat_l mp _ _ ltac:(lra) Z). lra. }
  rewrite EX in G. replace (T - T) with 0 in G by ring. rewrite Rminus_0_r in G. rewrite Ea in G.
  unfold center, mass_average. rewrite EM. apply Rmult_le_reg_r with M; [exact PM|]. rewrite <- (Rabs_right M) at 2 by lra. rewrite <- Rabs_mult. unfold Rdiv. rewrite Rmult_assoc, Rinv_l, Rmult_1_r by lra.
  eapply Rle_trans; [exact G|]. replace (12 * (INR (length ps) + 1) * u) with (2 * r) by (unfold r; ring). rewrite <- Ea. lra.
Qed.
Print Assumptions C133_center.

(** The same vector is subtracted from all particles: their separations change only by the
    rounding of the new positions. *)
Theorem C133_separations : forall d (ps : list (f64 * list f64)), massive d ps ->
  exists qs : list (f64 * list f64), fix_cm_frame F64ops ps = Ok qs /\
  forall i j pi pj qi qj k, nth_error ps i = Some pi -> nth_error ps j = Some pj -> nth_error qs i = Some qi -> nth_error qs j = Some qj -> (k < d)%nat ->
    Rabs ((coord k qi - coord k qj) - (coord k pi - coord k pj)) <= 2 * u * (Rabs (coord k qi) + Rabs (coord k qj)).
Proof.
  intros d ps H. destruct (fix_cm64 d ps H) as [qs [E [L [F [Dq Q]]]]]. exists qs. split; [exact E|]. pose proof u_small as U.
  assert (One : forall i p q k, nth_error ps i = Some p -> nth_error qs i = Some q -> (k < d)%nat -> Rabs (coord k q - (coord k p - fval (shift64 k ps))) <= 2 * u * Rabs (coord k q)).
  { intros i p q k Hp Hq Hk. destruct (Q i p q k Hp Hq Hk) as [_ Eq]. destruct (center_error d ps k H Hk) as [_ [_ [_ [Kc [Bc _]]]]]. fold (shift64 k ps) in Kc, Bc.
    destruct (xs_ok d ps k H Hk (nth k (snd p) (S754_zero false))) as [Kx Bx]. { apply in_map_iff. exists p. split; [reflexivity|exact (nth_error_In _ _ Hp)]. }
    destruct (sub_bound 300 _ _ Kx Kc (Rle_trans _ _ _ Bx (p2_le 60 300 ltac:(lia))) Bc ltac:(lia)) as [_ [_ B]].
    unfold coord. rewrite Eq. set (x := fval (nth k (snd p) (S754_zero false))) in *. set (c := fval (shift64 k ps)) in *. set (z := fval (fsub _ _)) in *.
    assert (T : Rabs (x - c) <= Rabs z + Rabs (z - (x - c))) by (replace (x - c) with (z + - (z - (x - c))) at 1 by ring; eapply Rle_trans; [apply Rabs_triang|]; rewrite Rabs_Ropp; lra).
    pose proof (Rabs_pos (x - c)). pose proof (Rabs_pos z). assert (Rabs (x - c) <= 2 * Rabs z) by nra. nra. }
  intros i j pi pj qi qj k Hpi Hpj Hqi Hqj Hk. pose proof (One i pi qi k Hpi Hqi Hk) as A. pose proof (One j pj qj k Hpj Hqj Hk) as B. set (c := fval (shift64 k ps)) in *.
  replace (coord k qi - coord k qj - (coord k pi - coord k pj)) with ((coord k qi - (coord k pi - c)) + - (coord k qj - (coord k pj - c))) by ring.
  eapply Rle_trans; [apply Rabs_triang|]. rewrite Rabs_Ropp. lra.
Qed.
Print Assumptions C133_separations.

(** Two particles of masses 1 and 3 in the plane. *)
Example C133_nonvacuous :
  let ps := [(f64_ofZ 1, map f64_ofZ [0; 4]%Z); (f64_ofZ 3, map f64_ofZ [4; 0]%Z)] in
  massive 2 ps /\ center 0 ps = 3 /\ extent 1 ps = 1 /\
  fix_cm_frame F64ops ps = Ok [(f64_ofZ 1, map f64_ofZ [-3; 3]%Z); (f64_ofZ 3, map f64_ofZ [1; -1]%Z)].
Proof.
  intros ps.
  assert (V : forall z, (Z.abs z <= 2 ^ 53)%Z -> ok (f64_ofZ z) /\ fval (f64_ofZ z) = IZR z) by exact ofZ_exact.
  destruct (V 0%Z ltac:(lia)) as [K0 V0]. destruct (V 1%Z ltac:(lia)) as [K1 V1]. destruct (V 3%Z ltac:(lia)) as [K3 V3]. destruct (V 4%Z ltac:(lia)) as [K4 V4].
  assert (P60 : 4 <= p2 60) by (rewrite p2_Z by lia; apply IZR_le; lia).
  assert (N60 : p2 (-60) <= 1) by (change 1 with (p2 0); apply p2_le; lia).
  split; [|split; [|split]].
  - split; [cbn [length ps]; unfold ps; cbn [length]; lia|]. split; [unfold ps; cbn [length]; lia|]. intros p [<-|[<-|[]]]; cbn [fst snd map length].
    + split; [reflexivity|]. split; [exact K1|]. split; [rewrite V1; lra|]. intros x [<-|[<-|[]]]; (split; [assumption|]); [rewrite V0, Rabs_R0; lra|rewrite V4, Rabs_right; lra].
    + split; [reflexivity|]. split; [exact K3|]. split; [rewrite V3; lra|]. intros x [<-|[<-|[]]]; (split; [assumption|]); [rewrite V4, Rabs_right; lra|rewrite V0, Rabs_R0; lra].
  - unfold center, mass_average, coord, ps. cbn [map rsum fst snd nth]. rewrite V0, V1, V3, V4. field.
  - unfold extent, mass_average, coord, ps. cbn [map rsum fst snd nth]. rewrite V0, V1, V3, V4. rewrite Rabs_R0, (Rabs_right 4) by lra. field.
  - vm_compute. reflexivity.
Qed.
