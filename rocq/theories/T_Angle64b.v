(** Theorems about the bonds and neighbours of C142: C142_images, C142_neighbours. *)
From Coq Require Import List ZArith Bool Arith Reals Lia Lra Psatz Floats.SpecFloat.
From Verif Require Import PyBase PyBaseFacts Num Spec_Stats NumFacts P_Text F64Round F64Ops F64Facts F64Sqrt P_F64Mean M_Helpers M_Dynamics M_Realspace M_BondAngle
  Spec_BondAngle P_BondAngle Spec_Doubles P_F64Time P_F64Overlap P_F64Msd P_F64Order P_F64Dot P_Pairs P_F64Dist P_Fit64 Spec_Grid64 P_Grid64 T_Grid64 P_Helpers P_Count P_Cache P_F64Bins Spec_Correlation Spec_Dist Spec_Angle64 P_Angle64 P_Angle64b T_Angle64.
Import ListNotations.
Local Open Scope R_scope.

(** Fortran: where (abs(r) > box/2) r = r - sign(box, r). *)
Lemma wrap_image : forall x y L, coordinate x y L -> Rabs (fval x - fval y) <= 3 / 2 * fval L ->
  let c := wrap F64ops (fsub x y) L in let a := Rabs (fval x - fval y) in
  ok c /\ exists k, Rabs (fval c - (fval x - fval y - IZR k * fval L)) <= 2 * u * (a + fval L) /\ Rabs (fval x - fval y - IZR k * fval L) <= fval L / 2 + 2 * u * (a + fval L).
Proof.
  intros x y L C Far c a. destruct (difference x y L C) as [Kr [Er Br]]. destruct C as [Kx [Ky [KL [Bx [By [L1 L2]]]]]]. unfold wrap in c. cbn [nsub nmul ndiv nlt nabs nofZ F64ops] in c.
  change (num F64ops) with f64 in c. set (r := fsub x y) in *. fold a in Er, Far. set (l := fval L) in *.
  pose proof u_tiny as U1. pose proof u_pos as U0. destruct (tiny_side l L1) as [T1 _]. pose proof tiny_pos as T0. assert (Hl : 0 < l) by (apply Rlt_le_trans with (2 := L1), p2_pos). assert (Ha : 0 <= a) by apply Rabs_pos.
  assert (X0 : 0 <= u * a) by (apply Rmult_le_pos; lra). assert (Y0 : 0 <= u * l) by (apply Rmult_le_pos; lra).
  assert (Xa : u * a <= a / 1024) by nra. assert (Yl : u * l <= l / 1024) by nra. assert (XX : u * (u * a) <= u * a / 1024) by nra. assert (YY : u * (u * l) <= u * l / 1024) by nra.
  assert (E401 : p2 401 = 2 * p2 400) by (change 401%Z with (400 + 1)%Z; apply p2_succ). assert (E404 : p2 404 = 16 * p2 400) by (change 404%Z with (400 + 1 + 1 + 1 + 1)%Z; rewrite !p2_succ; ring).
  set (h := fdiv L (f64_ofZ 2)) in *. destruct (ofZ_exact 2 ltac:(lia)) as [K2 E2].
  assert (Rh : rounded (l / 2) h) by (rewrite <- E2; apply div_spec; try apply KL; try apply K2; rewrite E2; lra).
  destruct (rounded_bounded _ _ (p2 400) Rh) as [Kh Bh]; [apply format_p2; lia|rewrite Rabs_right by lra; lra|apply p2_lt; lia|].
  pose proof (rounded_error _ _ Rh Kh) as Eh. rewrite (Rabs_right (l / 2)) in Eh by lra. apply Rabs_le_inv in Eh.
  destruct (abs_value r Kr) as [Ka Ea]. destruct (abs_value L KL) as [KaL EaL]. fold l in EaL. rewrite (Rabs_right l) in EaL by lra.
  assert (Ra : Rabs (fval r) <= a + u * a).
  { replace (fval r) with ((fval x - fval y) + (fval r - (fval x - fval y))) by ring. apply Rle_trans with (1 := Rabs_triang _ _). fold a. lra. }
  assert (Ra' : a - u * a <= Rabs (fval r)).
  { assert (a <= Rabs (fval r) + Rabs (fval r - (fval x - fval y))); [|lra]. unfold a. replace (fval x - fval y) with (fval r + - (fval r - (fval x - fval y))) at 1 by ring. apply Rle_trans with (1 := Rabs_triang _ _). rewrite Rabs_Ropp. lra. }
  destruct (SFltb h (SFabs r)) eqn:Eb.
  - apply ltb_spec in Eb; [|assumption|assumption]. rewrite Ea in Eb.
    set (s := if SFltb r (S754_zero false) then SFopp (SFabs L) else SFabs L).
    assert (Es : c = fsub r s) by reflexivity. clearbody c. subst c.
    assert (Hs : exists k, ok s /\ fval s = IZR k * l /\ Rabs (fval x - fval y - IZR k * l) = Rabs (a - l)).
    { unfold s. destruct (SFltb r (S754_zero false)) eqn:E0.
      - apply ltb_spec in E0; [|assumption|apply ok_zero]. cbn [fval] in E0. exists (-1)%Z. destruct (opp_ok _ KaL) as [Ko Eo]. split; [exact Ko|]. split; [rewrite Eo, EaL; lra|].
        assert (D : fval x - fval y < 0). { destruct (Rlt_le_dec (fval x - fval y) 0) as [D|D]; [exact D|]. exfalso. apply Rabs_le_inv in Er. unfold a in *. rewrite (Rabs_right (fval x - fval y)) in * by lra. nra. }
        unfold a. rewrite (Rabs_left (fval x - fval y)) by exact D. rewrite <- Rabs_Ropp. f_equal. lra.
      - assert (E0' : 0 <= fval r). { destruct (Rle_lt_dec 0 (fval r)) as [D|D]; [exact D|]. exfalso. assert (SFltb r (S754_zero false) = true) by (apply ltb_spec; [assumption|apply ok_zero|exact D]). congruence. }
        exists 1%Z. split; [exact KaL|]. split; [rewrite EaL; lra|].
        assert (D : 0 <= fval x - fval y). { destruct (Rle_lt_dec 0 (fval x - fval y)) as [D|D]; [exact D|]. exfalso. apply Rabs_le_inv in Er. unfold a in *. rewrite (Rabs_left (fval x - fval y)) in * by exact D. nra. }
        unfold a. rewrite (Rabs_right (fval x - fval y)) by lra. f_equal. lra. }
    destruct Hs as [k [Ks [Ek Dk]]]. assert (Dl : Rabs (a - l) <= l / 2 + (u * a + u * l)) by (apply Rabs_le; lra).
    assert (Rc : rounded (fval r - fval s) (fsub r s)) by (apply sub_spec; try apply Kr; apply Ks).
    assert (Drs : Rabs (fval r - fval s) <= l / 2 + (2 * (u * a) + u * l)).
    { rewrite Ek. replace (fval r - IZR k * l) with ((fval r - (fval x - fval y)) + (fval x - fval y - IZR k * l)) by ring. apply Rle_trans with (1 := Rabs_triang _ _). lra. }
    destruct (rounded_bounded _ _ (p2 404) Rc) as [Kc Bc]; [apply format_p2; lia|apply Rle_trans with (1 := Drs); lra|apply p2_lt; lia|].
    pose proof (sub_relative r s _ Kr Ks Rc Kc) as Ec. split; [exact Kc|].
    assert (u * Rabs (fval r - fval s) <= u * (l / 2 + (2 * (u * a) + u * l))) by (apply Rmult_le_compat_l; lra).
    exists k. split.
    + replace (fval (fsub r s) - (fval x - fval y - IZR k * l)) with ((fval (fsub r s) - (fval r - fval s)) + (fval r - (fval x - fval y))) by (rewrite Ek; ring).
      apply Rle_trans with (1 := Rabs_triang _ _). lra.
    + rewrite Dk. lra.
  - subst c. split; [exact Kr|]. assert (Eb' : Rabs (fval r) <= fval h).
    { destruct (Rle_lt_dec (Rabs (fval r)) (fval h)) as [D|D]; [exact D|]. exfalso. assert (SFltb h (SFabs r) = true) by (apply ltb_spec; [assumption|assumption|rewrite Ea; exact D]). congruence. }
    exists 0%Z. rewrite Rmult_0_l, Rminus_0_r. fold a. split; lra.
Qed.

(** The vector of a bond is the difference of the positions, folded to the closest image of
    the cell (or to one that is further by no more than rounding) in every direction. *)
Theorem C142_images : forall c x side : list f64, length x = length c -> length side = length c -> let r := wrapv F64ops c x side in
  @length f64 r = length c /\
  forall i a b L, nth_error c i = Some a -> nth_error x i = Some b -> nth_error side i = Some L -> coordinate a b L -> Rabs (fval a - fval b) <= 3 / 2 * fval L ->
  exists w k, nth_error r i = Some w /\ ok w /\
    Rabs (fval w - (fval a - fval b - IZR k * fval L)) <= 2 * p2 (-53) * (Rabs (fval a - fval b) + fval L) /\
    forall k', Rabs (fval a - fval b - IZR k * fval L) <= Rabs (fval a - fval b - IZR k' * fval L) + 4 * p2 (-53) * (Rabs (fval a - fval b) + fval L).
Proof.
  intros c x side L1 L2 r. fold u. split.
  { unfold r, wrapv. change (num F64ops) with f64. rewrite !map2_app_len. lia. }
  intros i a b L Ea Eb EL C Far. destruct (wrap_image a b L C Far) as [Kw [k [B1 B2]]]. exists (wrap F64ops (fsub a b) L), k. split; [|split; [exact Kw|split; [exact B1|]]].
  - unfold r, wrapv. clear - Ea Eb EL. revert i x side Ea Eb EL. induction c as [|a' c IH]; intros [|i] [|b' x] [|L' side]; cbn [nth_error]; try discriminate.
    + intros [= ->] [= ->] [= ->]. reflexivity.
    + intros Ea Eb EL. exact (IH i x side Ea Eb EL).
  - intros k'. destruct C as [_ [_ [_ [_ [_ [L3 _]]]]]]. assert (Hl : 0 < fval L) by (apply Rlt_le_trans with (2 := L3), p2_pos). set (l := fval L) in *. set (t := fval a - fval b) in *.
    pose proof u_pos as U0. assert (E0 : 0 <= u * (Rabs t + l)) by (apply Rmult_le_pos; [lra|pose proof (Rabs_pos t); lra]). destruct (Z.eq_dec k' k) as [->|N]; [lra|].
    assert (D : l <= Rabs (t - IZR k * l) + Rabs (t - IZR k' * l)).
    { apply Rle_trans with (Rabs (IZR (k' - k)) * l).
      - assert (1 <= Rabs (IZR (k' - k))) by (rewrite <- abs_IZR; apply IZR_le; lia). nra.
      - replace (Rabs (IZR (k' - k)) * l) with (Rabs ((t - IZR k * l) + - (t - IZR k' * l))).
        + apply Rle_trans with (1 := Rabs_triang _ _). rewrite Rabs_Ropp. lra.
        + replace (t - IZR k * l + - (t - IZR k' * l)) with (IZR (k' - k) * l) by (rewrite minus_IZR; ring). rewrite Rabs_mult, (Rabs_right l) by lra. reflexivity. }
    lra.
Qed.
Print Assumptions C142_images.

(** The neighbours are the particles closer than the cutoff, up to rounding of the squares. *)
Theorem C142_neighbours : forall (side c : list f64) pos ids (rcut : list f64) j, (j < length pos)%nat ->
  let r : list f64 := wrapv F64ops c (nth j pos []) side in let rc : f64 := nth (nth j ids 0%nat) rcut (n0 F64ops) in let D := dot (map fval r) (map fval r) in
  (length r <= 1000)%nat -> (forall w, In w r -> ok w /\ Rabs (fval w) <= p2 100) -> ok rc -> p2 (-90) <= fval rc <= p2 90 ->
  (In j (computed_neighbours F64ops side c pos ids rcut) -> D < (1 + (2 * INR (length r) + 6) * p2 (-53)) * (fval rc * fval rc)) /\
  (D < (1 - (2 * INR (length r) + 6) * p2 (-53)) * (fval rc * fval rc) -> In j (computed_neighbours F64ops side c pos ids rcut)).
Proof.
  intros side c pos ids rcut j Hj r rc D Lr Hr Krc Brc. fold u. pose proof u_pos as U0. pose proof u_nano as UN. pose proof (p2_pos (-90)) as P90.
  destruct (vdot_close r r eq_refl Lr Hr Hr) as [Ks [_ Es]]. rewrite dot_abs_self in Es. fold D in Es. set (s := vdot F64ops r r) in *.
  assert (R1 : rounded (fval rc * fval rc) (fmul rc rc)) by (apply mul_spec; apply Krc). set (Q := fval rc * fval rc) in *.
  assert (Q1 : p2 (-180) <= Q <= p2 180) by (split; [change (-180)%Z with (-90 + -90)%Z|change 180%Z with (90 + 90)%Z]; rewrite p2_add; unfold Q; apply Rmult_le_compat; lra).
  pose proof (p2_pos (-180)) as P180. destruct (rounded_bounded _ _ (p2 180) R1) as [Km _]; [apply format_p2; lia|rewrite Rabs_right; lra|apply p2_lt; lia|].
  pose proof (rounded_error _ _ R1 Km) as Em. rewrite (Rabs_right Q) in Em by lra. set (m := fmul rc rc) in *.
  assert (T : 1000 * tiny <= u * Q / 100) by (apply tiny_rel; apply Rle_trans with (2 := proj1 Q1), p2_le; lia). pose proof tiny_pos as T0.
  assert (D0 : 0 <= D) by (unfold D; apply dot_self_nonneg). set (n := INR (length r)) in *. assert (N : 0 <= n <= 1000) by (unfold n; split; [apply pos_INR|replace 1000 with (INR 1000) by (rewrite INR_IZR_INZ; reflexivity); apply le_INR; exact Lr]).
  assert (nT : n * tiny <= u * Q / 100) by (apply Rle_trans with (1000 * tiny); [apply Rmult_le_compat_r; lra|exact T]). apply Rabs_le_inv in Es. apply Rabs_le_inv in Em.
  assert (uQ : 0 < u * Q) by (apply Rmult_lt_0_compat; lra). set (A := 2 * n + 2) in *. assert (BA : 2 <= A <= 2002) by (unfold A; lra).
  assert (AA : 0 <= A * (A + 4) * u <= / 100) by (split; [apply Rmult_le_pos; [apply Rmult_le_pos; lra|lra]|]; apply Rle_trans with (2002 * 2006 * u); [apply Rmult_le_compat_r; [lra|]; apply Rmult_le_compat; lra|lra]).
  assert (Au : 0 <= A * u <= / 100) by (split; [apply Rmult_le_pos; lra|apply Rle_trans with (2002 * u); [apply Rmult_le_compat_r; lra|lra]]).
  assert (X : A * (A + 4) * u * (u * Q) <= / 100 * (u * Q)) by (apply Rmult_le_compat_r; lra).
  replace (2 * n + 6) with (A + 4) by (unfold A; ring).
  assert (I1 : In j (computed_neighbours F64ops side c pos ids rcut) <-> SFltb s m = true).
  { unfold computed_neighbours. rewrite filter_In. split; [intros [_ H]; exact H|intros H; split; [apply in_seq; lia|exact H]]. }
  split.
  - intros H. apply I1 in H. apply ltb_spec in H; [|assumption|assumption]. apply Rnot_le_lt. intros C.
    assert (Y : (1 + (A + 4) * u) * Q * (1 - A * u) <= D * (1 - A * u)) by (apply Rmult_le_compat_r; lra).
    replace ((1 + (A + 4) * u) * Q * (1 - A * u)) with (Q + 4 * (u * Q) - A * (A + 4) * u * (u * Q)) in Y by ring. lra.
  - intros H. apply I1. apply ltb_spec; [assumption|assumption|].
    assert (Y : D * (1 + A * u) <= (1 - (A + 4) * u) * Q * (1 + A * u)) by (apply Rmult_le_compat_r; lra).
    replace ((1 - (A + 4) * u) * Q * (1 + A * u)) with (Q - 4 * (u * Q) - A * (A + 4) * u * (u * Q)) in Y by ring. assert (0 <= A * (A + 4) * u * (u * Q)) by (apply Rmult_le_pos; lra). lra.
Qed.
Print Assumptions C142_neighbours.

(** The bond of the particles at 0.5 and 9.5 in a cell of side 10 crosses the border. *)
Example C142_images_nonvacuous : let a := f64_frac 1 2 in let b := f64_frac 19 2 in let L := f64_ofZ 10 in
  coordinate a b L /\ Rabs (fval a - fval b) <= 3 / 2 * fval L /\ wrapv F64ops [a] [b] [L] = [f64_ofZ 1] /\
  In 0%nat (computed_neighbours F64ops [L] [a] [[b]] [0%nat] [f64_frac 12 10]) /\ ~ In 0%nat (computed_neighbours F64ops [L] [a] [[b]] [0%nat] [f64_frac 9 10]).
Proof.
  intros a b L. destruct (ofZ_exact 10 ltac:(cbn; lia)) as [KL EL]. assert (Ka : ok a /\ fval a = / 2).
  { split; [split; [vm_compute; reflexivity|exact I]|]. change (fval a) with (sgn false * (IZR 4503599627370496 * p2 (-53))). cbn [sgn]. replace (IZR 4503599627370496) with (p2 52) by (rewrite p2_Z by lia; reflexivity). rewrite <- p2_add. unfold p2. simpl. lra. }
  assert (Kb : ok b /\ fval b = 19 / 2).
  { split; [split; [vm_compute; reflexivity|exact I]|]. change (fval b) with (sgn false * (IZR 5348024557502464 * p2 (-49))). cbn [sgn]. replace (IZR 5348024557502464) with (19 * p2 48) by (rewrite p2_Z by lia; change (2 ^ 48)%Z with 281474976710656%Z; rewrite <- mult_IZR; reflexivity).
    rewrite Rmult_assoc, <- p2_add. unfold p2. simpl. lra. }
  destruct Ka as [Ka Ea]. destruct Kb as [Kb Eb]. assert (P : 16 <= p2 400 /\ p2 (-400) <= 1) by (split; [apply Rle_trans with (p2 4); [rewrite p2_Z by lia; cbn; lra|apply p2_le; lia]|change 1 with (p2 0); apply p2_le; lia]). destruct P as [P1 P2].
  split; [|split; [|split; [vm_compute; reflexivity|split]]].
  - unfold coordinate. fold L in KL, EL. rewrite Ea, Eb, EL. split; [exact Ka|]. split; [exact Kb|]. split; [exact KL|]. split; [rewrite Rabs_right; lra|]. split; [rewrite Rabs_right; lra|lra].
  - fold L in EL. rewrite Ea, Eb, EL. rewrite Rabs_left; lra.
  - vm_compute. left. reflexivity.
  - vm_compute. intros [].
Qed.
