(** Proofs about linear_grid in double precision (C132). *)
From Coq Require Import List ZArith Bool Arith Reals Lia Lra Psatz Floats.SpecFloat.
From Verif Require Import PyBase PyBaseFacts Num NumFacts P_Text F64Round F64Ops F64Facts P_F64Mean P_F64Time P_F64Overlap P_Linked64 P_F64Dot M_Helpers Spec_Grid64.
Import ListNotations.
Local Open Scope R_scope.

Definition point (a d : f64) (i : nat) : f64 := fadd a (fmul (f64_ofZ (Z.of_nat i)) d).

Lemma grid_points64 : forall (a d : f64) n, grid_points F64ops a d n = map (point a d) (seq 0 (Z.to_nat n)).
Proof. reflexivity. Qed.

Lemma product_point : forall d i, ok d -> (Z.of_nat i <= 2 ^ 53)%Z -> INR i * Rabs (fval d) <= p2 1002 ->
  ok (fmul (f64_ofZ (Z.of_nat i)) d) /\ rounded (INR i * fval d) (fmul (f64_ofZ (Z.of_nat i)) d) /\
  Rabs (fval (fmul (f64_ofZ (Z.of_nat i)) d) - INR i * fval d) <= u * (INR i * Rabs (fval d)).
Proof.
  intros d i Kd Hi B. destruct (ofZ_exact (Z.of_nat i) ltac:(lia)) as [Ki Ei].
  pose proof (mul_spec _ d (proj1 Ki) (proj1 Kd) (proj2 Ki) (proj2 Kd)) as M. rewrite Ei, <- INR_IZR_INZ in M.
  assert (Q : Rabs (INR i * fval d) = INR i * Rabs (fval d)) by (rewrite Rabs_mult, (Rabs_right (INR i)) by (apply Rle_ge, pos_INR); reflexivity).
  destruct (rounded_bounded _ _ (p2 1002) M (format_p2 1002 ltac:(lia)) ltac:(rewrite Q; exact B) (p2_lt 1002 1024 ltac:(lia))) as [K _].
  split; [exact K|]. split; [exact M|]. rewrite <- Q.
  destruct (format_multiple (fval d) (ok_format d Kd)) as [k Ek].
  apply (multiple_relative (Z.of_nat i * k)); [rewrite mult_IZR, <- INR_IZR_INZ, Ek; ring|exact M|exact K].
Qed.

Lemma point_spec : forall a d i, grid_end a -> ok d -> (Z.of_nat i <= 2 ^ 53)%Z -> INR i * Rabs (fval d) <= p2 1002 ->
  ok (point a d i) /\ rounded (fval a + fval (fmul (f64_ofZ (Z.of_nat i)) d)) (point a d i) /\
  Rabs (fval (point a d i) - (fval a + INR i * fval d)) <= u * (Rabs (fval a) + 3 * (INR i * Rabs (fval d))).
Proof.
  intros a d i [Ka Ba] Kd Hi B. destruct (product_point d i Kd Hi B) as [Kp [Rp Ep]].
  set (q := fmul (f64_ofZ (Z.of_nat i)) d) in *. pose proof u_small as U. pose proof (pos_INR i) as Pi. pose proof (Rabs_pos (fval d)) as Pd.
  assert (Q : Rabs (INR i * fval d) = INR i * Rabs (fval d)) by (rewrite Rabs_mult, (Rabs_right (INR i)) by (apply Rle_ge; exact Pi); reflexivity).
  set (t := INR i * Rabs (fval d)) in *. assert (Pt : 0 <= t) by (unfold t; apply Rmult_le_pos; assumption).
  assert (Bq : Rabs (fval q) <= (1 + u) * t).
  { replace (fval q) with ((fval q - INR i * fval d) + INR i * fval d) by ring. eapply Rle_trans; [apply Rabs_triang|]. rewrite Q. lra. }
  pose proof (add_spec a q (proj1 Ka) (proj1 Kp) (proj2 Ka) (proj2 Kp)) as M.
  assert (Bs : Rabs (fval a + fval q) <= Rabs (fval a) + (1 + u) * t) by (eapply Rle_trans; [apply Rabs_triang|]; lra).
  assert (P1 : p2 1002 = 4 * p2 1000) by (change 1002%Z with (1000 + 1 + 1)%Z; rewrite !p2_succ; ring).
  assert (P2 : p2 1003 = 8 * p2 1000) by (change 1003%Z with (1000 + 1 + 1 + 1)%Z; rewrite !p2_succ; ring).
  pose proof (p2_pos 1000) as P0.
  destruct (rounded_bounded _ _ (p2 1003) M (format_p2 1003 ltac:(lia))) as [Kx _]; [|apply p2_lt; lia|].
  { eapply Rle_trans; [exact Bs|]. nra. }
  split; [exact Kx|]. split; [exact M|].
  pose proof (add_relative a q _ Ka Kp M Kx) as E. fold (point a d i) in *. change (SFadd fprec femax a q) with (point a d i) in E.
  replace (fval (point a d i) - (fval a + INR i * fval d)) with ((fval (point a d i) - (fval a + fval q)) + (fval q - INR i * fval d)) by ring.
  eapply Rle_trans; [apply Rabs_triang|].
  pose proof (Rmult_le_compat_l u _ _ (Rlt_le _ _ (proj1 U)) Bs) as B1. assert (B2 : u * (u * t) <= u * t) by (apply Rmult_le_compat_l; [lra|nra]).
  lra.
Qed.

Lemma point_0 : forall a d, grid_end a -> ok d -> fval (point a d 0) = fval a.
Proof.
  intros a d Ha Kd. destruct (point_spec a d 0 Ha Kd ltac:(lia) ltac:(cbn [INR]; rewrite Rmult_0_l; apply Rlt_le, p2_pos)) as [Kx [M _]].
  destruct (product_point d 0 Kd ltac:(lia) ltac:(cbn [INR]; rewrite Rmult_0_l; apply Rlt_le, p2_pos)) as [Kp [_ Ep]].
  cbn [INR] in Ep. rewrite !Rmult_0_l, Rmult_0_r, Rminus_0_r in Ep. set (q := fmul _ d) in *.
  assert (Zq : fval q = 0) by (destruct (Req_dec (fval q) 0) as [Z|N]; [exact Z|]; apply Rabs_pos_lt in N; lra).
  rewrite Zq, Rplus_0_r in M. destruct Ha as [Ka _].
  exact (proj2 (rounded_exact _ _ M (ok_format a Ka) (ok_bound a Ka))).
Qed.

Lemma point_mono : forall a d i j, grid_end a -> ok d -> 0 <= fval d -> (i <= j)%nat -> (Z.of_nat j <= 2 ^ 53)%Z -> INR j * Rabs (fval d) <= p2 1002 ->
  fval (point a d i) <= fval (point a d j).
Proof.
  intros a d i j Ha Kd Pd Hij Hj B. assert (Le : INR i <= INR j) by (apply le_INR; exact Hij).
  assert (Bi : INR i * Rabs (fval d) <= p2 1002) by (pose proof (Rabs_pos (fval d)); nra).
  destruct (product_point d i Kd ltac:(lia) Bi) as [Kp [Rp _]]. destruct (product_point d j Kd Hj B) as [Kp' [Rp' _]].
  destruct (point_spec a d i Ha Kd ltac:(lia) Bi) as [Kx [M _]]. destruct (point_spec a d j Ha Kd Hj B) as [Kx' [M' _]].
  unfold point in *. set (q := fmul (f64_ofZ (Z.of_nat i)) d) in *. set (q' := fmul (f64_ofZ (Z.of_nat j)) d) in *.
  assert (L : fval q <= fval q').
  { destruct (Rle_lt_or_eq_dec (INR i * fval d) (INR j * fval d) ltac:(nra)) as [lt|eq].
    - exact (rounded_lt_mono _ _ _ _ Rp Rp' Kp Kp' lt).
    - destruct (Req_dec (INR i) (INR j)) as [E|N].
      + apply INR_eq in E. subst j. apply Rle_refl.
      + assert (Zd : fval d = 0) by nra. rewrite Zd, Rmult_0_r in Rp, Rp'.
        rewrite (proj2 (rounded_exact _ _ Rp format_0 ltac:(rewrite Rabs_R0; apply p2_pos))), (proj2 (rounded_exact _ _ Rp' format_0 ltac:(rewrite Rabs_R0; apply p2_pos))). apply Rle_refl. }
  destruct (Rle_lt_or_eq_dec _ _ L) as [lt|eq].
  - apply (rounded_lt_mono _ _ _ _ M M' Kx Kx'). lra.
  - destruct (val_unique q q' Kp Kp' eq) as [E|[Z0 Z1]]; [rewrite E; apply Rle_refl|].
    rewrite Z0, Rplus_0_r in M. rewrite Z1, Rplus_0_r in M'. destruct Ha as [Ka _].
    rewrite (proj2 (rounded_exact _ _ M (ok_format a Ka) (ok_bound a Ka))), (proj2 (rounded_exact _ _ M' (ok_format a Ka) (ok_bound a Ka))). apply Rle_refl.
Qed.

(** The difference of the ends *)
Lemma width_spec : forall a b, grid_end a -> grid_end b ->
  ok (fsub b a) /\ Rabs (fval (fsub b a) - (fval b - fval a)) <= u * Rabs (fval b - fval a) /\ (fval a <= fval b -> 0 <= fval (fsub b a)) /\ Rabs (fval b - fval a) <= ends a b.
Proof.
  intros a b [Ka Ba] [Kb Bb]. pose proof (sub_spec b a (proj1 Kb) (proj1 Ka) (proj2 Kb) (proj2 Ka)) as M.
  assert (T : Rabs (fval b - fval a) <= ends a b) by (unfold ends, Rminus; eapply Rle_trans; [apply Rabs_triang|]; rewrite Rabs_Ropp; lra).
  assert (P1 : p2 1001 = 2 * p2 1000) by (change 1001%Z with (1000 + 1)%Z; apply p2_succ).
  destruct (rounded_bounded _ _ (p2 1001) M (format_p2 1001 ltac:(lia)) ltac:(unfold ends in T; lra) (p2_lt 1001 1024 ltac:(lia))) as [K _].
  split; [exact K|]. split; [exact (sub_relative b a _ Kb Ka M K)|]. split; [|exact T].
  intros L. apply (rounded_ge _ _ _ M K format_0). lra.
Qed.

(** ** A number of points *)
Lemma spacing_spec : forall a b n, grid_end a -> grid_end b -> (2 <= n <= 2 ^ 53)%Z ->
  let d := fdiv (fsub b a) (f64_ofZ (n - 1)) in let h := (fval b - fval a) / IZR (n - 1) in
  ok d /\ Rabs (fval d - h) <= 3 * u * Rabs h + tiny /\ (fval a <= fval b -> 0 <= fval d).
Proof.
  intros a b n Ha Hb Hn d h. destruct (width_spec a b Ha Hb) as [Kw [Ew [Pw Bw]]]. pose proof u_small as U.
  destruct (ofZ_exact (n - 1) ltac:(lia)) as [Kn En]. assert (N1 : 1 <= IZR (n - 1)) by (apply IZR_le; lia).
  pose proof (div_spec _ _ (proj1 Kw) (proj1 Kn) (proj2 Kw) (proj2 Kn) ltac:(rewrite En; lra)) as M. rewrite En in M.
  assert (P1 : p2 1001 = 2 * p2 1000) by (change 1001%Z with (1000 + 1)%Z; apply p2_succ).
  assert (P2 : p2 1002 = 4 * p2 1000) by (change 1002%Z with (1000 + 1 + 1)%Z; rewrite !p2_succ; ring). pose proof (p2_pos 1000) as P0.
  assert (Bh : Rabs (fval b - fval a) <= 2 * p2 1000) by (destruct Ha as [_ ?], Hb as [_ ?]; unfold ends in Bw; lra).
  set (w := fval (fsub b a)) in *. set (W := fval b - fval a) in *. set (m := IZR (n - 1)) in *.
  assert (Im : 0 < / m <= 1) by (split; [apply Rinv_0_lt_compat; lra|]; rewrite <- Rinv_1; apply Rinv_le_contravar; lra).
  assert (Bw' : Rabs w <= (1 + u) * Rabs W).
  { replace w with ((w - W) + W) by ring. eapply Rle_trans; [apply Rabs_triang|]. lra. }
  assert (Qh : Rabs h = Rabs W * / m) by (unfold h, Rdiv; rewrite Rabs_mult, (Rabs_right (/ m)) by lra; reflexivity).
  assert (Qw : Rabs (w / m) = Rabs w * / m) by (unfold Rdiv; rewrite Rabs_mult, (Rabs_right (/ m)) by lra; reflexivity).
  assert (Bq : Rabs (w / m) <= (1 + u) * Rabs h) by (rewrite Qw, Qh; pose proof (Rmult_le_compat_r (/ m) _ _ ltac:(lra) Bw'); lra).
  assert (Bh' : Rabs h <= Rabs W) by (rewrite Qh; pose proof (Rabs_pos W); nra).
  destruct (rounded_bounded _ _ (p2 1002) M (format_p2 1002 ltac:(lia)) ltac:(pose proof (Rabs_pos W); nra) (p2_lt 1002 1024 ltac:(lia))) as [Kd _].
  fold d in Kd. split; [exact Kd|]. split.
  - destruct (rounded_value _ _ M (proj2 Kd)) as [_ E]. fold d in E. unfold half_ulp in E. fold u tiny in E.
    assert (T : Rabs (w / m - h) <= u * Rabs h).
    { unfold h, Rdiv. rewrite <- Rmult_minus_distr_r, Rabs_mult, (Rabs_right (/ m)) by lra. fold (W / m). fold h. rewrite Qh.
      pose proof (Rmult_le_compat_r (/ m) _ _ ltac:(lra) Ew). lra. }
    assert (E' : Rabs (fval d - w / m) <= u * ((1 + u) * Rabs h) + tiny).
    { eapply Rle_trans; [exact E|]. apply Rmax_lub; [pose proof (Rmult_le_compat_l u _ _ ltac:(lra) Bq); pose proof (p2_pos (-1075)); unfold tiny; lra|].
      pose proof (Rabs_pos h). assert (0 <= u * ((1 + u) * Rabs h)) by (apply Rmult_le_pos; [lra|apply Rmult_le_pos; lra]). lra. }
    replace (fval d - h) with ((fval d - w / m) + (w / m - h)) by ring. eapply Rle_trans; [apply Rabs_triang|].
    assert (u * (u * Rabs h) <= u * Rabs h) by (apply Rmult_le_compat_l; [lra|pose proof (Rabs_pos h); nra]). lra.
  - intros L. specialize (Pw L). apply (rounded_ge _ _ _ M Kd format_0). unfold Rdiv. apply Rmult_le_pos; [exact Pw|lra].
Qed.

Lemma count_points : forall a b n i, grid_end a -> grid_end b -> (2 <= n <= 2 ^ 53)%Z -> (Z.of_nat i < n)%Z ->
  let d := fdiv (fsub b a) (f64_ofZ (n - 1)) in
  INR i * Rabs (fval d) <= p2 1002 /\ Rabs (fval (point a d i) - even_point (fval a) (fval b) n i) <= 8 * u * ends a b + 2 * IZR n * tiny.
Proof.
  intros a b n i Ha Hb Hn Hi d. destruct (spacing_spec a b n Ha Hb Hn) as [Kd [Ed _]]. fold d in Kd, Ed. pose proof u_small as U.
  destruct (width_spec a b Ha Hb) as [_ [_ [_ Bw]]].
  set (W := fval b - fval a) in *. set (m := IZR (n - 1)) in *. set (h := W / m) in *.
  assert (N1 : 1 <= m) by (apply IZR_le; lia). assert (Im : INR i <= m) by (unfold m; rewrite INR_IZR_INZ; apply IZR_le; lia). pose proof (pos_INR i) as Pi.
  assert (Mn : m <= IZR n - 1) by (unfold m; rewrite minus_IZR; lra).
  assert (Qh : m * Rabs h = Rabs W).
  { rewrite <- (Rabs_right m) at 1 by lra. rewrite <- Rabs_mult. f_equal. unfold h. field. lra. }
  pose proof (Rabs_pos h) as Ph. pose proof (p2_pos (-1075)) as Pt. fold tiny in Pt.
  assert (Bh : INR i * Rabs h <= Rabs W) by (rewrite <- Qh; apply Rmult_le_compat_r; assumption).
  assert (Bd : Rabs (fval d) <= (1 + 3 * u) * Rabs h + tiny).
  { replace (fval d) with ((fval d - h) + h) by ring. eapply Rle_trans; [apply Rabs_triang|]. lra. }
  assert (Bi : INR i * tiny <= m * tiny) by (apply Rmult_le_compat_r; lra).
  assert (B1 : INR i * Rabs (fval d) <= (1 + 3 * u) * Rabs W + m * tiny).
  { eapply Rle_trans; [apply Rmult_le_compat_l; [exact Pi|exact Bd]|]. pose proof (Rmult_le_compat_l (1 + 3 * u) _ _ ltac:(lra) Bh). lra. }
  assert (M53 : m <= p2 53) by (unfold m; rewrite (p2_Z 53) by lia; apply IZR_le; lia).
  assert (Small : m * tiny <= / 1000).
  { apply Rle_trans with (p2 53 * tiny); [apply Rmult_le_compat_r; lra|]. unfold tiny. rewrite <- p2_add. change (53 + -1075)%Z with (-1022)%Z.
    pose proof (p2_le (-1022) (-53) ltac:(lia)) as Q. fold u in Q. lra. }
  assert (P1 : p2 1001 = 2 * p2 1000) by (change 1001%Z with (1000 + 1)%Z; apply p2_succ).
  assert (One : 1 <= p2 1000) by (rewrite <- (p2_Z 0) at 1 by lia; apply p2_le; lia).
  assert (BW : Rabs W <= 2 * p2 1000) by (destruct Ha as [_ ?], Hb as [_ ?]; unfold ends in Bw; lra).
  assert (P2 : p2 1002 = 4 * p2 1000) by (change 1002%Z with (1000 + 1 + 1)%Z; rewrite !p2_succ; ring).
  assert (Lim : INR i * Rabs (fval d) <= p2 1002) by (rewrite P2; nra).
  split; [exact Lim|]. destruct (point_spec a d i Ha Kd ltac:(lia) Lim) as [_ [_ E]].
  assert (D : Rabs (INR i * fval d - INR i * h) <= 3 * u * Rabs W + m * tiny).
  { rewrite <- Rmult_minus_distr_l, Rabs_mult, (Rabs_right (INR i)) by lra. eapply Rle_trans; [apply Rmult_le_compat_l; [exact Pi|exact Ed]|].
    pose proof (Rmult_le_compat_l (3 * u) _ _ ltac:(lra) Bh). lra. }
  unfold even_point. fold W m h.
  replace (fval (point a d i) - (fval a + INR i * h)) with ((fval (point a d i) - (fval a + INR i * fval d)) + (INR i * fval d - INR i * h)) by ring.
  eapply Rle_trans; [apply Rabs_triang|]. pose proof (Rabs_pos W) as PW. pose proof (Rabs_pos (fval a)) as Pa.
  assert (E1 : u * (3 * (INR i * Rabs (fval d))) <= u * (3 * ((1 + 3 * u) * Rabs W + m * tiny))) by (apply Rmult_le_compat_l; lra).
  assert (E2 : u * (u * Rabs W) <= u * (Rabs W / 1000)) by (apply Rmult_le_compat_l; [lra|nra]).
  assert (E3 : u * (m * tiny) <= m * tiny / 1000) by (assert (0 <= m * tiny) by (apply Rmult_le_pos; lra); nra).
  assert (E4 : u * Rabs W <= u * ends a b) by (apply Rmult_le_compat_l; lra).
  assert (Pb : 0 <= Rabs (fval b)) by apply Rabs_pos.
  assert (E5 : u * Rabs (fval a) <= u * ends a b) by (apply Rmult_le_compat_l; unfold ends; lra).
  assert (E6 : m * tiny <= IZR n * tiny) by (apply Rmult_le_compat_r; lra).
  assert (E7 : 0 <= m * tiny) by (apply Rmult_le_pos; lra). assert (E8 : 0 <= u * Rabs W) by (apply Rmult_le_pos; lra).
  lra.
Qed.

(** ** A spacing *)
Lemma steps_spec : forall a b d, grid_end a -> grid_end b -> ok d -> fval a <= fval b -> 0 < fval d -> (fval b - fval a) / fval d <= p2 52 ->
  exists k, f64_toint rnd_trunc (fdiv (fsub b a) d) = Some k /\ (0 <= k < 2 ^ 53)%Z /\
    IZR k * fval d <= (1 + 3 * u) * (fval b - fval a) /\ (1 - 3 * u) * (fval b - fval a) < (IZR k + 1) * fval d.
Proof.
  intros a b d Ha Hb Kd L Pd Q. destruct (width_spec a b Ha Hb) as [Kw [Ew [Pw Bw]]]. specialize (Pw L). pose proof u_small as U.
  pose proof (div_spec _ _ (proj1 Kw) (proj1 Kd) (proj2 Kw) (proj2 Kd) ltac:(lra)) as M.
  set (w := fval (fsub b a)) in *. set (W := fval b - fval a) in *. assert (PW : 0 <= W) by (unfold W; lra).
  rewrite (Rabs_right W) in Ew by lra. apply Rabs_le_inv in Ew. set (D := fval d) in *.
  assert (ID : 0 < / D) by (apply Rinv_0_lt_compat; exact Pd).
  assert (P53 : p2 53 = 2 * p2 52) by (change 53%Z with (52 + 1)%Z; apply p2_succ). pose proof (p2_pos 52) as P52.
  assert (Bq : w / D <= (1 + u) * (W / D)) by (unfold Rdiv; rewrite <- Rmult_assoc; apply Rmult_le_compat_r; lra).
  assert (Pq : 0 <= w / D) by (unfold Rdiv; apply Rmult_le_pos; lra).
  assert (Pq' : 0 <= W / D) by (unfold Rdiv; apply Rmult_le_pos; lra).
  assert (B53 : w / D <= (1 + u) * p2 52) by nra.
  assert (Fb : format ((1 + 2 * u) * p2 52)).
  { replace ((1 + 2 * u) * p2 52) with (IZR (2 ^ 52 + 1) * p2 0).
    - apply format_scaled; lia.
    - assert (T : 2 * u * p2 52 = 1).
      { replace (2 * u) with (p2 (-52)) by (change (-52)%Z with (-53 + 1)%Z; rewrite p2_succ; reflexivity). rewrite <- p2_add. reflexivity. }
      change (p2 0) with 1. rewrite plus_IZR, <- (p2_Z 52) by lia. lra. }
  destruct (rounded_bounded _ _ _ M Fb ltac:(rewrite Rabs_right by lra; nra)) as [Kq Bq'].
  { apply Rle_lt_trans with (p2 53); [nra|apply p2_lt; lia]. }
  pose proof (rounded_ge _ _ _ M Kq format_0 Pq) as Gq. set (q := fdiv (fsub b a) d) in *.
  destruct (trunc_spec64 q Kq Gq) as [k [Ek [Pk Bk]]]. exists k. split; [exact Ek|].
  rewrite Rabs_right in Bq' by lra.
  assert (K53 : (k < 2 ^ 53)%Z) by (apply lt_IZR; rewrite <- p2_Z by lia; nra).
  split; [lia|].
  assert (wD : w / D * D = w) by (field; lra).
  destruct (Rlt_le_dec (w / D) (p2 (-1022))) as [small|big].
  - assert (Sq : fval q <= p2 (-1022)) by (apply (rounded_le _ _ _ M Kq (format_p2 (-1022) ltac:(lia))); lra).
    pose proof (p2_le (-1022) (-53) ltac:(lia)) as Q22. fold u in Q22.
    assert (k < 1)%Z by (apply lt_IZR; lra). assert (k = 0)%Z by lia. subst k.
    split; [nra|]. replace (IZR 0 + 1) with 1 by (cbn; lra). assert (w < u * D) by (rewrite <- wD; apply Rmult_lt_compat_r; lra). assert (u * D <= D) by nra. assert (0 <= u * W) by (apply Rmult_le_pos; lra). lra.
  - assert (Big : w / D = 0 \/ p2 (-1022) <= Rabs (w / D)) by (right; rewrite Rabs_right by lra; exact big).
    pose proof (rounded_relative _ _ M Kq Big) as R.
    rewrite (Rabs_right (w / D)) in R by lra. apply Rabs_le_inv in R.
    assert (R1 : fval q * D <= (1 + u) * w) by (rewrite <- wD at 1; nra).
    assert (R2 : (1 - u) * w <= fval q * D) by (rewrite <- wD at 1; nra).
    assert (T : u * (u * W) <= u * W) by (apply Rmult_le_compat_l; [lra|nra]).
    assert (R3 : (1 + u) * w <= (1 + u) * ((1 + u) * W)) by (apply Rmult_le_compat_l; lra).
    assert (R4 : (1 - u) * ((1 - u) * W) <= (1 - u) * w) by (apply Rmult_le_compat_l; lra).
    assert (R5 : IZR k * D <= fval q * D) by (apply Rmult_le_compat_r; lra).
    assert (R6 : fval q * D < (IZR k + 1) * D) by (apply Rmult_lt_compat_r; lra).
    assert (0 <= u * W) by (apply Rmult_le_pos; lra). assert (0 <= u * (u * W)) by (apply Rmult_le_pos; lra). lra.
Qed.

Lemma step_points : forall a b d k i, grid_end a -> grid_end b -> ok d -> fval a <= fval b -> 0 < fval d -> (0 <= k < 2 ^ 53)%Z ->
  IZR k * fval d <= (1 + 3 * u) * (fval b - fval a) -> (Z.of_nat i <= k)%Z ->
  INR i * Rabs (fval d) <= p2 1002 /\ INR i * fval d <= (1 + 3 * u) * (fval b - fval a).
Proof.
  intros a b d k i Ha Hb Kd L Pd Hk B Hi. pose proof u_small as U. rewrite Rabs_right by lra.
  assert (INR i <= IZR k) by (rewrite INR_IZR_INZ; apply IZR_le; lia).
  assert (S : INR i * fval d <= (1 + 3 * u) * (fval b - fval a)) by nra. split; [|exact S].
  destruct (width_spec a b Ha Hb) as [_ [_ [_ Bw]]]. rewrite Rabs_right in Bw by lra. destruct Ha as [_ Ba], Hb as [_ Bb]. unfold ends in Bw.
  assert (P2 : p2 1002 = 4 * p2 1000) by (change 1002%Z with (1000 + 1 + 1)%Z; rewrite !p2_succ; ring). pose proof (p2_pos 1000). nra.
Qed.

Lemma nth_points : forall a d n i x, nth_error (map (point a d) (seq 0 n)) i = Some x -> (i < n)%nat /\ x = point a d i.
Proof.
  intros a d n i x E. assert (Hi : (i < n)%nat) by (assert (N : nth_error (map (point a d) (seq 0 n)) i <> None) by (rewrite E; discriminate); apply nth_error_Some in N; rewrite map_length, seq_length in N; exact N).
  split; [exact Hi|]. rewrite nth_error_map in E. rewrite (nth_error_nth' _ 0%nat) in E by (rewrite seq_length; exact Hi). rewrite seq_nth in E by exact Hi. cbn [option_map Nat.add] in E. inversion E. reflexivity.
Qed.
Lemma nth_points_some : forall a d n i, (i < n)%nat -> nth_error (map (point a d) (seq 0 n)) i = Some (point a d i).
Proof.
  intros a d n i Hi. rewrite nth_error_map, (nth_error_nth' _ 0%nat) by (rewrite seq_length; exact Hi). rewrite seq_nth by exact Hi. reflexivity.
Qed.
