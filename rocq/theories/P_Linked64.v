(** Linked cells in double precision. *)
From Coq Require Import List ZArith Bool Arith Reals Lia Lra Floats.SpecFloat Psatz.
From Verif Require Import PyBase PyBaseFacts Num Spec_Stats NumFacts P_Text F64Round F64Ops F64Facts P_F64Time P_F64Mean P_F64Dot P_F64Bins M_Helpers M_Dynamics M_Realspace M_LinkedCells
  Spec_Dynamics Spec_Pairs Spec_LinkedCells P_Helpers P_Dynamics P_Image P_Pairs P_Count P_LinkedCells P_LinkedCells2 Spec_Linked64.
Import ListNotations.
Local Open Scope R_scope.

Lemma trunc_spec64 : forall x, ok x -> 0 <= fval x -> exists k, f64_toint rnd_trunc x = Some k /\ (0 <= k)%Z /\ IZR k <= fval x < IZR k + 1.
Proof.
  intros x K P. destruct (floor_spec64 x K) as [k [E B]]. exists k.
  assert (Hk : (0 <= k)%Z) by (assert (-1 < k)%Z by (apply lt_IZR; lra); lia).
  split; [|split; [exact Hk|exact B]]. destruct x as [s|s| |s m e]; try exact E. destruct s.
  - exfalso. cbn [fval] in P. change (powerRZ 2 e) with (p2 e) in P. pose proof (p2_pos e) as Q. assert (0 < IZR (Z.pos m)) by (apply IZR_lt; lia). cbn [sgn] in P. assert (0 < IZR (Z.pos m) * p2 e) by (apply Rmult_lt_0_compat; assumption). lra.
  - exact E.
Qed.

Lemma tiny_small : forall a, p2 (-300) <= a -> 0 < tiny /\ tiny <= / 1000 * (u * a).
Proof.
  intros a Ha. split; [apply p2_pos|]. unfold tiny, u. apply Rle_trans with (p2 (-10) * (p2 (-53) * p2 (-300))).
  - rewrite <- !p2_add. apply p2_le. lia.
  - assert (p2 (-10) <= / 1000) by (unfold p2; simpl; lra). apply Rmult_le_compat; [apply Rlt_le, p2_pos|apply Rmult_le_pos; apply Rlt_le, p2_pos|exact H|]. apply Rmult_le_compat_l; [apply Rlt_le, p2_pos|exact Ha].
Qed.

Definition n64 (rc L : f64) : Z := to_int F64ops (fdiv L rc).

Section Side.
Variables (rc L : f64).
Hypothesis Krc : ok rc.
Hypothesis Brc : p2 (-60) <= fval rc.
Hypothesis KL : ok L.
Hypothesis BL : 3 * fval rc <= fval L <= p2 30 * fval rc.
Hypothesis HL : fval L <= p2 60.
Let n := n64 rc L.

Lemma rc_pos : 0 < fval rc.
Proof. pose proof (p2_pos (-60)). lra. Qed.
Lemma L_pos : 0 < fval L.
Proof. pose proof rc_pos. lra. Qed.
Lemma L_low : p2 (-60) <= fval L.
Proof. pose proof rc_pos. lra. Qed.

Lemma count64 : (3 <= n <= 2 ^ 30)%Z /\ IZR n * fval rc <= (1 + 2 * u) * fval L.
Proof.
  pose proof rc_pos as P. pose proof L_pos as PL. pose proof u_small as U.
  pose proof (div_spec L rc (proj1 KL) (proj1 Krc) (proj2 KL) (proj2 Krc) ltac:(lra)) as D.
  assert (B1 : 3 <= fval L / fval rc) by (apply Rmult_le_reg_r with (fval rc); [exact P|]; unfold Rdiv; rewrite Rmult_assoc, Rinv_l by lra; lra).
  assert (B2 : fval L / fval rc <= p2 30) by (apply Rmult_le_reg_r with (fval rc); [exact P|]; unfold Rdiv; rewrite Rmult_assoc, Rinv_l by lra; lra).
  assert (F30 : format (p2 30)) by (rewrite p2_Z by lia; apply format_Z; cbn; lia).
  destruct (rounded_bounded _ _ (p2 30) D F30) as [K Bq]; [rewrite Rabs_right; lra|apply p2_lt; lia|]. apply Rabs_le_inv in Bq.
  pose proof (rounded_value _ _ D (proj2 K)) as NV. assert (B3 : 3 <= fval (fdiv L rc)) by (apply nearest_lower with (fval L / fval rc); [exact (proj1 NV)|apply (format_Z 3); lia|exact B1]).
  destruct (trunc_spec64 _ K ltac:(lra)) as [k [Ek [Pk Bk]]]. assert (En : n = k) by (unfold n, n64, to_int; cbn [ntrunc F64ops]; rewrite Ek; reflexivity). rewrite En. split.
  - split; [assert (2 < k)%Z by (apply lt_IZR; lra); lia|]. assert (Q : IZR k <= p2 30) by lra. rewrite p2_Z in Q by lia. apply le_IZR in Q. exact Q.
  - pose proof (rounded_error _ _ D K) as E. rewrite (Rabs_right (fval L / fval rc)) in E by lra. apply Rabs_le_inv in E.
    destruct (tiny_small 1) as [T0 T1]; [apply Rle_trans with (p2 0); [apply p2_le; lia|unfold p2; simpl; lra]|].
    apply Rle_trans with ((fval L / fval rc * (1 + 2 * u)) * fval rc).
    + apply Rmult_le_compat_r; [lra|]. assert (u * 3 <= u * (fval L / fval rc)) by (apply Rmult_le_compat_l; lra). lra.
    + right. field. lra.
Qed.

Lemma half64 : ok (fdiv L (f64_ofZ 2)) /\ fval (fdiv L (f64_ofZ 2)) = fval L / 2.
Proof.
  destruct (ofZ_exact 2 ltac:(lia)) as [K2 V2]. pose proof (div_spec L (f64_ofZ 2) (proj1 KL) (proj1 K2) (proj2 KL) (proj2 K2) ltac:(rewrite V2; lra)) as D. rewrite V2 in D.
  pose proof L_pos as PL. pose proof L_low as LL.
  assert (F : format (fval L / 2)).
  { destruct (ok_format _ KL) as [k [e [Ex [Hk He]]]]. destruct (Z.eq_dec e (-1074)) as [->|Ne].
    - exfalso. assert (B : fval L <= p2 53 * p2 (-1074)) by (rewrite Ex; apply Rmult_le_compat_r; [left; apply p2_pos|]; rewrite p2_Z by lia; apply IZR_le; lia).
      rewrite <- p2_add in B. assert (p2 (53 + -1074) < p2 (-60)) by (apply p2_lt; lia). lra.
    - replace (fval L / 2) with (IZR k * p2 (e - 1)); [apply format_scaled; lia|]. rewrite Ex. replace e with (e - 1 + 1)%Z at 2 by lia. rewrite p2_succ. field. }
  apply (rounded_exact _ _ D F). rewrite Rabs_right by lra. apply Rlt_trans with (p2 61); [|apply p2_lt; lia]. apply Rle_lt_trans with (p2 60); [lra|apply p2_lt; lia].
Qed.

(** The index of a position. *)
Lemma index64 : forall x, ok x -> - (fval L / 2) <= fval x <= fval L / 2 ->
  let X := fdiv (fadd x (fdiv L (f64_ofZ 2))) (fdiv L (f64_ofZ n)) in
  let E := (fval x + fval L / 2) * IZR n / fval L in
  ok X /\ 0 <= fval X /\ 0 <= E <= IZR n /\ Rabs (fval X - E) <= 4 * u * IZR n.
Proof.
  intros x Kx Bx X E. pose proof L_pos as PL. pose proof L_low as LL. pose proof u_small as U. destruct count64 as [[N3 N30] _].
  assert (R3 : 3 <= IZR n) by (apply IZR_le in N3; exact N3). assert (R30 : IZR n <= p2 30) by (rewrite p2_Z by lia; apply IZR_le; exact N30).
  destruct (ofZ_exact n ltac:(lia)) as [Kn Vn]. destruct half64 as [Kh Vh].
  set (q := fval L / IZR n) in *. assert (Pq : 0 < q) by (apply Rdiv_lt_0_compat; lra).
  assert (Lq : p2 (-90) <= q).
  { apply Rmult_le_reg_r with (IZR n); [lra|]. unfold q, Rdiv. rewrite Rmult_assoc, Rinv_l, Rmult_1_r by lra. apply Rle_trans with (p2 (-90) * p2 30); [apply Rmult_le_compat_l; [apply Rlt_le, p2_pos|exact R30]|]. rewrite <- p2_add. exact LL. }
  destruct (tiny_small q) as [T0 T1]; [apply Rle_trans with (2 := Lq); apply p2_le; lia|].
  assert (Uq : 0 < u * q) by (apply Rmult_lt_0_compat; lra).
  (* the subcell *)
  pose proof (div_spec L (f64_ofZ n) (proj1 KL) (proj1 Kn) (proj2 KL) (proj2 Kn) ltac:(rewrite Vn; lra)) as Dc. rewrite Vn in Dc. fold q in Dc.
  destruct (rounded_bounded _ _ (p2 60) Dc) as [Kc _]; [apply format_p2; lia| |apply p2_lt; lia|].
  { rewrite Rabs_right by lra. apply Rle_trans with (2 := HL). apply Rmult_le_reg_r with (IZR n); [lra|]. unfold q, Rdiv. rewrite Rmult_assoc, Rinv_l, Rmult_1_r by lra. assert (fval L * 1 <= fval L * IZR n) by (apply Rmult_le_compat_l; lra). lra. }
  pose proof (rounded_error _ _ Dc Kc) as Ec. rewrite (Rabs_right q) in Ec by lra. apply Rabs_le_inv in Ec. set (c := fval (fdiv L (f64_ofZ n))) in *.
  (* the shifted position *)
  set (t := fval x + fval L / 2) in *. assert (Bt : 0 <= t <= fval L) by (unfold t; lra).
  pose proof (add_spec x (fdiv L (f64_ofZ 2)) (proj1 Kx) (proj1 Kh) (proj2 Kx) (proj2 Kh)) as Dw. rewrite Vh in Dw. fold t in Dw.
  destruct (rounded_bounded _ _ (p2 60) Dw) as [Kw Bw]; [apply format_p2; lia|rewrite Rabs_right; lra|apply p2_lt; lia|].
  assert (Pw : 0 <= fval (fadd x (fdiv L (f64_ofZ 2)))) by (apply nearest_lower with t; [apply (proj1 (rounded_value _ _ Dw (proj2 Kw)))|apply (format_Z 0); lia|lra]).
  pose proof (rounded_error _ _ Dw Kw) as Ew. rewrite (Rabs_right t) in Ew by lra. apply Rabs_le_inv in Ew. set (w := fval (fadd x (fdiv L (f64_ofZ 2)))) in *.
  assert (EL : fval L = q * IZR n) by (unfold q; field; lra).
  (* their quotient *)
  assert (Pc : 0 < c) by nra.
  pose proof (div_spec _ _ (proj1 Kw) (proj1 Kc) (proj2 Kw) (proj2 Kc) ltac:(fold c; lra)) as DX. fold w c in DX.
  assert (EE : E = t / q) by (unfold E, q; field; lra).
  assert (BE : 0 <= E <= IZR n). { rewrite EE. split; [apply Rmult_le_pos; [lra|left; apply Rinv_0_lt_compat; exact Pq]|]. apply Rmult_le_reg_r with q; [exact Pq|]. unfold Rdiv. rewrite Rmult_assoc, Rinv_l, Rmult_1_r by lra. rewrite Rmult_comm, <- EL. lra. }
  assert (Q : Rabs (w / c - E) <= 21 / 10 * u * IZR n).
  { assert (Et : t = E * q) by (rewrite EE; field; lra). replace (w / c - E) with ((w - E * c) / c) by (field; lra). unfold Rdiv. rewrite Rabs_mult, (Rabs_right (/ c)) by (apply Rle_ge, Rlt_le, Rinv_0_lt_compat; exact Pc).
    apply Rmult_le_reg_r with c; [exact Pc|]. rewrite Rmult_assoc, Rinv_l, Rmult_1_r by lra.
    replace (w - E * c) with ((w - t) - E * (c - q)) by (rewrite Et; ring).
    assert (C1 : Rabs (w - t) <= 1001 / 1000 * (u * q) * IZR n).
    { assert (u * t <= u * q * IZR n) by (rewrite Rmult_assoc, <- EL; apply Rmult_le_compat_l; lra). assert (u * q * 1 <= u * q * IZR n) by (apply Rmult_le_compat_l; lra). apply Rabs_le. lra. }
    assert (C2 : Rabs (E * (c - q)) <= IZR n * (1001 / 1000 * (u * q))).
    { rewrite Rabs_mult, (Rabs_right E) by lra. apply Rmult_le_compat; [lra|apply Rabs_pos|lra|]. apply Rabs_le. lra. }
    apply Rle_trans with (Rabs (w - t) + Rabs (E * (c - q))). { unfold Rminus at 1. apply Rle_trans with (1 := Rabs_triang _ _). rewrite Rabs_Ropp. lra. }
    assert (C3 : u * q <= / 1000000 * q) by (apply Rmult_le_compat_r; lra).
    assert (C4 : (2002 / 1000 * q) * (u * IZR n) <= (21 / 10 * c) * (u * IZR n)) by (apply Rmult_le_compat_r; [apply Rmult_le_pos; lra|lra]).
    lra. }
  assert (UN : 0 < u * IZR n) by (apply Rmult_lt_0_compat; lra). assert (UN1 : u * IZR n <= / 1000000).
  { apply Rle_trans with (u * p2 30); [apply Rmult_le_compat_l; lra|]. unfold u. rewrite <- p2_add. apply Rle_trans with (p2 (-20)); [apply p2_le; lia|unfold p2; simpl; lra]. }
  apply Rabs_le_inv in Q. assert (Pq' : 0 <= w / c) by (apply Rmult_le_pos; [exact Pw|left; apply Rinv_0_lt_compat; exact Pc]).
  destruct (rounded_bounded _ _ (p2 31) DX) as [KX _]; [apply format_p2; lia| |apply p2_lt; lia|].
  { rewrite Rabs_right by lra. replace (p2 31) with (2 * p2 30) by (replace 31%Z with (1 + 30)%Z by lia; rewrite p2_add; unfold p2 at 1; simpl; lra). assert (1 <= p2 30) by (rewrite p2_Z by lia; apply IZR_le; lia). lra. }
  split; [exact KX|]. split; [apply nearest_lower with (w / c); [apply (proj1 (rounded_value _ _ DX (proj2 KX)))|apply (format_Z 0); lia|exact Pq']|]. split; [exact BE|].
  pose proof (rounded_error _ _ DX KX) as EX. rewrite (Rabs_right (w / c)) in EX by lra. apply Rabs_le_inv in EX. change (fval (fdiv (fadd x (fdiv L (f64_ofZ 2))) (fdiv L (f64_ofZ n)))) with (fval X) in EX.
  destruct (tiny_small 1) as [T2 T3]; [apply Rle_trans with (p2 0); [apply p2_le; lia|unfold p2; simpl; lra]|].
  assert (u * (w / c) <= u * (IZR n + 21 / 10 * u * IZR n)) by (apply Rmult_le_compat_l; lra). assert (u * (u * IZR n) <= / 1000000 * (u * IZR n)) by (apply Rmult_le_compat_r; lra). assert (u * 3 <= u * IZR n) by (apply Rmult_le_compat_l; lra).
  apply Rabs_le. lra.
Qed.

Definition cell_of (x : f64) : Z := to_int F64ops (fdiv (fadd x (fdiv L (f64_ofZ 2))) (fdiv L (f64_ofZ n))).

Lemma un_small : 0 < u * IZR n <= / 1000000.
Proof.
  pose proof u_small as U. destruct count64 as [[N3 N30] _]. assert (R3 : 3 <= IZR n) by (apply IZR_le in N3; exact N3). assert (R30 : IZR n <= p2 30) by (rewrite p2_Z by lia; apply IZR_le; exact N30).
  split; [apply Rmult_lt_0_compat; lra|]. apply Rle_trans with (u * p2 30); [apply Rmult_le_compat_l; lra|]. unfold u. rewrite <- p2_add. apply Rle_trans with (p2 (-20)); [apply p2_le; lia|unfold p2; simpl; lra].
Qed.

Lemma cell_of_spec : forall x, ok x -> - (fval L / 2) <= fval x <= fval L / 2 ->
  (0 <= cell_of x <= n)%Z /\ (fval x <= fval L / 2 - p2 (-50) * fval L -> (cell_of x < n)%Z) /\
  exists X, IZR (cell_of x) <= X < IZR (cell_of x) + 1 /\ Rabs (X - (fval x + fval L / 2) * IZR n / fval L) <= 4 * u * IZR n.
Proof.
  intros x Kx Bx. destruct (index64 x Kx Bx) as [KX [PX [BE EX]]]. cbv zeta in *. set (X := fdiv (fadd x (fdiv L (f64_ofZ 2))) (fdiv L (f64_ofZ n))) in *.
  destruct (trunc_spec64 X KX PX) as [k [Ek [Pk Bk]]]. assert (Ec : cell_of x = k) by (unfold cell_of, to_int; cbn [ntrunc F64ops]; fold X; rewrite Ek; reflexivity). rewrite Ec.
  pose proof EX as EX0. apply Rabs_le_inv in EX. pose proof un_small as UN. pose proof L_pos as PL.
  split; [split; [exact Pk|]|split; [|exists (fval X); split; [exact Bk|exact EX0]]].
  - assert (k < n + 1)%Z by (apply lt_IZR; rewrite plus_IZR; lra). lia.
  - intros Hx. apply lt_IZR. apply Rle_lt_trans with (fval X); [lra|].
    assert (Q : (fval x + fval L / 2) * IZR n / fval L <= IZR n - p2 (-50) * IZR n).
    { apply Rmult_le_reg_r with (fval L); [exact PL|]. replace ((fval x + fval L / 2) * IZR n / fval L * fval L) with ((fval x + fval L / 2) * IZR n) by (field; lra).
      replace ((IZR n - p2 (-50) * IZR n) * fval L) with ((fval L / 2 - p2 (-50) * fval L + fval L / 2) * IZR n) by field. apply Rmult_le_compat_r; [|lra]. destruct count64 as [[N3 _] _]. apply IZR_le. lia. }
    replace (p2 (-50) * IZR n) with (8 * (u * IZR n)) in Q by (unfold u; replace (-50)%Z with (3 + -53)%Z by lia; rewrite p2_add; replace (p2 3) with 8 by (unfold p2; simpl; lra); ring). lra.
Qed.

Lemma adjacent64 : forall p r x y k, ok x -> ok y -> - (fval L / 2) <= fval x <= fval L / 2 -> - (fval L / 2) <= fval y <= fval L / 2 -> (cell_of x < n)%Z -> (cell_of y < n)%Z ->
  (p = false -> k = 0%Z) -> r + p2 (-49) * fval L <= fval rc -> Rabs (fval x - (fval y + IZR k * fval L)) < r ->
  exists o, (-1 <= o <= 1)%Z /\ pbc1 (p, n) (cell_of x + o) = cell_of y.
Proof.
  intros p r x y k Kx Ky Hx Hy Cx Cy Hk Hr Hd. destruct (cell_of_spec x Kx Hx) as [[Ax _] [_ [X [Bx Ex]]]]. destruct (cell_of_spec y Ky Hy) as [[Ay _] [_ [Y [By Ey]]]].
  destruct count64 as [[N3 N30] NR]. pose proof L_pos as PL. pose proof rc_pos as PR. pose proof un_small as UN. pose proof u_small as U. assert (R3 : 3 <= IZR n) by (apply IZR_le in N3; exact N3).
  set (D := fval x - (fval y + IZR k * fval L)) in *.
  assert (HXY : Rabs (X - Y - IZR k * IZR n) < 1).
  { set (EX := (fval x + fval L / 2) * IZR n / fval L) in *. set (EY := (fval y + fval L / 2) * IZR n / fval L) in *.
    assert (E1 : EX - EY - IZR k * IZR n = D * (IZR n / fval L)) by (unfold EX, EY, D; field; lra).
    assert (E2 : Rabs (D * (IZR n / fval L)) <= 1 - 10 * (u * IZR n)).
    { rewrite Rabs_mult, (Rabs_right (IZR n / fval L)) by (apply Rle_ge, Rlt_le, Rdiv_lt_0_compat; lra).
      apply Rmult_le_reg_r with (fval L); [exact PL|]. replace (Rabs D * (IZR n / fval L) * fval L) with (Rabs D * IZR n) by (field; lra).
      assert (Rabs D * IZR n <= (fval rc - p2 (-49) * fval L) * IZR n) by (apply Rmult_le_compat_r; lra).
      assert (P49 : p2 (-49) = 16 * u) by (unfold u; replace (-49)%Z with (4 + -53)%Z by lia; rewrite p2_add; f_equal; unfold p2; simpl; lra). rewrite P49 in *.
      assert (u * fval L * 3 <= u * fval L * IZR n) by (apply Rmult_le_compat_l; [apply Rmult_le_pos; lra|lra]).
      assert (0 <= u * fval L * IZR n) by (repeat apply Rmult_le_pos; lra). lra. }
    apply Rabs_le_inv in E2, Ex, Ey. apply Rabs_def1; lra. }
  apply Rabs_def2 in HXY. set (a := cell_of x) in *. set (b := cell_of y) in *.
  assert (-2 < IZR (a - b - k * n) < 2) as Hz. { rewrite !minus_IZR, mult_IZR. lra. }
  destruct Hz as [Hz1 Hz2]. apply lt_IZR in Hz1. apply lt_IZR in Hz2.
  clearbody a b n. clear - Ax Ay Cx Cy Hz1 Hz2 Hk N3.
  exists (b - a + k * n)%Z. split; [lia|]. replace (a + (b - a + k * n))%Z with (b + k * n)%Z by lia.
  assert (k = 0 \/ k = 1 \/ k = -1)%Z as [->|[-> | ->]].
  { assert (- n <= k * n <= n)%Z by lia. nia. }
  - rewrite Z.mul_0_l, Z.add_0_r. apply pbc1_inside. lia.
  - destruct p; [|specialize (Hk eq_refl); discriminate]. unfold pbc1. destruct (Z.leb_spec n (b + 1 * n)); lia.
  - destruct p; [|specialize (Hk eq_refl); discriminate]. unfold pbc1.
    destruct (Z.leb_spec n (b + -1 * n)); [lia|]. destruct (Z.ltb_spec (b + -1 * n) 0); lia.
Qed.
End Side.

(** The setup made by adjust. *)
Definition fsetup (rc : f64) (side : list f64) (per : list bool) (O : list (list Z)) : setup F64ops :=
  mkSetup (A:=F64ops) (map (fun L => fdiv L (f64_ofZ 2)) side) (map2 (fun L n => fdiv L (f64_ofZ n)) side (map (n64 rc) side)) (combine per (map (n64 rc) side)) O.

Lemma findex_cons : forall rc L side p per O x r,
  lc_index F64ops (fsetup rc (L :: side) (p :: per) O) (x :: r) = cell_of rc L x :: lc_index F64ops (fsetup rc side per O) r.
Proof. reflexivity. Qed.

Lemma fits_cons : forall rc L side, cell_fits rc (L :: side) -> (ok rc /\ p2 (-60) <= fval rc /\ ok L /\ (3 * fval rc <= fval L <= p2 30 * fval rc) /\ fval L <= p2 60) /\ cell_fits rc side.
Proof. intros rc L side [K [B F]]. inversion F as [|? ? [A1 [A2 A3]] F']; subst. split; [|split; [exact K|split; [exact B|exact F']]]. split; [exact K|]. split; [exact B|]. split; [exact A1|]. split; [exact A2|exact A3]. Qed.

Lemma findex_inside : forall rc O side per x, cell_fits rc side -> length per = length side -> well_inside x side ->
  cell_inside (s_pns (fsetup rc side per O)) (lc_index F64ops (fsetup rc side per O) x) = true.
Proof.
  intros rc O. induction side as [|L side IH]; intros per x Hc Hl Hx; inversion Hx as [|a ? x' ? [Ka Ba] Hx']; subst; destruct per as [|p per]; try discriminate; [reflexivity|].
  destruct (fits_cons _ _ _ Hc) as [[K1 [B1 [K2 [B2 B3]]]] Hc']. rewrite findex_cons. cbn [s_pns fsetup map combine]. apply cell_inside_cons. cbn [snd]. split; [|apply IH; auto].
  pose proof (p2_pos (-50)) as P50. pose proof (L_pos rc L B1 B2) as PL. assert (0 <= p2 (-50) * fval L) by (apply Rmult_le_pos; lra).
  destruct (cell_of_spec rc L K1 B1 K2 B2 B3 a Ka) as [[A1 _] [A2 _]]; [lra|]. split; [exact A1|apply A2; lra].
Qed.

Lemma fwithin_adjacent : forall rc O r, 0 < r -> forall side per x y ks, cell_fits rc side -> length per = length side -> (forall L, In L side -> r + p2 (-49) * fval L <= fval rc) ->
  well_inside x side -> well_inside y side -> length ks = length side -> (forall i, nth i per true = false -> nth i ks 0%Z = 0%Z) ->
  dist2 (map fval x) (shifted (map fval y) ks (map fval side)) < r * r ->
  adjacent (s_pns (fsetup rc side per O)) (lc_index F64ops (fsetup rc side per O) x) (lc_index F64ops (fsetup rc side per O) y).
Proof.
  intros rc O r Hr. induction side as [|L side IH]; intros per x y ks Hc Hl HL Hx Hy Hk Hper Hd;
    inversion Hx as [|a ? x' ? [Ka Ba] Hx']; subst; inversion Hy as [|b ? y' ? [Kb Bb] Hy']; subst; destruct per as [|p per]; try discriminate; destruct ks as [|k ks]; try discriminate.
  { exists []. repeat split. constructor. }
  cbn [map shifted] in Hd. rewrite dist2_cons in Hd.
  assert (0 <= dist2 (map fval x') (shifted (map fval y') ks (map fval side))) as Hnn by apply dist2_nonneg.
  assert (0 <= (fval a - (fval b + IZR k * fval L)) * (fval a - (fval b + IZR k * fval L))) as Hsq by apply Rle_0_sqr.
  destruct (fits_cons _ _ _ Hc) as [[K1 [B1 [K2 [B2 B3]]]] Hc'].
  destruct (IH per x' y' ks) as [o [Lo [So E]]]; auto. { intros M HM. apply HL. right. exact HM. } { intros i. apply (Hper (S i)). } { lra. }
  pose proof (p2_pos (-50)) as P50. pose proof (L_pos rc L B1 B2) as PL. assert (P0 : 0 <= p2 (-50) * fval L) by (apply Rmult_le_pos; lra).
  destruct (cell_of_spec rc L K1 B1 K2 B2 B3 a Ka) as [_ [Ca _]]; [lra|]. destruct (cell_of_spec rc L K1 B1 K2 B2 B3 b Kb) as [_ [Cb _]]; [lra|].
  destruct (adjacent64 rc L K1 B1 K2 B2 B3 p r a b k Ka Kb) as [v [Hv Ev]]; [lra|lra|apply Ca; lra|apply Cb; lra|exact (Hper 0%nat)|apply HL; left; reflexivity|apply sq_lt_abs; lra|].
  exists (v :: o). rewrite !findex_cons. split; [cbn [length]; congruence|]. split; [constructor; assumption|].
  cbn [s_pns fsetup map combine]. rewrite shiftc_cons. f_equal; [exact Ev|exact E].
Qed.

Lemma fsetup_valid : forall rc side per O, length per = length side -> cell_fits rc side -> valid (s_pns (fsetup rc side per O)).
Proof.
  intros rc side per O Hl [K [B F]]. apply Forall_forall. intros pn Hpn. cbn [s_pns fsetup] in Hpn. apply (in_map snd) in Hpn. rewrite combine_snd in Hpn by (rewrite map_length; exact Hl).
  apply in_map_iff in Hpn. destruct Hpn as [L [<- HL]]. rewrite Forall_forall in F. destruct (F L HL) as [A1 [A2 A3]]. apply (count64 rc L K B A1 A2).
Qed.
Lemma fsetup_len : forall rc side per O, length per = length side -> length (s_pns (fsetup rc side per O)) = length side.
Proof. intros. cbn [s_pns fsetup]. rewrite combine_length, map_length. lia. Qed.

Lemma adjust_F : forall rc side newton periodic, dim23 (length side) ->
  exists O, offsets (length side) newton = Ok O /\ adjust F64ops rc side newton periodic = Ok (fsetup rc side (match periodic with Some p => p | None => repeat true (length side) end) O).
Proof.
  intros rc side newton periodic Hd. unfold adjust. assert (E0 : length (map (fun L : num F64ops => to_int F64ops (ndiv F64ops L rc)) side) = length side) by apply map_length. rewrite E0.
  assert (exists O, offsets (length side) newton = Ok O) as [O E].
  { destruct newton; [destruct (offsets_newton _ Hd) as [O [E _]]|destruct (offsets_full _ Hd) as [O [E _]]]; exists O; exact E. }
  exists O. split; [exact E|]. rewrite E. reflexivity.
Qed.

(** Lists of a setup, any arithmetic. *)
Section Listed.
Variables (A : arith) (s : setup A) (d : nat) (pos : list (list (num A))).
Hypothesis Hd : dim23 d.
Hypothesis Hv : valid (s_pns s).
Hypothesis Hls : length (s_pns s) = d.
Hypothesis Hins : forall x, In x pos -> cell_inside (s_pns s) (lc_index A s x) = true.

Lemma index_nth : forall (l : list (list (num A))) i, (i < length l)%nat -> nth i (map (lc_index A s) l) [] = lc_index A s (nth i l []).
Proof. intros l i Hi. rewrite (nth_indep _ [] (lc_index A s [])) by (rewrite map_length; exact Hi). apply map_nth. Qed.

Lemma newton_listed : offsets d true = Ok (s_offs s) -> exists ns, lc_neighbors A s pos None = Ok ns /\ length ns = length pos /\
  (forall i j, (i < length pos)%nat -> In j (nth i ns []) -> (j < length pos)%nat) /\
  (forall i, (i < length pos)%nat -> listed ns i i = 0%nat) /\
  (forall i j, (i < length pos)%nat -> (j < length pos)%nat -> i <> j ->
    (listed ns i j + listed ns j i <= 1)%nat /\
    (adjacent (s_pns s) (lc_index A s (nth i pos [])) (lc_index A s (nth j pos [])) <-> (listed ns i j + listed ns j i = 1)%nat)).
Proof.
  intros EO. destruct (lc_self_Ok A s pos Hins) as [ns [En [Ln Hn]]]. exists ns. split; [exact En|]. split; [exact Ln|]. split; [intros i j Hi; apply (Hn i j Hi)|].
  assert (Hi2 : forall i, (i < length pos)%nat -> cell_inside (s_pns s) (nth i (map (lc_index A s) pos) []) = true) by (intros i Hi; apply idx_inside; assumption). split.
  - intros i Hi. destruct (Hn i i Hi) as [_ H]. rewrite H by exact Hi. rewrite Nat.ltb_irrefl. cbn [andb b2n Nat.add].
    destruct (newton_count d (s_offs s) (s_pns s) (nth i (map (lc_index A s) pos) []) (nth i (map (lc_index A s) pos) []) Hd EO Hv Hls (Hi2 i Hi) (Hi2 i Hi)) as [Hle _]. rewrite cell_eqb_refl in Hle. cbn [b2n] in Hle. lia.
  - intros i j Hi Hj Hij. destruct (Hn i j Hi) as [_ H1]. destruct (Hn j i Hj) as [_ H2]. rewrite H1, H2 by assumption. rewrite <- (index_nth pos i Hi), <- (index_nth pos j Hj).
    destruct (newton_count d (s_offs s) (s_pns s) (nth i (map (lc_index A s) pos) []) (nth j (map (lc_index A s) pos) []) Hd EO Hv Hls (Hi2 i Hi) (Hi2 j Hj)) as [Hle Hadj].
    set (a := nth i (map (lc_index A s) pos) []) in *. set (b := nth j (map (lc_index A s) pos) []) in *.
    assert ((b2n ((i <? j)%nat && cell_eqb a b) + cnt (fcell (s_pns s) a b) (s_offs s) + (b2n ((j <? i)%nat && cell_eqb b a) + cnt (fcell (s_pns s) b a) (s_offs s)))%nat
       = (b2n (cell_eqb a b) + cnt (fcell (s_pns s) a b) (s_offs s) + cnt (fcell (s_pns s) b a) (s_offs s))%nat) as ->.
    { rewrite (cell_eqb_comm b a). destruct (Nat.ltb_spec i j), (Nat.ltb_spec j i); try lia; cbn [andb b2n]; lia. }
    split; [exact Hle|exact Hadj].
Qed.

Lemma full_listed : forall other, (forall x, In x other -> cell_inside (s_pns s) (lc_index A s x) = true) -> offsets d false = Ok (s_offs s) ->
  exists ns, lc_neighbors A s pos (Some other) = Ok ns /\ length ns = length pos /\
  (forall i j, (i < length pos)%nat -> In j (nth i ns []) -> (j < length other)%nat) /\
  (forall i j, (i < length pos)%nat -> (j < length other)%nat -> (listed ns i j <= 1)%nat /\
    (adjacent (s_pns s) (lc_index A s (nth i pos [])) (lc_index A s (nth j other [])) <-> listed ns i j = 1%nat)).
Proof.
  intros other Ho EO. destruct (lc_other_Ok A s pos Hins other Ho) as [ns [En [Ln Hn]]]. exists ns. split; [exact En|]. split; [exact Ln|]. split; [intros i j Hi; apply (Hn i j Hi)|].
  intros i j Hi Hj. destruct (Hn i j Hi) as [_ H1]. rewrite H1 by assumption. rewrite <- (index_nth pos i Hi), <- (index_nth other j Hj).
  assert (Hi2 : cell_inside (s_pns s) (nth i (map (lc_index A s) pos) []) = true) by (apply idx_inside; assumption).
  exact (full_count d (s_offs s) (s_pns s) (nth i (map (lc_index A s) pos) []) (nth j (map (lc_index A s) other) []) Hd EO Hv Hls Hi2).
Qed.
End Listed.
