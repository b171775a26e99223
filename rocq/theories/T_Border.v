(** Particles in the subcells at the faces of the cell: C129. *)
From Coq Require Import List ZArith Bool Arith Reals Lia Lra Floats.SpecFloat.
From Verif Require Import PyBase PyBaseFacts Num NumFacts P_Text F64Round F64Ops F64Facts P_F64Mean P_F64Dot M_Helpers M_Dynamics M_Realspace M_LinkedCells Spec_Dynamics P_Dynamics Spec_Pairs Spec_LinkedCells P_LinkedCells P_LinkedCells2 Spec_Linked64 P_Linked64 Spec_Border.
Import ListNotations.
Local Open Scope R_scope.

Definition edge (tn : Z * (bool * Z)) : bool := (fst tn =? snd (snd tn) - 1)%Z || (fst tn =? 0)%Z.

Lemma edge_true : forall t p n, edge (t, (p, n)) = true <-> t = (n - 1)%Z \/ t = 0%Z.
Proof. intros t p n. unfold edge. cbn [fst snd]. rewrite orb_true_iff, !Z.eqb_eq. tauto. Qed.

Lemma floor_unique : forall n r L, 0 < r -> IZR n * r <= L < IZR (n + 1) * r -> (0 <= n)%Z -> n = Rtrunc (L / r).
Proof.
  intros n r L Hr [H1 H2] Hn. rewrite plus_IZR in H2. assert (B : IZR n <= L / r < IZR n + 1).
  { split; [apply Rmult_le_reg_r with r|apply Rmult_lt_reg_r with r]; try exact Hr; unfold Rdiv; rewrite Rmult_assoc, Rinv_l by lra; lra. }
  assert (0 <= IZR n) by (apply IZR_le; exact Hn). pose proof (Rtrunc_bounds_nonneg (L / r) ltac:(lra)) as Q.
  assert (n < Rtrunc (L / r) + 1)%Z by (apply lt_IZR; rewrite plus_IZR; lra). assert (Rtrunc (L / r) < n + 1)%Z by (apply lt_IZR; rewrite plus_IZR; lra). lia.
Qed.

Lemma face1 : forall r L a, 0 < r -> 0 < L -> (3 <= Rtrunc (L / r))%Z -> - (L / 2) <= a < L / 2 ->
  let n := Rtrunc (L / r) in let t := Rtrunc ((a + L / 2) / (L / IZR n)) in
  (t = (n - 1)%Z \/ t = 0%Z) <-> exists m : Z, IZR m * r <= L < IZR (m + 1) * r /\ (a + L / 2 < L / IZR m \/ L / 2 - a <= L / IZR m).
Proof.
  intros r L a Hr HL H3 Ha n t. destruct (index1 L r a n Hr HL eq_refl H3 Ha) as [B [F E]]. fold t in B, F.
  assert (N3 : 3 <= IZR n) by (apply IZR_le in H3; exact H3). set (X := (a + L / 2) / (L / IZR n)) in *.
  assert (Ea : a + L / 2 = X * (L / IZR n)) by (unfold X; field; lra). assert (W : 0 < L / IZR n) by (apply Rdiv_lt_0_compat; lra).
  assert (EL : L = IZR n * (L / IZR n)) by (field; lra). set (w := L / IZR n) in *.
  assert (C : (t = (n - 1)%Z \/ t = 0%Z) <-> (a + L / 2 < w \/ L / 2 - a <= w)).
  { assert (X1 : X < 1 <-> a + L / 2 < w).
    { rewrite Ea. split; intros H; [rewrite <- (Rmult_1_l w) at 2; apply Rmult_lt_compat_r; assumption|apply Rmult_lt_reg_r with w; lra]. }
    assert (X2 : IZR n - 1 <= X <-> L / 2 - a <= w).
    { replace (L / 2 - a) with (IZR n * w - X * w) by lra. split; intros H; [assert ((IZR n - 1) * w <= X * w) by (apply Rmult_le_compat_r; lra); lra|apply Rmult_le_reg_r with w; lra]. }
    rewrite <- X1, <- X2. split.
    - intros [T|T]; rewrite T in F; [right; rewrite minus_IZR in F; lra|left; lra].
    - intros [T|T]; [right; assert (t < 1)%Z by (apply lt_IZR; lra); lia|left; assert (n - 1 < t + 1)%Z by (apply lt_IZR; rewrite minus_IZR, plus_IZR; lra); lia]. }
  rewrite C. split.
  - intros H. exists n. split; [|exact H]. pose proof (Rtrunc_bounds_nonneg (L / r) ltac:(apply Rlt_le, Rdiv_lt_0_compat; assumption)) as Q. fold n in Q. rewrite plus_IZR.
    assert (EQ : L = L / r * r) by (field; lra). split; [rewrite EQ at 1; apply Rmult_le_compat_r; lra|rewrite EQ at 1; apply Rmult_lt_compat_r; lra].
  - intros [m [Bm H]]. assert (Hm : (0 <= m)%Z).
    { assert (0 < IZR (m + 1)). { apply Rmult_lt_reg_r with r; [exact Hr|]. lra. } apply lt_IZR in H0. lia. }
    rewrite (floor_unique m r L Hr Bm Hm) in H. exact H.
Qed.

Lemma border_R : forall rc side per O x, 0 < rc -> (forall L, In L side -> 3 * rc <= L) -> length per = length side -> folded x side ->
  existsb edge (combine (lc_index Rops (rsetup rc side per O) x) (s_pns (rsetup rc side per O))) = true <-> at_face rc x side.
Proof.
  intros rc side per O x Hrc. revert per x. induction side as [|L side IH]; intros per x H3 Hl Hx; destruct x as [|a x]; try contradiction; destruct per as [|p per]; try discriminate.
  - cbn. split; [discriminate|contradiction].
  - destruct Hx as [Ha Hx]. rewrite lc_index_cons. cbn [s_pns rsetup ncells map combine existsb at_face]. rewrite orb_true_iff, edge_true.
    assert (HL : 3 * rc <= L) by (apply H3; left; reflexivity).
    assert (N : (3 <= Rtrunc (L / rc))%Z).
    { assert (Q : 3 <= L / rc) by (apply Rmult_le_reg_r with rc; [exact Hrc|]; unfold Rdiv; rewrite Rmult_assoc, Rinv_l by lra; lra). pose proof (Rtrunc_bounds_nonneg (L / rc) ltac:(lra)) as [_ B]. assert (2 < Rtrunc (L / rc))%Z by (apply lt_IZR; lra). lia. }
    pose proof (face1 rc L a Hrc ltac:(lra) N Ha) as F. cbv zeta in F. rewrite F. specialize (IH per x (fun l Hin => H3 l (or_intror Hin)) ltac:(cbn in Hl; lia) Hx). cbn [s_pns rsetup] in IH. rewrite <- IH. tauto.
Qed.

(** ** C129 *)
(** Once a LinkedCells object has been used for a cell, on_border tells whether a position of the
    cell is in the first or in the last subcell along some side, whatever the calls in between. *)
Theorem C129_border : forall rc (k : call Rops) ks x, 0 < rc -> length (k_box k) = 2%nat \/ length (k_box k) = 3%nat -> (forall L, In L (k_box k) -> 3 * rc <= L) ->
  length (periodic_directions (k_box k) (k_periodic k)) = length (k_box k) -> folded x (k_box k) ->
  exists b, lc_on_border Rops (lc_after Rops rc None (k :: ks)) x = Ok b /\ (b = true <-> at_face rc x (k_box k)).
Proof.
  intros rc k ks x Hrc Hd H3 Hper Hx. destruct (adjust_R rc (k_box k) (call_newton k) (k_periodic k) Hd) as [O [_ E]].
  assert (St : lc_after Rops rc None (k :: ks) = Some (rsetup rc (k_box k) (flags (k_box k) (k_periodic k)) O)).
  { unfold lc_after. cbn [fold_left lc_setup]. rewrite E. clear. induction ks as [|k' ks IH]; [reflexivity|]. cbn [fold_left lc_setup]. exact IH. }
  rewrite St. cbn [lc_on_border]. eexists. split; [reflexivity|]. apply border_R; assumption.
Qed.
Print Assumptions C129_border.

(** An object that has not been used yet cannot tell, in any arithmetic; after one call for a cell of two or
    three dimensions it can. *)
Theorem C129_used : forall (A : arith) (rc : num A) (k : call A) ks x, length (k_box k) = 2%nat \/ length (k_box k) = 3%nat ->
  lc_on_border A (lc_after A rc None []) x = Err AttributeError /\ exists b, lc_on_border A (lc_after A rc None (k :: ks)) x = Ok b.
Proof.
  intros A rc k ks x Hd. split; [reflexivity|].
  assert (E : exists s, lc_after A rc None (k :: ks) = Some s).
  { unfold lc_after. cbn [fold_left]. assert (O : exists s, lc_setup A rc None k = Ok s).
    { unfold lc_setup, adjust. rewrite map_length. destruct Hd as [->| ->]; unfold offsets; destruct (call_newton k); cbn [bind]; eexists; reflexivity. }
    destruct O as [s O]. rewrite O. exists s. clear. induction ks as [|k' ks IH]; [reflexivity|]. cbn [fold_left lc_setup]. exact IH. }
  destruct E as [s E]. rewrite E. eexists. reflexivity.
Qed.
Print Assumptions C129_used.

(** What it is for: the periodic images closer than the cutoff of a particle that is not on the
    border are the particles of the cell themselves. *)
Lemma inner1 : forall a y k r L, 0 < L -> r <= a + L / 2 -> r <= L / 2 - a -> - (L / 2) <= y < L / 2 -> Rabs (a - (y + IZR k * L)) < r -> k = 0%Z.
Proof.
  intros a y k r L HL H1 H2 Hy H. apply Rabs_def2 in H. assert (A : IZR k < 1) by (apply Rmult_lt_reg_r with L; lra). assert (B : -1 < IZR k) by (apply Rmult_lt_reg_r with L; lra).
  apply lt_IZR in A. apply lt_IZR in B. lia.
Qed.

Lemma not_face : forall r L n, 0 < r -> 0 < L -> IZR n * r <= L < IZR (n + 1) * r -> (1 <= n)%Z -> r <= L / IZR n.
Proof.
  intros r L n Hr HL [H _] Hn. assert (1 <= IZR n) by (apply IZR_le in Hn; exact Hn). apply Rmult_le_reg_r with (IZR n); [lra|]. unfold Rdiv. rewrite Rmult_assoc, Rinv_l by lra. lra.
Qed.

Theorem C129_inner : forall rc side x y ks, 0 < rc -> (forall L, In L side -> 3 * rc <= L) -> folded x side -> folded y side -> ~ at_face rc x side ->
  length ks = length side -> euclid x (shifted y ks side) < rc -> ks = repeat 0%Z (length side).
Proof.
  intros rc side x y ks Hrc H3 Hx Hy Hn Hk Hd.
  assert (D : dist2 x (shifted y ks side) < rc * rc).
  { unfold euclid in Hd. pose proof (dist2_nonneg x (shifted y ks side)) as P. pose proof (sqrt_pos (dist2 x (shifted y ks side))) as Q. rewrite <- (sqrt_sqrt _ P). apply Rmult_le_0_lt_compat; assumption. }
  clear Hd. revert x y ks Hx Hy Hn Hk D. induction side as [|L side IH]; intros x y ks Hx Hy Hn Hk D; destruct ks as [|k ks]; try discriminate; [reflexivity|].
  destruct x as [|a x]; try contradiction. destruct y as [|b y]; try contradiction. cbn [shifted] in D. rewrite dist2_cons in D. destruct Hx as [Ha Hx]. destruct Hy as [Hb Hy].
  pose proof (dist2_nonneg x (shifted y ks side)) as P. pose proof (Rle_0_sqr (a - (b + IZR k * L))) as Q. unfold Rsqr in Q. cbn [length repeat]. f_equal.
  - assert (HL : 3 * rc <= L) by (apply H3; left; reflexivity). set (n := Rtrunc (L / rc)). pose proof (Rtrunc_bounds_nonneg (L / rc) ltac:(apply Rlt_le, Rdiv_lt_0_compat; lra)) as B. fold n in B.
    assert (Bn : IZR n * rc <= L < IZR (n + 1) * rc) by (rewrite plus_IZR; assert (EQ : L = L / rc * rc) by (field; lra); split; [rewrite EQ at 1; apply Rmult_le_compat_r; lra|rewrite EQ at 1; apply Rmult_lt_compat_r; lra]).
    assert (N1 : (1 <= n)%Z) by (assert (0 < n + 1)%Z by (apply lt_IZR; apply Rmult_lt_reg_r with rc; lra); assert (2 < IZR n + 1) by (rewrite plus_IZR in Bn; apply Rmult_lt_reg_r with rc; lra); assert (1 < n)%Z by (apply lt_IZR; lra); lia).
    pose proof (not_face rc L n Hrc ltac:(lra) Bn N1) as W.
    assert (F : ~ (a + L / 2 < L / IZR n \/ L / 2 - a <= L / IZR n)) by (intros F; apply Hn; left; exists n; split; assumption).
    assert (F1 : rc <= a + L / 2) by (destruct (Rlt_le_dec (a + L / 2) rc); [exfalso; apply F; left; lra|assumption]).
    assert (F2 : rc <= L / 2 - a) by (destruct (Rlt_le_dec (L / 2 - a) rc); [exfalso; apply F; right; lra|assumption]).
    apply (inner1 a b k rc L ltac:(lra) F1 F2 Hb). apply sq_lt_abs; [exact Hrc|lra].
  - apply (IH (fun l Hin => H3 l (or_intror Hin)) x y ks Hx Hy); [intros F; apply Hn; right; exact F|cbn in Hk; lia|lra].
Qed.
Print Assumptions C129_inner.

(** In double precision, with the margin of the linked cells (C126). *)
Lemma inner64 : forall rc O r, forall side per x y ks, 0 < r -> cell_fits rc side -> length per = length side -> (forall L, In L side -> r + p2 (-49) * fval L <= fval rc) ->
  well_inside x side -> well_inside y side -> existsb edge (combine (lc_index F64ops (fsetup rc side per O) x) (s_pns (fsetup rc side per O))) = false ->
  length ks = length side -> dist2 (map fval x) (shifted (map fval y) ks (map fval side)) < r * r -> ks = repeat 0%Z (length side).
Proof.
  intros rc O r. induction side as [|L side IH]; intros per x y ks Hr Hc Hl HL Hx Hy Hn Hk D; destruct ks as [|k ks]; try discriminate; [reflexivity|].
  inversion Hx as [|a ? x' ? [Ka Ba] Hx']; subst. inversion Hy as [|b ? y' ? [Kb Bb] Hy']; subst. destruct per as [|p per]; try discriminate.
  cbn [map shifted] in D. rewrite dist2_cons in D. destruct (fits_cons _ _ _ Hc) as [[K1 [B1 [K2 [B2 B3]]]] Hc'].
  rewrite findex_cons in Hn. cbn [s_pns fsetup map combine existsb] in Hn. apply orb_false_iff in Hn. destruct Hn as [Hn Hn'].
  pose proof (dist2_nonneg (map fval x') (shifted (map fval y') ks (map fval side))) as P. pose proof (Rle_0_sqr (fval a - (fval b + IZR k * fval L))) as Q. unfold Rsqr in Q.
  pose proof (L_pos rc L B1 B2) as PL. pose proof (p2_pos (-50)) as P50. assert (PM : 0 <= p2 (-50) * fval L) by (apply Rmult_le_pos; lra). cbn [length repeat]. f_equal.
  - change (to_int F64ops (fdiv L rc)) with (n64 rc L) in Hn. destruct (count64 rc L K1 B1 K2 B2) as [[N3 N30] NR]. set (n := n64 rc L) in *.
    destruct (cell_of_spec rc L K1 B1 K2 B2 B3 a Ka ltac:(lra)) as [C1 [C2 [X [C3 C4]]]]. specialize (C2 (proj2 Ba)). set (t := cell_of rc L a) in *.
    assert (T : (1 <= t <= n - 2)%Z).
    { destruct (Z.eq_dec t 0) as [T|T]; [rewrite (proj2 (edge_true t p n) (or_intror T)) in Hn; discriminate|]. destruct (Z.eq_dec t (n - 1)) as [T'|T']; [rewrite (proj2 (edge_true t p n) (or_introl T')) in Hn; discriminate|]. unfold n in *. lia. }
    assert (R3 : 3 <= IZR n) by (apply IZR_le in N3; exact N3). assert (T1 : 1 <= IZR t <= IZR n - 2) by (split; [apply IZR_le; apply T|rewrite <- minus_IZR; apply IZR_le; apply T]).
    fold n in C4. set (E := (fval a + fval L / 2) * IZR n / fval L) in *. pose proof u_small as U.
    assert (AE : (fval a + fval L / 2) * IZR n = E * fval L) by (unfold E; field; lra).
    apply Rabs_le_inv in C4. assert (E1 : (1 - 4 * u * IZR n) * fval L <= (fval a + fval L / 2) * IZR n) by (rewrite AE; apply Rmult_le_compat_r; lra).
    assert (E2 : (fval a + fval L / 2) * IZR n <= (IZR n - 1 + 4 * u * IZR n) * fval L) by (rewrite AE; apply Rmult_le_compat_r; lra).
    assert (M : r * IZR n + p2 (-49) * fval L * IZR n <= (1 + 2 * u) * fval L) by (pose proof (HL L (or_introl eq_refl)) as HL1; assert ((r + p2 (-49) * fval L) * IZR n <= fval rc * IZR n) by (apply Rmult_le_compat_r; lra); lra).
    assert (P49 : p2 (-49) = 16 * u) by (unfold u; change (-49)%Z with (4 + -53)%Z; rewrite p2_add; unfold p2 at 1; simpl; lra). rewrite P49 in M.
    assert (UL : 0 < u * fval L) by (apply Rmult_lt_0_compat; lra). assert (ULn : 3 * (u * fval L) <= u * fval L * IZR n) by (rewrite Rmult_comm; apply Rmult_le_compat_l; lra).
    apply (inner1 (fval a) (fval b) k r (fval L)); [lra| | | |apply sq_lt_abs; [exact Hr|lra]].
    + apply Rmult_le_reg_r with (IZR n); [lra|]. lra.
    + apply Rmult_le_reg_r with (IZR n); [lra|]. lra.
    + assert (0 < p2 (-50) * fval L) by (apply Rmult_lt_0_compat; lra). lra.
  - apply (IH per x' y' ks Hr Hc' ltac:(cbn in Hl; lia) (fun l Hin => HL l (or_intror Hin)) Hx' Hy' Hn' ltac:(cbn in Hk; lia)). lra.
Qed.

Theorem C129_doubles : forall (rc : f64) (k : call F64ops) ks (x y : list f64) ms r, length (k_box k) = 2%nat \/ length (k_box k) = 3%nat -> cell_fits rc (k_box k) ->
  length (match k_periodic k with Some p => p | None => repeat true (length (k_box k)) end) = length (k_box k) -> well_inside x (k_box k) -> well_inside y (k_box k) ->
  0 < r -> (forall L, In L (k_box k) -> r + p2 (-49) * fval L <= fval rc) ->
  exists b, lc_on_border F64ops (lc_after F64ops rc None (k :: ks)) x = Ok b /\
    (b = false -> length ms = length (k_box k) -> euclid (map fval x) (shifted (map fval y) ms (map fval (k_box k))) < r -> ms = repeat 0%Z (length (k_box k))).
Proof.
  intros rc k ks x y ms r Hd Hc Hper Hx Hy Hr HL. destruct (adjust_F rc (k_box k) (call_newton k) (k_periodic k) Hd) as [O [_ E]].
  set (per := match k_periodic k with Some p => p | None => repeat true (length (k_box k)) end) in *.
  assert (St : lc_after F64ops rc None (k :: ks) = Some (fsetup rc (k_box k) per O)).
  { unfold lc_after. cbn [fold_left lc_setup]. rewrite E. clear. induction ks as [|k' ks IH]; [reflexivity|]. cbn [fold_left lc_setup]. exact IH. }
  rewrite St. cbn [lc_on_border]. eexists. split; [reflexivity|]. intros Hb Hm Hdist.
  apply (inner64 rc O r (k_box k) per x y ms Hr Hc Hper HL Hx Hy Hb Hm).
  unfold euclid in Hdist. match type of Hdist with sqrt ?d < _ => pose proof (dist2_nonneg (map fval x) (shifted (map fval y) ms (map fval (k_box k)))) as P; pose proof (sqrt_pos d) as Q end. rewrite <- (sqrt_sqrt _ P). apply Rmult_le_0_lt_compat; assumption.
Qed.
Print Assumptions C129_doubles.

(** A cell of side 5 and a cutoff of 1: (0, 1) is inside; (0, 2) is not, and has an image closer than
    the cutoff across the face. *)
Example C129_nonvacuous :
  let st := lc_after F64ops (f64_ofZ 1) None [mkCall (A:=F64ops) (map f64_ofZ [5; 5]%Z) [] None true None] in
  lc_on_border F64ops st (map f64_ofZ [0; 1]%Z) = Ok false /\ lc_on_border F64ops st (map f64_ofZ [0; 2]%Z) = Ok true /\
  at_face 1 [0; 2] [5; 5] /\ ~ at_face 1 [0; 1] [5; 5] /\ euclid [0; 2] (shifted [0; -(9/4)] [0; 1]%Z [5; 5]) < 1.
Proof.
  cbv zeta. split; [vm_compute; reflexivity|]. split; [vm_compute; reflexivity|]. split; [|split].
  - right. left. exists 5%Z. change (5 + 1)%Z with 6%Z. lra.
  - assert (U : forall n a, IZR n * 1 <= 5 < IZR (n + 1) * 1 -> 0 <= a <= 1 -> ~ (a + 5 / 2 < 5 / IZR n \/ 5 / 2 - a <= 5 / IZR n)).
    { intros n a [H1 H2] Ha. assert (n = 5%Z) as ->; [|lra]. rewrite Rmult_1_r in H1, H2. apply le_IZR in H1. apply lt_IZR in H2. lia. }
    intros [[n [B H]]|[[n [B H]]|H]]; [exact (U n 0 B ltac:(lra) H)|exact (U n 1 B ltac:(lra) H)|exact H].
  - cbn [shifted]. unfold euclid. assert (D : dist2 [0; 2] [0 + IZR 0 * 5; - (9 / 4) + IZR 1 * 5] = 9 / 16) by (rewrite !dist2_cons; change (dist2 [] []) with 0; field). rewrite D.
    apply Rle_lt_trans with (3 / 4); [|lra]. replace (9 / 16) with (3 / 4 * (3 / 4)) by field. rewrite sqrt_square by lra. lra.
Qed.
