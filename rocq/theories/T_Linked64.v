(** C126: linked cells in double precision. *)
From Coq Require Import List ZArith Bool Arith Reals Lia Lra Floats.SpecFloat.
From Verif Require Import PyBase PyBaseFacts Num Spec_Stats NumFacts P_Text F64Round F64Ops F64Facts P_F64Mean M_Helpers M_Dynamics M_Realspace M_LinkedCells
  Spec_Dynamics Spec_Pairs Spec_LinkedCells P_Helpers P_Dynamics P_Image P_Pairs P_Count P_LinkedCells P_LinkedCells2 Spec_Linked64 P_Linked64.
Import ListNotations.
Local Open Scope R_scope.

Definition directions (side : list f64) (periodic : option (list bool)) : list bool :=
  match periodic with Some p => p | None => repeat true (length side) end.

(** One group: no particle is its own neighbour, no pair is listed twice, and every pair closer
    than the cutoff is listed, but for 2^-49 of a side. *)
Theorem C126_pairs_once : forall rc side periodic pos, cell_fits rc side -> (length side = 2 \/ length side = 3)%nat -> length (directions side periodic) = length side ->
  (forall x, In x pos -> well_inside x side) ->
  exists ns, lc_result F64ops rc None (mkCall (A:=F64ops) side pos None true periodic) = Ok ns /\ length ns = length pos /\
  (forall i j, (i < length pos)%nat -> In j (nth i ns []) -> (j < length pos)%nat) /\
  (forall i, (i < length pos)%nat -> listed ns i i = 0%nat) /\
  (forall i j, (i < length pos)%nat -> (j < length pos)%nat -> i <> j ->
    (listed ns i j + listed ns j i <= 1)%nat /\
    forall r, (forall L, In L side -> r + p2 (-49) * fval L <= fval rc) ->
      image_within (directions side periodic) (map fval side) (map fval (nth i pos [])) (map fval (nth j pos [])) r -> (listed ns i j + listed ns j i = 1)%nat).
Proof.
  intros rc side periodic pos Hc Hd Hl Hp. destruct (adjust_F rc side true periodic Hd) as [O [EO E]]. fold (directions side periodic) in E. set (s := fsetup rc side (directions side periodic) O) in *.
  assert (Hins : forall x, In x pos -> cell_inside (s_pns s) (lc_index F64ops s x) = true) by (intros x Hx; apply findex_inside; auto).
  destruct (newton_listed F64ops s (length side) pos Hd (fsetup_valid _ _ _ O Hl Hc) (fsetup_len _ _ _ O Hl) Hins EO) as [ns [En [Ln [Hj [Hs Hn]]]]]. exists ns. split.
  { unfold lc_result, lc_compute, lc_setup, call_newton. cbn [k_box k_pos k_other k_newton k_periodic]. refine (eq_trans (f_equal (fun z => bind (bind z _) _) E) _). cbn [bind]. refine (eq_trans (f_equal (fun z => bind (bind z _) _) En) _). reflexivity. }
  split; [exact Ln|]. split; [exact Hj|]. split; [exact Hs|]. intros i j Hi Hj' Hij. destruct (Hn i j Hi Hj' Hij) as [H1 H2]. split; [exact H1|].
  intros r Hr [ks [Lk [Hk Hdist]]]. apply H2. assert (Pr : 0 < r) by (pose proof (sqrt_pos (dist2 (map fval (nth i pos [])) (shifted (map fval (nth j pos [])) ks (map fval side)))) as Q; unfold euclid in Hdist; lra).
  apply fwithin_adjacent with (r := r) (ks := ks); auto; try (apply Hp, nth_In; assumption). { rewrite map_length in Lk. exact Lk. } apply (euclid_lt r). exact Hdist.
Qed.
Print Assumptions C126_pairs_once.

(** Two groups. *)
Theorem C126_ordered_pairs_once : forall rc side periodic pos other newton, cell_fits rc side -> (length side = 2 \/ length side = 3)%nat -> length (directions side periodic) = length side ->
  (forall x, In x pos -> well_inside x side) -> (forall x, In x other -> well_inside x side) ->
  exists ns, lc_result F64ops rc None (mkCall (A:=F64ops) side pos (Some other) newton periodic) = Ok ns /\ length ns = length pos /\
  (forall i j, (i < length pos)%nat -> In j (nth i ns []) -> (j < length other)%nat) /\
  (forall i j, (i < length pos)%nat -> (j < length other)%nat ->
    (listed ns i j <= 1)%nat /\
    forall r, (forall L, In L side -> r + p2 (-49) * fval L <= fval rc) ->
      image_within (directions side periodic) (map fval side) (map fval (nth i pos [])) (map fval (nth j other [])) r -> listed ns i j = 1%nat).
Proof.
  intros rc side periodic pos other newton Hc Hd Hl Hp Ho. destruct (adjust_F rc side false periodic Hd) as [O [EO E]]. fold (directions side periodic) in E. set (s := fsetup rc side (directions side periodic) O) in *.
  assert (Hins : forall x, In x pos -> cell_inside (s_pns s) (lc_index F64ops s x) = true) by (intros x Hx; apply findex_inside; auto).
  assert (Hino : forall x, In x other -> cell_inside (s_pns s) (lc_index F64ops s x) = true) by (intros x Hx; apply findex_inside; auto).
  destruct (full_listed F64ops s (length side) pos Hd (fsetup_valid _ _ _ O Hl Hc) (fsetup_len _ _ _ O Hl) Hins other Hino EO) as [ns [En [Ln [Hj Hn]]]]. exists ns. split.
  { unfold lc_result, lc_compute, lc_setup, call_newton. cbn [k_box k_pos k_other k_newton k_periodic]. refine (eq_trans (f_equal (fun z => bind (bind z _) _) E) _). cbn [bind]. refine (eq_trans (f_equal (fun z => bind (bind z _) _) En) _). reflexivity. }
  split; [exact Ln|]. split; [exact Hj|]. intros i j Hi Hj'. destruct (Hn i j Hi Hj') as [H1 H2]. split; [exact H1|].
  intros r Hr [ks [Lk [Hk Hdist]]]. apply H2. assert (Pr : 0 < r) by (pose proof (sqrt_pos (dist2 (map fval (nth i pos [])) (shifted (map fval (nth j other [])) ks (map fval side)))) as Q; unfold euclid in Hdist; lra).
  apply fwithin_adjacent with (r := r) (ks := ks); auto; try (apply Hp, nth_In; assumption); try (apply Ho, nth_In; assumption). { rewrite map_length in Lk. exact Lk. } apply (euclid_lt r). exact Hdist.
Qed.
Print Assumptions C126_ordered_pairs_once.

(** The margins are needed.  The double just below half of a side is in no subcell, *)
Definition below_two : f64 := S754_finite false (2 ^ 53 - 1) (-52).
Definition four_cells : list f64 := [f64_ofZ 4; f64_ofZ 4].
Theorem C126_upper_border :
  cell_fits (f64_ofZ 1) four_cells /\ folded (map fval [below_two; f64_ofZ 0]) (map fval four_cells) /\
  lc_result F64ops (f64_ofZ 1) None (mkCall (A:=F64ops) four_cells [[below_two; f64_ofZ 0]] None true None) = Err KeyError.
Proof.
  destruct (ofZ_exact 0 ltac:(lia)) as [K0 V0]. destruct (ofZ_exact 1 ltac:(lia)) as [K1 V1]. destruct (ofZ_exact 4 ltac:(lia)) as [K4 V4].
  assert (B1 : 4 <= p2 30) by (apply Rle_trans with (p2 2); [unfold p2; simpl; lra|apply p2_le; lia]). assert (B2 : p2 30 <= p2 60) by (apply p2_le; lia).
  assert (B3 : p2 (-60) <= 1) by (apply Rle_trans with (p2 0); [apply p2_le; lia|unfold p2; simpl; lra]).
  split.
  { split; [exact K1|]. rewrite V1. split; [exact B3|]. assert (P : ok (f64_ofZ 4) /\ 3 * 1 <= fval (f64_ofZ 4) <= p2 30 * 1 /\ fval (f64_ofZ 4) <= p2 60) by (split; [exact K4|rewrite V4; lra]).
    apply Forall_cons; [exact P|]. apply Forall_cons; [exact P|]. apply Forall_nil. }
  split; [|vm_compute; reflexivity]. unfold four_cells. cbn [map folded]. rewrite V0, V4. split; [|split; [lra|exact I]].
  assert (E : fval below_two = 2 - p2 (-52)).
  { unfold below_two. cbn [fval sgn]. change (powerRZ 2 (-52)) with (p2 (-52)). change (Z.pos (2 ^ 53 - 1)) with (2 * 2 ^ 52 - 1)%Z. rewrite minus_IZR, mult_IZR, <- p2_Z by lia.
    assert (Q : p2 52 * p2 (-52) = 1) by (rewrite <- p2_add; reflexivity). replace (1 * ((2 * p2 52 - 1) * p2 (-52))) with (2 * (p2 52 * p2 (-52)) - p2 (-52)) by ring. rewrite Q. ring. }
  rewrite E. pose proof (p2_pos (-52)). assert (p2 (-52) <= 1) by (apply Rle_trans with (p2 0); [apply p2_le; lia|unfold p2; simpl; lra]). lra.
Qed.
Print Assumptions C126_upper_border.

(** and two particles closer than the cutoff by less than a rounding may be missed. *)
Definition eight_cells : list f64 := [f64_ofZ 8; f64_ofZ 8].
Definition just_left : f64 := S754_finite true (3 * 2 ^ 51) (-104).
Definition just_below : f64 := S754_finite false (2 ^ 53 - 4) (-53).
Theorem C126_missed :
  cell_fits (f64_ofZ 1) eight_cells /\ (forall x, In x [just_left; just_below; f64_ofZ 0] -> ok x /\ -1 <= fval x <= 1) /\
  euclid (map fval [just_left; f64_ofZ 0]) (map fval [just_below; f64_ofZ 0]) < fval (f64_ofZ 1) /\
  lc_result F64ops (f64_ofZ 1) None (mkCall (A:=F64ops) eight_cells [[just_left; f64_ofZ 0]; [just_below; f64_ofZ 0]] None true None) = Ok [[]; []].
Proof.
  destruct (ofZ_exact 0 ltac:(lia)) as [K0 V0]. destruct (ofZ_exact 1 ltac:(lia)) as [K1 V1]. destruct (ofZ_exact 8 ltac:(lia)) as [K4 V4].
  assert (B1 : 8 <= p2 30) by (apply Rle_trans with (p2 3); [unfold p2; simpl; lra|apply p2_le; lia]). assert (B2 : p2 30 <= p2 60) by (apply p2_le; lia).
  assert (B3 : p2 (-60) <= 1) by (apply Rle_trans with (p2 0); [apply p2_le; lia|unfold p2; simpl; lra]).
  assert (B4 : p2 (-53) <= / 16) by (apply Rle_trans with (p2 (-4)); [apply p2_le; lia|unfold p2; simpl; lra]). pose proof (p2_pos (-53)) as B5.
  assert (E1 : fval just_left = - (3 * p2 (-53))).
  { unfold just_left. cbn [fval sgn]. change (powerRZ 2 (-104)) with (p2 (-104)). change (Z.pos (3 * 2 ^ 51)) with (3 * 2 ^ 51)%Z. rewrite mult_IZR, <- p2_Z by lia.
    replace (p2 (-53)) with (p2 51 * p2 (-104)) by (rewrite <- p2_add; reflexivity). ring. }
  assert (E2 : fval just_below = 1 - 4 * p2 (-53)).
  { unfold just_below. cbn [fval sgn]. change (powerRZ 2 (-53)) with (p2 (-53)). change (Z.pos (2 ^ 53 - 4)) with (2 ^ 53 - 4)%Z. rewrite minus_IZR, <- p2_Z by lia.
    assert (Q : p2 53 * p2 (-53) = 1) by (rewrite <- p2_add; reflexivity). replace (1 * ((p2 53 - 4) * p2 (-53))) with (p2 53 * p2 (-53) - 4 * p2 (-53)) by ring. rewrite Q. ring. }
  split.
  { split; [exact K1|]. rewrite V1. split; [exact B3|]. assert (P : ok (f64_ofZ 8) /\ 3 * 1 <= fval (f64_ofZ 8) <= p2 30 * 1 /\ fval (f64_ofZ 8) <= p2 60) by (split; [exact K4|rewrite V4; lra]).
    apply Forall_cons; [exact P|]. apply Forall_cons; [exact P|]. apply Forall_nil. }
  split. { intros x [<-|[<-|[<-|[]]]]; [split; [split; [reflexivity|exact I]|rewrite E1; lra]|split; [split; [reflexivity|exact I]|rewrite E2; lra]|split; [exact K0|rewrite V0; lra]]. }
  split; [|vm_compute; reflexivity]. unfold euclid. cbn [map dist2]. rewrite E1, E2, V0, V1. apply Rlt_le_trans with (sqrt 1); [|rewrite sqrt_1; lra]. apply sqrt_lt_1_alt. split; [nra|].
  replace _ with ((1 - p2 (-53)) * (1 - p2 (-53))) by ring. nra.
Qed.
Print Assumptions C126_missed.

(** Four particles in a square of side 3 with cutoff 9/10. *)
Definition small_square : list f64 := [f64_ofZ 3; f64_ofZ 3].
Definition four_points : list (list f64) := [[f64_ofZ (-1); f64_ofZ (-1)]; [f64_frac 5 4; f64_ofZ (-1)]; [f64_frac 5 4; f64_frac (-5) 4]; [f64_ofZ 0; f64_ofZ 0]].
Example C126_nonvacuous :
  cell_fits (f64_frac 7 8) small_square /\ (forall x, In x four_points -> well_inside x small_square) /\
  (forall L, In L small_square -> 13 / 16 + p2 (-49) * fval L <= fval (f64_frac 7 8)) /\
  image_within (directions small_square None) (map fval small_square) (map fval (nth 0 four_points [])) (map fval (nth 1 four_points [])) (13 / 16) /\
  lc_result F64ops (f64_frac 7 8) None (mkCall (A:=F64ops) small_square four_points None true None) = Ok [[3]; [2; 0; 3]; [0; 3]; []]%nat.
Proof.
  assert (Q : forall p e, (Z.abs p <= 2 ^ 53)%Z -> (0 <= e <= 50)%Z -> ok (f64_frac p (2 ^ e)) /\ fval (f64_frac p (2 ^ e)) = IZR p * p2 (- e)).
  { intros p e Hp He. assert (E2 : (2 ^ e <= 2 ^ 50)%Z) by (apply Z.pow_le_mono_r; lia). assert (E1 : (0 < 2 ^ e)%Z) by (apply Z.pow_pos_nonneg; lia).
    destruct (ofZ_exact p Hp) as [Kp Vp]. destruct (ofZ_exact (2 ^ e)) as [Ke Ve]; [lia|]. assert (NZ : fval (f64_ofZ (2 ^ e)) <> 0) by (rewrite Ve; apply not_eq_sym, Rlt_not_eq, IZR_lt; exact E1).
    pose proof (div_spec _ _ (proj1 Kp) (proj1 Ke) (proj2 Kp) (proj2 Ke) NZ) as D. rewrite Vp, Ve in D. rewrite <- p2_Z in D by lia.
    assert (EQ : IZR p / p2 e = IZR p * p2 (- e)). { assert (p2 e * p2 (- e) = 1) by (rewrite <- p2_add; replace (e + - e)%Z with 0%Z by lia; reflexivity). pose proof (p2_pos e). apply Rmult_eq_reg_r with (p2 e); [|lra]. unfold Rdiv. rewrite Rmult_assoc, Rinv_l, Rmult_1_r by lra. rewrite Rmult_assoc, (Rmult_comm (p2 (- e))), H. ring. }
    rewrite EQ in D. apply (rounded_exact _ _ D); [apply format_scaled; lia|]. rewrite Rabs_mult, (Rabs_right (p2 (- e))) by (apply Rle_ge, Rlt_le, p2_pos).
    apply Rle_lt_trans with (p2 53 * p2 0); [|rewrite <- p2_add; apply p2_lt; lia]. apply Rmult_le_compat; [apply Rabs_pos|apply Rlt_le, p2_pos| |apply p2_le; lia]. rewrite <- abs_IZR, p2_Z by lia. apply IZR_le. exact Hp. }
  destruct (Q 7%Z 3%Z ltac:(lia) ltac:(lia)) as [K1 V1]. destruct (Q 5%Z 2%Z ltac:(lia) ltac:(lia)) as [K2 V2]. destruct (Q (-5)%Z 2%Z ltac:(lia) ltac:(lia)) as [K3 V3].
  change (2 ^ 3)%Z with 8%Z in *. change (2 ^ 2)%Z with 4%Z in *. destruct (ofZ_exact 0 ltac:(lia)) as [K4 V4]. destruct (ofZ_exact (-1) ltac:(lia)) as [K5 V5]. destruct (ofZ_exact 3 ltac:(lia)) as [K6 V6].
  assert (P3 : p2 (- (3)) = / 8) by (unfold p2; simpl; lra). assert (P2 : p2 (- (2)) = / 4) by (unfold p2; simpl; lra). rewrite P3 in V1. rewrite P2 in V2, V3.
  assert (B1 : 8 <= p2 30) by (apply Rle_trans with (p2 3); [unfold p2; simpl; lra|apply p2_le; lia]). assert (B2 : p2 30 <= p2 60) by (apply p2_le; lia).
  assert (B3 : p2 (-60) <= / 16) by (apply Rle_trans with (p2 (-4)); [apply p2_le; lia|unfold p2; simpl; lra]).
  assert (B4 : p2 (-50) <= / 1024) by (apply Rle_trans with (p2 (-10)); [apply p2_le; lia|unfold p2; simpl; lra]). assert (B5 : p2 (-49) <= / 1024) by (apply Rle_trans with (p2 (-10)); [apply p2_le; lia|unfold p2; simpl; lra]).
  split.
  { split; [exact K1|]. rewrite V1. split; [lra|]. assert (P : ok (f64_ofZ 3) /\ 3 * (7 * / 8) <= fval (f64_ofZ 3) <= p2 30 * (7 * / 8) /\ fval (f64_ofZ 3) <= p2 60) by (split; [exact K6|rewrite V6; lra]).
    apply Forall_cons; [exact P|]. apply Forall_cons; [exact P|]. apply Forall_nil. }
  split. { intros x [<-|[<-|[<-|[<-|[]]]]]; (apply Forall2_cons; [|apply Forall2_cons; [|apply Forall2_nil]]); (split; [assumption|rewrite ?V2, ?V3, ?V4, ?V5, V6; lra]). }
  split. { intros L [<-|[<-|[]]]; rewrite V6, V1; lra. }
  split; [|vm_compute; reflexivity].
  exists [(-1)%Z; 0%Z]. split; [reflexivity|]. split. { intros [|[|i]] H; cbn in *; try discriminate. destruct i; discriminate. }
  unfold euclid. apply Rlt_le_trans with (sqrt (13 / 16 * (13 / 16))); [|rewrite sqrt_square; lra]. apply sqrt_lt_1_alt. cbn [nth four_points small_square map shifted dist2]. rewrite V2, V5, V6. lra.
Qed.
