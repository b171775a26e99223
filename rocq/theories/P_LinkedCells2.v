(** Linked cells: neighbour lists. *)
From Coq Require Import List ZArith Bool Arith Lia Reals Lra Permutation Psatz.
From Verif Require Import PyBase PyBaseFacts Num NumFacts Spec_Stats M_Helpers M_Dynamics M_Realspace M_LinkedCells
  Spec_Dynamics Spec_Pairs Spec_LinkedCells P_Helpers P_Dynamics P_Image P_Pairs P_Count P_LinkedCells.
Import ListNotations.

(** Lists, any arithmetic. *)
Lemma count_occ_filter : forall (f : nat -> bool) l j,
  count_occ Nat.eq_dec (filter f l) j = if f j then count_occ Nat.eq_dec l j else 0.
Proof.
  intros f l j. induction l as [|a l IH]; [destruct (f j); reflexivity|]. cbn [filter].
  destruct (f a) eqn:E; cbn [count_occ]; destruct (Nat.eq_dec a j) as [->|N]; rewrite ?IH, ?E; try reflexivity.
Qed.
Lemma count_occ_seq : forall n j, count_occ Nat.eq_dec (seq 0 n) j = if (j <? n)%nat then 1 else 0.
Proof.
  intros n j. destruct (Nat.ltb_spec j n).
  - apply NoDup_count_occ'; [apply seq_NoDup|apply in_seq; lia].
  - apply count_occ_not_In. rewrite in_seq. lia.
Qed.
Lemma count_in_cell : forall idx c j, (j < length idx)%nat ->
  count_occ Nat.eq_dec (in_cell idx c) j = b2n (cell_eqb (nth j idx []) c).
Proof.
  intros idx c j Hj. unfold in_cell. rewrite count_occ_filter, count_occ_seq.
  apply Nat.ltb_lt in Hj. rewrite Hj. reflexivity.
Qed.
Lemma count_in_cells : forall idx cs j, (j < length idx)%nat ->
  count_occ Nat.eq_dec (flat_map (in_cell idx) cs) j = cnt (fun c => cell_eqb (nth j idx []) c) cs.
Proof.
  intros idx cs j Hj. induction cs as [|c cs IH]; [reflexivity|]. cbn [flat_map].
  rewrite count_occ_app, IH, count_in_cell, cnt_cons by exact Hj. reflexivity.
Qed.
Lemma cell_eqb_comm : forall a b, cell_eqb a b = cell_eqb b a.
Proof. intros a b. destruct (cell_eqb_spec a b), (cell_eqb_spec b a); congruence. Qed.

Lemma count_neigh : forall idx O pns a j, (j < length idx)%nat -> cell_inside pns (nth j idx []) = true ->
  count_occ Nat.eq_dec (flat_map (in_cell idx) (filter (cell_inside pns) (map (fun o => map2 pbc1 pns (map2 Z.add a o)) O))) j
  = cnt (fcell pns a (nth j idx [])) O.
Proof.
  intros idx O pns a j Hj Hi. rewrite count_in_cells by exact Hj. rewrite cnt_filter, cnt_map. apply cnt_ext. intros o _.
  unfold fcell, shiftc. rewrite (cell_eqb_comm (nth j idx [])).
  destruct (cell_eqb_spec (map2 pbc1 pns (map2 Z.add a o)) (nth j idx [])) as [E|E]; [|apply andb_false_r].
  rewrite E, Hi. reflexivity.
Qed.

Section Lists.
Variable A : arith.
Variables (s : setup A) (pos : list (list (num A))).
Let idx := map (lc_index A s) pos.
Hypothesis Hin : forall x, In x pos -> cell_inside (s_pns s) (lc_index A s x) = true.

Lemma idx_len : length idx = length pos.
Proof. apply map_length. Qed.
Lemma idx_inside : forall i, (i < length pos)%nat -> cell_inside (s_pns s) (nth i idx []) = true.
Proof.
  intros i Hi. unfold idx. rewrite (nth_indep _ [] (lc_index A s [])) by (rewrite map_length; exact Hi).
  rewrite map_nth. apply Hin. apply nth_In. exact Hi.
Qed.

Lemma lc_self_Ok : exists ns, lc_neighbors A s pos None = Ok ns /\ length ns = length pos /\
  forall i j, (i < length pos)%nat ->
    (In j (nth i ns []) -> (j < length pos)%nat) /\
    ((j < length pos)%nat ->
     listed ns i j = (b2n ((i <? j)%nat && cell_eqb (nth i idx []) (nth j idx [])) + cnt (fcell (s_pns s) (nth i idx []) (nth j idx [])) (s_offs s))%nat).
Proof.
  unfold lc_neighbors. fold idx.
  rewrite (mapM_pure _ _ _ (fun i => filter (fun j => (i <? j)%nat) (in_cell idx (nth i idx [])) ++
    flat_map (in_cell idx) (filter (cell_inside (s_pns s)) (map (fun o => map2 pbc1 (s_pns s) (map2 Z.add (nth i idx []) o)) (s_offs s))))).
  2:{ intros i Hi. apply in_seq in Hi. rewrite (get_Ok _ idx i []) by (rewrite idx_len; lia). cbn [bind].
      unfold neigh_cells. rewrite idx_inside by lia. reflexivity. }
  eexists. split; [reflexivity|]. split; [rewrite map_length, seq_length; reflexivity|].
  intros i j Hi. unfold listed. rewrite nth_map_seq by exact Hi. split.
  - intros H. apply in_app_or in H. rewrite <- idx_len. destruct H as [H|H].
    + apply filter_In in H. destruct H as [H _]. apply filter_In in H. destruct H as [H _]. apply in_seq in H. lia.
    + apply in_flat_map in H. destruct H as [c [_ H]]. apply filter_In in H. destruct H as [H _]. apply in_seq in H. lia.
  - intros Hj. rewrite count_occ_app, count_occ_filter, count_in_cell by (rewrite idx_len; exact Hj).
    rewrite count_neigh by (rewrite ?idx_len; try exact Hj; apply idx_inside; exact Hj). f_equal.
    rewrite (cell_eqb_comm (nth j idx [])). destruct (i <? j)%nat; reflexivity.
Qed.

Lemma lc_other_Ok : forall other, (forall x, In x other -> cell_inside (s_pns s) (lc_index A s x) = true) ->
  let idy := map (lc_index A s) other in
  exists ns, lc_neighbors A s pos (Some other) = Ok ns /\ length ns = length pos /\
  forall i j, (i < length pos)%nat ->
    (In j (nth i ns []) -> (j < length other)%nat) /\
    ((j < length other)%nat ->
     listed ns i j = (b2n (cell_eqb (nth i idx []) (nth j idy [])) + cnt (fcell (s_pns s) (nth i idx []) (nth j idy [])) (s_offs s))%nat).
Proof.
  intros other Ho idy. unfold lc_neighbors. fold idx. fold idy.
  assert (length idy = length other) as Ly by apply map_length.
  rewrite (mapM_pure _ _ _ (fun i => in_cell idy (nth i idx []) ++
    flat_map (in_cell idy) (filter (cell_inside (s_pns s)) (map (fun o => map2 pbc1 (s_pns s) (map2 Z.add (nth i idx []) o)) (s_offs s))))).
  2:{ intros i Hi. apply in_seq in Hi. rewrite (get_Ok _ idx i []) by (rewrite idx_len; lia). cbn [bind].
      unfold neigh_cells. rewrite idx_inside by lia. reflexivity. }
  eexists. split; [reflexivity|]. split; [rewrite map_length, seq_length; reflexivity|].
  intros i j Hi. unfold listed. rewrite nth_map_seq by exact Hi. split.
  - intros H. apply in_app_or in H. rewrite <- Ly. destruct H as [H|H].
    + apply filter_In in H. destruct H as [H _]. apply in_seq in H. lia.
    + apply in_flat_map in H. destruct H as [c [_ H]]. apply filter_In in H. destruct H as [H _]. apply in_seq in H. lia.
  - intros Hj. rewrite count_occ_app, count_in_cell by (rewrite Ly; exact Hj).
    rewrite count_neigh; [|rewrite Ly; exact Hj|].
    + f_equal. rewrite cell_eqb_comm. reflexivity.
    + unfold idy. rewrite (nth_indep _ [] (lc_index A s [])) by (rewrite map_length; exact Hj).
      rewrite map_nth. apply Ho. apply nth_In. exact Hj.
Qed.
End Lists.

(** Geometry, exact arithmetic. *)
Local Open Scope R_scope.
Definition ncells (rc : R) (side : list R) : list Z := map (fun L => Rtrunc (L / rc)) side.

Lemma index1 : forall L rc x n, 0 < rc -> 0 < L -> n = Rtrunc (L / rc) -> (3 <= n)%Z -> - (L / 2) <= x < L / 2 ->
  let X := (x + L / 2) / (L / IZR n) in
  (0 <= Rtrunc X < n)%Z /\ IZR (Rtrunc X) <= X < IZR (Rtrunc X) + 1 /\ X = (x + L / 2) * IZR n / L.
Proof.
  intros L rc x n Hrc HL Hn H3 Hx X.
  assert (3 <= IZR n) as Hn3 by (apply IZR_le in H3; exact H3).
  assert (X = (x + L / 2) * IZR n / L) as EX by (unfold X; field; lra).
  assert (0 <= X) as HX0.
  { rewrite EX. apply Rmult_le_pos; [apply Rmult_le_pos; lra|]. left. apply Rinv_0_lt_compat. exact HL. }
  assert (X < IZR n) as HXn.
  { rewrite EX. apply Rmult_lt_reg_r with L; [exact HL|]. unfold Rdiv. rewrite Rmult_assoc, Rinv_l by lra.
    rewrite Rmult_1_r, (Rmult_comm (IZR n)). apply Rmult_lt_compat_r; lra. }
  rewrite Rtrunc_nonneg by exact HX0. split; [|split; [apply Rfloor_bounds|exact EX]].
  split; [apply Rfloor_nonneg; exact HX0|apply Rfloor_lt_Z; exact HXn].
Qed.

Lemma adjacent1 : forall p L rc x y k n, 0 < rc -> 0 < L -> n = Rtrunc (L / rc) -> (3 <= n)%Z ->
  - (L / 2) <= x < L / 2 -> - (L / 2) <= y < L / 2 -> (p = false -> k = 0%Z) ->
  Rabs (x - (y + IZR k * L)) < rc ->
  exists o, (-1 <= o <= 1)%Z /\
    pbc1 (p, n) (Rtrunc ((x + L / 2) / (L / IZR n)) + o) = Rtrunc ((y + L / 2) / (L / IZR n)).
Proof.
  intros p L rc x y k n Hrc HL Hn H3 Hx Hy Hk Hd.
  destruct (index1 L rc x n Hrc HL Hn H3 Hx) as [Ba [Fa Ea]].
  destruct (index1 L rc y n Hrc HL Hn H3 Hy) as [Bb [Fb Eb]].
  set (X := (x + L / 2) / (L / IZR n)) in *. set (Y := (y + L / 2) / (L / IZR n)) in *.
  set (a := Rtrunc X) in *. set (b := Rtrunc Y) in *.
  assert (3 <= IZR n) as Hn3 by (apply IZR_le in H3; exact H3).
  assert (IZR n <= L / rc) as Hnl.
  { rewrite Hn. apply Rtrunc_bounds_nonneg. apply Rlt_le. apply Rdiv_lt_0_compat; assumption. }
  assert (Rabs (X - Y - IZR k * IZR n) < 1) as HXY.
  { assert (X - Y - IZR k * IZR n = (x - (y + IZR k * L)) * (IZR n / L)) as -> by (rewrite Ea, Eb; field; lra).
    rewrite Rabs_mult. rewrite (Rabs_right (IZR n / L)) by (apply Rle_ge, Rlt_le, Rdiv_lt_0_compat; lra).
    apply Rlt_le_trans with (rc * (IZR n / L)).
    - apply Rmult_lt_compat_r; [apply Rdiv_lt_0_compat; lra|exact Hd].
    - apply Rle_trans with (rc * ((L / rc) / L)).
      + apply Rmult_le_compat_l; [lra|]. unfold Rdiv at 1 2. apply Rmult_le_compat_r; [left; apply Rinv_0_lt_compat; exact HL|exact Hnl].
      + right. field. lra. }
  apply Rabs_def2 in HXY.
  assert (-2 < IZR (a - b - k * n) < 2) as Hz.
  { rewrite !minus_IZR, mult_IZR. lra. }
  destruct Hz as [Hz1 Hz2]. apply lt_IZR in Hz1. apply lt_IZR in Hz2.
  clearbody a b. clear - Ba Bb Hz1 Hz2 Hk H3.
  exists (b - a + k * n)%Z. split; [lia|]. replace (a + (b - a + k * n))%Z with (b + k * n)%Z by lia.
  assert (k = 0 \/ k = 1 \/ k = -1)%Z as [->|[-> | ->]].
  { assert (- n <= k * n <= n)%Z by lia. nia. }
  - rewrite Z.mul_0_l, Z.add_0_r. apply pbc1_inside. exact Bb.
  - destruct p; [|specialize (Hk eq_refl); discriminate]. unfold pbc1. destruct (Z.leb_spec n (b + 1 * n)); lia.
  - destruct p; [|specialize (Hk eq_refl); discriminate]. unfold pbc1.
    destruct (Z.leb_spec n (b + -1 * n)); [lia|]. destruct (Z.ltb_spec (b + -1 * n) 0); lia.
Qed.

(** The setup made by adjust. *)
Definition rsetup (rc : R) (side : list R) (per : list bool) (O : list (list Z)) : setup Rops :=
  mkSetup (A:=Rops) (map (fun L => L / 2) side) (map2 (fun L n => L / IZR n) side (ncells rc side))
    (combine per (ncells rc side)) O.

Lemma lc_index_cons : forall rc L side p per O x r,
  lc_index Rops (rsetup rc (L :: side) (p :: per) O) (x :: r)
  = Rtrunc ((x + L / 2) / (L / IZR (Rtrunc (L / rc)))) :: lc_index Rops (rsetup rc side per O) r.
Proof. reflexivity. Qed.

Definition big (rc : R) (side : list R) : Prop := forall L, In L side -> (3 <= Rtrunc (L / rc))%Z.

Lemma index_inside : forall rc O, 0 < rc -> forall side per x, positive side -> big rc side -> length per = length side ->
  folded x side ->
  cell_inside (s_pns (rsetup rc side per O)) (lc_index Rops (rsetup rc side per O) x) = true.
Proof.
  intros rc O Hrc. induction side as [|L side IH]; intros per x Hp Hb Hl Hf; destruct x as [|a x]; try contradiction;
    destruct per as [|p per]; try discriminate; [reflexivity|].
  rewrite lc_index_cons. cbn [s_pns rsetup ncells map combine]. apply cell_inside_cons. destruct Hf as [Ha Hf]. cbn [snd].
  split.
  - apply (index1 L rc a); auto; [apply Hp; left; reflexivity|apply Hb; left; reflexivity].
  - apply IH; auto; [intros l Hin; apply Hp; right; exact Hin|intros l Hin; apply Hb; right; exact Hin].
Qed.

Lemma sq_lt_abs : forall a r, 0 < r -> a * a < r * r -> Rabs a < r.
Proof.
  intros a r Hr H. rewrite <- (Rabs_right r) by lra. apply Rsqr_lt_abs_0. unfold Rsqr. exact H.
Qed.

Lemma dist2_cons : forall a x b y, dist2 (a :: x) (b :: y) = (a - b) * (a - b) + dist2 x y.
Proof. reflexivity. Qed.

Lemma within_adjacent : forall rc O, 0 < rc -> forall side per x y ks, positive side -> big rc side -> length per = length side ->
  folded x side -> folded y side -> length ks = length side ->
  (forall i, nth i per true = false -> nth i ks 0%Z = 0%Z) ->
  dist2 x (shifted y ks side) < rc * rc ->
  adjacent (s_pns (rsetup rc side per O)) (lc_index Rops (rsetup rc side per O) x) (lc_index Rops (rsetup rc side per O) y).
Proof.
  intros rc O Hrc. induction side as [|L side IH]; intros per x y ks Hp Hb Hl Hx Hy Hk Hper Hd;
    destruct x as [|a x]; try contradiction; destruct y as [|b y]; try contradiction;
    destruct per as [|p per]; try discriminate; destruct ks as [|k ks]; try discriminate.
  { exists []. repeat split. constructor. }
  cbn [shifted] in Hd. rewrite dist2_cons in Hd. destruct Hx as [Ha Hx], Hy as [Hb' Hy].
  assert (0 <= dist2 x (shifted y ks side)) as Hnn by apply dist2_nonneg.
  assert (0 <= (a - (b + IZR k * L)) * (a - (b + IZR k * L))) as Hsq by apply Rle_0_sqr.
  destruct (IH per x y ks) as [o [Lo [So E]]]; auto.
  { intros l Hin. apply Hp. right. exact Hin. } { intros l Hin. apply Hb. right. exact Hin. }
  { intros i. apply (Hper (S i)). } { lra. }
  destruct (adjacent1 p L rc a b k (Rtrunc (L / rc))) as [u [Hu Eu]]; auto.
  { apply Hp. left. reflexivity. } { apply Hb. left. reflexivity. } { exact (Hper 0%nat). } { apply sq_lt_abs; [exact Hrc|lra]. }
  exists (u :: o). rewrite !lc_index_cons. split; [cbn [length]; congruence|]. split; [constructor; assumption|].
  cbn [s_pns rsetup ncells map combine]. rewrite shiftc_cons. f_equal; [exact Eu|exact E].
Qed.

Lemma combine_snd : forall (per : list bool) (ns : list Z), length per = length ns -> map snd (combine per ns) = ns.
Proof. induction per as [|p per IH]; intros [|n ns] H; cbn in *; try discriminate; [reflexivity|]. f_equal. apply IH. lia. Qed.
Lemma rsetup_valid : forall rc side per O, length per = length side -> big rc side -> valid (s_pns (rsetup rc side per O)).
Proof.
  intros rc side per O Hl Hb. apply Forall_forall. intros pn Hpn. cbn [s_pns rsetup] in Hpn.
  apply (in_map snd) in Hpn. rewrite combine_snd in Hpn by (unfold ncells; rewrite map_length; exact Hl).
  apply in_map_iff in Hpn. destruct Hpn as [L [<- HL]]. apply Hb. exact HL.
Qed.
Lemma rsetup_len : forall rc side per O, length per = length side -> length (s_pns (rsetup rc side per O)) = length side.
Proof. intros. cbn [s_pns rsetup]. rewrite combine_length. unfold ncells. rewrite map_length. lia. Qed.

Definition flags (side : list R) (periodic : option (list bool)) : list bool :=
  match periodic with Some p => p | None => repeat true (length side) end.
Lemma adjust_R : forall rc side newton periodic, dim23 (length side) ->
  exists O, offsets (length side) newton = Ok O /\ adjust Rops rc side newton periodic = Ok (rsetup rc side (flags side periodic) O).
Proof.
  intros rc side newton periodic Hd. unfold adjust.
  assert (length (map (fun L : num Rops => to_int Rops (ndiv Rops L rc)) side) = length side) as -> by apply map_length.
  assert (exists O, offsets (length side) newton = Ok O) as [O E].
  { destruct newton; [destruct (offsets_newton _ Hd) as [O [E _]]|destruct (offsets_full _ Hd) as [O [E _]]]; exists O; exact E. }
  exists O. split; [exact E|]. rewrite E. reflexivity.
Qed.

Section Final.
Variables (rc : R) (side : list R) (periodic : option (list bool)) (pos : list (list R)).
Let per := flags side periodic.
Hypothesis Hrc : 0 < rc.
Hypothesis Hd : dim23 (length side).
Hypothesis Hp : positive side.
Hypothesis Hb : big rc side.
Hypothesis Hper : length per = length side.
Hypothesis Hpos : forall x, In x pos -> folded x side.

Lemma idx_nth : forall O (l : list (list R)) i, (i < length l)%nat ->
  nth i (map (lc_index Rops (rsetup rc side per O)) l) [] = lc_index Rops (rsetup rc side per O) (nth i l []).
Proof.
  intros O l i Hi. rewrite (nth_indep _ [] (lc_index Rops (rsetup rc side per O) [])) by (rewrite map_length; exact Hi).
  apply map_nth.
Qed.

Ltac etransitivity_adj E1 E2 :=
  let H1 := fresh in let H2 := fresh in
  pose proof E1 as H1; pose proof E2 as H2; change (num Rops) with R in *;
  match goal with s := rsetup _ _ _ _ |- _ => fold s in H1, H2 end;
  rewrite ?H1, ?H2; clear H1 H2.
Lemma euclid_lt : forall x y, euclid x y < rc -> dist2 x y < rc * rc.
Proof.
  intros x y H. unfold euclid in H. pose proof (dist2_nonneg x y) as Hn. pose proof (sqrt_pos (dist2 x y)) as Hs.
  rewrite <- (sqrt_sqrt (dist2 x y) Hn). apply Rmult_le_0_lt_compat; assumption.
Qed.

Lemma newton_list : exists s ns,
  lc_compute Rops rc None (mkCall (A:=Rops) side pos None true periodic) = Ok (s, ns) /\ length ns = length pos /\
  (forall i j, (i < length pos)%nat -> In j (nth i ns []) -> (j < length pos)%nat) /\
  (forall i, (i < length pos)%nat -> listed ns i i = 0%nat) /\
  (forall i j, (i < length pos)%nat -> (j < length pos)%nat -> i <> j ->
    (listed ns i j + listed ns j i <= 1)%nat /\
  (image_within per side (nth i pos []) (nth j pos []) rc -> (listed ns i j + listed ns j i = 1)%nat)).
Proof.
  destruct (adjust_R rc side true periodic Hd) as [O [EO E]]. fold per in E.
  set (s := rsetup rc side per O) in *.
  assert (forall x, In x pos -> cell_inside (s_pns s) (lc_index Rops s x) = true) as Hins.
  { intros x Hx. apply index_inside; auto. }
  destruct (lc_self_Ok Rops s pos Hins) as [ns [En [Ln Hn]]].
  assert (valid (s_pns s)) as Hv by (apply rsetup_valid; assumption).
  assert (length (s_pns s) = length side) as Hls by (apply rsetup_len; assumption).
  assert (s_offs s = O) as HsO by reflexivity.
  exists s, ns. split.
  { unfold lc_compute, lc_setup, call_newton. cbn [k_box k_pos k_other k_newton k_periodic].
    change (num Rops) with R in *. rewrite E. cbn [bind]. rewrite En. reflexivity. }
  split; [exact Ln|]. split; [intros i j Hi; apply (Hn i j Hi)|].
  assert (forall i, (i < length pos)%nat -> cell_inside (s_pns s) (nth i (map (lc_index Rops s) pos) []) = true) as Hi2
    by (intros i Hi; apply idx_inside; assumption).
  split.
  - intros i Hi. destruct (Hn i i Hi) as [_ H]. rewrite H by exact Hi. rewrite Nat.ltb_irrefl. cbn [andb b2n Nat.add].
    destruct (newton_count (length side) O (s_pns s) (nth i (map (lc_index Rops s) pos) []) (nth i (map (lc_index Rops s) pos) []) Hd EO Hv Hls
      (Hi2 i Hi) (Hi2 i Hi)) as [Hle _]. rewrite cell_eqb_refl in Hle. cbn [b2n] in Hle. rewrite HsO. lia.
  - intros i j Hi Hj Hij.
    destruct (Hn i j Hi) as [_ H1]. destruct (Hn j i Hj) as [_ H2]. rewrite H1, H2 by assumption. rewrite HsO.
    destruct (newton_count (length side) O (s_pns s) (nth i (map (lc_index Rops s) pos) []) (nth j (map (lc_index Rops s) pos) []) Hd EO Hv Hls
      (Hi2 i Hi) (Hi2 j Hj)) as [Hle Hadj].
    set (a := nth i (map (lc_index Rops s) pos) []) in *. set (b := nth j (map (lc_index Rops s) pos) []) in *.
    assert ((b2n ((i <? j)%nat && cell_eqb a b) + cnt (fcell (s_pns s) a b) O
       + (b2n ((j <? i)%nat && cell_eqb b a) + cnt (fcell (s_pns s) b a) O))%nat
       = (b2n (cell_eqb a b) + cnt (fcell (s_pns s) a b) O + cnt (fcell (s_pns s) b a) O)%nat) as ->.
    { rewrite (cell_eqb_comm b a). destruct (Nat.ltb_spec i j), (Nat.ltb_spec j i); try lia; cbn [andb b2n]; lia. }
    split; [exact Hle|]. intros [ks [Lk [Hk Hdist]]]. apply Hadj. unfold a, b.
    etransitivity_adj (idx_nth O pos i Hi) (idx_nth O pos j Hj).
    apply within_adjacent with (ks := ks); auto; try (apply Hpos, nth_In; assumption). apply euclid_lt. exact Hdist.
Qed.

Lemma distinct_list : forall other newton, (forall x, In x other -> folded x side) -> exists s ns,
  lc_compute Rops rc None (mkCall (A:=Rops) side pos (Some other) newton periodic) = Ok (s, ns) /\ length ns = length pos /\
  (forall i j, (i < length pos)%nat -> In j (nth i ns []) -> (j < length other)%nat) /\
  (forall i j, (i < length pos)%nat -> (j < length other)%nat ->
    (listed ns i j <= 1)%nat /\
  (image_within per side (nth i pos []) (nth j other []) rc -> listed ns i j = 1%nat)).
Proof.
  intros other newton Ho. destruct (adjust_R rc side false periodic Hd) as [O [EO E]]. fold per in E.
  set (s := rsetup rc side per O) in *.
  assert (forall x, In x pos -> cell_inside (s_pns s) (lc_index Rops s x) = true) as Hins.
  { intros x Hx. apply index_inside; auto. }
  assert (forall x, In x other -> cell_inside (s_pns s) (lc_index Rops s x) = true) as Hinso.
  { intros x Hx. apply index_inside; auto. }
  destruct (lc_other_Ok Rops s pos Hins other Hinso) as [ns [En [Ln Hn]]].
  assert (valid (s_pns s)) as Hv by (apply rsetup_valid; assumption).
  assert (length (s_pns s) = length side) as Hls by (apply rsetup_len; assumption).
  assert (s_offs s = O) as HsO by reflexivity.
  exists s, ns. split.
  { unfold lc_compute, lc_setup, call_newton. cbn [k_box k_pos k_other k_newton k_periodic].
    change (num Rops) with R in *. rewrite E. cbn [bind]. rewrite En. reflexivity. }
  split; [exact Ln|]. split; [intros i j Hi; apply (Hn i j Hi)|].
  intros i j Hi Hj. destruct (Hn i j Hi) as [_ H1]. rewrite H1 by assumption. rewrite HsO.
  assert (cell_inside (s_pns s) (nth i (map (lc_index Rops s) pos) []) = true) as Hi2 by (apply idx_inside; assumption).
  destruct (full_count (length side) O (s_pns s) (nth i (map (lc_index Rops s) pos) []) (nth j (map (lc_index Rops s) other) []) Hd EO Hv Hls Hi2)
    as [Hle Hadj].
  split; [exact Hle|]. intros [ks [Lk [Hk Hdist]]]. apply Hadj.
  etransitivity_adj (idx_nth O pos i Hi) (idx_nth O other j Hj).
  apply within_adjacent with (ks := ks); auto; try (apply Hpos, nth_In; assumption); try (apply Ho, nth_In; assumption).
  apply euclid_lt. exact Hdist.
Qed.

(** newton=False on one group. *)
Lemma full_list : exists s ns,
  lc_compute Rops rc None (mkCall (A:=Rops) side pos None false periodic) = Ok (s, ns) /\ length ns = length pos /\
  (forall i j, (i < length pos)%nat -> (j < length pos)%nat -> i <> j ->
    image_within per side (nth i pos []) (nth j pos []) rc ->
    let together := lc_index Rops s (nth i pos []) = lc_index Rops s (nth j pos []) in
    (together -> (listed ns i j + listed ns j i = 1)%nat) /\
  (~ together -> listed ns i j = 1%nat /\ listed ns j i = 1%nat)).
Proof.
  destruct (adjust_R rc side false periodic Hd) as [O [EO E]]. fold per in E.
  set (s := rsetup rc side per O) in *.
  assert (forall x, In x pos -> cell_inside (s_pns s) (lc_index Rops s x) = true) as Hins.
  { intros x Hx. apply index_inside; auto. }
  destruct (lc_self_Ok Rops s pos Hins) as [ns [En [Ln Hn]]].
  assert (valid (s_pns s)) as Hv by (apply rsetup_valid; assumption).
  assert (length (s_pns s) = length side) as Hls by (apply rsetup_len; assumption).
  assert (s_offs s = O) as HsO by reflexivity.
  exists s, ns. split.
  { unfold lc_compute, lc_setup, call_newton. cbn [k_box k_pos k_other k_newton k_periodic].
    change (num Rops) with R in *. rewrite E. cbn [bind]. rewrite En. reflexivity. }
  split; [exact Ln|]. intros i j Hi Hj Hij [ks [Lk [Hk Hdist]]] together.
  destruct (Hn i j Hi) as [_ H1]. destruct (Hn j i Hj) as [_ H2]. rewrite H1, H2 by assumption. rewrite HsO.
  etransitivity_adj (idx_nth O pos i Hi) (idx_nth O pos j Hj).
  set (a := lc_index Rops s (nth i pos [])) in *. set (b := lc_index Rops s (nth j pos [])) in *.
  assert (cell_inside (s_pns s) a = true) as Ia by (apply Hins, nth_In; exact Hi).
  assert (cell_inside (s_pns s) b = true) as Ib by (apply Hins, nth_In; exact Hj).
  destruct (full_count (length side) O (s_pns s) a b Hd EO Hv Hls Ia) as [Hle Hadj].
  destruct (full_count (length side) O (s_pns s) b a Hd EO Hv Hls Ib) as [Hle' Hadj'].
  assert (adjacent (s_pns s) a b) as Had.
  { unfold a, b. apply within_adjacent with (ks := ks); auto; try (apply Hpos, nth_In; assumption). apply euclid_lt. exact Hdist. }
  pose proof (adjacent_sym _ _ _ Hv Ia Ib Had) as Had'. apply Hadj in Had. apply Hadj' in Had'.
  rewrite (cell_eqb_comm b a) in *. destruct (cell_eqb_spec a b) as [Eab|Nab]; cbn [b2n andb] in *; split; intros H;
    try contradiction.
  - rewrite !andb_true_r. destruct (Nat.ltb_spec i j), (Nat.ltb_spec j i); cbn [b2n]; lia.
  - rewrite !andb_false_r. cbn [b2n]. lia.
Qed.
End Final.
