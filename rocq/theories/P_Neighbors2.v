(** More lemmas about the neighbour lists of realspace.f90 (C113). *)
From Coq Require Import List ZArith Bool Arith Reals Lia Lra Permutation.
From Verif Require Import PyBase PyBaseFacts Num Spec_Stats NumFacts M_Helpers M_Dynamics M_Realspace M_BondAngle M_Neighbors
  Spec_Pairs Spec_LinkedCells Spec_Neighbors P_Pairs P_Image P_Gr P_LinkedCells3 P_Neighbors.
Import ListNotations.
Local Open Scope nat_scope.

Definition pair_dec : forall p q : nat * nat, {p = q} + {p <> q}.
Proof. decide equality; apply Nat.eq_dec. Defined.

Lemma adds_count : forall c k j ps, (forall p, In p ps -> fst p <> snd p) ->
  count_occ Nat.eq_dec (flat_map (adds c k) ps) j =
  (if c (k, j) then count_occ pair_dec ps (k, j) else 0) + (if c (j, k) then count_occ pair_dec ps (j, k) else 0).
Proof.
  intros c k j ps. induction ps as [|[a b] ps IH]; intros H; [cbn; destruct (c (k, j)), (c (j, k)); reflexivity|].
  assert (Hab : a <> b) by (apply (H (a, b)); left; reflexivity). cbn [flat_map]. rewrite count_occ_app, IH by (intros p Hp; apply H; right; exact Hp).
  cbn [count_occ]. unfold adds. cbn [fst snd].
  destruct (pair_dec (a, b) (k, j)) as [E1|E1]; destruct (pair_dec (a, b) (j, k)) as [E2|E2].
  - congruence.
  - injection E1 as -> ->. rewrite Nat.eqb_refl, (proj2 (Nat.eqb_neq j k)) by congruence.
    destruct (c (k, j)); cbn [app count_occ]; [destruct (Nat.eq_dec j j); [lia|congruence]|lia].
  - injection E2 as -> ->. rewrite Nat.eqb_refl, (proj2 (Nat.eqb_neq j k)) by congruence.
    destruct (c (j, k)); cbn [app count_occ]; [destruct (Nat.eq_dec j j); [lia|congruence]|lia].
  - assert (Z : count_occ Nat.eq_dec ((if a =? k then [b] else []) ++ (if b =? k then [a] else [])) j = 0).
    { destruct (Nat.eqb_spec a k) as [->|Na]; destruct (Nat.eqb_spec b k) as [->|Nb]; cbn [app count_occ]; try reflexivity.
      - congruence.
      - destruct (Nat.eq_dec b j); [congruence|reflexivity].
      - destruct (Nat.eq_dec a j); [congruence|reflexivity]. }
    destruct (c (a, b)); [rewrite Z|cbn [count_occ]]; lia.
Qed.

Lemma pairs_count : forall (js : nat -> list nat) i j l, NoDup l ->
  count_occ pair_dec (flat_map (fun i => map (pair i) (js i)) l) (i, j) = if existsb (Nat.eqb i) l then count_occ Nat.eq_dec (js i) j else 0.
Proof.
  intros js i j l N. induction N as [|x l Hx N IH]; [reflexivity|]. cbn [flat_map existsb]. rewrite count_occ_app, IH.
  assert (E : count_occ pair_dec (map (pair x) (js x)) (i, j) = if i =? x then count_occ Nat.eq_dec (js x) j else 0).
  { induction (js x) as [|y m IHm]; [destruct (i =? x); reflexivity|]. cbn [map count_occ]. rewrite IHm.
    destruct (pair_dec (x, y) (i, j)) as [E|E]; [injection E as -> ->; rewrite Nat.eqb_refl; destruct (Nat.eq_dec j j); congruence|].
    destruct (Nat.eqb_spec i x) as [->|D]; [|reflexivity]. destruct (Nat.eq_dec y j); [congruence|reflexivity]. }
  rewrite E. destruct (Nat.eqb_spec i x) as [->|D]; cbn [orb]; [|reflexivity].
  replace (existsb (Nat.eqb x) l) with false; [lia|]. symmetry. apply not_true_iff_false. intros X. apply existsb_exists in X. destruct X as [y [Hy Ey]]. apply Nat.eqb_eq in Ey. congruence.
Qed.

Lemma foldM_ext_in : forall S X (f g : S -> X -> res S) l s, (forall s x, In x l -> f s x = g s x) -> foldM f s l = foldM g s l.
Proof.
  intros S X f g l. induction l as [|x l IH]; intros s H; [reflexivity|]. cbn [foldM]. rewrite (H s x (or_introl eq_refl)).
  destruct (g s x); [|reflexivity]. apply IH. intros s' y Hy. apply H. right. exact Hy.
Qed.

(** The test of a pair. *)
Section Close.
Variable A : arith.
Definition ctest (side : list (num A)) (pos other : list (list (num A))) (ids : list nat) (rcut : list (list (num A))) (p : nat * nat) : bool :=
  let r := wrapv A (nth (fst p) pos []) (nth (snd p) other []) side in
  nlt A (vdot A r r) (nsq A (cutoff (n0 A) rcut ids (fst p) (snd p))).

Lemma get_nth : forall X (l : list X) i d, i < length l -> get l i = Ok (nth i l d).
Proof. intros X l i d H. unfold get. rewrite (nth_error_nth' l d H). reflexivity. Qed.

Lemma close_test : forall side pos other ids rcut i j, species_ok (length pos) ids rcut -> i < length pos -> j < length pos -> j < length other ->
  close A side pos other ids rcut i j = Ok (ctest side pos other ids rcut (i, j)).
Proof.
  intros side pos other ids rcut i j [Hl Hs] Hi Hj Ho. unfold close. rewrite (get_nth _ pos i []), (get_nth _ other j []) by assumption.
  rewrite (get_nth _ ids i 0), (get_nth _ ids j 0) by lia. cbn [bind]. assert (Ii : In (nth i ids 0) ids) by (apply nth_In; lia). assert (Ij : In (nth j ids 0) ids) by (apply nth_In; lia).
  destruct (Hs _ _ Ii Ij) as [S1 S2]. rewrite (get_nth _ rcut _ []) by exact S1. cbn [bind]. rewrite (get_nth _ _ _ (n0 A)) by exact S2. reflexivity.
Qed.

Lemma list_flat : forall cap side pos ids rcut,
  neighbors_list A cap side pos ids rcut = foldM (fun t p => note_if (close A side pos pos ids rcut) cap t (fst p) (snd p)) (repeat [] (length pos)) (half_pairs (length pos)).
Proof. intros. unfold neighbors_list, half_pairs. cbv zeta. apply (foldM_pairs _ (fun t i j => note_if (close A side pos pos ids rcut) cap t i j)). Qed.

Definition listed_pairs (ns : list (list nat)) (n : nat) : list (nat * nat) := flat_map (fun i => map (pair i) (nth i ns [])) (seq 0 n).

Lemma subset_flat : forall cap side pos ns ids rcut, length ns = length pos ->
  neighbors_subset A cap side pos ns ids rcut = foldM (fun t p => note_if (close A side pos pos ids rcut) cap t (fst p) (snd p)) (repeat [] (length pos)) (listed_pairs ns (length pos)).
Proof.
  intros cap side pos ns ids rcut L. unfold neighbors_subset, listed_pairs. cbv zeta.
  rewrite <- (foldM_pairs _ (fun t i j => note_if (close A side pos pos ids rcut) cap t i j)). apply foldM_ext_in. intros t i Hi. apply in_seq in Hi.
  rewrite (get_nth _ ns i []) by lia. reflexivity.
Qed.

Lemma listed_pairs_In : forall ns n p, In p (listed_pairs ns n) <-> fst p < n /\ In (snd p) (nth (fst p) ns []).
Proof.
  intros ns n [i j]. unfold listed_pairs. rewrite in_flat_map. cbn [fst snd]. split.
  - intros [x [Hx H]]. apply in_map_iff in H. destruct H as [y [E H]]. injection E as -> ->. apply in_seq in Hx. split; [lia|exact H].
  - intros [Hi H]. exists i. split; [apply in_seq; lia|]. apply in_map. exact H.
Qed.

Lemma listed_pairs_count : forall ns n i j, i < n -> count_occ pair_dec (listed_pairs ns n) (i, j) = listed ns i j.
Proof.
  intros ns n i j Hi. unfold listed_pairs. rewrite pairs_count by apply seq_NoDup.
  replace (existsb (Nat.eqb i) (seq 0 n)) with true by (symmetry; apply existsb_exists; exists i; split; [apply in_seq; lia|apply Nat.eqb_refl]). reflexivity.
Qed.

(** neighbors_list, every arithmetic *)
Lemma list_rows : forall cap side pos ids rcut t, species_ok (length pos) ids rcut -> neighbors_list A cap side pos ids rcut = Ok t ->
  length t = length pos /\ forall k, k < length pos ->
    nth k t [] = map Some (filter (fun j => negb (j =? k) && ctest side pos pos ids rcut (Nat.min k j, Nat.max k j)) (seq 0 (length pos))) /\ length (nth k t []) <= cap.
Proof.
  intros cap side pos ids rcut t Hs H. rewrite list_flat in H. apply (loop_Ok _ (ctest side pos pos ids rcut)) in H.
  - destruct H as [L [V [W _]]]. rewrite repeat_length in L. split; [exact L|]. intros k Hk. split.
    + rewrite V, nth_repeat_nil, half_row by exact Hk. reflexivity.
    + apply W. rewrite nth_repeat_nil. cbn. lia.
  - intros [i j] Hp. apply half_pairs_In in Hp. cbn [fst snd] in *. split; [lia|]. apply close_test; try exact Hs; lia.
Qed.

Lemma list_total : forall cap side pos ids rcut, species_ok (length pos) ids rcut ->
  (forall k, k < length pos -> length (filter (fun j => negb (j =? k) && ctest side pos pos ids rcut (Nat.min k j, Nat.max k j)) (seq 0 (length pos))) <= cap) ->
  exists t, neighbors_list A cap side pos ids rcut = Ok t.
Proof.
  intros cap side pos ids rcut Hs B. rewrite list_flat. apply loop_fits with (c := ctest side pos pos ids rcut).
  - intros [i j] Hp. apply half_pairs_In in Hp. cbn [fst snd] in *. rewrite repeat_length. split; [lia|]. split; [apply close_test; try exact Hs; lia|]. lia.
  - rewrite repeat_length. intros k Hk. rewrite nth_repeat_nil, half_row by exact Hk. cbn [length]. apply B. exact Hk.
Qed.

(** neighbors_subset, every arithmetic *)
Definition sub_row (side : list (num A)) pos ids rcut (ns : list (list nat)) k := flat_map (adds (ctest side pos pos ids rcut) k) (listed_pairs ns (length pos)).

Lemma subset_rows : forall cap side pos ids rcut ns t, species_ok (length pos) ids rcut -> proper (length pos) ns ->
  neighbors_subset A cap side pos ns ids rcut = Ok t ->
  length t = length pos /\ forall k, k < length pos -> nth k t [] = map Some (sub_row side pos ids rcut ns k) /\ length (nth k t []) <= cap.
Proof.
  intros cap side pos ids rcut ns t Hs [Ln Hn] H. rewrite subset_flat in H by exact Ln. apply (loop_Ok _ (ctest side pos pos ids rcut)) in H.
  - destruct H as [L [V [W _]]]. rewrite repeat_length in L. split; [exact L|]. intros k Hk. split.
    + rewrite V, nth_repeat_nil. reflexivity.
    + apply W. rewrite nth_repeat_nil. cbn. lia.
  - intros [i j] Hp. apply listed_pairs_In in Hp. cbn [fst snd] in *. destruct Hp as [Hi Hp]. destruct (Hn i j Hi Hp). split; [congruence|]. apply close_test; try exact Hs; lia.
Qed.

Lemma subset_total : forall cap side pos ids rcut ns, species_ok (length pos) ids rcut -> proper (length pos) ns ->
  (forall k, k < length pos -> length (sub_row side pos ids rcut ns k) <= cap) -> exists t, neighbors_subset A cap side pos ns ids rcut = Ok t.
Proof.
  intros cap side pos ids rcut ns Hs [Ln Hn] B. rewrite subset_flat by exact Ln. apply loop_fits with (c := ctest side pos pos ids rcut).
  - intros [i j] Hp. apply listed_pairs_In in Hp. cbn [fst snd] in *. destruct Hp as [Hi Hp]. destruct (Hn i j Hi Hp). rewrite repeat_length. split; [congruence|]. split; [apply close_test; try exact Hs; lia|]. lia.
  - rewrite repeat_length. intros k Hk. rewrite nth_repeat_nil. cbn [length]. apply B. exact Hk.
Qed.

Lemma sub_row_count : forall side pos ids rcut ns k j, proper (length pos) ns -> k < length pos -> j < length pos ->
  count_occ Nat.eq_dec (sub_row side pos ids rcut ns k) j =
  (if ctest side pos pos ids rcut (k, j) then listed ns k j else 0) + (if ctest side pos pos ids rcut (j, k) then listed ns j k else 0).
Proof.
  intros side pos ids rcut ns k j [Ln Hn] Hk Hj. unfold sub_row. rewrite adds_count.
  - rewrite !listed_pairs_count by assumption. reflexivity.
  - intros [a b] Hp. apply listed_pairs_In in Hp. cbn [fst snd] in *. destruct Hp as [Ha Hp]. destruct (Hn a b Ha Hp). congruence.
Qed.

Lemma sub_row_In : forall side pos ids rcut ns k j, proper (length pos) ns -> In j (sub_row side pos ids rcut ns k) -> k < length pos -> j < length pos.
Proof.
  intros side pos ids rcut ns k j [Ln Hn] H Hk. unfold sub_row in H. apply in_flat_map in H. destruct H as [[a b] [Hp H]]. apply listed_pairs_In in Hp. cbn [fst snd] in Hp.
  destruct Hp as [Ha Hp]. destruct (Hn a b Ha Hp) as [Hb _]. unfold adds in H. destruct (ctest _ _ _ _ _ _); [|destruct H]. cbn [fst snd] in H.
  apply in_app_or in H. destruct H as [H|H]; [destruct (a =? k)|destruct (b =? k)]; try (destruct H; fail); destruct H as [<-|H]; try assumption; destruct H.
Qed.
End Close.

(** Over the reals the test is the distance to the nearest image. *)
Local Open Scope R_scope.
Lemma fdist_wrapv : forall x y side, fdist Rops y x side = sqrt (vdot Rops (wrapv Rops x y side) (wrapv Rops x y side)).
Proof.
  intros x y side. unfold fdist, vdot, wrapv. cbn [nsqrt Rops]. f_equal. f_equal. revert y side. induction x as [|a x IH]; intros [|b y] [|L side]; try reflexivity.
  unfold map2 in *. cbn [combine map fst snd]. f_equal. apply IH.
Qed.

Lemma vdot_nonneg : forall u : list R, 0 <= vdot Rops u u.
Proof.
  intros u. unfold vdot. rewrite nsum_R. induction u as [|a u IH]; [cbn; lra|]. unfold map2 in *. cbn [combine map fst snd rsum] in *. cbn [nmul Rops] in *. change (num Rops) with R in *. nra.
Qed.

Lemma ctest_within : forall side pos ids rcut i j, positive side -> (forall x, In x pos -> folded x side) ->
  0 <= cutoff 0 rcut ids i j -> (i < length pos)%nat -> (j < length pos)%nat ->
  ctest Rops side pos pos ids rcut (i, j) = true <-> neighbours side pos (cutoff 0 rcut ids i j) i j.
Proof.
  intros side pos ids rcut i j Hp Hf Hr Hi Hj. unfold ctest, neighbours. cbn [fst snd]. set (x := nth i pos []). set (y := nth j pos []).
  assert (Hx : folded x side) by (apply Hf, nth_In; exact Hi). assert (Hy : folded y side) by (apply Hf, nth_In; exact Hj).
  set (rc := cutoff 0 rcut ids i j) in *. pose proof (vdot_nonneg (wrapv Rops x y side)) as N.
  assert (E : ctest Rops side pos pos ids rcut (i, j) = Rltb (vdot Rops (wrapv Rops x y side) (wrapv Rops x y side)) (rc * rc)) by reflexivity.
  change (ctest Rops side pos pos ids rcut (i, j) = true <-> image_within (repeat true (length side)) side x y rc). rewrite E.
  assert (F : Rltb (vdot Rops (wrapv Rops x y side) (wrapv Rops x y side)) (rc * rc) = true <-> fdist Rops x y side < rc).
  { rewrite fdist_sym by assumption. rewrite fdist_wrapv. set (v := vdot Rops _ _) in *. split.
    - intros H. destruct (Rltb_spec v (rc * rc)) as [L|L]; [|discriminate]. rewrite <- (sqrt_square rc Hr). apply sqrt_lt_1; [exact N|nra|exact L].
    - intros H. destruct (Rltb_spec v (rc * rc)) as [L|L]; [reflexivity|]. exfalso. apply Rnot_lt_le in L. apply sqrt_le_1 in L; [|nra|exact N]. rewrite sqrt_square in L by exact Hr. lra. }
  rewrite F. split.
  - intros H. apply fdist_within; try assumption. apply nth_repeat_true.
  - intros [ks [Lk [_ H]]]. rewrite fdist_folded by assumption. destruct (folded_inside _ _ Hx) as [_ Lx], (folded_inside _ _ Hy) as [_ Ly].
    destruct (img_dist_min side x y Hp Lx Ly) as [_ M]. eapply Rle_lt_trans; [apply M; exact Lk|exact H].
Qed.

Lemma neighbours_sym : forall side pos rc i j, positive side -> (forall x, In x pos -> folded x side) -> (i < length pos)%nat -> (j < length pos)%nat ->
  neighbours side pos rc i j -> neighbours side pos rc j i.
Proof.
  intros side pos rc i j Hp Hf Hi Hj. unfold neighbours. set (x := nth i pos []). set (y := nth j pos []).
  assert (Hx : folded x side) by (apply Hf, nth_In; exact Hi). assert (Hy : folded y side) by (apply Hf, nth_In; exact Hj).
  intros [ks [Lk [_ H]]]. apply fdist_within; try assumption; [apply nth_repeat_true|]. rewrite fdist_sym by assumption. rewrite fdist_folded by assumption.
  destruct (folded_inside _ _ Hx) as [_ Lx], (folded_inside _ _ Hy) as [_ Ly]. destruct (img_dist_min side x y Hp Lx Ly) as [_ M]. eapply Rle_lt_trans; [apply M; exact Lk|exact H].
Qed.
