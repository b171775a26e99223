(** Theorems about the neighbour lists of realspace.f90: C113. *)
From Coq Require Import List ZArith Bool Arith Reals Lia Lra Permutation Sorted.
From Verif Require Import PyBase PyBaseFacts Num Spec_Stats NumFacts M_Helpers M_Dynamics M_Realspace M_BondAngle M_LinkedCells M_Neighbors
  Spec_Pairs Spec_LinkedCells Spec_Neighbors P_Pairs P_Image P_Gr P_LinkedCells3 T_LinkedCells P_Neighbors P_Neighbors2.
Import ListNotations.
Local Open Scope R_scope.

(** The cutoff of a pair is looked up with the species of the particle of lower index first. *)
Definition pair_cutoff (rcut : list (list R)) (ids : list nat) (i j : nat) : R := cutoff 0 rcut ids (Nat.min i j) (Nat.max i j).

Lemma row_spec : forall side pos ids rcut i, positive side -> (forall x, In x pos -> folded x side) ->
  (forall i j, (i < length pos)%nat -> (j < length pos)%nat -> 0 <= cutoff 0 rcut ids i j) -> (i < length pos)%nat ->
  forall j, In j (filter (fun j => negb (j =? i)%nat && ctest Rops side pos pos ids rcut (Nat.min i j, Nat.max i j)) (seq 0 (length pos))) <->
  (j < length pos)%nat /\ j <> i /\ neighbours side pos (pair_cutoff rcut ids i j) i j.
Proof.
  intros side pos ids rcut i Hp Hf Hr Hi j. rewrite filter_In, in_seq, andb_true_iff, negb_true_iff, Nat.eqb_neq. split.
  - intros [Hj [D C]]. split; [lia|]. split; [exact D|]. apply (ctest_within side pos ids rcut) in C; try assumption; try apply Hr; try lia.
    change (neighbours side pos (pair_cutoff rcut ids i j) (Nat.min i j) (Nat.max i j)) in C.
    destruct (Nat.le_ge_cases i j) as [L|L].
    + rewrite Nat.min_l, Nat.max_r in C by exact L. exact C.
    + rewrite Nat.min_r, Nat.max_l in C by exact L. apply neighbours_sym; try assumption. lia.
  - intros [Hj [D C]]. split; [lia|]. split; [exact D|]. apply ctest_within; try assumption; try apply Hr; try lia. fold (pair_cutoff rcut ids i j).
    destruct (Nat.le_ge_cases i j) as [L|L].
    + rewrite Nat.min_l, Nat.max_r by exact L. exact C.
    + rewrite Nat.min_r, Nat.max_l by exact L. apply neighbours_sym; assumption.
Qed.

Lemma filter_sorted : forall f n a, StronglySorted lt (filter f (seq a n)).
Proof.
  intros f n. induction n as [|n IH]; intros a; [constructor|]. cbn [seq filter]. destruct (f a); [|apply IH]. constructor; [apply IH|].
  apply Forall_forall. intros x Hx. apply filter_In in Hx. destruct Hx as [Hx _]. apply in_seq in Hx. lia.
Qed.

(** neighbors_list and neighbors_full list, in increasing order, exactly the particles
    within the cutoff; the call is in bounds exactly if no particle has more neighbours
    than there is room for. *)
Theorem C113_neighbors_list : forall cap side pos ids rcut,
  positive side -> (forall x, In x pos -> folded x side) -> species_ok (length pos) ids rcut ->
  (forall i j, (i < length pos)%nat -> (j < length pos)%nat -> 0 <= cutoff 0 rcut ids i j) ->
  (forall t, neighbors_list Rops cap side pos ids rcut = Ok t -> length t = length pos /\
    forall i, (i < length pos)%nat -> exists l, nth i t [] = map Some l /\ StronglySorted lt l /\
      forall j, In j l <-> (j < length pos)%nat /\ j <> i /\ neighbours side pos (pair_cutoff rcut ids i j) i j) /\
  ((exists t, neighbors_list Rops cap side pos ids rcut = Ok t) <->
   forall i l, (i < length pos)%nat -> NoDup l -> (forall j, In j l -> (j < length pos)%nat /\ j <> i /\ neighbours side pos (pair_cutoff rcut ids i j) i j) -> (length l <= cap)%nat).
Proof.
  intros cap side pos ids rcut Hp Hf Hs Hr. split.
  - intros t H. apply list_rows in H; [|exact Hs]. destruct H as [L H]. split; [exact L|]. intros i Hi. destruct (H i Hi) as [E _].
    eexists. split; [exact E|]. split; [apply filter_sorted|]. apply row_spec; assumption.
  - split.
    + intros [t H] i l Hi N Hl. apply list_rows in H; [|exact Hs]. destruct H as [_ H]. destruct (H i Hi) as [E B]. rewrite E, map_length in B. etransitivity; [|exact B].
      apply NoDup_incl_length; [exact N|]. intros j Hj. apply (row_spec side pos ids rcut i Hp Hf Hr Hi). apply Hl. exact Hj.
    + intros H. apply list_total; [exact Hs|]. intros k Hk. apply (H k); [exact Hk|apply NoDup_filter, seq_NoDup|]. intros j Hj. apply (row_spec side pos ids rcut k Hp Hf Hr Hk). exact Hj.
Qed.
Print Assumptions C113_neighbors_list.

(** neighbors_subset keeps the pairs of a half list that are within the cutoff and
    lists each of them for both particles. *)
Theorem C113_subset_partial : forall cap side pos ids rcut ns t,
  positive side -> (forall x, In x pos -> folded x side) -> species_ok (length pos) ids rcut ->
  (forall i j, (i < length pos)%nat -> (j < length pos)%nat -> 0 <= cutoff 0 rcut ids i j) ->
  half (length pos) ns -> neighbors_subset Rops cap side pos ns ids rcut = Ok t ->
  length t = length pos /\ forall i, (i < length pos)%nat -> exists l, nth i t [] = map Some l /\ NoDup l /\
    forall j, In j l <-> (j < length pos)%nat /\
      (In j (nth i ns []) /\ neighbours side pos (cutoff 0 rcut ids i j) i j \/ In i (nth j ns []) /\ neighbours side pos (cutoff 0 rcut ids j i) i j).
Proof.
  intros cap side pos ids rcut ns t Hp Hf Hs Hr [Hn Hh] H. apply subset_rows in H; [|exact Hs|exact Hn]. destruct H as [L H]. split; [exact L|].
  intros i Hi. destruct (H i Hi) as [E _]. eexists. split; [exact E|].
  assert (Cn : forall j, (j < length pos)%nat -> count_occ Nat.eq_dec (sub_row Rops side pos ids rcut ns i) j =
    ((if ctest Rops side pos pos ids rcut (i, j) then listed ns i j else 0) + (if ctest Rops side pos pos ids rcut (j, i) then listed ns j i else 0))%nat)
    by (intros j Hj; apply sub_row_count; assumption).
  split.
  - apply NoDup_count_occ with (decA := Nat.eq_dec). intros j. destruct (lt_dec j (length pos)) as [Hj|Hj].
    + rewrite Cn by exact Hj. specialize (Hh i j Hi Hj). destruct (ctest _ _ _ _ _ _ (i, j)), (ctest _ _ _ _ _ _ (j, i)); lia.
    + rewrite (proj1 (count_occ_not_In Nat.eq_dec _ _)); [lia|]. intros X. apply Hj. apply (sub_row_In Rops side pos ids rcut ns i j Hn X Hi).
  - intros j. assert (Cij : (j < length pos)%nat -> ctest Rops side pos pos ids rcut (i, j) = true <-> neighbours side pos (cutoff 0 rcut ids i j) i j)
      by (intros Hj; apply ctest_within; try assumption; apply Hr; assumption).
    assert (Cji : (j < length pos)%nat -> ctest Rops side pos pos ids rcut (j, i) = true <-> neighbours side pos (cutoff 0 rcut ids j i) i j).
    { intros Hj. rewrite ctest_within; try assumption; [|apply Hr; assumption]. split; apply neighbours_sym; assumption. }
    rewrite (count_occ_In Nat.eq_dec). split.
    + intros C. assert (Hj : (j < length pos)%nat) by (apply (sub_row_In Rops side pos ids rcut ns i j Hn); [apply (count_occ_In Nat.eq_dec); exact C|exact Hi]).
      split; [exact Hj|]. rewrite Cn in C by exact Hj. unfold listed in C.
      destruct (ctest _ _ _ _ _ _ (i, j)) eqn:E1; [destruct (count_occ Nat.eq_dec (nth i ns []) j) eqn:E2|].
      * destruct (ctest _ _ _ _ _ _ (j, i)) eqn:E3; [|lia]. right. split; [apply (count_occ_In Nat.eq_dec); lia|]. apply Cji; auto.
      * left. split; [apply (count_occ_In Nat.eq_dec); lia|]. apply Cij; auto.
      * destruct (ctest _ _ _ _ _ _ (j, i)) eqn:E3; [|lia]. right. split; [apply (count_occ_In Nat.eq_dec); lia|]. apply Cji; auto.
    + intros [Hj D]. rewrite Cn by exact Hj. unfold listed. destruct D as [[D1 D2]|[D1 D2]].
      * apply Cij in D2; [|exact Hj]. rewrite D2. apply (count_occ_In Nat.eq_dec) in D1. lia.
      * apply Cji in D2; [|exact Hj]. rewrite D2. apply (count_occ_In Nat.eq_dec) in D1. lia.
Qed.
Print Assumptions C113_subset_partial.

Definition symmetric (rcut : list (list R)) (ids : list nat) (n : nat) : Prop :=
  forall i j, (i < n)%nat -> (j < n)%nat -> cutoff 0 rcut ids i j = cutoff 0 rcut ids j i.

Lemma ctest_sym : forall side pos ids rcut i j, positive side -> (forall x, In x pos -> folded x side) ->
  (forall i j, (i < length pos)%nat -> (j < length pos)%nat -> 0 <= cutoff 0 rcut ids i j) -> symmetric rcut ids (length pos) ->
  (i < length pos)%nat -> (j < length pos)%nat -> ctest Rops side pos pos ids rcut (i, j) = ctest Rops side pos pos ids rcut (j, i).
Proof.
  intros side pos ids rcut i j Hp Hf Hr Sy Hi Hj. apply eq_true_iff_eq. rewrite !ctest_within; try assumption; try (apply Hr; assumption).
  rewrite (Sy i j Hi Hj). split; apply neighbours_sym; assumption.
Qed.

(** With the half lists of linked cells no shorter than the cutoffs, the lists are those of neighbors_list. *)
Theorem C113_linked_cells : forall cap side pos ids rcut rc,
  0 < rc -> length side = 2%nat \/ length side = 3%nat -> (forall L, In L side -> 3 * rc <= L) ->
  (forall x, In x pos -> folded x side) -> species_ok (length pos) ids rcut ->
  (forall i j, (i < length pos)%nat -> (j < length pos)%nat -> 0 <= cutoff 0 rcut ids i j <= rc) -> symmetric rcut ids (length pos) ->
  exists ns, lc_result Rops rc None (mkCall (A:=Rops) side pos None true None) = Ok ns /\
  ((exists t, neighbors_subset Rops cap side pos ns ids rcut = Ok t) <-> (exists t, neighbors_list Rops cap side pos ids rcut = Ok t)) /\
  forall t t', neighbors_subset Rops cap side pos ns ids rcut = Ok t -> neighbors_list Rops cap side pos ids rcut = Ok t' ->
    length t = length t' /\ forall i, Permutation (nth i t []) (nth i t' []).
Proof.
  intros cap side pos ids rcut rc Hrc Hd H3 Hf Hs Hr Sy.
  assert (Hp : positive side) by (intros L HL; specialize (H3 L HL); lra).
  assert (Hr0 : forall i j, (i < length pos)%nat -> (j < length pos)%nat -> 0 <= cutoff 0 rcut ids i j) by (intros i j Hi Hj; apply Hr; assumption).
  destruct (C30_pairs_once rc side None pos Hrc Hd H3) as [ns [E [L [Hin [Hself Hpair]]]]]; [apply repeat_length|exact Hf|]. cbn [periodic_directions] in Hpair.
  exists ns. split; [exact E|].
  assert (Hn : proper (length pos) ns).
  { split; [exact L|]. intros i j Hi Hj. split; [apply (Hin i); assumption|]. intros ->. specialize (Hself i Hi). unfold listed in Hself. apply (count_occ_In Nat.eq_dec) in Hj. lia. }
  assert (P : forall i, (i < length pos)%nat -> Permutation (sub_row Rops side pos ids rcut ns i)
    (filter (fun j => negb (j =? i)%nat && ctest Rops side pos pos ids rcut (Nat.min i j, Nat.max i j)) (seq 0 (length pos)))).
  { intros i Hi. apply (Permutation_count_occ Nat.eq_dec). intros j. destruct (lt_dec j (length pos)) as [Hj|Hj].
    2:{ rewrite !(proj1 (count_occ_not_In Nat.eq_dec _ _)); [reflexivity| |].
        - intros X. apply filter_In in X. destruct X as [X _]. apply in_seq in X. lia.
        - intros X. apply Hj. apply (sub_row_In Rops side pos ids rcut ns i j Hn X Hi). }
    rewrite sub_row_count by assumption. rewrite <- (ctest_sym side pos ids rcut i j) by assumption.
    assert (M : ctest Rops side pos pos ids rcut (Nat.min i j, Nat.max i j) = ctest Rops side pos pos ids rcut (i, j)).
    { destruct (Nat.le_ge_cases i j) as [Q|Q]; [rewrite Nat.min_l, Nat.max_r by exact Q; reflexivity|]. rewrite Nat.min_r, Nat.max_l by exact Q. apply ctest_sym; assumption. }
    pose proof (NoDup_filter (fun j => negb (j =? i)%nat && ctest Rops side pos pos ids rcut (Nat.min i j, Nat.max i j)) (seq_NoDup (length pos) 0)) as N.
    pose proof (proj1 (NoDup_count_occ Nat.eq_dec _) N j) as N1.
    destruct (Nat.eq_dec i j) as [<-|D].
    - rewrite !Hself by exact Hi. rewrite (proj1 (count_occ_not_In Nat.eq_dec _ _)); [destruct (ctest Rops side pos pos ids rcut (i, i)); reflexivity|]. intros X. apply filter_In in X. destruct X as [_ X]. rewrite Nat.eqb_refl in X. discriminate.
    - destruct (ctest Rops side pos pos ids rcut (i, j)) eqn:C.
      + destruct (Hpair i j Hi Hj D) as [_ W]. rewrite W.
        * assert (X : In j (filter (fun j => negb (j =? i)%nat && ctest Rops side pos pos ids rcut (Nat.min i j, Nat.max i j)) (seq 0 (length pos)))).
          { apply filter_In. split; [apply in_seq; lia|]. rewrite M, (proj2 (Nat.eqb_neq j i)) by congruence. reflexivity. }
          apply (count_occ_In Nat.eq_dec) in X. lia.
        * apply ctest_within in C; try assumption; [|apply Hr0; assumption]. destruct C as [ks [K1 [K2 K3]]]. exists ks. split; [exact K1|]. split; [exact K2|].
          eapply Rlt_le_trans; [exact K3|]. apply Hr; assumption.
      + rewrite (proj1 (count_occ_not_In Nat.eq_dec _ _)); [reflexivity|]. intros X. apply filter_In in X. destruct X as [_ X]. rewrite M in X. rewrite andb_false_r in X. discriminate. }
  split.
  - split; intros [t H].
    + apply list_total; [exact Hs|]. intros k Hk. eapply Nat.le_trans; [exact (Nat.eq_le_incl _ _ (eq_sym (Permutation_length (P k Hk))))|]. apply subset_rows in H; [|exact Hs|exact Hn]. destruct (proj2 H k Hk) as [E1 B]. rewrite E1, map_length in B. exact B.
    + apply subset_total; [exact Hs|exact Hn|]. intros k Hk. eapply Nat.le_trans; [exact (Nat.eq_le_incl _ _ (Permutation_length (P k Hk)))|]. apply list_rows in H; [|exact Hs]. destruct (proj2 H k Hk) as [E1 B]. rewrite E1, map_length in B. exact B.
  - intros t t' H H'. apply subset_rows in H; [|exact Hs|exact Hn]. apply list_rows in H'; [|exact Hs]. destruct H as [Lt H], H' as [Lt' H']. split; [congruence|].
    intros i. destruct (lt_dec i (length pos)) as [Hi|Hi].
    + rewrite (proj1 (H i Hi)), (proj1 (H' i Hi)). apply Permutation_map, P. exact Hi.
    + change (num Rops) with R in *. rewrite !nth_overflow by lia. constructor.
Qed.
Print Assumptions C113_linked_cells.

(** A full list given as subset, such as the one of neighbors_list itself: every neighbour is listed twice. *)
Theorem C113_subset_refuted : forall cap cap' side pos ids rcut ns t,
  positive side -> (forall x, In x pos -> folded x side) -> species_ok (length pos) ids rcut ->
  (forall i j, (i < length pos)%nat -> (j < length pos)%nat -> 0 <= cutoff 0 rcut ids i j) -> symmetric rcut ids (length pos) ->
  neighbors_list Rops cap side pos ids rcut = Ok (map (map Some) ns) -> neighbors_subset Rops cap' side pos ns ids rcut = Ok t ->
  forall i, (i < length pos)%nat -> exists l, nth i t [] = map Some l /\ forall j, count_occ Nat.eq_dec l j = (2 * listed ns i j)%nat.
Proof.
  intros cap cap' side pos ids rcut ns t Hp Hf Hs Hr Sy Hl H i Hi.
  apply list_rows in Hl; [|exact Hs]. destruct Hl as [Ln Hl]. rewrite map_length in Ln.
  assert (R0 : forall k, (k < length pos)%nat -> nth k ns [] = filter (fun j => negb (j =? k)%nat && ctest Rops side pos pos ids rcut (Nat.min k j, Nat.max k j)) (seq 0 (length pos))).
  { intros k Hk. destruct (Hl k Hk) as [E _]. change (@nil (option nat)) with (map (@Some nat) []) in E. rewrite map_nth in E. 
    assert (I : forall a b : list nat, map Some a = map Some b -> a = b).
    { induction a as [|x a IHa]; intros [|y b] Q; try discriminate; [reflexivity|]. injection Q as -> Q. f_equal. apply IHa. exact Q. }
    apply I. exact E. }
  assert (M : forall k j, (k < length pos)%nat -> (j < length pos)%nat -> ctest Rops side pos pos ids rcut (Nat.min k j, Nat.max k j) = ctest Rops side pos pos ids rcut (k, j)).
  { intros k j Hk Hj. destruct (Nat.le_ge_cases k j) as [Q|Q]; [rewrite Nat.min_l, Nat.max_r by exact Q; reflexivity|]. rewrite Nat.min_r, Nat.max_l by exact Q. apply ctest_sym; assumption. }
  assert (Cn : forall k j, (k < length pos)%nat -> (j < length pos)%nat -> listed ns k j = if negb (j =? k)%nat && ctest Rops side pos pos ids rcut (k, j) then 1%nat else 0%nat).
  { intros k j Hk Hj. unfold listed. rewrite R0 by exact Hk. rewrite <- M by assumption.
    pose proof (NoDup_filter (fun j => negb (j =? k)%nat && ctest Rops side pos pos ids rcut (Nat.min k j, Nat.max k j)) (seq_NoDup (length pos) 0)) as N.
    pose proof (proj1 (NoDup_count_occ Nat.eq_dec _) N j) as N1.
    destruct (negb (j =? k)%nat && ctest Rops side pos pos ids rcut (Nat.min k j, Nat.max k j)) eqn:B.
    - assert (X : In j (filter (fun j => negb (j =? k)%nat && ctest Rops side pos pos ids rcut (Nat.min k j, Nat.max k j)) (seq 0 (length pos)))) by (apply filter_In; split; [apply in_seq; lia|exact B]).
      apply (count_occ_In Nat.eq_dec) in X. lia.
    - apply count_occ_not_In. intros X. apply filter_In in X. destruct X as [_ X]. congruence. }
  assert (Hn : proper (length pos) ns).
  { split; [exact Ln|]. intros a b Ha Hb. rewrite R0 in Hb by exact Ha. apply filter_In in Hb. destruct Hb as [B1 B2]. apply in_seq in B1. apply andb_true_iff in B2. destruct B2 as [B2 _]. apply negb_true_iff, Nat.eqb_neq in B2. split; [lia|exact B2]. }
  apply subset_rows in H; [|exact Hs|exact Hn]. destruct H as [_ H]. eexists. split; [exact (proj1 (H i Hi))|]. intros j. destruct (lt_dec j (length pos)) as [Hj|Hj].
  - rewrite sub_row_count by assumption. rewrite <- (ctest_sym side pos ids rcut i j) by assumption. rewrite !Cn by assumption. rewrite <- (ctest_sym side pos ids rcut i j) by assumption.
    rewrite (Nat.eqb_sym i j). destruct (ctest Rops side pos pos ids rcut (i, j)); [|rewrite andb_false_r; reflexivity]. rewrite andb_true_r. destruct (negb (j =? i)%nat); reflexivity.
  - rewrite (proj1 (count_occ_not_In Nat.eq_dec _ _)) by (intros X; apply Hj; apply (sub_row_In Rops side pos ids rcut ns i j Hn X Hi)).
    unfold listed. rewrite (proj1 (count_occ_not_In Nat.eq_dec _ _)); [reflexivity|]. intros X. apply Hj. apply (proj2 Hn i j Hi). exact X.
Qed.
Print Assumptions C113_subset_refuted.

(** ** Two groups *)
Local Open Scope nat_scope.
Lemma note_if_keeps : forall near cap t i j t', note_if near cap t i j = Ok t' -> length t' = length t /\ forall k x, In x (nth k t []) -> In x (nth k t' []).
Proof.
  intros near cap t i j t' H. unfold note_if in H. apply bind_Ok_inv in H. destruct H as [b [_ H]]. destruct b; [|apply Ok_inj in H; subst; auto].
  unfold note in H. destruct (i =? j).
  - apply push_Ok in H. destruct H as [_ [_ [L V]]]. split; [exact L|]. intros k x Hx. rewrite V. destruct (Nat.eqb_spec k i) as [->|]; [apply in_or_app; left|]; exact Hx.
  - apply bind_Ok_inv in H. destruct H as [t1 [H1 H2]]. apply push_Ok in H1, H2. destruct H1 as [_ [_ [L1 V1]]], H2 as [_ [_ [L2 V2]]]. split; [congruence|]. intros k x Hx.
    rewrite V2. assert (X : In x (nth k t1 [])) by (rewrite V1; destruct (Nat.eqb_spec k i) as [->|]; [apply in_or_app; left|]; exact Hx).
    destruct (Nat.eqb_spec k j) as [->|]; [apply in_or_app; left|]; exact X.
Qed.

Lemma steps_keep : forall near cap ps t t', foldM (fun t p => note_if near cap t (fst p) (snd p)) t ps = Ok t' ->
  length t' = length t /\ forall k x, In x (nth k t []) -> In x (nth k t' []).
Proof.
  intros near cap ps. induction ps as [|p ps IH]; intros t t' H; [cbn in H; apply Ok_inj in H; subst; auto|]. cbn [foldM] in H. apply bind_Ok_inv in H. destruct H as [t1 [H1 H2]].
  apply note_if_keeps in H1. apply IH in H2. destruct H1 as [L1 V1], H2 as [L2 V2]. split; [congruence|]. auto.
Qed.

Lemma steps_enter : forall near cap ps t t' i j, foldM (fun t p => note_if near cap t (fst p) (snd p)) t ps = Ok t' -> In (i, j) ps -> i <> j -> near i j = Ok true ->
  i < length t /\ j < length t /\ In (Some i) (nth j t' []) /\ In (Some j) (nth i t' []).
Proof.
  intros near cap ps. induction ps as [|p ps IH]; intros t t' i j H Hin D N; [destruct Hin|]. cbn [foldM] in H. apply bind_Ok_inv in H. destruct H as [t1 [H1 H2]]. destruct Hin as [->|Hin].
  - cbn [fst snd] in H1. unfold note_if in H1. rewrite N in H1. cbn [bind] in H1. apply note_Ok in H1; [|exact D]. destruct H1 as [A1 [A2 [A3 [A4 _]]]]. apply steps_keep in H2. destruct H2 as [_ V].
    split; [exact A1|]. split; [exact A2|]. split; apply V; rewrite A4; apply in_or_app; right; unfold adds; cbn [fst snd].
    + rewrite Nat.eqb_refl. destruct (i =? j); cbn; auto.
    + rewrite Nat.eqb_refl. cbn. auto.
  - apply note_if_keeps in H1. destruct H1 as [L1 _]. rewrite <- L1. eapply IH; eassumption.
Qed.

(** neighbors_list_distinct writes in the table of the first group at the indices of the
    second one: out of bounds if there is no such row, and wrong particles otherwise. *)
Theorem C113_distinct_refuted :
  (forall A rows cap side pos other ids rcut i j, i < length pos -> j < length other -> i <> j -> close A side pos other ids rcut i j = Ok true ->
     rows <= j -> forall t, neighbors_list_distinct A rows cap side pos other ids rcut <> Ok t) /\
  (forall A rows cap side pos other ids rcut i j, i < length pos -> j < length other -> i <> j -> close A side pos other ids rcut i j = Ok true ->
     forall t, neighbors_list_distinct A rows cap side pos other ids rcut = Ok t -> In (Some i) (nth j t [])) /\
  exists cap side pos other ids rcut t, neighbors_list_distinct F64ops (length pos) cap side pos other ids rcut = Ok t /\
    In (Some 0) (nth 1 t []) /\ close F64ops side pos other ids rcut 1 0 = Ok false.
Proof.
  assert (E : forall A rows cap side pos other ids rcut i j, i < length pos -> j < length other -> i <> j -> close A side pos other ids rcut i j = Ok true ->
     forall t, neighbors_list_distinct A rows cap side pos other ids rcut = Ok t -> j < rows /\ In (Some i) (nth j t [])).
  { intros A rows cap side pos other ids rcut i j Hi Hj D N t H. unfold neighbors_list_distinct in H.
    rewrite (foldM_pairs _ (fun t i j => note_if (close A side pos other ids rcut) cap t i j) (fun _ => seq 0 (length other))) in H.
    eapply steps_enter in H; [|apply in_flat_map; exists i; split; [apply in_seq; lia|apply in_map, in_seq; split; [apply Nat.le_0_l|exact Hj]]|exact D|exact N].
    rewrite repeat_length in H. tauto. }
  split; [intros A rows cap side pos other ids rcut i j Hi Hj D N B t H; destruct (E A rows cap side pos other ids rcut i j Hi Hj D N t H); lia|].
  split; [intros A rows cap side pos other ids rcut i j Hi Hj D N t H; destruct (E A rows cap side pos other ids rcut i j Hi Hj D N t H); assumption|].
  exists 5, [f64_ofZ 10], [[f64_ofZ 0]; [f64_ofZ 3]], [[f64_ofZ (-3)]; [f64_ofZ 0]], [0; 0], [[f64_ofZ 1]], [[Some 1]; [Some 0]].
  split; [vm_compute; reflexivity|]. split; [cbn; auto|]. vm_compute. reflexivity.
Qed.
Print Assumptions C113_distinct_refuted.

(** Two close particles of different species across the boundary of a square cell, one far away. *)
Definition nb_pos : list (list R) := [[-7/5; 0]; [7/5; 0]; [0; 1]]%R.
Definition nb_cut : list (list R) := [[1/10; 1/2]; [1/2; 1/10]]%R.
Local Open Scope R_scope.
Example C113_nonvacuous :
  positive [3; 3] /\ (forall L, In L [3; 3] -> 3 * 1 <= L) /\ (forall x, In x nb_pos -> folded x [3; 3]) /\ species_ok 3 [0; 1; 1]%nat nb_cut /\
  (forall i j, (i < 3)%nat -> (j < 3)%nat -> 0 <= cutoff 0 nb_cut [0; 1; 1]%nat i j <= 1) /\ symmetric nb_cut [0; 1; 1]%nat 3 /\
  neighbours [3; 3] nb_pos (pair_cutoff nb_cut [0; 1; 1]%nat 0 1) 0 1 /\ half 3 [[1]; []; [1]]%nat /\
  (exists t, neighbors_list Rops 2 [3; 3] nb_pos [0; 1; 1]%nat nb_cut = Ok t).
Proof.
  assert (P : positive [3; 3]) by (intros L [<-|[<-|[]]]; lra).
  assert (F : forall x, In x nb_pos -> folded x [3; 3]) by (intros x [<-|[<-|[<-|[]]]]; cbn; repeat split; lra).
  assert (Sp : species_ok 3 [0; 1; 1]%nat nb_cut) by (split; [reflexivity|]; intros s s' Hs Hs'; cbn in Hs, Hs'; destruct Hs as [<-|[<-|[<-|[]]]], Hs' as [<-|[<-|[<-|[]]]]; cbn; lia).
  assert (B : forall i j, (i < 3)%nat -> (j < 3)%nat -> 0 <= cutoff 0 nb_cut [0; 1; 1]%nat i j <= 1).
  { intros i j Hi Hj. destruct i as [|[|[|i]]]; [| | |lia]; (destruct j as [|[|[|j]]]; [| | |lia]); unfold cutoff; cbn; lra. }
  split; [exact P|]. split; [intros L [<-|[<-|[]]]; lra|]. split; [exact F|]. split; [exact Sp|]. split; [exact B|]. split; [|split; [|split]].
  - intros i j Hi Hj. destruct i as [|[|[|i]]]; [| | |lia]; (destruct j as [|[|[|j]]]; [| | |lia]); reflexivity.
  - exists [-1; 0]%Z. split; [reflexivity|]. split; [intros [|[|i]]; cbn; try discriminate; destruct i; discriminate|].
    unfold euclid, pair_cutoff, cutoff. cbn. rewrite <- (sqrt_square (1 / 2)) by lra. apply sqrt_lt_1; lra.
  - split; [split; [reflexivity|]|].
    + intros i j Hi Hj. destruct i as [|[|[|i]]]; cbn in Hj; try (destruct Hj as [<-|[]]); try contradiction; lia.
    + intros i j Hi Hj. destruct i as [|[|[|i]]]; [| | |lia]; (destruct j as [|[|[|j]]]; [| | |lia]); unfold listed; cbn; lia.
  - apply (C113_neighbors_list 2 [3; 3] nb_pos [0; 1; 1]%nat nb_cut P F Sp); [intros i j Hi Hj; apply B; assumption|].
    intros i l Hi N Hl. assert (Hx : incl l (remove Nat.eq_dec i [0; 1; 2]%nat)).
    { intros j Hj. destruct (Hl j Hj) as [Lj [D _]]. apply in_in_remove; [exact D|]. cbn in Lj. destruct j as [|[|[|j]]]; cbn; auto. lia. }
    apply NoDup_incl_length in Hx; [|exact N]. etransitivity; [exact Hx|]. cbn in Hi. destruct i as [|[|[|i]]]; cbn; lia.
Qed.
