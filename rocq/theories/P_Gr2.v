(** Coordination numbers, symmetry and composition of g(r). *)
From Coq Require Import List ZArith Bool Arith Lia Reals Lra Permutation Sorting.Sorted Psatz.
From Verif Require Import PyBase PyBaseFacts Num NumFacts Spec_Stats M_Helpers M_Correlation M_Dynamics M_Realspace
  Spec_Correlation Spec_Dynamics Spec_Pairs P_Helpers P_Dynamics P_Overlap P_Pairs P_Image P_Count P_Shell P_Gr.
Import ListNotations.
Local Open Scope R_scope.

Lemma filter_seq_prefix : forall (P : nat -> bool) n a, (forall i j, (i < j)%nat -> (j < a + n)%nat -> P j = true -> P i = true) ->
  exists m, (m <= n)%nat /\ filter P (seq a n) = seq a m.
Proof.
  intros P n. induction n as [|n IH]; intros a H; [exists 0%nat; split; [lia|reflexivity]|].
  cbn [seq filter]. destruct (P a) eqn:E.
  - destruct (IH (S a)) as [m [Hm Em]]; [intros i j Hij Hj; apply H; lia|].
    exists (S m). split; [lia|]. rewrite Em. reflexivity.
  - exists 0%nat. split; [lia|]. cbn [seq].
    assert (forall l, (forall j, In j l -> (a < j < a + S n)%nat) -> filter P l = []) as G.
    { induction l as [|b l IHl]; intros Hl; [reflexivity|]. cbn [filter]. destruct (P b) eqn:Eb.
      - assert (P a = true) by (apply (H a b); [apply Hl; left; reflexivity|apply Hl; left; reflexivity|exact Eb]). congruence.
      - apply IHl. intros; apply Hl; right; assumption. }
    apply G. intros j Hj. apply in_seq in Hj. lia.
Qed.

Lemma bins_upto_prefix : forall es r, StronglySorted Rlt es ->
  exists m, (m <= length es - 1)%nat /\ bins_upto es r = seq 0 m.
Proof.
  intros es r Hs. apply filter_seq_prefix. intros i j Hij Hj. cbn [Nat.add] in Hj.
  destruct (Rleb_spec (center es j) r) as [H|]; [|discriminate]. intros _.
  destruct (Rleb_spec (center es i) r) as [|H']; [reflexivity|]. exfalso. apply H'. clear H'.
  pose proof (sorted_edges_lt es Hs i j ltac:(lia)). pose proof (sorted_edges_lt es Hs (i + 1) (j + 1) ltac:(lia)).
  unfold center in *. lra.
Qed.

Lemma Rdiv_swap : forall a b, a / b = / b * a.
Proof. intros. unfold Rdiv. ring. Qed.

Lemma edges_length : forall grid (es : list R), edges_of_grid Rops grid = Ok es -> (3 <= length es)%nat.
Proof.
  intros grid es H. unfold edges_of_grid in H.
  apply bind_Ok_inv in H. destruct H as [g0 [H0 H]]. apply bind_Ok_inv in H. destruct H as [g1 [H1 H]].
  apply bind_Ok_inv in H. destruct H as [gl [_ H]]. apply Ok_inj in H. subst es.
  apply get_inv in H1. rewrite app_length, map_length. cbn [length]. destruct H1. lia.
Qed.

Lemma mean_number_pos : forall pos, pos <> [] -> (forall i, (i < length pos)%nat -> nth i pos [] <> []) -> 0 < mean_number pos.
Proof.
  intros pos Hne H. unfold mean_number, rmean. rewrite map_length.
  pose proof (INR_pos_length _ pos Hne) as Hl. apply Rdiv_lt_0_compat; [|exact Hl].
  assert (forall p, In p pos -> 1 <= INR (length p)) as H1.
  { intros p Hp. destruct (In_nth pos p [] Hp) as [i [Hi E]]. specialize (H i Hi). rewrite E in H.
    change 1 with (INR 1). apply le_INR. destruct p; [congruence|cbn; lia]. }
  pose proof (rsum_le _ (fun _ => 1) (fun p : list (list R) => INR (length p)) pos H1) as S.
  rewrite rsum_const in S. lra.
Qed.

Lemma gr_input_pos : forall same skip pos0 pos1 sides, gr_input same skip pos0 pos1 sides -> pos0 <> [] ->
  0 < mean_number pos0 /\ 0 < mean_number pos1.
Proof.
  intros same skip pos0 pos1 sides H Hne. destruct H as [Hsk L1 L2 Hs Hp Hf]. split.
  - apply mean_number_pos; [exact Hne|]. intros i Hi. apply (Hf i Hi).
  - apply mean_number_pos.
    + intros ->. destruct pos0; [congruence|discriminate].
    + intros i Hi. rewrite L1 in Hi. apply (Hf i Hi).
Qed.

Lemma neighbours_values : forall same D side p0 p1, exists vs,
  forall P, neighbours same D P side p0 p1 = cnt P vs.
Proof.
  intros same D side p0 p1. destruct same; unfold neighbours.
  - exists (map (fun p => D side (nth (fst p) p0 []) (nth (snd p) p0 []))
      (filter (fun p => negb (fst p =? snd p)%nat) (list_prod (seq 0 (length p0)) (seq 0 (length p0))))).
    intros P. rewrite cnt_map, cnt_filter. reflexivity.
  - exists (map (fun p => D side (fst p) (snd p)) (list_prod p0 p1)). intros P. rewrite cnt_map. reflexivity.
Qed.

Lemma INR_list_sum : forall l, INR (list_sum l) = rsum (map INR l).
Proof. induction l as [|a l IH]; [reflexivity|]. rewrite list_sum_cons, plus_INR, IH. reflexivity. Qed.

Lemma neighbours_telescope : forall same D side p0 p1 es K, StronglySorted Rlt es -> (2 <= length es)%nat ->
  (K + 1 <= length es)%nat ->
  rsum (map (fun k => INR (neighbours same D (in_bin 0 Rleb Rltb es k) side p0 p1)) (seq 0 K))
  = INR (neighbours same D (within es K) side p0 p1).
Proof.
  intros same D side p0 p1 es K Hs H2 HK. destruct (neighbours_values same D side p0 p1) as [vs Hvs].
  rewrite Hvs. rewrite (rsum_ext _ _ (fun k => INR (cnt (in_bin 0 Rleb Rltb es k) vs))) by (intros; rewrite Hvs; reflexivity).
  rewrite <- (map_map (fun k => cnt (in_bin 0 Rleb Rltb es k) vs) INR), <- INR_list_sum. f_equal.
  rewrite bins_telescope by assumption. destruct (Nat.eqb_spec K 0) as [->|]; [|reflexivity].
  unfold cnt. rewrite (filter_ext _ (fun _ => false)); [clear; induction vs; auto|].
  intros v. unfold within. destruct (Nat.eqb_spec (0 + 1) (length es)); [lia|].
  destruct (Rleb_spec (nth 0 es 0) v), (Rltb_spec v (nth 0 es 0)); try reflexivity; lra.
Qed.

Lemma mean_neighbours_telescope : forall D same skip pos0 pos1 sides es K, StronglySorted Rlt es -> (2 <= length es)%nat ->
  (K + 1 <= length es)%nat ->
  rsum (map (fun k => mean_neighbours D same skip pos0 pos1 sides (in_bin 0 Rleb Rltb es k)) (seq 0 K))
  = mean_neighbours D same skip pos0 pos1 sides (within es K).
Proof.
  intros D same skip pos0 pos1 sides es K Hs H2 HK. unfold mean_neighbours, rmean. rewrite !map_length.
  set (os := origins 0 skip (length pos0)).
  transitivity (/ INR (length os) * rsum (map (fun k => rsum (map (fun i => INR (neighbours same D (in_bin 0 Rleb Rltb es k)
      (nth i sides []) (nth i pos0 []) (nth i pos1 []))) os)) (seq 0 K))).
  - rewrite <- rsum_scal. apply rsum_ext. intros k _. rewrite map_length. unfold Rdiv. ring.
  - unfold Rdiv. rewrite Rmult_comm. f_equal. rewrite rsum_swap. apply rsum_ext. intros i _.
    apply neighbours_telescope; assumption.
Qed.

Definition good_dim (d : nat) : Prop := d = 3%nat \/ (exists m, (1 <= m)%nat /\ d = (2 * m)%nat).
Lemma shell_good : forall d (r0 r1 : R), good_dim d -> shell Rops PI d r0 r1 = ball d r1 - ball d r0.
Proof. intros d r0 r1 [->|[m [_ ->]]]; [apply shell_3|apply shell_even]. Qed.
Lemma good_dim_pos : forall d, good_dim d -> (1 <= d)%nat.
Proof. intros d [->|[m [H ->]]]; lia. Qed.

Lemma gr_coordination : forall D V crop ndims same (grid es : list R) skip pos0 pos1 sides out K,
  is_distance D -> edges_of_grid Rops grid = Ok es -> StronglySorted Rlt es -> 0 <= nth 0 es 0 ->
  gr_input same skip pos0 pos1 sides -> pos0 <> [] -> 0 < V -> good_dim ndims ->
  gr_legacy Rops PI ndims same grid skip pos0 pos1 sides V crop = Ok out -> (K <= length out)%nat ->
  rsum (map (fun k => snd (nth k out (0, 0)) * (mean_number pos1 / V)
                      * (ball ndims (nth (k + 1) es 0) - ball ndims (nth k es 0))) (seq 0 K))
  = mean_neighbours D same skip pos0 pos1 sides (within es K) / mean_number pos0.
Proof.
  intros D V crop ndims same grid es skip pos0 pos1 sides out K HD He Hs H0 Hin Hne HV Hd Hout HK.
  rewrite (gr_legacy_form D PI V crop ndims same grid es skip pos0 pos1 sides HD He Hs Hin) in Hout.
  apply Ok_inj in Hout. subst out. destruct (bins_upto_prefix es crop Hs) as [m [Hm Em]]. rewrite Em in HK |- *.
  rewrite map_length, seq_length in HK. pose proof (edges_length grid es He) as H3.
  destruct (gr_input_pos _ _ _ _ _ Hin Hne) as [P0 P1].
  rewrite <- (mean_neighbours_telescope D same skip pos0 pos1 sides es K Hs) by lia.
  rewrite (Rdiv_swap (rsum (map _ (seq 0 K))) (mean_number pos0)), <- rsum_scal. apply rsum_ext. intros k Hk. apply in_seq in Hk.
  rewrite nth_map_seq by lia. cbn [snd].
  pose proof (shell_pos ndims (nth k es 0) (nth (k + 1) es 0)) as Hsh.
  rewrite shell_good in * by exact Hd.
  assert (0 <= nth k es 0) as Hk0.
  { destruct k as [|k]; [exact H0|]. pose proof (sorted_edges_lt es Hs 0 (S k) ltac:(lia)). lra. }
  specialize (Hsh Hk0 (sorted_edges_lt es Hs k (k + 1) ltac:(lia)) (good_dim_pos ndims Hd)).
  change (num Rops) with R in *. field. repeat split; lra.
Qed.

Lemma D_sym : forall D side x y, is_distance D -> positive side -> length x = length side -> length y = length side ->
  D side x y = D side y x.
Proof.
  intros D side x y HD Hp Hx Hy. rewrite <- !(distance_img D) by assumption. apply img_dist_sym; assumption.
Qed.

Lemma mean_neighbours_sym : forall D skip pos0 pos1 sides P, is_distance D ->
  gr_input false skip pos0 pos1 sides ->
  mean_neighbours D false skip pos0 pos1 sides P = mean_neighbours D false skip pos1 pos0 sides P.
Proof.
  intros D skip pos0 pos1 sides P HD Hin. destruct Hin as [Hsk L1 L2 _ Hp Hf]. unfold mean_neighbours. rewrite L1.
  f_equal. apply map_ext_in. intros i Hi. apply filter_In in Hi. destruct Hi as [Hi _]. apply in_seq in Hi.
  assert (i < length pos0)%nat as Hi' by lia. destruct (Hf i Hi') as [[_ F0] [_ F1]]. f_equal. unfold neighbours.
  rewrite count_prod_swap. apply count_prod_ext. intros y x Hy Hx. rewrite (D_sym D) by (auto; apply Hp, nth_In; lia).
  reflexivity.
Qed.

Lemma gr_symmetric : forall D pi V crop ndims (grid es : list R) skip pos0 pos1 sides,
  is_distance D -> edges_of_grid Rops grid = Ok es -> StronglySorted Rlt es ->
  gr_input false skip pos0 pos1 sides ->
  gr_legacy Rops pi ndims false grid skip pos0 pos1 sides V crop
  = gr_legacy Rops pi ndims false grid skip pos1 pos0 sides V crop.
Proof.
  intros D pi V crop ndims grid es skip pos0 pos1 sides HD He Hs Hin.
  assert (gr_input false skip pos1 pos0 sides) as Hin'.
  { destruct Hin as [Hsk L1 L2 _ Hp Hf]. constructor; auto; try congruence.
    intros i Hi. rewrite L1 in Hi. destruct (Hf i Hi). split; assumption. }
  rewrite (gr_legacy_form D pi V crop ndims false grid es skip pos0 pos1 sides HD He Hs Hin).
  rewrite (gr_legacy_form D pi V crop ndims false grid es skip pos1 pos0 sides HD He Hs Hin').
  f_equal. apply map_ext. intros k. rewrite (mean_neighbours_sym D skip pos0 pos1 sides _ HD Hin).
  f_equal. unfold Rdiv. rewrite ?Rinv_mult. change (num Rops) with R. ring.
Qed.

(** Composition. *)
Lemma mean_neighbours_composition : forall D skip pos sides parts P,
  (forall i, (i < length pos)%nat -> Permutation (nth i pos []) (concat (map (fun p => nth i p []) parts))) ->
  (forall p, In p parts -> length p = length pos) ->
  mean_neighbours D true skip pos pos sides P
  = rsum (map (fun a => rsum (map (fun b =>
      mean_neighbours D (a =? b)%nat skip (nth a parts []) (nth b parts []) sides P) (seq 0 (length parts)))) (seq 0 (length parts))).
Proof.
  intros D skip pos sides parts P Hperm Hlen. unfold mean_neighbours at 1.
  set (os := origins 0 skip (length pos)). set (m := length parts).
  assert (forall a, (a < m)%nat -> length (nth a parts []) = length pos) as Hl by (intros; apply Hlen, nth_In; assumption).
  rewrite (rsum_ext _ (fun a => rsum (map (fun b => mean_neighbours D (a =? b)%nat skip (nth a parts []) (nth b parts []) sides P) (seq 0 m)))
    (fun a => / INR (length os) * rsum (map (fun b => rsum (map (fun i => INR (neighbours (a =? b)%nat D P (nth i sides [])
        (nth i (nth a parts []) []) (nth i (nth b parts []) []))) os)) (seq 0 m)))).
  2:{ intros a Ha. apply in_seq in Ha. rewrite <- rsum_scal. apply rsum_ext. intros b _. unfold mean_neighbours, rmean.
      rewrite map_length, Hl by lia. fold os. unfold Rdiv. ring. }
  rewrite rsum_scal. unfold rmean. rewrite map_length. unfold Rdiv. rewrite Rmult_comm. f_equal.
  transitivity (rsum (map (fun i => rsum (map (fun a => rsum (map (fun b => INR (neighbours (a =? b)%nat D P (nth i sides [])
        (nth i (nth a parts []) []) (nth i (nth b parts []) []))) (seq 0 m))) (seq 0 m))) os)).
  - apply rsum_ext. intros i Hi. apply filter_In in Hi. destruct Hi as [Hi _]. apply in_seq in Hi.
    unfold neighbours at 1.
    rewrite (ordered_composition _ _ (map (fun p => nth i p []) parts) _ [] (Hperm i ltac:(lia))).
    rewrite map_length. fold m. rewrite INR_list_sum, map_map. apply rsum_ext. intros a Ha. apply in_seq in Ha.
    rewrite INR_list_sum, map_map. apply rsum_ext. intros b Hb. apply in_seq in Hb.
    assert (forall c, (c < m)%nat -> nth c (map (fun p => nth i p []) parts) [] = nth i (nth c parts []) []) as Hn.
    { intros c Hc. rewrite (nth_indep _ [] ((fun p : list (list (list R)) => nth i p []) [])) by (rewrite map_length; exact Hc).
      exact (map_nth (fun p : list (list (list R)) => nth i p []) parts [] c). }
    rewrite !Hn by lia. unfold neighbours. destruct (a =? b)%nat; reflexivity.
  - rewrite rsum_swap. apply rsum_ext. intros a _. rewrite rsum_swap. reflexivity.
Qed.

Lemma gr_composition : forall D V crop ndims (grid es : list R) skip pos sides parts tot (out : nat -> nat -> list (R * R)),
  is_distance D -> edges_of_grid Rops grid = Ok es -> StronglySorted Rlt es -> 0 <= nth 0 es 0 ->
  pos <> [] -> 0 < V -> (1 <= ndims)%nat ->
  gr_input true skip pos pos sides ->
  (forall a, (a < length parts)%nat -> gr_input true skip (nth a parts []) (nth a parts []) sides) ->
  (forall i, (i < length pos)%nat -> Permutation (nth i pos []) (concat (map (fun p => nth i p []) parts))) ->
  gr_legacy Rops PI ndims true grid skip pos pos sides V crop = Ok tot ->
  (forall a b, (a < length parts)%nat -> (b < length parts)%nat ->
     gr_legacy Rops PI ndims (a =? b)%nat grid skip (nth a parts []) (nth b parts []) sides V crop = Ok (out a b)) ->
  forall j, (j < length tot)%nat ->
    (forall a b, (a < length parts)%nat -> (b < length parts)%nat ->
       length (out a b) = length tot /\ fst (nth j (out a b) (0, 0)) = fst (nth j tot (0, 0))) /\
    mean_number pos * mean_number pos * snd (nth j tot (0, 0))
    = rsum (map (fun a => rsum (map (fun b =>
        mean_number (nth a parts []) * mean_number (nth b parts []) * snd (nth j (out a b) (0, 0)))
        (seq 0 (length parts)))) (seq 0 (length parts))).
Proof.
  intros D V crop ndims grid es skip pos sides parts tot out HD He Hs H0 Hne HV Hd Hin Hparts Hperm Htot Hout j Hj.
  rewrite (gr_legacy_form D PI V crop ndims true grid es skip pos pos sides HD He Hs Hin) in Htot.
  apply Ok_inj in Htot. subst tot. rewrite map_length in Hj. set (m := length parts) in *.
  assert (forall a, (a < m)%nat -> length (nth a parts []) = length pos) as Hl.
  { intros a Ha. destruct (Hparts a Ha) as [_ _ L _ _ _]. destruct Hin as [_ _ L' _ _ _]. congruence. }
  assert (forall a b, (a < m)%nat -> (b < m)%nat -> gr_input (a =? b)%nat skip (nth a parts []) (nth b parts []) sides) as Hab.
  { intros a b Ha Hb. destruct (Hparts a Ha) as [Hsk _ L2 _ Hp Hf]. destruct (Hparts b Hb) as [_ _ L2' _ _ Hf'].
    constructor; auto; try congruence.
    - intros E. apply Nat.eqb_eq in E. congruence.
    - intros i Hi. split; [apply Hf; exact Hi|apply Hf']. rewrite Hl in * by assumption. exact Hi. }
  assert (forall a b, (a < m)%nat -> (b < m)%nat -> out a b = map (fun k => (center es k,
        mean_neighbours D (a =? b)%nat skip (nth a parts []) (nth b parts []) sides (in_bin 0 Rleb Rltb es k)
        / (mean_number (nth b parts []) / V * shell Rops PI ndims (nth k es 0) (nth (k + 1) es 0) * mean_number (nth a parts []))))
      (bins_upto es crop)) as Eo.
  { intros a b Ha Hb. apply Ok_inj. rewrite <- (Hout a b Ha Hb). symmetry.
    rewrite (gr_legacy_form D PI V crop ndims (a =? b)%nat grid es skip (nth a parts []) (nth b parts []) sides HD He Hs (Hab a b Ha Hb)).
    reflexivity. }
  destruct (bins_upto_prefix es crop Hs) as [n [Hn En]]. rewrite En in Hj, Eo |- *. rewrite seq_length in Hj.
  split.
  { intros a b Ha Hb. rewrite (Eo a b Ha Hb), !map_length. split; [reflexivity|]. rewrite !nth_map_seq by exact Hj. reflexivity. }
  pose proof (shell_pos ndims (nth j es 0) (nth (j + 1) es 0)) as Hsh.
  assert (0 <= nth j es 0) as Hk0.
  { destruct j as [|k]; [exact H0|]. pose proof (sorted_edges_lt es Hs 0 (S k) ltac:(lia)). lra. }
  specialize (Hsh Hk0 (sorted_edges_lt es Hs j (j + 1) ltac:(lia)) Hd).
  rewrite nth_map_seq by exact Hj. cbn [snd]. destruct (gr_input_pos _ _ _ _ _ Hin Hne) as [P0 _].
  rewrite (mean_neighbours_composition D skip pos sides parts) by
    (auto; intros p Hp; destruct (In_nth _ _ [] Hp) as [a [Ha <-]]; apply Hl; exact Ha).
  fold m. set (sh := shell Rops PI ndims (nth j es 0) (nth (j + 1) es 0)) in *. change (num Rops) with R in *.
  transitivity (V / sh * rsum (map (fun a => rsum (map (fun b =>
    mean_neighbours D (a =? b)%nat skip (nth a parts []) (nth b parts []) sides (in_bin 0 Rleb Rltb es j)) (seq 0 m))) (seq 0 m))).
  { field. repeat split; lra. }
  rewrite <- rsum_scal. apply rsum_ext. intros a Ha. apply in_seq in Ha. rewrite <- rsum_scal. apply rsum_ext.
  intros b Hb. apply in_seq in Hb. rewrite (Eo a b) by lia. rewrite nth_map_seq by exact Hj. cbn [snd].
  assert (nth a parts [] <> [] /\ nth b parts [] <> []) as [Na Nb].
  { assert (length pos <> 0)%nat by (destruct pos; [congruence|discriminate]).
    split; intros E; [pose proof (Hl a ltac:(lia)) as L|pose proof (Hl b ltac:(lia)) as L]; rewrite E in L; cbn in L; lia. }
  destruct (gr_input_pos _ _ _ _ _ (Hparts a ltac:(lia)) Na) as [Pa _].
  destruct (gr_input_pos _ _ _ _ _ (Hparts b ltac:(lia)) Nb) as [Pb _].
  fold sh. field. repeat split; lra.
Qed.
