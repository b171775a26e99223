(** Proofs about setup_t_grid, _templated, adjust_skip. *)
From Coq Require Import List ZArith Bool Arith Lia Lra Reals Sorting.Sorted Permutation.
From Verif Require Import PyBase PyBaseFacts Num M_Helpers M_Correlation
  Spec_Correlation P_Correlation Spec_Time P_Skip NumFacts.
Import ListNotations.
Local Open Scope nat_scope.

Section Grid.
Variable steps : list Z.

(** Candidates in the order of the loops. *)
Definition cands_at (off : nat) : list (nat * nat) :=
  map (fun i => (off, i - off))
    (filter (fun i => (off <=? i) && ((i - off) mod 1 =? 0)) (seq 0 (length steps - off))).
Definition cands (offs : list nat) : list (nat * nat) := flat_map cands_at offs.

Definition put (d : dict (nat * nat)) (c : nat * nat) : dict (nat * nat) :=
  match dget d (lag_dt steps c) with
  | Some _ => d
  | None => dset d (lag_dt steps c) c
  end.

Lemma off_samp_eq : forall offs,
  off_samp steps offs = Ok (fold_left put (cands offs) []).
Proof.
  intros offs. unfold off_samp. generalize (@nil (Z * (nat * nat))) as d0.
  induction offs as [|off offs IH]; intros d0; [reflexivity|].
  cbn [foldM]. rewrite py_range_spec by lia. cbn [bind].
  set (l := filter _ _).
  rewrite (foldM_pure _ _ _ (fun d i => put d (off, i - off)) l).
  - cbn [bind]. rewrite IH. f_equal. unfold cands. cbn [flat_map].
    rewrite fold_left_app. f_equal. unfold cands_at. fold l.
    generalize d0. induction l as [|i l IHl]; intros d1; [reflexivity|]. cbn. apply IHl.
  - intros d i Hi. unfold l in Hi. apply filter_In in Hi. destruct Hi as [Hi Hb].
    apply in_seq in Hi. apply andb_true_iff in Hb. destruct Hb as [Hb _].
    apply Nat.leb_le in Hb.
    rewrite (get_Ok _ steps i 0%Z) by lia. rewrite (get_Ok _ steps off 0%Z) by lia.
    cbn [bind]. unfold put, lag_dt, lag_pair, pair_dt; cbn [fst snd].
    replace (off + (i - off)) with i by lia.
    destruct (dget d (nth i steps 0 - nth off steps 0)%Z); reflexivity.
Qed.

Lemma cands_In : forall offs p, In p (cands offs) <-> usable steps offs p.
Proof.
  intros offs [off i]. unfold cands, usable. rewrite in_flat_map. cbn [fst snd]. split.
  - intros [o [Ho H]]. unfold cands_at in H. apply in_map_iff in H.
    destruct H as [j [E Hj]]. injection E as -> <-.
    apply filter_In in Hj. destruct Hj as [Hj Hb]. apply in_seq in Hj.
    apply andb_true_iff in Hb. destruct Hb as [Hb _]. apply Nat.leb_le in Hb.
    split; [assumption|lia].
  - intros [Ho H]. exists off. split; [assumption|]. unfold cands_at. apply in_map_iff.
    exists (off + i). split; [f_equal; lia|]. apply filter_In. split.
    + apply in_seq. lia.
    + rewrite Nat.mod_1_r, Nat.eqb_refl, andb_true_r. apply Nat.leb_le. lia.
Qed.

Lemma put_get : forall l d k,
  dget (fold_left put l d) k =
  match dget d k with
  | Some v => Some v
  | None => find (fun c => (lag_dt steps c =? k)%Z) l
  end.
Proof.
  induction l as [|c l IH]; intros d k; cbn.
  - destruct (dget d k); reflexivity.
  - rewrite IH. unfold put. destruct (dget d (lag_dt steps c)) as [v|] eqn:E.
    + destruct (Z.eqb_spec (lag_dt steps c) k).
      * subst. rewrite E. reflexivity.
      * reflexivity.
    + rewrite dget_dset. rewrite (Z.eqb_sym k). destruct (Z.eqb_spec (lag_dt steps c) k).
      * subst. rewrite E. reflexivity.
      * reflexivity.
Qed.

Lemma put_NoDup : forall l d, NoDup (keys d) -> NoDup (keys (fold_left put l d)).
Proof.
  induction l as [|c l IH]; intros d H; cbn; [assumption|]. apply IH.
  unfold put. destruct (dget d (lag_dt steps c)); [assumption|]. apply NoDup_keys_dset; assumption.
Qed.

Lemma put_keys : forall offs k,
  In k (keys (fold_left put (cands offs) [])) <-> available steps offs k.
Proof.
  intros offs k. rewrite <- dget_Some_In. setoid_rewrite put_get. cbn. unfold available. split.
  - intros [c H]. apply find_some in H. destruct H as [H1 H2]. exists c.
    rewrite <- cands_In. apply Z.eqb_eq in H2. auto.
  - intros [p [Hp Hd]]. rewrite <- cands_In in Hp.
    destruct (find (fun c => (lag_dt steps c =? k)%Z) (cands offs)) as [c|] eqn:E; [eauto|].
    exfalso. pose proof (find_none _ _ E p Hp) as N. cbn in N. apply Z.eqb_neq in N. auto.
Qed.

(** Candidates are in lexicographic order when the offsets are increasing. *)
Definition lex (p q : nat * nat) : Prop := fst p < fst q \/ (fst p = fst q /\ snd p < snd q).

Lemma cands_sorted : forall offs, StronglySorted lt offs -> StronglySorted lex (cands offs).
Proof.
  intros offs H. induction H as [|o offs Hs IH Hf]; [constructor|].
  unfold cands; cbn. fold (cands offs).
  assert (StronglySorted lex (cands_at o)) as Hc.
  { unfold cands_at. apply map_StronglySorted with (R := lt).
    - intros x y Hx Hy Hxy. right. cbn. split; [reflexivity|].
      apply filter_In in Hx. destruct Hx as [_ Hx]. apply andb_true_iff in Hx.
      destruct Hx as [Hx _]. apply Nat.leb_le in Hx. lia.
    - apply filter_StronglySorted, seq_StronglySorted. }
  assert (forall p, In p (cands_at o) -> fst p = o) as Ho.
  { intros p Hp. unfold cands_at in Hp. apply in_map_iff in Hp. destruct Hp as [i [<- _]]. reflexivity. }
  assert (forall q, In q (cands offs) -> o < fst q) as Hq.
  { intros q Hq. apply cands_In in Hq. destruct Hq as [Hq _]. rewrite Forall_forall in Hf. auto. }
  clear Hs Hf. induction Hc as [|p l Hl IHl Hp]; cbn; [assumption|].
  constructor.
  - apply IHl. intros; apply Ho; right; assumption.
  - rewrite Forall_forall in *. intros q Hin. apply in_app_iff in Hin. destruct Hin as [Hin|Hin].
    + auto.
    + left. rewrite (Ho p (or_introl eq_refl)). auto.
Qed.

Lemma find_first : forall (l : list (nat * nat)) f c, StronglySorted lex l -> find f l = Some c ->
  forall q, In q l -> f q = true -> c = q \/ lex c q.
Proof.
  intros l f c H. induction H as [|p l Hs IH Hf]; intros E q Hq Hfq; [discriminate|].
  cbn in E. destruct (f p) eqn:Ep.
  - injection E as <-. destruct Hq as [->|Hq]; [auto|]. right. rewrite Forall_forall in Hf. auto.
  - destruct Hq as [->|Hq]; [congruence|auto].
Qed.

Lemma templated_spec : forall entry template r,
  templated entry template = Ok r ->
  StronglySorted Z.lt r /\
  exists ms, Forall2 (fun t m => min_by (fun x => Z.abs (x - t)) entry = Ok m) template ms /\
    (forall d, In d r <-> In d ms).
Proof.
  intros entry template r H. unfold templated in H.
  apply bind_Ok_inv in H. destruct H as [ms [Hm H]]. injection H as <-.
  split; [apply sortZ_sorted_lt, setZ_NoDup|].
  exists ms. split; [apply mapM_Ok_inv; assumption|].
  intros d. rewrite sortZ_In, setZ_In. tauto.
Qed.

Lemma Forall2_In_l : forall X Y (P : X -> Y -> Prop) l m x, Forall2 P l m -> In x l ->
  exists y, In y m /\ P x y.
Proof.
  intros X Y P l m x H. induction H as [|a b l m Hab H IH]; intros Hx; [destruct Hx|].
  destruct Hx as [->|Hx]; [exists b; cbn; auto|]. destruct (IH Hx) as [y [? ?]]. exists y; cbn; auto.
Qed.

Lemma Forall2_In_r : forall X Y (P : X -> Y -> Prop) l m y, Forall2 P l m -> In y m ->
  exists x, In x l /\ P x y.
Proof.
  intros X Y P l m y H. induction H as [|a b l m Hab H IH]; intros Hy; [destruct Hy|].
  destruct Hy as [->|Hy]; [exists a; cbn; auto|]. destruct (IH Hy) as [x [? ?]]. exists x; cbn; auto.
Qed.

Variable A : arith.
Variable timestep : num A.

Definition the_offsets (bs : nat) (offset : bool) : list nat := if offset then seq 0 bs else [0].

Lemma the_offsets_sorted : forall bs offset, StronglySorted lt (the_offsets bs offset).
Proof. intros bs []; cbn; [apply seq_StronglySorted|repeat constructor]. Qed.

Lemma setup_t_grid_correct : forall bs t_grid offset g,
  setup_t_grid A steps bs timestep t_grid offset = Ok g ->
  exists reqs,
    mapM (to_step A timestep) t_grid = Ok reqs /\
    StronglySorted Z.lt (map (lag_dt steps) g) /\
    (forall p, In p g -> usable steps (the_offsets bs offset) p /\
                         earliest steps (the_offsets bs offset) p) /\
    (forall r, In r reqs -> exists p, In p g /\ nearest steps (the_offsets bs offset) r (lag_dt steps p)) /\
    (forall p, In p g -> exists r, In r reqs /\ nearest steps (the_offsets bs offset) r (lag_dt steps p)).
Proof.
  intros bs t_grid offset g H. unfold setup_t_grid in H. fold (the_offsets bs offset) in H.
  set (offs := the_offsets bs offset) in *.
  rewrite off_samp_eq in H. cbn [bind] in H.
  set (d := fold_left put (cands offs) []) in *.
  apply bind_Ok_inv in H. destruct H as [reqs [Hr H]].
  apply bind_Ok_inv in H. destruct H as [ks [Hk Hg]].
  exists reqs. split; [assumption|].
  apply templated_spec in Hk. destruct Hk as [Hks [ms [Hms Hin]]].
  apply mapM_Ok_inv in Hg.
  assert (forall k p, dgetE d k = Ok p -> In p (cands offs) /\ lag_dt steps p = k /\
            earliest steps offs p) as Hget.
  { intros k p Hp. unfold dgetE in Hp. destruct (dget d k) as [c|] eqn:E; [|discriminate].
    injection Hp as <-. unfold d in E. rewrite put_get in E. cbn in E.
    pose proof (find_some _ _ E) as [H1 H2]. apply Z.eqb_eq in H2.
    split; [assumption|]. split; [assumption|].
    intros q Hq Hdq. apply cands_In in Hq.
    destruct (find_first _ _ _ (cands_sorted offs (the_offsets_sorted bs offset)) E q Hq) as [<-|Hl].
    - apply Z.eqb_eq. congruence.
    - right; auto.
    - destruct Hl; [auto|right; lia]. }
  assert (map (lag_dt steps) g = ks) as Emap.
  { clear - Hg Hget. induction Hg as [|k p ks g Hkp Hg IH]; [reflexivity|].
    cbn. destruct (Hget k p Hkp) as [_ [-> _]]. f_equal. assumption. }
  assert (forall r, In r reqs <-> In r (sortZ (setZ reqs))) as Hset.
  { intros r. rewrite sortZ_In, setZ_In. tauto. }
  assert (StronglySorted Z.lt (sortZ (keys d))) as Hsd.
  { apply sortZ_sorted_lt, put_NoDup. constructor. }
  assert (forall r m, min_by (fun x => Z.abs (x - r)) (sortZ (keys d)) = Ok m ->
            nearest steps offs r m) as Hnear.
  { intros r m Hm. pose proof (min_by_spec _ _ _ _ Hm) as [H1 H2]. split.
    - apply put_keys. fold d. apply sortZ_In. assumption.
    - intros d' Hd'. apply put_keys in Hd'. fold d in Hd'. apply sortZ_In in Hd'.
      specialize (H2 d' Hd'). destruct (Z_lt_ge_dec d' m).
      + left. apply (min_by_first _ _ _ Hm Hsd d' Hd'). assumption.
      + lia. }
  split; [rewrite Emap; assumption|]. split; [|split].
  - intros p Hp. destruct (Forall2_In_r _ _ _ _ _ _ Hg Hp) as [k [_ Hkp]].
    destruct (Hget k p Hkp) as [H1 [_ H3]]. split; [apply cands_In; assumption|assumption].
  - intros r Hreq. apply Hset in Hreq.
    destruct (Forall2_In_l _ _ _ _ _ _ Hms Hreq) as [m [Hm1 Hm2]].
    apply Hin in Hm1. destruct (Forall2_In_l _ _ _ _ _ _ Hg Hm1) as [p [Hp1 Hp2]].
    exists p. split; [assumption|]. destruct (Hget m p Hp2) as [_ [-> _]]. apply Hnear. assumption.
  - intros p Hp. destruct (Forall2_In_r _ _ _ _ _ _ Hg Hp) as [k [Hk1 Hkp]].
    apply Hin in Hk1. destruct (Forall2_In_r _ _ _ _ _ _ Hms Hk1) as [r [Hr1 Hr2]].
    exists r. split; [apply Hset; assumption|]. destruct (Hget k p Hkp) as [_ [-> _]]. apply Hnear. assumption.
Qed.

Lemma mapM_all_Ok : forall X Y (f : X -> res Y) l, (forall x, In x l -> exists y, f x = Ok y) ->
  exists ys, mapM f l = Ok ys.
Proof.
  intros X Y f l. induction l as [|x l IH]; intros H; cbn; [eauto|].
  destruct (H x (or_introl eq_refl)) as [y ->]. cbn.
  destruct IH as [ys ->]; [intros; apply H; right; assumption|]. cbn. eauto.
Qed.

(** It succeeds whenever there is a frame, a block size and the times are numbers. *)
Lemma setup_t_grid_total : forall bs t_grid offset reqs,
  steps <> [] -> 1 <= bs -> mapM (to_step A timestep) t_grid = Ok reqs ->
  exists g, setup_t_grid A steps bs timestep t_grid offset = Ok g.
Proof.
  intros bs t_grid offset reqs Hs Hbs Hr. unfold setup_t_grid. fold (the_offsets bs offset).
  set (offs := the_offsets bs offset).
  rewrite off_samp_eq. cbn [bind]. set (d := fold_left put (cands offs) []).
  rewrite Hr. cbn [bind].
  assert (In 0%Z (keys d)) as H0.
  { apply put_keys. exists (0, 0). split.
    - split; cbn.
      + unfold offs, the_offsets. destruct offset; [apply in_seq; lia|left; reflexivity].
      + destruct steps; [congruence|cbn; lia].
    - unfold lag_dt, lag_pair, pair_dt; cbn. lia. }
  assert (sortZ (keys d) <> []) as Hne.
  { intros E. apply sortZ_In in H0. rewrite E in H0. destruct H0. }
  unfold templated.
  destruct (mapM_all_Ok _ _ (fun t => min_by (fun x => Z.abs (x - t)) (sortZ (keys d)))
              (sortZ (setZ reqs))) as [ms Hms].
  { intros r _. apply min_by_Ok. assumption. }
  rewrite Hms. cbn [bind].
  apply mapM_all_Ok. intros k Hk. rewrite sortZ_In, setZ_In in Hk.
  apply mapM_Ok_inv in Hms. destruct (Forall2_In_r _ _ _ _ _ _ Hms Hk) as [r [_ Hm]].
  apply min_by_spec in Hm. destruct Hm as [Hm _]. rewrite sortZ_In in Hm.
  apply dget_Some_In in Hm. destruct Hm as [v Hv]. exists v. unfold dgetE. rewrite Hv. reflexivity.
Qed.
End Grid.

(** Shifting a pair by whole blocks does not change its time difference. *)
Lemma periodic_shift : forall steps bs period m i,
  block_periodic steps bs period -> i + m * bs < length steps ->
  (nth (i + m * bs) steps 0 = nth i steps 0 + Z.of_nat m * period)%Z.
Proof.
  intros steps bs period m i H. induction m as [|m IH]; intros Hl.
  - cbn [Nat.mul Nat.add]. rewrite Nat.add_0_r. lia.
  - replace (i + S m * bs) with (i + m * bs + bs) in * by lia.
    rewrite (H (i + m * bs)) by lia. rewrite IH by lia. lia.
Qed.

Lemma periodic_grid : forall (A : arith) X (f : X -> X -> num A) steps bs period g skip (x : list X),
  block_periodic steps bs period -> 1 <= skip ->
  (length steps <= skip \/ exists m, skip = m * bs) ->
  length steps = length x ->
  StronglySorted Z.lt (map (lag_dt steps) g) ->
  (forall p, In p g -> fst p + snd p < length steps) ->
  exists v, gcf_offset A f g skip steps x = Ok (map (lag_dt steps) g, v) /\ length v = length g.
Proof.
  intros A X f steps bs period g skip x Hper Hskip Hmult Hlen Hsorted Hvalid.
  destruct x as [|x0 xr] eqn:Ex.
  - destruct g as [|p g]; [exists []; cbn; auto|].
    specialize (Hvalid p (or_introl eq_refl)). cbn in Hlen. lia.
  - rewrite <- Ex in *.
    destruct (gcf_offset_correct A X f steps x x0 Hlen g skip Hskip) as [dt [v [E [Hs [Hin Hv]]]]].
    assert (dt = map (lag_dt steps) g) as ->.
    { apply sorted_lt_irr_ext; auto. intros d. rewrite Hin, in_map_iff.
      unfold admitted. split.
      - intros [p [Hp Hd]]. apply in_flat_map in Hp. destruct Hp as [q [Hq Hp]].
        exists q. split; [|assumption]. apply in_map_iff in Hp. destruct Hp as [i0 [<- Hi0]].
        unfold origins in Hi0. apply filter_In in Hi0. destruct Hi0 as [Hi0 Hb].
        apply in_seq in Hi0. apply andb_true_iff in Hb. destruct Hb as [Hb1 Hb2].
        apply Nat.leb_le in Hb1. apply Nat.eqb_eq in Hb2.
        apply Nat.mod_divides in Hb2; [|lia]. destruct Hb2 as [c Hc].
        subst d. unfold lag_dt, lag_pair, pair_dt; cbn [fst snd].
        assert (exists m, i0 = fst q + m * bs) as [m Em].
        { destruct Hmult as [Hm|[m Hm]].
          - destruct c as [|c]; [exists 0; lia|]. nia.
          - exists (m * c). subst skip. nia. }
        subst i0. replace (fst q + m * bs + snd q) with (fst q + snd q + m * bs) by lia.
        rewrite (periodic_shift steps bs period m (fst q + snd q)) by (assumption || lia).
        rewrite (periodic_shift steps bs period m (fst q)) by (assumption || lia). lia.
      - intros [q [Hd Hq]]. exists (lag_pair q). split; [|exact Hd].
        apply in_flat_map. exists q. split; [assumption|]. apply in_map_iff.
        exists (fst q). split; [reflexivity|].
        unfold origins. apply filter_In. specialize (Hvalid q Hq). split.
        + apply in_seq. lia.
        + rewrite Nat.sub_diag, Nat.leb_refl, Nat.mod_0_l by lia. reflexivity. }
    exists v. split; [assumption|]. rewrite Hv, !map_length. reflexivity.
Qed.

Lemma periodic_pipeline : forall (A : arith) (X : Type) (f : X -> X -> num A) steps bs period
  timestep t_grid offset g npart (n : norigins A) skip (x : list X),
  1 <= bs -> steps <> [] -> block_periodic steps bs period -> length steps = length x ->
  setup_t_grid A steps bs timestep t_grid offset = Ok g ->
  adjust_skip A (length steps) npart bs n = Ok skip ->
  bs = 1 \/ skip <> 1 ->
  exists v, gcf_offset A f g skip steps x = Ok (map (lag_dt steps) g, v) /\ length v = length g.
Proof.
  intros A X f steps bs period timestep t_grid offset g npart n skip x Hbs Hne Hper Hlen Hg Hskip H1.
  assert (1 <= length steps) as Hl by (destruct steps; [congruence|cbn; lia]).
  pose proof (adjust_skip_range _ _ _ _ _ _ Hl Hskip) as Hr.
  pose proof (adjust_skip_form _ _ _ _ _ _ Hbs Hl Hskip) as Hf.
  apply setup_t_grid_correct in Hg. destruct Hg as [reqs [_ [Hs [Hu _]]]].
  apply periodic_grid with (bs := bs) (period := period); auto.
  - lia.
  - destruct Hf as [Hf|[Hf|Hf]]; [right; assumption|left; lia|].
    destruct H1 as [->|H1]; [right; exists 1; lia|congruence].
  - intros p Hp. destruct (Hu p Hp) as [[_ Hu2] _]. lia.
Qed.

Lemma to_step_R : forall timestep t, (timestep <> 0)%R ->
  exists r, to_step Rops timestep t = Ok r /\ (Rabs (t / timestep - IZR r) <= / 2)%R.
Proof.
  intros timestep t H. unfold to_step, pydiv. cbn [neq n0 Rops].
  rewrite Reqb_false by assumption. cbn [bind nrint ndiv Rops].
  eexists. split; [reflexivity|]. apply Rrint_near.
Qed.
