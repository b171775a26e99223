(** Radial distribution functions of systems without periodic boundaries. *)
From Coq Require Import Ascii String List ZArith Bool Arith Lia Reals Lra Permutation Sorting.Sorted.
From Verif Require Import PyBase PyBaseFacts Num NumFacts Spec_Stats M_Helpers M_Correlation M_Dynamics M_Realspace M_LinkedCells
  M_GrObject Spec_Correlation Spec_Dynamics Spec_Pairs Spec_LinkedCells Spec_GrObject
  P_Helpers P_Dynamics P_Overlap P_Pairs P_Image P_Count P_Shell P_Gr P_Gr2 P_Gr3 P_GrFast P_GrFast2 P_LinkedCells P_LinkedCells2 P_LinkedCells3
  P_LinkedCells4 P_KGrid2 P_GrObject P_GrObject2 P_GrObject3.
Import ListNotations.
Local Open Scope R_scope.

Definition bounded_by (m : R) (x : list R) : Prop := forall a, In a x -> Rabs a <= m.

Lemma fsq_far : forall fmax x y nd, 0 < fmax -> length x = nd -> length y = nd -> bounded_by (fmax / 4) x -> bounded_by (fmax / 4) y ->
  fsq x y (repeat fmax nd) = dist2 x y.
Proof.
  intros fmax. induction x as [|a x IH]; intros [|b y] [|nd] HF Hx Hy Bx By; try discriminate; [reflexivity|].
  cbn [repeat dist2]. rewrite fsq_cons. injection Hx as Hx. injection Hy as Hy.
  rewrite (IH y nd) by (try assumption; intros c Hc; first [apply Bx; right; exact Hc|apply By; right; exact Hc]). f_equal.
  rewrite wrap_R by exact HF.
  assert (Rabs a <= fmax / 4) as Ha by (apply Bx; left; reflexivity).
  assert (Rabs b <= fmax / 4) as Hb by (apply By; left; reflexivity).
  destruct (Rlt_dec (fmax / 2) (Rabs (b - a))) as [H|_]; [|ring].
  exfalso. pose proof (Rabs_triang b (- a)) as T. rewrite Rabs_Ropp in T. unfold Rminus in H. lra.
Qed.

Lemma fdist_far : forall fmax x y nd, 0 < fmax -> length x = nd -> length y = nd -> bounded_by (fmax / 4) x -> bounded_by (fmax / 4) y ->
  fdist Rops x y (repeat fmax nd) = euclid x y.
Proof. intros. rewrite fdist_sq, fsq_far by assumption. reflexivity. Qed.

Lemma folded_bounded : forall side x m, folded x side -> (forall l, In l side -> l <= 2 * m) -> bounded_by m x.
Proof.
  induction side as [|L side IH]; intros [|a x] m H Hl; try contradiction; [intros c []|].
  destruct H as [Ha H]. intros c [<-|Hc].
  - specialize (Hl L (or_introl eq_refl)). apply Rabs_le. lra.
  - revert c Hc. apply IH; [exact H|]. intros l Hl'. apply Hl. right. exact Hl'.
Qed.

Lemma on_surface_R : forall side delta x, negb (on_surface Rops side delta x) = interior delta side x.
Proof.
  intros side delta x. unfold on_surface, interior, map2. change (num Rops) with R in *. cbn [nlt nsub ndiv nofZ nabs Rops]. change (num Rops) with R in *.
  generalize (combine x side) as l0. intros l0. induction l0 as [|[a L] l IH]; [reflexivity|].
  cbn [map existsb forallb fst snd]. rewrite negb_orb, IH. f_equal.
  destruct (Rltb_spec (L / 2 - delta) (Rabs a)), (Rleb_spec (Rabs a) (L / 2 - delta)); try reflexivity; lra.
Qed.

Lemma interior_filter : forall (c : cellR) (f : frameR) (r : R), f_cell f = Some c ->
  filter (fun x => negb (on_surface Rops (c_side c) r x)) (f_0 f) = interior0 r f.
Proof.
  intros c f r Ec. unfold interior0, side_of. rewrite Ec. apply filter_ext. intros x. apply on_surface_R.
Qed.

(** Distances from interior points. *)
Lemma interior_dist2 : forall L r side x y, 0 < r -> (forall l, In l side -> r <= l <= L) -> interior r side x = true ->
  length x = length side -> folded y side -> dist2 x y <= INR (length side) * ((L - r) * (L - r)).
Proof.
  intros L r. induction side as [|l side IH]; intros [|a x] [|b y] Hr Hl Hi Hx Hy; try contradiction; try discriminate; [cbn; lra|].
  destruct Hy as [Hb Hy]. injection Hx as Hx. unfold interior in Hi. cbn [combine forallb fst snd] in Hi.
  apply andb_true_iff in Hi. destruct Hi as [Ha Hi]. destruct (Rleb_spec (Rabs a) (l / 2 - r)) as [Ha'|]; [|discriminate].
  cbn [dist2]. change (length (l :: side)) with (S (length side)). rewrite S_INR.
  assert (dist2 x y <= INR (length side) * ((L - r) * (L - r))) as H.
  { apply IH; auto. intros q Hq. apply Hl. right. exact Hq. }
  assert (r <= l <= L) as Hl' by (apply Hl; left; reflexivity).
  assert (- (L - r) <= a - b <= L - r) as Hab.
  { pose proof (Rle_abs a). pose proof (Rle_abs (- a)) as Q. rewrite Rabs_Ropp in Q. lra. }
  assert ((a - b) * (a - b) <= (L - r) * (L - r)) by nra. lra.
Qed.

Lemma interior_euclid : forall L r side x y, 0 < r -> (forall l, In l side -> r <= l <= L) -> 0 <= L - r -> interior r side x = true ->
  length x = length side -> folded y side -> euclid x y <= (L - r) * sqrt (INR (length side)).
Proof.
  intros L r side x y Hr Hl HL Hi Hx Hy. unfold euclid.
  replace ((L - r) * sqrt (INR (length side))) with (sqrt (INR (length side) * ((L - r) * (L - r)))).
  - apply sqrt_le_1_alt. apply interior_dist2; assumption.
  - rewrite sqrt_mult_alt by apply pos_INR. rewrite sqrt_square by lra. ring.
Qed.

(** One frame, open cell, rmax given. *)
Lemma step_open : forall fmax ndims same (p : gparams Rops) dr n ls lf acc (f : frameR) (c : cellR) h,
  f_cell f = Some c -> length (c_side c) = ndims -> length (c_periodic c) = ndims ->
  (forall b, In b (c_periodic c) -> b = false) -> populated ndims f -> 0 < (g_rmax p : R) ->
  gr_distinct_c Rops (interior0 (g_rmax p) f) (f_1 f) (repeat fmax ndims) dr n = Ok h ->
  fast_object_step Rops fmax ndims same p false dr n (ls, lf, acc) f
  = Ok (ls, Some (f, (true, true)), acc ++ [(h, (length (interior0 (g_rmax p) f), length (f_1 f)))]).
Proof.
  intros fmax ndims same p dr n ls lf acc f c h Ec Hl Hlp Hb [P0 [P1 _]] Hr Hh.
  destruct (kernel_side_open fmax ndims c Hl Hlp Hb) as [En Ek].
  unfold fast_object_step.
  assert ((length (f_0 f) =? 0)%nat || (length (f_1 f) =? 0)%nat = false) as ->.
  { destruct (f_0 f); [congruence|]. destruct (f_1 f); [congruence|]. reflexivity. }
  rewrite Ec, En, rmax_given_R. destruct (Rltb_spec 0 (g_rmax p)); [|contradiction].
  cbn [andb Nat.eqb]. rewrite orb_true_r. cbn [bind]. rewrite Ek. cbn [bind].
  rewrite (interior_filter c f _ Ec). rewrite Hh. reflexivity.
Qed.

Lemma step_open_linked : forall fmax ndims same (p : gparams Rops) dr n ls lf acc (f : frameR) (c : cellR) s ns h,
  f_cell f = Some c -> length (c_side c) = ndims -> length (c_periodic c) = ndims ->
  (forall b, In b (c_periodic c) -> b = false) -> populated ndims f -> 0 < (g_rmax p : R) ->
  lc_compute Rops (g_rmax p) ls (mkCall (A:=Rops) (c_side c) (interior0 (g_rmax p) f) (Some (f_1 f)) true (Some (c_periodic c))) = Ok (s, ns) ->
  ns <> [] ->
  gr_neighbors_c Rops (interior0 (g_rmax p) f) (f_1 f) ns (repeat fmax ndims) dr n = Ok h ->
  fast_object_step Rops fmax ndims same p true dr n (ls, lf, acc) f
  = Ok (Some s, Some (f, (true, true)), acc ++ [(h, (length (interior0 (g_rmax p) f), length (f_1 f)))]).
Proof.
  intros fmax ndims same p dr n ls lf acc f c s ns h Ec Hl Hlp Hb [P0 [P1 _]] Hr Hlc Hns Hh.
  destruct (kernel_side_open fmax ndims c Hl Hlp Hb) as [En Ek].
  unfold fast_object_step.
  assert ((length (f_0 f) =? 0)%nat || (length (f_1 f) =? 0)%nat = false) as ->.
  { destruct (f_0 f); [congruence|]. destruct (f_1 f); [congruence|]. reflexivity. }
  rewrite Ec, En, rmax_given_R. destruct (Rltb_spec 0 (g_rmax p)); [|contradiction].
  cbn [andb Nat.eqb]. rewrite orb_true_r. cbn [bind need_cell].
  rewrite (interior_filter c f _ Ec). rewrite Hlc. cbn [bind].
  assert (exists m, lc_as_array ns = Ok m) as [m Em].
  { unfold lc_as_array. destruct ns; [congruence|eexists; reflexivity]. }
  rewrite Em. cbn [bind]. rewrite Ek. cbn [bind]. rewrite Hh. reflexivity.
Qed.

(** Linked cells find the same pairs as the double loop, in open cells. *)
Lemma open_linked_hist : forall fmax (rc dr : R) n side p0 p1 (per : list bool) L,
  0 < dr -> 0 < rc -> dim23 (length side) -> positive side -> big rc side -> p0 <> [] ->
  length per = length side -> (forall b, In b per -> b = false) ->
  (forall x, In x p0 \/ In x p1 -> folded x side) -> (forall x, In x p0 -> interior rc side x = true) ->
  largest L side -> L <= fmax / 2 -> (L - rc) * sqrt (INR (length side)) < dr * INR n ->
  exists s ns h, lc_setup Rops rc None (mkCall (A:=Rops) side p0 (Some p1) true (Some per)) = Ok s /\
    (forall st, st = None \/ st = Some s -> lc_compute Rops rc st (mkCall (A:=Rops) side p0 (Some p1) true (Some per)) = Ok (s, ns)) /\
    ns <> [] /\ gr_neighbors_c Rops p0 p1 ns (repeat fmax (length side)) dr n = Ok h /\
    forall k, (k < n)%nat -> INR (k + 1) * dr <= rc -> nth k h 0%nat = count_prod (fun x y => slot dr k (euclid x y)) p0 p1.
Proof.
  intros fmax rc dr n side p0 p1 per L Hdr Hrc Hd Hp Hb Hne Hper Hpf Hf Hi HL HLF Hlong.
  assert (forall x, In x p0 -> folded x side) as Hf0 by (intros; apply Hf; auto).
  assert (forall x, In x p1 -> folded x side) as Hf1 by (intros; apply Hf; auto).
  assert (0 < L) as HL0 by (apply Hp, HL).
  assert (0 < fmax) as HF by lra.
  assert (forall l, In l side -> rc <= l <= L) as Hl.
  { intros l Hin. split; [|apply HL, Hin]. specialize (Hb l Hin).
    assert (0 <= l / rc) as Hq by (apply Rle_mult_inv_pos; [apply Rlt_le, Hp, Hin|exact Hrc]).
    rewrite Rtrunc_nonneg in Hb by exact Hq. pose proof (Rfloor_bounds (l / rc)) as Hfb. apply IZR_le in Hb.
    assert (1 * rc <= l / rc * rc) as Hm by (apply Rmult_le_compat_r; lra).
    unfold Rdiv in Hm. rewrite Rmult_assoc, Rinv_l in Hm by lra. lra. }
  assert (0 <= L - rc) as HLr by (destruct (Hl L (proj1 HL)); lra).
  assert (forall x y, In x p0 -> In y p1 -> fdist Rops x y (repeat fmax (length side)) = euclid x y) as Hfd.
  { intros x y Hx Hy. apply fdist_far; auto.
    - apply folded_inside, Hf0, Hx.
    - apply folded_inside, Hf1, Hy.
    - apply (folded_bounded side); [apply Hf0, Hx|]. intros l Hin. destruct (Hl l Hin). lra.
    - apply (folded_bounded side); [apply Hf1, Hy|]. intros l Hin. destruct (Hl l Hin). lra. }
  assert (forall k s ns, lc_compute Rops rc None k = Ok (s, ns) ->
    lc_setup Rops rc None k = Ok s /\ forall st, st = None \/ st = Some s -> lc_compute Rops rc st k = Ok (s, ns)) as Hst.
  { intros k s ns H. unfold lc_compute in *. destruct (lc_setup Rops rc None k) as [s'|] eqn:E; [|discriminate]. cbn [bind] in H.
    assert (s' = s) as ->. { destruct (lc_neighbors Rops s' (k_pos k) (k_other k)); [|discriminate]. cbn [bind] in H. congruence. }
    split; [reflexivity|]. intros st [-> | ->]; [rewrite E|]; exact H. }
  destruct (distinct_list rc side (Some per) p0 Hrc Hd Hp Hb Hper Hf0 p1 true Hf1) as [s [ns [E [Ln [Hlt H1]]]]].
  destruct (Hst _ _ _ E) as [Hs1 Hs2].
  destruct (gr_neighbors_c_spec p0 p1 ns (repeat fmax (length side)) dr n Hdr) as [h [Eh [Lh Ch]]]; [exact Ln| |].
  { intros i j Hi' Hj. specialize (Hlt i j Hi' Hj). split; [exact Hlt|].
    rewrite Hfd by (apply nth_In; assumption). eapply Rle_lt_trans; [|exact Hlong].
    apply interior_euclid; auto; try (apply Hi, nth_In; assumption).
    - apply folded_inside, Hf0, nth_In, Hi'.
    - apply Hf1, nth_In, Hlt. }
  exists s, ns, h. split; [exact Hs1|]. split; [exact Hs2|]. split.
  { destruct ns; [destruct p0; [congruence|discriminate]|discriminate]. }
  split; [exact Eh|]. intros k Hk Hkr. rewrite Ch by exact Hk. rewrite (cnt_lists _ ns (length p0) (length p1)) by exact Hlt.
  assert (count_prod (fun a b => slot dr k (euclid a b)) p0 p1
      = sumf (fun p => b2n (slot dr k (euclid (nth (fst p) p0 []) (nth (snd p) p1 [])))) (list_prod (seq 0 (length p0)) (seq 0 (length p1)))) as ->.
  { rewrite <- (nth_seq_all _ p0 []) at 1. rewrite <- (nth_seq_all _ p1 []) at 1. unfold count_prod.
    rewrite list_prod_map. change (length (filter ?P ?l)) with (cnt P l). rewrite cnt_map, cnt_sumf. reflexivity. }
  apply sumf_ext. intros [i j] Hin. apply in_prod_iff in Hin. rewrite !in_seq in Hin. cbn [fst snd].
  change (num Rops) with R in *. rewrite Hfd by (apply nth_In; lia).
  destruct (slot dr k (euclid (nth i p0 []) (nth j p1 []))) eqn:Sl; cbn [b2n]; [|lia].
  apply slot_true in Sl. destruct (H1 i j ltac:(lia) ltac:(lia)) as [_ Hone]. rewrite Hone; [reflexivity|].
  exists (repeat 0%Z (length side)). split; [apply repeat_length|]. split.
  { intros q _. clear. generalize (length side) as m. induction q as [|q IH]; intros [|m]; cbn; auto. }
  assert (shifted (nth j p1 []) (repeat 0%Z (length side)) side = nth j p1 []) as ->; [|lra].
  destruct (folded_inside _ _ (Hf1 (nth j p1 []) (nth_In _ _ (proj2 (proj2 Hin))))) as [_ Ly]. clear - Ly.
  revert Ly. generalize (nth j p1 []) as y. induction side as [|l side IH]; intros [|a y] Ly; try discriminate; [reflexivity|].
  cbn [length repeat shifted]. rewrite IH by (injection Ly; auto). f_equal. lra.
Qed.
