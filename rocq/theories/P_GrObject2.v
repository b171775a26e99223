(** Radial distribution functions as objects: default grids, crops, cells. *)
From Coq Require Import Ascii String List ZArith Bool Arith Lia Reals Lra Sorting.Sorted.
From Verif Require Import PyBase PyBaseFacts Num NumFacts Spec_Stats M_Helpers M_Correlation M_Dynamics M_Realspace M_LinkedCells
  M_GrObject Spec_Correlation Spec_Dynamics Spec_Pairs Spec_LinkedCells Spec_GrObject
  P_Helpers P_Dynamics P_Overlap P_Pairs P_Image P_Count P_Shell P_Gr P_Gr2 P_Gr3 P_GrFast P_GrFast2 P_LinkedCells P_LinkedCells2 P_LinkedCells3
  P_LinkedCells4 P_KGrid2 P_GrObject.
Import ListNotations.
Local Open Scope R_scope.

Lemma side_min_R : forall (l : list R), l <> [] -> exists m, side_min Rops l = Ok m /\ smallest m l.
Proof.
  intros [|x r] H; [congruence|]. exists (list_best Rops (nlt Rops) x r). split; [reflexivity|]. apply list_best_R.
Qed.

Lemma side_max_R : forall (l : list R), l <> [] -> exists m, side_max Rops l = Ok m /\ largest m l.
Proof.
  intros [|x r] H; [congruence|]. exists (list_best Rops (fun a b => Rltb b a) x r). split; [reflexivity|].
  destruct (list_best_spec (fun a b => b < a) (fun a b => Rltb b a)) with (l := r) (b := x) as [I M].
  - intros a b. destruct (Rltb_spec b a); split; intros; try assumption; try reflexivity; try discriminate; contradiction.
  - intros; lra.
  - intros; lra.
  - intros a b. destruct (Rtotal_order a b) as [?|[?|?]]; auto.
  - split; [exact I|]. intros l Hl. specialize (M l Hl). change (num Rops) with R in *. lra.
Qed.

Lemma smallest_unique : forall a b l, smallest a l -> smallest b l -> a = b.
Proof. intros a b l [Ia Ma] [Ib Mb]. specialize (Ma b Ib). specialize (Mb a Ia). lra. Qed.
Lemma largest_unique : forall a b l, largest a l -> largest b l -> a = b.
Proof. intros a b l [Ia Ma] [Ib Mb]. specialize (Ma b Ib). specialize (Mb a Ia). lra. Qed.

Lemma rmax_given_R : forall p : gparams Rops, rmax_given Rops p = Rltb 0 (g_rmax p).
Proof. reflexivity. Qed.

Lemma gr_crop_R : forall (p : gparams Rops) (f : frameR) r, (f_cell f <> None \/ 0 < (g_rmax p : R)) -> limit (g_rmax p) f r ->
  gr_crop Rops p (f_cell f) = Ok r.
Proof.
  intros p f r Hc [H1 H2]. unfold gr_crop. rewrite rmax_given_R. destruct (Rltb_spec 0 (g_rmax p)) as [H|H].
  - rewrite (H1 H). reflexivity.
  - destruct H2 as [L [HL ->]]; [lra|]. destruct Hc as [Hc|Hc]; [|contradiction]. unfold side_of in HL.
    destruct (f_cell f) as [c|]; [|congruence]. cbn [need_cell bind]. change (num Rops) with R in *.
    destruct (side_min_R (c_side c)) as [m [Em Hm]].
    { intros E. rewrite E in HL. destruct HL as [[] _]. }
    rewrite Em. cbn [bind]. rewrite (smallest_unique _ _ _ Hm HL). reflexivity.
Qed.

Lemma limit_exists : forall ndims rmax f, (1 <= ndims)%nat -> has_cell ndims f -> exists r, limit rmax f r /\ 0 < r.
Proof.
  intros ndims rmax f Hn [c [Ec [Hl [Hp _]]]]. destruct (Rlt_dec 0 rmax) as [H|H].
  - exists rmax. split; [|exact H]. split; [reflexivity|intros; lra].
  - unfold limit, side_of. rewrite Ec. change (num Rops) with R in *.
    destruct (side_min_R (c_side c)) as [m [_ Hm]]; [destruct (c_side c); [cbn in Hl; lia|discriminate]|].
    exists (m / 2). split; [split; [intros; contradiction|intros _; exists m; split; [exact Hm|reflexivity]]|].
    assert (0 < m) by (apply Hp, Hm). lra.
Qed.

Lemma getZ_last : forall X (l : list X), l <> [] -> exists x, getZ l (-1) = Ok x.
Proof.
  intros X l H. unfold getZ. cbn [Z.ltb Z.compare].
  assert (1 <= length l)%nat by (destruct l; [congruence|cbn; lia]).
  destruct (Z.ltb_spec (-1 + Z.of_nat (length l)) 0); [lia|].
  destruct l as [|x l']; [congruence|]. eexists. apply (get_Ok _ (x :: l') _ x). cbn [length] in *. lia.
Qed.

Lemma ugrid_len : forall dr n, length (ugrid dr n) = n.
Proof. intros. unfold ugrid. rewrite map_length, seq_length. reflexivity. Qed.

Lemma setup_default : forall (p : gparams Rops) ndims f L, g_grid p = None -> (1 <= ndims)%nat -> has_cell ndims f ->
  0 < (g_dr p : R) -> largest L (side_of f) -> 3 / 2 * g_dr p <= L * sqrt (INR ndims) ->
  exists n, (2 <= n)%nat /\ gr_setup_grid Rops p (sqrt (INR ndims)) (f_cell f) = Ok (ugrid (g_dr p) n) /\
    L * sqrt (INR ndims) - g_dr p < g_dr p / 2 + INR (n - 1) * g_dr p <= L * sqrt (INR ndims).
Proof.
  intros p ndims f L Hg Hn [c [Ec [Hl [Hp _]]]] Hdr HL H3. unfold gr_setup_grid. rewrite Hg, Ec. unfold side_of in HL. rewrite Ec in HL.
  change (num Rops) with R in *.
  destruct (side_max_R (c_side c)) as [m [Em Hm]]; [destruct (c_side c); [cbn in Hl; lia|discriminate]|].
  rewrite Em. cbn [bind]. rewrite (largest_unique _ _ _ Hm HL).
  destruct (gr_grid_uniform (g_dr p) L (sqrt (INR ndims)) Hdr H3) as [n [H2 [E B]]]. exists n. split; [exact H2|].
  split; [|exact B]. rewrite E. cbn [bind].
  destruct (getZ_last R (ugrid (g_dr p) n)) as [x Ex]; [intros C; pose proof (ugrid_len (g_dr p) n) as G; rewrite C in G; cbn in G; lia|].
  match goal with |- bind ?u _ = _ => replace u with (Ok x) by (symmetry; exact Ex) end. reflexivity.
Qed.

(** The reported points. *)
Lemma points_prefix : forall dr N r, 0 < dr -> 0 < r -> r < dr * INR N + dr / 2 ->
  exists m, (m <= N)%nat /\ filter (fun k => Rleb (dr * INR k + dr / 2) r) (seq 0 N) = seq 0 m /\
    (INR m - 1 / 2) * dr <= r < (INR m + 1 / 2) * dr.
Proof.
  intros dr N r Hdr Hr HN.
  destruct (filter_seq_prefix (fun k => Rleb (dr * INR k + dr / 2) r) N 0) as [m [Hm E]].
  { intros i j Hij Hj. destruct (Rleb_spec (dr * INR j + dr / 2) r) as [H|]; [|discriminate]. intros _.
    destruct (Rleb_spec (dr * INR i + dr / 2) r) as [|H']; [reflexivity|]. exfalso. apply H'.
    apply lt_INR in Hij. assert (dr * INR i <= dr * INR j) by (apply Rmult_le_compat_l; lra). lra. }
  exists m. split; [exact Hm|]. split; [exact E|]. split.
  - destruct m as [|m]; [cbn [INR]; lra|].
    assert (In m (seq 0 (S m))) as H by (apply in_seq; lia). rewrite <- E in H. apply filter_In in H. destruct H as [_ H].
    destruct (Rleb_spec (dr * INR m + dr / 2) r); [|discriminate]. rewrite S_INR. lra.
  - destruct (Nat.eq_dec m N) as [->|Hne]; [lra|].
    assert (~ In m (seq 0 m)) as H by (rewrite in_seq; lia). rewrite <- E in H. rewrite filter_In in H.
    destruct (Rleb_spec (dr * INR m + dr / 2) r) as [|G]; [|lra]. exfalso. apply H. split; [apply in_seq; lia|reflexivity].
Qed.

Lemma points_all : forall dr N r (v : nat -> R), 0 < dr -> 0 < r -> r < dr * INR N + dr / 2 ->
  let out := map (fun k => (dr * INR k + dr / 2, v k)) (filter (fun k => Rleb (dr * INR k + dr / 2) r) (seq 0 N)) in
  all_points dr r (map fst out) /\ (length out <= N)%nat /\ forall k, (k < length out)%nat -> nth k out (0, 0) = ((INR k + 1 / 2) * dr, v k).
Proof.
  intros dr N r v Hdr Hr HN. destruct (points_prefix dr N r Hdr Hr HN) as [m [Hm [E B]]]. cbn zeta. rewrite E. split; [|split].
  - exists m. split; [|exact B]. rewrite map_map. apply map_ext. intros k. cbn [fst]. field.
  - rewrite map_length, seq_length. exact Hm.
  - intros k Hk. rewrite map_length, seq_length in Hk. rewrite nth_map_seq by exact Hk. f_equal. field.
Qed.

(** Whether linked cells are used: only with sides of at least four times rmax. *)
Lemma use_linked_R : forall (p : gparams Rops) ndims (f : frameR) (c : cellR), (1 <= ndims)%nat -> f_cell f = Some c -> length (c_side c) = ndims ->
  positive (c_side c) ->
  exists b, use_linked Rops p ndims f = Ok b /\ (b = true -> 0 < (g_rmax p : R) /\ big (g_rmax p) (c_side c)).
Proof.
  intros p ndims f c Hn Ec Hl Hp. unfold use_linked. rewrite Ec, rmax_given_R. destruct (Rltb_spec 0 (g_rmax p)) as [H|H].
  2:{ exists false. split; [reflexivity|discriminate]. }
  change (num Rops) with R in *.
  destruct (side_min_R (map (fun L : R => ndiv Rops L (g_rmax p)) (c_side c))) as [m [Em [Im Mm]]].
  { destruct (c_side c); [cbn in Hl; lia|discriminate]. }
  match goal with |- context [bind ?u _] => replace u with (Ok m) by (symmetry; exact Em) end. cbn [bind pyint ntrunc Rops].
  eexists. split; [reflexivity|]. intros Hb. apply andb_true_iff in Hb. destruct Hb as [Hb _]. apply Z.ltb_lt in Hb.
  split; [exact H|]. intros L HL.
  assert (m <= L / g_rmax p) as HmL by (apply Mm, in_map_iff; exists L; split; [reflexivity|exact HL]).
  assert (0 <= m) as Hm0.
  { apply in_map_iff in Im. destruct Im as [L' [<- HL']]. specialize (Hp L' HL'). cbn [ndiv Rops]. apply Rlt_le, Rdiv_lt_0_compat; assumption. }
  destruct (Rtrunc_bounds_nonneg m Hm0) as [B1 _]. change (num Rops) with R in *.
  assert (IZR 4 <= IZR (Rtrunc m)) as H4 by (apply IZR_le; lia).
  destruct (Rtrunc_bounds_nonneg (L / g_rmax p)) as [_ B2]; [lra|].
  assert (IZR 3 < IZR (Rtrunc (L / g_rmax p)) + 1) as Q by lra. rewrite <- plus_IZR in Q. apply lt_IZR in Q. lia.
Qed.

(** Sides handed to the kernels. *)
Lemma filter_true_all : forall l : list bool, (forall b, In b l -> b = true) -> filter (fun b => b) l = l.
Proof. intros l H. induction l as [|b l IH]; [reflexivity|]. cbn. rewrite (H b (or_introl eq_refl)). f_equal. apply IH. intros; apply H; right; assumption. Qed.
Lemma filter_false_all : forall l : list bool, (forall b, In b l -> b = false) -> filter (fun b => b) l = [].
Proof. intros l H. induction l as [|b l IH]; [reflexivity|]. cbn. rewrite (H b (or_introl eq_refl)). apply IH. intros; apply H; right; assumption. Qed.

Lemma kernel_side_periodic : forall big ndims (c : cellR), (1 <= ndims)%nat -> length (c_side c) = ndims -> length (c_periodic c) = ndims ->
  (forall b, In b (c_periodic c) -> b = true) ->
  n_periodic c = ndims /\ kernel_side Rops big ndims (Some c) = Ok (c_side c).
Proof.
  intros big ndims c Hn Hl Hlp Hb. assert (n_periodic c = ndims) as E by (unfold n_periodic; rewrite filter_true_all; assumption).
  split; [exact E|]. unfold kernel_side. rewrite E, Nat.eqb_refl, orb_true_r. change (num Rops) with R in *.
  rewrite (mapM_pure _ _ _ (fun i => nth i (c_side c) 0)).
  - f_equal. apply nth_seq_all.
  - intros i Hi. apply in_seq in Hi. change (num Rops) with R in *. rewrite (get_Ok R (c_side c) i 0) by lia. cbn [bind].
    rewrite (get_Ok _ (c_periodic c) i true) by lia. cbn [bind]. rewrite (Hb (nth i (c_periodic c) true)) by (apply nth_In; lia). reflexivity.
Qed.

Lemma kernel_side_open : forall big ndims (c : cellR), length (c_side c) = ndims -> length (c_periodic c) = ndims ->
  (forall b, In b (c_periodic c) -> b = false) ->
  n_periodic c = 0%nat /\ kernel_side Rops big ndims (Some c) = Ok (repeat big ndims).
Proof.
  intros big ndims c Hl Hlp Hb. assert (n_periodic c = 0%nat) as E by (unfold n_periodic; rewrite filter_false_all; auto).
  split; [exact E|]. unfold kernel_side. rewrite E. cbn [Nat.eqb orb]. change (num Rops) with R in *.
  rewrite (mapM_pure _ _ _ (fun _ => big)).
  - f_equal. rewrite Hl. clear. induction ndims as [|n IH]; [reflexivity|]. cbn [seq map repeat]. f_equal. rewrite <- seq_shift, map_map. exact IH.
  - intros i Hi. apply in_seq in Hi. change (num Rops) with R in *. rewrite (get_Ok R (c_side c) i 0) by lia. cbn [bind].
    rewrite (get_Ok _ (c_periodic c) i false) by lia. cbn [bind]. rewrite (Hb (nth i (c_periodic c) false)) by (apply nth_In; lia). reflexivity.
Qed.

(** Volume of a cell. *)
Lemma fold_left_mul : forall (l : list R) a, fold_left Rmult l a = a * fold_right Rmult 1 l.
Proof. induction l as [|x l IH]; intros a; cbn; [ring|]. rewrite IH. ring. Qed.
Lemma cell_volume_R : forall (f : frameR) c, f_cell f = Some c -> cell_volume Rops c = volume_of f.
Proof. intros f c E. unfold cell_volume, volume_of, side_of. rewrite E. cbn [nmul n1 Rops]. change (num Rops) with R. rewrite fold_left_mul. ring. Qed.
Lemma volume_pos : forall ndims f, has_cell ndims f -> 0 < volume_of f.
Proof.
  intros ndims f [c [Ec [_ [Hp _]]]]. unfold volume_of, side_of. rewrite Ec. change (num Rops) with R in *.
  induction (c_side c) as [|L l IH]; [cbn; lra|]. cbn. apply Rmult_lt_0_compat; [apply Hp; left; reflexivity|].
  apply IH. intros x Hx. apply Hp. right. exact Hx.
Qed.

(** The trajectory as groups of positions and cells. *)
Lemma frame_at_In : forall frames i, (i < length frames)%nat -> In (frame_at frames i) frames.
Proof. intros. apply nth_In. assumption. Qed.

Lemma last_used_In : forall skip frames, (1 <= skip)%nat -> frames <> [] -> In (last_used skip frames) frames.
Proof.
  intros skip frames Hs Hne. apply frame_at_In, (origins_lt skip), last_In, origins_nonempty; [exact Hs|]. destruct frames; [congruence|cbn; lia].
Qed.

Lemma group0_nth : forall frames i, nth i (group0 frames) [] = f_0 (frame_at frames i).
Proof. intros. unfold group0. change (@nil (list R)) with (f_0 no_frame). apply map_nth. Qed.
Lemma group1_nth : forall frames i, nth i (group1 frames) [] = f_1 (frame_at frames i).
Proof. intros. unfold group1. change (@nil (list R)) with (f_1 no_frame). apply map_nth. Qed.
Lemma sides_nth : forall frames i, nth i (sides_of frames) [] = side_of (frame_at frames i).
Proof. intros. unfold sides_of. change (@nil R) with (side_of no_frame). apply map_nth. Qed.

Lemma gr_frames_input : forall ndims same skip frames, gr_frames ndims same skip frames -> (forall f, In f frames -> has_cell ndims f) ->
  gr_input same skip (group0 frames) (group1 frames) (sides_of frames).
Proof.
  intros ndims same skip frames [Hd Hs Hne Hsame Hp] Hc.
  assert (forall f, In f frames -> length (side_of f) = ndims /\ positive (side_of f)) as Hside.
  { intros f Hf. destruct (Hc f Hf) as [c [Ec [Hl [Hpos _]]]]. unfold side_of. rewrite Ec. split; assumption. }
  constructor.
  - exact Hs.
  - unfold group0, group1. rewrite !map_length. reflexivity.
  - unfold group0, sides_of. rewrite !map_length. reflexivity.
  - intros E. unfold group0, group1. apply map_ext_in. auto.
  - intros s Hin. apply in_map_iff in Hin. destruct Hin as [f [<- Hf]]. apply Hside, Hf.
  - intros i Hi. unfold group0 in Hi. rewrite map_length in Hi. pose proof (frame_at_In frames i Hi) as Hin.
    rewrite group0_nth, group1_nth, sides_nth. destruct (Hp _ Hin) as [P0 [P1 P2]]. destruct (Hside _ Hin) as [Hl _].
    split; (split; [assumption|]); intros r Hr; rewrite Hl; apply P2; auto.
Qed.
