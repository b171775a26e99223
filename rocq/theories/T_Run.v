(** Theorems about whole calculations, from the stored coordinates to the output file:
    C107, C108. *)
From Coq Require Import Ascii String List ZArith Bool Arith Reals Lia Lra Sorting.Sorted Floats.SpecFloat.
From Verif Require Import PyBase PyBaseFacts Num Spec_Stats NumFacts M_Text P_Text M_Output M_Path M_Header M_Memory M_Run T_Output T_Path T_Header
  F64Round F64Ops F64Facts M_Helpers M_Correlation M_Dynamics Spec_Correlation Spec_Time P_Time P_Skip Spec_Dynamics P_Dynamics
  Spec_Doubles P_F64Time P_F64Mean P_F64Overlap P_F64Msd P_F64Order P_Uniform T_Dynamics T_Doubles T_Doubles2.
Import ListNotations.
Local Open Scope string_scope.
Local Open Scope R_scope.

(** ** C107 *)
(** The documented name of the output file. *)
Definition output_name (trajectory symbol tag : string) : string :=
  (trajectory ++ ".pp." ++ symbol ++ (if String.eqb tag "" then "" else "." ++ tag))%string.

(** A calculation for a stored trajectory, with the default output path and no comments of
    the user; ordinary names, and results of the analysis that print on one line. *)
Definition ordinary (f : string) (c : calc) : Prop :=
  c_filename c = Some f /\ c_output c = None /\ c_comments c = None /\ neat_names (c_names c) /\
  one_line (c_long c) /\ one_line (c_short c) /\ one_line (c_description c) /\ one_line (c_date c) /\ one_line (c_version c) /\ one_line f /\
  (forall r an, c_analyze c r = Ok an -> kv_one_line an).

(** Reading file [p] gives the columns [g] and [v], each number up to the sixth digit. *)
Definition holds (s : fs) (p : string) (g v : list f64) : Prop :=
  exists T V, read s (Some p) = Ok (LColumns T V) /\ Forall2 agrees g T /\ Forall2 agrees v V.

Lemma ordinary_path : forall f c, ordinary f c -> c_path default_template c = Some (output_name f (c_symbol c) (c_tag c)).
Proof.
  intros f c [F [O [_ [N _]]]]. unfold c_path. rewrite F, O. cbn [initial_path]. rewrite (neat_path _ N).
  unfold c_names. cbn [n_trajectory n_symbol n_tag]. rewrite F. reflexivity.
Qed.

Lemma none_empty : forall n o an d, file_text n o None an d = file_text n o (Some (join (map (fun c => c ++ nl) [])))%string an d.
Proof. reflexivity. Qed.

Theorem C107_file : forall s now f c computed g v s', ordinary f c ->
  do_calc false default_template now s c = (computed, Ok (inr ((g, v), s'))) -> (2 <= length g)%nat ->
  let p := output_name f (c_symbol c) (c_tag c) in
  computed = true /\ c_compute c = Ok (g, v) /\ holds s' p g v /\
  (exists lines, s' p = Some (mkFile now lines)) /\ (forall q, q <> p -> s' q = s q).
Proof.
  intros s now f c computed g v s' Or H Hg p. pose proof (ordinary_path f c Or) as Ep. fold p in Ep.
  unfold do_calc, do_for in H. rewrite Ep in H. injection H as <- H.
  apply bind_Ok_inv in H. destruct H as [r [Ec H]]. apply bind_Ok_inv in H. destruct H as [s1 [H E]]. apply Ok_inj in E. injection E as -> ->.
  apply bind_Ok_inv in H. destruct H as [an [Ea H]].
  destruct Or as [F [O [Co [N [L1 [L2 [L3 [L4 [L5 [L6 L7]]]]]]]]]]. rewrite Co in H. cbn [fst snd] in H.
  split; [reflexivity|]. split; [exact Ec|].
  assert (Names : one_line_names (c_names c) (mkOrigin (c_date c) (c_version c) (c_filename c)) an).
  { repeat split; cbn [c_names n_long n_short n_description o_date o_version o_parents]; try assumption.
    - intros f' E. rewrite F in E. injection E as <-. exact L6.
    - apply (L7 _ _ Ea k v0). exact H0.
    - apply (L7 _ _ Ea k v0). exact H0. }
  split.
  - apply (C97_read_partial s now p (c_names c) (mkOrigin (c_date c) (c_version c) (c_filename c)) [] an g v s' Names); [intros ? []|exact Hg|].
    unfold write_text in *. rewrite none_empty in H. exact H.
  - unfold write_text in H. apply bind_Ok_inv in H. destruct H as [t [_ H]]. apply Ok_inj in H. subst s'. split.
    + eexists. apply fs_set_same.
    + intros q Q. unfold fs_set. destruct (String.eqb_spec q p); [congruence|reflexivity].
Qed.
Print Assumptions C107_file.

Lemma agrees_near : forall x n, ok x -> agrees x n -> Rabs (nval n - fval x) <= 5 / 1000000 * Rabs (fval x).
Proof.
  intros x n K A. destruct x; destruct n; cbn [agrees] in A; try contradiction; try (destruct K as [K _]; discriminate K).
  - destruct A as [_ ->]. unfold nval. cbn [fval]. rewrite Rmult_0_l, Rmult_0_r, Rminus_0_r, Rabs_R0. lra.
  - destruct K; cbn in *; try discriminate; tauto.
  - destruct K; cbn in *; try discriminate; tauto.
  - apply A.
Qed.

Lemma near_trans : forall a b c e d, 0 <= e -> 0 <= d -> Rabs (a - b) <= e * Rabs b -> Rabs (b - c) <= d * Rabs c ->
  Rabs (a - c) <= (e + d + e * d) * Rabs c.
Proof.
  intros a b c e d He Hd H1 H2. replace (a - c) with ((a - b) + (b - c)) by ring. pose proof (Rabs_triang (a - b) (b - c)) as T.
  assert (Rabs b <= Rabs c + d * Rabs c). { replace b with (c + (b - c)) by ring. pose proof (Rabs_triang c (b - c)). lra. }
  pose proof (Rmult_le_compat_l e _ _ He H). lra.
Qed.

Lemma near_nonneg : forall a w e, 0 < e -> Rabs (a - w) <= e * w -> 0 <= w.
Proof.
  intros a w e He H. destruct (Rle_or_lt 0 w) as [?|W]; [assumption|exfalso]. pose proof (Rabs_pos (a - w)) as A.
  pose proof (Rmult_lt_compat_l _ _ _ He W). lra.
Qed.
Lemma within_trans : forall a b w e, 0 < e -> e <= / 2000000 -> Rabs (a - b) <= 5 / 1000000 * Rabs b -> Rabs (b - w) <= e * w ->
  Rabs (a - w) <= 6 / 1000000 * Rabs w.
Proof.
  intros a b w e He Se H1 H2. pose proof (near_nonneg b w e He H2) as W. rewrite <- (Rabs_right w) in H2 at 2 by lra.
  pose proof (near_trans _ _ _ (5 / 1000000) e ltac:(lra) (Rlt_le _ _ He) H1 H2) as Q. apply Rle_trans with (1 := Q). apply Rmult_le_compat_r; [apply Rabs_pos|].
  assert (5 / 1000000 * e <= 5 / 1000000 * / 2000000) by (apply Rmult_le_compat_l; lra). lra.
Qed.

Lemma Forall2_nth : forall X Y (P : X -> Y -> Prop) l m dx dy, Forall2 P l m ->
  length l = length m /\ forall k, (k < length l)%nat -> P (nth k l dx) (nth k m dy).
Proof.
  intros X Y P l m dx dy H. induction H as [|x y l m A H [L IH]]; [split; [reflexivity|intros k Hk; cbn in Hk; lia]|].
  split; [cbn; lia|]. intros [|k] Hk; [exact A|]. apply IH. cbn in Hk. lia.
Qed.

Lemma admitted_in : forall dg skip n p, In p (admitted dg skip n) -> (fst p < n)%nat /\ (snd p <= fst p)%nat.
Proof.
  intros dg skip n p H. apply in_flat_map in H. destruct H as [q [_ H]]. apply in_map_iff in H. destruct H as [i [<- Hi]].
  apply filter_In in Hi. destruct Hi as [Hi _]. apply in_seq in Hi. cbn [fst snd]. lia.
Qed.

(** Squared displacement of the particles between two frames, averaged over the particles:
    exact arithmetic on the stored numbers. *)
Definition displacement (x y : frame F64ops) : R := mean_over (fun z => z) (values x) (values y).

(** Particles, coordinates and pairs of frames together at most 2^28. *)
Definition small_enough (N d : nat) (tr : traj F64ops) : Prop :=
  (Z.of_nat (N + N * d + Nat.max 1 (t_bs tr) * length (t_steps tr) * length (t_steps tr)) <= 2 ^ 28)%Z.

(** Six digits. *)
Definition within (a b : R) : Prop := Rabs (a - b) <= 6 / 1000000 * Rabs b.

Theorem C107_msd :
  forall s now f tag description date version analyze (tr : traj F64ops) grid rmax ts n no (x : list (frame F64ops)) N d computed g v s',
  let c := msd_calc f tag description date version None analyze tr grid rmax ts n no x in
  ordinary f c -> length (t_steps tr) = length x -> frames_shape N d x -> (1 <= N)%nat -> moderate_frames x -> resolved x ->
  moderate_steps (t_steps tr) (t_dt tr) -> small_enough N d tr ->
  do_calc false default_template now s c = (computed, Ok (inr ((g, v), s'))) -> (2 <= length g)%nat ->
  exists T V dts dg skip tg,
    read s' (Some (output_name f "msd" tag)) = Ok (LColumns T V) /\ length T = length dts /\ length V = length dts /\ StronglySorted Z.lt dts /\
    adjust_skip F64ops (length (t_steps tr)) (t_npart tr) (t_bs tr) n = Ok skip /\ msd_grid F64ops tr grid rmax ts x = Ok tg /\
    setup_t_grid F64ops (t_steps tr) (t_bs tr) (t_dt tr) tg (not_str_1 F64ops n && negb no) = Ok dg /\
    (forall dt, In dt dts <-> exists p, In p (admitted dg skip (length x)) /\ pair_dt (t_steps tr) p = dt) /\
    forall k, (k < length dts)%nat ->
      let dt := nth k dts 0%Z in
      within (nval (nth k T NNan)) (IZR dt * fval (t_dt tr)) /\
      within (nval (nth k V NNan))
        (rmean (map (fun p => displacement (nth (fst p) x []) (nth (snd p) x [])) (pairs_at (t_steps tr) dt (admitted dg skip (length x))))).
Proof.
  intros s now f tag description date version analyze tr grid rmax ts n no x N d computed g v s' c Or Hl Sh N1 Mod Res Ms Sm H Hg.
  unfold small_enough in Sm.
  assert (Fe : feasible N d tr) by (split; [exact N1|]; repeat split; lia).
  destruct (C107_file s now f c computed g v s' Or H Hg) as [_ [Ec [[T [V [Rd [FT FV]]]] _]]]. cbn [c_compute msd_calc c c_symbol c_tag] in Ec, Rd.
  destruct (C100_msd_accuracy tr grid rmax ts n no x N d g v Hl Sh Fe Mod Res Ec) as [dg [skip [dts [tg [E1 [E2 [E3 [Eg [Sd [Lv [Pd Acc]]]]]]]]]]].
  destruct (C100_msd_sign tr grid rmax ts n no x N d g v Hl Sh Fe Mod Ec) as [Sg _].
  destruct (Forall2_nth _ _ agrees g T (S754_zero false) NNan FT) as [LT NT]. destruct (Forall2_nth _ _ agrees v V (S754_zero false) NNan FV) as [LV NV].
  assert (Lg : length g = length dts) by (rewrite Eg; apply map_length).
  exists T, V, dts, dg, skip, tg. split; [exact Rd|]. split; [exact (eq_trans (eq_sym LT) Lg)|]. split; [exact (eq_trans (eq_sym LV) Lv)|]. split; [exact Sd|].
  split; [exact E1|]. split; [exact E2|]. split; [exact E3|]. split; [exact Pd|].
  intros k Hk dt.
  assert (Kg : (k < @length f64 g)%nat) by (rewrite Lg; exact Hk). assert (Kv1 : (k < @length f64 v)%nat) by (change (@length f64 v) with (@length (num F64ops) v); rewrite Lv; exact Hk).
  split.
  - assert (In dt dts) as Hdt by (apply nth_In; exact Hk). apply Pd in Hdt. destruct Hdt as [p [Hp Ep]]. apply admitted_in in Hp. rewrite <- Hl in Hp.
    destruct Ms as [Kd [_ Ms]]. destruct (Ms (fst p) (snd p)) as [B1 B2]; try lia. cbv zeta in B1, B2. unfold pair_dt in Ep. rewrite Ep in B1, B2.
    destruct (time_near (t_dt tr) dt Kd B1 B2) as [Kt Et]. cbv zeta in Kt, Et.
    assert (Gk : nth k g (S754_zero false) = nmul F64ops (nofZ F64ops dt) (t_dt tr)).
    { rewrite Eg. rewrite (nth_indep _ _ (nmul F64ops (nofZ F64ops 0) (t_dt tr))) by (rewrite map_length; exact Hk).
      rewrite (map_nth (fun ti => nmul F64ops (nofZ F64ops ti) (t_dt tr))). reflexivity. }
    specialize (NT k Kg). rewrite Gk in NT. apply agrees_near in NT; [|exact Kt].
    pose proof (near_trans _ _ _ (5 / 1000000) u ltac:(lra) (Rlt_le _ _ u_pos) NT Et) as Q. unfold within.
    assert (u <= / 1000000000) as U by (apply Rle_trans with (p2 (-30)); [apply p2_le; lia|unfold p2; simpl; lra]). pose proof u_pos.
    apply Rle_trans with (1 := Q). apply Rmult_le_compat_r; [apply Rabs_pos|]. lra.
  - specialize (Acc k Kv1). cbv zeta in Acc. fold dt in Acc. destruct Acc as [_ Acc].
    set (qs := pairs_at (t_steps tr) dt (admitted dg skip (length x))) in *.
    change (rmean (map (fun p => mean_over (fun z => z) (values (nth (fst p) x [])) (values (nth (snd p) x []))) qs))
      with (rmean (map (fun p => displacement (nth (fst p) x []) (nth (snd p) x [])) qs)) in Acc.
    set (w := rmean _) in *. clearbody w.
    assert (Pq : (length qs <= Nat.max 1 (t_bs tr) * length (t_steps tr) * length (t_steps tr))%nat).
    { unfold qs. pose proof (pairs_le F64ops _ _ _ _ _ _ skip dt (length x) E3) as B. rewrite <- Hl in *. lia. }
    assert (Pv : In (nth k v (S754_zero false)) v) by (apply nth_In; exact Kv1). destruct (Sg _ Pv) as [Kv Pv0].
    assert (Sz : (INR (N * d) + INR (length qs) + 5) * p2 (-52) <= / 2000000).
    { apply Rle_trans with (p2 29 * p2 (-52)).
      - apply Rmult_le_compat_r; [left; apply p2_pos|]. rewrite <- plus_INR. replace 5 with (INR 5) by (simpl; lra). rewrite <- plus_INR, INR_IZR_INZ, p2_Z by lia.
        apply IZR_le. lia.
      - rewrite <- p2_add. change (29 + -52)%Z with (-23)%Z. unfold p2. simpl. lra. }
    assert (He : 0 < (INR (N * d) + INR (length qs) + 5) * p2 (-52)). { apply Rmult_lt_0_compat; [|apply p2_pos]. pose proof (pos_INR (N * d)). pose proof (pos_INR (length qs)). lra. }
    specialize (NV k Kv1). apply agrees_near in NV; [|exact Kv]. exact (within_trans _ _ w _ He Sz NV Acc).
Qed.
Print Assumptions C107_msd.

Lemma skip_all : forall nsteps npart, (1 <= nsteps)%nat -> adjust_skip F64ops nsteps npart 1 (NoInt (-1)) = Ok 1%nat.
Proof.
  intros nsteps npart H. unfold adjust_skip, skip_choice, no_float. cbn [bind].
  replace (nlt F64ops _ _) with true by (vm_compute; reflexivity). cbn [orb bind]. cbn -[Z.min Z.max]. f_equal. lia.
Qed.

(** Frames stored every [c] steps, all time origins: the textbook definition. *)
Theorem C107_msd_even :
  forall s now f tag description date version analyze (tr : traj F64ops) grid rmax ts no (x : list (frame F64ops)) N d e computed g v s',
  let c := msd_calc f tag description date version None analyze tr grid rmax ts (NoInt (-1)) no x in
  ordinary f c -> length (t_steps tr) = length x -> frames_shape N d x -> (1 <= N)%nat -> moderate_frames x -> resolved x ->
  moderate_steps (t_steps tr) (t_dt tr) -> small_enough N d tr -> t_bs tr = 1%nat -> (0 < e)%Z -> every e (t_steps tr) ->
  do_calc false default_template now s c = (computed, Ok (inr ((g, v), s'))) -> (2 <= length g)%nat ->
  exists T V lags,
    read s' (Some (output_name f "msd" tag)) = Ok (LColumns T V) /\ length T = length lags /\ length V = length lags /\ StronglySorted lt lags /\
    forall k, (k < length lags)%nat ->
      let l := nth k lags 0%nat in
      (l < length x)%nat /\
      within (nval (nth k T NNan)) (INR l * IZR e * fval (t_dt tr)) /\
      within (nval (nth k V NNan)) (rmean (map (fun i => displacement (nth (i + l) x []) (nth i x [])) (seq 0 (length x - l)))).
Proof.
  intros s now f tag description date version analyze tr grid rmax ts no x N d e computed g v s' c Or Hl Sh N1 Mod Res Ms Sm Hb He Ev H Hg.
  destruct (C107_msd s now f tag description date version analyze tr grid rmax ts (NoInt (-1)) no x N d computed g v s' Or Hl Sh N1 Mod Res Ms Sm H Hg)
    as [T [V [dts [dg [skip [tg [Rd [LT [LV [Sd [E1 [E2 [E3 [Pd K]]]]]]]]]]]]]].
  assert (U : forall p, In p dg -> usable (t_steps tr) [0%nat] p).
  { destruct (setup_t_grid_correct _ _ _ _ _ _ _ E3) as [_ [_ [_ [U _]]]]. intros p Hp. rewrite Hb, the_offsets_1 in U. apply U. exact Hp. }
  assert (Sdg : StronglySorted Z.lt (map (lag_dt (t_steps tr)) dg)) by (destruct (setup_t_grid_correct _ _ _ _ _ _ _ E3) as [_ [_ [S0 _]]]; exact S0).
  assert (Lpos : (1 <= length (t_steps tr))%nat).
  { destruct (t_steps tr) as [|z zs] eqn:Es; [exfalso|cbn; lia]. destruct dts as [|z dts]; [rewrite <- LT in *|].
    - cbn in LT. destruct T; [|discriminate]. destruct (C107_file s now f c computed g v s' Or H Hg) as [_ [_ [[T' [V' [Rd' [F _]]]] _]]].
      cbn [c msd_calc c_symbol c_tag] in Rd'. rewrite Rd in Rd'. injection Rd' as <- <-. inversion F; subst. cbn in Hg. lia.
    - destruct (proj1 (Pd z) (or_introl eq_refl)) as [p [Hp _]]. apply admitted_in in Hp. rewrite <- Hl in Hp. cbn in Hp. lia. }
  rewrite Hb, skip_all in E1 by exact Lpos. apply Ok_inj in E1. subst skip. rewrite <- Hl in Pd.
  pose proof (every_dts e _ dg dts Ev He U Pd) as D.
  assert (Dk : forall k, (k < length dts)%nat -> let l := Z.to_nat (nth k dts 0%Z / e) in nth k dts 0%Z = (Z.of_nat l * e)%Z /\ In (0%nat, l) dg).
  { intros k Hk l. destruct (proj1 (D (nth k dts 0%Z)) (nth_In _ _ Hk)) as [j [Hj Ej]]. unfold l. rewrite Ej, Z.div_mul, Nat2Z.id by lia. split; [reflexivity|exact Hj]. }
  exists T, V, (map (fun z => Z.to_nat (z / e)) dts). rewrite map_length. split; [exact Rd|]. split; [exact LT|]. split; [exact LV|]. split.
  - assert (M : forall z, In z dts -> exists j, z = (Z.of_nat j * e)%Z) by (intros z Hz; destruct (proj1 (D z) Hz) as [j [_ ->]]; exists j; reflexivity).
    clear - Sd M He. induction Sd as [|z l S IH F]; cbn [map]; constructor; [apply IH; intros; apply M; right; assumption|].
    rewrite Forall_forall in *. intros m Hm. apply in_map_iff in Hm. destruct Hm as [w [<- Hw]]. specialize (F w Hw).
    destruct (M z (or_introl eq_refl)) as [a ->]. destruct (M w (or_intror Hw)) as [b ->]. rewrite !Z.div_mul, !Nat2Z.id by lia. nia.
  - intros k Hk l. assert (El : l = Z.to_nat (nth k dts 0%Z / e)).
    { unfold l. rewrite (nth_indep _ _ (Z.to_nat (0 / e))) by (rewrite map_length; exact Hk). rewrite (map_nth (fun z => Z.to_nat (z / e))). reflexivity. }
    destruct (Dk k Hk) as [Ed Hin]. cbv zeta in Ed, Hin. rewrite <- El in Ed, Hin. destruct (U _ Hin) as [_ Lt]. cbn [fst snd] in Lt. rewrite Hl in Lt.
    split; [lia|]. destruct (K k Hk) as [A B]. cbv zeta in A, B. rewrite Ed in A, B. split.
    + rewrite INR_IZR_INZ. rewrite mult_IZR in A. exact A.
    + rewrite <- Hl in B. rewrite every_pairs in B by (try assumption). unfold apart in B. rewrite map_map in B. cbn [fst snd] in B. rewrite Hl in B. exact B.
Qed.
Print Assumptions C107_msd_even.

(** Several calculations one after the other, with different output files: each file holds
    the results of its own calculation, and no other file changes. *)
Lemma read_same : forall s s' p, s' p = s p -> read s' (Some p) = read s (Some p).
Proof. intros s s' p E. cbn [read]. rewrite E. reflexivity. Qed.

Lemma do_all_keeps : forall l s s', do_all false default_template s l = Ok s' ->
  (forall now c, In (now, c) l -> exists f, ordinary f c) ->
  forall q, (forall now c, In (now, c) l -> c_path default_template c <> Some q) -> s' q = s q.
Proof.
  induction l as [|[now c] l IH]; intros s s' H O q Hq; [apply Ok_inj in H; subst; reflexivity|].
  unfold do_all in H. cbn [foldM] in H. apply bind_Ok_inv in H. destruct H as [s1 [H1 H]]. cbn [fst snd] in H1.
  rewrite (IH s1 s' H); [|intros n1 c1 X; apply (O n1 c1); right; exact X|intros n1 c1 X; apply (Hq n1 c1); right; exact X].
  destruct (O now c (or_introl eq_refl)) as [f Or]. pose proof (ordinary_path f c Or) as Ep.
  pose proof (Hq now c (or_introl eq_refl)) as Np. rewrite Ep in Np.
  unfold files_after, do_calc, do_for in H1. cbn [snd] in H1. rewrite Ep in H1.
  destruct (c_compute c) as [r|]; cbn [bind] in H1; [|discriminate]. destruct (c_analyze c r) as [an|]; cbn [bind] in H1; [|discriminate].
  unfold write_text in H1. destruct (file_text _ _ _ _ _) as [t|]; cbn [bind] in H1; [|discriminate]. apply Ok_inj in H1. subst s1.
  unfold fs_set. destruct (String.eqb_spec q (output_name f (c_symbol c) (c_tag c))) as [->|]; [congruence|reflexivity].
Qed.

Theorem C107_session : forall l s s', do_all false default_template s l = Ok s' ->
  (forall now c, In (now, c) l -> exists f, ordinary f c) -> NoDup (map (fun nc => c_path default_template (snd nc)) l) ->
  (forall now c, In (now, c) l -> exists g v, c_compute c = Ok (g, v) /\
     forall f, ordinary f c -> (2 <= length g)%nat ->
       let p := output_name f (c_symbol c) (c_tag c) in holds s' p g v /\ exists lines, s' p = Some (mkFile now lines)) /\
  (forall q, (forall now c f, In (now, c) l -> ordinary f c -> q <> output_name f (c_symbol c) (c_tag c)) -> s' q = s q).
Proof.
  intros l s s' H O N. split.
  - revert s s' H O N. induction l as [|[now0 c0] l IH]; intros s s' H O N now c Hin; [destruct Hin|].
    assert (H' := H). unfold do_all in H. cbn [foldM] in H. apply bind_Ok_inv in H. destruct H as [s1 [H1 H]]. cbn [fst snd] in H1.
    cbn [map] in N. inversion N as [|? ? Nin N' E]; subst. destruct Hin as [E|Hin].
    + injection E as -> ->. unfold files_after in H1. destruct (do_calc false default_template now s c) as [b r] eqn:Ed. cbn [snd] in H1.
      destruct r as [[ld|[[g v] s2]]|e]; [exfalso| |discriminate].
      * unfold do_calc, do_for in Ed. injection Ed as _ Ed. apply bind_Ok_inv in Ed. destruct Ed as [? [_ Ed]]. apply bind_Ok_inv in Ed. destruct Ed as [? [_ Ed]]. discriminate.
      * apply Ok_inj in H1. subst s2. exists g, v. split.
        { unfold do_calc, do_for in Ed. injection Ed as _ Ed. apply bind_Ok_inv in Ed. destruct Ed as [r0 [Ec Ed]]. apply bind_Ok_inv in Ed. destruct Ed as [? [_ Ed]].
          apply Ok_inj in Ed. injection Ed as -> ->. exact Ec. }
        intros f Or Hg p. destruct (C107_file s now f c b g v s1 Or Ed Hg) as [_ [_ [Ho [[lines El] _]]]]. fold p in Ho, El.
        assert (Same : s' p = s1 p).
        { apply (do_all_keeps l s1 s' H); [intros n1 c1 H1; apply (O n1 c1); right; exact H1|]. intros n1 c1 H1 X. apply Nin. cbn [snd]. rewrite (ordinary_path f c Or).
          fold p. rewrite <- X. apply (in_map (fun nc => c_path default_template (snd nc)) l (n1, c1)). exact H1. }
        split; [|exists lines; rewrite Same; exact El]. destruct Ho as [T [V [Rd FF]]]. exists T, V. rewrite (read_same s1 s' p Same). split; assumption.
    + apply (IH s1 s' H); try assumption. intros n1 c1 H2. apply (O n1 c1). right. exact H2.
  - intros q Hq. apply (do_all_keeps l s s' H O). intros now c Hin X. destruct (O now c Hin) as [f Or]. rewrite (ordinary_path f c Or) in X.
    injection X as X. apply (Hq now c f Hin Or). symmetry. exact X.
Qed.
Print Assumptions C107_session.

(** ** C108 *)
Lemma no_dot_stdout : forall a b, (a ++ ".pp." ++ b)%string <> "/dev/stdout"%string.
Proof.
  intros a b E. assert (Hd : has "." "/dev/stdout") by (rewrite <- E; apply has_app; right; left; reflexivity). cbn in Hd. intuition discriminate.
Qed.
Lemma longer : forall f t c, f <> (f ++ String c t)%string.
Proof. induction f as [|a f IH]; intros t c E; [discriminate|]. cbn in E. injection E as E. exact (IH t c E). Qed.

(** A calculation run again with update=True while the trajectory has not changed: nothing
    is computed, and the results are those of the first run to six digits.  If the
    trajectory is as recent as the output, everything is computed again. *)
Theorem C108_again_partial : forall s now later f t c computed g v s1, ordinary f c ->
  do_calc false default_template now s c = (computed, Ok (inr ((g, v), s1))) -> (2 <= length g)%nat -> s f = Some t ->
  ((f_time t < now)%Z -> exists T V, do_calc true default_template later s1 c = (false, Ok (inl (LColumns T V))) /\ Forall2 agrees g T /\ Forall2 agrees v V) /\
  ((now <= f_time t)%Z -> do_calc true default_template later s1 c = do_calc false default_template later s1 c).
Proof.
  intros s now later f t c computed g v s1 Or H Hg Ht. pose proof (ordinary_path f c Or) as Ep.
  destruct (C107_file s now f c computed g v s1 Or H Hg) as [_ [_ [[T [V [Rd FF]]] [[lines El] Ke]]]]. set (p := output_name f (c_symbol c) (c_tag c)) in *.
  assert (Nf : f <> p) by (unfold p, output_name; apply longer). rewrite <- (Ke f Nf) in Ht.
  assert (Nu : need_update_of s1 (Some f) (Some p) = Ok (negb (f_time t <? now)%Z)).
  { cbn [need_update_of need_update]. rewrite El. destruct (String.eqb_spec p "/dev/stdout") as [X|_]; [destruct (no_dot_stdout _ _ X)|]. rewrite Ht. reflexivity. }
  destruct Or as [F _]. unfold do_calc, do_for. rewrite Ep, F, Nu. split; intros L.
  - apply Z.ltb_lt in L. rewrite L. cbn [negb]. rewrite Rd. cbn [bind]. exists T, V. split; [reflexivity|exact FF].
  - apply Z.ltb_ge in L. rewrite L. cbn [negb]. reflexivity.
Qed.
Print Assumptions C108_again_partial.

(** The same file is taken for the results of any other calculation with the same output
    file, whatever its parameters: time grid, number of origins, slice of the trajectory,
    fix_cm, ... *)
Theorem C108_other_refuted : forall s now later f t c computed g v s1 c', ordinary f c -> ordinary f c' ->
  c_symbol c' = c_symbol c -> c_tag c' = c_tag c ->
  do_calc false default_template now s c = (computed, Ok (inr ((g, v), s1))) -> (2 <= length g)%nat -> s f = Some t -> (f_time t < now)%Z ->
  exists T V, do_calc true default_template later s1 c' = (false, Ok (inl (LColumns T V))) /\ Forall2 agrees g T /\ Forall2 agrees v V.
Proof.
  intros s now later f t c computed g v s1 c' Or Or' Sy Ta H Hg Ht Lt. pose proof (ordinary_path f c Or) as Ep. pose proof (ordinary_path f c' Or') as Ep'.
  destruct (C108_again_partial s now later f t c computed g v s1 Or H Hg Ht) as [A _]. destruct (A Lt) as [T [V [E FF]]]. exists T, V. split; [|exact FF].
  rewrite <- E. unfold do_calc, do_for. rewrite Ep, Ep', Sy, Ta. destruct Or as [F _]. destruct Or' as [F' _]. rewrite F, F'.
  destruct (need_update_of s1 (Some f) (Some (output_name f (c_symbol c) (c_tag c)))) as [[]|] eqn:En; try reflexivity.
  exfalso. unfold do_calc, do_for in E. rewrite Ep, F, En in E. discriminate.
Qed.
Print Assumptions C108_other_refuted.

(** ** Cases *)
Definition tenths (l : list Z) : list f64 := map (fun z => f64_frac z 10) l.
Definition tenth_calc (l : list Z) : calc :=
  msd_calc "data/traj.xyz" "" "" "2024-01-01 10:00:00" "3.0.0" None (fun _ => Ok [("diffusive time tau_D", None)]%string) tenth_tr
    (Some (tenths l)) (f64_ofZ (-1)) 30 (NoInt (-1)) false tenth_frames.

Lemma tenth_ordinary : forall l, ordinary "data/traj.xyz" (tenth_calc l).
Proof.
  intros l. unfold ordinary, tenth_calc, msd_calc, neat_names, c_names. cbn [c_filename c_output c_comments c_names c_long c_short c_description c_date c_version c_analyze c_symbol c_tag printed_name
    n_trajectory n_symbol n_tag].
  split; [reflexivity|]. split; [reflexivity|]. split; [reflexivity|]. split.
  { split; [exists "data/"%string, "traj.xyz"%string; repeat split; try discriminate; try (right; exists "data"%string; reflexivity)|repeat split; try discriminate];
      cbn; unfold punct; intuition discriminate. }
  do 6 (split; [unfold one_line; cbn; intuition discriminate|]).
  intros r an E. apply Ok_inj in E. subst an. intros k w [E|[]]. discriminate E.
Qed.

Definition tenth_times (l : list Z) : list f64 := map (fun k => nmul F64ops (nofZ F64ops k) (f64_frac 1 10)) l.

(** A calculation, its file; a session with a second trajectory; the second calculation with
    another time grid and update=True returns the three times of the first. *)
Example C107_nonvacuous :
  let s0 := fun p => if String.eqb p "data/traj.xyz" then Some (mkFile 3 []) else None in
  small_enough 2 2 tenth_tr /\ every 1 (t_steps tenth_tr) /\ moderate_steps (t_steps tenth_tr) (t_dt tenth_tr) /\
  (exists v s1, do_calc false default_template 5 s0 (tenth_calc [0; 1; 3]%Z) = (true, Ok (inr ((tenth_times [0; 1; 3]%Z, v), s1))) /\
     s1 "data/traj.xyz.pp.msd"%string = Some (mkFile 5 ["# title: mean square displacement dr^2(t)  "; "# columns: t, dr^2(t)"; "# date: 2024-01-01 10:00:00";
       "# command: atooms-pp"; "# version: 3.0.0"; "# parents: data/traj.xyz"; "0 0"; "0.1 0.0133333"; "0.3 0.09"]%string)).
Proof.
  intros s0. split; [unfold small_enough; cbn; lia|]. split; [intros [|[|[|[|i]]]] Hi; try reflexivity; cbn in Hi; lia|].
  split; [apply C98_nonvacuous|].
  eexists. eexists. split.
  - unfold do_calc, do_for. change (c_compute (tenth_calc [0; 1; 3]%Z)) with
      (msd_compute F64ops tenth_tr (Some (map (fun z => f64_frac z 10) [0; 1; 3]%Z)) (f64_ofZ (-1)) 30 (NoInt (-1)) false tenth_frames).
    destruct C100_nonvacuous as [_ [_ [_ [_ [E _]]]]]. rewrite E. cbn [bind]. rewrite (ordinary_path _ _ (tenth_ordinary _)).
    cbn [c_analyze tenth_calc msd_calc bind]. unfold write_text. cbn [fst snd].
    match goal with |- context [file_text ?a ?b ?c ?d ?e] => let r := eval vm_compute in (file_text a b c d e) in replace (file_text a b c d e) with r by (vm_compute; reflexivity) end.
    cbn [bind]. reflexivity.
  - vm_compute. reflexivity.
Qed.

(** For one trajectory: the mean square displacement is asked for two times, but the file of
    an earlier run holds three. *)
Theorem C108_grid_refuted :
  let s0 := fun p => if String.eqb p "data/traj.xyz" then Some (mkFile 3 []) else None in
  exists v s1 T V g' v', do_calc false default_template 5 s0 (tenth_calc [0; 1; 3]%Z) = (true, Ok (inr ((tenth_times [0; 1; 3]%Z, v), s1))) /\
    do_calc true default_template 7 s1 (tenth_calc [0; 2]%Z) = (false, Ok (inl (LColumns T V))) /\
    c_compute (tenth_calc [0; 2]%Z) = Ok (g', v') /\ length T = 3%nat /\ length g' = 2%nat.
Proof.
  intros s0. destruct C107_nonvacuous as [_ [_ [_ [v [s1 [E _]]]]]].
  assert (Hc : exists g' v', c_compute (tenth_calc [0; 2]%Z) = Ok (g', v') /\ @length f64 g' = 2%nat).
  { change (c_compute (tenth_calc [0; 2]%Z)) with (msd_compute F64ops tenth_tr (Some (map (fun z => f64_frac z 10) [0; 2]%Z)) (f64_ofZ (-1)) 30 (NoInt (-1)) false tenth_frames).
    match goal with |- context [msd_compute ?a ?b ?c ?d ?e ?f ?g ?h] =>
      let r := eval vm_compute in (msd_compute a b c d e f g h) in
      assert (X : msd_compute a b c d e f g h = r) by (vm_compute; reflexivity); rewrite X end.
    eexists. eexists. split; reflexivity. }
  destruct Hc as [g' [v' [Ec Lg]]].
  destruct (C108_other_refuted s0 5 7 "data/traj.xyz" (mkFile 3 []) (tenth_calc [0; 1; 3]%Z) true _ v s1 (tenth_calc [0; 2]%Z) (tenth_ordinary _) (tenth_ordinary _)
    eq_refl eq_refl E) as [T [V [A [F _]]]]; [cbn; lia|reflexivity|reflexivity|].
  exists v, s1, T, V, g', v'. split; [exact E|]. split; [exact A|]. split; [exact Ec|]. split; [|exact Lg].
  destruct (Forall2_nth _ _ agrees _ _ (S754_zero false) NNan F) as [L _]. rewrite <- L. reflexivity.
Qed.
Print Assumptions C108_grid_refuted.

Example C108_nonvacuous :
  let s0 := fun p => if String.eqb p "data/traj.xyz" then Some (mkFile 3 []) else None in
  exists v s1 T V, do_calc false default_template 5 s0 (tenth_calc [0; 1; 3]%Z) = (true, Ok (inr ((tenth_times [0; 1; 3]%Z, v), s1))) /\
    do_calc true default_template 7 s1 (tenth_calc [0; 1; 3]%Z) = (false, Ok (inl (LColumns T V))) /\ Forall2 agrees (tenth_times [0; 1; 3]%Z) T.
Proof.
  intros s0. destruct C107_nonvacuous as [_ [_ [_ [v [s1 [E _]]]]]].
  destruct (C108_again_partial s0 5 7 "data/traj.xyz" (mkFile 3 []) (tenth_calc [0; 1; 3]%Z) true _ v s1 (tenth_ordinary _) E) as [A _]; [cbn; lia|reflexivity|].
  destruct A as [T [V [A [B _]]]]; [reflexivity|]. exists v, s1, T, V. split; [exact E|]. split; [exact A|exact B].
Qed.
