(** Further cases of C71-C74: collective overlap, VACF, stress autocorrelation and the
    scattering functions; default grid of the MSD in other units of time. *)
From Coq Require Import Ascii String List ZArith Bool Arith Reals Lia Lra Sorting.Permutation.
From Verif Require Import PyBase PyBaseFacts Num Spec_Stats NumFacts M_Helpers M_Correlation M_Dynamics
  M_KGrid M_Fourier M_Fkt Spec_Correlation Spec_Dynamics Spec_Symmetry P_Dynamics P_Dynamics2 P_Overlap P_Chi4 P_Symmetry T_Symmetry.
Import ListNotations.
Local Open Scope R_scope.

(** ** C71: collective overlap; VACF under maps that keep scalar products *)
Lemma filter_map_length : forall X Y (f : X -> Y) (p : Y -> bool) (q : X -> bool) l,
  (forall x, In x l -> p (f x) = q x) -> length (filter p (map f l)) = length (filter q l).
Proof.
  intros X Y f p q. induction l as [|x l IH]; intros H; [reflexivity|]. cbn [map filter]. rewrite (H x (or_introl eq_refl)).
  destruct (q x); cbn [length]; rewrite IH; auto; intros y Hy; apply H; right; exact Hy.
Qed.
Lemma pairs_map : forall X Y (f : X -> Y) (x y : list X),
  flat_map (fun yi => map (fun xj => (xj, yi)) (map f x)) (map f y)
  = map (fun p => (f (fst p), f (snd p))) (flat_map (fun yi => map (fun xj => (xj, yi)) x) y).
Proof.
  intros X Y f x. induction y as [|b y IH]; [reflexivity|]. cbn [map flat_map]. rewrite map_app, <- IH, !map_map. reflexivity.
Qed.
Lemma coll_count_map : forall (f : list R -> list R) a2 b2 (x y : list (list R)),
  (forall r s, In r x -> In s y -> (dist2 (f r) (f s) < a2 <-> dist2 r s < b2)) ->
  coll_count Rops a2 (map f x) (map f y) = coll_count Rops b2 x y.
Proof.
  intros f a2 b2 x y H. unfold coll_count. rewrite pairs_map. apply filter_map_length. intros [r s] Hp. cbn [fst snd].
  apply in_flat_map in Hp. destruct Hp as [s' [Hs Hp]]. apply in_map_iff in Hp. destruct Hp as [r' [E Hr]]. injection E as -> ->.
  cbn [nlt Rops]. rewrite !sqdist_R. specialize (H r s Hr Hs).
  destruct (Rltb_spec (dist2 (f r) (f s)) a2), (Rltb_spec (dist2 r s) b2); try reflexivity; exfalso; tauto.
Qed.

Theorem C71_collective_overlap : forall (iso : list R -> list R) (frames : list (list (list R))) (tr : traj Rops) grid n a,
  (forall x y r s, In x frames -> In y frames -> In r x -> In s y -> dist2 (iso r) (iso s) = dist2 r s) ->
  length (t_steps tr) = length frames ->
  coll_overlap_compute Rops tr grid n a (map (map iso) frames) = coll_overlap_compute Rops tr grid n a frames.
Proof.
  intros iso frames tr grid n a Hi Hl. unfold coll_overlap_compute. apply (grid_compute_map Rops (map iso)); [exact Hl|].
  intros x y Hx Hy. unfold coll_overlap_f. flatR. rewrite map_length. do 2 f_equal. apply coll_count_map.
  intros r s Hr Hs. rewrite (Hi x y r s) by assumption. reflexivity.
Qed.
Print Assumptions C71_collective_overlap.

Theorem C71_vacf : forall (rot : list R -> list R) (velocities : list (list (list R))) N (tr : traj Rops) grid n,
  (forall x y r s, In x velocities -> In y velocities -> In r x -> In s y -> dotv (rot r) (rot s) = dotv r s) ->
  (forall x, In x velocities -> length x = N) -> length (t_steps tr) = length velocities ->
  vacf_compute Rops tr grid n (map (map rot) velocities) = vacf_compute Rops tr grid n velocities.
Proof.
  intros rot frames N tr grid n Hi HN Hl. apply (vacf_compute_map Rops (map rot)); [exact Hl|].
  intros x y Hx Hy. pose proof (HN x Hx) as Nx. pose proof (HN y Hy) as Ny. flatR.
  rewrite !vacf_f_R; [|congruence|rewrite !map_length; congruence].
  rewrite combine_map_both, map_map. f_equal. apply map_ext_in. intros p Hp. apply combine_in in Hp. cbn [fst snd].
  apply (Hi x y); tauto.
Qed.
Print Assumptions C71_vacf.

(** ** C72: collective overlap *)
Theorem C72_collective_overlap : forall c (frames : list (list (list R))) (tr : traj Rops) grid n a,
  0 < c -> length (t_steps tr) = length frames ->
  coll_overlap_compute Rops tr grid n (c * a) (map (map (timesv c)) frames) = coll_overlap_compute Rops tr grid n a frames.
Proof.
  intros c frames tr grid n a Hc Hl. unfold coll_overlap_compute. apply (grid_compute_map Rops (map (timesv c))); [exact Hl|].
  intros x y Hx Hy. unfold coll_overlap_f, nsq. flatR. cbn [nmul Rops]. rewrite map_length. do 2 f_equal. apply coll_count_map.
  intros r s Hr Hs. rewrite dist2_scale. assert (0 < c * c) by nra. replace (c * a * (c * a)) with (c * c * (a * a)) by ring. split; intros H1.
  - apply Rmult_lt_reg_l with (c * c); assumption.
  - apply Rmult_lt_compat_l; assumption.
Qed.
Print Assumptions C72_collective_overlap.

(** ** C73: optimised chi4, stress autocorrelation and scattering functions *)
Theorem C73_chi4_optimized : forall c A (tr : traj A) grid n a x,
  chi4_opt_compute A (later c tr) grid n a x = chi4_opt_compute A tr grid n a x.
Proof.
  intros. unfold chi4_opt_compute. change (length (t_steps (later c tr))) with (length (map (Z.add c) (t_steps tr))). rewrite map_length.
  cbn [later t_npart t_bs t_dt t_steps]. destruct (adjust_skip _ _ _ _ _); cbn [bind]; [|reflexivity].
  rewrite setup_t_grid_shift.
  destruct (setup_t_grid _ _ _ _ _ _); cbn [bind]; [|reflexivity]. apply mapM_ext. intros p _. unfold chi4_opt_point.
  destruct (chi4_sums _ _ _ _ _); cbn [bind]; [|reflexivity]. cbn [later t_steps t_dt]. rewrite !get_shift.
  destruct (get (t_steps tr) (fst p + snd p)) as [ta|]; cbn [bind]; [|reflexivity].
  destruct (get (t_steps tr) (fst p)) as [tb|]; cbn [bind]; [|reflexivity].
  replace (c + ta - (c + tb))%Z with (ta - tb)%Z by lia. reflexivity.
Qed.
Print Assumptions C73_chi4_optimized.

Theorem C73_stress : forall c A (tr : traj A) tgrid n volume mass virial vel,
  sacf_compute A (later c tr) tgrid n volume mass virial vel = sacf_compute A tr tgrid n volume mass virial vel.
Proof.
  intros. unfold sacf_compute. change (length (t_steps (later c tr))) with (length (map (Z.add c) (t_steps tr))). rewrite map_length.
  cbn [later t_npart t_bs t_dt t_steps]. destruct (adjust_skip _ _ _ _ _); cbn [bind]; [|reflexivity].
  rewrite setup_t_grid_shift. destruct (setup_t_grid _ _ _ _ _ _); cbn [bind]; [|reflexivity].
  destruct (mapM _ _); cbn [bind]; [|reflexivity].
  change (later c tr) with (delayed c tr). rewrite (offset_compute_shift c). reflexivity.
Qed.
Print Assumptions C73_stress.

Lemma tcf_vector_shift : forall c val w steps n dgrid skip st,
  tcf_vector val w (map (Z.add c) steps) n dgrid skip st = tcf_vector val w steps n dgrid skip st.
Proof.
  intros. unfold tcf_vector. apply foldM_ext. intros s p _. destruct (py_range _ _ _); cbn [bind]; [|reflexivity].
  apply foldM_ext. intros s' i0 _. rewrite !get_shift.
  destruct (get steps (i0 + snd p)) as [ta|]; cbn [bind]; [|reflexivity].
  destruct (get steps i0) as [tb|]; cbn [bind]; [|reflexivity].
  replace (c + ta - (c + tb))%Z with (ta - tb)%Z by lia. reflexivity.
Qed.
Lemma over_shells_ext : forall S K (f g : S -> K -> res S) shells sts, (forall s k, f s k = g s k) ->
  over_shells f sts shells = over_shells g sts shells.
Proof.
  intros S K f g shells. induction shells as [|ks shells IH]; intros sts H; [reflexivity|].
  destruct ks as [|k ks], sts as [|s sts]; cbn [over_shells]; rewrite ?IH by exact H; try reflexivity.
  rewrite (foldM_ext _ _ f g (k :: ks)) by (intros; apply H). reflexivity.
Qed.
Lemma self_compute_shift : forall c sum block K steps dgrid skip normalize pos,
  self_compute sum block K (map (Z.add c) steps) dgrid skip normalize pos = self_compute sum block K steps dgrid skip normalize pos.
Proof.
  intros. unfold self_compute, self_loop. destruct (get pos 0); cbn [bind]; [|reflexivity]. destruct (stacked pos); [|reflexivity].
  destruct (py_range _ _ _); cbn [bind]; [|reflexivity].
  match goal with |- bind (foldM ?F ?s ?l) _ = bind (foldM ?G _ _) _ => assert (foldM F s l = foldM G s l) as ->; [|reflexivity] end.
  apply foldM_ext. intros s j _. destruct (expo_frames _ _ _); cbn [bind]; [|reflexivity].
  apply over_shells_ext. intros. apply tcf_vector_shift.
Qed.

Theorem C73_scattering : forall c K steps bs dt total ts user normalize single skip nb,
  let shifted := map (Z.add c) steps in
  scatter_grid shifted bs dt total ts user normalize single = scatter_grid steps bs dt total ts user normalize single /\
  forall dgrid a b,
    fskt_legacy K shifted dgrid skip normalize a = fskt_legacy K steps dgrid skip normalize a /\
    fskt_fast nb K shifted dgrid skip normalize a = fskt_fast nb K steps dgrid skip normalize a /\
    fkt_compute K shifted dgrid skip normalize a b = fkt_compute K steps dgrid skip normalize a b.
Proof.
  intros. split.
  - unfold scatter_grid. destruct (scatter_times _ _ _ _); cbn [bind]; [|reflexivity]. apply setup_t_grid_shift.
  - intros. repeat split; try apply self_compute_shift. unfold fkt_compute.
    destruct (densities K a); cbn [bind]; [|reflexivity].
    destruct (match b with None => _ | Some _ => _ end); cbn [bind]; [|reflexivity].
    match goal with |- bind (over_shells ?F ?s ?l) _ = bind (over_shells ?G _ _) _ => assert (over_shells F s l = over_shells G s l) as ->; [|reflexivity] end.
    apply over_shells_ext. intros. apply tcf_vector_shift.
Qed.
Print Assumptions C73_scattering.

(** ** C74: VACF, stress, chi4, scattering functions and the default grid of the MSD *)
Theorem C74_vacf : forall c tr grid n x, 0 < c ->
  vacf_compute Rops (slower c tr) (Some (map (Rmult c) grid)) n x = stretched c (vacf_compute Rops tr (Some grid) n x).
Proof.
  intros c tr grid n x Hc. unfold vacf_compute. cbn [slower t_npart t_bs t_dt t_steps].
  destruct (adjust_skip _ _ _ _ _); cbn [bind stretched]; [|reflexivity].
  rewrite (setup_t_grid_unit c Hc). destruct (setup_t_grid _ _ _ _ _ _); cbn [bind stretched]; [|reflexivity].
  apply (offset_compute_unit c).
Qed.
Print Assumptions C74_vacf.

Theorem C74_stress : forall c tr grid n volume mass virial vel, 0 < c ->
  sacf_compute Rops (slower c tr) (map (Rmult c) grid) n volume mass virial vel
  = stretched c (sacf_compute Rops tr grid n volume mass virial vel).
Proof.
  intros c tr grid n volume mass virial vel Hc. unfold sacf_compute. cbn [slower t_npart t_bs t_dt t_steps].
  destruct (adjust_skip _ _ _ _ _); cbn [bind stretched]; [|reflexivity].
  rewrite (setup_t_grid_unit c Hc). destruct (setup_t_grid _ _ _ _ _ _); cbn [bind stretched]; [|reflexivity].
  destruct (mapM _ _); cbn [bind stretched]; [|reflexivity].
  change (slower c tr) with (P_Symmetry.slower c tr).
  rewrite (offset_compute_unit c). destruct (offset_compute Rops _ tr _ _ _) as [[g v]|]; reflexivity.
Qed.
Print Assumptions C74_stress.

Lemma Rmult_comm3 : forall a b d : R, a * (b * d) = b * (a * d). Proof. intros; ring. Qed.
Theorem C74_chi4 : forall c tr grid n a x, 0 < c ->
  chi4_compute Rops (slower c tr) (map (Rmult c) grid) n a x
  = match chi4_compute Rops tr grid n a x with Ok l => Ok (map (fun p => (c * fst p, snd p)) l) | Err e => Err e end.
Proof.
  intros c tr grid n a x Hc. unfold chi4_compute. cbn [slower t_npart t_bs t_dt t_steps].
  destruct (adjust_skip _ _ _ _ _); cbn [bind]; [|reflexivity].
  rewrite (setup_t_grid_unit c Hc). destruct (setup_t_grid _ _ _ _ _ _) as [dg|]; cbn [bind]; [|reflexivity].
  induction dg as [|p dg IH]; [reflexivity|]. cbn [mapM].
  assert (P : chi4_point Rops (nsq Rops a) (slower c tr) a0 x p
     = match chi4_point Rops (nsq Rops a) tr a0 x p with Ok q => Ok (c * fst q, snd q) | Err e => Err e end).
  { unfold chi4_point. destruct (chi4_sums _ _ _ _ _); cbn [bind]; [|reflexivity]. cbn [slower t_steps t_dt].
    destruct (get (t_steps tr) (fst p + snd p)); cbn [bind]; [|reflexivity].
    destruct (get (t_steps tr) (fst p)); cbn [bind]; [|reflexivity].
    destruct (get x 0); cbn [bind fst snd]; [|reflexivity]. apply f_equal. apply (f_equal2 pair); [|reflexivity]. cbn [nmul nofZ Rops]. apply Rmult_comm3. }
  rewrite P. destruct (chi4_point Rops (nsq Rops a) tr a0 x p) as [q|]; cbn [bind]; [|reflexivity]. rewrite IH.
  destruct (mapM (chi4_point Rops (nsq Rops a) tr a0 x) dg); reflexivity.
Qed.
Print Assumptions C74_chi4.

(** The times of the scattering functions are the differences of the steps, which do
    not depend on the unit, multiplied by the time step. *)
Theorem C74_scattering : forall c steps bs dt total ts g normalize single, 0 < c ->
  scatter_grid steps bs (c * dt) (c * total) ts (Some (map (Rmult c) g)) normalize single
  = scatter_grid steps bs dt total ts (Some g) normalize single.
Proof.
  intros c steps bs dt total ts g normalize single Hc. unfold scatter_grid, scatter_times.
  destruct normalize; [|apply (setup_t_grid_unit c Hc)].
  destruct g as [|t0 g]; [reflexivity|]. cbn [map get nth_error bind].
  change (get (c * t0 :: map (Rmult c) g) 0) with (Ok (c * t0)). change (get (t0 :: g) 0) with (Ok t0). cbn [bind].
  destruct (Rlt_dec 0 (c * t0)), (Rlt_dec 0 t0); try (exfalso; nra).
  - replace (0 :: c * t0 :: map (Rmult c) g) with (map (Rmult c) (0 :: t0 :: g)) by (cbn [map]; rewrite Rmult_0_r; reflexivity).
    apply (setup_t_grid_unit c Hc).
  - apply (setup_t_grid_unit c Hc steps bs dt (t0 :: g)).
Qed.
Print Assumptions C74_scattering.

Lemma linear_grid_unit : forall c T n,
  linear_grid Rops 0 (c * T) (DInt n) = match linear_grid Rops 0 T (DInt n) with Ok g => Ok (map (Rmult c) g) | Err e => Err e end.
Proof.
  intros c T n. unfold linear_grid, grid_points. destruct (1 <? n)%Z; f_equal; rewrite map_map; apply map_ext; intros i;
    cbn [nadd nmul ndiv nsub Rops n0 nofZ]; unfold Rdiv; ring.
Qed.
Lemma msd_grid_unit : forall c tr rmax ts frames, 0 < c ->
  msd_grid Rops (slower c tr) None rmax ts frames
  = match msd_grid Rops tr None rmax ts frames with Ok g => Ok (map (Rmult c) g) | Err e => Err e end.
Proof.
  intros c tr rmax ts frames Hc. unfold msd_grid. cbn [slower t_total]. destruct (nlt Rops (n0 Rops) rmax).
  - destruct (getZ frames (-1)) as [f|]; cbn [bind]; [|reflexivity]. destruct (get frames 0) as [f0|]; cbn [bind]; [|reflexivity].
    rewrite <- linear_grid_unit. cbn [n0 Rops nofZ]. f_equal. cbn [nlt nmul Rops ndiv]. set (q := nsq Rops rmax / msd Rops f f0).
    set (T := t_total tr : R). change (t_total tr) with T. clearbody q T.
    destruct (Rltb_spec (q * (c * T)) (c * T)) as [H|H], (Rltb_spec (q * T) T) as [H'|H'].
    + apply Rmult_comm3.
    + exfalso. apply H'. apply Rmult_lt_reg_l with c; [exact Hc|]. lra.
    + exfalso. apply H. apply Rmult_lt_compat_l with (r := c) in H'; [|exact Hc]. lra.
    + reflexivity.
  - apply linear_grid_unit.
Qed.
Theorem C74_msd_default : forall c tr rmax ts n no x, 0 < c ->
  msd_compute Rops (slower c tr) None rmax ts n no x = stretched c (msd_compute Rops tr None rmax ts n no x).
Proof.
  intros c tr rmax ts n no x Hc. unfold msd_compute. rewrite msd_grid_unit by exact Hc.
  cbn [slower t_npart t_bs t_dt t_steps]. destruct (adjust_skip _ _ _ _ _); cbn [bind stretched]; [|reflexivity].
  destruct (msd_grid _ tr _ _ _ _); cbn [bind stretched]; [|reflexivity].
  rewrite (setup_t_grid_unit c Hc). destruct (setup_t_grid _ _ _ _ _ _); cbn [bind stretched]; [|reflexivity].
  apply (offset_compute_unit c).
Qed.
Print Assumptions C74_msd_default.

(** ** C70: stress autocorrelation *)
Lemma mapM_perm : forall X Y (f : X -> res Y) l l' ys, Permutation l l' -> mapM f l = Ok ys -> exists ys', mapM f l' = Ok ys' /\ Permutation ys ys'.
Proof.
  intros X Y f l l' ys P. revert ys. induction P as [|x l l' P IH|x y l|l l' l'' P1 IH1 P2 IH2]; intros ys H.
  - exists ys. split; [exact H|apply Permutation_refl].
  - cbn [mapM] in *. destruct (f x) as [a|]; [|discriminate H]. cbn [bind] in *. destruct (mapM f l) as [m|]; [|discriminate H]. cbn [bind] in H.
    apply Ok_inj in H. subst ys. destruct (IH m eq_refl) as [m' [-> P']]. cbn [bind]. eexists. split; [reflexivity|]. apply perm_skip. exact P'.
  - cbn [mapM] in *. destruct (f y) as [b|]; [|discriminate H]. cbn [bind] in *. destruct (f x) as [a|]; [|discriminate H]. cbn [bind] in *.
    destruct (mapM f l) as [m|]; [|discriminate H]. cbn [bind] in *. apply Ok_inj in H. subst ys. eexists. split; [reflexivity|]. apply perm_swap.
  - destruct (IH1 ys H) as [m [E1 Q1]]. destruct (IH2 m E1) as [m' [E2 Q2]]. exists m'. split; [exact E2|]. eapply Permutation_trans; eassumption.
Qed.

(** The masses listed in the order [sigma]. *)
Definition relabel_mass (sigma : list nat) (mass : list R) : list R := map (fun i => nth i mass 0) sigma.

Lemma relabel_particles : forall sigma N (mass : list R) (v : list (list R)), Permutation sigma (seq 0 N) -> length mass = N -> length v = N ->
  Permutation (combine mass v) (combine (relabel_mass sigma mass) (relabel sigma v)).
Proof.
  intros sigma N mass v Hp Hm Hv. unfold relabel_mass, relabel. rewrite combine_map_map. apply Permutation_sym.
  apply (Permutation_trans (l' := map (fun i => (nth i mass 0, nth i v [])) (seq 0 N))); [apply Permutation_map; exact Hp|].
  replace (map (fun i => (nth i mass 0, nth i v [])) (seq 0 N)) with (combine mass v); [apply Permutation_refl|].
  clear Hp sigma. revert mass v Hm Hv. induction N as [|N IH]; intros [|m mass] [|r v] Hm Hv; try discriminate; [reflexivity|].
  cbn [combine seq map nth]. f_equal. rewrite (IH mass v) by (cbn in *; lia). rewrite <- seq_shift, map_map. reflexivity.
Qed.

Lemma stress_relabel : forall sigma N mass s (v : list (list R)) l, Permutation sigma (seq 0 N) -> length mass = N -> length v = N ->
  stress_frame Rops mass s v = Ok l -> stress_frame Rops (relabel_mass sigma mass) s (relabel sigma v) = Ok l.
Proof.
  intros sigma N mass s v l Hp Hm Hv H. rewrite <- H. unfold stress_frame in *.
  assert (G : forall jks l0, mapM (fun jk => sjk <- entry Rops s (fst jk) (snd jk) ;;
      kin <- mapM (fun mv : R * list R => vj <- get (snd mv) (fst jk) ;; vk <- get (snd mv) (snd jk) ;; Ok (nmul Rops (nmul Rops (fst mv) vj) vk)) (combine mass v) ;;
      Ok (nadd Rops sjk (nsum Rops kin))) jks = Ok l0 ->
    mapM (fun jk => sjk <- entry Rops s (fst jk) (snd jk) ;;
      kin <- mapM (fun mv : R * list R => vj <- get (snd mv) (fst jk) ;; vk <- get (snd mv) (snd jk) ;; Ok (nmul Rops (nmul Rops (fst mv) vj) vk))
        (combine (relabel_mass sigma mass) (relabel sigma v)) ;;
      Ok (nadd Rops sjk (nsum Rops kin))) jks = Ok l0).
  { induction jks as [|[j k] jks IH]; intros l0 H0; [exact H0|]. cbn [mapM fst snd] in *. destruct (entry Rops s j k) as [sjk|]; [|discriminate H0]. cbn [bind] in *.
    match type of H0 with bind (bind ?m _) _ = _ => destruct m as [kin|] eqn:Ek; [|discriminate H0] end. cbn [bind] in H0.
    destruct (mapM_perm _ _ _ _ _ _ (relabel_particles sigma N mass v Hp Hm Hv) Ek) as [kin' [-> P]]. cbn [bind].
    match type of H0 with bind ?m _ = _ => destruct m as [rest|] eqn:Er; [|discriminate H0] end. cbn [bind] in H0. rewrite (IH rest eq_refl). cbn [bind].
    rewrite <- H0. do 3 f_equal. rewrite !nsum_R. symmetry. apply rsum_perm. exact P. }
  pose proof (G _ _ H) as X. exact (eq_trans X (eq_sym H)).
Qed.

Theorem C70_stress : forall sigma N (tr : traj Rops) grid n volume (mass : list R) virial (vel : list (list (list R))) g v,
  Permutation sigma (seq 0 N) -> length mass = N -> (forall x, In x vel -> length x = N) ->
  sacf_compute Rops tr grid n volume mass virial vel = Ok (g, v) ->
  sacf_compute Rops tr grid n volume (relabel_mass sigma mass) virial (map (relabel sigma) vel) = Ok (g, v).
Proof.
  intros sigma N tr grid n volume mass virial vel g v Hp Hm HN H. unfold sacf_compute in *.
  destruct (adjust_skip Rops (length (t_steps tr)) (t_npart tr) (t_bs tr) n) as [sk|]; [|discriminate H]. cbn [bind] in *.
  destruct (setup_t_grid Rops (t_steps tr) (t_bs tr) (t_dt tr) grid (not_str_1 Rops n)) as [dg|]; [|discriminate H]. cbn [bind] in *.
  match type of H with bind ?m _ = _ => destruct m as [st|] eqn:Es; [|discriminate H] end.
  assert (E : mapM (fun sv => stress_frame Rops (relabel_mass sigma mass) (fst sv) (snd sv)) (combine virial (map (relabel sigma) vel)) = Ok st).
  { clear H. revert vel st HN Es. induction virial as [|s virial IH]; intros [|x vel] st HN Es; try exact Es. cbn [combine map mapM fst snd] in *.
    destruct (stress_frame Rops mass s x) as [l|] eqn:El; [|discriminate Es]. cbn [bind] in Es.
    rewrite (stress_relabel sigma N mass s x l) by (try assumption; apply HN; left; reflexivity). cbn [bind].
    match type of Es with bind ?m _ = _ => destruct m as [rest|] eqn:Er; [|discriminate Es] end. cbn [bind] in Es.
    rewrite (IH vel rest) by (try assumption; intros y Hy; apply HN; right; exact Hy). exact Es. }
  match goal with |- bind ?m _ = _ => replace m with (Ok st) by (symmetry; exact E) end. exact H.
Qed.
Print Assumptions C70_stress.

(** ** Cases *)
(** Two particles exchanged, with their masses. *)
Example C70_nonvacuous_stress : let s := [[0; 1; 0]; [1; 0; 0]; [0; 0; 0]] in let v := [[1; 2; 0]; [3; 1; 1]] in
  Permutation [1; 0]%nat (seq 0 2) /\ relabel_mass [1; 0]%nat [1; 5] = [5; 1] /\ relabel [1; 0]%nat v = [[3; 1; 1]; [1; 2; 0]] /\
  stress_frame Rops [1; 5] s v = Ok [18; 15; 5] /\ stress_frame Rops [5; 1] s [[3; 1; 1]; [1; 2; 0]] = Ok [18; 15; 5].
Proof.
  split; [apply perm_swap|]. split; [reflexivity|]. split; [reflexivity|].
  split; unfold stress_frame, entry, get; cbn [mapM combine fst snd nth_error bind]; rewrite !nsum_R; unfold rsum; cbn [fold_left fold_right nmul nadd Rops];
    (apply f_equal; apply f_equal2; [match goal with |- @eq _ ?a ?b => change (@eq R a b); ring end|apply f_equal2; [match goal with |- @eq _ ?a ?b => change (@eq R a b); ring end|apply f_equal2; [match goal with |- @eq _ ?a ?b => change (@eq R a b); ring end|reflexivity]]]).
Qed.

(** A quarter turn keeps distances and scalar products. *)
Example C71_nonvacuous_vacf : let v := [[[0; 1]; [2; 3]]; [[1; 1]; [2; 5]]] in
  (forall x y r s, In x v -> In y v -> In r x -> In s y -> dist2 (quarter r) (quarter s) = dist2 r s /\ dotv (quarter r) (quarter s) = dotv r s) /\
  map (map quarter) v <> v.
Proof.
  intros v. split.
  - intros x y r s Hx Hy Hr Hs.
    assert (G : forall a b, In a v -> In b a -> exists u w, b = [u; w]).
    { intros a b [<-|[<-|[]]] [<-|[<-|[]]]; eauto. }
    destruct (G x r Hx Hr) as [u [w ->]]. destruct (G y s Hy Hs) as [u' [w' ->]]. split; cbn; ring.
  - intros H. assert (X : nth 0 (nth 0 (nth 0 (map (map quarter) v) []) []) 5 = 0) by (rewrite H; reflexivity). cbn in X. lra.
Qed.

(** Positions and threshold in units ten times smaller. *)
Example C72_nonvacuous_overlap : let tr := mkTraj (A:=Rops) [0; 1]%Z 1 1 1 1 in
  coll_overlap_compute Rops tr [0; 1] (NoInt (-1)) (10 * 2) (map (map (timesv 10)) [[[0]]; [[1]]]) = coll_overlap_compute Rops tr [0; 1] (NoInt (-1)) 2 [[[0]]; [[1]]] /\
  map (map (timesv 10)) [[[0]]; [[1]]] <> [[[0]]; [[1]]].
Proof.
  intros tr. split; [apply (C72_collective_overlap 10); [lra|reflexivity]|].
  intros H. assert (X : nth 0 (nth 0 (nth 1 (map (map (timesv 10)) [[[0]]; [[1]]]) []) []) 5 = 1) by (rewrite H; reflexivity). cbn in X. lra.
Qed.

(** The steps of C83, starting from 1000; half the time step. *)
Example C73_nonvacuous_stress :
  let tr := mkTraj (A:=F64ops) [0; 1]%Z 1 (f64_ofZ 1) (f64_ofZ 1) 1 in
  let virial := map (map (map f64_ofZ)) [[[0; 1; 0]; [1; 0; 0]; [0; 0; 0]]; [[0; 2; 0]; [2; 0; 0]; [0; 0; 0]]]%Z in
  let vel := map (map (map f64_ofZ)) [[[1; 2; 0]]; [[1; 1; 0]]]%Z in
  t_steps (later 1000 tr) = [1000; 1001]%Z /\
  sacf_compute F64ops (later 1000 tr) (map f64_ofZ [0; 1]%Z) (NoInt (-1)) (f64_ofZ 2) [f64_ofZ 1] virial vel
  = Ok (map f64_ofZ [0; 1]%Z, [f64_frac 3 2; f64_frac 3 2]).
Proof. split; [reflexivity|]. vm_compute. reflexivity. Qed.

Example C74_nonvacuous_vacf : let tr := mkTraj (A:=Rops) [0; 1; 2]%Z 1 (/ 2) 1 1 in
  exists g v, vacf_compute Rops tr (Some [0; / 2]) (NoInt (-1)) [[[0]]; [[1]]; [[2]]] = Ok (g, v) /\ g <> map (Rmult 60) g /\
    vacf_compute Rops (slower 60 tr) (Some (map (Rmult 60) [0; / 2])) (NoInt (-1)) [[[0]]; [[1]]; [[2]]] = Ok (map (Rmult 60) g, v).
Proof.
  intros tr.
  assert (X : exists v, vacf_compute Rops tr (Some [0; / 2]) (NoInt (-1)) [[[0]]; [[1]]; [[2]]] = Ok ([0 * / 2; 1 * / 2], v)).
  { unfold vacf_compute.
    assert (T : forall t z, t / / 2 = IZR z -> to_step Rops (/ 2) t = Ok z).
    { intros t z E. unfold to_step, pydiv. cbn. unfold Reqb. destruct (Req_EM_T (/ 2) 0); [lra|]. cbn [bind].
      rewrite E. rewrite (Rrint_unique (IZR z) z); [reflexivity|]. rewrite Rminus_diag_eq, Rabs_R0 by reflexivity. lra. }
    assert (adjust_skip Rops (length (t_steps tr)) (t_npart tr) (t_bs tr) (NoInt (-1)) = Ok 1%nat) as ->.
    { unfold adjust_skip, skip_choice. cbn [no_float bind]. cbn [nlt n0 nofZ Rops].
      destruct (Rltb_spec (-1) 0) as [_|H]; [reflexivity|lra]. }
    cbn [bind].
    assert (setup_t_grid Rops (t_steps tr) (t_bs tr) (t_dt tr) [0; / 2] (not_str_1 Rops (NoInt (-1))) = Ok [(0, 0); (0, 1)]%nat) as ->.
    { unfold setup_t_grid. cbn [mapM]. change (t_dt tr) with (/ 2).
      rewrite (T 0 0%Z) by field. rewrite (T (/ 2) 1%Z) by field. reflexivity. }
    cbn [bind]. unfold offset_compute.
    assert (exists v, gcf_offset Rops (vacf_f Rops) [(0, 0); (0, 1)]%nat (t_bs tr) (t_steps tr) [[[0]]; [[1]]; [[2]]] = Ok ([0; 1]%Z, v)) as [v ->].
    { generalize (vacf_f Rops). intros f. eexists. cbn. reflexivity. }
    cbn [bind]. eexists. reflexivity. }
  destruct X as [v E]. do 2 eexists. split; [exact E|]. split.
  - intros H. injection H. intros. lra.
  - rewrite (C74_vacf 60) by lra. rewrite E. reflexivity.
Qed.
