(** Time correlation functions are defined for every input: C88; norigins accepted: C06. *)
From Coq Require Import Ascii String List ZArith Bool Arith Reals Lia Lra Sorting.Sorted.
From Verif Require Import PyBase PyBaseFacts Num Spec_Stats NumFacts M_Helpers M_Correlation M_Dynamics M_Analyze P_Analyze2
  Spec_Correlation P_Correlation Spec_Time P_Time P_Skip Spec_Dynamics P_Dynamics P_Dynamics2 P_Chi4 T_Time.
Import ListNotations.
Local Open Scope nat_scope.

(** ** C06 *)
(** None, every integer and every number except zero are accepted. *)
Theorem C06_accepted : forall nsteps npart bs (n : norigins Rops), 1 <= bs ->
  match n with NoStr _ => True | NoInt z => z <> 0%Z | NoFloat x => (x <> 0)%R | NoNone => True end ->
  match n with NoStr _ => True | _ => exists s, adjust_skip Rops nsteps npart bs n = Ok s end.
Proof.
  intros nsteps npart bs n Hb Hn.
  assert (P : forall x, (x <> 0)%R -> forall y, exists q, pydiv Rops y x = Ok q).
  { intros x Hx y. unfold pydiv. cbn. destruct (Reqb_spec x 0); [contradiction|]. eauto. }
  assert (M : forall k, (k * Z.of_nat bs mod Z.of_nat bs =? 0)%Z = true) by (intros; rewrite Z.mod_mul by lia; reflexivity).
  assert (G : forall sk n', (sk mod Z.of_nat bs =? 0)%Z = true \/ no_int Rops n' = Ok 1%Z ->
              skip_choice Rops nsteps npart bs n' = Ok sk -> exists s, adjust_skip Rops nsteps npart bs n' = Ok s).
  { intros sk n' D E. unfold adjust_skip. rewrite E. cbn [bind].
    destruct (sk mod Z.of_nat bs =? 0)%Z; [eexists; reflexivity|].
    destruct D as [D|D]; [discriminate|]. rewrite D. eexists. reflexivity. }
  assert (F : forall x n', (x <> 0)%R -> no_float Rops n' = Ok x -> no_is_str Rops n' "1.0" = false -> n' <> NoNone ->
     (exists i, no_int Rops n' = Ok i) -> exists s, adjust_skip Rops nsteps npart bs n' = Ok s).
  { intros x n' Hx Ef Es Hnn [i Ei].
    assert (E : exists sk, ((sk mod Z.of_nat bs =? 0)%Z = true \/ no_int Rops n' = Ok 1%Z) /\ skip_choice Rops nsteps npart bs n' = Ok sk).
    { assert (U : skip_choice Rops nsteps npart bs n' =
        (x <- no_float Rops n' ;;
         if nlt Rops x (n0 Rops) || no_is_str Rops n' "1.0"%string then Ok (Z.of_nat bs)
         else if nlt Rops (n1 Rops) x then
           q <- pydiv Rops (nofnat Rops (nsteps / bs)) x ;; k <- pyint Rops q ;; Ok (k * Z.of_nat bs)%Z
         else i <- no_int Rops n' ;;
              if (i =? 1)%Z then Ok (Z.of_nat nsteps)
              else q <- pydiv Rops (n1 Rops) x ;; k <- pyint Rops q ;; Ok (k * Z.of_nat bs)%Z)) by (destruct n'; [congruence|reflexivity..]).
      rewrite U. clear U. change (num Rops) with R in *. rewrite Ef. cbn [bind]. rewrite Es, orb_false_r.
      destruct (nlt Rops x (n0 Rops)).
      - exists (Z.of_nat bs). split; [left; rewrite Z.mod_same by lia; reflexivity|reflexivity].
      - destruct (nlt Rops (n1 Rops) x).
        + destruct (P x Hx (nofnat Rops (nsteps / bs))) as [q Eq]. rewrite Eq. cbn [bind].
          eexists. split; [|unfold pyint; reflexivity]. left. apply M.
        + rewrite Ei. cbn [bind]. destruct (Z.eqb_spec i 1) as [->|Ne].
          * eexists. split; [right; reflexivity|reflexivity].
          * destruct (P x Hx (n1 Rops)) as [q Eq]. rewrite Eq. cbn [bind].
            eexists. split; [|unfold pyint; reflexivity]. left. apply M. }
    destruct E as [sk [D E]]. eapply G; eassumption. }
  destruct n as [|z|x|s]; [|..|exact I].
  - destruct (bs =? 1) eqn:Eb.
    + assert (H4 : (IZR 40000 <> 0)%R) by (intros C; apply eq_IZR in C; lia).
      destruct (P (IZR 40000) H4 (nofZ Rops (Z.of_nat nsteps * Z.of_nat npart))) as [q Eq].
      eapply G; [left; apply Nat.eqb_eq in Eb; subst bs; rewrite Z.mod_1_r; reflexivity|].
      unfold skip_choice. rewrite Eb. change (num Rops) with R in *. cbn [nofZ Rops] in *. rewrite Eq. cbn [bind]. unfold pyint. reflexivity.
    + eapply G; [left|unfold skip_choice; rewrite Eb; reflexivity]. rewrite Z.mod_same by lia. reflexivity.
  - apply (F (IZR z)); [intros C; apply eq_IZR in C; contradiction|reflexivity|reflexivity|discriminate|eexists; reflexivity].
  - apply (F x); [assumption|reflexivity|reflexivity|discriminate|eexists; reflexivity].
Qed.
Print Assumptions C06_accepted.

(** ** C88 *)
Lemma mapM_length : forall X Y (f : X -> res Y) l r, mapM f l = Ok r -> length r = length l.
Proof.
  intros X Y f l. induction l as [|a l IH]; intros r H; cbn [mapM] in H; [apply Ok_inj in H; subst; reflexivity|].
  apply bind_Ok_inv in H. destruct H as [b [_ H]]. apply bind_Ok_inv in H. destruct H as [bs [E H]].
  apply Ok_inj in H. subst r. cbn. f_equal. apply IH. assumption.
Qed.

Lemma to_step_total : forall (dt : R) (g : list R), dt <> 0%R -> exists reqs, mapM (to_step Rops dt) g = Ok reqs.
Proof.
  intros dt g Hd. induction g as [|t g IH]; [exists []; reflexivity|].
  destruct (C04_requested_steps dt t Hd) as [r [E _]]. destruct IH as [reqs E'].
  exists (r :: reqs). cbn [mapM]. rewrite E. cbn [bind]. rewrite E'. reflexivity.
Qed.

Lemma mapM_In : forall X Y (f : X -> res Y) l r x, mapM f l = Ok r -> In x l -> exists y, f x = Ok y /\ In y r.
Proof.
  intros X Y f l. induction l as [|a l IH]; intros r x H Hx; [destruct Hx|]. cbn [mapM] in H.
  apply bind_Ok_inv in H. destruct H as [b [Eb H]]. apply bind_Ok_inv in H. destruct H as [bs [E H]].
  apply Ok_inj in H. subst r. destruct Hx as [<-|Hx]; [exists b; split; [assumption|left; reflexivity]|].
  destruct (IH bs x E Hx) as [y [Ey Hy]]. exists y. split; [assumption|right; assumption].
Qed.

(** The result of a time correlation function asked for the times [grid]: as many values as
    times, the times are increasing (in units of the time step) differences of recorded
    steps, and for every time asked for the closest difference available is there. *)
Definition answers (tr : traj Rops) (offs : list nat) (grid g v : list R) : Prop :=
  length g = length v /\
  (exists dts, g = times_of tr dts /\ StronglySorted Z.lt dts /\
     forall d, In d dts -> exists i j, i < length (t_steps tr) /\ j < length (t_steps tr) /\
                                       (d = nth i (t_steps tr) 0 - nth j (t_steps tr) 0)%Z) /\
  (forall t, In t grid -> exists r d, (Rabs (t / t_dt tr - IZR r) <= / 2)%R /\
     nearest (t_steps tr) offs r d /\ In (IZR d * t_dt tr)%R g).

Definition offsets_of (tr : traj Rops) (n : norigins Rops) : list nat :=
  match n with NoStr s => if String.eqb s "1" then [0] else seq 0 (t_bs tr) | _ => seq 0 (t_bs tr) end.

Lemma offsets_not_str : forall tr n, (if not_str_1 Rops n then seq 0 (t_bs tr) else [0]) = offsets_of tr n.
Proof.
  intros tr n. unfold not_str_1, offsets_of. destruct n as [|z|x|s]; try reflexivity. cbn.
  destruct (String.eqb s "1"); reflexivity.
Qed.

Lemma setup_answers : forall X (f : X -> X -> R) (tr : traj Rops) skip (x : list X) offset grid,
  x <> [] -> length (t_steps tr) = length x -> 1 <= t_bs tr -> t_dt tr <> 0%R -> 1 <= skip ->
  exists dg g v, setup_t_grid Rops (t_steps tr) (t_bs tr) (t_dt tr) grid offset = Ok dg /\
    offset_compute Rops f tr dg skip x = Ok (g, v) /\
    answers tr (if offset then seq 0 (t_bs tr) else [0]) grid g v.
Proof.
  intros X f tr skip x offset grid Hx L Hb Hd Hs. change (num Rops) with R in *.
  destruct (to_step_total (t_dt tr) grid Hd) as [reqs E].
  destruct (C04_setup_t_grid_total Rops (t_steps tr) (t_bs tr) (t_dt tr) grid offset reqs) as [dg Edg]; [|assumption|exact E|].
  { intros C. rewrite C in L. destruct x; [congruence|discriminate]. }
  destruct x as [|x0 xs]; [congruence|]. set (x := x0 :: xs) in *.
  destruct (C01_gcf_offset_mean Rops X f dg skip (t_steps tr) x x0 Hs L) as [dts [v [Eg [S1 [S2 S3]]]]].
  exists dg, (times_of tr dts), v. split; [assumption|].
  split; [unfold offset_compute; rewrite Eg; reflexivity|].
  apply C04_setup_t_grid in Edg. cbv zeta in Edg. destruct Edg as [reqs' [E' [_ [U [N1 _]]]]].
  assert (reqs' = reqs) by congruence. subst reqs'.
  split; [unfold times_of; rewrite S3, !map_length; reflexivity|]. split.
  - exists dts. split; [reflexivity|]. split; [assumption|]. intros d Hd'. apply S2 in Hd'. destruct Hd' as [p [Hp Ed]].
    unfold admitted in Hp. apply in_flat_map in Hp. destruct Hp as [q [_ Hp]]. apply in_map_iff in Hp.
    destruct Hp as [i0 [<- Hi]]. unfold origins in Hi. apply filter_In in Hi. destruct Hi as [Hi _]. apply in_seq in Hi.
    unfold pair_dt in Ed. cbn [fst snd] in Ed. exists (i0 + snd q), i0. rewrite L. repeat split; [lia|lia|]. symmetry. exact Ed.
  - intros t Ht. destruct (mapM_In _ _ _ _ _ t E Ht) as [r [Er Hr]].
    destruct (C04_requested_steps (t_dt tr) t Hd) as [r' [Er' B]]. assert (r' = r) by congruence. subst r'.
    destruct (N1 r Hr) as [p [Hp Np]]. exists r, (lag_dt (t_steps tr) p). split; [assumption|]. split; [assumption|].
    unfold times_of. apply in_map_iff. exists (lag_dt (t_steps tr) p). split; [reflexivity|].
    apply S2. exists (fst p + snd p, fst p). split; [|reflexivity].
    unfold admitted. apply in_flat_map. exists p. split; [assumption|]. apply in_map_iff. exists (fst p). split; [reflexivity|].
    destruct (U p Hp) as [[_ Hlt] _]. unfold origins. apply filter_In. split; [apply in_seq; rewrite <- L; lia|].
    rewrite Nat.leb_refl, Nat.sub_diag, Nat.mod_0_l by lia. reflexivity.
Qed.

Lemma with_id_length : forall A (l : list (frame A)), length (with_id A l) = length l.
Proof. intros A l. unfold with_id. rewrite combine_length, seq_length. lia. Qed.

(** Every trajectory with at least one frame, every nonzero time step, every list of times
    and every accepted norigins: no exception. *)
Theorem C88_defined : forall (tr : traj Rops) grid n rmax ts a (frames : list (list (list R))) skip,
  frames <> [] -> length (t_steps tr) = length frames -> 1 <= t_bs tr -> t_dt tr <> 0%R ->
  adjust_skip Rops (length (t_steps tr)) (t_npart tr) (t_bs tr) n = Ok skip ->
  (forall no, exists g v, msd_compute Rops tr (Some grid) rmax ts n no frames = Ok (g, v) /\
     answers tr (if no then [0] else offsets_of tr n) grid g v) /\
  (exists g v, self_overlap_compute Rops tr grid n a frames = Ok (g, v) /\ answers tr (offsets_of tr n) grid g v) /\
  (exists g v, coll_overlap_compute Rops tr grid n a frames = Ok (g, v) /\ answers tr (offsets_of tr n) grid g v) /\
  (exists g v, alpha2_compute Rops tr grid n frames = Ok (g, v) /\ answers tr (offsets_of tr n) grid g v) /\
  (exists g v, vacf_compute Rops tr (Some grid) n frames = Ok (g, v) /\ answers tr (offsets_of tr n) grid g v).
Proof.
  intros tr grid n rmax ts a frames skip Hf L Hb Hd Es. change (num Rops) with R in *.
  assert (Hn : 1 <= length (t_steps tr)) by (rewrite L; destruct frames; [congruence|cbn; lia]).
  assert (Hs : 1 <= skip) by (exact (proj1 (C06_skip_range _ _ _ _ _ _ Hn Es))).
  assert (G : forall X (f : X -> X -> R) (x : list X), x <> [] -> length (t_steps tr) = length x ->
     exists g v, grid_compute Rops f tr grid n x = Ok (g, v) /\ answers tr (offsets_of tr n) grid g v).
  { intros X f x Hx Lx. destruct (setup_answers X f tr skip x (not_str_1 Rops n) grid Hx Lx Hb Hd Hs) as [dg [g [v [E1 [E2 AN]]]]].
    exists g, v. rewrite offsets_not_str in AN. split; [|assumption]. unfold grid_compute.
    rewrite Es. cbn [bind]. rewrite E1. cbn [bind]. exact E2. }
  split; [|split; [|split; [|split]]].
  - intros no. destruct (setup_answers _ (msd Rops) tr skip frames (not_str_1 Rops n && negb no) grid Hf L Hb Hd Hs) as [dg [g [v [E1 [E2 AN]]]]].
    exists g, v. split.
    + unfold msd_compute. rewrite Es. cbn [bind msd_grid]. rewrite E1. cbn [bind]. exact E2.
    + destruct no; cbn [negb] in AN.
      * rewrite andb_false_r in AN. exact AN.
      * rewrite andb_true_r, offsets_not_str in AN. exact AN.
  - apply G; assumption.
  - apply G; assumption.
  - apply G; [|rewrite with_id_length; assumption]. intros C. pose proof (with_id_length Rops frames) as W. rewrite C in W.
    destruct frames; [congruence|discriminate].
  - destruct (setup_answers _ (vacf_f Rops) tr (t_bs tr) frames (not_str_1 Rops n) grid Hf L Hb Hd Hb) as [dg [g [v [E1 [E2 AN]]]]].
    exists g, v. rewrite offsets_not_str in AN. split; [|assumption]. unfold vacf_compute.
    rewrite Es. cbn [bind]. rewrite E1. cbn [bind]. exact E2.
Qed.
Print Assumptions C88_defined.

(** chi4: one value for every point of the time grid. *)
Theorem C88_chi4_defined : forall (tr : traj Rops) grid n a (frames : list (list (list R))) N skip,
  frames <> [] -> length (t_steps tr) = length frames -> (forall x, In x frames -> length x = N) -> 1 <= t_bs tr -> t_dt tr <> 0%R ->
  adjust_skip Rops (length (t_steps tr)) (t_npart tr) (t_bs tr) n = Ok skip ->
  exists r, chi4_compute Rops tr grid n a frames = Ok r /\ answers tr (offsets_of tr n) grid (map fst r) (map snd r).
Proof.
  intros tr grid n a frames N skip Hf L HN Hb Hd Es. change (num Rops) with R in *.
  destruct (to_step_total (t_dt tr) grid Hd) as [reqs E].
  destruct (C04_setup_t_grid_total Rops (t_steps tr) (t_bs tr) (t_dt tr) grid (not_str_1 Rops n) reqs) as [dg Edg]; [|assumption|exact E|].
  { intros C. rewrite C in L. destruct frames; [congruence|discriminate]. }
  eexists. split; [eapply chi4_compute_spec; eassumption|].
  apply C04_setup_t_grid in Edg. cbv zeta in Edg. destruct Edg as [reqs' [E' [ST [U [N1 _]]]]].
  assert (reqs' = reqs) by congruence. subst reqs'. rewrite offsets_not_str in *.
  split; [rewrite !map_length; reflexivity|]. split.
  - exists (map (lag_dt (t_steps tr)) dg). rewrite map_map. cbn [fst]. split; [unfold times_of; rewrite map_map; reflexivity|].
    split; [assumption|]. intros d Hd'. apply in_map_iff in Hd'. destruct Hd' as [p [<- Hp]].
    destruct (U p Hp) as [Up _]. apply usable_range in Up. exists (fst p + snd p), (fst p). repeat split; lia.
  - intros t Ht. destruct (mapM_In _ _ _ _ _ t E Ht) as [r [Er Hr]].
    destruct (C04_requested_steps (t_dt tr) t Hd) as [r' [Er' B]]. assert (r' = r) by congruence. subst r'.
    destruct (N1 r Hr) as [p [Hp Np]]. exists r, (lag_dt (t_steps tr) p). split; [assumption|]. split; [assumption|].
    rewrite map_map. cbn [fst]. apply in_map_iff. exists p. split; [reflexivity|assumption].
Qed.
Print Assumptions C88_chi4_defined.

(** The classes choose a grid only when none is given: with a grid given by the user the
    times asked for are those, ... *)
Theorem C88_user_grid : forall (tr : traj Rops) grid n rmax ts tz a (frames : list (list (list R))) N skip,
  frames <> [] -> length (t_steps tr) = length frames -> (forall x, In x frames -> length x = N) -> 1 <= t_bs tr -> t_dt tr <> 0%R ->
  adjust_skip Rops (length (t_steps tr)) (t_npart tr) (t_bs tr) n = Ok skip ->
  (forall no, exists g v, msd_compute Rops tr (Some grid) rmax tz n no frames = Ok (g, v) /\
     answers tr (if no then [0] else offsets_of tr n) grid g v) /\
  (exists g v, alpha2_run tr (Some grid) tz n frames = Ok (g, v) /\ answers tr (offsets_of tr n) grid g v) /\
  (exists g v, self_overlap_run tr (Some grid) ts n a frames = Ok (g, v) /\ answers tr (offsets_of tr n) grid g v) /\
  (exists g v, coll_overlap_run tr (Some grid) ts n a frames = Ok (g, v) /\ answers tr (offsets_of tr n) grid g v) /\
  (exists r, chi4_run tr (Some grid) ts n a frames = Ok r /\ answers tr (offsets_of tr n) grid (map fst r) (map snd r)).
Proof.
  intros tr grid n rmax ts tz a frames N skip H1 H2 H3 H4 H5 H6.
  destruct (C88_defined tr grid n rmax tz a frames skip H1 H2 H4 H5 H6) as [A1 [A2 [A3 [A4 _]]]].
  pose proof (C88_chi4_defined tr grid n a frames N skip H1 H2 H3 H4 H5 H6) as A5.
  repeat split; assumption.
Qed.
Print Assumptions C88_user_grid.

(** ... and without one the non-Gaussian parameter answers [tz] equally spaced times from
    0 to three quarters of the total time. *)
Theorem C88_default_grid : forall (tr : traj Rops) n tz (frames : list (list (list R))) skip, (2 <= tz)%Z ->
  frames <> [] -> length (t_steps tr) = length frames -> 1 <= t_bs tr -> t_dt tr <> 0%R ->
  adjust_skip Rops (length (t_steps tr)) (t_npart tr) (t_bs tr) n = Ok skip ->
  exists grid g v, alpha2_run tr None tz n frames = Ok (g, v) /\ answers tr (offsets_of tr n) grid g v /\
    length grid = Z.to_nat tz /\ nth 0 grid 0%R = 0%R /\ nth (length grid - 1) grid 0%R = (3 / 4 * t_total tr)%R.
Proof.
  intros tr n tz frames skip Htz H1 H2 H4 H5 H6. destruct (alpha2_grid_default tr tz Htz) as [grid [E [L [F1 F2]]]].
  destruct (C88_defined tr grid n 0%R tz 0%R frames skip H1 H2 H4 H5 H6) as [_ [_ [_ [[g [v [Ev An]]] _]]]].
  exists grid, g, v. unfold alpha2_run. match goal with |- context[bind ?x _] => replace x with (Ok grid) by (symmetry; exact E) end. cbn [bind]. repeat split; try assumption; apply An.
Qed.
Print Assumptions C88_default_grid.

(** The hypotheses are met by a block trajectory of nine frames. *)
Example C88_nonvacuous : exists (tr : traj Rops) (grid : list R) (n : norigins Rops) (frames : list (list (list R))) skip,
  frames <> [] /\ length (t_steps tr) = length frames /\ 1 <= t_bs tr /\ t_dt tr <> 0%R /\
  adjust_skip Rops (length (t_steps tr)) (t_npart tr) (t_bs tr) n = Ok skip /\
  t_bs tr = 4 /\ length grid = 3 /\ length frames = 9.
Proof.
  exists (mkTraj (A:=Rops) [0; 1; 2; 4; 8; 9; 10; 12; 16]%Z 4 (/ 2)%R 8%R 2), [0; 1; 4]%R, NoNone,
    (map (fun i => [[INR i; 0; 0]; [0; INR i; 0]]%R) (seq 0 9)).
  destruct (C06_accepted 9 2 4 NoNone) as [s E]; [lia|exact I|]. exists s.
  split; [discriminate|]. split; [reflexivity|]. split; [cbn; lia|]. split; [cbn; lra|]. split; [exact E|].
  repeat split; reflexivity.
Qed.
