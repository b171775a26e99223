(** C93, C94: positions, groups and species that enter a calculation. *)
From Coq Require Import Ascii String List ZArith Bool Arith Lia Reals Lra Sorting.Sorted.
From Verif Require Import PyBase PyBaseFacts Num NumFacts M_Helpers M_Correlation M_Dynamics M_Realspace M_Groups M_Arrays M_Cache M_BondAngle M_BaObject.
From Verif Require Import Spec_Stats Spec_Correlation Spec_Dynamics Spec_BondAngle P_Helpers P_Dynamics P_Dynamics2 P_FixCM P_Cache
  Spec_Positions Spec_BaObject P_Positions P_BondAngle T_BondAngle P_BaObject P_Overlap.
Import ListNotations.
Local Open Scope nat_scope.

(** ** C93 *)
(** Unfolded positions recorded in the trajectory are used as they are, for the particles
    the filter selects and in the same order. *)
Theorem C93_recorded : forall A (D : decor A) cbk (frames : list (system A)),
  frames <> [] -> hd [] frames <> [] -> (forall s, In s frames -> recorded s) -> (forall f, In f cbk -> selects f) ->
  exists a, setup_onebody A D (mkPS false true false false) false cbk frames arrays0 = Ok a /\
    a_unf a = map (fun s => map recorded_pos (first_group cbk s)) frames.
Proof. intros A D cbk frames H1 H2 H3 H4. eexists. split; [exact (setup_recorded A D cbk frames H1 H2 H3 H4)|]. destruct cbk; reflexivity. Qed.
Print Assumptions C93_recorded.

(** Otherwise the positions are those of the trajectory unfolded by atooms, which is asked
    to fix the center of mass if the user did; filters apply after. *)
Theorem C93_reconstructed : forall A (D : decor A) fix_cm cbk (frames : list (system A)),
  has_unfolded A frames = Ok false -> has_unfolded A (d_unfold D fix_cm frames) = Ok false ->
  exists a, setup_onebody A D (mkPS false true false false) fix_cm cbk frames arrays0 = Ok a /\
    a_unf a = map (fun s => map p_pos (first_group cbk s)) (d_unfold D fix_cm frames).
Proof. intros A D fix_cm cbk frames H1 H2. eexists. split; [exact (setup_reconstructed A D fix_cm cbk frames H1 H2)|]. destruct cbk; reflexivity. Qed.
Print Assumptions C93_reconstructed.

(** With fix_cm the recorded positions are taken relative to the center of mass of all
    the particles of the frame, also when a filter selects some of them. *)
Theorem C93_fix_cm : forall (D : decor Rops) d q (frames : list (system Rops)),
  frames <> [] -> (forall s, In s frames -> usable_frame d s) -> blind q ->
  (exists a, setup_onebody Rops D (mkPS false true false false) true [filter q] frames arrays0 = Ok a /\
     a_unf a = map (fun s => map (relative_pos d s) (filter q s)) frames) /\
  (exists a, setup_onebody Rops D (mkPS false true false false) true [] frames arrays0 = Ok a /\
     a_unf a = map (fun s => map (relative_pos d s) s) frames).
Proof.
  intros D d q frames Hne Hu Hq. split.
  - eexists. split.
    + apply (setup_fixed D d [filter q] frames Hne Hu). intros f [<-|[]] s p Hp. apply filter_In in Hp. apply Hp.
    + cbn [a_unf one_body]. apply map_ext. intros s. apply relative_filter, Hq.
  - eexists. split.
    + apply (setup_fixed D d [] frames Hne Hu). intros f [].
    + cbn [a_unf one_body]. apply map_ext. intros s. unfold relative. rewrite map_map. reflexivity.
Qed.
Print Assumptions C93_fix_cm.

(** So the MSD of selected particles with fix_cm does not change when all the particles of
    each frame are displaced by a vector that depends on the frame. *)
Theorem C93_drift : forall (D : decor Rops) tr rmax ts n no d cbk (frames : list (system Rops)) (cs : list (list R)) grid,
  frames <> [] -> (forall s, In s frames -> usable_frame d s) -> (forall f, In f cbk -> selects f) ->
  length cs = length frames -> (forall c, In c cs -> length c = d) ->
  msd_call Rops D tr rmax ts n no true cbk (map (fun cs => drifted (fst cs) (snd cs)) (combine cs frames)) (arrays0, grid)
  = msd_call Rops D tr rmax ts n no true cbk frames (arrays0, grid).
Proof.
  intros D tr rmax ts n no d cbk frames cs grid Hne Hu Hs Hl Hc. unfold msd_call. cbn [fst snd].
  assert (forall s, In s (map (fun cs => drifted (fst cs) (snd cs)) (combine cs frames)) -> usable_frame d s) as Hu'.
  { intros s Hin. apply in_map_iff in Hin. destruct Hin as [[c t] [<- Hin]]. cbn [fst snd].
    pose proof (in_combine_l _ _ _ _ Hin) as H1. pose proof (in_combine_r _ _ _ _ Hin) as H2.
    rewrite <- (Hc c H1). apply usable_drifted. rewrite (Hc c H1). apply Hu, H2. }
  change (mkPS false true false false) with unfolded_only.
  rewrite (setup_fixed D d cbk frames Hne Hu Hs).
  rewrite (setup_fixed D d cbk _) by first [assumption | destruct frames, cs; cbn in *; congruence].
  replace (map (fun s => map recorded_pos (one_body cbk (relative d s))) (map (fun cs => drifted (fst cs) (snd cs)) (combine cs frames)))
    with (map (fun s => map recorded_pos (one_body cbk (relative d s))) frames); [reflexivity|].
  rewrite map_map. clear Hne Hu'. revert frames Hl Hu. induction cs as [|c cs IH]; intros [|s frames] Hl Hu; cbn in Hl; try discriminate; [reflexivity|].
  cbn [combine map fst snd]. f_equal.
  - rewrite <- (Hc c (or_introl eq_refl)). rewrite relative_drifted; [reflexivity|]. rewrite (Hc c (or_introl eq_refl)). apply Hu. left. reflexivity.
  - apply IH; [intros x Hx; apply Hc; right; exact Hx|lia|intros x Hx; apply Hu; right; exact Hx].
Qed.
Print Assumptions C93_drift.

(** Two-body correlations: the first group is selected by the first filter, the second by
    the second filter, or by the only one. *)
Theorem C93_groups : forall A (D : decor A) cbk (frames : list (system A)), frames <> [] ->
  exists a0 a1, setup_twobody A D (mkPS true false true false) false cbk frames arrays0 arrays0 arrays0 = Ok (a0, a1) /\
    a_pos a0 = map (fun s => map p_pos (first_group cbk s)) frames /\ a_pos a1 = map (fun s => map p_pos (second_group cbk s)) frames /\
    a_vel a0 = map (fun s => map p_vel (first_group cbk s)) frames /\ a_vel a1 = map (fun s => map p_vel (second_group cbk s)) frames.
Proof.
  intros A D cbk frames Hne. destruct frames as [|s0 frames]; [congruence|].
  destruct cbk as [|f [|g r]]; (eexists; eexists; split; [reflexivity|repeat split; reflexivity]).
Qed.
Print Assumptions C93_groups.

Local Definition ex93_part (sp : string) (m x : R) : part Rops := mkPart (A:=Rops) sp m [0%R] [0%R] (Some [x]).
Example C93_nonvacuous : exists a,
  setup_onebody Rops (mkDecor (A:=Rops) (fun _ l => l) (fun s => s)) (mkPS false true false false) true
    [filter (fun p => String.eqb (p_species p) "A")]
    [[ex93_part "A" 1 0; ex93_part "B" 3 4]; [ex93_part "A" 1 1; ex93_part "B" 3 1]] arrays0 = Ok a /\
  a_unf a = [[[-3]]; [[0]]]%R.
Proof.
  destruct (C93_fix_cm (mkDecor (A:=Rops) (fun _ l => l) (fun s => s)) 1 (fun p => String.eqb (p_species p) "A")
    [[ex93_part "A" 1 0; ex93_part "B" 3 4]; [ex93_part "A" 1 1; ex93_part "B" 3 1]]) as [[a [E Ha]] _].
  - discriminate.
  - intros s [<-|[<-|[]]]; (split; [discriminate|split; [|cbn; lra]]); intros p [<-|[<-|[]]]; eexists; (split; [reflexivity|reflexivity]).
  - intros p u. reflexivity.
  - exists a. split; [exact E|]. rewrite Ha. cbn. repeat f_equal; field.
Qed.

(** ** C94 *)
(** The cutoffs given by the user, one row and column for each species in alphabetical
    order, are those of the pair of species by name: the angles are those between bonds
    shorter than the cutoff of the pair.  As for C35 this is about the angles below the last
    point of the grid and at most fifty neighbours per particle. *)
Theorem C94_cutoffs : forall (D : decor Rops) cbk (frames : list (system Rops)) sides rc l (dtheta : R) skip,
  (0 < dtheta <= 180)%R -> 1 <= skip -> frames <> [] -> length sides = length frames ->
  (forall side L, In side sides -> In L side -> (0 < L)%R) ->
  species_list (hd [] frames) l ->
  (forall s p, In s frames -> In p (first_group cbk s) \/ In p (second_group cbk s) -> In (p_species p) l) ->
  (forall i p, i < length frames -> In p (first_group cbk (nth i frames [])) ->
     length (bonded rc (nth i sides []) p (second_group cbk (nth i frames []))) <= 50) ->
  (exists i, In i (origins 0 skip (length frames)) /\ first_group cbk (nth i frames []) <> []) ->
  let T := trajectory_angles rc cbk skip frames sides in
  exists m centers values, (INR m * dtheta <= 180 < INR (m + 1) * dtheta)%R /\
    ba_object Rops (fun c => acos c * 180 / PI)%R D cbk (cutoff_matrix rc l) (DFloat (dtheta : num Rops)) skip frames sides = Ok (centers, values) /\
    length centers = m /\ length values = m /\
    (forall k, k < m -> (nth k centers 0 = (INR k + 1 / 2) * dtheta)%R) /\
    (forall k, k < m -> (nth k values 0 * dtheta * INR (length (filter (fun t => Rltb t (INR m * dtheta)) T))
       = INR (length (filter (fun t => Rleb (INR k * dtheta) t && Rltb t (INR (k + 1) * dtheta))%bool T)))%R) /\
    ((exists t, In t T /\ (t < INR m * dtheta)%R) -> rsum (map (fun v => v * dtheta)%R values) = 1%R).
Proof.
  intros D cbk frames sides rc l dtheta skip Hdt Hsk Hne Hls Hpos Hl Hsp Hfew Hsome.
  destruct (setup_ids Rops D cbk frames l Hl Hne Hsp) as [a0 [a1 [E [P0 [P1 [I0 I1]]]]]].
  set (fr := map (fun i => built l cbk (nth i frames []) (nth i sides [])) (seq 0 (length frames))).
  assert (ba_input Rops sides a0 a1 = fr) as Ein.
  { unfold ba_input, fr. change (num Rops) with R. rewrite Hls. apply map_ext_in. intros i Hi. apply in_seq in Hi. unfold built. rewrite P0, P1, I0, I1.
    rewrite !(nth_map_lt _ _ _ frames i [] []) by lia. reflexivity. }
  assert (length fr = length frames) as Lfr by (unfold fr; rewrite map_length, seq_length; reflexivity).
  assert (forall i, i < length frames -> nth i fr no_frame = built l cbk (nth i frames []) (nth i sides [])) as Nfr.
  { intros i Hi. unfold fr. rewrite (nth_map_lt _ _ _ _ _ _ 0) by (rewrite seq_length; exact Hi). rewrite seq_nth by exact Hi. reflexivity. }
  assert (forall i, i < length frames -> In (nth i frames []) frames) as Hin by (intros i Hi; apply nth_In, Hi).
  assert (all_angles (cutoff_matrix rc l) skip fr = trajectory_angles rc cbk skip frames sides) as ET.
  { unfold all_angles, trajectory_angles. rewrite Lfr. apply flat_map_ext_in. intros i Hi.
    unfold origins in Hi. apply filter_In in Hi. destruct Hi as [Hi _]. apply in_seq in Hi.
    rewrite Nfr by lia. apply built_angles. intros p Hp. exact (Hsp _ p (Hin i ltac:(lia)) Hp). }
  intros T. subst T. rewrite <- ET.
  destruct (C35_partial (cutoff_matrix rc l) dtheta skip fr Hdt Hsk) as [m [centers [values [B [Eb HR]]]]].
  - intros f Hf. apply (In_nth _ _ no_frame) in Hf. destruct Hf as [i [Hi <-]]. rewrite Lfr in Hi. rewrite Nfr by exact Hi.
    apply built_ok.
    + intros p Hp. exact (Hsp _ p (Hin i Hi) Hp).
    + intros L HL. apply (Hpos (nth i sides [])); [apply nth_In; lia|exact HL].
    + intros p Hp. exact (Hfew i p Hi Hp).
  - destruct Hsome as [i [Hi Hne']]. exists i. rewrite Lfr. split; [exact Hi|].
    unfold origins in Hi. apply filter_In in Hi. destruct Hi as [Hi _]. apply in_seq in Hi. rewrite Nfr by lia.
    cbn [built f_pos0]. destruct (first_group cbk (nth i frames [])); [congruence|discriminate].
  - exists m, centers, values. split; [exact B|]. split; [|exact HR].
    unfold ba_object. change (num Rops) with R in *. rewrite E. cbn [bind]. destruct frames as [|s0 frames']; [congruence|].
    cbn [get nth_error bind]. rewrite (species_list_unique Rops s0 l Hl).
    change (@check_cutoffs Rops) with (check_cutoffs Rops). rewrite (check_matrix rc l (length l) (le_n _)). cbn [bind].
    rewrite Ein. exact Eb.
Qed.
Print Assumptions C94_cutoffs.

(** Species that do not occur in the first frame are refused. *)
Lemma mapM_err : forall X Y (f : X -> res Y) e l, (forall x, In x l -> (exists y, f x = Ok y) \/ f x = Err e) ->
  (exists x, In x l /\ f x = Err e) -> mapM f l = Err e.
Proof.
  intros X Y f e. induction l as [|x l IH]; intros H [y [Hy Ey]]; [destruct Hy|]. cbn [mapM].
  destruct (H x (or_introl eq_refl)) as [[z Ez]|Ez]; rewrite Ez; cbn [bind]; [|reflexivity].
  destruct Hy as [->|Hy]; [congruence|]. rewrite IH; [reflexivity| |exists y; split; assumption].
  intros w Hw. apply H. right. exact Hw.
Qed.
Theorem C94_new_species : forall A acosd (D : decor A) cbk (frames : list (system A)) sides rcut delta skip l,
  species_list (hd [] frames) l ->
  (exists s p, In s frames /\ (In p (first_group cbk s) \/ In p (second_group cbk s)) /\ ~ In (p_species p) l) ->
  ba_object A acosd D cbk rcut delta skip frames sides = Err ValueError.
Proof.
  intros A acosd D cbk frames sides rcut delta skip l Hl [s [p [Hs [Hp Hn]]]].
  destruct frames as [|s0 frames]; [destruct Hs|].
  assert (forall flt : system A -> system A,
    (exists r, dump_first A (mkPS true false false true) (s0 :: frames) flt = Ok r /\ ~ (exists t q, In t (s0 :: frames) /\ In q (flt t) /\ ~ In (p_species q) l)) \/
    dump_first A (mkPS true false false true) (s0 :: frames) flt = Err ValueError /\ (exists t q, In t (s0 :: frames) /\ In q (flt t) /\ ~ In (p_species q) l)) as Hd.
  { intros flt. unfold dump_first. cbn [w_pos w_vel w_ids orb get nth_error bind when]. rewrite (species_list_unique A s0 l Hl).
    assert (forall fs : list (system A),
      (exists r, mapM (fun s => ids_of A l (flt s)) fs = Ok r /\ ~ (exists t q, In t fs /\ In q (flt t) /\ ~ In (p_species q) l)) \/
      mapM (fun s => ids_of A l (flt s)) fs = Err ValueError /\ (exists t q, In t fs /\ In q (flt t) /\ ~ In (p_species q) l)) as Hm.
    { induction fs as [|t fs IH]; [left; eexists; split; [reflexivity|]; intros [t [q [[] _]]]|]. cbn [mapM].
      destruct (in_dec (fun a b : bool => Bool.bool_dec a b) false (map (fun q => if in_dec string_dec (p_species q) l then true else false) (flt t))) as [Hf|Hf].
      - apply in_map_iff in Hf. destruct Hf as [q [Eq Hq]]. destruct (in_dec string_dec (p_species q) l) as [|Nq]; [discriminate|].
        right. split; [|exists t, q; split; [left; reflexivity|split; assumption]].
        unfold ids_of at 1. rewrite (mapM_err _ _ _ ValueError); [reflexivity| |exists q; split; [exact Hq|apply species_index_err, Nq]].
        intros z Hz. destruct (in_dec string_dec (p_species z) l) as [Hz'|Hz']; [left; exact (species_index_ok l _ Hz')|right; exact (species_index_err l _ Hz')].
      - assert (forall q, In q (flt t) -> In (p_species q) l) as Hall.
        { intros q Hq. destruct (in_dec string_dec (p_species q) l) as [|Nq]; [assumption|]. destruct Hf. apply in_map_iff.
          exists q. split; [|exact Hq]. destruct (in_dec string_dec (p_species q) l); [contradiction|reflexivity]. }
        rewrite (ids_of_ok A l (flt t) Hall). cbn [bind]. destruct IH as [[r [E Hr]]|[E Hr]]; rewrite E; cbn [bind].
        + left. eexists. split; [reflexivity|]. intros [t' [q [[<-|Ht] [Hq Nq]]]]; [exact (Nq (Hall q Hq))|]. apply Hr. exists t', q. auto.
        + right. split; [reflexivity|]. destruct Hr as [t' [q [Ht Hq]]]. exists t', q. split; [right; exact Ht|exact Hq]. }
    destruct (Hm (s0 :: frames)) as [[r [E Hr]]|[E Hr]]; rewrite E; cbn [bind]; [left; eexists; split; [reflexivity|exact Hr]|right; split; [reflexivity|exact Hr]]. }
  unfold ba_object.
  assert (setup_twobody A D (mkPS true false false true) false cbk (s0 :: frames) arrays0 arrays0 arrays0 = Err ValueError) as ->; [|reflexivity].
  destruct cbk as [|f [|g r]]; cbn [first_group second_group] in Hp.
  - unfold setup_twobody, setup_onebody, source. cbn [w_unf w_pos bind andb orb].
    destruct (Hd (one_body [])) as [[x [_ Hx]]|[E _]]; [destruct Hx; exists s, p; split; [exact Hs|split; [destruct Hp; assumption|exact Hn]]|rewrite E; reflexivity].
  - unfold setup_twobody, setup_onebody, source. cbn [w_unf w_pos bind andb orb].
    destruct (Hd (one_body [f])) as [[x [_ Hx]]|[E _]]; [destruct Hx; exists s, p; split; [exact Hs|split; [destruct Hp; assumption|exact Hn]]|rewrite E; reflexivity].
  - unfold setup_twobody.
    destruct (Hd f) as [[x [Ex Hx]]|[E _]]; [|rewrite E; reflexivity]. rewrite Ex. cbn [bind].
    destruct (Hd g) as [[y [_ Hy]]|[E _]]; [|rewrite E; reflexivity].
    exfalso. destruct Hp as [Hp|Hp]; [apply Hx|apply Hy]; exists s, p; auto.
Qed.
Print Assumptions C94_new_species.

Local Definition ex94_part (sp : string) (x y : Z) : part F64ops := mkPart (A:=F64ops) sp (f64_ofZ 1) (map f64_ofZ [x; y]) [] None.
Local Definition ex94_real (sp : string) (x y : R) : part Rops := mkPart (A:=Rops) sp 1%R [x; y] [] None.
Local Definition ex94_frame : system Rops := [ex94_real "B" 0 0; ex94_real "A" 1 0; ex94_real "A" 0 1].
(** The only bonds are those between different species: one right angle, counted twice. *)
Example C94_nonvacuous :
  (exists out, ba_object F64ops (fun c => if neq F64ops c (f64_ofZ 0) then f64_ofZ 90 else f64_ofZ 45)
     (mkDecor (A:=F64ops) (fun _ l => l) (fun s => s)) []
     [[f64_frac 1 2; f64_frac 6 5]; [f64_frac 6 5; f64_frac 1 2]] (DFloat (f64_ofZ 60 : num F64ops)) 1
     [[ex94_part "B" 0 0; ex94_part "A" 1 0; ex94_part "A" 0 1]] [map f64_ofZ [10; 10]%Z] = Ok out /\
   snd out = [f64_ofZ 0; f64_frac 1 60; f64_ofZ 0]) /\
  species_list ex94_frame ["A"; "B"]%string /\
  (exists centers values, ba_object Rops (fun c => acos c * 180 / PI)%R (mkDecor (A:=Rops) (fun _ l => l) (fun s => s)) []
     (cutoff_matrix (fun a b => if String.eqb a b then 1 / 2 else 6 / 5)%R ["A"; "B"]%string) (DFloat (60%R : num Rops)) 1
     [ex94_frame] [[10; 10]]%R = Ok (centers, values)) /\
  ba_object F64ops (fun c => c) (mkDecor (A:=F64ops) (fun _ l => l) (fun s => s)) [] [[f64_ofZ 1]] (DFloat (f64_ofZ 60 : num F64ops)) 1
     [[ex94_part "B" 0 0]; [ex94_part "A" 1 0]] [map f64_ofZ [10; 10]%Z; map f64_ofZ [10; 10]%Z] = Err ValueError.
Proof.
  split; [|split; [|split]].
  - eexists. split; [vm_compute; reflexivity|vm_compute; reflexivity].
  - apply (distinct_species_list Rops ex94_frame).
  - destruct (C94_cutoffs (mkDecor (A:=Rops) (fun _ l => l) (fun s => s)) [] [ex94_frame] [[10; 10]]%R
      (fun a b => if String.eqb a b then 1 / 2 else 6 / 5)%R ["A"; "B"]%string 60 1) as [m [c [v [_ [E _]]]]].
    + lra.
    + lia.
    + discriminate.
    + reflexivity.
    + intros side L [<-|[]] [<-|[<-|[]]]; lra.
    + apply (distinct_species_list Rops ex94_frame).
    + intros s p [<-|[]] Hp. cbn [first_group second_group] in Hp. destruct Hp as [Hp|Hp]; destruct Hp as [<-|[<-|[<-|[]]]]; cbn; auto.
    + intros i p Hi Hp. unfold bonded. etransitivity; [apply (filter_length_le _)|]. rewrite seq_length.
      destruct i as [|i]; [cbn; lia|]. cbn in Hi. lia.
    + exists 0. split; [left; reflexivity|discriminate].
    + exists c, v. exact E.
  - apply (C94_new_species F64ops (fun c => c) _ [] _ _ _ _ _ ["B"]%string).
    + apply (distinct_species_list F64ops [ex94_part "B" 0 0]).
    + exists [ex94_part "A" 1 0], (ex94_part "A" 1 0). split; [right; left; reflexivity|]. split; [left; left; reflexivity|].
      intros [C|[]]. discriminate.
Qed.
