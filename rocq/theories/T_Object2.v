(** C53, further classes: repeated compute() of scattering functions, chi4 and radial
    distribution functions. *)
From Coq Require Import Ascii String List ZArith Bool Arith Lia Reals Lra.
From Verif Require Import PyBase PyBaseFacts Num NumFacts M_Helpers M_Correlation M_Dynamics M_Realspace M_Groups M_LinkedCells.
From Verif Require Import M_KGrid M_Fourier M_Fkt M_Arrays M_Chi4Object M_GrObject M_Repeat Spec_Stats Spec_Correlation P_Helpers P_Time P_Skip P_Arrays.
From Verif Require Import Spec_Dynamics Spec_Pairs Spec_LinkedCells Spec_GrObject P_Pairs P_Image P_Count P_Shell P_Gr P_Gr2 P_Gr3 P_GrFast P_GrFast2 P_LinkedCells
  P_LinkedCells3 P_GrObject P_GrObject2 P_GrObject3 P_GrObject4 P_GrObject7 P_GrObject8 T_GrObject.
Import ListNotations.
Local Open Scope nat_scope.

(** ** Scattering functions *)

Lemma foldM_never : forall S X (f : S -> X -> res S) (x : X), (forall s s', f s x <> Ok s') ->
  forall l, In x l -> forall s s', foldM f s l <> Ok s'.
Proof.
  intros S X f x Hx. induction l as [|y l IH]; intros Hin s s'; [destruct Hin|]. cbn [foldM].
  destruct (f s y) as [t|e] eqn:E; cbn [bind]; [|discriminate].
  destruct Hin as [->|Hin]; [exfalso; exact (Hx _ _ E)|]. apply IH, Hin.
Qed.

(** Twice as many frames as steps: the last origin is beyond the steps. *)
Lemma tcf_vector_twice : forall val w steps dgrid skip p, In p dgrid -> fst p + snd p < length steps -> 1 <= skip <= length steps ->
  forall st st', tcf_vector val w steps (length steps + length steps) dgrid skip st <> Ok st'.
Proof.
  intros val w steps dgrid skip p Hp Hin Hs. unfold tcf_vector. apply (foldM_never _ _ _ p); [|exact Hp].
  intros st st'. destruct (py_range (fst p) (length steps + length steps - snd p) skip) as [rng|e] eqn:Er; cbn [bind]; [|discriminate].
  pose (n := length steps + length steps - snd p - fst p).
  pose (q := (n - 1) / skip). pose (i0 := fst p + q * skip).
  assert (Hq : n - 1 < q * skip + skip /\ q * skip <= n - 1).
  { pose proof (Nat.div_mod (n - 1) skip ltac:(lia)) as E. pose proof (Nat.mod_upper_bound (n - 1) skip ltac:(lia)). subst q. nia. }
  assert (Hi : In i0 rng).
  { rewrite py_range_spec in Er by lia. apply Ok_inj in Er. subst rng. apply filter_In. split.
    - apply in_seq. subst i0 n. lia.
    - apply andb_true_iff. split; [apply Nat.leb_le; subst i0; lia|]. apply Nat.eqb_eq.
      replace (i0 - fst p) with (q * skip) by (subst i0; lia). apply Nat.mod_mul. lia. }
  apply (foldM_never _ _ _ i0); [|exact Hi]. intros s s'.
  rewrite get_out by (subst i0 n; lia). cbn [bind]. discriminate.
Qed.

Lemma over_shells_never : forall S K (step : S -> K -> res S) shells, concat shells <> [] -> (forall k s s', step s k <> Ok s') ->
  forall sts sts', over_shells step sts shells <> Ok sts'.
Proof.
  intros S K step shells Hne Hk. induction shells as [|sh sr IH]; intros sts sts'; [destruct Hne; reflexivity|].
  destruct sh as [|k ks]; cbn [concat app] in Hne; cbn [over_shells].
  - destruct sts as [|s r]; [apply IH, Hne|].
    destruct (over_shells step r sr) as [rest|e] eqn:E; cbn [bind]; [|discriminate]. exfalso. exact (IH Hne _ _ E).
  - destruct sts as [|s r]; [discriminate|]. destruct (foldM step s (k :: ks)) as [s'|e] eqn:E; cbn [bind]; [|discriminate].
    exfalso. exact (foldM_never _ _ step k (Hk k) (k :: ks) (or_introl eq_refl) _ _ E).
Qed.

Lemma over_shells_none : forall S K (step : S -> K -> res S) shells, concat shells = [] ->
  forall sts sts', over_shells step sts shells = Ok sts' -> sts' = sts.
Proof.
  intros S K step shells. induction shells as [|sh sr IH]; intros Hc sts sts' H; cbn [over_shells] in H; [apply Ok_inj in H; auto|].
  destruct sh as [|k ks]; [|discriminate Hc]. cbn [concat app] in Hc. destruct sts as [|s r]; [apply IH; assumption|].
  apply bind_Ok_inv in H. destruct H as [rest [E H]]. apply Ok_inj in H. subst sts'. f_equal. apply IH; assumption.
Qed.

Lemma foldM_same : forall S X (f : S -> X -> res S) s0 l s, (forall x s', f s0 x = Ok s' -> s' = s0) -> foldM f s0 l = Ok s -> s = s0.
Proof.
  intros S X f s0 l s Hf. induction l as [|x l IH]; cbn [foldM]; intros H; [apply Ok_inj in H; auto|].
  apply bind_Ok_inv in H. destruct H as [t [E H]]. apply Hf in E. subst t. apply IH, H.
Qed.

(** No wave-vector: no times. *)
Lemma tcf_values_empty : forall (g : list R) tv, tcf_values (map (fun _ => tcf_state0) g) = Ok tv -> fst tv = [].
Proof.
  intros g tv H. unfold tcf_values in H. destruct g as [|x g]; cbn [map] in H; [discriminate|].
  change (get (tcf_state0 :: map (fun _ => tcf_state0) g) 0) with (Ok tcf_state0) in H. cbn [bind] in H.
  apply bind_Ok_inv in H. destruct H as [v [_ H]]. apply Ok_inj in H. subst tv. reflexivity.
Qed.

Lemma self_compute_twice : forall sum block K steps dgrid skip normalize pos r, length pos = length steps -> 1 <= skip <= length steps ->
  dgrid <> [] -> (forall p, In p dgrid -> fst p + snd p < length steps) ->
  self_compute sum block K steps dgrid skip normalize pos = Ok r -> fst r <> [] ->
  exists e, self_compute sum block K steps dgrid skip normalize (pos ++ pos) = Err e.
Proof.
  intros sum block K steps dgrid skip normalize pos r L Hs Hd Hin H Hr.
  assert (Hv : exists p0 js, get pos 0 = Ok p0 /\ py_range 0 (length p0) (block (length p0)) = Ok js /\ js <> [] /\ concat (ks_vectors K) <> []).
  { unfold self_compute, self_loop in H. apply bind_Ok_inv in H. destruct H as [sts [Es H]].
    apply bind_Ok_inv in Es. destruct Es as [p0 [Ep Es]]. destruct (stacked pos); [|discriminate].
    apply bind_Ok_inv in Es. destruct Es as [js [Ej Es]]. exists p0, js. split; [exact Ep|]. split; [exact Ej|].
    apply bind_Ok_inv in H. destruct H as [tv [Et H]].
    assert (Hf : fst r = fst tv).
    { destruct normalize; [apply bind_Ok_inv in H; destruct H as [v [_ H]]|]; apply Ok_inj in H; subst r; reflexivity. }
    assert (Hne : sts <> map (fun _ => tcf_state0) (ks_grid K)).
    { intros ->. apply tcf_values_empty in Et. congruence. }
    split.
    - intros ->. cbn [foldM] in Es. apply Ok_inj in Es. congruence.
    - intros Hc. apply Hne. eapply foldM_same; [|exact Es]. intros j s' Hj. cbv beta zeta in Hj.
      apply bind_Ok_inv in Hj. destruct Hj as [x [_ Hj]]. eapply over_shells_none; eassumption. }
  destruct Hv as [p0 [js [Ep [Ej [Hj Hc]]]]].
  unfold self_compute. match goal with |- exists e, bind ?m _ = _ => destruct m as [sts|e] eqn:Es end; [|exists e; reflexivity].
  exfalso. unfold self_loop in Es.
  assert (Ep2 : get (pos ++ pos) 0 = Ok p0).
  { destruct pos as [|x rest]; [discriminate Ep|exact Ep]. }
  rewrite Ep2 in Es. cbn [bind] in Es. destruct (stacked (pos ++ pos)); [|discriminate]. rewrite Ej in Es. cbn [bind] in Es.
  destruct js as [|j js]; [congruence|]. revert Es. apply (foldM_never _ _ _ j); [|left; reflexivity].
  intros s s'. cbv zeta. match goal with |- bind ?m _ <> _ => destruct m as [x|e] end; cbn [bind]; [|discriminate].
  apply over_shells_never; [exact Hc|]. intros k t t'. rewrite app_length, L.
  destruct dgrid as [|p dgrid]; [congruence|]. apply (tcf_vector_twice _ _ _ _ _ p); [left; reflexivity|apply Hin; left; reflexivity|exact Hs].
Qed.

Lemma fkt_compute_twice : forall K steps dgrid skip normalize pos pos1 r, length pos = length steps -> 1 <= skip <= length steps ->
  dgrid <> [] -> (forall p, In p dgrid -> fst p + snd p < length steps) ->
  fkt_compute K steps dgrid skip normalize pos pos1 = Ok r -> fst (fst r) <> [] ->
  exists e, fkt_compute K steps dgrid skip normalize (pos ++ pos) (match pos1 with None => None | Some q => Some (q ++ q) end) = Err e.
Proof.
  intros K steps dgrid skip normalize pos pos1 r L Hs Hd Hin H Hr.
  assert (Hc : concat (ks_vectors K) <> []).
  { unfold fkt_compute in H. apply bind_Ok_inv in H. destruct H as [r0 [_ H]]. apply bind_Ok_inv in H. destruct H as [r1 [_ H]].
    apply bind_Ok_inv in H. destruct H as [sts [Es H]]. apply bind_Ok_inv in H. destruct H as [tv [Et H]].
    apply bind_Ok_inv in H. destruct H as [v [_ H]]. apply Ok_inj in H. subst r. cbn [fst] in Hr.
    intros Hc. apply (over_shells_none _ _ _ _ Hc) in Es. subst sts. apply tcf_values_empty in Et. congruence. }
  unfold fkt_compute. match goal with |- exists e, bind ?m _ = _ => destruct m as [r0|e] eqn:E0 end; [|exists e; reflexivity].
  cbn [bind]. match goal with |- exists e, bind ?m _ = _ => destruct m as [r1|e] eqn:E1 end; [|exists e; reflexivity].
  cbn [bind]. match goal with |- exists e, bind ?m _ = _ => destruct m as [sts|e] eqn:Es end; [|exists e; reflexivity].
  exfalso. revert Es. apply over_shells_never; [exact Hc|]. intros k t t'.
  assert (Lr : length r0 = length steps + length steps).
  { unfold densities in E0. apply mapM_len in E0. rewrite E0, app_length, L. reflexivity. }
  rewrite Lr. destruct dgrid as [|p dgrid]; [congruence|].
  apply (tcf_vector_twice _ _ _ _ _ p); [left; reflexivity|apply Hin; left; reflexivity|exact Hs].
Qed.

(** After a compute() that gave at least one time, every further compute() of the same object raises. *)
Theorem C53_self_scattering_repeat_refuted :
  forall self (D : decor Rops) (K : kstate Rops) (tr : traj Rops) n skip ts off dg normalize fix_cm cbk frames a1 r,
  self = fskt_legacy \/ (exists nb, self = fskt_fast nb) ->
  (forall b fr, length (d_unfold D b fr) = length fr) -> length frames = length (t_steps tr) -> frames <> [] ->
  adjust_skip Rops (length (t_steps tr)) (t_npart tr) (t_bs tr) n = Ok skip ->
  setup_t_grid Rops (t_steps tr) (t_bs tr) (t_dt tr) ts off = Ok dg -> ts <> [] ->
  self_call self D K (t_steps tr) dg skip normalize fix_cm cbk frames arrays0 = Ok (a1, r) -> fst r <> [] ->
  exists e, self_call self D K (t_steps tr) dg skip normalize fix_cm cbk frames a1 = Err e.
Proof.
  intros self D K tr n skip ts off dg normalize fix_cm cbk frames a1 r Hself HD L Hne Es Eg Ht H Hr.
  unfold self_call in *. apply bind_Ok_inv in H. destruct H as [a [Ea H]]. apply bind_Ok_inv in H. destruct H as [r' [Er H]].
  apply Ok_inj in H. apply pair_equal_spec in H. destruct H as [<- ->].
  destruct (setup_onebody_app _ _ _ _ _ _ _ _ Ea) as [d [Ed [E0 Eo]]]. rewrite arr_app_0 in E0. subst a. rewrite Eo. cbn [bind].
  destruct (setup_onebody_lengths _ _ _ _ _ _ _ HD Ed) as [_ [Lp _]]. specialize (Lp eq_refl).
  assert (X : exists e, self K (t_steps tr) dg skip normalize (a_pos (arr_app Rops d d)) = Err e).
  { assert (Hs : 1 <= skip <= length (t_steps tr)).
    { eapply adjust_skip_range; [|exact Es]. rewrite <- L. destruct frames; [congruence|cbn; lia]. }
    assert (Hd : dg <> []) by (eapply setup_t_grid_nonempty; eassumption).
    assert (Hi : forall p, In p dg -> fst p + snd p < length (t_steps tr)) by (intros p Hp; eapply setup_t_grid_inside; eassumption).
    assert (Ld : length (a_pos d) = length (t_steps tr)) by (etransitivity; [exact Lp|exact L]).
    cbn [arr_app a_pos]. destruct Hself as [->|[nb ->]]; eapply self_compute_twice; eassumption. }
  destruct X as [e X]. exists e. rewrite X. reflexivity.
Qed.
Print Assumptions C53_self_scattering_repeat_refuted.

Lemma dump_first_pos_length : forall A th (flt : system A -> system A) f,
  dump_first A only_pos th flt = Ok f -> length (fst (fst f)) = length th.
Proof.
  intros A th flt f H. unfold dump_first, only_pos in H. cbn [w_pos w_vel w_ids orb when] in H.
  apply bind_Ok_inv in H. destruct H as [s0 [_ H]]. cbn [bind] in H. apply Ok_inj in H. subst f. cbn [fst]. apply map_length.
Qed.

(** With any number of filters. *)
Theorem C53_scattering_repeat_refuted :
  forall (D : decor Rops) (K : kstate Rops) (tr : traj Rops) n skip ts off dg normalize fix_cm cbk frames o1 r,
  (forall b fr, length (d_unfold D b fr) = length fr) -> length frames = length (t_steps tr) -> frames <> [] ->
  adjust_skip Rops (length (t_steps tr)) (t_npart tr) (t_bs tr) n = Ok skip ->
  setup_t_grid Rops (t_steps tr) (t_bs tr) (t_dt tr) ts off = Ok dg -> ts <> [] ->
  pair_call D K (t_steps tr) dg skip normalize fix_cm cbk frames (arrays0, (arrays0, arrays0)) = Ok (o1, r) -> fst (fst r) <> [] ->
  exists e, pair_call D K (t_steps tr) dg skip normalize fix_cm cbk frames o1 = Err e.
Proof.
  intros D K tr n skip ts off dg normalize fix_cm cbk frames o1 r HD L Hne Es Eg Ht H Hr.
  assert (Hs : 1 <= skip <= length (t_steps tr)).
  { eapply adjust_skip_range; [|exact Es]. rewrite <- L. destruct frames; [congruence|cbn; lia]. }
  assert (Hd : dg <> []) by (eapply setup_t_grid_nonempty; eassumption).
  assert (Hi : forall p, In p dg -> fst p + snd p < length (t_steps tr)) by (intros p Hp; eapply setup_t_grid_inside; eassumption).
  assert (One : forall cbk, (a <- setup_onebody Rops D only_pos fix_cm cbk frames arrays0 ;;
      r <- fkt_compute K (t_steps tr) dg skip normalize (a_pos a) None ;; Ok ((a, (a, a)), r)) = Ok (o1, r) ->
      exists e, (a <- setup_onebody Rops D only_pos fix_cm cbk frames (fst o1) ;;
      r <- fkt_compute K (t_steps tr) dg skip normalize (a_pos a) None ;; Ok ((a, (a, a)), r)) = Err e).
  { clear H. intros c H. apply bind_Ok_inv in H. destruct H as [a [Ea H]]. apply bind_Ok_inv in H. destruct H as [r' [Er H]].
    apply Ok_inj in H. apply pair_equal_spec in H. destruct H as [<- ->]. cbn [fst].
    destruct (setup_onebody_app _ _ _ _ _ _ _ _ Ea) as [d [Ed [E0 Eo]]]. rewrite arr_app_0 in E0. subst a. rewrite Eo. cbn [bind].
    destruct (setup_onebody_lengths _ _ _ _ _ _ _ HD Ed) as [_ [Lp _]]. specialize (Lp eq_refl).
    assert (Ld : length (a_pos d) = length (t_steps tr)) by (etransitivity; [exact Lp|exact L]).
    destruct (fkt_compute_twice _ _ _ _ _ _ None _ Ld Hs Hd Hi Er Hr) as [e X]. exists e.
    match goal with |- bind ?m _ = _ => replace m with (@Err (list Z * list (list R) * list (list R)) e) by (symmetry; exact X) end.
    reflexivity. }
  unfold pair_call in *. destruct cbk as [|f0 [|f1 cbk]]; [apply One, H|apply One, H|]. clear One.
  cbn [fst snd setup_twobody] in H. apply bind_Ok_inv in H. destruct H as [aa [Ea H]].
  apply bind_Ok_inv in H. destruct H as [r' [Er H]]. apply Ok_inj in H. apply pair_equal_spec in H. destruct H as [<- ->].
  apply bind_Ok_inv in Ea. destruct Ea as [a [Ea H]]. apply bind_Ok_inv in H. destruct H as [b [Eb H]]. apply Ok_inj in H. subst aa.
  cbn [fst snd setup_twobody]. rewrite Ea. cbn [bind]. rewrite Eb. cbn [bind fst snd arr_app a_pos arrays0 app].
  cbn [fst snd arr_app a_pos arrays0 app] in Er.
  assert (La : length (fst (fst a)) = length (t_steps tr)) by (rewrite (dump_first_pos_length _ _ _ _ Ea); exact L).
  destruct (fkt_compute_twice _ _ _ _ _ _ (Some (fst (fst b))) _ La Hs Hd Hi Er Hr) as [e X]. exists e.
  match goal with |- bind ?m _ = _ => replace m with (@Err (list Z * list (list R) * list (list R)) e) by (symmetry; exact X) end.
  reflexivity.
Qed.
Print Assumptions C53_scattering_repeat_refuted.

(** ** Dynamic susceptibility *)

Lemma chi4_sums_Ok : forall A a2 skip (unf : list (frame A)) p, 1 <= skip -> exists s, chi4_sums A a2 skip unf p = Ok s.
Proof.
  intros A a2 skip unf p Hs. unfold chi4_sums. rewrite py_range_spec by exact Hs. cbn [bind].
  match goal with |- exists s, foldM ?f ?s0 ?l = _ => assert (G : forall l', incl l' l -> forall st, exists s, foldM f st l' = Ok s);
    [|exact (G l (incl_refl _) s0)] end.
  induction l' as [|i l' IH]; intros Hl st; cbn [foldM]; [eexists; reflexivity|].
  assert (Hi : i < length unf - snd p - skip).
  { specialize (Hl i (or_introl eq_refl)). apply filter_In in Hl. destruct Hl as [Hl _]. apply in_seq in Hl. lia. }
  destruct (get unf i) as [x|e] eqn:Ex; [|unfold get in Ex; destruct (nth_error unf i) eqn:En; [discriminate|apply nth_error_None in En; lia]].
  cbn [bind]. destruct (get unf (i + snd p)) as [y|e] eqn:Ey;
    [|unfold get in Ey; destruct (nth_error unf (i + snd p)) eqn:En; [discriminate|apply nth_error_None in En; lia]].
  cbn [bind]. apply IH. intros z Hz. apply Hl. right. exact Hz.
Qed.

Lemma get_some : forall X (l : list X) i, i < length l -> exists x, get l i = Ok x.
Proof.
  intros X l i H. unfold get. destruct (nth_error l i) eqn:E; [eexists; reflexivity|]. apply nth_error_None in E. lia.
Qed.

Lemma chi4_row_time : forall A a2 (tr : traj A) skip (unf : list (frame A)) p, 1 <= skip -> fst p + snd p < length (t_steps tr) ->
  (forall c, chi4_row_of A a2 tr skip unf p = Ok c ->
     c_time c = nmul A (nofZ A (nth (fst p + snd p) (t_steps tr) 0 - nth (fst p) (t_steps tr) 0)%Z) (t_dt tr)) /\
  (0 < length unf -> exists c, chi4_row_of A a2 tr skip unf p = Ok c).
Proof.
  intros A a2 tr skip unf p Hs Hp. unfold chi4_row_of. destruct (chi4_sums_Ok A a2 skip unf p Hs) as [s ->]. cbn [bind].
  rewrite (get_Ok _ _ _ 0%Z Hp). cbn [bind]. rewrite (get_Ok _ _ (fst p) 0%Z) by lia. cbn [bind]. split.
  - intros c H. apply bind_Ok_inv in H. destruct H as [x0 [_ H]]. apply Ok_inj in H. subst c. reflexivity.
  - intros H. destruct (get_some _ unf 0 H) as [x ->]. cbn [bind]. eexists. reflexivity.
Qed.

(** The second compute() succeeds and leaves twice as many values as times: the first ones
    are those of the first call. *)
Theorem C53_chi4_repeat_refuted :
  forall (A : arith) (D : decor A) tr grid n a fix_cm cbk frames o1 r,
  (forall b fr, length (d_unfold D b fr) = length fr) -> length frames = length (t_steps tr) -> frames <> [] -> grid <> [] ->
  chi4_call A D tr grid n a fix_cm cbk frames (arrays0, ([], [], [])) = Ok (o1, r) ->
  length (snd r) = length (fst r) /\
  exists o2 r2 w, chi4_call A D tr grid n a fix_cm cbk frames o1 = Ok (o2, r2) /\
    fst r2 = fst r /\ snd r2 = snd r ++ w /\ length (snd r2) = length (fst r2) + length (fst r2) /\ 0 < length (fst r2).
Proof.
  intros A D tr grid n a fix_cm cbk frames o1 r HD L Hne Hg H.
  unfold chi4_call in H. cbn [fst snd] in H.
  apply bind_Ok_inv in H. destruct H as [x [Ex H]]. apply bind_Ok_inv in H. destruct H as [rows [Er H]]. cbn [app] in H.
  apply Ok_inj in H. apply pair_equal_spec in H. destruct H as [<- <-].
  destruct (setup_onebody_app _ _ _ _ _ _ _ _ Ex) as [d [Ed [E0 Eo]]]. rewrite arr_app_0 in E0. subst x.
  destruct (setup_onebody_lengths _ _ _ _ _ _ _ HD Ed) as [Lu _]. specialize (Lu eq_refl).
  unfold chi4_rows in Er. apply bind_Ok_inv in Er. destruct Er as [skip [Es Er]]. apply bind_Ok_inv in Er. destruct Er as [dg [Eg Er]].
  assert (Hs : 1 <= skip <= length (t_steps tr)).
  { eapply adjust_skip_range; [|exact Es]. rewrite <- L. destruct frames; [congruence|cbn; lia]. }
  assert (Hd : dg <> []) by (eapply setup_t_grid_nonempty; eassumption).
  assert (Hi : forall p, In p dg -> fst p + snd p < length (t_steps tr)) by (intros p Hp; eapply setup_t_grid_inside; eassumption).
  assert (G : forall l rows, (forall p, In p l -> In p dg) -> mapM (chi4_row_of A (nsq A a) tr skip (a_unf d)) l = Ok rows ->
    exists rows', mapM (chi4_row_of A (nsq A a) tr skip (a_unf d ++ a_unf d)) l = Ok rows' /\ map c_time rows' = map c_time rows).
  { induction l as [|p l IH]; intros rw Hl Hm; cbn [mapM] in Hm |- *; [apply Ok_inj in Hm; subst; exists []; split; reflexivity|].
    apply bind_Ok_inv in Hm. destruct Hm as [c [Ec Hm]]. apply bind_Ok_inv in Hm. destruct Hm as [cs [Ecs Hm]]. apply Ok_inj in Hm. subst rw.
    destruct (IH cs (fun q Hq => Hl q (or_intror Hq)) Ecs) as [cs' [E1 E2]].
    destruct (chi4_row_time A (nsq A a) tr skip (a_unf d) p (proj1 Hs) (Hi p (Hl p (or_introl eq_refl)))) as [T _].
    destruct (chi4_row_time A (nsq A a) tr skip (a_unf d ++ a_unf d) p (proj1 Hs) (Hi p (Hl p (or_introl eq_refl)))) as [T2 X].
    destruct X as [c' Ec'].
    { rewrite app_length. assert (length (a_unf d) = length frames) as -> by exact Lu. destruct frames; [congruence|cbn; lia]. }
    exists (c' :: cs'). rewrite Ec'. cbn [bind]. rewrite E1. split; [reflexivity|]. cbn [map]. f_equal; [|exact E2].
    rewrite (T2 _ Ec'), (T _ Ec). reflexivity. }
  destruct (G dg rows (fun p Hp => Hp) Er) as [rows' [E1 E2]].
  cbn [fst snd]. split; [rewrite !map_length; reflexivity|].
  unfold chi4_call. cbn [fst snd]. rewrite Eo. cbn [bind]. unfold chi4_rows. rewrite Es. cbn [bind]. rewrite Eg. cbn [bind].
  cbn [arr_app a_unf]. rewrite E1. cbn [bind].
  do 2 eexists. exists (map c_value rows'). split; [reflexivity|]. cbn [fst snd].
  assert (El : length rows' = length rows) by (pose proof (f_equal (@length _) E2) as X; rewrite !map_length in X; exact X).
  split; [exact E2|]. split; [reflexivity|]. rewrite app_length, !map_length, El. split; [reflexivity|].
  rewrite (mapM_len _ _ _ _ _ Er). destruct dg; [congruence|cbn; lia].
Qed.
Print Assumptions C53_chi4_repeat_refuted.

(** One particle in four frames; the values added by the second call are not those of the first. *)
Definition ex53_traj : traj F64ops := mkTraj (A:=F64ops) [0; 1; 2; 3]%Z 1 (f64_ofZ 1) (f64_ofZ 3) 1.
Definition ex53_part (x : Z) : part F64ops := mkPart (A:=F64ops) "A"%string (f64_ofZ 1) [f64_ofZ x] [f64_ofZ 0] None.
Definition ex53_decor : decor F64ops := mkDecor (A:=F64ops) (fun _ fr => fr) (fun s => s).
Definition ex53_call := chi4_call F64ops ex53_decor ex53_traj (map f64_ofZ [0; 1]%Z) NoNone (f64_ofZ 1) false []
  (map (fun x => [ex53_part x]) [0; 0; 5; 9]%Z).
Definition ex53_first : res (list f64 * list f64) := x <- ex53_call (arrays0, ([], [], [])) ;; Ok (snd x).
Definition ex53_second : res (list f64 * list f64) := x <- ex53_call (arrays0, ([], [], [])) ;; y <- ex53_call (fst x) ;; Ok (snd y).
Example C53_nonvacuous_chi4 :
  let q := ndiv F64ops (f64_ofZ 1) (f64_ofZ 4) in
  ex53_first = Ok (map f64_ofZ [0; 1]%Z, [f64_ofZ 0; q]) /\
  exists v, ex53_second = Ok (map f64_ofZ [0; 1]%Z, [f64_ofZ 0; q; f64_ofZ 0; v]) /\ nlt F64ops v q = true.
Proof.
  split; [vm_compute; reflexivity|].
  pose (v := match ex53_second with Ok r => nth 3 (snd r) (f64_ofZ 0) | Err _ => f64_ofZ 0 end). exists v. subst v.
  split; vm_compute; reflexivity.
Qed.

(** ** Radial distribution function *)
Local Open Scope R_scope.

Lemma all_points_nth : forall dr r l k, all_points dr r l -> (k < length l)%nat -> nth k l 0 = (INR k + 1 / 2) * dr.
Proof.
  intros dr r l k [m [-> _]] Hk. rewrite map_length, seq_length in Hk. apply nth_map_seq, Hk.
Qed.

Lemma all_points_le : forall dr r l k, 0 < dr -> all_points dr r l -> (k < length l)%nat -> (INR k + 1 / 2) * dr <= r.
Proof.
  intros dr r l k Hdr [m [-> [H _]]] Hk. rewrite map_length, seq_length in Hk. eapply Rle_trans; [|exact H].
  apply Rmult_le_compat_r; [lra|]. assert (INR (k + 1) <= INR m) as X by (apply le_INR; lia). rewrite plus_INR in X. cbn [INR] in X. lra.
Qed.

Lemma filter_true : forall X (p : X -> bool) l, (forall x, In x l -> p x = true) -> filter p l = l.
Proof.
  intros X p l H. induction l as [|x l IH]; [reflexivity|]. cbn [filter]. rewrite (H x (or_introl eq_refl)). f_equal.
  apply IH. intros y Hy. apply H. right. exact Hy.
Qed.

Lemma nth_firstn_lt : forall X (l : list X) n k d, (k < n)%nat -> nth k (firstn n l) d = nth k l d.
Proof.
  intros X l n. revert l. induction n as [|n IH]; intros l k d H; [lia|]. destruct l as [|x l]; [reflexivity|].
  destruct k as [|k]; [reflexivity|]. cbn [firstn nth]. apply IH. lia.
Qed.

(** Compiled version, cells with periodic boundaries, default grid.  Each further compute()
    drops the last point of g(r), until none but the first is left and it raises. *)
Theorem C53_gr_fast_repeat_refuted : forall fmax ndims same (p : gparams Rops) skip frames L r,
  good_dim ndims ->
  gr_frames ndims same skip frames -> (forall f, In f frames -> has_cell ndims f /\ all_periodic f) ->
  (forall f x, In f frames -> In x (f_0 f) \/ In x (f_1 f) -> folded x (side_of f)) ->
  g_rmax p <= 0 -> g_grid p = None -> 0 < (g_dr p : R) -> largest L (side_of (frame_at frames 0)) ->
  limit (g_rmax p) (last_used skip frames) r ->
  3 / 2 * g_dr p <= L * sqrt (INR ndims) -> g_dr p / 2 <= r <= L * sqrt (INR ndims) - g_dr p ->
  let calls := gr_calls (fun p => gr_object_fast Rops PI (sqrt (INR ndims)) fmax ndims same p skip frames) in
  exists out, calls 0%nat p = Ok out /\ all_points (g_dr p) r (map fst out) /\
    (forall more, (more < length out)%nat -> calls more p = Ok (firstn (length out - more) out)) /\
    calls (length out) p = Err IndexError.
Proof.
  intros fmax ndims same p skip frames L r Hgd Hf Hca Hfold Hrm Hg Hdr HL Hr H3 [Hr0 Hr1] calls.
  assert (Hdr' : 0 < r) by (unfold Rops in *; cbn [num] in *; lra).
  destruct (C89_fast fmax ndims same p skip frames L r Hgd Hf Hca Hfold) as [out [E [Hp Hv]]]; try assumption; [intros; exfalso; lra|split; assumption|].
  assert (Hins : forall f x, In f frames -> In x (f_0 f) \/ In x (f_1 f) -> inside x (side_of f)) by (intros f x Hi Hx; apply (folded_inside _ _ (Hfold f x Hi Hx))).
  exists out. subst calls. cbv zeta.
  set (F := fun p => gr_object_fast Rops PI (sqrt (INR ndims)) fmax ndims same p skip frames) in *.
  assert (Lo : (1 <= length out)%nat).
  { destruct out as [|o out]; [|cbn; lia]. exfalso. destruct Hp as [m [Em [_ Hm]]]. destruct m; [|discriminate Em].
    cbn [INR] in Hm. unfold Rops in *; cbn [num] in *. lra. }
  set (q := fun j => mkGr (A:=Rops) (Some (map fst (firstn j out))) (g_dr p) (g_rmax p)).
  assert (Lq : forall j, (j <= length out)%nat -> length (map fst (firstn j out)) = j).
  { intros j Hj. rewrite map_length, firstn_length. change (num Rops) with R in *. lia. }
  assert (Nq : forall j k, (k < j <= length out)%nat -> nth k (map fst (firstn j out)) 0 = (INR k + 1 / 2) * g_dr p).
  { intros j k Hk. rewrite <- (all_points_nth _ _ _ k Hp) by (rewrite map_length; change (num Rops) with R in *; lia).
    rewrite <- firstn_map, nth_firstn_lt by lia. reflexivity. }
  assert (Step : forall j, (2 <= j <= length out)%nat -> F (q j) = Ok (firstn (j - 1) out)).
  { intros j Hj. unfold F.
    pose (g := map fst (firstn j out)). assert (Lg : length g = j) by (apply Lq; lia).
    assert (D01 : nth 1 g 0 - nth 0 g 0 = g_dr p).
    { unfold g. rewrite !Nq by lia. cbn [INR]. unfold Rops in *; cbn [num] in *. lra. }
    rewrite (fast_user fmax ndims same (q j) skip frames g r Hgd Hf Hca Hins eq_refl); [|lia|rewrite D01; exact Hdr|exact Hrm|exact Hr].
    rewrite D01, Lg. rewrite filter_true.
    - apply (f_equal (@Ok (list (R * R)))). apply pairs_ext.
      + rewrite map_map. cbn [fst]. apply (nth_ext _ _ 0 0).
        { rewrite !map_length, seq_length, firstn_length. change (num Rops) with R in *. lia. }
        intros k Hk. rewrite map_length, seq_length in Hk. rewrite nth_map_seq by exact Hk. rewrite Nq by lia. reflexivity.
      + intros k Hk. rewrite map_length, seq_length in Hk. rewrite nth_map_seq by exact Hk. cbn [snd].
        rewrite nth_firstn_lt by lia. symmetry. apply Hv; [change (num Rops) with R in *; lia|left; exact Hrm].
    - intros k Hk. apply in_seq in Hk. destruct (Rleb_spec ((INR k + 1 / 2) * g_dr p) r) as [|C]; [reflexivity|].
      exfalso. apply C. apply (all_points_le _ _ _ k Hdr Hp). rewrite map_length. change (num Rops) with R in *. lia. }
  assert (Stop : F (q 1%nat) = Err IndexError).
  { unfold F, gr_object_fast. assert (Hn0 : (0 < length frames)%nat) by (destruct Hf as [_ _ Hne _ _]; destruct frames; [congruence|cbn; lia]).
    destruct (get_some _ frames 0 Hn0) as [f0 ->]. cbn [bind]. unfold gr_setup_grid, q. cbn [g_grid].
    destruct out as [|o out]; [cbn in Lo; lia|]. cbn [firstn map bind]. reflexivity. }
  assert (Calls : forall m j, (m + 2 <= j <= length out)%nat -> gr_calls F m (q j) = Ok (firstn (j - 1 - m) out)).
  { induction m as [|m IH]; intros j Hj; cbn [gr_calls gr_call]; unfold gr_call; rewrite (Step j) by lia; cbn [bind fst snd].
    - rewrite Nat.sub_0_r. reflexivity.
    - change (mkGr (Some (map fst (firstn (j - 1) out))) (g_dr p) (g_rmax p)) with (q (j - 1)%nat).
      etransitivity; [apply IH; lia|]. do 2 f_equal. lia. }
  assert (Q : mkGr (A:=Rops) (Some (map fst out)) (g_dr p) (g_rmax p) = q (length out)) by (unfold q; rewrite firstn_all; reflexivity).
  assert (First : forall m, gr_calls F m p = match m with O => Ok out | S m => gr_calls F m (q (length out)) end).
  { intros m. destruct m as [|m]; cbn [gr_calls]; unfold gr_call; unfold F at 1; rewrite E; cbn [bind fst snd]; [reflexivity|].
    f_equal. exact Q. }
  split; [apply (First 0%nat)|]. split; [exact Hp|]. split.
  - intros m Hm. etransitivity; [apply First|]. destruct m as [|m]; [rewrite Nat.sub_0_r, firstn_all; reflexivity|].
    etransitivity; [apply Calls; lia|]. do 2 f_equal. lia.
  - etransitivity; [apply First|].
    assert (Last : forall m j, j = S m -> (j <= length out)%nat -> gr_calls F m (q j) = Err IndexError).
    { induction m as [|m IH]; intros j -> Hj; cbn [gr_calls]; unfold gr_call.
      - rewrite Stop. reflexivity.
      - rewrite (Step (S (S m))) by lia. cbn [bind fst]. apply (IH (S m)); lia. }
    destruct (length out) as [|l] eqn:El; [lia|]. apply Last; lia.
Qed.
Print Assumptions C53_gr_fast_repeat_refuted.

(** Pure Python version, default grid: further calls report the same distances and the same
    values at all of them but the last one.  Missing: the last value (its bin then includes the
    upper limit). *)
Theorem C53_gr_legacy_partial : forall ndims same (p : gparams Rops) skip frames L r,
  good_dim ndims ->
  gr_frames ndims same skip frames -> (forall f, In f frames -> has_cell ndims f) ->
  g_grid p = None -> 0 < (g_dr p : R) -> largest L (side_of (frame_at frames 0)) -> limit (g_rmax p) (last_used skip frames) r ->
  3 / 2 * g_dr p <= L * sqrt (INR ndims) -> 3 / 2 * g_dr p <= r <= L * sqrt (INR ndims) - g_dr p ->
  let calls := gr_calls (fun p => gr_object_legacy Rops PI (sqrt (INR ndims)) ndims same p skip frames) in
  exists out, calls 0%nat p = Ok out /\ all_points (g_dr p) r (map fst out) /\
    forall more, exists out', calls more p = Ok out' /\ map fst out' = map fst out /\
      forall k, (k + 1 < length out)%nat -> nth k out' (0, 0) = nth k out (0, 0).
Proof.
  intros ndims same p skip frames L r Hgd Hf Hc Hg Hdr HL Hr H3 [Hr0 Hr1] calls.
  assert (Hdr' : 0 < r) by (unfold Rops in *; cbn [num] in *; lra).
  destruct (C89_legacy img_D ndims same p skip frames L r img_D_distance Hgd Hf Hc Hg Hdr HL Hr H3 (conj Hdr' Hr1)) as [out [E [Hp Hv]]].
  exists out. subst calls. cbv zeta.
  set (F := fun p => gr_object_legacy Rops PI (sqrt (INR ndims)) ndims same p skip frames) in *.
  pose (q := mkGr (A:=Rops) (Some (map fst out)) (g_dr p) (g_rmax p)).
  assert (L2 : (2 <= length out)%nat).
  { destruct Hp as [m [Em [_ Hm]]]. apply (f_equal (@length R)) in Em. rewrite !map_length, seq_length in Em.
    change (num Rops) with R in *. rewrite Em. destruct m as [|[|m]]; [exfalso; cbn [INR] in Hm; lra|exfalso; cbn [INR] in Hm; lra|lia]. }
  assert (Lg : length (map fst out) = length out) by apply map_length.
  assert (Nq : forall k, (k < length out)%nat -> nth k (map fst out) 0 = (INR k + 1 / 2) * g_dr p).
  { intros k Hk. apply (all_points_nth _ _ _ k Hp). change (num Rops) with R in *. rewrite Lg. exact Hk. }
  destruct (C92_uniform_partial img_D ndims same q skip frames (map fst out) (g_dr p) r img_D_distance Hgd Hf Hc eq_refl) as [out2 [E2 [G2 V2]]].
  { change (num Rops) with R in *. rewrite Lg. exact L2. } { exact Hdr. }
  { intros k Hk. change (num Rops) with R in *. rewrite Lg in Hk. rewrite !Nq by lia. rewrite plus_INR. cbn [INR]. unfold Rops in *; cbn [num] in *. lra. }
  { exact Hr. }
  change (num Rops) with R in *.
  assert (Gm : map fst out2 = map fst out).
  { rewrite G2. apply filter_true. intros x Hx. apply (In_nth _ _ 0) in Hx. destruct Hx as [k [Hk <-]]. rewrite Lg in Hk. rewrite Nq by exact Hk.
    destruct (Rleb_spec ((INR k + 1 / 2) * g_dr p) r) as [|C]; [reflexivity|]. exfalso. apply C.
    apply (all_points_le _ _ _ k Hdr Hp). rewrite Lg. exact Hk. }
  assert (L22 : length out2 = length out) by (rewrite <- (map_length fst out2), Gm; apply map_length).
  assert (Vm : forall k, (k + 1 < length out)%nat -> nth k out2 (0, 0) = nth k out (0, 0)).
  { intros k Hk. apply injective_projections.
    - transitivity (nth k (map fst out2) 0); [symmetry; exact (map_nth fst out2 (0, 0) k)|]. rewrite Gm. exact (map_nth fst out (0, 0) k).
    - rewrite V2 by (try rewrite Lg; lia). rewrite Hv by lia. rewrite Nq by lia.
      assert (E0 : (INR k + 1 / 2) * g_dr p - g_dr p / 2 = INR k * g_dr p) by (unfold Rops in *; cbn [num] in *; lra).
      assert (E1 : (INR k + 1 / 2) * g_dr p + g_dr p / 2 = INR (k + 1) * g_dr p) by (rewrite plus_INR; cbn [INR]; unfold Rops in *; cbn [num] in *; lra).
      change (num Rops) with R in *. rewrite E0, E1. reflexivity. }
  assert (Later : forall m, gr_calls F m q = Ok out2).
  { induction m as [|m IH]; cbn [gr_calls]; unfold gr_call; unfold F at 1; rewrite E2; cbn [bind fst snd]; [reflexivity|].
    etransitivity; [|exact IH]. f_equal. unfold q. do 2 f_equal. exact Gm. }
  assert (First : forall m, gr_calls F m p = match m with O => Ok out | S m => gr_calls F m q end).
  { intros m. destruct m as [|m]; cbn [gr_calls]; unfold gr_call; unfold F at 1; rewrite E; cbn [bind fst snd]; reflexivity. }
  split; [apply (First 0%nat)|]. split; [exact Hp|]. intros [|m].
  - exists out. split; [apply (First 0%nat)|]. split; reflexivity.
  - exists out2. split; [rewrite First; apply Later|]. split; [exact Gm|exact Vm].
Qed.
Print Assumptions C53_gr_legacy_partial.

(** Cells of sides 10 and 8, bins of width 1: four points, then three, two, one, error. *)
Example C53_nonvacuous_gr :
  let calls := gr_calls (fun p => gr_object_fast Rops PI (sqrt (INR 2)) 100 2 true p 1 ex89) in
  exists out, calls 0%nat ex89_p = Ok out /\ length out = 4%nat /\ calls 1%nat ex89_p = Ok (firstn 3 out) /\
    calls 3%nat ex89_p = Ok (firstn 1 out) /\ calls 4%nat ex89_p = Err IndexError.
Proof.
  assert (gr_frames 2 true 1 ex89) as Hf by apply ex_gr_frames.
  assert (1 <= sqrt 2) as Hs by (rewrite <- sqrt_1; apply sqrt_le_1_alt; lra).
  destruct (C53_gr_fast_repeat_refuted 100 2 true ex89_p 1 ex89 10 4) as [out [E [Hp [Hm Hl]]]]; auto.
  - exact ex_good2.
  - exact ex89_cells.
  - intros f x [<-|[<-|[]]] Hx; cbn in Hx; repeat (destruct Hx as [Hx|Hx]); subst; try contradiction; cbn; repeat constructor; lra.
  - cbn. lra.
  - cbn. lra.
  - exact ex89_largest.
  - exact ex89_limit.
  - replace (INR 2) with 2 by (cbn; lra). cbn [g_dr ex89_p]. lra.
  - replace (INR 2) with 2 by (cbn; lra). cbn [g_dr ex89_p]. lra.
  - assert (Lo : length out = 4%nat).
    { destruct Hp as [m [Em [H1 H2]]]. apply (f_equal (@length R)) in Em. rewrite !map_length, seq_length in Em.
      change (num Rops) with R in *. rewrite Em. cbn [g_dr ex89_p] in H1, H2.
      destruct (Nat.lt_ge_cases m 4) as [C|C]; [assert (X : INR m <= INR 3) by (apply le_INR; lia); cbn in X; lra|].
      destruct (Nat.lt_ge_cases 4 m) as [C'|C']; [assert (X : INR 5 <= INR m) by (apply le_INR; lia); cbn in X; lra|lia]. }
    rewrite Lo in *. exists out. split; [exact E|]. split; [exact Lo|]. split; [apply (Hm 1%nat); lia|].
    split; [apply (Hm 3%nat); lia|exact Hl].
Qed.
