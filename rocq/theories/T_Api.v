(** Theorems about the API functions: C59, C60. *)
From Coq Require Import Ascii String List ZArith Bool Arith Lia Reals Lra.
From Verif Require Import PyBase PyBaseFacts Num M_Helpers M_Api.
Import ListNotations.
Local Open Scope string_scope.

(** ** Specification *)
(** [js] has a job of class [c] for the file of [t], for the whole system or through
    Partial. *)
Definition computes (js : list job) (c : string) (t : th) (partial : bool) : Prop :=
  exists j, In j js /\ j_file j = th_file t /\ j_class j = c /\ j_partial j = partial.

(** Partial correlations are asked for: no filter, no_partial not set. *)
Definition partial_asked (g : globals) : Prop := g_no_partial g = false /\ g_filter g = None.

(** Every job is for one of the files and of this class. *)
Definition only (js : list job) (c : string) (ths : list th) : Prop :=
  forall j, In j js -> j_class j = c /\ exists t, In t ths /\ j_file j = th_file t.

(** The whole system for every file, and the partial functions of every file with
    several species if they are asked for. *)
Definition every_file (js : list job) (c : string) (g : globals) (ths : list th) : Prop :=
  only js c ths /\
  (forall t, In t ths -> computes js c t false) /\
  (forall t, In t ths -> partial_asked g -> 2 <= th_species t -> computes js c t true) /\
  (~ partial_asked g -> forall j, In j js -> j_partial j = false).

(** ** Lists of jobs *)
Lemma mapM_in : forall X Y (f : X -> res Y) l r y, mapM f l = Ok r -> In y r -> exists x, In x l /\ f x = Ok y.
Proof.
  intros X Y f l. induction l as [|x l IH]; intros r y H Hy; cbn [mapM] in H.
  - apply Ok_inj in H. subst r. destruct Hy.
  - apply bind_Ok_inv in H. destruct H as [y0 [E H]]. apply bind_Ok_inv in H. destruct H as [r' [E' H]]. apply Ok_inj in H. subst r.
    destruct Hy as [<-|Hy]; [exists x; split; [left; reflexivity|assumption]|].
    destruct (IH r' y E' Hy) as [x' [A B]]. exists x'. split; [right; assumption|assumption].
Qed.
Lemma mapM_in_inv : forall X Y (f : X -> res Y) l r x, mapM f l = Ok r -> In x l -> exists y, In y r /\ f x = Ok y.
Proof.
  intros X Y f l. induction l as [|x0 l IH]; intros r x H Hx; [destruct Hx|]. cbn [mapM] in H.
  apply bind_Ok_inv in H. destruct H as [y0 [E H]]. apply bind_Ok_inv in H. destruct H as [r' [E' H]]. apply Ok_inj in H. subst r.
  destruct Hx as [<-|Hx]; [exists y0; split; [left; reflexivity|assumption]|].
  destruct (IH r' x E' Hx) as [y [A B]]. exists y. split; [right; assumption|assumption].
Qed.

Lemma for_each_in : forall body ths js j, for_each body ths = Ok js -> In j js -> exists t jt, In t ths /\ body t = Ok jt /\ In j jt.
Proof.
  intros body ths js j H Hj. unfold for_each in H. apply bind_Ok_inv in H. destruct H as [jss [E H]]. apply Ok_inj in H. subst js.
  apply in_concat in Hj. destruct Hj as [jt [H1 H2]]. destruct (mapM_in _ _ _ _ _ _ E H1) as [t [A B]]. exists t, jt. auto.
Qed.
Lemma for_each_in_inv : forall body ths js t, for_each body ths = Ok js -> In t ths -> exists jt, body t = Ok jt /\ forall j, In j jt -> In j js.
Proof.
  intros body ths js t H Ht. unfold for_each in H. apply bind_Ok_inv in H. destruct H as [jss [E H]]. apply Ok_inj in H. subst js.
  destruct (mapM_in_inv _ _ _ _ _ _ E Ht) as [jt [A B]]. exists jt. split; [assumption|]. intros j Hj. apply in_concat. exists jt. auto.
Qed.
Lemma for_each_total : forall body ths, (forall t, In t ths -> exists jt, body t = Ok jt) -> exists js, for_each body ths = Ok js.
Proof.
  intros body ths H. unfold for_each. assert (M : exists jss, mapM body ths = Ok jss).
  { induction ths as [|t ths IH]; [exists []; reflexivity|]. destruct (H t (or_introl eq_refl)) as [jt E].
    destruct IH as [jss Es]; [intros; apply H; right; assumption|]. exists (jt :: jss). cbn [mapM]. rewrite E, Es. reflexivity. }
  destruct M as [jss ->]. exists (concat jss). reflexivity.
Qed.

(** The common shape: a job for the system, one for the partial functions. *)
Definition shape (c : string) (g : globals) (body : th -> res (list job)) : Prop :=
  forall t jt, body t = Ok jt -> exists j1 j2, jt = j1 :: (if with_partial (compat g) t then [j2] else []) /\
    j_file j1 = th_file t /\ j_class j1 = c /\ j_partial j1 = false /\
    j_file j2 = th_file t /\ j_class j2 = c /\ j_partial j2 = true.

Lemma with_partial_iff : forall g t, with_partial (compat g) t = true <-> partial_asked g /\ 2 <= th_species t.
Proof.
  intros g t. unfold with_partial, compat, partial_asked. cbn [g_no_partial]. rewrite andb_true_iff, Nat.ltb_lt, negb_true_iff, orb_false_iff.
  unfold given. destruct (g_filter g); split; intros H; repeat split; try tauto; try lia; destruct H; intuition; try discriminate.
Qed.

Lemma shape_every : forall c g body ths js, shape c g body -> for_each body ths = Ok js -> every_file js c g ths.
Proof.
  intros c g body ths js S H. split; [|split; [|split]].
  - intros j Hj. destruct (for_each_in _ _ _ _ H Hj) as [t [jt [Ht [E Hi]]]]. destruct (S t jt E) as [j1 [j2 [-> [A [B [_ [D [F _]]]]]]]].
    destruct Hi as [<-|Hi]; [split; [assumption|exists t; auto]|]. destruct (with_partial _ _); [|destruct Hi].
    destruct Hi as [<-|[]]. split; [assumption|exists t; auto].
  - intros t Ht. destruct (for_each_in_inv _ _ _ _ H Ht) as [jt [E I]]. destruct (S t jt E) as [j1 [j2 [-> [A [B [D _]]]]]].
    exists j1. split; [apply I; left; reflexivity|auto].
  - intros t Ht P N. destruct (for_each_in_inv _ _ _ _ H Ht) as [jt [E I]]. destruct (S t jt E) as [j1 [j2 [-> [_ [_ [_ [A [B D]]]]]]]].
    rewrite (proj2 (with_partial_iff g t)) in I by tauto. exists j2. split; [apply I; right; left; reflexivity|auto].
  - intros P j Hj. destruct (for_each_in _ _ _ _ H Hj) as [t [jt [Ht [E Hi]]]]. destruct (S t jt E) as [j1 [j2 [-> [_ [_ [D _]]]]]].
    destruct (with_partial (compat g) t) eqn:W; [apply with_partial_iff in W; tauto|]. destruct Hi as [<-|[]]. assumption.
Qed.

(** ** C59 *)
(** gr, sk (without weight file, or for one file), msd, vacf, alpha2, qst, qt and ba
    compute their function for every file. *)
Definition rdf (g : globals) : string := if g_legacy g then "RadialDistributionFunctionLegacy" else "RadialDistributionFunction".
Definition sfactor (g : globals) : string := if g_fast g then "StructureFactorFast" else "StructureFactorLegacy".

Lemma shape_of : forall c g body,
  (forall t jt, body t = Ok jt -> exists j1 j2, jt = j1 :: (if with_partial (compat g) t then [j2] else []) /\
    j_file j1 = th_file t /\ j_class j1 = c /\ j_partial j1 = false /\
    j_file j2 = th_file t /\ j_class j2 = c /\ j_partial j2 = true) -> shape c g body.
Proof. intros c g body H. exact H. Qed.

Theorem C59_every_file_partial : forall g ths,
  (forall dr ndim rmax, exists js, api_gr g dr ndim rmax ths = Ok js /\ every_file js (rdf g) g ths) /\
  (forall nk dk kmin kmax ks kgrid w wt wf, (wt = None \/ length ths <= 1) ->
     exists js, api_sk g nk dk kmin kmax ks kgrid w wt wf ths = Ok js /\ every_file js (sfactor g) g ths) /\
  (forall dtheta, exists js, api_ba g dtheta ths = Ok js /\ every_file js "BondAngleDistribution" g ths) /\
  (forall tm tf ts sigma func rm fc no js, api_msd g tm tf ts sigma func rm fc no ths = Ok js -> every_file js "MeanSquareDisplacement" g ths) /\
  (forall tm tf ts func js, api_vacf g tm tf ts func ths = Ok js -> every_file js "VelocityAutocorrelation" g ths) /\
  (forall tm tf ts func js, api_alpha2 g tm tf ts func ths = Ok js -> every_file js "NonGaussianParameter" g ths) /\
  (forall tm tf ts func js, api_qst g tm tf ts func ths = Ok js -> every_file js "SelfOverlap" g ths) /\
  (forall tm tf ts func js, api_qt g tm tf ts func ths = Ok js -> every_file js "CollectiveOverlap" g ths).
Proof.
  intros g ths.
  assert (SI : forall c clip tm tf ts func js, api_simple c clip g tm tf ts func ths = Ok js -> every_file js c g ths).
  { intros c clip tm tf ts func js H. unfold api_simple in H. apply bind_Ok_inv in H. destruct H as [f [_ H]].
    revert H. apply shape_every. apply shape_of. intros t jt E. apply bind_Ok_inv in E. destruct E as [tg [_ E]]. apply Ok_inj in E. subst jt.
    eexists _, _. split; [reflexivity|]. repeat split. }
  repeat match goal with |- _ /\ _ => split end.
  - intros dr ndim rmax. unfold api_gr.
    match goal with |- exists js, for_each ?b _ = _ /\ _ => destruct (for_each_total b ths) as [js E]; [intros; eexists; reflexivity|] end.
    exists js. split; [exact E|]. revert E. apply shape_every. apply shape_of. intros t jt E. apply Ok_inj in E. subst jt.
    eexists _, _. split; [reflexivity|]. repeat split.
  - intros nk dk kmin kmax ks kgrid w wt wf Hw. unfold api_sk.
    replace (given wt && (1 <? length ths)%nat) with false.
    2:{ symmetry. destruct Hw as [->|Hw]; [reflexivity|]. destruct (Nat.ltb_spec 1 (length ths)); [lia|]. apply andb_false_r. }
    match goal with |- exists js, for_each ?b _ = _ /\ _ => destruct (for_each_total b ths) as [js E]; [intros; eexists; reflexivity|] end.
    exists js. split; [exact E|]. revert E. apply shape_every. apply shape_of. intros t jt E. apply Ok_inj in E. subst jt.
    eexists _, _. split; [reflexivity|]. repeat split.
  - intros dtheta. unfold api_ba.
    match goal with |- exists js, for_each ?b _ = _ /\ _ => destruct (for_each_total b ths) as [js E]; [intros; eexists; reflexivity|] end.
    exists js. split; [exact E|]. revert E. apply shape_every. apply shape_of. intros t jt E. apply Ok_inj in E. subst jt.
    eexists _, _. split; [reflexivity|]. repeat split.
  - intros tm tf ts sigma func rm fc no js H. unfold api_msd in H. apply bind_Ok_inv in H. destruct H as [f [_ H]].
    revert H. apply shape_every. apply shape_of. intros t jt E. apply bind_Ok_inv in E. destruct E as [tg [_ E]]. apply Ok_inj in E. subst jt.
    eexists _, _. split; [reflexivity|]. repeat split.
  - intros. eapply SI. eassumption.
  - intros. eapply SI. eassumption.
  - intros. eapply SI. eassumption.
  - intros. eapply SI. eassumption.
Qed.
Print Assumptions C59_every_file_partial.

(** fkt, fskt and chi4qs: for every file under the conditions stated. *)
Theorem C59_total_or_partial_partial : forall g ths,
  (forall c extra tm tf ts k1 k2 ks dk nk kgrid func fc total js,
     api_scattering c extra g tm tf ts k1 k2 ks dk nk kgrid func fc total ths = Ok js -> only js c ths /\
     forall t, In t ths -> (computes js c t false <-> (exists t', In t' ths /\ th_file t' = th_file t /\ (total = true \/ th_species t' = 1))) /\
                           (computes js c t true <-> (exists t', In t' ths /\ th_file t' = th_file t /\ partial_asked g /\ 2 <= th_species t'))) /\
  (forall ts a tm func tf total js, api_chi4qs g ts a tm func tf total ths = Ok js -> only js "Chi4SelfOverlap" ths /\
     forall t, In t ths -> (computes js "Chi4SelfOverlap" t false <-> total = true) /\
                           (computes js "Chi4SelfOverlap" t true <-> (exists t', In t' ths /\ th_file t' = th_file t /\ total = false /\ 2 <= th_species t'))).
Proof.
  intros g ths. split.
  - intros c extra tm tf ts k1 k2 ks dk nk kgrid func fc total js H. unfold api_scattering in H. apply bind_Ok_inv in H. destruct H as [f [_ H]].
    assert (Sh : forall t jt, (tg <- time_grid false f tm tf ts t ;; kg <- match kgrid with Some l => Ok l | None => linear_grid Rops k1 k2 (DInt ks) end ;;
      Ok (((if (total || Nat.eqb (th_species t) 1)%bool then [mkJob (th_file t) c false None (g_update (compat g))
        ([("kgrid", AList kg); ("tgrid", tg); ("norigins", g_norigins (compat g)); ("nk", AInt nk); ("dk", ANum dk); ("fix_cm", ABool fc)] ++ extra)%list] else []) ++
        (if with_partial (compat g) t then [mkJob (th_file t) c true None (g_update (compat g))
        ([("kgrid", AList kg); ("tgrid", tg); ("norigins", g_norigins (compat g)); ("nk", AInt nk); ("dk", ANum dk); ("fix_cm", ABool fc)] ++ extra)%list] else []))%list)) = Ok jt ->
      exists args, jt = ((if (total || Nat.eqb (th_species t) 1)%bool then [mkJob (th_file t) c false None (g_update (compat g)) args] else []) ++
        (if with_partial (compat g) t then [mkJob (th_file t) c true None (g_update (compat g)) args] else []))%list).
    { intros t jt E. apply bind_Ok_inv in E. destruct E as [tg [_ E]]. apply bind_Ok_inv in E. destruct E as [kg [_ E]]. apply Ok_inj in E. subst jt. eexists. reflexivity. }
    split; [|intros t Ht; split; split].
    + intros j Hj. destruct (for_each_in _ _ _ _ H Hj) as [t [jt [Ht [E Hi]]]]. destruct (Sh t jt E) as [args ->].
      apply in_app_or in Hi. destruct Hi as [Hi|Hi].
      * destruct (total || _)%bool; [|destruct Hi]. destruct Hi as [<-|[]]. split; [reflexivity|exists t; auto].
      * destruct (with_partial _ _); [|destruct Hi]. destruct Hi as [<-|[]]. split; [reflexivity|exists t; auto].
    + intros [j [Hj [F [_ P]]]]. destruct (for_each_in _ _ _ _ H Hj) as [t' [jt [Ht' [E Hi]]]]. destruct (Sh t' jt E) as [args ->].
      apply in_app_or in Hi. destruct Hi as [Hi|Hi].
      * exists t'. destruct (total || _)%bool eqn:B; [|destruct Hi]. destruct Hi as [<-|[]]. split; [assumption|]. split; [exact F|].
        apply orb_true_iff in B. destruct B as [->|B]; [left; reflexivity|right; apply Nat.eqb_eq; exact B].
      * destruct (with_partial _ _); [|destruct Hi]. destruct Hi as [<-|[]]. discriminate.
    + intros [t' [Ht' [F B]]]. destruct (for_each_in_inv _ _ _ _ H Ht') as [jt [E I]]. destruct (Sh t' jt E) as [args ->].
      exists (mkJob (th_file t') c false None (g_update (compat g)) args). split; [|repeat split; exact F].
      apply I, in_or_app. left. replace (total || Nat.eqb (th_species t') 1)%bool with true; [left; reflexivity|].
      symmetry. apply orb_true_iff. destruct B as [-> | ->]; [left|right]; reflexivity.
    + intros [j [Hj [F [_ P]]]]. destruct (for_each_in _ _ _ _ H Hj) as [t' [jt [Ht' [E Hi]]]]. destruct (Sh t' jt E) as [args ->].
      apply in_app_or in Hi. destruct Hi as [Hi|Hi].
      * destruct (total || _)%bool; [|destruct Hi]. destruct Hi as [<-|[]]. discriminate.
      * exists t'. destruct (with_partial _ _) eqn:W; [|destruct Hi]. destruct Hi as [<-|[]]. split; [assumption|]. split; [exact F|].
        apply with_partial_iff. exact W.
    + intros [t' [Ht' [F B]]]. destruct (for_each_in_inv _ _ _ _ H Ht') as [jt [E I]]. destruct (Sh t' jt E) as [args ->].
      exists (mkJob (th_file t') c true None (g_update (compat g)) args). split; [|repeat split; exact F].
      apply I, in_or_app. right. rewrite (proj2 (with_partial_iff g t') B). left. reflexivity.
  - intros ts a tm func tf total js H. unfold api_chi4qs in H. apply bind_Ok_inv in H. destruct H as [f [_ H]].
    destruct (g_fast (compat g)); [discriminate|].
    assert (Sh : forall t jt, (tg <- time_grid true f tm tf ts t ;;
      Ok (((if total then [mkJob (th_file t) "Chi4SelfOverlap" false None (g_update (compat g)) [("tgrid", tg); ("a", ANum a); ("norigins", g_norigins (compat g))]] else []) ++
        (if (negb total && Nat.ltb 1 (th_species t))%bool then [mkJob (th_file t) "Chi4SelfOverlap" true None (g_update (compat g)) [("tgrid", tg); ("a", ANum a); ("norigins", g_norigins (compat g))]] else []))%list)) = Ok jt ->
      exists args, jt = ((if total then [mkJob (th_file t) "Chi4SelfOverlap" false None (g_update (compat g)) args] else []) ++
        (if (negb total && Nat.ltb 1 (th_species t))%bool then [mkJob (th_file t) "Chi4SelfOverlap" true None (g_update (compat g)) args] else []))%list).
    { intros t jt E. apply bind_Ok_inv in E. destruct E as [tg [_ E]]. apply Ok_inj in E. subst jt. eexists. reflexivity. }
    split; [|intros t Ht; split; split].
    + intros j Hj. destruct (for_each_in _ _ _ _ H Hj) as [t [jt [Ht [E Hi]]]]. destruct (Sh t jt E) as [args ->].
      apply in_app_or in Hi. destruct Hi as [Hi|Hi].
      * destruct total; [|destruct Hi]. destruct Hi as [<-|[]]. split; [reflexivity|exists t; auto].
      * destruct (negb total && _)%bool; [|destruct Hi]. destruct Hi as [<-|[]]. split; [reflexivity|exists t; auto].
    + intros [j [Hj [F [_ P]]]]. destruct (for_each_in _ _ _ _ H Hj) as [t' [jt [Ht' [E Hi]]]]. destruct (Sh t' jt E) as [args ->].
      destruct total; [reflexivity|]. destruct (_ && _)%bool; [|destruct Hi]. destruct Hi as [<-|[]]. discriminate.
    + intros ->. destruct (for_each_in_inv _ _ _ _ H Ht) as [jt [E I]]. destruct (Sh t jt E) as [args ->].
      eexists. split; [apply I; left; reflexivity|repeat split].
    + intros [j [Hj [F [_ P]]]]. destruct (for_each_in _ _ _ _ H Hj) as [t' [jt [Ht' [E Hi]]]]. destruct (Sh t' jt E) as [args ->].
      exists t'. destruct total.
      * destruct Hi as [<-|[]]. discriminate.
      * destruct (_ && _)%bool eqn:B; [|destruct Hi]. destruct Hi as [<-|[]]. split; [assumption|]. split; [exact F|]. split; [reflexivity|].
        apply andb_true_iff in B. destruct B as [_ B]. apply Nat.ltb_lt in B. exact B.
    + intros [t' [Ht' [F [-> B]]]]. destruct (for_each_in_inv _ _ _ _ H Ht') as [jt [E I]]. destruct (Sh t' jt E) as [args ->].
      exists (mkJob (th_file t') "Chi4SelfOverlap" true None (g_update (compat g)) args). split; [|repeat split; exact F].
      apply I. cbn [negb andb app]. replace (Nat.ltb 1 (th_species t')) with true by (symmetry; apply Nat.ltb_lt; exact B). left. reflexivity.
Qed.
Print Assumptions C59_total_or_partial_partial.

(** The claim fails: ik computes nothing but the first file, and nothing at all when the
    radius file is given; fkt and fskt of several species with no_partial or a filter
    compute nothing; chi4qs of one species computes nothing, and fails with fast; sk
    with a weight file fails for two files. *)
Theorem C59_every_file_refuted : forall g t t',
  (forall nk dk kmin kmax ks kgrid, exists js, api_ik g None nk dk kmin kmax ks kgrid [t; t'] = Ok js /\
     (th_file t' <> th_file t -> forall c p, ~ computes js c t' p)) /\
  (forall r nk dk kmin kmax ks kgrid, api_ik g (Some r) nk dk kmin kmax ks kgrid [t; t'] = Ok []) /\
  (~ partial_asked g -> 2 <= th_species t -> forall ts k1 k2 ks dk nk kl fc,
     api_fkt g 0 0 ts k1 k2 ks dk nk (Some kl) "logx" fc false [t] = Ok [] /\
     api_fskt 64 g 0 0 ts k1 k2 ks dk nk (Some kl) "logx" fc false [t] = Ok []) /\
  (g_fast g = false -> th_species t = 1 -> forall ts a, api_chi4qs g ts a 0 "logx" 0 false [t] = Ok []) /\
  (g_fast g = true -> forall ts a tm tf total, api_chi4qs g ts a tm "logx" tf total [t] = Err AttributeError) /\
  (forall nk dk kmin kmax ks kgrid w f wf, api_sk g nk dk kmin kmax ks kgrid w (Some f) wf [t; t'] = Err TypeError).
Proof.
  intros g t t'. repeat match goal with |- _ /\ _ => split end.
  - intros. eexists. split; [reflexivity|]. cbn. intros D c p [j [[<-|[]] [F _]]]. cbn in F. congruence.
  - reflexivity.
  - intros N S ts k1 k2 ks dk nk kl fc.
    assert (W : with_partial (compat g) t = false).
    { destruct (with_partial (compat g) t) eqn:W; [|reflexivity]. apply with_partial_iff in W. tauto. }
    assert (O : Nat.eqb (th_species t) 1 = false) by (apply Nat.eqb_neq; lia).
    assert (R0 : Rltb 0 0 = false) by (unfold Rltb; destruct (Rlt_dec 0 0); [lra|reflexivity]).
    split; unfold api_fkt, api_fskt, api_scattering, time_func, for_each, time_grid; cbn [String.eqb orb bind mapM Ascii.eqb Bool.eqb];
      rewrite R0; cbn [bind]; rewrite O, W; reflexivity.
  - intros F S ts a. unfold api_chi4qs, time_func, for_each, time_grid, compat. cbn [String.eqb orb bind mapM Ascii.eqb Bool.eqb g_fast]. rewrite F.
    assert (R0 : Rltb 0 0 = false) by (unfold Rltb; destruct (Rlt_dec 0 0); [lra|reflexivity]).
    rewrite R0. cbn [bind negb andb]. rewrite S. reflexivity.
  - intros F ts a tm tf total. unfold api_chi4qs, time_func, compat. cbn [String.eqb orb bind Ascii.eqb Bool.eqb g_fast]. rewrite F. reflexivity.
  - reflexivity.
Qed.
Print Assumptions C59_every_file_refuted.

Definition plain : globals := mkGlobals ANone false false false None false.
Definition two_files : list th := [mkTh "a.xyz" 1 100 1; mkTh "b.xyz" 1 100 2].
Example C59_nonvacuous :
  (exists js, api_gr plain (ANum 1) (-1) (-1) two_files = Ok js /\ length js = 3) /\
  partial_asked plain /\
  (exists js, api_qst plain 0 0 60 "logx" two_files = Ok js /\ length js = 3) /\
  (exists js, api_fkt plain 0 0 60 7 7 1 1 100 (Some [7%R]) "logx" false false two_files = Ok js /\ length js = 2) /\
  (exists js, api_chi4qs plain 60 1 0 "logx" 0 false two_files = Ok js /\ length js = 1).
Proof.
  assert (R0 : Rltb 0 0 = false) by (unfold Rltb; destruct (Rlt_dec 0 0); [lra|reflexivity]).
  split; [eexists; split; reflexivity|]. split; [split; reflexivity|].
  split; [|split]; eexists; unfold api_qst, api_simple, api_fkt, api_scattering, api_chi4qs, time_func, for_each, time_grid, two_files;
    cbn [String.eqb orb bind mapM Ascii.eqb Bool.eqb plain compat g_fast]; rewrite R0; split; reflexivity.
Qed.

(** ** C60 *)
Definition option_of (j : job) (name : string) : option arg :=
  match find (fun p => String.eqb (fst p) name) (j_args j) with Some p => Some (snd p) | None => None end.

(** All the jobs of a call have the condition [f] and the value [u] of update. *)
Definition all_with (js : list job) (f : option string) (u : bool) : Prop :=
  forall j, In j js -> j_filter j = f /\ j_update j = u.

(** The jobs of the same file have the same arguments. *)
Definition alike (js : list job) : Prop :=
  forall j j', In j js -> In j' js -> j_file j = j_file j' -> j_args j = j_args j'.

Lemma alike_for_each : forall body ths js, NoDup (map th_file ths) ->
  (forall t jt, In t ths -> body t = Ok jt -> exists a, forall j, In j jt -> j_file j = th_file t /\ j_args j = a) ->
  for_each body ths = Ok js -> alike js.
Proof.
  intros body ths js ND H E j j' Hj Hj' F.
  destruct (for_each_in _ _ _ _ E Hj) as [t [jt [Ht [Et Hi]]]]. destruct (for_each_in _ _ _ _ E Hj') as [t' [jt' [Ht' [Et' Hi']]]].
  assert (T : t = t').
  { destruct (H t jt Ht Et) as [a A]. destruct (H t' jt' Ht' Et') as [a' A']. destruct (A j Hi) as [F1 _]. destruct (A' j' Hi') as [F2 _].
    assert (G : th_file t = th_file t') by congruence. clear - ND Ht Ht' G.
    induction ths as [|x ths IH]; [destruct Ht|]. cbn [map] in ND. inversion ND as [|? ? Nx ND']; subst.
    destruct Ht as [<-|Ht]; destruct Ht' as [<-|Ht']; [reflexivity| | |apply IH; assumption].
    - exfalso. apply Nx. rewrite G. apply in_map. assumption.
    - exfalso. apply Nx. rewrite <- G. apply in_map. assumption. }
  subst t'. assert (jt = jt') by congruence. subst jt'. destruct (H t jt Ht Et) as [a A].
  destruct (A j Hi) as [_ ->]. destruct (A j' Hi') as [_ ->]. reflexivity.
Qed.

(** gr, sk and ba honour the filter: with one, no unfiltered job is run. *)
Theorem C60_filter_partial : forall g ths f, g_filter g = Some f ->
  (forall dr ndim rmax js, api_gr g dr ndim rmax ths = Ok js -> all_with js (Some f) (g_update g)) /\
  (forall nk dk kmin kmax ks kgrid w wt wf js, api_sk g nk dk kmin kmax ks kgrid w wt wf ths = Ok js -> all_with js (Some f) (g_update g)) /\
  (forall dtheta js, api_ba g dtheta ths = Ok js -> all_with js (Some f) (g_update g)).
Proof.
  intros g ths f Hf.
  assert (W : forall t, with_partial (compat g) t = false).
  { intros t. destruct (with_partial (compat g) t) eqn:W; [|reflexivity]. apply with_partial_iff in W. destruct W as [[_ W] _]. congruence. }
  repeat match goal with |- _ /\ _ => split end.
  - intros dr ndim rmax js H j Hj. destruct (for_each_in _ _ _ _ H Hj) as [t [jt [Ht [E Hi]]]]. rewrite W in E. apply Ok_inj in E. subst jt.
    destruct Hi as [<-|[]]. split; [exact Hf|reflexivity].
  - intros nk dk kmin kmax ks kgrid w wt wf js H j Hj. unfold api_sk in H. destruct (_ && _); [discriminate|].
    destruct (for_each_in _ _ _ _ H Hj) as [t [jt [Ht [E Hi]]]]. rewrite W in E. apply Ok_inj in E. subst jt.
    destruct Hi as [<-|[]]. split; [exact Hf|reflexivity].
  - intros dtheta js H j Hj. destruct (for_each_in _ _ _ _ H Hj) as [t [jt [Ht [E Hi]]]]. rewrite W in E. apply Ok_inj in E. subst jt.
    destruct Hi as [<-|[]]. split; [exact Hf|reflexivity].
Qed.
Print Assumptions C60_filter_partial.

(** All the functions pass update and norigins on to every job. *)
Definition passed (g : globals) (js : list job) : Prop :=
  forall j, In j js -> j_update j = g_update g /\ option_of j "norigins" = Some (g_norigins g).
Lemma passed_each : forall g ths f js, for_each f ths = Ok js -> (forall t jt, In t ths -> f t = Ok jt -> passed g jt) -> passed g js.
Proof. intros g ths f js H F j Hj. destruct (for_each_in _ _ _ _ H Hj) as [t [jt [Ht [E Hi]]]]. exact (F t jt Ht E j Hi). Qed.
Theorem C60_update : forall g ths,
  (forall dr ndim rmax js, api_gr g dr ndim rmax ths = Ok js -> passed g js) /\
  (forall nk dk kmin kmax ks kgrid w wt wf js, api_sk g nk dk kmin kmax ks kgrid w wt wf ths = Ok js -> passed g js) /\
  (forall dtheta js, api_ba g dtheta ths = Ok js -> passed g js) /\
  (forall c clip tm tf ts func js, api_simple c clip g tm tf ts func ths = Ok js -> passed g js) /\
  (forall c extra tm tf ts k1 k2 ks dk nk kgrid func fc total js,
     api_scattering c extra g tm tf ts k1 k2 ks dk nk kgrid func fc total ths = Ok js -> passed g js) /\
  (forall ts a tm func tf total js, api_chi4qs g ts a tm func tf total ths = Ok js -> passed g js) /\
  (forall tm tf ts sigma func rm fc no js, api_msd g tm tf ts sigma func rm fc no ths = Ok js -> passed g js).
Proof.
  intros g ths. repeat match goal with |- _ /\ _ => split end.
  - intros dr ndim rmax js H. apply (passed_each _ _ _ _ H). intros t jt Ht E j Hj. apply Ok_inj in E. subst jt.
    destruct Hj as [<-|Hj]; [split; reflexivity|]. destruct (with_partial _ _); [|destruct Hj]. destruct Hj as [<-|[]]. split; reflexivity.
  - intros nk dk kmin kmax ks kgrid w wt wf js H. unfold api_sk in H. destruct (_ && _); [discriminate|].
    apply (passed_each _ _ _ _ H). intros t jt Ht E j Hj. apply Ok_inj in E. subst jt.
    destruct Hj as [<-|Hj]; [split; reflexivity|]. destruct (with_partial _ _); [|destruct Hj]. destruct Hj as [<-|[]]. split; reflexivity.
  - intros dtheta js H. apply (passed_each _ _ _ _ H). intros t jt Ht E j Hj. apply Ok_inj in E. subst jt.
    destruct Hj as [<-|Hj]; [split; reflexivity|]. destruct (with_partial _ _); [|destruct Hj]. destruct Hj as [<-|[]]. split; reflexivity.
  - intros c clip tm tf ts func js H. unfold api_simple in H. apply bind_Ok_inv in H. destruct H as [f [_ H]].
    apply (passed_each _ _ _ _ H). intros t jt Ht E j Hj. apply bind_Ok_inv in E. destruct E as [tg [_ E]]. apply Ok_inj in E. subst jt.
    destruct Hj as [<-|Hj]; [split; reflexivity|]. destruct (with_partial _ _); [|destruct Hj]. destruct Hj as [<-|[]]. split; reflexivity.
  - intros c extra tm tf ts k1 k2 ks dk nk kgrid func fc total js H. unfold api_scattering in H. apply bind_Ok_inv in H. destruct H as [f [_ H]].
    apply (passed_each _ _ _ _ H). intros t jt Ht E j Hj. apply bind_Ok_inv in E. destruct E as [tg [_ E]].
    apply bind_Ok_inv in E. destruct E as [kg [_ E]]. apply Ok_inj in E. subst jt. apply in_app_or in Hj. destruct Hj as [Hi|Hi].
    + destruct (total || _)%bool; [|destruct Hi]. destruct Hi as [<-|[]]. split; reflexivity.
    + destruct (with_partial _ _); [|destruct Hi]. destruct Hi as [<-|[]]. split; reflexivity.
  - intros ts a tm func tf total js H. unfold api_chi4qs in H. apply bind_Ok_inv in H. destruct H as [f [_ H]]. destruct (g_fast _); [discriminate|].
    apply (passed_each _ _ _ _ H). intros t jt Ht E j Hj. apply bind_Ok_inv in E. destruct E as [tg [_ E]]. apply Ok_inj in E. subst jt.
    apply in_app_or in Hj. destruct Hj as [Hj|Hj].
    + destruct total; [|destruct Hj]. destruct Hj as [<-|[]]. split; reflexivity.
    + destruct (negb total && _)%bool; [|destruct Hj]. destruct Hj as [<-|[]]. split; reflexivity.
  - intros tm tf ts sigma func rm fc no js H. unfold api_msd in H. apply bind_Ok_inv in H. destruct H as [f [_ H]].
    apply (passed_each _ _ _ _ H). intros t jt Ht E j Hj. apply bind_Ok_inv in E. destruct E as [tg [_ E]]. apply Ok_inj in E. subst jt.
    destruct Hj as [<-|Hi]; [repeat split|]. destruct (with_partial _ _); [|destruct Hi]. destruct Hi as [<-|[]]. repeat split.
Qed.
Print Assumptions C60_update.

(** Total and partial functions of a file get the same arguments, except in msd. *)
Theorem C60_same_arguments_partial : forall g ths, NoDup (map th_file ths) ->
  (forall dr ndim rmax js, api_gr g dr ndim rmax ths = Ok js -> alike js) /\
  (forall nk dk kmin kmax ks kgrid w wt wf js, api_sk g nk dk kmin kmax ks kgrid w wt wf ths = Ok js -> alike js) /\
  (forall dtheta js, api_ba g dtheta ths = Ok js -> alike js) /\
  (forall c clip tm tf ts func js, api_simple c clip g tm tf ts func ths = Ok js -> alike js) /\
  (forall c extra tm tf ts k1 k2 ks dk nk kgrid func fc total js,
     api_scattering c extra g tm tf ts k1 k2 ks dk nk kgrid func fc total ths = Ok js ->
     alike js /\ forall j, In j js -> option_of j "fix_cm" = Some (ABool fc)) /\
  (forall ts a tm func tf total js, api_chi4qs g ts a tm func tf total ths = Ok js -> alike js) /\
  (forall tm tf ts sigma func rm fc no js, api_msd g tm tf ts sigma func rm fc no ths = Ok js ->
     forall j, In j js -> option_of j "sigma" = Some (ANum sigma) /\ option_of j "rmax" = Some (ANum rm) /\
       option_of j "no_offset" = Some (ABool no) /\ option_of j "norigins" = Some (g_norigins g) /\ j_update j = g_update g /\
       (j_partial j = false -> option_of j "fix_cm" = Some (ABool fc))).
Proof.
  intros g ths ND.
  repeat match goal with |- _ /\ _ => split end.
  - intros dr ndim rmax js. apply alike_for_each; [assumption|]. intros t jt Ht E. apply Ok_inj in E. subst jt. eexists. intros j Hj.
    destruct Hj as [<-|Hj]; [split; reflexivity|]. destruct (with_partial _ _); [|destruct Hj]. destruct Hj as [<-|[]]. split; reflexivity.
  - intros nk dk kmin kmax ks kgrid w wt wf js H. unfold api_sk in H. destruct (_ && _); [discriminate|]. revert H.
    apply alike_for_each; [assumption|]. intros t jt Ht E. apply Ok_inj in E. subst jt. eexists. intros j Hj.
    destruct Hj as [<-|Hj]; [split; reflexivity|]. destruct (with_partial _ _); [|destruct Hj]. destruct Hj as [<-|[]]. split; reflexivity.
  - intros dtheta js. apply alike_for_each; [assumption|]. intros t jt Ht E. apply Ok_inj in E. subst jt. eexists. intros j Hj.
    destruct Hj as [<-|Hj]; [split; reflexivity|]. destruct (with_partial _ _); [|destruct Hj]. destruct Hj as [<-|[]]. split; reflexivity.
  - intros c clip tm tf ts func js H. unfold api_simple in H. apply bind_Ok_inv in H. destruct H as [f [_ H]]. revert H.
    apply alike_for_each; [assumption|]. intros t jt Ht E. apply bind_Ok_inv in E. destruct E as [tg [_ E]]. apply Ok_inj in E. subst jt. eexists. intros j Hj.
    destruct Hj as [<-|Hj]; [split; reflexivity|]. destruct (with_partial _ _); [|destruct Hj]. destruct Hj as [<-|[]]. split; reflexivity.
  - intros c extra tm tf ts k1 k2 ks dk nk kgrid func fc total js H. unfold api_scattering in H. apply bind_Ok_inv in H. destruct H as [f [_ H]]. split.
    + revert H. apply alike_for_each; [assumption|]. intros t jt Ht E. apply bind_Ok_inv in E. destruct E as [tg [_ E]].
      apply bind_Ok_inv in E. destruct E as [kg [_ E]]. apply Ok_inj in E. subst jt.
      exists ([("kgrid", AList kg); ("tgrid", tg); ("norigins", g_norigins (compat g)); ("nk", AInt nk); ("dk", ANum dk); ("fix_cm", ABool fc)] ++ extra)%list. intros j Hj.
      apply in_app_or in Hj. destruct Hj as [Hj|Hj].
      * destruct (total || _)%bool; [|destruct Hj]. destruct Hj as [<-|[]]. split; reflexivity.
      * destruct (with_partial _ _); [|destruct Hj]. destruct Hj as [<-|[]]. split; reflexivity.
    + intros j Hj. destruct (for_each_in _ _ _ _ H Hj) as [t [jt [Ht [E Hi]]]]. apply bind_Ok_inv in E. destruct E as [tg [_ E]].
      apply bind_Ok_inv in E. destruct E as [kg [_ E]]. apply Ok_inj in E. subst jt. apply in_app_or in Hi. destruct Hi as [Hi|Hi].
      * destruct (total || _)%bool; [|destruct Hi]. destruct Hi as [<-|[]]. reflexivity.
      * destruct (with_partial _ _); [|destruct Hi]. destruct Hi as [<-|[]]. reflexivity.
  - intros ts a tm func tf total js H. unfold api_chi4qs in H. apply bind_Ok_inv in H. destruct H as [f [_ H]]. destruct (g_fast _); [discriminate|].
    revert H. apply alike_for_each; [assumption|]. intros t jt Ht E. apply bind_Ok_inv in E. destruct E as [tg [_ E]]. apply Ok_inj in E. subst jt.
    exists [("tgrid", tg); ("a", ANum a); ("norigins", g_norigins (compat g))]. intros j Hj.
    apply in_app_or in Hj. destruct Hj as [Hj|Hj].
    + destruct total; [|destruct Hj]. destruct Hj as [<-|[]]. split; reflexivity.
    + destruct (negb total && _)%bool; [|destruct Hj]. destruct Hj as [<-|[]]. split; reflexivity.
  - intros tm tf ts sigma func rm fc no js H j Hj. unfold api_msd in H. apply bind_Ok_inv in H. destruct H as [f [_ H]].
    destruct (for_each_in _ _ _ _ H Hj) as [t [jt [Ht [E Hi]]]]. apply bind_Ok_inv in E. destruct E as [tg [_ E]]. apply Ok_inj in E. subst jt.
    destruct Hi as [<-|Hi]; [repeat split|]. destruct (with_partial _ _); [|destruct Hi]. destruct Hi as [<-|[]]. repeat split. discriminate.
Qed.
Print Assumptions C60_same_arguments_partial.

(** The claim fails: msd never passes fix_cm to the partial functions, and the
    dynamical functions ignore the filter. *)
Theorem C60_options_refuted : forall g ths,
  (forall tm tf ts sigma func rm no js j, api_msd g tm tf ts sigma func rm true no ths = Ok js -> In j js -> j_partial j = true ->
     option_of j "fix_cm" = None) /\
  (forall tm tf ts sigma func rm fc no js j, api_msd g tm tf ts sigma func rm fc no ths = Ok js -> In j js -> j_filter j = None) /\
  (forall c clip tm tf ts func js j, api_simple c clip g tm tf ts func ths = Ok js -> In j js -> j_filter j = None) /\
  (forall c extra tm tf ts k1 k2 ks dk nk kgrid func fc total js j,
     api_scattering c extra g tm tf ts k1 k2 ks dk nk kgrid func fc total ths = Ok js -> In j js -> j_filter j = None) /\
  (forall ts a tm func tf total js j, api_chi4qs g ts a tm func tf total ths = Ok js -> In j js -> j_filter j = None).
Proof.
  intros g ths. repeat match goal with |- _ /\ _ => split end.
  - intros tm tf ts sigma func rm no js j H Hj P. unfold api_msd in H. apply bind_Ok_inv in H. destruct H as [f [_ H]].
    destruct (for_each_in _ _ _ _ H Hj) as [t [jt [Ht [E Hi]]]]. apply bind_Ok_inv in E. destruct E as [tg [_ E]]. apply Ok_inj in E. subst jt.
    destruct Hi as [<-|Hi]; [discriminate|]. destruct (with_partial _ _); [|destruct Hi]. destruct Hi as [<-|[]]. reflexivity.
  - intros tm tf ts sigma func rm fc no js j H Hj. unfold api_msd in H. apply bind_Ok_inv in H. destruct H as [f [_ H]].
    destruct (for_each_in _ _ _ _ H Hj) as [t [jt [Ht [E Hi]]]]. apply bind_Ok_inv in E. destruct E as [tg [_ E]]. apply Ok_inj in E. subst jt.
    destruct Hi as [<-|Hi]; [reflexivity|]. destruct (with_partial _ _); [|destruct Hi]. destruct Hi as [<-|[]]. reflexivity.
  - intros c clip tm tf ts func js j H Hj. unfold api_simple in H. apply bind_Ok_inv in H. destruct H as [f [_ H]].
    destruct (for_each_in _ _ _ _ H Hj) as [t [jt [Ht [E Hi]]]]. apply bind_Ok_inv in E. destruct E as [tg [_ E]]. apply Ok_inj in E. subst jt.
    destruct Hi as [<-|Hi]; [reflexivity|]. destruct (with_partial _ _); [|destruct Hi]. destruct Hi as [<-|[]]. reflexivity.
  - intros c extra tm tf ts k1 k2 ks dk nk kgrid func fc total js j H Hj. unfold api_scattering in H. apply bind_Ok_inv in H. destruct H as [f [_ H]].
    destruct (for_each_in _ _ _ _ H Hj) as [t [jt [Ht [E Hi]]]]. apply bind_Ok_inv in E. destruct E as [tg [_ E]].
    apply bind_Ok_inv in E. destruct E as [kg [_ E]]. apply Ok_inj in E. subst jt. apply in_app_or in Hi. destruct Hi as [Hi|Hi].
    + destruct (total || _)%bool; [|destruct Hi]. destruct Hi as [<-|[]]. reflexivity.
    + destruct (with_partial _ _); [|destruct Hi]. destruct Hi as [<-|[]]. reflexivity.
  - intros ts a tm func tf total js j H Hj. unfold api_chi4qs in H. apply bind_Ok_inv in H. destruct H as [f [_ H]]. destruct (g_fast _); [discriminate|].
    destruct (for_each_in _ _ _ _ H Hj) as [t [jt [Ht [E Hi]]]]. apply bind_Ok_inv in E. destruct E as [tg [_ E]]. apply Ok_inj in E. subst jt.
    apply in_app_or in Hi. destruct Hi as [Hi|Hi].
    + destruct total; [|destruct Hi]. destruct Hi as [<-|[]]. reflexivity.
    + destruct (negb total && _)%bool; [|destruct Hi]. destruct Hi as [<-|[]]. reflexivity.
Qed.
Print Assumptions C60_options_refuted.

Example C60_nonvacuous :
  (exists js j, api_msd plain 0 0 30 1 "linear" (-1) true false two_files = Ok js /\ In j js /\ j_partial j = true) /\
  (exists js, api_gr (mkGlobals ANone false false true (Some "radius > 0.5") false) (ANum 1) (-1) (-1) two_files = Ok js /\ length js = 2).
Proof.
  assert (R0 : Rltb 0 0 = false) by (unfold Rltb; destruct (Rlt_dec 0 0); [lra|reflexivity]).
  split; [|eexists; split; reflexivity].
  eexists _, _. unfold api_msd, time_func, for_each, time_grid, two_files. cbn [String.eqb orb bind mapM Ascii.eqb Bool.eqb]. rewrite R0.
  split; [reflexivity|]. split; [right; right; left; reflexivity|reflexivity].
Qed.
