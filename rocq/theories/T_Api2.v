(** The times the API functions ask for: C112. *)
From Coq Require Import Ascii String List ZArith Bool Arith Lia Reals Lra.
From Verif Require Import PyBase PyBaseFacts Num NumFacts M_Helpers M_Api P_Skip P_Helpers T_Helpers T_Api.
Import ListNotations.
Local Open Scope R_scope.

(** ** C112 *)
(** The last time asked for: tmax, cut to the length of the trajectory or not, or a
    fraction of the trajectory if tmax is not positive. *)
Definition last_time (cut : bool) (tmax fraction : R) (t : th) (L : R) : Prop :=
  (0 < tmax /\ L = if cut then Rmin (th_total t) tmax else tmax) \/ (tmax <= 0 /\ 0 < fraction /\ L = fraction * th_total t).

(** 0, then as many times as asked for, from one time step to the last time, in
    increasing order. *)
Definition covers (l : list R) (dt L : R) (samples : Z) : Prop :=
  length l = S (Z.to_nat samples) /\ nth 0 l 0 = 0 /\ nth 1 l 0 = dt /\ nth (length l - 1) l 0 = L /\
  (forall i j, (i < j < length l)%nat -> nth i l 0 <= nth j l 0) /\ (dt < L -> forall i j, (i < j < length l)%nat -> nth i l 0 < nth j l 0) /\
  (forall v, In v l -> 0 <= v <= L).

(** The times of a job. *)
Definition asks (j : job) (cut : bool) (tmax fraction : R) (samples : Z) (t : th) : Prop :=
  (forall L, last_time cut tmax fraction t L -> 0 < th_dt t <= L -> (2 <= samples)%Z ->
     exists l, In ("tgrid"%string, AList l) (j_args j) /\ covers l (th_dt t) L samples) /\
  (tmax <= 0 -> fraction <= 0 -> In ("tgrid"%string, ANone) (j_args j)).

Lemma last_of : forall (l : list R) L, (forall i j, (i < j < length l)%nat -> nth i l 0 <= nth j l 0) -> nth (length l - 1) l 0 = L -> nth 0 l 0 = 0 ->
  forall v, In v l -> 0 <= v <= L.
Proof.
  intros l L M E Z v Hv. apply (In_nth _ _ 0) in Hv. destruct Hv as [i [Hi <-]]. split.
  - destruct i as [|i]; [rewrite Z; lra|]. apply Rle_trans with (nth 0 l 0); [rewrite Z; apply Rle_refl|]. apply M. lia.
  - rewrite <- E. destruct (Nat.eq_dec i (length l - 1)) as [->|]; [apply Rle_refl|]. apply M. lia.
Qed.

Lemma covers_cons : forall g dt L n, length g = Z.to_nat n -> (2 <= n)%Z -> 0 < dt -> nth 0 g 0 = dt -> nth (length g - 1) g 0 = L ->
  (forall i j, (i <= j < length g)%nat -> nth i g 0 <= nth j g 0) -> (dt < L -> forall i j, (i < j < length g)%nat -> nth i g 0 < nth j g 0) ->
  covers (0 :: g) dt L n.
Proof.
  intros g dt L n Lg Hn Pd E0 El M SS. unfold covers. cbn [length]. rewrite Lg in *.
  assert (M' : forall i j, (i < j < S (Z.to_nat n))%nat -> nth i (0 :: g) 0 <= nth j (0 :: g) 0).
  { intros i j Hij. destruct j as [|j]; [lia|]. destruct i as [|i]; cbn [nth]; [|apply M; lia]. apply Rle_trans with dt; [lra|]. rewrite <- E0. apply M. lia. }
  assert (El' : nth (S (Z.to_nat n) - 1) (0 :: g) 0 = L).
  { replace (S (Z.to_nat n) - 1)%nat with (S (Z.to_nat n - 1)) by lia. exact El. }
  split; [reflexivity|]. split; [reflexivity|]. split; [exact E0|]. split; [exact El'|]. split; [exact M'|]. split.
  - intros D i j Hij. destruct j as [|j]; [lia|]. destruct i as [|i]; cbn [nth]; [|apply SS; [exact D|lia]]. apply Rlt_le_trans with dt; [exact Pd|]. rewrite <- E0. apply M. lia.
  - apply last_of; cbn [length]; rewrite ?Lg; [exact M'|exact El'|reflexivity].
Qed.

Lemma linear_covers : forall dt L n g, 0 < dt <= L -> (2 <= n)%Z -> linear_grid Rops dt L (DInt n) = Ok g -> covers (0 :: g) dt L n.
Proof.
  intros dt L n g [P D] Hn E. destruct (C09_linear_grid_count dt L n Hn) as [g' [E' [Lg [V [V0 V1]]]]].
  assert (g' = g) by (apply Ok_inj; exact (eq_trans (eq_sym E') E)). subst g'. change (num Rops) with R in *.
  assert (Q : 0 < IZR (n - 1)) by (apply IZR_lt; lia). assert (S : 0 <= (L - dt) / IZR (n - 1)) by (apply Rmult_le_pos; [lra|left; apply Rinv_0_lt_compat; exact Q]).
  apply covers_cons; try assumption.
  - intros i j Hij. rewrite !V by lia. apply Rplus_le_compat_l. apply Rmult_le_compat_r; [exact S|apply le_INR; lia].
  - intros D' i j Hij. rewrite !V by lia. apply Rplus_lt_compat_l. apply Rmult_lt_compat_r; [apply Rdiv_lt_0_compat; lra|apply lt_INR; lia].
Qed.

Lemma logx_covers : forall dt L n g, 0 < dt <= L -> (2 <= n)%Z -> logx_grid dt L (Z.to_nat n) = Ok g -> covers (0 :: g) dt L n.
Proof.
  intros dt L n g [P D] Hn E. destruct (C10_logx_grid_positive dt L (Z.to_nat n) P D ltac:(lia)) as [g' [E' [Lg [V0 [V1 [M [q [Q1 [Qn [Q2 Q3]]]]]]]]]].
  assert (g' = g) by (apply Ok_inj; exact (eq_trans (eq_sym E') E)). subst g'.
  apply covers_cons; try assumption; rewrite ?Lg; try assumption.
  intros D' i j Hij.
  assert (Q : 1 < q).
  { destruct (Rle_lt_or_eq_dec 1 q Q1) as [A|A]; [exact A|]. exfalso. rewrite <- A, pow1 in Qn. assert (L = dt); [|lra]. apply (Rmult_eq_reg_r (/ dt)); [|apply Rinv_neq_0_compat; lra]. rewrite Rinv_r by lra. symmetry. exact Qn. }
  assert (Step : forall m, (1 <= m)%nat -> (m < Z.to_nat n)%nat -> 0 < nth m g 0 /\ dt < nth m g 0).
  { intros m Hm. induction m as [|m IH]; [lia|]. intros Hm'. destruct m as [|m].
    - assert (E1 : nth 1 g 0 = q * q * dt) by exact Q2. rewrite E1. assert (1 < q * q) by nra. split; nra.
    - assert (E1 : nth (S (S m)) g 0 = q * nth (S m) g 0) by (apply Q3; lia). destruct IH as [I1 I2]; [lia|lia|]. rewrite E1. split; nra. }
  assert (Next : forall m, (S m < Z.to_nat n)%nat -> nth m g 0 < nth (S m) g 0).
  { intros m Hm. destruct m as [|m]; [rewrite V0; apply Step; lia|]. assert (E1 : nth (S (S m)) g 0 = q * nth (S m) g 0) by (apply Q3; lia). destruct (Step (S m)) as [I1 I2]; [lia|lia|]. rewrite E1. nra. }
  apply Rlt_le_trans with (nth (S i) g 0); [apply Next; lia|apply M; lia].
Qed.

Lemma time_grid_asks : forall cut func f tm tf ts t tg, time_func func = Ok f -> time_grid cut f tm tf ts t = Ok tg ->
  (forall L, last_time cut tm tf t L -> 0 < th_dt t <= L -> (2 <= ts)%Z -> exists l, tg = AList l /\ covers l (th_dt t) L ts) /\
  (tm <= 0 -> tf <= 0 -> tg = ANone).
Proof.
  intros cut func f tm tf ts t tg Ef E. unfold time_grid in E.
  assert (F : forall L g, 0 < th_dt t <= L -> (2 <= ts)%Z -> f (th_dt t) L ts = Ok g -> covers (0 :: g) (th_dt t) L ts).
  { intros L g H1 H2 H3. unfold time_func in Ef. destruct (_ || _)%bool in Ef; [apply Ok_inj in Ef; subst f; apply linear_covers; assumption|].
    destruct (_ || _)%bool in Ef; [apply Ok_inj in Ef; subst f; apply logx_covers; assumption|discriminate]. }
  split.
  - intros L HL HD Hn. destruct HL as [[Ht ->]|[Ht [Hf ->]]].
    + rewrite (Rltb_true 0 tm Ht) in E. apply bind_Ok_inv in E. destruct E as [g [Eg E]]. apply Ok_inj in E. subst tg. exists (0 :: g). split; [reflexivity|]. apply F; assumption.
    + rewrite (Rltb_false 0 tm Ht), (Rltb_true 0 tf Hf) in E. apply bind_Ok_inv in E. destruct E as [g [Eg E]]. apply Ok_inj in E. subst tg. exists (0 :: g). split; [reflexivity|]. apply F; assumption.
  - intros H1 H2. rewrite (Rltb_false 0 tm H1), (Rltb_false 0 tf H2) in E. apply Ok_inj in E. congruence.
Qed.

(** Every job of the functions of time asks for these times: cut to the length of the
    trajectory for msd, vacf and chi4qs, not for alpha2, qst, qt, fkt and fskt. *)
Definition all_ask (js : list job) (ths : list th) (cut : bool) (tm tf : R) (ts : Z) : Prop :=
  forall j, In j js -> exists t, In t ths /\ j_file j = th_file t /\ asks j cut tm tf ts t.
Theorem C112_times_partial : forall g ths,
  (forall tm tf ts sigma func rm fc no js, api_msd g tm tf ts sigma func rm fc no ths = Ok js -> all_ask js ths true tm tf ts) /\
  (forall tm tf ts func js, api_vacf g tm tf ts func ths = Ok js -> all_ask js ths true tm tf ts) /\
  (forall tm tf ts func a total js, api_chi4qs g ts a tm func tf total ths = Ok js -> all_ask js ths true tm tf ts) /\
  (forall tm tf ts func js, api_alpha2 g tm tf ts func ths = Ok js -> all_ask js ths false tm tf ts) /\
  (forall tm tf ts func js, api_qst g tm tf ts func ths = Ok js -> all_ask js ths false tm tf ts) /\
  (forall tm tf ts func js, api_qt g tm tf ts func ths = Ok js -> all_ask js ths false tm tf ts) /\
  (forall tm tf ts kmin kmax ks dk nk kgrid func fc total js, api_fkt g tm tf ts kmin kmax ks dk nk kgrid func fc total ths = Ok js -> all_ask js ths false tm tf ts) /\
  (forall lm tm tf ts kmin kmax ks dk nk kgrid func fc total js, api_fskt lm g tm tf ts kmin kmax ks dk nk kgrid func fc total ths = Ok js -> all_ask js ths false tm tf ts).
Proof.
  intros g ths.
  assert (A : forall cut func f tm tf ts t tg j, time_func func = Ok f -> time_grid cut f tm tf ts t = Ok tg -> In ("tgrid"%string, tg) (j_args j) -> asks j cut tm tf ts t).
  { intros cut func f tm tf ts t tg j Ef E Hin. destruct (time_grid_asks _ _ _ _ _ _ _ _ Ef E) as [A1 A2]. split.
    - intros L H1 H2 H3. destruct (A1 L H1 H2 H3) as [l [-> C]]. exists l. split; assumption.
    - intros H1 H2. rewrite (A2 H1 H2) in Hin. exact Hin. }
  assert (SI : forall c cut tm tf ts func js, api_simple c cut g tm tf ts func ths = Ok js -> all_ask js ths cut tm tf ts).
  { intros c cut tm tf ts func js H j Hj. unfold api_simple in H. apply bind_Ok_inv in H. destruct H as [f [Ef H]].
    destruct (for_each_in _ _ _ _ H Hj) as [t [jt [Ht [E Hi]]]]. apply bind_Ok_inv in E. destruct E as [tg [Et E]]. apply Ok_inj in E. subst jt.
    exists t. split; [exact Ht|]. assert (Q : j_file j = th_file t /\ In ("tgrid"%string, tg) (j_args j)).
    { destruct Hi as [<-|Hi]; [split; [reflexivity|left; reflexivity]|]. destruct (with_partial _ _); [|destruct Hi]. destruct Hi as [<-|[]]. split; [reflexivity|left; reflexivity]. }
    split; [apply Q|]. apply (A cut func f tm tf ts t tg j Ef Et (proj2 Q)). }
  assert (SC : forall c extra tm tf ts kmin kmax ks dk nk kgrid func fc total js, api_scattering c extra g tm tf ts kmin kmax ks dk nk kgrid func fc total ths = Ok js -> all_ask js ths false tm tf ts).
  { intros c extra tm tf ts kmin kmax ks dk nk kgrid func fc total js H j Hj. unfold api_scattering in H. apply bind_Ok_inv in H. destruct H as [f [Ef H]].
    destruct (for_each_in _ _ _ _ H Hj) as [t [jt [Ht [E Hi]]]]. apply bind_Ok_inv in E. destruct E as [tg [Et E]]. apply bind_Ok_inv in E. destruct E as [kg [Ek E]]. apply Ok_inj in E. subst jt.
    exists t. split; [exact Ht|]. assert (Q : j_file j = th_file t /\ In ("tgrid"%string, tg) (j_args j)).
    { apply in_app_or in Hi. destruct Hi as [Hi|Hi]; [destruct (_ || _)%bool in Hi|destruct (with_partial _ _) in Hi]; try (destruct Hi; fail); destruct Hi as [<-|[]]; (split; [reflexivity|right; left; reflexivity]). }
    split; [apply Q|]. apply (A false func f tm tf ts t tg j Ef Et (proj2 Q)). }
  repeat match goal with |- _ /\ _ => split end.
  - intros tm tf ts sigma func rm fc no js H j Hj. unfold api_msd in H. apply bind_Ok_inv in H. destruct H as [f [Ef H]].
    destruct (for_each_in _ _ _ _ H Hj) as [t [jt [Ht [E Hi]]]]. apply bind_Ok_inv in E. destruct E as [tg [Et E]]. apply Ok_inj in E. subst jt.
    exists t. split; [exact Ht|]. assert (Q : j_file j = th_file t /\ In ("tgrid"%string, tg) (j_args j)).
    { destruct Hi as [<-|Hi]; [split; [reflexivity|left; reflexivity]|]. destruct (with_partial _ _); [|destruct Hi]. destruct Hi as [<-|[]]. split; [reflexivity|left; reflexivity]. }
    split; [apply Q|]. apply (A true func f tm tf ts t tg j Ef Et (proj2 Q)).
  - intros tm tf ts func js. apply SI.
  - intros tm tf ts func a total js H j Hj. unfold api_chi4qs in H. apply bind_Ok_inv in H. destruct H as [f [Ef H]]. destruct (g_fast (compat g)); [discriminate|].
    destruct (for_each_in _ _ _ _ H Hj) as [t [jt [Ht [E Hi]]]]. apply bind_Ok_inv in E. destruct E as [tg [Et E]]. apply Ok_inj in E. subst jt.
    exists t. split; [exact Ht|]. assert (Q : j_file j = th_file t /\ In ("tgrid"%string, tg) (j_args j)).
    { apply in_app_or in Hi. destruct Hi as [Hi|Hi]; [destruct total in Hi|destruct (_ && _)%bool in Hi]; try (destruct Hi; fail); destruct Hi as [<-|[]]; (split; [reflexivity|left; reflexivity]). }
    split; [apply Q|]. apply (A true func f tm tf ts t tg j Ef Et (proj2 Q)).
  - intros tm tf ts func js. apply SI.
  - intros tm tf ts func js. apply SI.
  - intros tm tf ts func js. apply SI.
  - intros tm tf ts kmin kmax ks dk nk kgrid func fc total js. apply SC.
  - intros lm tm tf ts kmin kmax ks dk nk kgrid func fc total js. apply SC.
Qed.
Print Assumptions C112_times_partial.

(** The mean square displacement, the velocity autocorrelation and chi4 never ask for
    a time beyond the end of the trajectory (unless told so by a fraction above 1). *)
Theorem C112_cut : forall j t tm tf ts, asks j true tm tf ts t -> 0 < th_dt t <= th_total t -> (2 <= ts)%Z -> (0 < tm -> th_dt t <= tm) ->
  (tm <= 0 -> 0 < tf <= 1 /\ th_dt t <= tf * th_total t) ->
  exists l, In ("tgrid"%string, AList l) (j_args j) /\ forall v, In v l -> 0 <= v <= th_total t.
Proof.
  intros j t tm tf ts [A _] D Hn Hm Hf. destruct (Rlt_le_dec 0 tm) as [P|P].
  - destruct (A (Rmin (th_total t) tm)) as [l [Hl C]]; [left; split; [exact P|reflexivity]| |exact Hn|].
    + split; [apply D|]. apply Rmin_glb; [apply D|apply Hm; exact P].
    + exists l. split; [exact Hl|]. intros v Hv. destruct C as [_ [_ [_ [_ [_ [_ B]]]]]]. specialize (B v Hv). pose proof (Rmin_l (th_total t) tm). lra.
  - destruct (Hf P) as [F1 F2]. destruct (A (tf * th_total t)) as [l [Hl C]]; [right; repeat split; [exact P|apply F1]|split; [apply D|exact F2]|exact Hn|].
    exists l. split; [exact Hl|]. intros v Hv. destruct C as [_ [_ [_ [_ [_ [_ B]]]]]]. specialize (B v Hv). split; [apply B|]. apply Rle_trans with (1 := proj2 B). nra.
Qed.
Print Assumptions C112_cut.

(** The others do, for every trajectory: with tmax beyond its end, tmax is among the
    times asked for. *)
Theorem C112_cut_refuted : forall g ths t tm tf ts, In t ths -> (forall t, In t ths -> 0 < th_dt t <= tm) -> (2 <= ts)%Z -> th_total t < tm ->
  forall js func, (api_alpha2 g tm tf ts func ths = Ok js \/ api_qst g tm tf ts func ths = Ok js \/ api_qt g tm tf ts func ths = Ok js) ->
  exists j l, In j js /\ In ("tgrid"%string, AList l) (j_args j) /\ In tm l.
Proof.
  intros g ths t tm tf ts Ht D Hn Ho js func H.
  assert (Q : all_ask js ths false tm tf ts /\ exists j, In j js).
  { destruct (C112_times_partial g ths) as [_ [_ [_ [T1 [T2 [T3 _]]]]]]. destruct (C59_every_file_partial g ths) as [_ [_ [_ [_ [_ [F1 [F2 F3]]]]]]].
    destruct H as [H|[H|H]]; (split; [first [exact (T1 _ _ _ _ _ H)|exact (T2 _ _ _ _ _ H)|exact (T3 _ _ _ _ _ H)]|]);
      [destruct (F1 _ _ _ _ _ H) as [_ [S _]]|destruct (F2 _ _ _ _ _ H) as [_ [S _]]|destruct (F3 _ _ _ _ _ H) as [_ [S _]]]; destruct (S t Ht) as [j [Hj _]]; exists j; exact Hj. }
  destruct Q as [A [j Hj]]. destruct (A j Hj) as [t' [Ht' [_ [B _]]]]. specialize (D t' Ht').
  destruct (B tm) as [l [Hl [Ll [_ [_ [El _]]]]]]; [left; split; [lra|reflexivity]|exact D|exact Hn|].
  exists j, l. split; [exact Hj|]. split; [exact Hl|]. rewrite <- El. apply nth_In. lia.
Qed.
Print Assumptions C112_cut_refuted.

(** A trajectory of length 10 in steps of 1, with tmax = 16: the times of msd end at
    10, those of the self overlap at 16. *)
Definition th112 : th := mkTh "a.xyz"%string 1 10 1.
Definition g112 : globals := mkGlobals (AInt 1) false false false None false.
Example C112_nonvacuous :
  (exists js j l, api_msd g112 16 (3 / 4) 4 1 "linear" (-1) false false [th112] = Ok js /\ js = [j] /\ In ("tgrid"%string, AList l) (j_args j) /\ l = [0; 1; 4; 7; 10]) /\
  (exists js j l, api_qst g112 16 (3 / 4) 3 "logx" [th112] = Ok js /\ js = [j] /\ In ("tgrid"%string, AList l) (j_args j) /\ length l = 4%nat /\ nth 3 l 0 = 16).
Proof.
  split.
  - unfold api_msd. cbn [time_func String.eqb Ascii.eqb Bool.eqb orb bind]. unfold for_each. cbn [mapM]. unfold time_grid. 
    rewrite (Rltb_true 0 16) by lra. cbn [th_dt th_total th112].
    destruct (C09_linear_grid_count 1 (Rmin 10 16) 4 ltac:(lia)) as [g [E [Lg [V _]]]].
    match goal with |- context [linear_grid Rops ?a ?b ?c] => replace (linear_grid Rops a b c) with (Ok (A:=list R) g) by (symmetry; exact E) end. cbn [bind].
    eexists _, _, _. split; [reflexivity|]. split; [reflexivity|]. split; [left; reflexivity|].
    rewrite Rmin_left in V by lra. assert (Lg' : length g = 4%nat) by (rewrite Lg; reflexivity). destruct g as [|g0 [|g1 [|g2 [|g3 [|]]]]]; try discriminate Lg'.
    pose proof (V 0%nat ltac:(lia)) as V0. pose proof (V 1%nat ltac:(lia)) as V1. pose proof (V 2%nat ltac:(lia)) as V2. pose proof (V 3%nat ltac:(lia)) as V3.
    cbn [nth INR] in V0, V1, V2, V3. replace (IZR (4 - 1)) with 3 in * by reflexivity. repeat (f_equal; try lra).
  - unfold api_qst, api_simple. cbn [time_func String.eqb Ascii.eqb Bool.eqb orb bind]. unfold for_each. cbn [mapM]. unfold time_grid.
    rewrite (Rltb_true 0 16) by lra. cbn [th_dt th_total th112].
    destruct (C10_logx_grid_positive 1 16 3 ltac:(lra) ltac:(lra) ltac:(lia)) as [g [E [Lg [_ [V _]]]]].
    change (Z.to_nat 3) with 3%nat. rewrite E. cbn [bind].
    eexists _, _, _. split; [reflexivity|]. split; [reflexivity|]. split; [left; reflexivity|]. cbn [length nth]. rewrite Lg. split; [reflexivity|exact V].
Qed.
