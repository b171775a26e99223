(** Proofs about several correlations on one trajectory object. *)
From Coq Require Import Ascii String List ZArith Bool Arith Lia Reals Lra.
From Verif Require Import PyBase PyBaseFacts Num NumFacts M_Helpers M_Correlation M_Dynamics M_Realspace M_Groups M_Arrays M_Cache.
From Verif Require Import Spec_Stats Spec_Correlation Spec_Dynamics P_FixCM.
Import ListNotations.
Local Open Scope nat_scope.

(** The phasespace of the correlations that read unfolded positions only. *)
Definition unfolded_only : phasespace := mkPS false true false false.

(** *** Any arithmetic *)
Lemma mapM_ext_Forall2 : forall X Y (f g : X -> res Y) (R : X -> X -> Prop) l l',
  (forall x x', R x x' -> f x = g x') -> Forall2 R l l' -> mapM f l = mapM g l'.
Proof.
  intros X Y f g R l l' H F. induction F as [|x x' l l' Hx F IH]; [reflexivity|].
  cbn [mapM]. rewrite (H x x' Hx), IH. reflexivity.
Qed.

Lemma mapM_ok_Forall2 : forall X Y (f : X -> res Y) l l', mapM f l = Ok l' -> Forall2 (fun x y => f x = Ok y) l l'.
Proof.
  intros X Y f. induction l as [|x l IH]; intros l' H; cbn [mapM] in H.
  - apply Ok_inj in H. subst l'. constructor.
  - apply bind_Ok_inv in H. destruct H as [y [Ey H]]. apply bind_Ok_inv in H. destruct H as [ys [Es H]].
    apply Ok_inj in H. subst l'. constructor; [exact Ey|apply IH; exact Es].
Qed.

Lemma mapM_bind_ok : forall X Y Z (f : X -> res Y) (g : Y -> res Z) l zs,
  mapM (fun x => y <- f x ;; g y) l = Ok zs -> exists ys, mapM f l = Ok ys.
Proof.
  intros X Y Z f g. induction l as [|x l IH]; intros zs H; [exists []; reflexivity|]. cbn [mapM] in *.
  apply bind_Ok_inv in H. destruct H as [z [Ez H]]. apply bind_Ok_inv in H. destruct H as [zs' [Es _]].
  apply bind_Ok_inv in Ez. destruct Ez as [y [Ey _]]. destruct (IH zs' Es) as [ys Eys].
  rewrite Ey. cbn [bind]. rewrite Eys. eexists. reflexivity.
Qed.

Lemma fix_unfolded_head : forall A (s s' : system A) p,
  get s 0 = Ok p -> fix_unfolded A s = Ok s' -> exists q u, get s' 0 = Ok q /\ p_unf q = Some u.
Proof.
  intros A s s' p Hp H. unfold fix_unfolded in H.
  apply bind_Ok_inv in H. destruct H as [us [Eu H]]. apply bind_Ok_inv in H. destruct H as [fx [Ef H]].
  apply Ok_inj in H. subst s'. destruct s as [|p0 s]; [discriminate|].
  unfold dump_unf in Eu. cbn [mapM] in Eu. apply bind_Ok_inv in Eu. destruct Eu as [u0 [_ Eu]].
  apply bind_Ok_inv in Eu. destruct Eu as [us' [_ Eu]]. apply Ok_inj in Eu. subst us.
  unfold fix_cm_frame in Ef. cbn [map combine get nth_error bind] in Ef. apply Ok_inj in Ef. subst fx.
  cbn [map map2 get nth_error]. eexists. eexists. split; reflexivity.
Qed.

Lemma has_unfolded_fixed : forall A (frames fr : list (system A)),
  has_unfolded A frames = Ok true -> mapM (fix_unfolded A) frames = Ok fr -> has_unfolded A fr = Ok true.
Proof.
  intros A frames fr H E. unfold has_unfolded in *.
  destruct frames as [|s frames]; [discriminate|]. cbn [mapM] in E.
  apply bind_Ok_inv in E. destruct E as [s' [Es E]]. apply bind_Ok_inv in E. destruct E as [l [_ E]].
  apply Ok_inj in E. subst fr. cbn [get nth_error bind] in *.
  apply bind_Ok_inv in H. destruct H as [p [Ep _]].
  destruct (fix_unfolded_head A s s' p Ep Es) as [q [u [Eq Eu]]].
  refine (eq_trans (f_equal (fun x => bind x _) Eq) _). cbn [bind]. rewrite Eu. reflexivity.
Qed.

Lemma setup_unfolded : forall A (D : decor A) fix_cm cbk (frames : list (system A)),
  has_unfolded A frames = Ok true ->
  setup_onebody A D unfolded_only fix_cm cbk frames arrays0 =
  (u <- mapM (fun s => s' <- (if fix_cm then fix_unfolded A s else Ok s) ;; dump_unf A (one_body cbk s')) frames ;;
   Ok (mkArr [] [] [] u)).
Proof.
  intros A D fix_cm cbk frames H. unfold setup_onebody, source, dump_first, dump_second.
  cbn [unfolded_only w_unf w_pos w_vel w_ids]. rewrite H. cbn [bind andb negb orb]. rewrite H. cbn [bind].
  destruct (mapM _ frames); reflexivity.
Qed.

(** After a correlation with fix_cm every later one sees the fixed positions. *)
Lemma run_cached_fixed : forall A (D : decor A) c c' (frames : list (system A)),
  has_unfolded A frames = Ok true ->
  run_jobs A D true frames [mkCJ unfolded_only true c; mkCJ unfolded_only false c'] =
  run_jobs A D false frames [mkCJ unfolded_only true c; mkCJ unfolded_only true c'].
Proof.
  intros A D c c' frames H. cbn [run_jobs j_ps j_fix j_cbk].
  rewrite (setup_unfolded A D true c frames H).
  destruct (mapM (fun s => s' <- fix_unfolded A s ;; dump_unf A (one_body c s')) frames) as [u|e] eqn:Eu; [|reflexivity].
  cbn [bind]. unfold left_behind. cbn [unfolded_only w_unf w_pos]. rewrite H. cbn [bind andb negb].
  destruct (mapM_bind_ok _ _ _ _ _ _ _ Eu) as [fr Ef]. rewrite Ef. cbn [bind].
  rewrite (setup_unfolded A D false c' fr (has_unfolded_fixed A frames fr H Ef)), (setup_unfolded A D true c' frames H).
  assert (mapM (fun s : system A => s' <- (if false then fix_unfolded A s else Ok s) ;; dump_unf A (one_body c' s')) fr =
          mapM (fun s : system A => s' <- (if true then fix_unfolded A s else Ok s) ;; dump_unf A (one_body c' s')) frames) as ->.
  { symmetry. apply (mapM_ext_Forall2 _ _ _ _ (fun x y => fix_unfolded A x = Ok y)); [|exact (mapM_ok_Forall2 _ _ _ _ _ Ef)].
    intros x y Hx. rewrite Hx. reflexivity. }
  rewrite (has_unfolded_fixed A frames fr H Ef). reflexivity.
Qed.

Lemma run_cached_plain : forall A (D : decor A) jobs (frames : list (system A)),
  (forall j, In j jobs -> j_fix j = false) ->
  run_jobs A D true frames jobs = run_jobs A D false frames jobs.
Proof.
  intros A D. induction jobs as [|j jobs IH]; intros frames H; [reflexivity|]. cbn [run_jobs].
  destruct (setup_onebody A D (j_ps j) (j_fix j) (j_cbk j) frames arrays0) as [a|e] eqn:Ea; [|reflexivity]. cbn [bind].
  assert (left_behind A (j_ps j) (j_fix j) frames = Ok frames) as ->.
  { unfold left_behind. destruct (w_unf (j_ps j)) eqn:Ew; [|reflexivity].
    rewrite (H j (or_introl eq_refl)).
    unfold setup_onebody, source in Ea. rewrite Ew in Ea.
    destruct (has_unfolded A frames) as [h|e]; [|discriminate]. cbn [bind].
    rewrite andb_false_r. reflexivity. }
  cbn [bind]. rewrite IH; [reflexivity|]. intros k Hk. apply H. right. exact Hk.
Qed.

(** *** Real numbers: all with fix_cm *)
Definition frame_ok (d : nat) (s : system Rops) : Prop :=
  s <> [] /\ (forall p, In p s -> exists u : list R, p_unf p = Some u /\ length u = d) /\
  rsum (map (fun p : part Rops => p_mass p : R) s) <> 0%R.

Lemma dump_unf_ok : forall d s, (forall p : part Rops, In p s -> exists u : list R, p_unf p = Some u /\ length u = d) ->
  exists us, dump_unf Rops s = Ok us /\ length us = length s /\ (forall u, In u us -> length u = d) /\
    map p_unf s = map Some us.
Proof.
  intros d. induction s as [|p s IH]; intros H; [exists []; repeat split; intros u []|].
  destruct (H p (or_introl eq_refl)) as [u [Eu Lu]]. destruct IH as [us [E [L [Hd Hm]]]]; [intros q Hq; apply H; right; exact Hq|].
  unfold dump_unf in *. cbn [mapM]. rewrite Eu. cbn [bind]. rewrite E. cbn [bind].
  exists (u :: us). split; [reflexivity|]. split; [cbn [length]; f_equal; exact L|]. split.
  - intros v [<-|Hv]; [exact Lu|apply Hd; exact Hv].
  - cbn [map]. rewrite Eu, Hm. reflexivity.
Qed.

Lemma fix_unfolded_idem : forall d s, frame_ok d s -> exists s', fix_unfolded Rops s = Ok s' /\ fix_unfolded Rops s' = Ok s'.
Proof.
  intros d s [Hne [Hu Hm]]. destruct (dump_unf_ok d s Hu) as [us [Eu [Lu [Hd _]]]].
  change (num Rops) with R in *.
  assert (map fst (combine (map (fun p : part Rops => p_mass p : R) s) us) = map (fun p : part Rops => p_mass p : R) s) as Efst.
  { revert us Eu Lu Hd. clear. intros us _ L _. revert us L. induction s as [|p s IH]; intros [|u us] L; cbn in *; try discriminate; [reflexivity|].
    f_equal. apply IH. lia. }
  destruct (fix_cm_centered d (combine (map (fun p : part Rops => p_mass p : R) s) us)) as [ps' [E [Hd' [Hf [_ [_ Hi]]]]]].
  - destruct s; [congruence|]. destruct us; [discriminate|]. discriminate.
  - intros q Hq. destruct q as [m r]. apply in_combine_r in Hq. exact (Hd r Hq).
  - unfold total_mass. rewrite Efst. exact Hm.
  - unfold fix_unfolded. rewrite Eu. cbn [bind]. refine (ex_intro _ _ (conj (eq_trans (f_equal (fun x => bind x _) E) _) _)); [reflexivity|].
    set (s' := map2 (fun (p : part Rops) (mu : R * list R) => mkPart (A:=Rops) (p_species p) (p_mass p) (p_pos p) (p_vel p) (Some (snd mu))) s ps').
    assert (length ps' = length s) as L.
    { rewrite <- (map_length fst ps'), Hf, Efst. apply map_length. }
    assert (dump_unf Rops s' = Ok (map snd ps') /\ map (fun p : part Rops => p_mass p : R) s' = map (fun p : part Rops => p_mass p : R) s) as [E1 E2].
    { subst s'. clear - L. revert ps' L. induction s as [|p s IH]; intros [|q ps'] L; cbn in *; try discriminate; [split; reflexivity|].
      destruct (IH ps') as [A1 A2]; [lia|]. unfold dump_unf in *. cbn [mapM p_unf]. refine (conj _ _).
      - cbn [bind]. refine (eq_trans (f_equal (fun x => bind x _) A1) _). reflexivity.
      - f_equal. exact A2. }
    refine (eq_trans (f_equal (fun x => bind x _) E1) _). cbn [bind].
    assert (combine (map (fun p : part Rops => p_mass p : R) s') (map snd ps') = ps') as Ec.
    { rewrite E2, <- Efst, <- Hf. clear. induction ps' as [|[m r] l IH]; [reflexivity|]. cbn. f_equal. exact IH. }
    refine (eq_trans (f_equal (fun x => bind (fix_cm_frame Rops x) _) Ec) _).
    refine (eq_trans (f_equal (fun x => bind x _) Hi) _). cbn [bind]. f_equal.
    subst s'. clear - L. revert ps' L. induction s as [|p s IH]; intros [|q ps'] L; cbn in *; try discriminate; [reflexivity|].
    f_equal. apply IH. lia.
Qed.

Lemma frames_fixed : forall d frames, Forall (frame_ok d) frames ->
  exists fr, mapM (fix_unfolded Rops) frames = Ok fr /\ mapM (fix_unfolded Rops) fr = Ok fr /\
    Forall2 (fun s s' => fix_unfolded Rops s = fix_unfolded Rops s') frames fr.
Proof.
  intros d frames H. induction H as [|s l Hs Hl [fr [E1 [E2 F]]]]; [exists []; repeat split; constructor|].
  destruct (fix_unfolded_idem d s Hs) as [s' [A1 A2]]. exists (s' :: fr). cbn [mapM].
  rewrite A1, A2. cbn [bind]. rewrite E1, E2. cbn [bind]. split; [reflexivity|]. split; [reflexivity|].
  constructor; [congruence|exact F].
Qed.

Lemma run_cached_all_fixed : forall d (D : decor Rops) frames jobs,
  frames <> [] -> Forall (frame_ok d) frames ->
  (forall j, In j jobs -> j_fix j = true /\ j_ps j = unfolded_only) ->
  run_jobs Rops D true frames jobs = run_jobs Rops D false frames jobs.
Proof.
  intros d D frames jobs Hne Hok Hj.
  destruct (frames_fixed d frames Hok) as [fr [E1 [E2 F]]].
  assert (has_unfolded Rops frames = Ok true) as H.
  { destruct frames as [|s frames]; [congruence|]. apply Forall_inv in Hok. destruct Hok as [Hs [Hu _]].
    unfold has_unfolded. cbn [get nth_error bind]. destruct s as [|p s]; [congruence|]. cbn [get nth_error bind].
    destruct (Hu p (or_introl eq_refl)) as [u [-> _]]. reflexivity. }
  pose proof (has_unfolded_fixed Rops frames fr H E1) as H'.
  assert (forall c, setup_onebody Rops D unfolded_only true c fr arrays0 = setup_onebody Rops D unfolded_only true c frames arrays0) as S1.
  { intros c. rewrite (setup_unfolded _ D true c fr H'), (setup_unfolded _ D true c frames H).
    f_equal. symmetry. apply (mapM_ext_Forall2 _ _ _ _ (fun s s' => fix_unfolded Rops s = fix_unfolded Rops s')); [|exact F].
    intros x y Hx. rewrite Hx. reflexivity. }
  assert (left_behind Rops unfolded_only true frames = Ok fr) as B1.
  { unfold left_behind. cbn [unfolded_only w_unf w_pos]. rewrite H. cbn [bind andb negb]. exact E1. }
  assert (left_behind Rops unfolded_only true fr = Ok fr) as B2.
  { unfold left_behind. cbn [unfolded_only w_unf w_pos]. rewrite H'. cbn [bind andb negb]. exact E2. }
  assert (forall js, (forall j, In j js -> j_fix j = true /\ j_ps j = unfolded_only) ->
    run_jobs Rops D true fr js = run_jobs Rops D false frames js) as G.
  { induction js as [|j js IH]; intros K; [reflexivity|]. cbn [run_jobs].
    destruct (K j (or_introl eq_refl)) as [-> ->]. rewrite S1. destruct (setup_onebody _ _ _ _ _ frames _); [|reflexivity].
    cbn [bind]. rewrite B2. cbn [bind]. rewrite IH; [reflexivity|]. intros k Hk. apply K. right. exact Hk. }
  destruct jobs as [|j jobs]; [reflexivity|]. cbn [run_jobs].
  destruct (Hj j (or_introl eq_refl)) as [-> ->]. destruct (setup_onebody _ _ _ _ _ frames _); [|reflexivity].
  cbn [bind]. rewrite B1. cbn [bind]. rewrite G; [reflexivity|]. intros k Hk. apply Hj. right. exact Hk.
Qed.
