(** Theorems about the options of the functions of the API: C118. *)
From Coq Require Import Ascii String List ZArith Bool Arith Reals Lia Lra.
From Verif Require Import PyBase PyBaseFacts Num M_Helpers M_Api M_Fourier T_Api.
Import ListNotations.
Local Open Scope string_scope.

(** ** Specification *)
(** Every job of the call is given these options under these names. *)
Definition given_options (js : list job) (opts : list (string * arg)) : Prop :=
  forall j name v, In j js -> In (name, v) opts -> option_of j name = Some v.

Lemma each_given : forall ths f js opts, for_each f ths = Ok js ->
  (forall t jt, In t ths -> f t = Ok jt -> given_options jt opts) -> given_options js opts.
Proof.
  intros ths f js opts H F j name v Hj Hv. destruct (for_each_in _ _ _ _ H Hj) as [t [jt [Ht [E Hi]]]].
  exact (F t jt Ht E j name v Hi Hv).
Qed.

Ltac each_option Hv := repeat (destruct Hv as [Hv|Hv]; [injection Hv as <- <-; reflexivity|]); destruct Hv.

(** ** C118 *)
(** The options of every function reach all the calculations it starts. *)
Definition text (o : option string) : arg := match o with None => ANone | Some s => AStr s end.
Theorem C118_options_partial : forall g ths,
  (forall dr ndim rmax js, api_gr g dr ndim rmax ths = Ok js ->
     given_options js [("dr", dr); ("ndim", AInt ndim); ("rmax", ANum rmax)]) /\
  (forall nk dk kmin kmax ks kgrid w wt wf js, api_sk g nk dk kmin kmax ks kgrid w wt wf ths = Ok js ->
     given_options js [("nk", AInt nk); ("dk", ANum dk); ("kmin", ANum kmin); ("kmax", ANum kmax); ("ksamples", AInt ks);
       ("kgrid", match kgrid with None => ANone | Some l => AList l end); ("weight", text w); ("weight_trajectory", text wt);
       ("weight_fluctuations", ABool wf)]) /\
  (forall nk dk kmin kmax ks kgrid t0 r js, ths = t0 :: r -> api_ik g None nk dk kmin kmax ks kgrid ths = Ok js ->
     given_options js [("nk", AInt nk); ("dk", ANum dk); ("kmin", ANum kmin); ("kmax", ANum kmax); ("ksamples", AInt ks);
       ("kgrid", match kgrid with None => ANone | Some l => AList l end); ("trajectory_radius", AStr (th_file t0));
       ("norigins", g_norigins g)]) /\
  (forall dtheta js, api_ba g dtheta ths = Ok js -> given_options js [("dtheta", ANum dtheta)]) /\
  (forall c extra tm tf ts k1 k2 ks dk nk kg func fc total js,
     api_scattering c extra g tm tf ts k1 k2 ks dk nk (Some kg) func fc total ths = Ok js ->
     given_options js [("kgrid", AList kg); ("nk", AInt nk); ("dk", ANum dk); ("fix_cm", ABool fc)]) /\
  (forall mb tm tf ts k1 k2 ks dk nk kgrid func fc total js,
     api_fskt mb g tm tf ts k1 k2 ks dk nk kgrid func fc total ths = Ok js -> given_options js [("lookup_mb", ANum mb)]) /\
  (forall ts a tm func tf total js, api_chi4qs g ts a tm func tf total ths = Ok js -> given_options js [("a", ANum a)]).
Proof.
  intros g ths. repeat match goal with |- _ /\ _ => split end.
  - intros dr ndim rmax js H. apply (each_given _ _ _ _ H). intros t jt Ht E j name v Hj Hv. apply Ok_inj in E. subst jt.
    destruct Hj as [<-|Hj]; [each_option Hv|]. destruct (with_partial _ _); [|destruct Hj]. destruct Hj as [<-|[]]. each_option Hv.
  - intros nk dk kmin kmax ks kgrid w wt wf js H. unfold api_sk in H. destruct (_ && _); [discriminate|].
    apply (each_given _ _ _ _ H). intros t jt Ht E j name v Hj Hv. apply Ok_inj in E. subst jt.
    destruct Hj as [<-|Hj]; [each_option Hv|]. destruct (with_partial _ _); [|destruct Hj]. destruct Hj as [<-|[]]. each_option Hv.
  - intros nk dk kmin kmax ks kgrid t0 r js -> H. unfold api_ik in H. apply Ok_inj in H. subst js.
    cbn [fold_left fst snd].
    assert (K : forall (l : list th) a, fold_left (fun (st : option string * list job) t =>
        match fst st with
        | Some r => st
        | None => (Some (th_file t0), snd st ++ (mkJob (th_file t) "SpectralDensity" false None (g_update (compat g))
            [("trajectory_radius", AStr (th_file t0)); ("kgrid", kgrid_arg kgrid); ("norigins", g_norigins (compat g)); ("kmin", ANum kmin);
             ("kmax", ANum kmax); ("nk", AInt nk); ("dk", ANum dk); ("ksamples", AInt ks)] :: nil))%list
        end) l (Some (th_file t0), a) = (Some (th_file t0), a)).
    { induction l as [|t l IH]; intros a; [reflexivity|]. cbn [fold_left fst]. apply IH. }
    rewrite K. intros j name v Hj Hv. cbn [snd app] in Hj. destruct Hj as [<-|[]]. each_option Hv.
  - intros dtheta js H. apply (each_given _ _ _ _ H). intros t jt Ht E j name v Hj Hv. apply Ok_inj in E. subst jt.
    destruct Hj as [<-|Hj]; [each_option Hv|]. destruct (with_partial _ _); [|destruct Hj]. destruct Hj as [<-|[]]. each_option Hv.
  - intros c extra tm tf ts k1 k2 ks dk nk kg func fc total js H. unfold api_scattering in H. apply bind_Ok_inv in H. destruct H as [f [_ H]].
    apply (each_given _ _ _ _ H). intros t jt Ht E j name v Hj Hv. apply bind_Ok_inv in E. destruct E as [tg [_ E]].
    cbn [bind] in E. apply Ok_inj in E. subst jt. apply in_app_or in Hj. destruct Hj as [Hi|Hi].
    + destruct (total || _)%bool; [|destruct Hi]. destruct Hi as [<-|[]]. each_option Hv.
    + destruct (with_partial _ _); [|destruct Hi]. destruct Hi as [<-|[]]. each_option Hv.
  - intros mb tm tf ts k1 k2 ks dk nk kgrid func fc total js H. unfold api_fskt, api_scattering in H. apply bind_Ok_inv in H. destruct H as [f [_ H]].
    apply (each_given _ _ _ _ H). intros t jt Ht E j name v Hj Hv. apply bind_Ok_inv in E. destruct E as [tg [_ E]].
    apply bind_Ok_inv in E. destruct E as [kg [_ E]]. apply Ok_inj in E. subst jt. apply in_app_or in Hj. destruct Hj as [Hi|Hi].
    + destruct (total || _)%bool; [|destruct Hi]. destruct Hi as [<-|[]]. each_option Hv.
    + destruct (with_partial _ _); [|destruct Hi]. destruct Hi as [<-|[]]. each_option Hv.
  - intros ts a tm func tf total js H. unfold api_chi4qs in H. apply bind_Ok_inv in H. destruct H as [f [_ H]]. destruct (g_fast _); [discriminate|].
    apply (each_given _ _ _ _ H). intros t jt Ht E j name v Hj Hv. apply bind_Ok_inv in E. destruct E as [tg [_ E]]. apply Ok_inj in E. subst jt.
    apply in_app_or in Hj. destruct Hj as [Hj|Hj].
    + destruct total; [|destruct Hj]. destruct Hj as [<-|[]]. each_option Hv.
    + destruct (negb total && _)%bool; [|destruct Hj]. destruct Hj as [<-|[]]. each_option Hv.
Qed.
Print Assumptions C118_options_partial.

(** Weights have no effect on the fast structure factor, nor has the place of the
    particles of the second group. *)
Lemma mapM_cong : forall X Y (f g : X -> res Y) l, (forall x, In x l -> f x = g x) -> mapM f l = mapM g l.
Proof.
  intros X Y f g l. induction l as [|x l IH]; intros H; [reflexivity|]. cbn. rewrite (H x (or_introl eq_refl)), IH; [reflexivity|].
  intros y Hy. apply H. right. exact Hy.
Qed.
Lemma foldM_cong : forall X Y (f g : X -> Y -> res X) l a, (forall b y, f b y = g b y) -> foldM f a l = foldM g a l.
Proof.
  intros X Y f g l. induction l as [|x l IH]; intros a H; [reflexivity|]. cbn. rewrite H. destruct (g a x); [|reflexivity].
  cbn [bind]. apply IH. exact H.
Qed.
Theorem C118_fast_weights_refuted : forall kst skip frames frames',
  map sf_pos0 frames = map sf_pos0 frames' ->
  map (fun f => length (sf_pos1 f)) frames = map (fun f => length (sf_pos1 f)) frames' ->
  structure_factor_fast kst skip frames = structure_factor_fast kst skip frames'.
Proof.
  intros kst skip frames frames' H0 H1. unfold structure_factor_fast.
  assert (L : length frames = length frames').
  { apply (f_equal (@length _)) in H0. rewrite !map_length in H0. exact H0. }
  rewrite L, H0. unfold mean_number. rewrite !(map_map sf_pos1).
  replace (map (fun x => INR (length (sf_pos1 x))) frames) with (map INR (map (fun f => length (sf_pos1 f)) frames)) by apply map_map.
  replace (map (fun x => INR (length (sf_pos1 x))) frames') with (map INR (map (fun f => length (sf_pos1 f)) frames')) by apply map_map.
  rewrite H1. destruct (py_range 0 (length frames') skip) as [rng|e]; [|reflexivity]. cbn [bind].
  rewrite (foldM_cong _ _ (fast_step kst frames) (fast_step kst frames')); [reflexivity|].
  intros accs i. unfold fast_step. unfold get.
  assert (G : option_map sf_pos0 (nth_error frames i) = option_map sf_pos0 (nth_error frames' i)).
  { rewrite <- !nth_error_map, H0. reflexivity. }
  destruct (nth_error frames i), (nth_error frames' i); cbn [option_map] in G; try discriminate; [|reflexivity].
  injection G as G. cbn [bind]. rewrite G. reflexivity.
Qed.
Print Assumptions C118_fast_weights_refuted.

Example C118_nonvacuous :
  (exists js, api_sk plain 10 0 0 8 5 (Some [7%R]) (Some "q") (Some "w.xyz") true [mkTh "a" 1 10 2] = Ok js /\ length js = 2 /\
     forall j, In j js -> option_of j "weight_trajectory" = Some (AStr "w.xyz")) /\
  (exists js, api_ik plain None 10 0 0 8 5 None two_files = Ok js /\ length js = 1 /\
     forall j, In j js -> option_of j "trajectory_radius" = Some (AStr (th_file (hd (mkTh "" 0 0 0) two_files)))) /\
  (exists frames frames', frames <> frames' /\ map sf_pos0 frames = map sf_pos0 frames' /\
     map (fun f => length (sf_pos1 f)) frames = map (fun f => length (sf_pos1 f)) frames').
Proof.
  split; [|split].
  - eexists. split; [reflexivity|]. split; [reflexivity|].
    intros j [<-|[<-|[]]]; reflexivity.
  - eexists. split; [reflexivity|]. split; [reflexivity|]. intros j [<-|[]]. reflexivity.
  - exists [mkSkFrame [[0%R]] [[0%R]] None None], [mkSkFrame [[0%R]] [[1%R]] (Some [2%R]) (Some [3%R])].
    split; [discriminate|]. split; reflexivity.
Qed.
