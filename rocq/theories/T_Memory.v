(** Theorems on the file of relaxation times (C105) and on trajectories kept in memory
    (C106). *)
From Coq Require Import Ascii String List ZArith Bool Arith Lia.
From Verif Require Import PyBase PyBaseFacts Num M_Text M_Output M_Path M_Analysis M_Memory P_Text.
Import ListNotations.
Local Open Scope nat_scope.

(** ** C105 *)
Definition known (d : list (f64 * option f64)) : Prop := forall p, In p d -> snd p <> None.
Definition unknown (d : list (f64 * option f64)) : Prop := forall p, In p d -> snd p = None.
Definition tau_row (p : f64 * option f64) : list f64 := match snd p with None => [fst p] | Some t => [fst p; t] end.

Definition tau_head : list string :=
  ["# title: relaxation times tau(k) as a function of k"; "# columns: k, tau(k)";
   "# note: tau is the time at which the correlation function has decayed to 1/e"]%string.
Lemma write_tau_rows : forall d, write_tau d = tau_head ++ map show_row (map tau_row d).
Proof.
  intros d. unfold write_tau, tau_head. f_equal. rewrite map_map. apply map_ext. intros [k [t|]]; reflexivity.
Qed.
Lemma head_comments : forall c, In c tau_head -> is_comment c.
Proof. intros c [<-|[<-|[<-|[]]]]; eexists; reflexivity. Qed.

(** When every wave-vector has its relaxation time, the rows read are the pairs k, tau. *)
Theorem C105_rows_partial : forall d, known d ->
  exists rows, loadtxt (write_tau d) = Ok rows /\
    Forall2 (fun p r => exists k t tau, r = [k; t] /\ snd p = Some tau /\ agrees (fst p) k /\ agrees tau t) d rows.
Proof.
  intros d K. rewrite write_tau_rows. destruct (loadtxt_table tau_head 2 (map tau_row d) head_comments) as [nss [E F]]; [lia| |].
  - intros r Hr. apply in_map_iff in Hr. destruct Hr as [p [<- Hp]]. specialize (K p Hp). unfold tau_row. destruct (snd p); [reflexivity|congruence].
  - exists nss. split; [exact E|]. clear E. revert nss F. induction d as [|p d IH]; intros nss F; inversion F as [|? ns ? nss' H1 H2]; subst; constructor.
    + pose proof (K p (or_introl eq_refl)) as Kp. unfold tau_row in H1. destruct (snd p) as [tau|] eqn:Et; [|congruence].
      inversion H1 as [|? k ? l A1 H3]; subst. inversion H3 as [|? t ? l' A2 H4]; subst. inversion H4; subst. exists k, t, tau. repeat split; assumption.
    + apply IH; [|exact H2]. intros q Hq. apply K. right. exact Hq.
Qed.
Print Assumptions C105_rows_partial.

Lemma load_one : forall acc r, r <> [] -> exists ns, length ns = length r /\
  load_row acc (show_row r) = match acc with [] => Ok [ns] | r0 :: _ => if length ns =? length r0 then Ok (acc ++ [ns]) else Err ValueError end.
Proof.
  intros acc r Hr. destruct (parse_words r) as [ns [En Fn]]. exists ns. split; [clear - Fn; induction Fn; cbn; congruence|].
  unfold load_row, show_row. rewrite words_concat.
  - destruct (map show_g r) as [|w ws] eqn:Em; [destruct r; [congruence|discriminate]|]. rewrite En. reflexivity.
  - intros w Hw. apply in_map_iff in Hw. destruct Hw as [x [<- _]]. apply clean_g.
Qed.
Lemma load_same_width : forall d c (acc : list (list number)), acc <> [] -> (forall r, In r acc -> length r = c) ->
  (exists p, In p d /\ length (tau_row p) <> c) -> foldM load_row acc (map show_row (map tau_row d)) = Err ValueError.
Proof.
  induction d as [|p d IH]; intros c acc Ha Hc [q [Hq Lq]]; [destruct Hq|]. cbn [map foldM].
  destruct (load_one acc (tau_row p)) as [ns [Ln E]]; [unfold tau_row; destruct (snd p); discriminate|]. rewrite E.
  destruct acc as [|r0 acc]; [congruence|]. rewrite Ln, (Hc r0 (or_introl eq_refl)).
  destruct (Nat.eqb_spec (length (tau_row p)) c) as [Ep|Ep]; cbn [bind]; [|reflexivity].
  apply (IH c); [intros X; discriminate X| |].
  - intros r Hr. apply in_app_iff in Hr. destruct Hr as [Hr|[<-|[]]]; [apply Hc; exact Hr|congruence].
  - destruct Hq as [<-|Hq]; [congruence|]. exists q. split; assumption.
Qed.
Lemma foldM_app_comments : forall cs l acc, (forall c, In c cs -> is_comment c) -> foldM load_row acc (cs ++ l) = foldM load_row acc l.
Proof.
  intros cs l acc H.
  assert (A : forall S X (f : S -> X -> res S) l m s, foldM f s (l ++ m) = (s' <- foldM f s l ;; foldM f s' m)).
  { intros S X f l0 m. induction l0 as [|x l0 IH]; intros s; [reflexivity|]. cbn [foldM app]. destruct (f s x); [apply IH|reflexivity]. }
  rewrite A, load_comments by assumption. reflexivity.
Qed.

(** The file can be loaded exactly when all the relaxation times are known, or none. *)
Theorem C105_loads_partial : forall d,
  (known d \/ unknown d -> exists rows, loadtxt (write_tau d) = Ok rows) /\
  (~ (known d \/ unknown d) -> loadtxt (write_tau d) = Err ValueError).
Proof.
  intros d. split.
  - intros [K|K].
    + destruct (C105_rows_partial d K) as [rows [E _]]. exists rows. exact E.
    + rewrite write_tau_rows. destruct (loadtxt_table tau_head 1 (map tau_row d) head_comments) as [nss [E F]]; [lia| |exists nss; exact E].
      intros r Hr. apply in_map_iff in Hr. destruct Hr as [p [<- Hp]]. specialize (K p Hp). unfold tau_row. rewrite K. reflexivity.
  - intros N. rewrite write_tau_rows. unfold loadtxt. rewrite foldM_app_comments by exact head_comments.
    destruct d as [|p d]; [exfalso; apply N; left; intros q []|]. cbn [map foldM].
    destruct (load_one [] (tau_row p)) as [ns [Ln E]]; [unfold tau_row; destruct (snd p); discriminate|]. rewrite E. cbn [bind].
    apply (load_same_width d (length (tau_row p))); [discriminate| |].
    + intros r [<-|[]]. exact Ln.
    + assert (D : forall q, length (tau_row q) = 2 \/ length (tau_row q) = 1) by (intros q; unfold tau_row; destruct (snd q); auto).
      assert (S2 : forall q, length (tau_row q) = 2 <-> snd q <> None) by (intros q; unfold tau_row; destruct (snd q); cbn; split; congruence).
      assert (S1 : forall q, length (tau_row q) = 1 <-> snd q = None) by (intros q; unfold tau_row; destruct (snd q); cbn; split; congruence).
      destruct (forallb (fun q => length (tau_row q) =? length (tau_row p)) d) eqn:B.
      * exfalso. apply N. rewrite forallb_forall in B. destruct (D p) as [Dp|Dp].
        -- left. intros q [<-|Hq]; apply S2; [exact Dp|]. apply B, Nat.eqb_eq in Hq. congruence.
        -- right. intros q [<-|Hq]; apply S1; [exact Dp|]. apply B, Nat.eqb_eq in Hq. congruence.
      * assert (X : exists q, In q d /\ (length (tau_row q) =? length (tau_row p)) = false).
        { clear - B. induction d as [|q d IH]; [discriminate|]. cbn [forallb] in B. destruct (length (tau_row q) =? length (tau_row p)) eqn:Eq.
          - destruct (IH B) as [q' [H1 H2]]. exists q'. split; [right; exact H1|exact H2].
          - exists q. split; [left; reflexivity|exact Eq]. }
        destruct X as [q [Hq Eq]]. exists q. split; [exact Hq|]. apply Nat.eqb_neq. exact Eq.
Qed.
Print Assumptions C105_loads_partial.

(** Two wave-vectors: the first function decays to a half and stays there, the second goes
    to zero. *)
Theorem C105_load_refuted : exists ks t f factor d,
  extract_tau F64ops ks t f factor = Ok d /\ loadtxt (write_tau d) = Err ValueError.
Proof.
  exists [f64_ofZ 7; f64_ofZ 14], (map f64_ofZ [0; 1; 2; 3]%Z),
    [[f64_ofZ 1; f64_frac 3 4; f64_frac 1 2; f64_frac 1 2]; [f64_ofZ 1; f64_frac 3 4; f64_frac 1 4; f64_ofZ 0]], (f64_frac 3679 10000).
  eexists. split; [vm_compute; reflexivity|vm_compute; reflexivity].
Qed.
Print Assumptions C105_load_refuted.

(** The relaxation times go to a file of their own, beside the function. *)
Theorem C105_file : forall s now p comments analysis d taus s', write_scattering s now (Some p) comments analysis d taus = Ok s' ->
  (forall q, q <> p -> q <> (p ++ ".tau")%string -> s' q = s q) /\
  (exists lines, file_lines comments analysis d = Ok lines /\ s' p = Some (mkFile now lines)) /\
  (p <> "/dev/stdout"%string -> s' (p ++ ".tau")%string = Some (mkFile now (write_tau taus))).
Proof.
  intros s now p comments analysis d taus s' H. unfold write_scattering, write in H. apply bind_Ok_inv in H. destruct H as [s1 [H1 H]].
  apply bind_Ok_inv in H1. destruct H1 as [lines [El H1]]. apply Ok_inj in H1. subst s1.
  assert (Dp : p <> (p ++ ".tau")%string).
  { intros E. apply (f_equal String.length) in E. assert (L : forall a b, String.length (a ++ b) = String.length a + String.length b) by (induction a; intros; cbn; congruence).
    rewrite L in E. cbn in E. lia. }
  destruct (String.eqb_spec p "/dev/stdout") as [Ep|Ep]; apply Ok_inj in H; subst s'.
  - split; [|split].
    + intros q Hq _. unfold fs_set. destruct (String.eqb_spec q p); [contradiction|reflexivity].
    + exists lines. split; [exact El|]. unfold fs_set. rewrite String.eqb_refl. reflexivity.
    + intros; contradiction.
  - split; [|split].
    + intros q Hq Hq'. unfold fs_set. destruct (String.eqb_spec q (p ++ ".tau")); [contradiction|]. destruct (String.eqb_spec q p); [contradiction|reflexivity].
    + exists lines. split; [exact El|]. unfold fs_set. destruct (String.eqb_spec p (p ++ ".tau")); [contradiction|]. rewrite String.eqb_refl. reflexivity.
    + intros _. unfold fs_set. rewrite String.eqb_refl. reflexivity.
Qed.
Print Assumptions C105_file.

Example C105_nonvacuous :
  loadtxt (write_tau [(f64_ofZ 7, Some (f64_frac 5 2)); (f64_ofZ 14, Some (f64_frac 1 8))])
  = Ok [[NDec false 7 0; NDec false 25 (-1)]; [NDec false 14 0; NDec false 125 (-3)]].
Proof. vm_compute. reflexivity. Qed.

(** ** C106 *)
(** Stored or not, the same results are returned, and only a stored trajectory gets an
    output file (all functions but the scattering functions). *)
Theorem C106_results_partial : forall s now filename arg core n comments compute d an lines,
  compute = Ok (d, an) -> file_lines comments an d = Ok lines ->
  exists s', do_plain false s now filename (output_file (initial_path filename arg core) n) comments compute = (true, Ok (inr ((d, an), s'))) /\
    (filename = None -> s' = s) /\
    (filename <> None -> exists p, output_file (Some (match arg with Some t => t | None => core end)) n = Some p /\
       s' p = Some (mkFile now lines) /\ forall q, q <> p -> s' q = s q).
Proof.
  intros s now filename arg core n comments compute d an lines -> El. unfold do_plain, do_for, write. cbn [bind fst snd]. rewrite El. cbn [bind].
  destruct filename as [f|]; cbn [initial_path].
  - destruct (output_file (Some match arg with Some t => t | None => core end) n) as [p|] eqn:Ep; [|discriminate Ep]. cbn [bind]. eexists. split; [reflexivity|]. split; [discriminate|].
    intros _. exists p. split; [reflexivity|]. split; [unfold fs_set; rewrite String.eqb_refl; reflexivity|].
    intros q Hq. unfold fs_set. destruct (String.eqb_spec q p); [contradiction|reflexivity].
  - exists s. split; [reflexivity|]. split; [reflexivity|congruence].
Qed.
Print Assumptions C106_results_partial.

(** An output path set after construction is used, also by the scattering functions; a
    second run with update=True then raises. *)
Theorem C106_path_set_partial : forall s now p comments x lines taus,
  file_lines comments (snd x) (fst x) = Ok lines ->
  (exists s', do_plain false s now None (Some p) comments (Ok x) = (true, Ok (inr (x, s'))) /\ s' p = Some (mkFile now lines) /\ forall q, q <> p -> s' q = s q) /\ (exists s', do_scattering false s now None (Some p) comments (Ok (x, taus)) = (true, Ok (inr ((x, taus), s'))) /\ s' p = Some (mkFile now lines) /\ forall q, q <> p -> q <> (p ++ ".tau")%string -> s' q = s q).
Proof.
  intros s now p comments x lines taus El. split.
  - unfold do_plain, do_for, write. cbn [bind]. rewrite El. cbn [bind]. eexists. split; [reflexivity|]. unfold fs_set. rewrite String.eqb_refl. split; [reflexivity|].
    intros q Hq. destruct (String.eqb_spec q p); [contradiction|reflexivity].
  - unfold do_scattering, do_for. cbn [bind fst snd].
    destruct (write_scattering s now (Some p) comments (snd x) (fst x) taus) as [s'|e] eqn:E.
    + destruct (C105_file _ _ _ _ _ _ _ _ E) as [F1 [[lines' [El' F2]] _]]. rewrite El in El'. apply Ok_inj in El'. subst lines'.
      exists s'. split; [reflexivity|]. split; assumption.
    + exfalso. unfold write_scattering, write in E. rewrite El in E. cbn [bind] in E. destruct (String.eqb p "/dev/stdout"); discriminate E.
Qed.
Print Assumptions C106_path_set_partial.

(** The output path given to the constructor is ignored for a trajectory in memory. *)
Theorem C106_output_path_refuted : forall s now arg core n comments compute,
  do_plain false s now None (output_file (initial_path None (Some arg) core) n) comments compute
  = do_plain false s now None None comments compute /\
  forall d an lines, compute = Ok (d, an) -> file_lines comments an d = Ok lines ->
    do_plain false s now None (output_file (initial_path None (Some arg) core) n) comments compute = (true, Ok (inr ((d, an), s))).
Proof.
  intros. split; [reflexivity|]. intros d an lines -> El. unfold do_plain, do_for, write. cbn [bind fst snd initial_path output_file]. rewrite El. reflexivity.
Qed.
Print Assumptions C106_output_path_refuted.

(** Scattering functions of a trajectory in memory: always an exception, after the
    whole calculation. *)
Theorem C106_scattering_refuted : forall s now arg core n comments x lines,
  file_lines comments (snd (fst x)) (fst (fst x)) = Ok lines ->
  do_scattering false s now None (output_file (initial_path None arg core) n) comments (Ok x) = (true, Err TypeError).
Proof.
  intros s now arg core n comments x lines El. unfold do_scattering, do_for, write_scattering, write. cbn [bind initial_path output_file]. rewrite El. reflexivity.
Qed.
Print Assumptions C106_scattering_refuted.

(** With update=True every function of a trajectory in memory raises, before computing;
    with an output path set by hand, as soon as the file exists. *)
Theorem C106_update_refuted : forall s now arg core n comments compute compute',
  do_plain true s now None (output_file (initial_path None arg core) n) comments compute = (false, Err TypeError) /\
  do_scattering true s now None (output_file (initial_path None arg core) n) comments compute' = (false, Err TypeError) /\
  (forall p f, p <> "/dev/stdout"%string -> s p = Some f -> do_plain true s now None (Some p) comments compute = (false, Err TypeError)).
Proof.
  intros. split; [reflexivity|]. split; [reflexivity|]. intros p f Hp E. unfold do_plain, do_for, need_update_of. rewrite E.
  destruct (String.eqb_spec p "/dev/stdout"); [contradiction|reflexivity].
Qed.
Print Assumptions C106_update_refuted.

(** The default template set by hand: all trajectories in memory share the files None.pp.*. *)
Theorem C106_default_name_refuted : forall n, n_trajectory n = printed_name None -> n_symbol n = "msd"%string -> n_tag n = ""%string ->
  output_file (Some default_template) n = Some "None.pp.msd"%string.
Proof. intros [tr sy sh lo ta de] E1 E2 E3. cbn in *. subst. reflexivity. Qed.
Print Assumptions C106_default_name_refuted.

(** A stored trajectory and one in memory; for stored ones this is the model of C56. *)
Example C106_nonvacuous :
  let c := Ok (Data1 [f64_ofZ 7; f64_ofZ 8] [f64_ofZ 7; f64_ofZ 9], []) in
  let n := fun f => mkNames (printed_name f) "msd" "" "" "" "" in
  let run := fun f => do_plain false (fun _ => None) 5 f (output_file (initial_path f None default_template) (n f)) [] c in
  (exists s, run (Some "traj"%string) = (true, Ok (inr (Data1 [f64_ofZ 7; f64_ofZ 8] [f64_ofZ 7; f64_ofZ 9], [], s))) /\
     s "traj.pp.msd"%string = Some (mkFile 5 ["7 7"; "8 9"]%string)) /\
  (exists s, run None = (true, Ok (inr (Data1 [f64_ofZ 7; f64_ofZ 8] [f64_ofZ 7; f64_ofZ 9], [], s))) /\ s "traj.pp.msd"%string = None).
Proof. intros c n run. split; eexists; split; try reflexivity; vm_compute; reflexivity. Qed.
