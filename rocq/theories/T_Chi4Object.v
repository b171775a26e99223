(** Theorems about the functions and the files of Chi4SelfOverlap: C96. *)
From Coq Require Import Ascii String List ZArith Bool Arith Lia Reals Lra Floats.SpecFloat.
From Verif Require Import PyBase PyBaseFacts Num NumFacts M_Helpers M_Correlation M_Dynamics M_Text M_Output M_Path M_Header M_Chi4Object
  Spec_Stats Spec_Correlation Spec_Time Spec_Dynamics P_Correlation P_Time P_Skip P_Acf P_Dynamics P_Dynamics2 P_Overlap P_Chi4
  P_Text T_Output T_Path T_Header.
Import ListNotations.
Local Open Scope R_scope.

(** The values are those of C21. *)
Lemma chi4_rows_values : forall A (tr : traj A) grid n a unf,
  chi4_compute A tr grid n a unf = (rows <- chi4_rows A tr grid n a unf ;; Ok (map (fun r => (c_time r, c_value r)) rows)).
Proof.
  intros A tr grid n a unf. unfold chi4_compute, chi4_rows. destruct (adjust_skip _ _ _ _ _) as [skip|]; [cbn [bind]|reflexivity].
  destruct (setup_t_grid _ _ _ _ _ _) as [dg|]; [cbn [bind]|reflexivity]. induction dg as [|p dg IH]; [reflexivity|]. cbn [mapM].
  assert (E : chi4_point A (nsq A a) tr skip unf p = (r <- chi4_row_of A (nsq A a) tr skip unf p ;; Ok (c_time r, c_value r))).
  { unfold chi4_point, chi4_row_of. destruct (chi4_sums _ _ _ _ _); [cbn [bind]|reflexivity].
    destruct (get _ _); [cbn [bind]|reflexivity]. destruct (get _ _); [cbn [bind]|reflexivity]. destruct (get unf 0); reflexivity. }
  rewrite E. destruct (chi4_row_of _ _ _ _ _ _) as [r|]; [cbn [bind]|reflexivity]. rewrite IH.
  destruct (mapM (chi4_row_of _ _ _ _ _) dg); reflexivity.
Qed.

(** One entry of each function per point of the time grid: the mean over the origins of the
    number of slow particles, the mean of its square, and chi4, their difference per particle. *)
Theorem C96_values : forall (tr : traj Rops) grid n a (unf : list (list (list R))) N skip dg,
  unf <> [] -> length (t_steps tr) = length unf -> (forall x, In x unf -> length x = N) ->
  adjust_skip Rops (length (t_steps tr)) (t_npart tr) (t_bs tr) n = Ok skip ->
  setup_t_grid Rops (t_steps tr) (t_bs tr) (t_dt tr) grid (not_str_1 Rops n) = Ok dg ->
  exists rows, chi4_rows Rops tr grid n a unf = Ok rows /\ length rows = length dg /\
    chi4_compute Rops tr grid n a unf = Ok (map (fun r => (c_time r, c_value r)) rows) /\
    forall k p r, nth_error dg k = Some p -> nth_error rows k = Some r ->
      let w := counts (a * a) unf p (origins (fst p) skip (length unf - snd p - skip)) in
      c_time r = IZR (lag_dt (t_steps tr) p) * t_dt tr /\
      c_average r = rmean w /\ c_second r = rmean (map (fun x => x * x) w) /\
      c_value r = (c_second r - c_average r * c_average r) / INR N.
Proof.
  intros tr grid n a unf N skip dg Hne Hl HN E1 E2.
  destruct (setup_t_grid_correct _ _ _ _ _ _ _ E2) as [reqs [_ [_ [Hu _]]]].
  assert (1 <= length (t_steps tr))%nat as Hn by (rewrite Hl; destruct unf; [congruence|cbn; lia]).
  pose proof (adjust_skip_range _ _ _ _ _ _ Hn E1) as Hs.
  set (row := fun p => let w := counts (a * a) unf p (origins (fst p) skip (length unf - snd p - skip)) in
     mkChi4 (A:=Rops) (IZR (lag_dt (t_steps tr) p) * t_dt tr) ((rmean (map (fun x => x * x) w) - rmean w * rmean w) / INR N)
       (rmean w) (rmean (map (fun x => x * x) w))).
  assert (M : chi4_rows Rops tr grid n a unf = Ok (map row dg)).
  { unfold chi4_rows. rewrite E1. cbn [bind]. rewrite E2. cbn [bind]. apply mapM_pure. intros p Hp.
    destruct (Hu p Hp) as [U _]. apply usable_range in U.
    unfold chi4_row_of. rewrite chi4_sums_spec by lia. cbn [bind].
    rewrite (get_Ok _ (t_steps tr) (fst p + snd p) 0%Z), (get_Ok _ (t_steps tr) (fst p) 0%Z) by lia. cbn [bind].
    flatR. rewrite (get_Ok _ unf 0 []) by lia. cbn [bind fst snd]. unfold row.
    change (nsq Rops a) with (a * a).
    set (os := origins (fst p) skip (length unf - snd p - skip)).
    rewrite !nofnat_R. unfold nsq. cbn [nmul nadd nsub ndiv nofZ n0 Rops].
    rewrite (HN (nth 0 unf [])) by (apply nth_In; lia).
    assert (L : length (counts (a * a) unf p os) = length os) by apply map_length.
    assert (Av : forall l : list R, length l = length os -> (if (0 <? length os)%nat then rsum l / INR (length os) else 0) = rmean l).
    { intros l Hlen. unfold rmean. rewrite Hlen. destruct (Nat.ltb_spec 0 (length os)) as [H|H]; [reflexivity|].
      destruct l as [|x l]; [cbn [rsum]; unfold Rdiv; rewrite Rmult_0_l; reflexivity|cbn in Hlen; lia]. }
    f_equal. f_equal; [f_equal; f_equal|..]; try f_equal; try f_equal; try (apply Av; rewrite ?map_length; exact L). }
  exists (map row dg). split; [exact M|]. split; [apply map_length|]. split.
  - rewrite chi4_rows_values, M. reflexivity.
  - intros k p r Hp Hr. rewrite nth_error_map, Hp in Hr. cbn in Hr. injection Hr as <-. cbv zeta. unfold row. cbn [c_time c_average c_second c_value].
    repeat split; reflexivity.
Qed.
Print Assumptions C96_values.

(** ** Files *)
Ltac nt := unfold neat; cbn; unfold punct; intuition discriminate.

Lemma write_text_other : forall s now p n o user an d s' q, write_text s now (Some p) n o user an d = Ok s' -> q <> p -> s' q = s q.
Proof.
  intros s now p n o user an d s' q H Hq. unfold write_text in H. apply bind_Ok_inv in H. destruct H as [t [_ H]]. apply Ok_inj in H. subst s'.
  unfold fs_set. destruct (String.eqb_spec q p); [congruence|reflexivity].
Qed.

Lemma read_same : forall s s' p, s p = s' p -> read s (Some p) = read s' (Some p).
Proof. intros s s' p H. unfold read. rewrite H. reflexivity. Qed.

Lemma companion_neat : forall n sym short long, neat_names n -> sym <> ""%string -> neat sym -> ~ has "/" sym -> ~ has "." sym ->
  neat_names (companion n sym short long).
Proof. intros n sym short long [H1 [_ [_ [_ [_ [H6 H7]]]]]] A B C D. unfold neat_names, companion. cbn [n_trajectory n_symbol n_tag]. tauto. Qed.

Lemma qsu_neat : forall n, neat_names n -> neat_names (qsu n).
Proof. intros n H. apply companion_neat; [assumption|discriminate|..]; nt. Qed.
Lemma q2su_neat : forall n, neat_names n -> neat_names (q2su n).
Proof. intros n H. apply companion_neat; [assumption|discriminate|..]; nt. Qed.

Definition path_of (n : names) (symbol : string) : string :=
  (n_trajectory n ++ ".pp." ++ symbol ++ (if String.eqb (n_tag n) "" then "" else "." ++ n_tag n))%string.

Lemma neat_path_eq : forall n, neat_names n -> output_file (Some default_template) n = Some (path_of n (n_symbol n)).
Proof. intros n H. rewrite neat_path by assumption. reflexivity. Qed.

(** What is left to readers of the three files: the same times in all of them. *)
Definition holds (s : fs) (p : string) (g v : list f64) : Prop :=
  exists g' v', read s (Some p) = Ok (LColumns g' v') /\ Forall2 agrees g g' /\ Forall2 agrees v v'.

Theorem C96_files_partial : forall s now n o an g v av m2 s', neat_names n -> n_symbol n = "chi4qs"%string ->
  one_line_names n o an -> (2 <= length g)%nat ->
  chi4_write s now (Some default_template) (Some default_template) n o None an g v av m2 = Ok s' ->
  holds s' (path_of n "chi4qs") g v /\ holds s' (path_of n "qsu") g av /\ holds s' (path_of n "q2su") g m2 /\
  NoDup [path_of n "chi4qs"; path_of n "qsu"; path_of n "q2su"] /\
  forall p, ~ In p [path_of n "chi4qs"; path_of n "qsu"; path_of n "q2su"] -> s' p = s p.
Proof.
  intros s now n o an g v av m2 s' Hn Hsym H1 Hg H.
  pose proof (qsu_neat n Hn) as Nq. pose proof (q2su_neat n Hn) as N2.
  unfold chi4_write in H. rewrite (neat_path_eq n Hn), (neat_path_eq _ Nq), (neat_path_eq _ N2), Hsym in H.
  change (path_of (qsu n) (n_symbol (qsu n))) with (path_of n "qsu") in H.
  change (path_of (q2su n) (n_symbol (q2su n))) with (path_of n "q2su") in H.
  assert (D : forall a b, neat_names (companion n a "" "") -> neat_names (companion n b "" "") -> path_of n a = path_of n b -> a = b).
  { intros a b Ha Hb E. apply (C58_distinct_partial _ _ Ha Hb); [|reflexivity].
    rewrite (neat_path_eq _ Ha), (neat_path_eq _ Hb). unfold path_of, companion in *. cbn [n_trajectory n_symbol n_tag] in *. rewrite E. reflexivity. }
  assert (Na : neat_names (companion n "chi4qs" "" "")) by (apply companion_neat; [assumption|discriminate|..]; nt).
  assert (Nb : neat_names (companion n "qsu" "" "")) by (apply companion_neat; [assumption|discriminate|..]; nt).
  assert (Nc : neat_names (companion n "q2su" "" "")) by (apply companion_neat; [assumption|discriminate|..]; nt).
  assert (D1 : path_of n "chi4qs" <> path_of n "qsu") by (intro E; apply D in E; [discriminate|assumption..]).
  assert (D2 : path_of n "chi4qs" <> path_of n "q2su") by (intro E; apply D in E; [discriminate|assumption..]).
  assert (D3 : path_of n "qsu" <> path_of n "q2su") by (intro E; apply D in E; [discriminate|assumption..]).
  apply bind_Ok_inv in H. destruct H as [s1 [W1 H]]. apply bind_Ok_inv in H. destruct H as [s2 [W2 W3]].
  assert (O : forall sym short long, one_line short -> one_line long -> one_line_names (companion n sym short long) o []).
  { intros sym short long A B. destruct H1 as [_ [_ [_ [Q1 [Q2 [Q3 _]]]]]]. unfold one_line_names, companion. cbn [n_long n_short n_description].
    repeat split; try assumption; [ol|destruct H..]. }
  assert (R : forall s0 p n0 an0 v0 s0', one_line_names n0 o an0 -> write_text s0 now (Some p) n0 o None an0 (Data1 g v0) = Ok s0' -> holds s0' p g v0).
  { intros s0 p n0 an0 v0 s0' Hn0 W. apply (C97_read_partial s0 now p n0 o [] an0 g v0 s0' Hn0); [intros c []|assumption|exact W]. }
  split; [|split; [|split; [|split]]].
  - pose proof (R _ _ _ _ _ _ H1 W1) as [g' [v' [E F]]]. exists g', v'. split; [|exact F]. rewrite <- E. apply read_same.
    rewrite (write_text_other _ _ _ _ _ _ _ _ _ _ W3), (write_text_other _ _ _ _ _ _ _ _ _ _ W2) by assumption. reflexivity.
  - assert (Oq : one_line_names (qsu n) o []) by (apply O; ol).
    pose proof (R _ _ _ _ _ _ Oq W2) as [g' [v' [E F]]]. exists g', v'. split; [|exact F]. rewrite <- E. apply read_same.
    rewrite (write_text_other _ _ _ _ _ _ _ _ _ _ W3) by assumption. reflexivity.
  - assert (Oq : one_line_names (q2su n) o []) by (apply O; ol). exact (R _ _ _ _ _ _ Oq W3).
  - repeat constructor; cbn; intuition congruence.
  - intros p Hp. cbn in Hp.
    rewrite (write_text_other _ _ _ _ _ _ _ _ _ _ W3), (write_text_other _ _ _ _ _ _ _ _ _ _ W2), (write_text_other _ _ _ _ _ _ _ _ _ _ W1) by intuition congruence. reflexivity.
Qed.
Print Assumptions C96_files_partial.

(** The function named variance is the mean square: when nothing moves it is N^2 at every
    time that has an origin, while the variance of the number of slow particles is 0. *)
Theorem C96_variance_refuted : forall (tr : traj Rops) grid n a (x : list (list R)) m skip dg,
  (1 <= length x)%nat -> a <> 0 -> length (t_steps tr) = S m ->
  adjust_skip Rops (length (t_steps tr)) (t_npart tr) (t_bs tr) n = Ok skip ->
  setup_t_grid Rops (t_steps tr) (t_bs tr) (t_dt tr) grid (not_str_1 Rops n) = Ok dg ->
  exists rows, chi4_rows Rops tr grid n a (repeat x (S m)) = Ok rows /\ length rows = length dg /\
    forall k p r, nth_error dg k = Some p -> nth_error rows k = Some r ->
      let w := counts (a * a) (repeat x (S m)) p (origins (fst p) skip (S m - snd p - skip)) in
      w <> [] -> c_second r = INR (length x) * INR (length x) /\ variance w = 0 /\ c_value r = 0.
Proof.
  intros tr grid n a x m skip dg Hx Ha Hl E1 E2.
  destruct (C96_values tr grid n a (repeat x (S m)) (length x) skip dg) as [rows [M [L [_ V]]]]; try assumption.
  - discriminate.
  - rewrite repeat_length. exact Hl.
  - intros y Hy. apply repeat_spec in Hy. subst y. reflexivity.
  - exists rows. split; [exact M|]. split; [exact L|]. intros k p r Hp Hr w Hw. specialize (V k p r Hp Hr). cbv zeta in V.
    rewrite repeat_length in V. fold w in V. destruct V as [_ [Va [Vs Vv]]].
    assert (C : forall y, In y w -> y = INR (length x)).
    { intros y Hy. unfold w, counts in Hy. apply in_map_iff in Hy. destruct Hy as [i0 [<- Hi]]. f_equal.
      assert (B : (i0 + snd p < S m)%nat) by (unfold origins in Hi; apply filter_In in Hi; destruct Hi as [Hi _]; apply in_seq in Hi; lia).
      assert (Q : forall i, (i < S m)%nat -> nth i (repeat x (S m)) [] = x).
      { intros i Hi'. apply (repeat_spec (S m) x). apply nth_In. rewrite repeat_length. exact Hi'. }
      rewrite !Q by lia. apply slow_refl. nra. }
    assert (C2 : c_second r = INR (length x) * INR (length x)).
    { rewrite Vs. apply rmean_const; [destruct w; [congruence|discriminate]|]. intros y Hy. apply in_map_iff in Hy. destruct Hy as [z [<- Hz]]. rewrite (C z Hz). reflexivity. }
    split; [exact C2|]. split; [apply variance_const with (c := INR (length x)); exact C|].
    rewrite Vv, C2, Va. rewrite (rmean_const w (INR (length x)) Hw C). unfold Rdiv. change (num Rops) with R. ring.
Qed.
Print Assumptions C96_variance_refuted.

(** The companions ignore the output path of the object: with no output path two files are
    written nevertheless, for every result. *)
Theorem C96_output_path_refuted : forall s now n o g v av m2, neat_names n -> grid_name (n_short n) = Ok ["t"%string] ->
  g <> [] -> length v = length g -> length av = length g -> length m2 = length g ->
  s (path_of n "qsu") = None -> s (path_of n "q2su") = None ->
  exists s', chi4_write s now (Some default_template) None n o None [] g v av m2 = Ok s' /\
    s' (path_of n "qsu") <> None /\ s' (path_of n "q2su") <> None.
Proof.
  intros s now n o g v av m2 Hn Hs Hg Hv Ha Hm _ _.
  pose proof (qsu_neat n Hn) as Nq. pose proof (q2su_neat n Hn) as N2.
  assert (W : forall s0 path n0 v0, grid_name (n_short n0) = Ok ["t"%string] -> length v0 = length g ->
    exists t, write_text s0 now path n0 o None [] (Data1 g v0) = Ok (match path with None => s0 | Some p => fs_set s0 p (mkFile now (text_lines t)) end)).
  { intros s0 path n0 v0 G L. unfold write_text, file_text. cbn [table]. destruct g as [|x g]; [congruence|]. cbn [get nth_error bind].
    unfold columns2. rewrite L, Nat.eqb_refl. cbn [bind]. rewrite G. cbn [bind]. eexists. destruct path; reflexivity. }
  unfold chi4_write. cbn [output_file].
  destruct (W s None n v Hs Hv) as [t1 ->]. cbn [bind].
  change (Some (fold_left (fun s p => tidy_base p s) ["."; "_"; "-"]%char (format (qsu n) default_template))) with (output_file (Some default_template) (qsu n)).
  change (Some (fold_left (fun s p => tidy_base p s) ["."; "_"; "-"]%char (format (q2su n) default_template))) with (output_file (Some default_template) (q2su n)).
  rewrite (neat_path_eq _ Nq), (neat_path_eq _ N2).
  destruct (W s (Some (path_of (qsu n) (n_symbol (qsu n)))) (qsu n) av eq_refl Ha) as [t2 ->]. cbn [bind].
  match goal with |- context[write_text ?s0 _ _ _ _ _ _ _] => destruct (W s0 (Some (path_of (q2su n) (n_symbol (q2su n)))) (q2su n) m2 eq_refl Hm) as [t3 ->] end.
  eexists. split; [reflexivity|]. change (path_of (qsu n) (n_symbol (qsu n))) with (path_of n "qsu"). change (path_of (q2su n) (n_symbol (q2su n))) with (path_of n "q2su").
  split.
  - unfold fs_set. destruct (String.eqb (path_of n "qsu") (path_of n "q2su")); [discriminate|]. rewrite String.eqb_refl. discriminate.
  - rewrite fs_set_same. discriminate.
Qed.
Print Assumptions C96_output_path_refuted.

(** The companions of a partial function claim to be about the whole system, and a template
    without the tag sends those of different species to the same file. *)
Theorem C96_description_refuted :
  (forall n o d t, one_line_names n o [] -> file_text (qsu n) o None [] d = Ok t ->
     nth_error (text_lines t) 0 = Some "# title: Average of self overlap, not normalized Q^u(t) of the whole system"%string) /\
  (forall n m template, n_trajectory n = n_trajectory m -> ~ In FTag template ->
     output_file (Some template) (qsu n) = output_file (Some template) (qsu m) /\
     output_file (Some template) (q2su n) = output_file (Some template) (q2su m)).
Proof.
  split.
  - intros n o d t H E. destruct (C97_lines (qsu n) o [] d t) as [vs [_ [_ [_ [T _]]]]].
    + destruct H as [_ [_ [_ [Q1 [Q2 [Q3 Q4]]]]]]. unfold one_line_names, qsu, companion. cbn [n_long n_short n_description].
      repeat split; try assumption; try ol; try (destruct H).
    + exact E.
    + rewrite T; [reflexivity|discriminate].
  - intros n m template Ht Hn.
    assert (F : forall a b c, format (companion n a b c) template = format (companion m a b c) template).
    { intros a b c. unfold format. f_equal. apply map_ext_in. intros p Hp. destruct p; cbn [fill companion n_trajectory n_symbol n_short n_long n_description]; try reflexivity; [exact Ht|contradiction]. }
    unfold output_file. split; unfold qsu, q2su; rewrite F; reflexivity.
Qed.
Print Assumptions C96_description_refuted.

Example C96_nonvacuous :
  let n := mkNames "run.xyz" "chi4qs" "chi_4(t)" "dynamic susceptibility of self overlap" "A" "species A" in
  let o := mkOrigin "today" "3.0.0" (Some "run.xyz"%string) in
  (rows <- chi4_rows F64ops (mkTraj (A:=F64ops) [0; 1; 2; 3]%Z 1%nat (f64_frac 1 2) (f64_frac 3 2) 2%nat) (map (fun z => f64_frac z 2) [0; 1]%Z)
     (NoInt (-1)) (f64_frac 3 4)
     [[[f64_ofZ 0]; [f64_ofZ 0]]; [[f64_ofZ 1]; [f64_ofZ 0]]; [[f64_ofZ 1]; [f64_ofZ 0]]; [[f64_ofZ 1]; [f64_ofZ 0]]] ;;
   Ok (map (fun r : chi4_row F64ops => [c_time r; c_value r; c_average r; c_second r] : list f64) rows)) =
  Ok [[f64_ofZ 0; f64_ofZ 0; f64_ofZ 2; f64_ofZ 4]; [f64_frac 1 2; f64_frac 1 8; f64_frac 3 2; f64_frac 5 2]] /\
  neat_names n /\ path_of n "qsu" = "run.xyz.pp.qsu.A"%string /\
  (s <- chi4_write (fun _ => None) 1 (Some default_template) (Some default_template) n o None [] [f64_ofZ 0; f64_frac 1 2]
     [f64_ofZ 0; f64_frac 1 8] [f64_ofZ 2; f64_frac 3 2] [f64_ofZ 4; f64_frac 5 2] ;; read s (Some "run.xyz.pp.qsu.A"%string)) =
  Ok (LColumns [NDec false 0 0; NDec false 5 (-1)] [NDec false 2 0; NDec false 15 (-1)]) /\
  counts (1 * 1) (repeat [[0]] 3) (0, 1)%nat (origins 0 1 (3 - 1 - 1)) <> [].
Proof.
  cbv zeta. split; [vm_compute; reflexivity|]. split.
  { split; [exists ""%string, "run.xyz"%string; split; [|split; [discriminate|nt]]|].
    - split; [reflexivity|]. split; [cbn; intuition discriminate|]. left. reflexivity.
    - cbn [n_symbol n_tag]. repeat split; try discriminate; cbn; unfold punct; intuition discriminate. }
  split; [reflexivity|]. split; [vm_compute; reflexivity|]. cbn. discriminate.
Qed.
