(** Theorems about update runs of Chi4SelfOverlap: C145. *)
From Coq Require Import Ascii String List ZArith Bool Arith Lia.
From Verif Require Import PyBase PyBaseFacts Num M_Text M_Output M_Path M_Header M_Memory M_Chi4Object P_Text T_Path T_Header T_Chi4Object M_Chi4Run.
Import ListNotations.
Local Open Scope nat_scope.

(** ** C145 *)
Lemma write_text_time : forall s now p n o user an d s', write_text s now (Some p) n o user an d = Ok s' -> exists f, s' p = Some f /\ f_time f = now.
Proof.
  intros s now p n o user an d s' H. unfold write_text in H. apply bind_Ok_inv in H. destruct H as [t [_ H]]. apply Ok_inj in H. subst s'.
  unfold fs_set. rewrite String.eqb_refl. eexists. split; reflexivity.
Qed.
Lemma chi4_write_time : forall s now n o an g v av m2 s', neat_names n -> n_symbol n = "chi4qs"%string -> NoDup [path_of n "chi4qs"; path_of n "qsu"; path_of n "q2su"] ->
  chi4_write s now (Some default_template) (Some default_template) n o None an g v av m2 = Ok s' -> exists f, s' (path_of n "chi4qs") = Some f /\ f_time f = now.
Proof.
  intros s now n o an g v av m2 s' Hn Hs N H. unfold chi4_write in H. rewrite (neat_path_eq n Hn), (neat_path_eq _ (qsu_neat n Hn)), (neat_path_eq _ (q2su_neat n Hn)), Hs in H.
  change (path_of (qsu n) (n_symbol (qsu n))) with (path_of n "qsu") in H. change (path_of (q2su n) (n_symbol (q2su n))) with (path_of n "q2su") in H.
  apply bind_Ok_inv in H. destruct H as [s1 [W1 H]]. apply bind_Ok_inv in H. destruct H as [s2 [W2 W3]]. inversion N as [|a l N1 _]; subst. cbn [In] in N1.
  rewrite (write_text_other _ _ _ _ _ _ _ _ _ _ W3), (write_text_other _ _ _ _ _ _ _ _ _ _ W2) by intuition congruence. exact (write_text_time _ _ _ _ _ _ _ _ _ W1).
Qed.

(** A call that computes: the object holds what was computed, the three files hold it to the
    printed digits, and no other file is touched. *)
Theorem C145_computed_partial : forall u s now traj n o c h s', neat_names n -> n_symbol n = "chi4qs"%string ->
  (forall x, c = Ok x -> one_line_names n o (r_analysis x) /\ 2 <= length (r_grid x)) ->
  chi4_do u s now traj (Some default_template) (Some default_template) n o None c = (true, Ok (h, s')) ->
  exists x, c = Ok x /\ h = mkHeld (inr (r_grid x, r_value x)) (r_average x) (r_second x) /\
    holds s' (path_of n "chi4qs") (r_grid x) (r_value x) /\ holds s' (path_of n "qsu") (r_grid x) (r_average x) /\ holds s' (path_of n "q2su") (r_grid x) (r_second x) /\
    (exists f, s' (path_of n "chi4qs") = Some f /\ f_time f = now) /\
    forall p, ~ In p [path_of n "chi4qs"; path_of n "qsu"; path_of n "q2su"] -> s' p = s p.
Proof.
  intros u s now traj n o c h s' Hn Hs Hc H. unfold chi4_do in H.
  set (w := fun (s : fs) x => chi4_write s now (Some default_template) (Some default_template) n o None (r_analysis x) (r_grid x) (r_value x) (r_average x) (r_second x)) in *.
  assert (G : fst (do_for u s (Some traj) (output_file (Some default_template) n) c w) = true ->
    snd (do_for u s (Some traj) (output_file (Some default_template) n) c w) = (x <- c ;; s' <- w s x ;; Ok (inr (x, s')))).
  { unfold do_for. destruct u; [|reflexivity]. destruct (need_update_of s (Some traj) (output_file (Some default_template) n)) as [[]|e]; [reflexivity|discriminate|discriminate]. }
  pose proof (f_equal fst H) as H1. pose proof (f_equal snd H) as H2. cbn [fst snd] in H1, H2. clear H. rewrite (G H1) in H2. destruct c as [x|e]; [|discriminate H2]. cbn [bind] in H2. destruct (w s x) as [s1|e] eqn:W; [|discriminate H2]. cbn [bind] in H2. injection H2 as <- <-.
  destruct (Hc x eq_refl) as [O L]. unfold w in W. destruct (C96_files_partial s now n o (r_analysis x) _ _ _ _ s1 Hn Hs O L W) as [F1 [F2 [F3 [Nd F4]]]].
  exists x. split; [reflexivity|]. split; [reflexivity|]. split; [exact F1|]. split; [exact F2|]. split; [exact F3|]. split; [|exact F4]. exact (chi4_write_time _ _ _ _ _ _ _ _ _ _ Hn Hs Nd W).
Qed.
Print Assumptions C145_computed_partial.

(** As soon as the file of chi4 is newer than the trajectory, nothing is computed or written,
    whatever the other two files are (old, or missing), and average and variance are empty. *)
Theorem C145_reused_refuted : forall s now traj t n o user c core f, neat_names n -> n_symbol n = "chi4qs"%string -> path_of n "chi4qs" <> "/dev/stdout"%string ->
  s traj = Some t -> s (path_of n "chi4qs") = Some f -> (f_time t < f_time f)%Z ->
  fst (chi4_do true s now traj core (Some default_template) n o user c) = false /\
  forall h s', snd (chi4_do true s now traj core (Some default_template) n o user c) = Ok (h, s') -> s' = s /\ h_average h = [] /\ h_second h = [].
Proof.
  intros s now traj t n o user c core f Hn Hs Hd Ht Hf L. unfold chi4_do, do_for. rewrite (neat_path_eq n Hn), Hs. cbn [need_update_of need_update]. rewrite Hf, Ht. apply String.eqb_neq in Hd. rewrite Hd. apply Z.ltb_lt in L. rewrite L. cbn [negb fst snd]. split; [reflexivity|].
  intros h s' H. destruct (read s (Some (path_of n "chi4qs"))) as [l|e]; [|discriminate H]. cbn [bind] in H. injection H as <- <-. split; [reflexivity|]. split; reflexivity.
Qed.
Print Assumptions C145_reused_refuted.

(** Hence right after a complete call, the same calculation with update=True on a new object
    has no average and no variance, while their files hold them. *)
Theorem C145_second_call_refuted : forall s now traj t n o x h s' later, neat_names n -> n_symbol n = "chi4qs"%string -> path_of n "chi4qs" <> "/dev/stdout"%string ->
  ~ In traj [path_of n "chi4qs"; path_of n "qsu"; path_of n "q2su"] ->
  one_line_names n o (r_analysis x) -> 2 <= length (r_grid x) -> s traj = Some t -> (f_time t < now)%Z ->
  chi4_do false s now traj (Some default_template) (Some default_template) n o None (Ok x) = (true, Ok (h, s')) ->
  h_average h = r_average x /\ holds s' (path_of n "qsu") (r_grid x) (r_average x) /\
  exists l, chi4_do true s' later traj (Some default_template) (Some default_template) n o None (Ok x) = (false, Ok (mkHeld (inl l) [] [], s')).
Proof.
  intros s now traj t n o x h s' later Hn Hs Hd Nt O L Ht Lt H. destruct (C145_computed_partial false s now traj n o (Ok x) h s' Hn Hs) as [y [Ey [Eh [F1 [F2 [_ [[f [Ef Tm]] F4]]]]]]]; [intros y E; injection E as <-; split; assumption|exact H|].
  injection Ey as <-. split; [rewrite Eh; reflexivity|]. split; [exact F2|].
  destruct F1 as [g' [v' [R _]]]. exists (LColumns g' v'). unfold chi4_do, do_for. rewrite (neat_path_eq n Hn), Hs. cbn [need_update_of need_update]. rewrite Ef, (F4 traj Nt), Ht. apply String.eqb_neq in Hd. rewrite Hd, Tm. apply Z.ltb_lt in Lt. rewrite Lt. cbn [negb fst snd]. rewrite R. reflexivity.
Qed.
Print Assumptions C145_second_call_refuted.

(** The average is there after the first call, and not after the second. *)
Example C145_nonvacuous :
  let n := mkNames "run.xyz" "chi4qs" "chi_4(t)" "dynamic susceptibility of self overlap" "A" "species A" in
  let o := mkOrigin "today" "3.0.0" (Some "run.xyz"%string) in
  let x := mkResult [f64_ofZ 0; f64_frac 1 2] [f64_ofZ 0; f64_frac 1 8] [f64_ofZ 2; f64_frac 3 2] [f64_ofZ 4; f64_frac 5 2] [] in
  let s0 : fs := fun q => if String.eqb q "run.xyz" then Some (mkFile 1 []) else None in
  neat_names n /\ one_line_names n o (r_analysis x) /\ 2 <= length (r_grid x) /\
  match chi4_do false s0 2 "run.xyz" (Some default_template) (Some default_template) n o None (Ok x) with
  | (true, Ok (h, s1)) => h_average h = [f64_ofZ 2; f64_frac 3 2] /\
      snd (chi4_do true s1 3 "run.xyz" (Some default_template) (Some default_template) n o None (Ok x)) =
      Ok (mkHeld (inl (LColumns [NDec false 0 0; NDec false 5 (-1)] [NDec false 0 0; NDec false 125 (-3)])) [] [], s1)
  | _ => False
  end.
Proof.
  cbv zeta. split.
  { split; [exists ""%string, "run.xyz"%string; split; [|split; [discriminate|nt]]|].
    - split; [reflexivity|]. split; [cbn; intuition discriminate|]. left. reflexivity.
    - cbn [n_symbol n_tag]. repeat split; try discriminate; cbn; unfold punct; intuition discriminate. }
  split; [unfold one_line_names; cbn [n_long n_short n_description o_date o_version o_parents r_analysis]; do 5 (split; [ol|]); split; [intros f E; injection E as <-; ol|intros k v []]|]. split; [cbn; lia|].
  vm_compute. split; reflexivity.
Qed.
