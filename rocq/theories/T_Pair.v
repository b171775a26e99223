(** Theorems about the pair of files of a scattering function: C143. *)
From Coq Require Import Ascii String List ZArith Bool Arith Lia.
From Verif Require Import PyBase PyBaseFacts Num M_Text M_Output M_Analysis M_Memory P_Text T_Memory Spec_Pair.
Import ListNotations.
Local Open Scope nat_scope.

(** ** C143 *)
Lemma tau_other : forall p, tau_file p <> p.
Proof.
  intros p H. apply (f_equal String.length) in H. unfold tau_file in H. revert H. induction p as [|c p IH]; [discriminate|]. cbn [append String.length]. intros H. apply IH. lia.
Qed.

(** What a call leaves behind: nothing new, or both files of its own result. *)
Lemma run_cases : forall u s now traj p cs c, p <> "/dev/stdout"%string ->
  files_after s (do_scattering u s now (Some traj) (Some p) cs c) = s \/
  exists d an taus lines, c = Ok (d, an, taus) /\ file_lines cs an d = Ok lines /\
    fst (do_scattering u s now (Some traj) (Some p) cs c) = true /\
    files_after s (do_scattering u s now (Some traj) (Some p) cs c) p = Some (mkFile now lines) /\
    files_after s (do_scattering u s now (Some traj) (Some p) cs c) (tau_file p) = Some (mkFile now (write_tau taus)) /\
    forall q, q <> p -> q <> tau_file p -> files_after s (do_scattering u s now (Some traj) (Some p) cs c) q = s q.
Proof.
  intros u s now traj p cs c Hp.
  assert (G : let go := (true, x <- c ;; s' <- write_scattering s now (Some p) cs (snd (fst x)) (fst (fst x)) (snd x) ;; Ok (inr (A := loaded) (x, s'))) in
    files_after s go = s \/ exists d an taus lines, c = Ok (d, an, taus) /\ file_lines cs an d = Ok lines /\ fst go = true /\
      files_after s go p = Some (mkFile now lines) /\ files_after s go (tau_file p) = Some (mkFile now (write_tau taus)) /\ forall q, q <> p -> q <> tau_file p -> files_after s go q = s q).
  { intros go. unfold go, files_after. cbn [fst snd]. destruct c as [[[d an] taus]|e]; [|left; reflexivity]. cbn [bind fst snd].
    destruct (write_scattering s now (Some p) cs an d taus) as [s'|e] eqn:E; [|left; reflexivity]. right. cbn [bind].
    destruct (C105_file _ _ _ _ _ _ _ _ E) as [O [[lines [Hl P]] T]]. exists d, an, taus, lines. split; [reflexivity|]. split; [exact Hl|]. split; [reflexivity|]. split; [exact P|]. split; [exact (T Hp)|exact O]. }
  unfold do_scattering, do_for. destruct u; [|exact G]. destruct (need_update_of s (Some traj) (Some p)) as [[]|e].
  - exact G.
  - left. unfold files_after. cbn [snd]. destruct (read s (Some p)); reflexivity.
  - left. reflexivity.
Qed.

(** As long as no call is interrupted: at any moment, either there is no output (as at
    the beginning), or the two files come from the same calculation, whatever calls were
    made, with update or not, and whatever happened to the trajectory in between. *)
Theorem C143_same_calculation_partial : forall traj p s es, p <> "/dev/stdout"%string -> s p = None -> s (tau_file p) = None -> Forall (private p) es ->
  let s' := history traj p s es in (s' p = None /\ s' (tau_file p) = None) \/ pair_of p s' es.
Proof.
  intros traj p s es Hp H1 H2. induction es as [|e es IH] using rev_ind; intros F; cbn zeta; [left; split; assumption|].
  apply Forall_app in F as [F Fe]. specialize (IH F). cbn zeta in IH. unfold history in *. rewrite fold_left_app. cbn [fold_left]. set (s1 := fold_left (step traj p) es s) in *.
  assert (Mono : pair_of p s1 es -> forall s2, s2 p = s1 p -> s2 (tau_file p) = s1 (tau_file p) -> pair_of p s2 (es ++ [e])).
  { intros [u [now [cs [d [an [taus [lines [I [L [P T]]]]]]]]]] s2 E1 E2. exists u, now, cs, d, an, taus, lines. split; [apply in_or_app; left; exact I|]. split; [exact L|]. rewrite E1, E2. split; assumption. }
  inversion Fe as [|e' l' Pe _]; subst. destruct e as [u now cs c|q f]; cbn [step].
  - destruct (run_cases u s1 now traj p cs c Hp) as [E|[d [an [taus [lines [Ec [L [_ [P [T _]]]]]]]]]].
    + rewrite E. destruct IH as [IH|IH]; [left; exact IH|right; apply (Mono IH); reflexivity].
    + right. exists u, now, cs, d, an, taus, lines. split; [apply in_or_app; right; left; rewrite Ec; reflexivity|]. split; [exact L|]. split; assumption.
  - cbn [private] in Pe. destruct Pe as [N1 N2]. assert (B1 : String.eqb p q = false) by (apply String.eqb_neq; congruence). assert (B2 : String.eqb (tau_file p) q = false) by (apply String.eqb_neq; congruence).
    destruct IH as [[A1 A2]|IH]; [left; rewrite B1, B2; split; assumption|right; apply (Mono IH); [rewrite B1|rewrite B2]; reflexivity].
Qed.
Print Assumptions C143_same_calculation_partial.

(** A call that computed leaves both files of its own result, and touches no other file. *)
Theorem C143_computed_partial : forall u s now traj p cs c x s', p <> "/dev/stdout"%string ->
  do_scattering u s now (Some traj) (Some p) cs c = (true, Ok (inr (x, s'))) -> c = Ok x /\
  (exists lines, file_lines cs (snd (fst x)) (fst (fst x)) = Ok lines /\ s' p = Some (mkFile now lines)) /\
  s' (tau_file p) = Some (mkFile now (write_tau (snd x))) /\ forall q, q <> p -> q <> tau_file p -> s' q = s q.
Proof.
  intros u s now traj p cs c x s' Hp H.
  assert (G : (x <- c ;; s' <- write_scattering s now (Some p) cs (snd (fst x)) (fst (fst x)) (snd x) ;; Ok (inr (A := loaded) (x, s'))) = Ok (inr (x, s'))).
  { unfold do_scattering, do_for in H. destruct u; [|congruence]. destruct (need_update_of s (Some traj) (Some p)) as [[]|e]; congruence. }
  destruct c as [y|e]; [|discriminate G]. cbn [bind] in G. destruct (write_scattering s now (Some p) cs (snd (fst y)) (fst (fst y)) (snd y)) as [s2|e] eqn:E; [|discriminate G]. cbn [bind] in G. injection G as -> ->.
  destruct (C105_file _ _ _ _ _ _ _ _ E) as [O [L T]]. split; [reflexivity|]. split; [exact L|]. split; [exact (T Hp)|exact O].
Qed.
Print Assumptions C143_computed_partial.

(** A call interrupted between the two files: no later update run computes, however many
    there are and whatever they are asked to compute, so that the relaxation times remain
    those of an earlier calculation, or missing, beside the new function. *)
Theorem C143_interrupted_refuted : forall s now traj p t cs an d s1, p <> "/dev/stdout"%string -> traj <> p -> s traj = Some t -> (f_time t < now)%Z ->
  write s now (Some p) cs an d = Ok s1 ->
  forall es, (forall e, In e es -> exists now' cs' c, e = Run true now' cs' c) ->
  history traj p s1 es = s1 /\ history traj p s1 es (tau_file p) = s (tau_file p) /\
  (exists lines, file_lines cs an d = Ok lines /\ history traj p s1 es p = Some (mkFile now lines)).
Proof.
  intros s now traj p t cs an d s1 Hp Nt Ht Lt W. unfold write in W. destruct (file_lines cs an d) as [lines|e] eqn:L; [|discriminate W]. cbn [bind] in W. injection W as <-.
  set (s1 := fs_set s p (mkFile now lines)). assert (P : s1 p = Some (mkFile now lines)) by (unfold s1, fs_set; rewrite String.eqb_refl; reflexivity).
  assert (O : forall q, q <> p -> s1 q = s q) by (intros q N; unfold s1, fs_set; apply String.eqb_neq in N; rewrite N; reflexivity).
  assert (S1 : forall now' cs' c, files_after s1 (do_scattering true s1 now' (Some traj) (Some p) cs' c) = s1).
  { intros now' cs' c. unfold do_scattering, do_for. assert (N : need_update_of s1 (Some traj) (Some p) = Ok false).
    { cbn [need_update_of need_update]. rewrite P, (O traj Nt), Ht. apply String.eqb_neq in Hp. rewrite Hp. cbn [f_time]. apply Z.ltb_lt in Lt. rewrite Lt. reflexivity. }
    rewrite N. unfold files_after. cbn [snd]. destruct (read s1 (Some p)); reflexivity. }
  intros es. induction es as [|e es IH] using rev_ind; intros H.
  - cbn. split; [reflexivity|]. split; [apply O; apply tau_other|]. exists lines. split; [reflexivity|exact P].
  - assert (E : history traj p s1 (es ++ [e]) = s1).
    { unfold history in *. rewrite fold_left_app. cbn [fold_left]. destruct (IH (fun x I => H x (in_or_app _ _ _ (or_introl I)))) as [-> _].
      assert (Ie : In e (es ++ [e])) by (apply in_or_app; right; left; reflexivity). destruct (H e Ie) as [now' [cs' [c ->]]]. apply S1. }
    rewrite E. split; [reflexivity|]. split; [apply O; apply tau_other|]. exists lines. split; [reflexivity|exact P].
Qed.
Print Assumptions C143_interrupted_refuted.

(** A first run with tau(7) = 2.5; the trajectory grows; a second run is interrupted; the
    next update run keeps the old relaxation time beside the new function. *)
Example C143_nonvacuous :
  let s0 : fs := fun q => if String.eqb q "t" then Some (mkFile 1 []) else None in
  let c1 : result := (Data1 [f64_ofZ 7; f64_ofZ 8] [f64_ofZ 1; f64_ofZ 0], [], [(f64_ofZ 7, Some (f64_frac 5 2))]) in
  let c2 : result := (Data1 [f64_ofZ 7; f64_ofZ 8] [f64_ofZ 1; f64_ofZ 1], [], [(f64_ofZ 7, None)]) in
  let s1 := history "t" "f" s0 [Run true 2 [] (Ok c1); Change "t" (Some (mkFile 3 []))] in
  s0 "f"%string = None /\ s0 (tau_file "f") = None /\ Forall (private "f") [Run true 2 [] (Ok c1); Change "t" (Some (mkFile 3 []))] /\
  s1 "f"%string = Some (mkFile 2 ["7 1"; "8 0"]%string) /\ s1 (tau_file "f") = Some (mkFile 2 (tau_head ++ ["7 2.5"%string])) /\
  exists s2, write s1 4 (Some "f"%string) [] [] (fst (fst c2)) = Ok s2 /\
    history "t" "f" s2 [Run true 5 [] (Ok c2)] "f"%string = Some (mkFile 4 ["7 1"; "8 1"]%string) /\
    history "t" "f" s2 [Run true 5 [] (Ok c2)] (tau_file "f") = Some (mkFile 2 (tau_head ++ ["7 2.5"%string])).
Proof.
  intros s0 c1 c2 s1. split; [reflexivity|]. split; [reflexivity|]. split; [constructor; [exact I|constructor; [split; discriminate|constructor]]|].
  split; [vm_compute; reflexivity|]. split; [vm_compute; reflexivity|]. eexists. split; [vm_compute; reflexivity|]. split; vm_compute; reflexivity.
Qed.
