(** Theorems about the set of files of partial correlations: C144. *)
From Coq Require Import Ascii String List ZArith Bool Arith Lia.
From Verif Require Import PyBase PyBaseFacts Num M_Text M_Output P_Text T_Output Spec_Parts.
Import ListNotations.
Local Open Scope nat_scope.

(** ** C144 *)
Lemma write_members_spec : forall now l s s' qs, map (fun mx => m_path (fst mx)) l = map Some qs -> NoDup qs -> write_members now s l = Ok s' ->
  (forall q, ~ In q qs -> s' q = s q) /\
  Forall2 (fun (mx : member * (data * list string)) q => exists lines, file_lines (m_comments (fst mx)) (snd (snd mx)) (fst (snd mx)) = Ok lines /\ s' q = Some (mkFile now lines)) l qs.
Proof.
  intros now. induction l as [|mx l IH]; intros s s' [|q qs] E N H; try discriminate E.
  - cbn in H. injection H as <-. split; [reflexivity|constructor].
  - cbn [map] in E. injection E as E1 E2. inversion N as [|q' qs' N1 N2]; subst. unfold write_members in H. cbn [foldM] in H. unfold write in H at 1. rewrite E1 in H.
    destruct (file_lines (m_comments (fst mx)) (snd (snd mx)) (fst (snd mx))) as [lines|e] eqn:L; [|discriminate H]. cbn [bind] in H.
    destruct (IH _ _ _ E2 N2 H) as [O F]. split.
    + intros r Nr. rewrite O by (intros C; apply Nr; right; exact C). unfold fs_set. destruct (String.eqb_spec r q) as [->|]; [exfalso; apply Nr; left; reflexivity|reflexivity].
    + constructor; [|exact F]. exists lines. split; [exact L|]. rewrite O by exact N1. unfold fs_set. rewrite String.eqb_refl. reflexivity.
Qed.

Lemma mapM_combine : forall X Y (f : X -> res Y) l ys, mapM f l = Ok ys -> Forall2 (fun x y => f x = Ok y) l ys.
Proof.
  induction l as [|x l IH]; intros ys H; cbn [mapM] in H.
  - injection H as <-. constructor.
  - destruct (f x) as [y|] eqn:E; [|discriminate H]. cbn [bind] in H. destruct (mapM f l) as [zs|] eqn:E2; [|discriminate H]. cbn [bind] in H. injection H as <-. constructor; [exact E|apply IH; reflexivity].
Qed.

Lemma combine_paths : forall (ms : list member) (xs : list (data * list string)), length ms = length xs -> map (fun mx => m_path (fst mx)) (combine ms xs) = map m_path ms.
Proof. induction ms as [|m ms IH]; intros [|x xs] H; try discriminate H; [reflexivity|]. cbn [combine map fst]. f_equal. apply IH. injection H as H. exact H. Qed.

Lemma NoDup_first : forall X k (l : list X), NoDup l -> NoDup (firstn k l).
Proof.
  induction k as [|k IH]; intros [|x l] N; cbn [firstn]; try constructor; inversion N as [|y m N1 N2]; subst; [|apply IH; exact N2].
  intros I. apply N1. rewrite <- (firstn_skipn k l). apply in_or_app. left. exact I.
Qed.

Lemma F2_length : forall X Y (R : X -> Y -> Prop) l m, Forall2 R l m -> length l = length m.
Proof. induction 1; cbn [length]; congruence. Qed.

Lemma all_hold : forall now s ms xs ps, Forall2 (fun m x => m_compute m = Ok x) ms xs ->
  Forall2 (fun (mx : member * (data * list string)) q => exists lines, file_lines (m_comments (fst mx)) (snd (snd mx)) (fst (snd mx)) = Ok lines /\ s q = Some (mkFile now lines)) (combine ms xs) ps ->
  Forall2 (holds s now) ms ps.
Proof.
  intros now s ms xs ps H. revert ps. induction H as [|m [d an] ms xs E H IH]; intros ps F; cbn [combine] in F; inversion F as [|a q l qs P F']; subst; constructor.
  - destruct P as [lines [L S]]. exists d, an, lines. split; [exact E|]. split; [exact L|exact S].
  - apply IH. exact F'.
Qed.

Lemma holds_time : forall s now ms ps p, Forall2 (holds s now) ms ps -> In p ps -> exists f, s p = Some f /\ f_time f = now.
Proof. induction 1 as [|m q ms ps [d [an [lines [_ [_ S]]]]] F IH]; [intros []|]; intros [<-|I]; [exists (mkFile now lines); split; [exact S|reflexivity]|apply IH; exact I]. Qed.

(** All fresh: reused. *)
Lemma fresh_reused : forall s now traj t ms ps, s traj = Some t -> map m_path ms = map Some ps -> ~ In "/dev/stdout"%string ps ->
  (fst (partial_do true s now traj ms) = false <-> forall p, In p ps -> exists f, s p = Some f /\ (f_time t < f_time f)%Z).
Proof.
  intros s now traj t ms ps Ht E Hd. assert (P : forall m, In m ms -> exists p, In p ps /\ m_path m = Some p).
  { intros m I. apply (in_map m_path) in I. rewrite E in I. apply in_map_iff in I as [p [E1 I]]. exists p. split; [exact I|symmetry; exact E1]. }
  assert (Q : forall p, In p ps -> exists m, In m ms /\ m_path m = Some p).
  { intros p I. apply (in_map Some) in I. rewrite <- E in I. apply in_map_iff in I as [m [E1 I]]. exists m. split; assumption. }
  destruct (C56_partial_correlations s now traj t ms Ht) as [C _]; [intros m I; destruct (P m I) as [p [_ ->]]; discriminate|]. rewrite C. split.
  - intros H p I. destruct (Q p I) as [m [Im Em]]. destruct (H m Im) as [p' [f [E1 [S [_ L]]]]]. assert (p' = p) by congruence. subst. exists f. split; assumption.
  - intros H m I. destruct (P m I) as [p [Ip Em]]. destruct (H p Ip) as [f [S L]]. exists p, f. split; [exact Em|]. split; [exact S|]. split; [intros ->; contradiction|exact L].
Qed.

(** Stopped before the last file: the last file is as old as before. *)
Lemma stopped : forall traj ps z T h s t now ms qs s', NoDup (ps ++ [z]) -> ~ In traj (ps ++ [z]) -> ~ In "/dev/stdout"%string (ps ++ [z]) -> (T <= now)%Z ->
  s traj = Some t -> (f_time t <= T)%Z -> (forall p f, In p (ps ++ [z]) -> s p = Some f -> (f_time f <= T)%Z) ->
  (forall t f, s traj = Some t -> s z = Some f -> (f_time t < f_time f)%Z -> exists now ms, In (now, ms) h /\ Forall2 (holds s now) ms (ps ++ [z])) ->
  map m_path ms = map Some (ps ++ [z]) -> fst (partial_do true s now traj ms) = true ->
  (forall q, In q qs -> In q ps) -> (forall q, ~ In q qs -> s' q = s q) -> (forall q, In q qs -> exists f, s' q = Some f /\ f_time f = now) ->
  (exists t, s' traj = Some t /\ (f_time t <= now)%Z) /\ (forall p f, In p (ps ++ [z]) -> s' p = Some f -> (f_time f <= now)%Z) /\
  (forall t f, s' traj = Some t -> s' z = Some f -> (f_time t < f_time f)%Z -> exists now ms, In (now, ms) h /\ Forall2 (holds s' now) ms (ps ++ [z])).
Proof.
  intros traj ps z T h s t now ms qs s' N Nt Nd L Ht Lt B F E Need Iq O Wt. assert (Iz : In z (ps ++ [z])) by (apply in_or_app; right; left; reflexivity).
  assert (Et : s' traj = Some t) by (rewrite O; [exact Ht|intros C; apply Nt, in_or_app; left; apply Iq, C]). split; [exists t; split; [exact Et|lia]|]. split.
  - intros p f I S. destruct (in_dec string_dec p qs) as [J|J]; [destruct (Wt p J) as [g [S2 <-]]; rewrite S in S2; injection S2 as <-; lia|]. rewrite O in S by exact J. specialize (B p f I S). lia.
  - intros t' f S1 S2 C. exfalso. assert (Zq : ~ In z qs) by (intros I; apply NoDup_remove_2 in N; apply N; rewrite app_nil_r; apply Iq, I).
    rewrite Et in S1. injection S1 as <-. rewrite O in S2 by exact Zq. destruct (F t f Ht S2 C) as [n0 [m0 [_ H]]].
    assert (X : fst (partial_do true s now traj ms) = false); [|congruence]. apply (fresh_reused s now traj t ms (ps ++ [z]) Ht E Nd). intros p I. destruct (holds_time _ _ _ _ p H I) as [g [Sg Tg]]. exists g. split; [exact Sg|].
    destruct (holds_time _ _ _ _ z H Iz) as [g' [Sg' Tg']]. rewrite S2 in Sg'. injection Sg' as <-. lia.
Qed.

Lemma in_first : forall X k (l : list X) x, In x (firstn k l) -> In x l.
Proof. intros X k l x I. rewrite <- (firstn_skipn k l). apply in_or_app. left. exact I. Qed.

Lemma reached_inv : forall traj ps z T h s, reached traj (ps ++ [z]) T h s -> NoDup (ps ++ [z]) -> ~ In traj (ps ++ [z]) -> ~ In "/dev/stdout"%string (ps ++ [z]) ->
  (exists t, s traj = Some t /\ (f_time t <= T)%Z) /\ (forall p f, In p (ps ++ [z]) -> s p = Some f -> (f_time f <= T)%Z) /\
  (forall t f, s traj = Some t -> s z = Some f -> (f_time t < f_time f)%Z -> exists now ms, In (now, ms) h /\ Forall2 (holds s now) ms (ps ++ [z])).
Proof.
  intros traj ps z T h s R N Nt Nd. assert (Iz : In z (ps ++ [z])) by (apply in_or_app; right; left; reflexivity).
  induction R as [s T t Ht Lt H0|T h s T' f R IH L1 L2|T h s now ms xs k s' R IH L E Need M Lk W|T h s now ms xs k s' p ls R IH L E Need M W Ep Lk].
  - split; [exists t; split; assumption|]. split; [intros p f I S; rewrite (H0 p I) in S; discriminate S|]. intros t' f _ S. rewrite (H0 z Iz) in S. discriminate S.
  - destruct IH as [_ [B _]]. assert (O : forall p, In p (ps ++ [z]) -> fs_set s traj f p = s p) by (intros p I; unfold fs_set; destruct (String.eqb_spec p traj) as [->|]; [contradiction|reflexivity]).
    assert (Et : fs_set s traj f traj = Some f) by (unfold fs_set; rewrite String.eqb_refl; reflexivity).
    split; [exists f; split; [exact Et|exact L2]|]. split.
    + intros p g I S. rewrite (O p I) in S. specialize (B p g I S). lia.
    + intros t g S1 S2 C. exfalso. rewrite Et in S1. injection S1 as <-. rewrite (O z Iz) in S2. specialize (B z g Iz S2). lia.
  - destruct IH as [[t [Ht Lt]] [B F]]. pose proof (mapM_combine _ _ _ _ _ M) as M2. pose proof (F2_length _ _ _ _ _ M2) as Lx. assert (Lm : length ms = length (ps ++ [z])) by (rewrite <- (map_length m_path ms), E, map_length; reflexivity).
    set (qs := firstn k (ps ++ [z])). assert (Nq : NoDup qs) by (apply NoDup_first; exact N).
    assert (Iq : forall q, In q qs -> In q (ps ++ [z])) by (intros q I; unfold qs in I; rewrite <- (firstn_skipn k (ps ++ [z])); apply in_or_app; left; exact I).
    destruct (write_members_spec now (firstn k (combine ms xs)) s s' qs) as [O Wr]; [rewrite <- firstn_map, combine_paths, E, firstn_map by exact Lx; reflexivity|exact Nq|exact W|].
    assert (Wt : forall q, In q qs -> exists f, s' q = Some f /\ f_time f = now).
    { clear - Wr. intros q I. induction Wr as [|mx q' l qs [lines [_ S]] _ IH]; [destruct I|]. destruct I as [<-|I]; [exists (mkFile now lines); split; [exact S|reflexivity]|apply IH; exact I]. }
    assert (Et : s' traj = Some t) by (rewrite O by (intros C; apply Nt, Iq, C); exact Ht). split; [exists t; split; [exact Et|lia]|]. split.
    + intros p f I S. destruct (in_dec string_dec p qs) as [J|J]; [destruct (Wt p J) as [g [S2 <-]]; rewrite S in S2; injection S2 as <-; lia|]. rewrite O in S by exact J. specialize (B p f I S). lia.
    + intros t' f S1 S2 C. destruct (Nat.eqb_spec k (length ms)) as [->|Nk].
      * exists now, ms. split; [left; reflexivity|]. apply all_hold with xs; [exact M2|]. unfold qs in Wr. rewrite Lm in Wr at 2. rewrite firstn_all in Wr. rewrite firstn_all2 in Wr by (rewrite combine_length, <- Lx; lia). exact Wr.
      * exfalso. assert (Zq : ~ In z qs).
        { unfold qs. assert (K : k <= length ps) by (rewrite Lm, app_length in *; cbn [length] in *; lia). rewrite firstn_app. replace (k - length ps) with 0 by lia. cbn [firstn]. rewrite app_nil_r. intros I.
          apply NoDup_remove_2 in N. apply N. rewrite app_nil_r. rewrite <- (firstn_skipn k ps). apply in_or_app. left. exact I. }
        rewrite Et in S1. injection S1 as <-. rewrite O in S2 by exact Zq. destruct (F t f Ht S2 C) as [n0 [m0 [_ H]]].
        destruct Need as [Need|Need]; [|contradiction]. assert (X : fst (partial_do true s now traj ms) = false); [|congruence]. apply (fresh_reused s now traj t ms (ps ++ [z]) Ht E Nd). intros p I. destruct (holds_time _ _ _ _ p H I) as [g [Sg Tg]]. exists g. split; [exact Sg|].
        destruct (holds_time _ _ _ _ z H Iz) as [g' [Sg' Tg']]. rewrite S2 in Sg'. injection Sg' as <-. lia.
  - destruct IH as [[t [Ht Lt]] [B F]]. pose proof (mapM_combine _ _ _ _ _ M) as M2. pose proof (F2_length _ _ _ _ _ M2) as Lx.
    rewrite app_length in Lk. cbn [length] in Lk. assert (K : k < length ps) by lia. assert (Ef : forall j, j <= length ps -> firstn j (ps ++ [z]) = firstn j ps) by (intros j Hj; rewrite firstn_app; replace (j - length ps) with 0 by lia; cbn [firstn]; apply app_nil_r).
    destruct (write_members_spec now (firstn k (combine ms xs)) s s' (firstn k (ps ++ [z]))) as [O Wr]; [rewrite <- firstn_map, combine_paths, E, firstn_map by exact Lx; reflexivity|apply NoDup_first; exact N|exact W|]. rewrite Ef in O, Wr by lia.
    assert (Wt : forall q, In q (firstn k ps) -> exists f, s' q = Some f /\ f_time f = now).
    { clear - Wr. intros q I. induction Wr as [|mx q' l qs [lines [_ S]] _ IH]; [destruct I|]. destruct I as [<-|I]; [exists (mkFile now lines); split; [exact S|reflexivity]|apply IH; exact I]. }
    rewrite nth_error_app1 in Ep by exact K. apply nth_error_In in Ep.
    apply (stopped traj ps z T h s t now ms (p :: firstn k ps) (fs_set s' p (mkFile now ls)) N Nt Nd L Ht Lt B F E Need).
    + intros q [<-|I]; [exact Ep|exact (in_first _ _ _ _ I)].
    + intros q Nq. unfold fs_set. destruct (String.eqb_spec q p) as [->|]; [exfalso; apply Nq; left; reflexivity|]. apply O. intros C. apply Nq. right. exact C.
    + intros q I. unfold fs_set. destruct (String.eqb_spec q p) as [->|Nq]; [exists (mkFile now ls); split; reflexivity|]. apply Wt. destruct I as [I|I]; [congruence|exact I].
Qed.

(** Whatever calls were made before, and wherever some of those with update=True were
    stopped (between two files, or within a file other than the last): when the files are reused, they all come from one complete call, made after
    the last change of the trajectory. *)
Theorem C144_reused_partial : forall traj ps T h s t now ms, reached traj ps T h s -> ps <> [] -> NoDup ps -> ~ In traj ps -> ~ In "/dev/stdout"%string ps ->
  s traj = Some t -> map m_path ms = map Some ps -> fst (partial_do true s now traj ms) = false ->
  exists now0 ms0, In (now0, ms0) h /\ (f_time t < now0)%Z /\ Forall2 (holds s now0) ms0 ps.
Proof.
  intros traj ps T h s t now ms R Ne. destruct (exists_last Ne) as [qs [z ->]]. intros N Nt Nd Ht E Re. destruct (reached_inv _ _ _ _ _ _ R N Nt Nd) as [_ [_ F]].
  pose proof (proj1 (fresh_reused s now traj t ms _ Ht E Nd) Re) as Fr. assert (Iz : In z (qs ++ [z])) by (apply in_or_app; right; left; reflexivity). destruct (Fr z Iz) as [f [Sz L]].
  destruct (F t f Ht Sz L) as [n0 [m0 [I H]]]. exists n0, m0. split; [exact I|]. split; [|exact H]. destruct (holds_time _ _ _ _ z H Iz) as [g [Sg Tg]]. rewrite Sz in Sg. injection Sg as <-. lia.
Qed.
Print Assumptions C144_reused_partial.

(** A call that returns after computing is a complete call: its own results are in the
    files. *)
Theorem C144_complete_partial : forall u traj ps T h s now ms ds s', reached traj ps T h s -> (T <= now)%Z -> NoDup ps -> map m_path ms = map Some ps ->
  partial_do u s now traj ms = (true, Ok (inr (ds, s'))) ->
  reached traj ps now ((now, ms) :: h) s' /\ Forall2 (holds s' now) ms ps /\ Forall2 (fun m d => exists an, m_compute m = Ok (d, an)) ms ds /\ forall q, ~ In q ps -> s' q = s q.
Proof.
  intros u traj ps T h s now ms ds s' R L N E H.
  assert (G : (xs <- mapM m_compute ms ;; s' <- write_members now s (combine ms xs) ;; Ok (inr (A := list loaded) (map fst xs, s'))) = Ok (inr (ds, s'))).
  { unfold partial_do in H. destruct u; [|injection H as H; exact H]. destruct (partial_need s traj ms) as [[]|e]; cbn in H; [injection H as H; exact H|discriminate H|discriminate H]. }
  destruct (mapM m_compute ms) as [xs|e] eqn:M; [|discriminate G]. cbn [bind] in G. destruct (write_members now s (combine ms xs)) as [s1|e] eqn:W; [|discriminate G]. cbn [bind] in G. injection G as <- <-.
  pose proof (mapM_combine _ _ _ _ _ M) as M2. pose proof (F2_length _ _ _ _ _ M2) as Lx.
  assert (Ec : map (fun mx => m_path (fst mx)) (combine ms xs) = map Some ps) by (rewrite combine_paths by exact Lx; exact E). destruct (write_members_spec now (combine ms xs) s s1 ps Ec N W) as [O Wr]. split; [|split; [|split; [|exact O]]].
  - assert (C : reached traj ps now (if length ms =? length ms then (now, ms) :: h else h) s1); [|rewrite Nat.eqb_refl in C; exact C].
    apply (reached_call traj ps T h s now ms xs (length ms) s1 R L E (or_intror eq_refl) M (le_n _)). rewrite firstn_all2 by (rewrite combine_length; lia). exact W.
  - apply all_hold with xs; assumption.
  - clear - M2. induction M2 as [|m [d an] ms xs E _ IH]; cbn [map fst]; constructor; [exists an; exact E|exact IH].
Qed.
Print Assumptions C144_complete_partial.

(** Without update: a first complete call, then do() with other options stopped after the
    first file; the next do(update=True) returns one file of each. *)
Theorem C144_stopped_refuted : exists (s0 s1 s2 : fs) a b a' b' la lb,
  m_path a = m_path a' /\ m_path b = m_path b' /\
  partial_do false s0 2 "t" [a; b] = (true, Ok (inr ([Data1 [f64_ofZ 1; f64_ofZ 2] [f64_ofZ 1; f64_ofZ 2]; Data1 [f64_ofZ 1; f64_ofZ 2] [f64_ofZ 1; f64_ofZ 2]], s1))) /\
  (exists xs, mapM m_compute [a'; b'] = Ok xs /\ write_members 3 s1 (firstn 1 (combine [a'; b'] xs)) = Ok s2) /\
  partial_do true s2 4 "t" [a'; b'] = (false, Ok (inl [la; lb])) /\
  la = LColumns [NDec false 1 0; NDec false 2 0] [NDec false 3 0; NDec false 4 0] /\
  lb = LColumns [NDec false 1 0; NDec false 2 0] [NDec false 1 0; NDec false 2 0].
Proof.
  set (c := Ok (Data1 [f64_ofZ 1; f64_ofZ 2] [f64_ofZ 1; f64_ofZ 2], []) : res (data * list string)). set (c' := Ok (Data1 [f64_ofZ 1; f64_ofZ 2] [f64_ofZ 3; f64_ofZ 4], []) : res (data * list string)).
  exists (fun q => if String.eqb q "t" then Some (mkFile 1 []) else None). do 2 eexists. exists (mkMember (Some "A"%string) [] c), (mkMember (Some "B"%string) [] c), (mkMember (Some "A"%string) [] c'), (mkMember (Some "B"%string) [] c').
  do 2 eexists. split; [reflexivity|]. split; [reflexivity|]. split; [vm_compute; reflexivity|]. split; [eexists; split; [reflexivity|]; vm_compute; reflexivity|]. split; [vm_compute; reflexivity|]. split; reflexivity.
Qed.
Print Assumptions C144_stopped_refuted.

(** Two members: a call stopped after the first file, then a complete one. *)
Example C144_nonvacuous : let s0 : fs := fun q => if String.eqb q "t" then Some (mkFile 1 []) else None in
  let c : res (data * list string) := Ok (Data1 [f64_ofZ 1; f64_ofZ 2] [f64_ofZ 1; f64_ofZ 2], []) in let ms := [mkMember (Some "A"%string) [] c; mkMember (Some "B"%string) [] c] in
  exists s1 s2, reached "t" ["A"; "B"]%string 2 [] s1 /\ s1 "A"%string <> None /\ s1 "B"%string = None /\ reached "t" ["A"; "B"]%string 3 [(3%Z, ms)] s2 /\ fst (partial_do true s2 4 "t" ms) = false.
Proof.
  intros s0 c ms. assert (R0 : reached "t" ["A"; "B"]%string 1 [] s0) by (apply reached_start with (mkFile 1 []); [reflexivity|cbn; lia|intros p [<-|[<-|[]]]; reflexivity]).
  destruct (write_members 2 s0 (firstn 1 (combine ms [(Data1 [f64_ofZ 1; f64_ofZ 2] [f64_ofZ 1; f64_ofZ 2], []); (Data1 [f64_ofZ 1; f64_ofZ 2] [f64_ofZ 1; f64_ofZ 2], [])]))) as [s1|e] eqn:W1; [|vm_compute in W1; discriminate W1].
  assert (R1 : reached "t" ["A"; "B"]%string 2 [] s1) by exact (reached_call "t" ["A"; "B"]%string 1 [] s0 2 ms _ 1 s1 R0 ltac:(lia) eq_refl (or_introl eq_refl) eq_refl ltac:(cbn; lia) W1).
  vm_compute in W1. injection W1 as <-.
  match type of R1 with reached _ _ _ _ ?x => set (s1 := x) in * end.
  destruct (write_members 3 s1 (firstn 2 (combine ms [(Data1 [f64_ofZ 1; f64_ofZ 2] [f64_ofZ 1; f64_ofZ 2], []); (Data1 [f64_ofZ 1; f64_ofZ 2] [f64_ofZ 1; f64_ofZ 2], [])]))) as [s2|e] eqn:W2; [|vm_compute in W2; discriminate W2].
  assert (R2 : reached "t" ["A"; "B"]%string 3 [(3%Z, ms)] s2) by exact (reached_call "t" ["A"; "B"]%string 2 [] s1 3 ms _ 2 s2 R1 ltac:(lia) eq_refl (or_introl eq_refl) eq_refl ltac:(cbn; lia) W2).
  vm_compute in W2. injection W2 as <-. exists s1. eexists. split; [exact R1|]. split; [discriminate|]. split; [reflexivity|]. split; [exact R2|]. reflexivity.
Qed.
