(** Theorems about output files: C54-C57. *)
From Coq Require Import Ascii String List ZArith Bool Arith Lia Floats.SpecFloat Reals Lra.
From Verif Require Import PyBase PyBaseFacts Num M_Text M_Output P_Text.
Import ListNotations.
Local Open Scope nat_scope.

(** ** C54 *)
Lemma columns2_ok : forall x y r, columns2 x y = Ok r -> length x = length y /\ length r = length x /\
  forall i a b, nth_error x i = Some a -> nth_error y i = Some b -> nth_error r i = Some [a; b].
Proof.
  intros x y r H. unfold columns2 in H. destruct (Nat.eqb_spec (length x) (length y)) as [E|]; [|discriminate].
  apply Ok_inj in H. subst r. split; [assumption|]. split; [rewrite map_length, combine_length; lia|].
  intros i a b Ha Hb. rewrite nth_error_map.
  assert (C : nth_error (combine x y) i = Some (a, b)).
  { clear E. revert y i Ha Hb. induction x as [|x0 x IH]; intros y i Ha Hb; [destruct i; discriminate|].
    destruct y as [|y0 y]; [destruct i; discriminate|]. destruct i; cbn in *; [congruence|apply IH; assumption]. }
  rewrite C. reflexivity.
Qed.

(** One variable: as many rows as grid points, row i holding grid point i and value i. *)
Theorem C54_one_variable : forall cs an g v lines, file_lines cs an (Data1 g v) = Ok lines ->
  exists rows, lines = cs ++ an ++ rows /\ length rows = length g /\ length v = length g /\
    forall i x y, nth_error g i = Some x -> nth_error v i = Some y ->
      nth_error rows i = Some (show_g x ++ " " ++ show_g y)%string.
Proof.
  intros cs an g v lines H. unfold file_lines in H. apply bind_Ok_inv in H. destruct H as [rows [E H]]. apply Ok_inj in H. subst lines.
  cbn [table] in E. apply bind_Ok_inv in E. destruct E as [x0 [_ E]]. apply columns2_ok in E. destruct E as [L [Lr N]].
  exists (map show_row rows). rewrite map_length. repeat split; try congruence.
  intros i x y Hx Hy. rewrite nth_error_map, (N i x y Hx Hy). reflexivity.
Qed.
Print Assumptions C54_one_variable.

Lemma concat_repeat_length : forall X (l : list X) n, length (concat (repeat l n)) = n * length l.
Proof. intros X l n. induction n as [|n IH]; cbn; [reflexivity|]. rewrite app_length, IH. reflexivity. Qed.

Lemma concat_length_eq : forall X (v : list (list X)) m, (forall r, In r v -> length r = m) -> length (concat v) = length v * m.
Proof.
  intros X v m. induction v as [|r v IH]; intros H; cbn; [reflexivity|].
  rewrite app_length, IH by (intros; apply H; right; assumption). rewrite (H r) by (left; reflexivity). reflexivity.
Qed.

Lemma concat_nth : forall X (v : list (list X)) m i j r x, (forall r, In r v -> length r = m) ->
  nth_error v i = Some r -> nth_error r j = Some x -> nth_error (concat v) (i * m + j) = Some x.
Proof.
  intros X v m. induction v as [|r0 v IH]; intros i j r x H Hi Hj; [destruct i; discriminate|].
  assert (L0 : length r0 = m) by (apply H; left; reflexivity).
  destruct i as [|i]; cbn [nth_error concat] in *.
  - injection Hi as ->. assert (j < length r) by (apply nth_error_Some; congruence). rewrite nth_error_app1 by (cbn; lia). exact Hj.
  - rewrite nth_error_app2 by (cbn; lia). replace (S i * m + j - length r0) with (i * m + j) by (cbn; lia).
    eapply IH; [|eassumption|eassumption]. intros; apply H; right; assumption.
Qed.

Lemma repeat_length_in : forall X (l : list X) n r, In r (repeat l n) -> length r = length l.
Proof. intros X l n r H. apply repeat_spec in H. subst. reflexivity. Qed.

Lemma flat_map_is_concat : forall X Y (f : X -> list Y) l, flat_map f l = concat (map f l).
Proof. intros. apply flat_map_concat_map. Qed.

Lemma nth_error_repeat : forall X (x : X) n i, i < n -> nth_error (repeat x n) i = Some x.
Proof. intros X x n. induction n as [|n IH]; intros i H; [lia|]. destruct i; cbn; [reflexivity|apply IH; lia]. Qed.

Lemma combine_nth_error : forall X Y (l : list X) (m : list Y) i a b, nth_error l i = Some a -> nth_error m i = Some b ->
  nth_error (combine l m) i = Some (a, b).
Proof.
  intros X Y l. induction l as [|x l IH]; intros m i a b Ha Hb; [destruct i; discriminate|].
  destruct m as [|y m]; [destruct i; discriminate|]. destruct i; cbn in *; [congruence|apply IH; assumption].
Qed.

Lemma table2_ok : forall g0 g1 v r, table (Data2 g0 g1 v) = Ok r -> g0 <> [] -> g1 <> [] ->
  length v = length g0 /\ (forall row, In row v -> length row = length g1) /\ length r = length g0 * length g1 /\
  forall i j a b row c, nth_error g0 i = Some a -> nth_error g1 j = Some b -> nth_error v i = Some row -> nth_error row j = Some c ->
    nth_error r (i * length g1 + j) = Some [a; b; c].
Proof.
  intros g0 g1 v r H N0 N1. cbn [table] in H. apply bind_Ok_inv in H. destruct H as [r0 [E0 H]].
  apply bind_Ok_inv in H. destruct H as [z [Ez H]].
  assert (Hr : forall row, In row v -> length row = length r0).
  { unfold flatten in Ez. destruct v as [|w v]; [intros row []|]. cbn in E0. apply Ok_inj in E0. subst w.
    destruct (forallb _ _) eqn:F; [|discriminate]. rewrite forallb_forall in F. intros row Hrow. apply Nat.eqb_eq, F, Hrow. }
  assert (Z : z = concat v).
  { unfold flatten in Ez. destruct v; [apply Ok_inj in Ez; subst; reflexivity|]. destruct (forallb _ _); [apply Ok_inj in Ez; congruence|discriminate]. }
  unfold columns3 in H. rewrite flat_map_is_concat in H.
  assert (Lx : length (concat (map (fun a => repeat a (length r0)) g0)) = length g0 * length r0).
  { rewrite (concat_length_eq _ _ (length r0)), map_length; [reflexivity|].
    intros q Hq. apply in_map_iff in Hq. destruct Hq as [a [<- _]]. apply repeat_length. }
  rewrite Lx, concat_repeat_length in H.
  assert (Lz : length z = length v * length r0) by (rewrite Z; apply concat_length_eq; assumption).
  rewrite Lz in H.
  destruct (Nat.eqb_spec (length g0 * length r0) (length g0 * length g1)) as [E1|]; [|discriminate].
  destruct (Nat.eqb_spec (length g0 * length g1) (length v * length r0)) as [E2|]; [|discriminate]. cbn [andb] in H.
  apply Ok_inj in H.
  assert (P0 : 0 < length g0) by (destruct g0; [congruence|cbn; lia]).
  assert (P1 : 0 < length g1) by (destruct g1; [congruence|cbn; lia]).
  assert (M : length r0 = length g1) by nia. rewrite M in *.
  assert (Lv : length v = length g0) by nia.
  split; [assumption|]. split; [assumption|]. split.
  - rewrite <- H, map_length, !combine_length, Lx, concat_repeat_length, Lz. lia.
  - intros i j a b row c Ha Hb Hv Hc. rewrite <- H, nth_error_map.
    assert (Li : i < length g0) by (apply nth_error_Some; congruence).
    assert (Lj : j < length g1) by (apply nth_error_Some; congruence).
    rewrite (combine_nth_error _ _ _ _ _ (a, b) c); [reflexivity| |].
    + apply combine_nth_error.
      * eapply (concat_nth _ _ (length g1)); [| |apply nth_error_repeat; exact Lj].
        -- intros q Hq. apply in_map_iff in Hq. destruct Hq as [x [<- _]]. apply repeat_length.
        -- rewrite nth_error_map, Ha. reflexivity.
      * eapply (concat_nth _ _ (length g1)); [|apply nth_error_repeat; exact Li|exact Hb].
        intros q Hq. apply repeat_spec in Hq. subst. reflexivity.
    + rewrite Z. eapply concat_nth; eassumption.
Qed.

(** Two variables: one row per pair of grid points, in the order of the first. *)
Theorem C54_two_variables : forall cs an g0 g1 v lines, file_lines cs an (Data2 g0 g1 v) = Ok lines -> g0 <> [] -> g1 <> [] ->
  exists rows, lines = cs ++ an ++ rows /\ length rows = length g0 * length g1 /\
    length v = length g0 /\ (forall row, In row v -> length row = length g1) /\
    forall i j a b row c, nth_error g0 i = Some a -> nth_error g1 j = Some b -> nth_error v i = Some row -> nth_error row j = Some c ->
      nth_error rows (i * length g1 + j) = Some (show_g a ++ " " ++ show_g b ++ " " ++ show_g c)%string.
Proof.
  intros cs an g0 g1 v lines H N0 N1. unfold file_lines in H. apply bind_Ok_inv in H. destruct H as [rows [E H]]. apply Ok_inj in H. subst lines.
  apply table2_ok in E; [|assumption|assumption]. destruct E as [Lv [Hr [Lr N]]].
  exists (map show_row rows). rewrite map_length. repeat split; try assumption.
  intros i j a b row c Ha Hb Hv Hc. rewrite nth_error_map, (N i j a b row c) by assumption. reflexivity.
Qed.
Print Assumptions C54_two_variables.

(** Consistent data is always written. *)
Theorem C54_written : forall cs an,
  (forall g v, g <> [] -> length v = length g -> exists lines, file_lines cs an (Data1 g v) = Ok lines) /\
  (forall g0 g1 v, g0 <> [] -> length v = length g0 -> (forall row, In row v -> length row = length g1) ->
     exists lines, file_lines cs an (Data2 g0 g1 v) = Ok lines).
Proof.
  intros cs an. split.
  - intros g v Hg L. unfold file_lines. cbn [table]. destruct g as [|x g]; [congruence|]. change (get (x :: g) 0) with (Ok x). cbn [bind].
    unfold columns2. rewrite L, Nat.eqb_refl. eexists. reflexivity.
  - intros g0 g1 v Hg L Hr. unfold file_lines. cbn [table].
    destruct v as [|r0 v']; [destruct g0; [congruence|discriminate]|]. set (v := r0 :: v') in *.
    change (get v 0) with (Ok r0). cbn [bind]. assert (L0 : length r0 = length g1) by (apply Hr; left; reflexivity).
    assert (F : flatten v = Ok (concat v)).
    { unfold flatten, v. replace (forallb _ (r0 :: v')) with true; [reflexivity|]. symmetry. apply forallb_forall.
      intros r H. apply Nat.eqb_eq. rewrite L0. apply Hr. exact H. }
    rewrite F. cbn [bind]. unfold columns3. rewrite flat_map_is_concat, (concat_length_eq _ _ (length r0)), map_length, concat_repeat_length.
    + rewrite (concat_length_eq _ v (length g1) Hr), L, L0, Nat.eqb_refl. eexists. reflexivity.
    + intros q Hq. apply in_map_iff in Hq. destruct Hq as [a [<- _]]. apply repeat_length.
Qed.
Print Assumptions C54_written.

Example C54_nonvacuous :
  file_lines ["# k, t, F"]%string [] (Data2 (map f64_ofZ [1; 2]%Z) (map f64_ofZ [0; 10; 20]%Z)
    [[f64_ofZ 1; f64_frac 1 2; f64_frac 1 3]; [f64_ofZ 1; f64_frac 1 4; f64_frac 1 7]]) =
  Ok ["# k, t, F"; "1 0 1"; "1 10 0.5"; "1 20 0.333333"; "2 0 1"; "2 10 0.25"; "2 20 0.142857"]%string.
Proof. vm_compute. reflexivity. Qed.

(** ** C55 *)
Lemma fs_set_same : forall s p f, fs_set s p f p = Some f.
Proof. intros. unfold fs_set. rewrite String.eqb_refl. reflexivity. Qed.

Lemma forall2_nth : forall X Y (P : X -> Y -> Prop) l m, Forall2 P l m -> length m = length l.
Proof. intros X Y P l m H. induction H; cbn; congruence. Qed.

Lemma forall2_pair : forall X Y (P : X -> Y -> Prop) x y ns, Forall2 P [x; y] ns -> exists a b, ns = [a; b] /\ P x a /\ P y b.
Proof.
  intros X Y P x y ns H. inversion H as [|? a ? m Ha Hm]; subst. inversion Hm as [|? b ? m' Hb Hm']; subst. inversion Hm'; subst.
  exists a, b. repeat split; assumption.
Qed.

(** One variable and at least two points: read restores every number up to the six
    printed digits ([agrees], P_Text: same sign, relative error at most 5e-6; zeros,
    infinities and nan exactly). *)
Theorem C55_roundtrip_partial : forall s now p cs an g v s',
  (forall c, In c (cs ++ an) -> is_comment c) -> 2 <= length g ->
  write s now (Some p) cs an (Data1 g v) = Ok s' ->
  exists g' v', read s' (Some p) = Ok (LColumns g' v') /\ Forall2 agrees g g' /\ Forall2 agrees v v'.
Proof.
  intros s now p cs an g v s' Hc Hg H. unfold write in H. apply bind_Ok_inv in H. destruct H as [lines [El H]]. apply Ok_inj in H. subst s'.
  unfold file_lines in El. apply bind_Ok_inv in El. destruct El as [rows [Er El]]. apply Ok_inj in El. subst lines.
  cbn [table] in Er. apply bind_Ok_inv in Er. destruct Er as [x0 [_ Er]]. unfold columns2 in Er.
  destruct (Nat.eqb_spec (length g) (length v)) as [L|]; [|discriminate]. apply Ok_inj in Er.
  cbn [read]. rewrite fs_set_same. cbn [f_lines]. rewrite app_assoc.
  destruct (loadtxt_table (cs ++ an) 2 rows Hc) as [nss [En Fn]]; [lia| |].
  { intros r Hr. subst rows. apply in_map_iff in Hr. destruct Hr as [q [<- _]]. reflexivity. }
  rewrite En. cbn [bind].
  exists (map (fun r => nth 0 r NNan) nss), (map (fun r => nth 1 r NNan) nss).
  assert (F2 : Forall2 (fun q ns => exists a b, ns = [a; b] /\ agrees (fst q) a /\ agrees (snd q) b) (combine g v) nss).
  { rewrite <- Er in Fn. clear - Fn. remember (combine g v) as l. clear Heql. revert nss Fn.
    induction l as [|q l IH]; intros nss Fn; inversion Fn; subst; constructor; [|apply IH; assumption].
    apply forall2_pair. assumption. }
  assert (Ln : length nss = length g).
  { rewrite (forall2_nth _ _ _ _ _ F2), combine_length. lia. }
  split; [|split].
  - destruct F2 as [|q ns l m [a [b [-> _]]] F2]; [cbn in Ln; lia|].
    destruct F2 as [|q' ns' l' m' [a' [b' [-> _]]] F2]; [cbn in Ln; lia|]. reflexivity.
  - clear - F2 L. revert v L nss F2. induction g as [|x g IH]; intros v L nss F2; destruct v as [|y v]; try discriminate; inversion F2; subst; constructor.
    + destruct H1 as [a [b [-> [Ha _]]]]. exact Ha.
    + apply (IH v); [cbn in L; lia|assumption].
  - clear - F2 L. revert v L nss F2. induction g as [|x g IH]; intros v L nss F2; destruct v as [|y v]; try discriminate; inversion F2; subst; constructor.
    + destruct H1 as [a [b [-> [_ Hb]]]]. exact Hb.
    + apply (IH v); [cbn in L; lia|assumption].
Qed.
Print Assumptions C55_roundtrip_partial.

(** A function of one point is read as two numbers instead of arrays, and one of two
    variables is not read at all: for all contents. *)
Theorem C55_roundtrip_refuted :
  (forall s now p cs an x y s', (forall c, In c (cs ++ an) -> is_comment c) ->
     write s now (Some p) cs an (Data1 [x] [y]) = Ok s' -> exists a b, read s' (Some p) = Ok (LScalars a b)) /\
  (forall s now p cs an g0 g1 v s', (forall c, In c (cs ++ an) -> is_comment c) -> g0 <> [] -> g1 <> [] ->
     write s now (Some p) cs an (Data2 g0 g1 v) = Ok s' -> read s' (Some p) = Ok LNothing).
Proof.
  split.
  - intros s now p cs an x y s' Hc H. unfold write in H. apply bind_Ok_inv in H. destruct H as [lines [El H]]. apply Ok_inj in H. subst s'.
    unfold file_lines in El. change (table (Data1 [x] [y])) with (Ok [[x; y]]) in El. cbn [bind] in El. apply Ok_inj in El. subst lines.
    cbn [read]. rewrite fs_set_same. cbn [f_lines]. rewrite app_assoc.
    destruct (loadtxt_table (cs ++ an) 2 [[x; y]] Hc) as [nss [En Fn]]; [lia|intros r [<-|[]]; reflexivity|].
    rewrite En. cbn [bind].
    inversion Fn as [|? ns ? m A F']; subst. inversion F'; subst. apply forall2_pair in A. destruct A as [a [b [-> _]]].
    exists a, b. reflexivity.
  - intros s now p cs an g0 g1 v s' Hc N0 N1 H. unfold write in H. apply bind_Ok_inv in H. destruct H as [lines [El H]]. apply Ok_inj in H. subst s'.
    unfold file_lines in El. apply bind_Ok_inv in El. destruct El as [rows [Er El]]. apply Ok_inj in El. subst lines.
    pose proof Er as Er'. apply table2_ok in Er'; [|assumption|assumption]. destruct Er' as [_ [_ [Lr _]]].
    assert (W : forall r, In r rows -> length r = 3).
    { cbn [table] in Er. apply bind_Ok_inv in Er. destruct Er as [r0 [_ Er]]. apply bind_Ok_inv in Er. destruct Er as [z [_ Er]].
      unfold columns3 in Er. destruct (_ && _); [|discriminate]. apply Ok_inj in Er. subst rows.
      intros r Hr. apply in_map_iff in Hr. destruct Hr as [q [<- _]]. reflexivity. }
    cbn [read]. rewrite fs_set_same. cbn [f_lines]. rewrite app_assoc.
    destruct (loadtxt_table (cs ++ an) 3 rows Hc) as [nss [En Fn]]; [lia|assumption|]. rewrite En. cbn [bind].
    assert (Ln : length nss = length rows) by (eapply forall2_nth; eassumption).
    assert (P : 0 < length rows) by (rewrite Lr; destruct g0, g1; try congruence; cbn; lia).
    destruct rows as [|r rows]; [cbn in P; lia|].
    inversion Fn as [|? ns ? m A F']; subst. assert (L3 : length ns = 3) by (rewrite (forall2_nth _ _ _ _ _ A); apply W; left; reflexivity).
    destruct ns as [|n1 [|n2 [|n3 [|]]]]; try discriminate. destruct m; reflexivity.
Qed.
Print Assumptions C55_roundtrip_refuted.

Example C55_nonvacuous :
  (s <- write (fun _ => None) 5 (Some "out"%string) ["# t, msd"]%string [] (Data1 [f64_ofZ 0; f64_frac 1 3] [f64_ofZ 0; f64_ofZ 1234567]) ;;
   read s (Some "out"%string)) =
  Ok (LColumns [NDec false 0 0; NDec false 333333 (-6)] [NDec false 0 0; NDec false 123457 1]).
Proof. vm_compute. reflexivity. Qed.

(** ** C56 *)
(** do(update=True) does not compute exactly when the output file exists, is not
    /dev/stdout and is strictly newer than the trajectory. *)
Theorem C56_single : forall s now traj t p cs compute, s traj = Some t ->
  (fst (do_ true s now traj (Some p) cs compute) = false <->
   exists f, s p = Some f /\ p <> "/dev/stdout"%string /\ (f_time t < f_time f)%Z) /\
  fst (do_ false s now traj (Some p) cs compute) = true.
Proof.
  intros s now traj t p cs compute Ht. split; [|reflexivity]. unfold do_, need_update.
  destruct (s p) as [f|]; [|split; [discriminate|intros [f [E _]]; discriminate]].
  destruct (String.eqb_spec p "/dev/stdout") as [->|Hp].
  - split; [discriminate|]. intros [f' [_ [C _]]]. congruence.
  - rewrite Ht. destruct (Z.ltb_spec (f_time t) (f_time f)); cbn [negb fst].
    + split; [|reflexivity]. intros _. exists f. repeat split; assumption.
    + split; [discriminate|]. intros [f' [E [_ L]]]. injection E as <-. lia.
Qed.
Print Assumptions C56_single.

(** Reusing leaves every file as it was and gives what read() gives; computing does not
    depend on what the files contain. *)
Theorem C56_effect : forall s now traj p cs compute,
  (fst (do_ true s now traj (Some p) cs compute) = false ->
   forall t, s traj = Some t ->
   snd (do_ true s now traj (Some p) cs compute) = (l <- read s (Some p) ;; Ok (Reused l))) /\
  (fst (do_ true s now traj (Some p) cs compute) = true ->
   do_ true s now traj (Some p) cs compute = do_ false s now traj (Some p) cs compute).
Proof.
  intros s now traj p cs compute. unfold do_. destruct (need_update s traj (Some p)) as [[|]|e] eqn:E; cbn [fst snd].
  - split; [discriminate|reflexivity].
  - split; [reflexivity|discriminate].
  - split; [|discriminate]. intros _ t Ht. unfold need_update in E. destruct (s p); [|discriminate].
    destruct (String.eqb p "/dev/stdout"); [discriminate|]. rewrite Ht in E. discriminate.
Qed.
Print Assumptions C56_effect.

(** Partial correlations are reused only if all the output files are. *)
Theorem C56_partial_correlations : forall s now traj t ms, s traj = Some t ->
  (forall m, In m ms -> m_path m <> None) ->
  (fst (partial_do true s now traj ms) = false <->
   forall m, In m ms -> exists p f, m_path m = Some p /\ s p = Some f /\ p <> "/dev/stdout"%string /\ (f_time t < f_time f)%Z) /\
  fst (partial_do false s now traj ms) = true.
Proof.
  intros s now traj t ms Ht Hp. split; [|reflexivity]. unfold partial_do.
  assert (N : forall l, (forall m, In m l -> m_path m <> None) ->
    exists b, partial_need s traj l = Ok b /\
      (b = false <-> forall m, In m l -> exists p f, m_path m = Some p /\ s p = Some f /\ p <> "/dev/stdout"%string /\ (f_time t < f_time f)%Z)).
  { induction l as [|m l IH]; intros Hl; cbn [partial_need].
    - exists false. split; [reflexivity|]. split; [intros _ m []|reflexivity].
    - destruct (IH (fun x Hx => Hl x (or_intror Hx))) as [b [Eb Hb]].
      assert (Hm : m_path m <> None) by (apply Hl; left; reflexivity).
      destruct (m_path m) as [p|] eqn:Em; [|congruence].
      pose proof (C56_single s 0%Z traj t p [] (Err ValueError) Ht) as [S _]. unfold do_ in S.
      destruct (need_update s traj (Some p)) as [[|]|e] eqn:E; cbn [bind fst] in *.
      + exists true. split; [reflexivity|]. split; [discriminate|]. intros G. exfalso.
        destruct (G m (or_introl eq_refl)) as [p' [f [E1 G']]]. rewrite Em in E1. injection E1 as <-.
        assert (X : true = false) by (apply S; exists f; assumption). discriminate.
      + exists b. split; [assumption|]. rewrite Hb. split.
        * intros G m' [<-|H']; [|auto]. destruct (proj1 S eq_refl) as [f Hf]. exists p, f. split; [assumption|exact Hf].
        * intros G m' H'. apply G. right. assumption.
      + exfalso. unfold need_update in E. destruct (s p); [|discriminate]. destruct (String.eqb p "/dev/stdout"); [discriminate|]. rewrite Ht in E. discriminate. }
  destruct (N ms Hp) as [b [Eb Hb]]. rewrite Eb. destruct b; cbn [fst].
  - split; [discriminate|]. intros G. apply Hb in G. discriminate.
  - split; [intros _; apply Hb; reflexivity|reflexivity].
Qed.
Print Assumptions C56_partial_correlations.

Example C56_nonvacuous :
  let s := fun p => if String.eqb p "traj" then Some (mkFile 10 []) else if String.eqb p "a" then Some (mkFile 11 ["1 2"; "3 4"]%string)
                    else if String.eqb p "b" then Some (mkFile 10 ["1 2"; "3 4"]%string) else None in
  let c := Ok (Data1 [f64_ofZ 7; f64_ofZ 8] [f64_ofZ 7; f64_ofZ 9], []) in
  do_ true s 12 "traj" (Some "a"%string) [] c = (false, Ok (Reused (LColumns [NDec false 1 0; NDec false 3 0] [NDec false 2 0; NDec false 4 0]))) /\
  fst (do_ true s 12 "traj" (Some "b"%string) [] c) = true /\
  fst (partial_do true s 12 "traj" [mkMember (Some "a"%string) [] c; mkMember (Some "b"%string) [] c]) = true.
Proof. vm_compute. repeat split. Qed.

(** ** C57 *)
(** Killed after the comments and k rows: the file is newer than the trajectory, so the
    next update run takes the k rows for the result, for any one-variable result with
    more than k >= 2 points. *)
Theorem C57_crash_refuted : forall s now traj t p cs an g v lines k later compute,
  s traj = Some t -> traj <> p -> p <> "/dev/stdout"%string -> (f_time t < now)%Z ->
  (forall c, In c (cs ++ an) -> is_comment c) ->
  file_lines cs an (Data1 g v) = Ok lines -> 2 <= k < length g ->
  exists s1, killed s now p lines s1 /\
    exists g' v', do_ true s1 later traj (Some p) cs compute = (false, Ok (Reused (LColumns g' v'))) /\
      length g' = k /\ Forall2 agrees (firstn k g) g'.
Proof.
  intros s now traj t p cs an g v lines k later compute Ht Hp Hs Hn Hc El Hk.
  exists (fs_set s p (mkFile now (firstn (length (cs ++ an) + k) lines))).
  split; [constructor; constructor|].
  assert (Ew : write s now (Some p) cs an (Data1 (firstn k g) (firstn k v)) = Ok (fs_set s p (mkFile now (firstn (length (cs ++ an) + k) lines)))).
  { unfold file_lines in El. apply bind_Ok_inv in El. destruct El as [rows [Er El]]. apply Ok_inj in El. subst lines.
    cbn [table] in Er. apply bind_Ok_inv in Er. destruct Er as [x0 [_ Er]]. unfold columns2 in Er.
    destruct (Nat.eqb_spec (length g) (length v)) as [L|]; [|discriminate]. apply Ok_inj in Er. subst rows.
    unfold write, file_lines. cbn [table].
    destruct g as [|g0 g]; [cbn in Hk; lia|]. destruct k as [|k]; [lia|]. change (firstn (S k) (g0 :: g)) with (g0 :: firstn k g) at 1.
    change (get (g0 :: firstn k g) 0) with (Ok g0). cbn [bind]. unfold columns2.
    rewrite !firstn_length, <- L, Nat.eqb_refl. cbn [bind]. rewrite !app_assoc, firstn_app_2, !firstn_map, combine_firstn. reflexivity. }
  assert (L2 : 2 <= length (firstn k g)) by (rewrite firstn_length; lia).
  destruct (C55_roundtrip_partial _ _ _ _ _ _ _ _ Hc L2 Ew) as [g' [v' [Erd [Fg Fv]]]].
  exists g', v'. split; [|split; [|assumption]].
  - unfold do_, need_update. rewrite fs_set_same. cbn [f_time].
    destruct (String.eqb_spec p "/dev/stdout") as [|_]; [congruence|].
    unfold fs_set at 1. destruct (String.eqb_spec traj p) as [|_]; [congruence|]. rewrite Ht.
    destruct (Z.ltb_spec (f_time t) now); [|lia]. cbn [negb]. rewrite Erd. reflexivity.
  - rewrite (forall2_nth _ _ _ _ _ Fg), firstn_length. lia.
Qed.
Print Assumptions C57_crash_refuted.

Lemma comment_cut : forall c j, is_comment c -> substring 0 j c = EmptyString \/ is_comment (substring 0 j c).
Proof. intros c j [r ->]. destruct j; [left; reflexivity|]. right. exists (substring 0 j r). reflexivity. Qed.

Lemma foldM_app_ : forall S X (f : S -> X -> res S) l m s, foldM f s (l ++ m) = (s' <- foldM f s l ;; foldM f s' m).
Proof. intros S X f l m. induction l as [|x l IH]; intros s; [reflexivity|]. cbn [foldM app]. destruct (f s x); [apply IH|reflexivity]. Qed.

Lemma in_firstn : forall X (l : list X) k x, In x (firstn k l) -> In x l.
Proof. intros X l k x H. rewrite <- (firstn_skipn k l). apply in_or_app. left. assumption. Qed.

(** What does hold.  Killed before the file is opened: nothing changed.  Killed before
    the first row: the next update run raises instead of returning anything.  No other
    file is affected; and partial correlations are all computed again as long as one of
    their files is missing or as old as the trajectory. *)
Theorem C57_crash_partial : forall s now traj t p cs an d lines s1 later,
  s traj = Some t -> traj <> p -> file_lines cs an d = Ok lines ->
  (forall c, In c (cs ++ an) -> is_comment c) -> killed s now p lines s1 ->
  (forall q, q <> p -> s1 q = s q) /\
  (s1 p = s p \/
   exists ls, s1 p = Some (mkFile now ls) /\ cut lines ls /\
     (length ls <= length (cs ++ an) -> fst (do_ true s1 later traj (Some p) cs (Err ValueError)) = false ->
      forall compute, exists e, do_ true s1 later traj (Some p) cs compute = (false, Err e))) /\
  (forall ms m q, In m ms -> m_path m = Some q -> q <> p -> (forall m', In m' ms -> m_path m' <> None) ->
     (s q = None \/ exists f, s q = Some f /\ (f_time f <= f_time t)%Z) ->
     fst (partial_do true s1 later traj ms) = true).
Proof.
  intros s now traj t p cs an d lines s1 later Ht Hp El Hc K.
  assert (O : forall q, q <> p -> s1 q = s q).
  { intros q Hq. destruct K as [|ls _]; [reflexivity|]. unfold fs_set. destruct (String.eqb_spec q p); [congruence|reflexivity]. }
  split; [exact O|]. split.
  - destruct K as [|ls Kc]; [left; reflexivity|]. right. exists ls. split; [apply fs_set_same|]. split; [assumption|].
    intros Ll Hd compute. unfold file_lines in El. apply bind_Ok_inv in El. destruct El as [rows [_ El]]. apply Ok_inj in El. subst lines.
    rewrite app_assoc in Kc.
    assert (R : loadtxt ls = Ok []).
    { unfold loadtxt. destruct Kc as [k|k j l Hl].
      - apply load_comments. intros c Hi. apply Hc. rewrite firstn_length in Ll.
        destruct (Nat.le_gt_cases k (length (cs ++ an))) as [Le|Gt].
        + rewrite firstn_app in Hi. replace (k - length (cs ++ an)) with 0 in Hi by lia. rewrite app_nil_r in Hi. eapply in_firstn. exact Hi.
        + rewrite app_length, map_length in Ll. assert (length rows = 0) by lia. destruct rows; [|discriminate]. cbn [map] in Hi. rewrite app_nil_r in Hi. eapply in_firstn. exact Hi.
      - rewrite app_length, firstn_length in Ll. cbn [length] in Ll.
        assert (Hk : k < length ((cs ++ an) ++ map show_row rows)) by (apply nth_error_Some; congruence).
        assert (Le : k < length (cs ++ an)) by lia.
        rewrite nth_error_app1 in Hl by exact Le. apply nth_error_In in Hl.
        rewrite foldM_app_, load_comments.
        + cbn [bind foldM]. destruct (comment_cut l j (Hc l Hl)) as [->|[r ->]]; reflexivity.
        + intros c Hi. apply Hc. rewrite firstn_app in Hi. replace (k - length (cs ++ an)) with 0 in Hi by lia. rewrite app_nil_r in Hi. eapply in_firstn. exact Hi. }
    unfold do_ in *. destruct (need_update _ _ _) as [[|]|e]; cbn [fst] in Hd; [discriminate| |eexists; reflexivity].
    cbn [read]. rewrite fs_set_same. cbn [f_lines]. rewrite R. cbn [bind unpack]. eexists. reflexivity.
  - intros ms m q Hm Hq Hne Hall Hold.
    assert (Ht1 : s1 traj = Some t) by (rewrite O; assumption).
    destruct (fst (partial_do true s1 later traj ms)) eqn:E; [reflexivity|]. exfalso.
    destruct (C56_partial_correlations s1 later traj t ms Ht1 Hall) as [[A _] _]. destruct (A E m Hm) as [p' [f [E1 [E2 [_ E3]]]]].
    rewrite Hq in E1. injection E1 as <-. rewrite O in E2 by assumption.
    destruct Hold as [N|[f' [N L]]]; [congruence|]. rewrite N in E2. injection E2 as <-. lia.
Qed.
Print Assumptions C57_crash_partial.

Example C57_nonvacuous :
  let s := fun p => if String.eqb p "traj" then Some (mkFile 10 []) else None in
  let d := Data1 (map f64_ofZ [0; 1; 2; 3]%Z) (map f64_ofZ [0; 10; 20; 30]%Z) in
  exists lines, file_lines ["# t, msd"]%string [] d = Ok lines /\
    do_ true (fs_set s "out" (mkFile 11 (firstn 3 lines))) 12 "traj" (Some "out"%string) ["# t, msd"]%string (Ok (d, [])) =
    (false, Ok (Reused (LColumns [NDec false 0 0; NDec false 1 0] [NDec false 0 0; NDec false 10 0]))) /\
    fst (do_ true (fs_set s "out" (mkFile 11 (firstn 1 lines))) 12 "traj" (Some "out"%string) ["# t, msd"]%string (Err ValueError)) = false.
Proof. eexists. split; [vm_compute; reflexivity|]. split; vm_compute; reflexivity. Qed.
