(** Proofs about the arrays of a correlation object. *)
From Coq Require Import Ascii String List ZArith Bool Arith Lia.
From Verif Require Import PyBase PyBaseFacts Num M_Helpers M_Correlation M_Dynamics M_Realspace M_Groups M_Arrays.
From Verif Require Import Spec_Correlation Spec_Time P_Time.
Import ListNotations.
Local Open Scope nat_scope.

Lemma foldM_err : forall S X (step : S -> X -> res S) e l s,
  (forall s x, (exists s', step s x = Ok s') \/ step s x = Err e) ->
  (exists x, In x l /\ forall s, step s x = Err e) -> foldM step s l = Err e.
Proof.
  induction l as [|y l IH]; intros s H [x [Hx E]]; [contradiction|]. cbn [foldM].
  destruct Hx as [->|Hx]; [rewrite E; reflexivity|].
  destruct (H s y) as [[s' Es]|Es]; rewrite Es; cbn [bind]; [|reflexivity].
  apply IH; [assumption|]. exists x. split; assumption.
Qed.

Lemma get_cases : forall X (l : list X) i, (exists x, get l i = Ok x) \/ get l i = Err IndexError.
Proof. intros X l i. unfold get. destruct (nth_error l i); [left; eexists; reflexivity|right; reflexivity]. Qed.

Lemma get_out : forall X (l : list X) i, length l <= i -> get l i = Err IndexError.
Proof. intros X l i H. unfold get. rewrite (proj2 (nth_error_None l i)) by assumption. reflexivity. Qed.

Lemma cf_body_cases : forall A X (f : X -> X -> num A) t x i st i0,
  (exists st', cf_body A f t x i st i0 = Ok st') \/ cf_body A f t x i st i0 = Err IndexError.
Proof.
  intros A X f t x i st i0. unfold cf_body.
  destruct (get_cases _ t (i0 + i)) as [[a ->]| ->]; [|right; reflexivity]. cbn [bind].
  destruct (get_cases _ t i0) as [[b ->]| ->]; [|right; reflexivity]. cbn [bind].
  destruct (get_cases _ x (i0 + i)) as [[c ->]| ->]; [|right; reflexivity]. cbn [bind].
  destruct (get_cases _ x i0) as [[d ->]| ->]; [|right; reflexivity]. cbn [bind].
  left. eexists. reflexivity.
Qed.

Lemma origins_reach : forall off skip n i, 1 <= skip <= n -> off + i < n ->
  exists i0, In i0 (origins off skip (n + n - i)) /\ n <= i0 + i.
Proof.
  intros off skip n i [H1 H2] H.
  set (q := (n - i - off + skip - 1) / skip).
  assert (Q : skip * q <= n - i - off + skip - 1) by (apply Nat.mul_div_le; lia).
  assert (Q' : n - i - off <= skip * q).
  { pose proof (Nat.mul_succ_div_gt (n - i - off + skip - 1) skip). fold q in H0. lia. }
  exists (off + skip * q). split; [|lia].
  apply filter_In. split; [apply in_seq; lia|].
  apply andb_true_iff. split; [apply Nat.leb_le; lia|].
  replace (off + skip * q - off) with (q * skip) by lia.
  rewrite Nat.mod_mul by lia. reflexivity.
Qed.

Lemma gcf_offset_twice : forall A X (f : X -> X -> num A) dgrid skip steps (x : list X),
  length x = length steps -> 1 <= skip <= length steps -> dgrid <> [] ->
  (forall p, In p dgrid -> fst p + snd p < length steps) ->
  gcf_offset A f dgrid skip steps (x ++ x) = Err IndexError.
Proof.
  intros A X f dgrid skip steps x Lx Hs Hd Hp. unfold gcf_offset.
  rewrite (foldM_err _ _ _ IndexError); [reflexivity| |].
  - intros st p. rewrite py_range_spec by lia. cbn [bind].
    match goal with |- context [foldM _ st ?l] => generalize l end. intros l. revert st.
    induction l as [|i0 l IH]; intros st; cbn [foldM]; [left; eexists; reflexivity|].
    destruct (cf_body_cases A X f steps (x ++ x) (snd p) st i0) as [[st' ->]| ->]; cbn [bind]; [apply IH|right; reflexivity].
  - destruct dgrid as [|p r]; [congruence|]. exists p. split; [left; reflexivity|]. intros st.
    rewrite py_range_spec by lia. cbn [bind]. rewrite app_length.
    apply foldM_err; [intros; apply cf_body_cases|].
    destruct (origins_reach (fst p) skip (length steps) (snd p)) as [i0 [Hi Hn]]; [assumption|apply Hp; left; reflexivity|].
    exists i0. split.
    + rewrite Lx. exact Hi.
    + intros s. unfold cf_body. rewrite get_out by assumption. reflexivity.
Qed.

Lemma offset_compute_twice : forall A X (f : X -> X -> num A) tr dgrid skip (x : list X),
  length x = length (t_steps tr) -> 1 <= skip <= length (t_steps tr) -> dgrid <> [] ->
  (forall p, In p dgrid -> fst p + snd p < length (t_steps tr)) ->
  offset_compute A f tr dgrid skip (x ++ x) = Err IndexError.
Proof. intros. unfold offset_compute. rewrite gcf_offset_twice by assumption. reflexivity. Qed.

(** One setup only depends on the old arrays through the append. *)
Lemma setup_onebody_app : forall A D ps fix_cm cbk frames old a,
  setup_onebody A D ps fix_cm cbk frames old = Ok a ->
  exists d, setup_onebody A D ps fix_cm cbk frames arrays0 = Ok d /\ a = arr_app A old d /\
    forall old', setup_onebody A D ps fix_cm cbk frames old' = Ok (arr_app A old' d).
Proof.
  intros A D ps fix_cm cbk frames old a H. unfold setup_onebody in *.
  destruct (source A D ps fix_cm frames) as [th|e]; [|discriminate]. cbn [bind] in *.
  destruct (dump_first A ps th (one_body cbk)) as [f|e]; [|discriminate]. cbn [bind] in *.
  destruct (dump_second A ps fix_cm th (one_body cbk)) as [u|e]; [|discriminate]. cbn [bind] in *.
  apply Ok_inj in H. eexists. split; [reflexivity|]. split; [symmetry; exact H|]. intros old'. reflexivity.
Qed.

Lemma arr_app_0 : forall A (d : arrays A), arr_app A arrays0 d = d.
Proof. intros A [p v i u]. reflexivity. Qed.

Lemma mapM_len : forall X Y (f : X -> res Y) l ys, mapM f l = Ok ys -> length ys = length l.
Proof.
  induction l as [|x l IH]; intros ys H; cbn [mapM] in H; [apply Ok_inj in H; subst; reflexivity|].
  apply bind_Ok_inv in H. destruct H as [y [_ H]]. apply bind_Ok_inv in H. destruct H as [r [E H]].
  apply Ok_inj in H. subst. cbn [length]. rewrite (IH _ E). reflexivity.
Qed.

Lemma source_length : forall A (D : decor A) ps fix_cm frames th,
  (forall b fr, length (d_unfold D b fr) = length fr) ->
  source A D ps fix_cm frames = Ok th -> length th = length frames.
Proof.
  intros A D ps fix_cm frames th HD H. unfold source in H. apply bind_Ok_inv in H. destruct H as [h [_ H]].
  destruct ((w_unf ps && negb h) || (w_pos ps && fix_cm)); apply Ok_inj in H; subst th; [|reflexivity].
  destruct (w_pos ps); [rewrite map_length|]; apply HD.
Qed.

Lemma setup_onebody_lengths : forall A (D : decor A) ps fix_cm cbk frames d,
  (forall b fr, length (d_unfold D b fr) = length fr) ->
  setup_onebody A D ps fix_cm cbk frames arrays0 = Ok d ->
  (w_unf ps = true -> length (a_unf d) = length frames) /\
  (w_pos ps = true -> length (a_pos d) = length frames) /\
  (w_vel ps = true -> length (a_vel d) = length frames).
Proof.
  intros A D ps fix_cm cbk frames d HD H. unfold setup_onebody in H.
  apply bind_Ok_inv in H. destruct H as [th [Eth H]]. apply source_length in Eth; [|assumption].
  apply bind_Ok_inv in H. destruct H as [f [Ef H]]. apply bind_Ok_inv in H. destruct H as [u [Eu H]].
  apply Ok_inj in H. subst d. cbn [arr_app arrays0 a_unf a_pos a_vel app].
  split; [|split].
  - intros W. unfold dump_second in Eu. rewrite W in Eu. apply bind_Ok_inv in Eu. destruct Eu as [h [_ Eu]].
    destruct h.
    + apply mapM_len in Eu. congruence.
    + apply Ok_inj in Eu. subst u. rewrite map_length. assumption.
  - intros W. unfold dump_first in Ef. rewrite W in Ef. cbn [orb] in Ef.
    apply bind_Ok_inv in Ef. destruct Ef as [s0 [_ Ef]]. apply bind_Ok_inv in Ef. destruct Ef as [ii [_ Ef]].
    apply Ok_inj in Ef. subst f. cbn [fst]. rewrite map_length. assumption.
  - intros W. unfold dump_first in Ef. rewrite W in Ef. rewrite orb_true_r in Ef. cbn [orb] in Ef.
    apply bind_Ok_inv in Ef. destruct Ef as [s0 [_ Ef]]. apply bind_Ok_inv in Ef. destruct Ef as [ii [_ Ef]].
    apply Ok_inj in Ef. subst f. cbn [fst snd]. rewrite map_length. assumption.
Qed.

(** A non-empty request gives a non-empty grid. *)
Lemma setup_t_grid_nonempty : forall A steps bs dt (ts : list (num A)) off g,
  setup_t_grid A steps bs dt ts off = Ok g -> ts <> [] -> g <> [].
Proof.
  intros A steps bs dt ts off g H Ht E. subst g.
  destruct (setup_t_grid_correct steps A dt bs ts off [] H) as [reqs [Er [_ [_ [Hr _]]]]].
  destruct ts as [|t r]; [congruence|]. cbn [mapM] in Er.
  apply bind_Ok_inv in Er. destruct Er as [q [_ Er]]. apply bind_Ok_inv in Er. destruct Er as [qs [_ Er]].
  apply Ok_inj in Er. subst reqs. destruct (Hr q (or_introl eq_refl)) as [p [[] _]].
Qed.

Lemma setup_t_grid_inside : forall A steps bs dt (ts : list (num A)) off g p,
  setup_t_grid A steps bs dt ts off = Ok g -> In p g -> fst p + snd p < length steps.
Proof.
  intros A steps bs dt ts off g p H Hp.
  destruct (setup_t_grid_correct steps A dt bs ts off g H) as [reqs [_ [_ [Hg _]]]].
  destruct (Hg p Hp) as [[_ U] _]. lia.
Qed.

Lemma setup_t_grid_empty_request : forall A steps bs dt off g,
  setup_t_grid A steps bs dt [] off = Ok g -> g = [].
Proof.
  intros A steps bs dt off g H.
  destruct (setup_t_grid_correct steps A dt bs [] off g H) as [reqs [Er [_ [_ [_ Hg]]]]].
  cbn [mapM] in Er. apply Ok_inj in Er. subst reqs. destruct g as [|p r]; [reflexivity|].
  destruct (Hg p (or_introl eq_refl)) as [x [[] _]].
Qed.
