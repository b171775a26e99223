(** Radial distribution functions as objects: reduction to the computations with
    given cells, volume and crop. *)
From Coq Require Import Ascii String List ZArith Bool Arith Lia Reals Lra Sorting.Sorted.
From Verif Require Import PyBase PyBaseFacts Num NumFacts Spec_Stats M_Helpers M_Correlation M_Dynamics M_Realspace M_LinkedCells
  M_GrObject Spec_Correlation Spec_Dynamics Spec_Pairs Spec_LinkedCells Spec_GrObject
  P_Helpers P_Dynamics P_Overlap P_Pairs P_Image P_Count P_Gr P_Gr2 P_Gr3 P_GrFast P_GrFast2 P_LinkedCells P_LinkedCells2 P_LinkedCells3 P_LinkedCells4.
Import ListNotations.
Local Open Scope nat_scope.

Lemma origins_lt : forall skip n i, In i (origins 0 skip n) -> i < n.
Proof. intros skip n i H. apply filter_In in H. destruct H as [H _]. apply in_seq in H. lia. Qed.

Lemma origins_zero : forall skip n, 1 <= skip -> 1 <= n -> In 0 (origins 0 skip n).
Proof.
  intros skip n Hs Hn. apply filter_In. split; [apply in_seq; lia|]. cbn [Nat.leb Nat.sub andb]. rewrite Nat.mod_0_l by lia. reflexivity.
Qed.

Lemma origins_nonempty : forall skip n, 1 <= skip -> 1 <= n -> origins 0 skip n <> [].
Proof. intros skip n Hs Hn E. pose proof (origins_zero skip n Hs Hn) as H. rewrite E in H. destruct H. Qed.

Lemma last_In : forall X (l : list X) d, l <> [] -> In (last l d) l.
Proof.
  intros X l d. induction l as [|a l IH]; intros H; [congruence|]. destruct l as [|b l]; [left; reflexivity|].
  right. apply IH. discriminate.
Qed.

Lemma last_indep : forall X (l : list X) d d', l <> [] -> last l d = last l d'.
Proof. intros X l d d'. induction l as [|a l IH]; intros H; [congruence|]. destruct l as [|b l]; [reflexivity|]. apply IH. discriminate. Qed.

(** A loop that also remembers the last item. *)
Lemma foldM_last : forall (F S X : Type) (step1 : F * S -> X -> res (F * S)) (step2 : S -> X -> res S) (g : X -> F) os,
  (forall x f s, In x os -> step1 (f, s) x = (s' <- step2 s x ;; Ok (g x, s'))) ->
  forall f s d, foldM step1 (f, s) os
  = (s' <- foldM step2 s os ;; Ok (match os with [] => f | _ => g (last os d) end, s')).
Proof.
  intros F S X step1 step2 g os. induction os as [|x os IH]; intros H f s d; [reflexivity|].
  cbn [foldM]. rewrite H by (left; reflexivity). destruct (step2 s x) as [s'|e]; [|reflexivity]. cbn [bind].
  rewrite (IH (fun y f' s'' Hy => H y f' s'' (or_intror Hy)) (g x) s' d).
  destruct (foldM step2 s' os) as [s''|e]; [|reflexivity]. cbn [bind]. f_equal. f_equal.
  destruct os as [|y os]; reflexivity.
Qed.

Section Legacy.
Variable A : arith.

Lemma legacy_bridge : forall pi sd ndims same p skip (frames : list (gframe A)) d grid crop c (cells : gframe A -> gcell A),
  frames <> [] -> 1 <= skip -> (forall f, In f frames -> f_cell f = Some (cells f)) ->
  gr_setup_grid A p sd (f_cell (nth 0 frames d)) = Ok grid ->
  c = cells (nth (last (origins 0 skip (length frames)) 0) frames d) -> gr_crop A p (Some c) = Ok crop ->
  gr_object_legacy A pi sd ndims same p skip frames
  = gr_legacy A pi ndims same grid skip (map f_0 frames) (map f_1 frames) (map (fun f => c_side (cells f)) frames) (cell_volume A c) crop.
Proof.
  intros pi sd ndims same p skip frames d grid crop c cells Hne Hs Hc Hg Ec Hcrop.
  unfold gr_object_legacy, gr_legacy.
  assert (1 <= length frames) as Hlen by (destruct frames; [congruence|cbn; lia]).
  rewrite (get_Ok _ frames 0 d) by lia. cbn [bind]. rewrite Hg. cbn [bind].
  destruct (edges_of_grid A grid) as [es|e]; [|reflexivity]. cbn [bind].
  destruct (np_histogram A [] es) as [u|e]; [|reflexivity]. cbn [bind].
  rewrite map_length, py_range_spec by exact Hs. cbn [bind].
  change (filter (fun i => (0 <=? i) && ((i - 0) mod skip =? 0)) (seq 0 (length frames))) with (origins 0 skip (length frames)).
  set (os := origins 0 skip (length frames)).
  assert (forall i, In i os -> i < length frames) as Hos by (intros i; apply origins_lt).
  assert (os <> []) as Hose by (apply origins_nonempty; lia).
  match goal with |- bind (foldM ?s1 _ _) _ = bind (foldM ?s2 _ _) _ =>
    rewrite (foldM_last _ _ _ s1 s2 (fun i => nth i frames d) os) with (d := 0) end.
  2:{ intros i f s Hi. specialize (Hos i Hi). assert (In (nth i frames d) frames) as Hin by (apply nth_In; exact Hos).
      rewrite (get_Ok _ frames i d) by exact Hos. cbn [bind].
      rewrite (get_Ok _ (map f_0 frames) i (f_0 d)) by (rewrite map_length; exact Hos).
      rewrite (get_Ok _ (map f_1 frames) i (f_1 d)) by (rewrite map_length; exact Hos).
      rewrite (get_Ok _ (map (fun f => c_side (cells f)) frames) i (c_side (cells d))) by (rewrite map_length; exact Hos).
      rewrite (map_nth f_0), (map_nth f_1), (map_nth (fun f => c_side (cells f))). cbn [bind].
      rewrite (Hc _ Hin). cbn [need_cell bind snd].
      destruct ((length (f_0 (nth i frames d)) =? 0) || (length (f_1 (nth i frames d)) =? 0)); [reflexivity|].
      destruct same.
      - destruct (pairs_newton_hist A _ _ _ es); reflexivity.
      - destruct (pairs_hist A _ _ _ es); reflexivity. }
  match goal with |- bind (bind ?u _) _ = _ => destruct u as [hs|e]; [|reflexivity] end. cbn [bind].
  assert (match os with [] => nth 0 frames d | _ :: _ => nth (last os 0) frames d end = nth (last os 0) frames d) as ->
    by (destruct os; [congruence|reflexivity]).
  rewrite (Hc (nth (last os 0) frames d)) by (apply nth_In, Hos, last_In, Hose). cbn [need_cell bind].
  fold os in Ec. rewrite <- Ec, Hcrop. cbn [bind]. rewrite !map_map. reflexivity.
Qed.
End Legacy.

(** Loop of the fast version. *)
Lemma foldM_state3 : forall (S F X Y : Type) (step : option S * option F * list Y -> X -> res (option S * option F * list Y))
  (s0 : option S) (g : X -> F) (h : X -> Y) os,
  (forall ls lf acc i, In i os -> ls = None \/ ls = s0 -> step (ls, lf, acc) i = Ok (s0, Some (g i), acc ++ [h i])) ->
  forall ls lf acc d, os <> [] -> ls = None \/ ls = s0 ->
  foldM step (ls, lf, acc) os = Ok (s0, Some (g (last os d)), acc ++ map h os).
Proof.
  intros S F X Y step s0 g h os. induction os as [|i os IH]; intros H ls lf acc d Hne Hls; [congruence|].
  cbn [foldM]. rewrite H by (auto; left; reflexivity). cbn [bind].
  destruct os as [|j os]; [reflexivity|].
  rewrite (IH (fun ls' lf' acc' k Hk => H ls' lf' acc' k (or_intror Hk)) s0 (Some (g i)) (acc ++ [h i]) d) by (auto; discriminate).
  rewrite <- app_assoc. reflexivity.
Qed.

Local Open Scope R_scope.

Definition mean_hist (h : nat -> list nat) (os : list nat) (k : nat) : R := rmean (map (fun i => INR (nth k (h i) 0%nat)) os).
Definition mean_of (N : nat -> nat) (os : list nat) : R := rmean (map (fun i => INR (N i)) os).
Definition fast_value (pi V : R) (ndims : nat) (distinct : bool) (dr : R) (h : nat -> list nat) (N0 N1 : nat -> nat) (os : list nat) (k : nat) : R :=
  (if distinct then 1 else 2) * mean_hist h os k
  / (mean_of N1 os / V * shell Rops pi ndims (INR k * dr) (INR (k + 1) * dr) * mean_of N0 os).

Lemma combine_map_seq : forall (X Y : Type) (f : nat -> X) (g : nat -> Y) (a b c : nat),
  combine (map f (seq c a)) (map g (seq c b)) = map (fun k => (f k, g k)) (seq c (Nat.min a b)).
Proof.
  intros X Y f g. induction a as [|a IH]; intros b c; [reflexivity|]. destruct b as [|b]; [reflexivity|].
  cbn [seq map combine Nat.min]. rewrite IH. reflexivity.
Qed.

Lemma fast_values_form : forall pi V ndims (distinct remove : bool) dr n (h : nat -> list nat) (N0 N1 : nat -> nat) os,
  (if remove then 3 <= n else 2 <= n)%nat ->
  fast_values Rops pi ndims distinct remove dr n (map (fun i => (h i, (N0 i, N1 i))) os) V
  = Ok (map (fun k => dr * INR k + dr / 2) (seq 0 n),
        map (fun k => fast_value pi V ndims distinct dr h N0 N1 os (if (remove && (k =? 0)%nat)%bool then 1%nat else k)) (seq 0 (n - 1))).
Proof.
  intros pi V ndims distinct remove dr n h N0 N1 os Hn.
  assert (2 <= n)%nat as Hn2 by (destruct remove; lia).
  unfold fast_values. change (num Rops) with R.
  assert (get (fbins Rops dr n) 0 = Ok (dr * INR 0 + dr / 2) /\ get (fbins Rops dr n) 1 = Ok (dr * INR 1 + dr / 2)) as [G0 G1].
  { unfold fbins. rewrite !(get_Ok _ _ _ 0) by (rewrite map_length, seq_length; lia).
    change (num Rops) with R. rewrite !nth_map_seq by lia. rewrite !nofnat_R. split; reflexivity. }
  change (num Rops) with R in *. rewrite G0, G1. cbn [bind].
  set (half := ndiv Rops (nsub Rops (dr * INR 1 + dr / 2) (dr * INR 0 + dr / 2)) (nofZ Rops 2)).
  assert (half = dr / 2) as Ehalf by (unfold half; cbn [ndiv nsub nofZ Rops INR]; change (num Rops) with R; field).
  clearbody half. subst half.
  assert (map (fun b : R => nsub Rops b (dr / 2) : R) (fbins Rops dr n) = map (fun k => INR k * dr) (seq 0 n)) as ->.
  { unfold fbins. rewrite map_map. apply map_ext. intros k. rewrite nofnat_R. cbn [nsub nadd nmul ndiv nofZ Rops].
    change (num Rops) with R. field. }
  assert (combine (map (fun k => INR k * dr) (seq 0 n)) (tl (map (fun k => INR k * dr) (seq 0 n)))
    = map (fun k => (INR k * dr, INR (k + 1) * dr)) (seq 0 (n - 1))) as Ep.
  { assert (forall l : list R, tl l = skipn 1 l) as Htl by (intros [|]; reflexivity).
    rewrite (combine_nth_seq R R _ _ 0 0), Htl, skipn_length, map_length, seq_length.
    replace (Nat.min n (n - 1)) with (n - 1)%nat by lia. apply map_ext_in. intros k Hk. apply in_seq in Hk.
    f_equal; [rewrite nth_map_seq by lia; reflexivity|].
    destruct n as [|n']; [lia|]. cbn [seq map skipn]. rewrite <- seq_shift, map_map, nth_map_seq by lia.
    rewrite Nat.add_1_r. reflexivity. }
  change (num Rops) with R in *. rewrite Ep, map_length, seq_length.
  assert (fbins Rops dr n = map (fun k => dr * INR k + dr / 2) (seq 0 n)) as ->.
  { unfold fbins. apply map_ext. intros k. rewrite nofnat_R. reflexivity. }
  unfold hist_average, map2. rewrite (combine_map_seq R (R * R)%type), map_map. rewrite Nat.min_id. cbn [fst snd].
  match goal with |- _ = ?r => set (RHS := r) end.
  match goal with |- context [@map ?X ?Y ?F (seq 0 (n - 1))] => set (M := @map X Y F (seq 0 (n - 1))) end.
  assert (M = map (fun k => fast_value pi V ndims distinct dr h N0 N1 os k) (seq 0 (n - 1))) as EM.
  { unfold M. apply map_ext_in. intros k Hk. unfold fast_value, mean_hist, mean_of, rmean.
    rewrite !nmean_R, nsum_R, nofnat_R, !map_length, !map_map. cbn [fst snd].
    rewrite (map_ext (fun x => nofnat Rops (N0 x)) (fun x => INR (N0 x))) by (intros; apply nofnat_R).
    rewrite (map_ext (fun x => nofnat Rops (N1 x)) (fun x => INR (N1 x))) by (intros; apply nofnat_R).
    rewrite (map_ext (fun x => nofnat Rops (nth k (h x) 0%nat)) (fun x => INR (nth k (h x) 0%nat))) by (intros; apply nofnat_R).
    cbn [nmul ndiv n1 nofZ Rops]. change (num Rops) with R in *.
    set (sh := shell Rops pi ndims (INR k * dr) (INR (k + 1) * dr)). change (num Rops) with R in *.
    destruct distinct; unfold Rdiv; rewrite ?Rinv_mult; [ring|].
    replace (/ / 2) with 2 by (field; lra). ring. }
  rewrite EM. clear EM M. subst RHS. destruct remove; [|cbn [andb]; reflexivity].
  destruct n as [|[|[|n]]]; try lia. cbn [Nat.sub seq map bind andb Nat.eqb]. f_equal. f_equal. f_equal. f_equal.
  apply map_ext_in. intros k Hk. apply in_seq in Hk. destruct (Nat.eqb_spec k 0); [lia|reflexivity].
Qed.

(** Points up to [crop], and values. *)
Lemma fast_points : forall dr n crop (v : nat -> R),
  filter (fun gv : R * R => Rleb (fst gv) crop)
    (combine (map (fun k => dr * INR k + dr / 2) (seq 0 n)) (map v (seq 0 (n - 1))))
  = map (fun k => (dr * INR k + dr / 2, v k)) (filter (fun k => Rleb (dr * INR k + dr / 2) crop) (seq 0 (n - 1))).
Proof.
  intros dr n crop v. rewrite combine_map_seq. replace (Nat.min n (n - 1)) with (n - 1)%nat by lia.
  rewrite filter_map. reflexivity.
Qed.

Lemma fast_object_bind : forall pi sd big ndims same p skip (frames : list frameR) grid dr linked (s0 : option (setup Rops))
  (distinct remove : bool) (h : nat -> list nat) (N0 N1 : nat -> nat) V,
  (1 <= skip)%nat -> frames <> [] ->
  gr_setup_grid Rops p sd (f_cell (frame_at frames 0)) = Ok grid -> (if remove then 3 <= length grid else 2 <= length grid)%nat ->
  dr = nth 1 grid 0 - nth 0 grid 0 ->
  use_linked Rops p ndims (frame_at frames 0) = Ok linked ->
  (forall ls lf acc i, In i (origins 0 skip (length frames)) -> ls = None \/ ls = s0 ->
     fast_object_step Rops big ndims same p linked dr (length grid) (ls, lf, acc) (frame_at frames i)
     = Ok (s0, Some (frame_at frames i, (distinct, remove)), acc ++ [(h i, (N0 i, N1 i))])) ->
  (match f_cell (last_used skip frames) with
     | Some c => Ok (cell_volume Rops c)
     | None => pydiv Rops (nofnat Rops (f_npart (last_used skip frames))) (f_density (last_used skip frames)) end) = Ok V ->
  gr_object_fast Rops pi sd big ndims same p skip frames
  = (crop <- gr_crop Rops p (f_cell (last_used skip frames)) ;; Ok (map (fun k => (dr * INR k + dr / 2,
          fast_value pi V ndims distinct dr h N0 N1 (origins 0 skip (length frames))
            (if (remove && (k =? 0)%nat)%bool then 1%nat else k)))
      (filter (fun k => Rleb (dr * INR k + dr / 2) crop) (seq 0 (length grid - 1))))).
Proof.
  intros pi sd big ndims same p skip frames grid dr linked s0 distinct remove h N0 N1 V Hs Hne Hg Hn Hdr Hl Hstep HV.
  assert (2 <= length grid)%nat as Hn2 by (destruct remove; lia).
  unfold gr_object_fast. assert (1 <= length frames)%nat as Hlen by (destruct frames; [congruence|cbn; lia]).
  rewrite (get_Ok _ frames 0 no_frame) by lia. cbn [bind]. fold (frame_at frames 0).
  match goal with |- bind ?x _ = _ => replace x with (Ok grid) by (symmetry; exact Hg) end. cbn [bind].
  change (num Rops) with R in *. rewrite (get_Ok _ grid 0 0), (get_Ok _ grid 1 0) by lia. cbn [bind].
  rewrite Hl. cbn [bind]. rewrite py_range_spec by exact Hs. cbn [bind].
  change (filter (fun i => (0 <=? i) && ((i - 0) mod skip =? 0))%nat (seq 0 (length frames))) with (origins 0 skip (length frames)).
  set (os := origins 0 skip (length frames)) in *.
  assert (nsub Rops (nth 1 grid 0) (nth 0 grid 0) = dr) as Ed by (subst dr; reflexivity). rewrite Ed.
  match goal with |- context [foldM ?stp _ _] =>
    rewrite (foldM_state3 (setup Rops) (frameR * (bool * bool)) nat (list nat * (nat * nat)) stp s0
      (fun i => (frame_at frames i, (distinct, remove))) (fun i => (h i, (N0 i, N1 i))) os) with (d := 0%nat) end.
  - cbn [bind app]. fold (last_used skip frames).
    match goal with |- bind ?x _ = _ => replace x with (Ok V) by (symmetry; exact HV) end. cbn [bind].
    match goal with |- bind ?x _ = _ => replace x with (Ok (map (fun k => dr * INR k + dr / 2) (seq 0 (length grid)),
        map (fun k => fast_value pi V ndims distinct dr h N0 N1 os (if (remove && (k =? 0)%nat)%bool then 1%nat else k)) (seq 0 (length grid - 1))))
      by (symmetry; apply fast_values_form; exact Hn) end. cbn [bind].
    change (frame_at frames (last os 0%nat)) with (last_used skip frames).
    destruct (gr_crop Rops p (f_cell (last_used skip frames))) as [crop|e]; [|reflexivity]. cbn [bind]. f_equal.
    apply (fast_points dr (length grid) crop
      (fun k => fast_value pi V ndims distinct dr h N0 N1 os (if (remove && (k =? 0)%nat)%bool then 1%nat else k))).
  - intros ls lf acc i Hi Hls. rewrite (get_Ok _ frames i no_frame) by (apply (origins_lt skip); exact Hi). cbn [bind].
    apply Hstep; assumption.
  - apply origins_nonempty; lia.
  - left. reflexivity.
Qed.

Lemma fast_object_form : forall pi sd big ndims same p skip (frames : list frameR) grid dr linked (s0 : option (setup Rops))
  (distinct remove : bool) (h : nat -> list nat) (N0 N1 : nat -> nat) V crop,
  (1 <= skip)%nat -> frames <> [] ->
  gr_setup_grid Rops p sd (f_cell (frame_at frames 0)) = Ok grid -> (if remove then 3 <= length grid else 2 <= length grid)%nat ->
  dr = nth 1 grid 0 - nth 0 grid 0 ->
  use_linked Rops p ndims (frame_at frames 0) = Ok linked ->
  (forall ls lf acc i, In i (origins 0 skip (length frames)) -> ls = None \/ ls = s0 ->
     fast_object_step Rops big ndims same p linked dr (length grid) (ls, lf, acc) (frame_at frames i)
     = Ok (s0, Some (frame_at frames i, (distinct, remove)), acc ++ [(h i, (N0 i, N1 i))])) ->
  (match f_cell (last_used skip frames) with
     | Some c => Ok (cell_volume Rops c)
     | None => pydiv Rops (nofnat Rops (f_npart (last_used skip frames))) (f_density (last_used skip frames)) end) = Ok V ->
  gr_crop Rops p (f_cell (last_used skip frames)) = Ok crop ->
  gr_object_fast Rops pi sd big ndims same p skip frames
  = Ok (map (fun k => (dr * INR k + dr / 2,
          fast_value pi V ndims distinct dr h N0 N1 (origins 0 skip (length frames))
            (if (remove && (k =? 0)%nat)%bool then 1%nat else k)))
      (filter (fun k => Rleb (dr * INR k + dr / 2) crop) (seq 0 (length grid - 1)))).
Proof.
  intros pi sd big ndims same p skip frames grid dr linked s0 distinct remove h N0 N1 V crop Hs Hne Hg Hn Hdr Hl Hstep HV Hc.
  rewrite (fast_object_bind pi sd big ndims same p skip frames grid dr linked s0 distinct remove h N0 N1 V) by assumption.
  rewrite Hc. reflexivity.
Qed.
