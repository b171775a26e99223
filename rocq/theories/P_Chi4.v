(** Proofs about chi4 and the velocity and stress autocorrelations. *)
From Coq Require Import Ascii String List ZArith Bool Arith Reals Lia Lra Psatz Sorting.Sorted Sorting.Permutation.
From Verif Require Import PyBase PyBaseFacts Num Spec_Stats NumFacts M_Helpers M_Correlation M_Dynamics
  Spec_Correlation P_Correlation Spec_Time P_Time P_Skip P_Acf P_Helpers Spec_Dynamics P_Dynamics P_Dynamics2 P_Overlap.
Import ListNotations.
Local Open Scope R_scope.

Lemma fold_sums : forall (w : nat -> R) l a b c,
  fold_left (fun (st : R * R * nat) i0 => (fst (fst st) + w i0, snd (fst st) + w i0 * w i0, S (snd st))) l (a, b, c)
  = (a + rsum (map w l), b + rsum (map (fun i0 => w i0 * w i0) l), (c + length l)%nat).
Proof.
  intros w. induction l as [|i l IH]; intros a b c; cbn [fold_left map rsum length].
  - rewrite !Rplus_0_r, Nat.add_0_r. reflexivity.
  - cbn [fst snd]. rewrite IH. f_equal; [f_equal; ring|lia].
Qed.

Lemma chi4_sums_spec : forall a2 skip (unf : list (list (list R))) p, (1 <= skip)%nat ->
  let os := origins (fst p) skip (length unf - snd p - skip) in
  chi4_sums Rops a2 skip unf p
  = Ok (rsum (counts a2 unf p os), rsum (map (fun w => w * w) (counts a2 unf p os)), length os).
Proof.
  intros a2 skip unf p Hs os. unfold chi4_sums. flatR. rewrite py_range_spec by exact Hs. fold os. cbn [bind].
  assert (forall i0, In i0 os -> (i0 + snd p < length unf)%nat) as Ho.
  { intros i0 Hi. unfold os, origins in Hi. apply filter_In in Hi. destruct Hi as [Hi _]. apply in_seq in Hi. lia. }
  change (filter (fun i => (fst p <=? i)%nat && ((i - fst p) mod skip =? 0)%nat) (seq 0 (length unf - snd p - skip))) with os.
  rewrite (foldM_pure _ _ _ (fun st i0 =>
    (fst (fst st) + INR (slow a2 (nth i0 unf []) (nth (i0 + snd p) unf [])),
     snd (fst st) + INR (slow a2 (nth i0 unf []) (nth (i0 + snd p) unf [])) * INR (slow a2 (nth i0 unf []) (nth (i0 + snd p) unf [])),
     S (snd st)))).
  - rewrite (fold_sums (fun i0 => INR (slow a2 (nth i0 unf []) (nth (i0 + snd p) unf [])))).
    cbn [Nat.add]. rewrite !Rplus_0_l. unfold counts. rewrite map_map. reflexivity.
  - intros st i0 Hi. specialize (Ho i0 Hi).
    rewrite (get_Ok _ unf i0 []), (get_Ok _ unf (i0 + snd p) []) by lia. cbn [bind].
    rewrite nofnat_R. unfold nsq. cbn [nmul nadd Rops]. rewrite self_count_slow. reflexivity.
Qed.

Lemma variance_nonneg : forall l, 0 <= variance l.
Proof.
  intros l. unfold variance. destruct l as [|a l]; [cbn; unfold Rdiv; lra|].
  apply Rle_mult_inv_pos; [|apply (INR_pos_length R (a :: l)); discriminate].
  apply rsum_nonneg. intros x Hx. apply in_map_iff in Hx. destruct Hx as [y [<- _]]. apply Rle_0_sqr.
Qed.

Lemma variance_const : forall l c, (forall x, In x l -> x = c) -> variance l = 0.
Proof.
  intros l c H. unfold variance. destruct l as [|a l]; [cbn; unfold Rdiv; lra|].
  assert (rmean (a :: l) = c) as -> by (apply rmean_const; [discriminate|exact H]).
  rewrite (rsum_ext _ _ (fun _ => 0)); [rewrite rsum_const; unfold Rdiv; ring|].
  intros x Hx. rewrite (H x Hx). ring.
Qed.

Lemma variance_moments : forall l, l <> [] ->
  rsum (map (fun w => w * w) l) / INR (length l) - (rsum l / INR (length l)) * (rsum l / INR (length l)) = variance l.
Proof. intros l H. unfold variance, rmean. symmetry. apply rsum_var. exact H. Qed.

Lemma chi4_point_spec : forall a2 (tr : traj Rops) skip (unf : list (list (list R))) N p,
  (1 <= skip)%nat -> length (t_steps tr) = length unf -> (forall x, In x unf -> length x = N) ->
  (fst p + snd p < length unf)%nat ->
  chi4_point Rops a2 tr skip unf p
  = Ok (IZR (lag_dt (t_steps tr) p) * t_dt tr,
        variance (counts a2 unf p (origins (fst p) skip (length unf - snd p - skip))) / INR N).
Proof.
  intros a2 tr skip unf N p Hs Hl HN Hp. unfold chi4_point. rewrite chi4_sums_spec by exact Hs. cbn [bind].
  rewrite (get_Ok _ (t_steps tr) (fst p + snd p) 0%Z), (get_Ok _ (t_steps tr) (fst p) 0%Z) by lia. cbn [bind].
  flatR. rewrite (get_Ok _ unf 0 []) by lia. cbn [bind fst snd].
  set (os := origins (fst p) skip (length unf - snd p - skip)).
  rewrite !nofnat_R. unfold nsq. cbn [nmul nadd nsub ndiv nofZ n0 Rops].
  rewrite (HN (nth 0 unf [])) by (apply nth_In; lia).
  f_equal. f_equal. f_equal.
  destruct (Nat.ltb_spec 0 (length os)) as [H|H].
  - rewrite <- variance_moments.
    + assert (length (counts a2 unf p os) = length os) as -> by apply map_length. reflexivity.
    + unfold counts. apply map_nonnil. destruct os; [cbn in H; lia|discriminate].
  - destruct os as [|o os']; [|cbn in H; lia]. unfold variance. cbn. unfold Rdiv. ring.
Qed.

(** Usable grid points stay inside the trajectory. *)
Lemma usable_range : forall steps offs p, usable steps offs p -> (fst p + snd p < length steps)%nat.
Proof. intros steps offs p H. unfold usable in H. tauto || (destruct H; lia). Qed.

Lemma mapM_ext_Ok : forall X Y (f : X -> res Y) (g : X -> Y) l,
  (forall x, In x l -> f x = Ok (g x)) -> mapM f l = Ok (map g l).
Proof. intros. apply mapM_pure. assumption. Qed.

Lemma chi4_compute_spec : forall (tr : traj Rops) grid n a (unf : list (list (list R))) N skip dg,
  unf <> [] -> length (t_steps tr) = length unf -> (forall x, In x unf -> length x = N) ->
  adjust_skip Rops (length (t_steps tr)) (t_npart tr) (t_bs tr) n = Ok skip ->
  setup_t_grid Rops (t_steps tr) (t_bs tr) (t_dt tr) grid (not_str_1 Rops n) = Ok dg ->
  chi4_compute Rops tr grid n a unf
  = Ok (map (fun p => (IZR (lag_dt (t_steps tr) p) * t_dt tr,
                       variance (counts (a * a) unf p (origins (fst p) skip (length unf - snd p - skip))) / INR N)) dg).
Proof.
  intros tr grid n a unf N skip dg Hne Hl HN E1 E2. unfold chi4_compute. rewrite E1. cbn [bind]. rewrite E2. cbn [bind].
  destruct (setup_t_grid_correct _ _ _ _ _ _ _ E2) as [reqs [_ [_ [Hu _]]]].
  assert (1 <= length (t_steps tr))%nat as Hn by (rewrite Hl; destruct unf; [congruence|cbn; lia]).
  pose proof (adjust_skip_range _ _ _ _ _ _ Hn E1) as Hs.
  apply mapM_pure. intros p Hp. apply chi4_point_spec; try assumption; [lia|].
  destruct (Hu p Hp) as [U _]. apply usable_range in U. lia.
Qed.

Lemma counts_self : forall a (unf : list (list (list R))) N off os,
  a <> 0 -> (forall x, In x unf -> length x = N) -> (forall i0, In i0 os -> (i0 < length unf)%nat) ->
  variance (counts (a * a) unf (off, 0%nat) os) = 0.
Proof.
  intros a unf N off os Ha HN Ho. apply variance_const with (c := INR N). intros x Hx.
  unfold counts in Hx. apply in_map_iff in Hx. destruct Hx as [i0 [<- Hi]]. cbn [snd]. rewrite Nat.add_0_r.
  rewrite slow_refl by nra. f_equal. apply HN, nth_In, Ho, Hi.
Qed.

(** Optimized version. *)
Lemma chi4_opt_agree : forall A (tr : traj A) grid n a unf r,
  chi4_opt_compute A tr grid n a unf = Ok r -> chi4_compute A tr grid n a unf = Ok r.
Proof.
  intros A tr grid n a unf r H. unfold chi4_opt_compute in H. unfold chi4_compute.
  apply bind_Ok_inv in H. destruct H as [skip [-> H]]. cbn [bind].
  apply bind_Ok_inv in H. destruct H as [dg [-> H]]. cbn [bind].
  revert r H. induction dg as [|p dg IH]; intros r H; [exact H|]. cbn [mapM] in *.
  apply bind_Ok_inv in H. destruct H as [y [E1 H]]. apply bind_Ok_inv in H. destruct H as [ys [E2 H]].
  rewrite (IH _ E2). cbn [bind]. unfold chi4_opt_point in E1. unfold chi4_point.
  apply bind_Ok_inv in E1. destruct E1 as [s [Es E1]]. rewrite Es. cbn [bind].
  apply bind_Ok_inv in E1. destruct E1 as [ta [Ea E1]]. rewrite Ea. cbn [bind].
  apply bind_Ok_inv in E1. destruct E1 as [tb [Eb E1]]. rewrite Eb. cbn [bind].
  destruct (Nat.eqb_spec (snd s) 0) as [E0|E0]; [discriminate|].
  apply bind_Ok_inv in E1. destruct E1 as [x0 [E3 E1]]. rewrite E3. cbn [bind].
  apply Ok_inj in E1. destruct (Nat.ltb_spec 0 (snd s)) as [_|C]; [|lia]. rewrite <- E1 in H. cbv zeta in *. exact H.
Qed.

Lemma chi4_opt_total : forall (tr : traj Rops) grid n a (unf : list (list (list R))) skip dg,
  unf <> [] -> length (t_steps tr) = length unf ->
  adjust_skip Rops (length (t_steps tr)) (t_npart tr) (t_bs tr) n = Ok skip ->
  setup_t_grid Rops (t_steps tr) (t_bs tr) (t_dt tr) grid (not_str_1 Rops n) = Ok dg ->
  (forall p, In p dg -> fst p + snd p + skip < length unf)%nat ->
  exists r, chi4_opt_compute Rops tr grid n a unf = Ok r.
Proof.
  intros tr grid n a unf skip dg Hne Hl E1 E2 Hp. unfold chi4_opt_compute. rewrite E1. cbn [bind]. rewrite E2. cbn [bind].
  assert (1 <= length (t_steps tr))%nat as Hn by (rewrite Hl; destruct unf; [congruence|cbn; lia]).
  pose proof (adjust_skip_range _ _ _ _ _ _ Hn E1) as Hs.
  clear E2. induction dg as [|p dg IH]; [eexists; reflexivity|].
  destruct IH as [r Er]; [intros; apply Hp; right; assumption|]. cbn [mapM]. rewrite Er.
  assert (fst p + snd p + skip < length unf)%nat as Hpp by (apply Hp; left; reflexivity).
  unfold chi4_opt_point. rewrite chi4_sums_spec by lia. cbn [bind].
  rewrite (get_Ok _ (t_steps tr) (fst p + snd p) 0%Z), (get_Ok _ (t_steps tr) (fst p) 0%Z) by lia. cbn [bind].
  flatR. rewrite (get_Ok _ unf 0 []) by lia. cbn [bind snd].
  match goal with |- context [length (origins ?a ?b ?c)] => assert (In (fst p) (origins a b c)) as Hin end.
  { unfold origins. apply filter_In. split; [apply in_seq; lia|]. rewrite Nat.leb_refl, Nat.sub_diag, Nat.mod_0_l by lia. reflexivity. }
  destruct (origins (fst p) skip (length unf - snd p - skip)) as [|o os]; [destruct Hin|]. cbn [length Nat.eqb bind]. eexists. reflexivity.
Qed.

Lemma chi4_opt_fails : forall (tr : traj Rops) grid n a (unf : list (list (list R))) skip dg p,
  unf <> [] -> length (t_steps tr) = length unf ->
  adjust_skip Rops (length (t_steps tr)) (t_npart tr) (t_bs tr) n = Ok skip ->
  setup_t_grid Rops (t_steps tr) (t_bs tr) (t_dt tr) grid (not_str_1 Rops n) = Ok dg ->
  In p dg -> (length unf <= fst p + snd p + skip)%nat ->
  chi4_opt_compute Rops tr grid n a unf = Err ZeroDivisionError.
Proof.
  intros tr grid n a unf skip dg p Hne Hl E1 E2 Hin Hp. unfold chi4_opt_compute. rewrite E1. cbn [bind]. rewrite E2. cbn [bind].
  assert (1 <= length (t_steps tr))%nat as Hn by (rewrite Hl; destruct unf; [congruence|cbn; lia]).
  pose proof (adjust_skip_range _ _ _ _ _ _ Hn E1) as Hs.
  destruct (setup_t_grid_correct _ _ _ _ _ _ _ E2) as [reqs [_ [_ [Hu _]]]]. clear E2.
  assert (forall q, In q dg -> fst q + snd q < length unf)%nat as Hq.
  { intros q H. destruct (Hu q H) as [U _]. apply usable_range in U. lia. }
  clear Hu. induction dg as [|q dg IH]; [destruct Hin|]. cbn [mapM].
  assert (forall q, (fst q + snd q < length unf)%nat ->
     (exists y, chi4_opt_point Rops (nsq Rops a) tr skip unf q = Ok y) \/
     chi4_opt_point Rops (nsq Rops a) tr skip unf q = Err ZeroDivisionError) as D.
  { intros r Hr. unfold chi4_opt_point. rewrite chi4_sums_spec by lia. cbn [bind snd].
    rewrite (get_Ok _ (t_steps tr) (fst r + snd r) 0%Z), (get_Ok _ (t_steps tr) (fst r) 0%Z) by lia. cbn [bind].
    destruct (_ =? 0)%nat; [right; reflexivity|]. flatR. rewrite (get_Ok _ unf 0 []) by lia. left. eexists. reflexivity. }
  destruct Hin as [->|Hin].
  - unfold chi4_opt_point. rewrite chi4_sums_spec by lia. cbn [bind snd].
    pose proof (Hq p (or_introl eq_refl)).
    rewrite (get_Ok _ (t_steps tr) (fst p + snd p) 0%Z), (get_Ok _ (t_steps tr) (fst p) 0%Z) by lia. cbn [bind].
    assert (origins (fst p) skip (length unf - snd p - skip) = []) as ->.
    { apply filter_none. intros i Hi. apply in_seq in Hi. destruct (Nat.leb_spec (fst p) i); [lia|reflexivity]. }
    reflexivity.
  - destruct (D q (Hq q (or_introl eq_refl))) as [[y ->]| ->]; [|reflexivity]. cbn [bind].
    rewrite IH; [reflexivity|assumption|]. intros; apply Hq; right; assumption.
Qed.

(** Velocity and stress autocorrelations. *)
Lemma vacf_none : forall A (tr : traj A) n vel, exists e, vacf_compute A tr None n vel = Err e.
Proof. intros. unfold vacf_compute. destruct (adjust_skip _ _ _ _ _); cbn; eauto. Qed.

Lemma vacf_ignores : forall A (tr : traj A) g n n' vel s s',
  adjust_skip A (length (t_steps tr)) (t_npart tr) (t_bs tr) n = Ok s ->
  adjust_skip A (length (t_steps tr)) (t_npart tr) (t_bs tr) n' = Ok s' ->
  not_str_1 A n = not_str_1 A n' ->
  vacf_compute A tr g n vel = vacf_compute A tr g n' vel.
Proof. intros A tr g n n' vel s s' E E' H. unfold vacf_compute. rewrite E, E'. cbn [bind]. rewrite H. reflexivity. Qed.
Lemma sacf_ignores : forall A (tr : traj A) g n n' vol m w vel s s',
  adjust_skip A (length (t_steps tr)) (t_npart tr) (t_bs tr) n = Ok s ->
  adjust_skip A (length (t_steps tr)) (t_npart tr) (t_bs tr) n' = Ok s' ->
  not_str_1 A n = not_str_1 A n' ->
  sacf_compute A tr g n vol m w vel = sacf_compute A tr g n' vol m w vel.
Proof. intros A tr g n n' vol m w vel s s' E E' H. unfold sacf_compute. rewrite E, E'. cbn [bind]. rewrite H. reflexivity. Qed.

Lemma vacf_f_R : forall x y : list (list R), length x = length y ->
  vacf_f Rops x y = rmean (map (fun p => dotv (fst p) (snd p)) (combine x y)).
Proof.
  intros x y Hl. unfold vacf_f, rmean. rewrite nsum_R, nofnat_R, map_length, combine_length, <- Hl, Nat.min_id.
  cbn [ndiv Rops]. f_equal. clear Hl. flatR. induction (combine x y) as [|p l IH]; [reflexivity|].
  cbn [flat_map map rsum]. rewrite rsum_app. f_equal; [|exact IH].
  destruct p as [r s]. cbn [fst snd]. clear. revert s.
  induction r as [|u r IH]; intros [|b s]; try reflexivity.
  specialize (IH s). cbn in *. apply (f_equal (Rplus (u * b))) in IH. exact IH.
Qed.

Lemma vacf_spec : forall (tr : traj Rops) tgrid n (vel : list (list (list R))) N g v,
  length (t_steps tr) = length vel -> (forall x, In x vel -> length x = N) ->
  vacf_compute Rops tr (Some tgrid) n vel = Ok (g, v) ->
  exists dts dg, g = map (fun ti => IZR ti * t_dt tr) dts /\
    setup_t_grid Rops (t_steps tr) (t_bs tr) (t_dt tr) tgrid (not_str_1 Rops n) = Ok dg /\
    grouped_mean (A := Rops) (fun x y => rmean (map (fun p => dotv (fst p) (snd p)) (combine x y)))
      (t_steps tr) vel [] (admitted dg (t_bs tr) (length vel)) dts v.
Proof.
  intros tr tgrid n vel N g v Hl HN H. unfold vacf_compute in H.
  apply bind_Ok_inv in H. destruct H as [s [_ H]]. apply bind_Ok_inv in H. destruct H as [dg [E H]].
  destruct (offset_compute_spec _ _ _ _ _ _ _ [] _ _ Hl H) as [dts [Hg G]].
  exists dts, dg. split; [exact Hg|]. split; [exact E|].
  eapply grouped_mean_ext; [|exact G]. intros p Hp. apply admitted_range in Hp. flatR.
  apply vacf_f_R. rewrite !HN; [reflexivity| |]; apply nth_In; lia.
Qed.

(** Every correlation of this family terminates normally over the reals. *)
Lemma grid_compute_total : forall X (f : X -> X -> R) (tr : traj Rops) grid n (x : list X) s,
  x <> [] -> length (t_steps tr) = length x -> (1 <= t_bs tr)%nat -> t_dt tr <> 0 ->
  adjust_skip Rops (length (t_steps tr)) (t_npart tr) (t_bs tr) n = Ok s ->
  exists r, grid_compute Rops f tr grid n x = Ok r.
Proof.
  intros X f tr grid n x s Hx Hl Hb Hd E. unfold grid_compute. rewrite E. cbn [bind].
  assert (exists reqs, mapM (to_step Rops (t_dt tr)) grid = Ok reqs) as [reqs Hq].
  { clear -Hd. induction grid as [|t g [r IH]]; [eexists; reflexivity|]. cbn [mapM].
    destruct (to_step_R (t_dt tr) t Hd) as [z [-> _]]. cbn [bind]. rewrite IH. eexists. reflexivity. }
  assert (1 <= length (t_steps tr))%nat as Hn by (rewrite Hl; destruct x; [congruence|cbn; lia]).
  destruct (setup_t_grid_total (t_steps tr) Rops (t_dt tr) (t_bs tr) grid (not_str_1 Rops n) reqs) as [dg Hdg];
    [intros C; rewrite C in Hn; cbn in Hn; lia|assumption|assumption|].
  rewrite Hdg. cbn [bind]. unfold offset_compute.
  destruct x as [|x0 x']; [congruence|].
  pose proof (adjust_skip_range _ _ _ _ _ _ Hn E) as Hs.
  destruct (gcf_offset_correct Rops X f (t_steps tr) (x0 :: x') x0 Hl dg s) as [dt [v [-> _]]]; [lia|].
  eexists. reflexivity.
Qed.
