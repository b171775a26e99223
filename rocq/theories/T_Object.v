(** Theorems about the life of a correlation object: filters (C51), repeated
    compute() (C53), center of mass of cross correlations (C64). *)
From Coq Require Import Ascii String List ZArith Bool Arith Lia Reals Lra.
From Verif Require Import PyBase PyBaseFacts Num NumFacts M_Helpers M_Correlation M_Dynamics M_Realspace M_Groups.
From Verif Require Import M_KGrid M_Fourier M_Arrays Spec_Stats Spec_Correlation Spec_Fourier P_Time P_Sk P_Sk2 P_Sk3 P_Arrays P_Skip.
Import ListNotations.
Local Open Scope nat_scope.

(** ** C51 *)

(** The calls of add_filter one after the other. *)
Definition add_filters {P} (nbodies : nat) (fs : list (callback P)) : res (list (callback P)) :=
  foldM (add_filter nbodies) [] fs.

Lemma add_filters_from : forall P nb (fs cbk : list (callback P)),
  foldM (add_filter nb) cbk fs =
  if (length cbk + length fs <=? nb + 1) || (length fs =? 0) then Ok (cbk ++ fs) else Err ValueError.
Proof.
  intros P nb. induction fs as [|f fs IH]; intros cbk; cbn [foldM length].
  - rewrite app_nil_r, orb_true_r. reflexivity.
  - unfold add_filter at 1. change (S (length fs) =? 0) with false. rewrite orb_false_r.
    destruct (Nat.ltb_spec nb (length cbk)); cbn [bind].
    + destruct (Nat.leb_spec (length cbk + S (length fs)) (nb + 1)); [lia|reflexivity].
    + rewrite IH, app_length, <- app_assoc. cbn [length app].
      destruct (Nat.leb_spec (length cbk + 1 + length fs) (nb + 1));
        destruct (Nat.leb_spec (length cbk + S (length fs)) (nb + 1)); try lia; cbn [orb]; try reflexivity.
      destruct (Nat.eqb_spec (length fs) 0); [lia|reflexivity].
Qed.

(** Exactly the sequences of at most nbodies + 1 filters are accepted ... *)
Theorem C51_number_of_filters_partial : forall P nbodies (fs : list (callback P)),
  (length fs <= nbodies + 1 -> add_filters nbodies fs = Ok fs) /\
  (nbodies + 1 < length fs -> add_filters nbodies fs = Err ValueError).
Proof.
  intros P nb fs. unfold add_filters. rewrite add_filters_from. cbn [length app Nat.add].
  split; intros H; [rewrite (proj2 (Nat.leb_le _ _) H); reflexivity|].
  destruct (Nat.leb_spec (length fs) (nb + 1)); [lia|].
  destruct (Nat.eqb_spec (length fs) 0); [lia|reflexivity].
Qed.
Print Assumptions C51_number_of_filters_partial.

(** ... so one filter more than bodies is accepted and has no effect on the groups
    of particles, whatever it is. *)
Theorem C51_number_of_filters_refuted :
  (forall P (f g : callback P), add_filters 1 [f; g] = Ok [f; g] /\
     forall ps, one_body [f; g] ps = one_body [f] ps) /\
  (forall P (f g h : callback P), add_filters 2 [f; g; h] = Ok [f; g; h] /\
     forall ps, two_body [f; g; h] ps = two_body [f; g] ps).
Proof. split; intros; split; reflexivity. Qed.
Print Assumptions C51_number_of_filters_refuted.

(** The first nbodies filters are the ones used. *)
Theorem C51_filters_used_partial :
  (forall P (f : callback P) r ps, one_body (f :: r) ps = f ps) /\
  (forall P (f g : callback P) r ps, two_body (f :: g :: r) ps = (false, (f ps, g ps))) /\
  (forall P (f : callback P) ps, two_body [f] ps = (true, (f ps, f ps))).
Proof. repeat split. Qed.
Print Assumptions C51_filters_used_partial.

Example C51_nonvacuous :
  let odd := List.filter Nat.odd in let big := List.filter (Nat.leb 3) in let none := fun _ : list nat => [] in
  add_filters 1 [odd; none] = Ok [odd; none] /\ one_body [odd; none] [1; 2; 3] = [1; 3] /\
  add_filters 1 [odd; none; big] = Err ValueError /\
  two_body [odd; big; none] [1; 2; 3; 4] = (false, ([1; 3], [3; 4])).
Proof. repeat split. Qed.

(** ** C53 *)

(** Time correlations: after a compute() that gave a non-empty grid, every further
    compute() of the same object raises, for every arithmetic and trajectory. *)
Lemma msd_second : forall (A : arith) (D : decor A) tr rmax tsamples n no_offset fix_cm cbk frames o1 r,
  (forall b fr, length (d_unfold D b fr) = length fr) -> length frames = length (t_steps tr) -> frames <> [] ->
  msd_call A D tr rmax tsamples n no_offset fix_cm cbk frames (arrays0, None) = Ok (o1, r) -> fst r <> [] ->
  exists e, msd_call A D tr rmax tsamples n no_offset fix_cm cbk frames o1 = Err e.
Proof.
  intros A D tr rmax tsamples n no_offset fix_cm cbk frames o1 r HD L Hne H Hg.
  unfold msd_call in H. cbn [fst snd] in H.
  apply bind_Ok_inv in H. destruct H as [a [Ea H]]. apply bind_Ok_inv in H. destruct H as [r' [Er H]].
  apply Ok_inj in H. apply pair_equal_spec in H. destruct H as [<- ->].
  destruct (setup_onebody_app _ _ _ _ _ _ _ _ Ea) as [d [Ed [E0 Eo]]].
  rewrite arr_app_0 in E0. subst a. unfold msd_call. cbn [fst snd]. rewrite Eo. cbn [bind].
  destruct (setup_onebody_lengths _ _ _ _ _ _ _ HD Ed) as [Lu _]. specialize (Lu eq_refl).
  unfold msd_compute in *. apply bind_Ok_inv in Er. destruct Er as [skip [Es _]]. rewrite Es. cbn [bind].
  unfold msd_grid at 1. cbn [bind].
  destruct (setup_t_grid A (t_steps tr) (t_bs tr) (t_dt tr) (fst r) (not_str_1 A n && negb no_offset)) as [dg|e] eqn:Eg;
    cbn [bind]; [|exists e; reflexivity].
  exists IndexError. cbn [arr_app a_unf].
  rewrite (offset_compute_twice A (frame A)); [reflexivity| | | |].
  - etransitivity; [exact Lu|exact L].
  - eapply adjust_skip_range; [|exact Es]. rewrite <- L. destruct frames; [congruence|cbn; lia].
  - eapply setup_t_grid_nonempty; eassumption.
  - intros p Hp. eapply setup_t_grid_inside; eassumption.
Qed.

Theorem C53_msd_repeat_refuted :
  (forall (A : arith) (D : decor A) tr rmax tsamples n no_offset fix_cm cbk frames o1 r,
     (forall b fr, length (d_unfold D b fr) = length fr) -> length frames = length (t_steps tr) -> frames <> [] ->
     msd_call A D tr rmax tsamples n no_offset fix_cm cbk frames (arrays0, None) = Ok (o1, r) -> fst r <> [] ->
     exists e, msd_call A D tr rmax tsamples n no_offset fix_cm cbk frames o1 = Err e).
Proof. exact msd_second. Qed.
Print Assumptions C53_msd_repeat_refuted.

(** The same for the classes whose grid is fixed at construction (overlaps,
    non-Gaussian parameter), whatever the function correlated. *)
Theorem C53_grid_repeat_refuted :
  forall (A : arith) (f : list (list (num A)) -> list (list (num A)) -> num A) (unfolded : bool) (D : decor A)
         tr ts n dg skip off fix_cm cbk frames a1 r,
  let ps := if unfolded then mkPS false true false false else mkPS true false false false in
  let get := if unfolded then a_unf else a_pos in
  (forall b fr, length (d_unfold D b fr) = length fr) -> length frames = length (t_steps tr) -> frames <> [] ->
  adjust_skip A (length (t_steps tr)) (t_npart tr) (t_bs tr) n = Ok skip ->
  setup_t_grid A (t_steps tr) (t_bs tr) (t_dt tr) ts off = Ok dg -> ts <> [] ->
  grid_call A f ps get D tr dg skip fix_cm cbk frames arrays0 = Ok (a1, r) ->
  grid_call A f ps get D tr dg skip fix_cm cbk frames a1 = Err IndexError.
Proof.
  intros A f unfolded D tr ts n dg skip off fix_cm cbk frames a1 r ps get HD L Hne Es Eg Ht H.
  unfold grid_call in *.
  apply bind_Ok_inv in H. destruct H as [a [Ea H]]. apply bind_Ok_inv in H. destruct H as [r' [Er H]].
  apply Ok_inj in H. apply pair_equal_spec in H. destruct H as [<- ->].
  destruct (setup_onebody_app _ _ _ _ _ _ _ _ Ea) as [d [Ed [E0 Eo]]].
  rewrite arr_app_0 in E0. subst a. rewrite Eo. cbn [bind].
  destruct (setup_onebody_lengths _ _ _ _ _ _ _ HD Ed) as [Lu [Lp _]].
  assert (Lg : length (get d) = length frames) by (subst get ps; destruct unfolded; auto).
  replace (get (arr_app A d d)) with (get d ++ get d) by (subst get; destruct unfolded; reflexivity).
  rewrite offset_compute_twice; [reflexivity|congruence| | |].
  - eapply adjust_skip_range; [|exact Es]. rewrite <- L. destruct frames; [congruence|cbn; lia].
  - eapply setup_t_grid_nonempty; eassumption.
  - intros p Hp. eapply setup_t_grid_inside; eassumption.
Qed.
Print Assumptions C53_grid_repeat_refuted.

(** Three frames of one particle moving by one; the first call gives 0, 1, 4, the
    second raises. *)
Definition ex_part (x : Z) : part F64ops :=
  mkPart (A:=F64ops) "A"%string (f64_ofZ 1) [f64_ofZ x] [f64_ofZ 0] None.
Definition ex_decor : decor F64ops := mkDecor (A:=F64ops) (fun _ fr => fr) (fun s => s).
Definition ex_traj : traj F64ops := mkTraj (A:=F64ops) [0; 1; 2]%Z 1 (f64_ofZ 1) (f64_ofZ 2) 1.
Definition ex_frames : list (system F64ops) := map (fun x => [ex_part x]) [0; 1; 2]%Z.
Definition ex_msd (o : msd_object F64ops) :=
  msd_call F64ops ex_decor ex_traj (f64_ofZ (-1)) 3 NoNone false false [] ex_frames o.
Example C53_nonvacuous :
  (x <- ex_msd (arrays0, None) ;; Ok (fst (snd x), snd (snd x))) =
    Ok (map f64_ofZ [0; 1; 2]%Z, map f64_ofZ [0; 1; 4]%Z) /\
  (x <- ex_msd (arrays0, None) ;; y <- ex_msd (fst x) ;; Ok (length (fst (snd y)))) = Err IndexError.
Proof. split; vm_compute; reflexivity. Qed.

(** What remains: with a fixed cell, the structure factor of two copies of the frames
    (what a second compute() sees) is that of the frames when the interval between the
    frames used divides their number. *)
Lemma filter_map : forall X Y (p : Y -> bool) (f : X -> Y) l, filter p (map f l) = map f (filter (fun x => p (f x)) l).
Proof. intros. induction l as [|x r IH]; [reflexivity|]. cbn. destruct (p (f x)); cbn; rewrite IH; reflexivity. Qed.

Lemma seq_from : forall n k, seq n k = map (Nat.add n) (seq 0 k).
Proof.
  intros n k. revert n. induction k as [|k IH]; intros n; [reflexivity|]. cbn [seq map].
  rewrite Nat.add_0_r. f_equal. rewrite IH, (IH 1), map_map. apply map_ext. intros; lia.
Qed.

Lemma origins_twice : forall skip m, 1 <= skip ->
  origins 0 skip (m * skip + m * skip) = origins 0 skip (m * skip) ++ map (Nat.add (m * skip)) (origins 0 skip (m * skip)).
Proof.
  intros skip m Hs. unfold origins. rewrite seq_app, filter_app. f_equal. cbn [Nat.add].
  rewrite (seq_from (m * skip)), filter_map. f_equal. apply filter_ext. intros i. cbn [Nat.leb andb].
  rewrite !Nat.sub_0_r, Nat.add_comm, Nat.mod_add by lia. reflexivity.
Qed.

Lemma rmean_twice : forall l, rmean (l ++ l) = rmean l.
Proof.
  intros l. unfold rmean. assert (E : (rsum (l ++ l) = 2 * rsum l)%R).
  { assert (G : forall a b, rsum (a ++ b) = (rsum a + rsum b)%R).
    { induction a as [|x r IH]; intros b; cbn; [lra|]. rewrite IH. lra. }
    rewrite G. lra. }
  rewrite E, app_length, plus_INR. destruct l as [|x r]; [cbn; unfold Rdiv; lra|].
  assert (0 < INR (length (x :: r)))%R by (apply lt_0_INR; cbn; lia). field. lra.
Qed.

Lemma shell_mean_twice : forall s s' skip m vs, 1 <= skip ->
  (forall v i, i < m * skip -> s' v i = s v i /\ s' v (m * skip + i) = s v i) ->
  shell_mean s' skip (m * skip + m * skip) vs = shell_mean s skip (m * skip) vs.
Proof.
  intros s s' skip m vs Hs H. unfold shell_mean. rewrite origins_twice, flat_map_app by assumption.
  etransitivity; [|apply rmean_twice]. f_equal. f_equal.
  - apply flat_map_ext_in. intros i Hi. apply map_ext. intros v. apply H. eapply origins_lt; eassumption.
  - rewrite flat_map_concat_map, map_map, <- flat_map_concat_map. apply flat_map_ext_in. intros i Hi.
    apply map_ext. intros v. apply H. eapply origins_lt; eassumption.
Qed.

Theorem C53_structure_factor_partial : forall same K skip (a b : list (list (list R))) m,
  usable K -> 1 <= skip -> a <> [] -> length a = length b ->
  group_ok (length (ks_k0 K)) a -> group_ok (length (ks_k0 K)) b -> (same = true -> b = a) ->
  (same = true \/ length (ks_k0 K) = 2 \/ length (ks_k0 K) = 3) ->
  length a = m * skip ->
  structure_factor same false (fun _ => K) skip (pair_frames (a ++ a) (b ++ b)) =
  structure_factor same false (fun _ => K) skip (pair_frames a b).
Proof.
  intros same K skip a b m U Hs Ha L Ga Gb Hsame Hd Hm.
  assert (T : forall g, group_ok (length (ks_k0 K)) g -> group_ok (length (ks_k0 K)) (g ++ g)).
  { intros g G f Hf. apply G. apply in_app_iff in Hf. tauto. }
  assert (M : forall g, mean_N (g ++ g) = mean_N g).
  { intros g. unfold mean_N. rewrite map_app. apply rmean_twice. }
  rewrite !pairs_value; try assumption; try (apply T; assumption).
  - rewrite !M, app_length, Hm. f_equal. apply map_ext. intros vs. cbv zeta.
    match goal with |- (?x / _, _)%R = (?y / _, _)%R => replace x with y; [reflexivity|] end.
    symmetry. apply shell_mean_twice; [assumption|]. intros v i Hi. split.
    + rewrite !app_nth1 by lia. reflexivity.
    + rewrite !app_nth2 by lia. f_equal; f_equal; lia.
  - destruct a; [congruence|discriminate].
  - rewrite !app_length. congruence.
  - intros E. rewrite (Hsame E). reflexivity.
Qed.
Print Assumptions C53_structure_factor_partial.

(** ** C64 *)

(** With two filters the request to fix the center of mass changes nothing. *)
Theorem C64_fix_cm_refuted :
  (forall (A : arith) (D : decor A) ps f0 f1 cbk frames old old0 old1,
     setup_twobody A D ps true (f0 :: f1 :: cbk) frames old old0 old1 =
     setup_twobody A D ps false (f0 :: f1 :: cbk) frames old old0 old1) /\
  (exists (D : decor F64ops) f0 f1 frames,
     (r <- setup_twobody F64ops D (mkPS true false false false) true [f0; f1] frames arrays0 arrays0 arrays0 ;; Ok (a_pos (fst r))) =
       Ok [[[f64_ofZ 1]]; [[f64_ofZ 2]]] /\
     (r <- setup_twobody F64ops D (mkPS true false false false) true [f0] frames arrays0 arrays0 arrays0 ;; Ok (a_pos (fst r))) =
       Ok [[[f64_ofZ 1]]; [[f64_ofZ 1]]]).
Proof.
  split; [reflexivity|].
  pose (fr := fun x y => [ex_part x; mkPart (A:=F64ops) "B"%string (f64_ofZ 1) [f64_ofZ y] [f64_ofZ 0] None]).
  exists (mkDecor (A:=F64ops) (fun b l => if b then [fr 1 0; fr 1 0]%Z else l) (fun s => s)),
         (List.filter (fun p => String.eqb (p_species p) "A")), (List.filter (fun p => String.eqb (p_species p) "B")),
         [fr 1 0; fr 2 1]%Z.
  split; vm_compute; reflexivity.
Qed.
Print Assumptions C64_fix_cm_refuted.

(** With at most one filter the positions are those of the unfolded trajectory with
    its center of mass fixed, folded back into the cell and then filtered. *)
Theorem C64_fix_cm_partial : forall (A : arith) (D : decor A) cbk frames r,
  length cbk <= 1 ->
  setup_twobody A D (mkPS true false false false) true cbk frames arrays0 arrays0 arrays0 = Ok r ->
  a_pos (fst r) = map (fun s => map p_pos (one_body cbk (d_fold D s))) (d_unfold D true frames) /\
  a_pos (snd r) = a_pos (fst r).
Proof.
  intros A D cbk frames r Hc H.
  assert (H' : (a <- setup_onebody A D (mkPS true false false false) true cbk frames arrays0 ;;
    Ok (mkArr (a_pos a) (a_vel a) (a_ids a) (a_unf (arrays0 (A:=A))), mkArr (a_pos a) (a_vel a) (a_ids a) (a_unf (arrays0 (A:=A))))) = Ok r)
    by (destruct cbk as [|f [|g r']]; [exact H|exact H|cbn in Hc; lia]).
  clear H. apply bind_Ok_inv in H'. destruct H' as [a [Ea H]]. apply Ok_inj in H. subst r. cbn [fst snd a_pos].
  split; [|reflexivity].
  unfold setup_onebody in Ea. apply bind_Ok_inv in Ea. destruct Ea as [th [Et Ea]].
  apply bind_Ok_inv in Ea. destruct Ea as [f [Ef Ea]]. apply bind_Ok_inv in Ea. destruct Ea as [u [Eu Ea]].
  apply Ok_inj in Ea. subst a. unfold source in Et. cbn [w_unf w_pos bind andb orb] in Et. apply Ok_inj in Et. subst th.
  unfold dump_first in Ef. cbn [w_pos w_vel w_ids orb when] in Ef.
  apply bind_Ok_inv in Ef. destruct Ef as [s0 [_ Ef]]. cbn [bind] in Ef. apply Ok_inj in Ef. subst f.
  cbn [arr_app arrays0 a_pos fst snd app]. rewrite map_map. reflexivity.
Qed.
Print Assumptions C64_fix_cm_partial.

(** With two filters the unfolded positions of both groups are those of the trajectory
    whose center of mass is not fixed, filtered. *)
Theorem C64_two_filters_refuted : forall (A : arith) (D : decor A) w fix_cm f0 f1 cbk frames r,
  setup_twobody A D (mkPS false true w false) fix_cm (f0 :: f1 :: cbk) frames arrays0 arrays0 arrays0 = Ok r ->
  a_unf (fst r) = map (fun s => map p_pos (f0 s)) (d_unfold D false frames) /\
  a_unf (snd r) = map (fun s => map p_pos (f1 s)) (d_unfold D false frames).
Proof.
  intros A D w fix_cm f0 f1 cbk frames r H. cbn [setup_twobody] in H.
  apply bind_Ok_inv in H. destruct H as [a [_ H]]. apply bind_Ok_inv in H. destruct H as [b [_ H]]. apply Ok_inj in H. subst r.
  split; reflexivity.
Qed.
Print Assumptions C64_two_filters_refuted.

Example C64_two_filters_nonvacuous :
  (r <- setup_twobody F64ops (mkDecor (A:=F64ops) (fun b l => if b then [] else l) (fun s => s)) (mkPS false true false false) true
     [List.filter (fun p => String.eqb (p_species p) "A"); List.filter (fun p => String.eqb (p_species p) "B")]
     [[ex_part 1; mkPart (A:=F64ops) "B"%string (f64_ofZ 1) [f64_ofZ 5] [f64_ofZ 0] None]] arrays0 arrays0 arrays0 ;;
   Ok (a_unf (fst r), a_unf (snd r))) = Ok ([[[f64_ofZ 1]]], [[[f64_ofZ 5]]]).
Proof. vm_compute. reflexivity. Qed.
