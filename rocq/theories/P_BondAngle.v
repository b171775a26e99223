(** Bond angles. *)
From Coq Require Import List ZArith Bool Arith Lia Reals Lra Psatz Permutation.
From Verif Require Import PyBase PyBaseFacts Num NumFacts Spec_Stats M_Helpers M_Dynamics M_Realspace M_BondAngle
  Spec_Correlation Spec_Dynamics Spec_Pairs Spec_BondAngle P_Helpers P_Dynamics P_Pairs P_Count P_GrFast P_Gr3.
Import ListNotations.
Local Open Scope R_scope.

Definition acosdeg (c : R) : R := acos c * 180 / PI.

(** Vectors *)
Lemma wrap_min : forall r L, 0 < L -> wrap Rops r L = min_coord r L.
Proof.
  intros r L HL. unfold wrap, fsign, min_coord. cbn [nlt ndiv nofZ nabs nsub nopp n0 Rops].
  rewrite (Rabs_right L) by lra.
  destruct (Rlt_dec (L / 2) r).
  - destruct (Rltb_spec (L / 2) (Rabs r)) as [H|H]; [|rewrite Rabs_right in H by lra; lra].
    destruct (Rltb_spec r 0); lra.
  - destruct (Rlt_dec r (- (L / 2))).
    + destruct (Rltb_spec (L / 2) (Rabs r)) as [H|H]; [|rewrite Rabs_left in H by lra; lra].
      destruct (Rltb_spec r 0); lra.
    + destruct (Rltb_spec (L / 2) (Rabs r)) as [H|H]; [|reflexivity].
      exfalso. unfold Rabs in H. destruct (Rcase_abs r); lra.
Qed.

Lemma wrapv_min : forall c x side, (forall L, In L side -> 0 < L) -> wrapv Rops c x side = min_vec c x side.
Proof.
  induction c as [|a c IH]; intros [|b x] [|L side] Hp; try reflexivity.
  unfold wrapv, map2. cbn [combine map fst snd min_vec]. f_equal.
  - apply wrap_min. apply Hp. left. reflexivity.
  - apply IH. intros l Hl. apply Hp. right. exact Hl.
Qed.

Lemma vdot_dot : forall u v : list R, vdot Rops u v = dot u v.
Proof.
  intros u v. unfold vdot. rewrite nsum_R. revert v. induction u as [|a u IH]; intros [|b v]; try reflexivity.
  unfold map2. cbn [combine map rsum fst snd dot]. rewrite <- IH. reflexivity.
Qed.

Lemma vnorm_norm : forall u : list R, vnorm Rops u = norm u.
Proof.
  intros u. unfold vnorm, norm. cbn [nsqrt Rops]. f_equal. rewrite nsum_R.
  induction u as [|a u IH]; [reflexivity|]. cbn [map rsum dot]. rewrite IH. reflexivity.
Qed.

Lemma dot_self_nonneg : forall u, 0 <= dot u u.
Proof. induction u as [|a u IH]; cbn [dot]; [lra|]. pose proof (Rle_0_sqr a) as H. unfold Rsqr in H. lra. Qed.

Lemma cauchy_schwarz2 : forall u v, dot u v * dot u v <= dot u u * dot v v.
Proof.
  induction u as [|a u IH]; intros [|b v]; cbn [dot]; try lra.
  - specialize (IH v). pose proof (dot_self_nonneg u) as Hu. pose proof (dot_self_nonneg v) as Hv.
    set (A := dot u u) in *. set (B := dot v v) in *. set (D := dot u v) in *.
    assert (2 * (a * b * D) <= a * a * B + b * b * A) as H; [|nra].
    assert (0 <= a * a * B + b * b * A) as HP.
    { assert (0 <= a * a) by apply Rle_0_sqr. assert (0 <= b * b) by apply Rle_0_sqr. nra. }
    assert ((2 * (a * b * D)) * (2 * (a * b * D)) <= (a * a * B + b * b * A) * (a * a * B + b * b * A)) as HS.
    { assert (0 <= (a * a * B - b * b * A) * (a * a * B - b * b * A)) as H1 by apply Rle_0_sqr.
      assert (0 <= (a * b) * (a * b)) as H2 by apply Rle_0_sqr.
      assert ((a * b) * (a * b) * (D * D) <= (a * b) * (a * b) * (A * B)) as H3 by (apply Rmult_le_compat_l; assumption).
      nra. }
    apply Rsqr_incr_0_var; [exact HS|exact HP].
Qed.

Lemma cauchy_schwarz : forall u v, Rabs (dot u v) <= norm u * norm v.
Proof.
  intros u v. unfold norm. rewrite <- sqrt_mult by apply dot_self_nonneg.
  rewrite <- sqrt_Rsqr_abs. apply sqrt_le_1_alt. apply cauchy_schwarz2.
Qed.

Lemma norm_zero : forall u, norm u = 0 <-> dot u u = 0.
Proof.
  intros u. unfold norm. split; intros H; [apply sqrt_eq_0; [apply dot_self_nonneg|exact H]|rewrite H; apply sqrt_0].
Qed.

Lemma cos_bound : forall u v, dot u u <> 0 -> dot v v <> 0 -> -1 <= dot u v / (norm u * norm v) <= 1.
Proof.
  intros u v Hu Hv. assert (0 < norm u) as Nu.
  { pose proof (sqrt_pos (dot u u)) as H. fold (norm u) in H. rewrite <- norm_zero in Hu. lra. }
  assert (0 < norm v) as Nv.
  { pose proof (sqrt_pos (dot v v)) as H. fold (norm v) in H. rewrite <- norm_zero in Hv. lra. }
  assert (0 < norm u * norm v) as P by (apply Rmult_lt_0_compat; assumption).
  pose proof (cauchy_schwarz u v) as C. unfold Rabs in C.
  split; apply Rmult_le_reg_r with (norm u * norm v); try exact P; unfold Rdiv; rewrite Rmult_assoc, Rinv_l by lra;
    destruct (Rcase_abs (dot u v)); lra.
Qed.

Lemma angle_deg_spec : forall u v, dot u u <> 0 -> dot v v <> 0 -> is_angle u v (angle_deg u v).
Proof.
  intros u v Hu Hv. unfold is_angle, angle_deg. pose proof (cos_bound u v Hu Hv) as C.
  set (c := dot u v / (norm u * norm v)) in *. pose proof (acos_bound c) as [B1 B2]. pose proof PI_RGT_0 as HPI. split.
  - split; apply Rmult_le_reg_r with PI; try exact HPI; unfold Rdiv; rewrite ?Rmult_assoc, ?Rinv_l by lra; lra.
  - replace (acos c * 180 / PI * PI / 180) with (acos c) by (field; lra). rewrite cos_acos by exact C.
    unfold c. field. rewrite <- norm_zero in Hu, Hv. split; assumption.
Qed.

(** The angle of given vectors is unique. *)
Lemma is_angle_unique : forall u v s t, dot u u <> 0 -> dot v v <> 0 -> is_angle u v s -> is_angle u v t -> s = t.
Proof.
  intros u v s t Hu Hv [[S0 S1] S] [[T0 T1] T]. rewrite <- norm_zero in Hu, Hv. pose proof PI_RGT_0 as HPI.
  assert (cos (s * PI / 180) = cos (t * PI / 180)) as E.
  { apply Rmult_eq_reg_r with (norm u * norm v); [congruence|]. apply Rmult_integral_contrapositive_currified; assumption. }
  assert (acos (cos (s * PI / 180)) = s * PI / 180) as A1 by (apply acos_cos; nra).
  assert (acos (cos (t * PI / 180)) = t * PI / 180) as A2 by (apply acos_cos; nra).
  rewrite E, A2 in A1. apply Rmult_eq_reg_r with (PI / 180); [lra|]. intros C. nra.
Qed.

Lemma clamp_id : forall c : R, -1 <= c <= 1 -> clamp Rops c = c.
Proof.
  intros c Hc. unfold clamp. cbn [nle nlt n0 n1 nofZ Rops].
  destruct (Rleb_spec c 0) as [H|H].
  - destruct (Rltb_spec c (IZR (-1))) as [H1|H1]; [lra|]. destruct (Rltb_spec 0 c); [lra|reflexivity].
  - destruct (Rltb_spec 0 c); [|lra]. destruct (Rltb_spec 1 c); [lra|reflexivity].
Qed.

Lemma angle_R : forall u v : list R, angle Rops acosdeg u v =
  if Req_EM_T (dot u u) 0 then None else if Req_EM_T (dot v v) 0 then None else Some (angle_deg u v).
Proof.
  intros u v. unfold angle. rewrite !vnorm_norm, vdot_dot. cbn [neq nmul ndiv n0 Rops].
  change (num Rops) with R in *.
  destruct (Req_EM_T (dot u u) 0) as [Hu|Hu].
  - apply norm_zero in Hu. rewrite Hu, Rmult_0_l. destruct (Reqb_spec 0 0); [reflexivity|congruence].
  - destruct (Req_EM_T (dot v v) 0) as [Hv|Hv].
    + apply norm_zero in Hv. rewrite Hv, Rmult_0_r. destruct (Reqb_spec 0 0); [reflexivity|congruence].
    + destruct (Reqb_spec (norm u * norm v) 0) as [C|C].
      * apply Rmult_integral in C. rewrite !norm_zero in C. tauto.
      * rewrite clamp_id by (apply cos_bound; assumption). reflexivity.
Qed.

Lemma bind_intro : forall X Y (x : res X) (f : X -> res Y) a r, x = Ok a -> f a = r -> bind x f = r.
Proof. intros X Y x f a r -> <-. reflexivity. Qed.

(** Neighbours *)
Lemma foldM_filter : forall X (P : X -> bool) (step : list X -> X -> res (list X)) l acc,
  (forall a x, In x l -> step a x = Ok (if P x then a ++ [x] else a)) -> foldM step acc l = Ok (acc ++ filter P l).
Proof.
  intros X P step l. induction l as [|x l IH]; intros acc H; cbn [foldM filter].
  - rewrite app_nil_r. reflexivity.
  - rewrite H by (left; reflexivity). cbn [bind]. rewrite IH by (intros; apply H; right; assumption).
    destruct (P x); [rewrite <- app_assoc; reflexivity|reflexivity].
Qed.

Lemma ba_neighbors_R : forall (side c : list R) pos ids rcut, (forall L, In L side -> 0 < L) ->
  length ids = length pos -> (forall i, In i ids -> (i < length rcut)%nat) ->
  (length (neighbours side c pos ids rcut) <= 50)%nat ->
  ba_neighbors Rops side c pos ids rcut = Ok (neighbours side c pos ids rcut).
Proof.
  intros side c pos ids rcut Hs Hl Hi H50. unfold ba_neighbors. change (num Rops) with R in *.
  rewrite (foldM_filter nat (fun j => let u := min_vec c (nth j pos []) side in
                   Rltb (dot u u) (nth (nth j ids 0%nat) rcut 0 * nth (nth j ids 0%nat) rcut 0))).
  - cbn [bind app]. fold (neighbours side c pos ids rcut). unfold max_neighbors.
    destruct (Nat.leb_spec (length (neighbours side c pos ids rcut)) 50); [reflexivity|lia].
  - intros a j Hj. apply in_seq in Hj. rewrite (get_Ok _ pos j []) by lia. cbn [bind].
    rewrite (get_Ok _ ids j 0%nat) by lia. cbn [bind]. rewrite (get_Ok _ rcut _ 0) by (apply Hi, nth_In; lia). cbn [bind].
    cbn zeta. rewrite wrapv_min by exact Hs. rewrite vdot_dot. reflexivity.
Qed.

(** Histogram *)
Lemma angle_add_fold : forall dt vs h, 0 < dt -> (forall t, In t vs -> 0 <= t) ->
  exists h', foldM (angle_add Rops dt) h vs = Ok h' /\ length h' = length h /\
    forall k, (k < length h)%nat -> nth k h' 0%nat = (nth k h 0 + cnt (slot dt k) vs)%nat.
Proof.
  intros dt vs. induction vs as [|t vs IH]; intros h Hdt Ht.
  - exists h. split; [reflexivity|]. split; [reflexivity|]. intros. cbn. lia.
  - pose proof (Ht t (or_introl eq_refl)) as T0.
    assert (0 <= t / dt) as Q0 by (apply Rle_mult_inv_pos; lra).
    pose proof (Rfloor_nonneg _ Q0) as F0. set (z := Rfloor (t / dt)) in *.
    set (h1 := if (z <? Z.of_nat (length h))%Z then incr h (Z.to_nat z) else h).
    assert (angle_add Rops dt h t = Ok h1) as E.
    { unfold angle_add, h1. cbn [nfloor ndiv Rops]. fold z. destruct (z <? Z.of_nat (length h))%Z; [|reflexivity].
      destruct (Z.leb_spec 0 z); [reflexivity|lia]. }
    assert (length h1 = length h) as L1 by (unfold h1; destruct (z <? Z.of_nat (length h))%Z; [apply incr_length|reflexivity]).
    cbn [foldM]. rewrite E. cbn [bind].
    destruct (IH h1 Hdt (fun e He => Ht e (or_intror He))) as [h' [E' [L' C']]].
    exists h'. split; [exact E'|]. split; [congruence|]. intros k Hk. rewrite C' by lia.
    change (cnt (slot dt k) (t :: vs)) with (cnt (slot dt k) ([t] ++ vs)). rewrite cnt_app.
    assert (nth k h1 0%nat = nth k h 0 + cnt (slot dt k) [t])%nat as ->; [|lia].
    unfold cnt. cbn [filter]. unfold h1. destruct (Z.ltb_spec z (Z.of_nat (length h))) as [Hz|Hz].
    + rewrite incr_nth by lia. destruct (slot dt k t) eqn:Es.
      * apply slot_floor in Es; [|exact Hdt]. fold z in Es. destruct (Nat.eqb_spec k (Z.to_nat z)); [reflexivity|lia].
      * destruct (Nat.eqb_spec k (Z.to_nat z)) as [Ek|]; [|reflexivity].
        assert (slot dt k t = true) as C; [|congruence]. apply slot_floor; [exact Hdt|]. fold z. lia.
    + destruct (slot dt k t) eqn:Es; [|cbn; lia]. apply slot_floor in Es; [|exact Hdt]. fold z in Es. lia.
Qed.

Lemma foldM_nested : forall S X Y (step : S -> Y -> res S) (g : X -> list Y) (f : S -> X -> res S) l s,
  (forall s x, In x l -> f s x = foldM step s (g x)) -> foldM f s l = foldM step s (flat_map g l).
Proof.
  intros S X Y step g f l s H. rewrite <- foldM_foldM. apply foldM_ext_in. exact H.
Qed.

Lemma bond_angles_nonneg : forall side c pos ns t, In t (bond_angles side c pos ns) -> 0 <= t <= 180.
Proof.
  intros side c pos ns t H. unfold bond_angles in H. apply in_flat_map in H. destruct H as [j [_ H]].
  apply in_flat_map in H. destruct H as [k [_ H]]. cbn zeta in H. destruct (k =? j)%nat; [destruct H|].
  destruct (Req_EM_T _ 0) as [?|Hu]; [destruct H|]. destruct (Req_EM_T (dot (min_vec c (nth k pos []) side) _) 0) as [?|Hv]; [destruct H|].
  destruct H as [<-|[]]. destruct (angle_deg_spec _ _ Hu Hv) as [B _]. exact B.
Qed.

Lemma bond_angle_R : forall (side c : list R) pos ns dt n, (forall L, In L side -> 0 < L) -> 0 < dt ->
  (forall j, In j ns -> (j < length pos)%nat) ->
  exists h, bond_angle Rops acosdeg c pos ns side dt n = Ok h /\ length h = n /\
    forall k, (k < n)%nat -> nth k h 0%nat = cnt (slot dt k) (bond_angles side c pos ns).
Proof.
  intros side c pos ns dt n Hs Hdt Hn.
  destruct (angle_add_fold dt (bond_angles side c pos ns) (repeat 0%nat n) Hdt) as [h [E [L H]]].
  { intros t Ht. apply (bond_angles_nonneg side c pos ns t Ht). }
  rewrite repeat_length in L, H. exists h. split; [|split; [exact L|]].
  2:{ intros k Hk. rewrite H by exact Hk. rewrite nth_repeat. lia. }
  rewrite <- E. unfold bond_angle, bond_angles. apply foldM_nested. intros s j Hj. change (num Rops) with R in *.
  rewrite (get_Ok _ pos j []) by (apply Hn; exact Hj). cbn [bind]. cbn zeta.
  apply foldM_nested. intros s' k Hk. change (num Rops) with R in *.
  destruct (k =? j)%nat; [reflexivity|]. rewrite (get_Ok _ pos k []) by (apply Hn; exact Hk). cbn [bind].
  rewrite !wrapv_min by exact Hs. rewrite angle_R.
  destruct (Req_EM_T _ 0); [reflexivity|]. destruct (Req_EM_T _ 0); [reflexivity|].
  cbn [foldM]. destruct (angle_add Rops dt s' _); reflexivity.
Qed.

Lemma neighbours_bound : forall side c pos ids rcut j, In j (neighbours side c pos ids rcut) -> (j < length pos)%nat.
Proof. intros side c pos ids rcut j H. apply filter_In in H. destruct H as [H _]. apply in_seq in H. lia. Qed.

Lemma ba_frame_R : forall rcut dt n f, 0 < dt -> frame_ok rcut f ->
  exists hs, ba_frame Rops acosdeg rcut dt n f = Ok hs /\ length hs = length (f_pos0 f) /\
    (forall h, In h hs -> length h = n) /\
    forall k, (k < n)%nat -> list_sum (map (fun h => nth k h 0%nat) hs) = cnt (slot dt k) (frame_angles rcut f).
Proof.
  intros rcut dt n f Hdt [Hs L0 L1 S0 S1 F].
  assert (forall idx, (idx < length (f_pos0 f))%nat -> exists h,
    (isp <- get (f_ids0 f) idx ;; row <- get rcut isp ;; c <- get (f_pos0 f) idx ;;
     ns <- ba_neighbors Rops (f_side f) c (f_pos1 f) (f_ids1 f) row ;;
     bond_angle Rops acosdeg c (f_pos1 f) ns (f_side f) dt n) = Ok h /\ length h = n /\
     forall k, (k < n)%nat -> nth k h 0%nat = cnt (slot dt k) (bond_angles (f_side f) (nth idx (f_pos0 f) []) (f_pos1 f)
       (neighbours (f_side f) (nth idx (f_pos0 f) []) (f_pos1 f) (f_ids1 f) (cutoffs rcut f idx)))) as H.
  { intros idx Hidx.
    assert (nth idx (f_ids0 f) 0%nat < length rcut)%nat as Hr by (apply S0, nth_In; lia).
    pose proof (ba_neighbors_R (f_side f) (nth idx (f_pos0 f) []) (f_pos1 f) (f_ids1 f) (cutoffs rcut f idx) Hs L1) as E.
    assert (forall i, In i (f_ids1 f) -> (i < length (cutoffs rcut f idx))%nat) as Hc.
    { intros i Hi. apply S1; [exact Hi|]. apply nth_In. exact Hr. }
    specialize (E Hc (F idx Hidx)).
    destruct (bond_angle_R (f_side f) (nth idx (f_pos0 f) []) (f_pos1 f) (neighbours (f_side f) (nth idx (f_pos0 f) []) (f_pos1 f) (f_ids1 f) (cutoffs rcut f idx)) dt n Hs Hdt) as [h [Eh Hh]].
    { intros j Hj. apply neighbours_bound in Hj. exact Hj. }
    exists h. split; [|exact Hh].
    eapply bind_intro; [apply get_Ok; rewrite L0; exact Hidx|].
    eapply bind_intro; [apply get_Ok; exact Hr|].
    eapply bind_intro; [apply get_Ok; exact Hidx|].
    eapply bind_intro; [exact E|]. exact Eh. }
  unfold ba_frame, frame_angles. clear - H. revert H. generalize (length (f_pos0 f)) as N. intros N H.
  assert (forall l, (forall i, In i l -> (i < N)%nat) -> exists hs,
    mapM (fun idx => isp <- get (f_ids0 f) idx ;; row <- get rcut isp ;; c <- get (f_pos0 f) idx ;;
       ns <- ba_neighbors Rops (f_side f) c (f_pos1 f) (f_ids1 f) row ;;
       bond_angle Rops acosdeg c (f_pos1 f) ns (f_side f) dt n) l = Ok hs /\ length hs = length l /\
    (forall h, In h hs -> length h = n) /\
    forall k, (k < n)%nat -> list_sum (map (fun h => nth k h 0%nat) hs) = cnt (slot dt k) (flat_map (fun idx =>
       bond_angles (f_side f) (nth idx (f_pos0 f) []) (f_pos1 f)
       (neighbours (f_side f) (nth idx (f_pos0 f) []) (f_pos1 f) (f_ids1 f) (cutoffs rcut f idx))) l)) as G.
  { induction l as [|i l IH]; intros Hl.
    - exists []. split; [reflexivity|]. split; [reflexivity|]. split; [intros h []|]. reflexivity.
    - destruct (H i (Hl i (or_introl eq_refl))) as [h [E [Lh Ch]]].
      destruct (IH (fun x Hx => Hl x (or_intror Hx))) as [hs [E' [L' [C1 C2]]]].
      exists (h :: hs). cbn [mapM]. rewrite E. cbn [bind]. rewrite E'. cbn [bind]. split; [reflexivity|].
      split; [cbn [length]; congruence|]. split.
      + intros x [<-|Hx]; [exact Lh|apply C1; exact Hx].
      + intros k Hk. cbn [map flat_map]. rewrite list_sum_cons, cnt_app, C2, Ch by exact Hk. reflexivity. }
  destruct (G (seq 0 N)) as [hs [E [L [C1 C2]]]]; [intros i Hi; apply in_seq in Hi; lia|].
  exists hs. rewrite seq_length in L. auto.
Qed.

Lemma hadd_fold : forall n hs h0, length h0 = n -> (forall h, In h hs -> length h = n) ->
  length (fold_left hadd hs h0) = n /\
  forall k, (k < n)%nat -> nth k (fold_left hadd hs h0) 0%nat = list_sum (map (fun h => nth k h 0%nat) (h0 :: hs)).
Proof.
  intros n. induction hs as [|h hs IH]; intros h0 L0 Lh.
  - split; [exact L0|]. intros k Hk. cbn. lia.
  - cbn [fold_left]. assert (length (hadd h0 h) = n) as L1.
    { unfold hadd. rewrite map2_app_len, L0, (Lh h) by (left; reflexivity). lia. }
    destruct (IH (hadd h0 h) L1 (fun x Hx => Lh x (or_intror Hx))) as [L2 C]. split; [exact L2|].
    intros k Hk. rewrite C by exact Hk. cbn [map]. rewrite !list_sum_cons.
    assert (nth k (hadd h0 h) 0%nat = nth k h0 0 + nth k h 0)%nat as ->; [|lia].
    unfold hadd, map2.
    change 0%nat with ((fun p : nat * nat => (fst p + snd p)%nat) (0, 0)%nat) at 1.
    rewrite map_nth, combine_nth by (rewrite L0, (Lh h) by (left; reflexivity); reflexivity). reflexivity.
Qed.

Lemma angles_nonneg : forall rcut skip frames t, In t (all_angles rcut skip frames) -> 0 <= t <= 180.
Proof.
  intros rcut skip frames t H. unfold all_angles in H. apply in_flat_map in H. destruct H as [i [_ H]].
  unfold frame_angles in H. apply in_flat_map in H. destruct H as [idx [_ H]]. apply bond_angles_nonneg in H. exact H.
Qed.

Lemma slots_total : forall dt vs m, 0 < dt -> (forall t, In t vs -> 0 <= t) ->
  list_sum (map (fun k => cnt (slot dt k) vs) (seq 0 m)) = cnt (fun t => Rltb t (INR m * dt)) vs.
Proof.
  intros dt vs m Hdt Hv. induction m as [|m IH].
  - cbn [seq map list_sum]. unfold cnt. symmetry. rewrite (proj2 (length_zero_iff_nil _)); [reflexivity|].
    assert (forall l, (forall t, In t l -> 0 <= t) -> filter (fun t => Rltb t (INR 0 * dt)) l = []) as G; [|apply G; exact Hv].
    induction l as [|a l IHl]; intros Hl; [reflexivity|]. cbn [filter].
    destruct (Rltb_spec a (INR 0 * dt)) as [C|C]; [cbn [INR] in C; pose proof (Hl a (or_introl eq_refl)); lra|].
    apply IHl. intros t Ht. apply Hl. right. exact Ht.
  - rewrite seq_S, map_app, list_sum_app, IH. cbn [Nat.add map]. rewrite list_sum_cons. cbn [list_sum fold_right].
    rewrite Nat.add_0_r, (cnt_split _ (fun t => Rltb t (INR (S m) * dt)) (fun t => Rltb t (INR m * dt))).
    f_equal; apply cnt_ext; intros t Ht; unfold slot; rewrite ?S_INR, ?plus_INR; cbn [INR];
      destruct (Rltb_spec t (INR m * dt)), (Rltb_spec t ((INR m + 1) * dt)), (Rleb_spec (INR m * dt) t);
      cbn; try reflexivity; exfalso; nra.
Qed.

Lemma ba_spec : forall rcut delta skip frames dt n,
  0 < dt -> (2 <= n)%nat -> linear_grid Rops 0 180 delta = Ok (map (fun i => INR i * dt) (seq 0 n)) ->
  (1 <= skip)%nat -> (forall f, In f frames -> frame_ok rcut f) ->
  (exists i, In i (origins 0 skip (length frames)) /\ f_pos0 (nth i frames no_frame) <> []) ->
  let T := all_angles rcut skip frames in
  let total := INR (cnt (fun t => Rltb t (INR (n - 1) * dt)) T) in
  ba_compute Rops acosdeg rcut delta skip frames
  = Ok (map (fun k => (INR k + 1 / 2) * dt) (seq 0 (n - 1)),
        map (fun k => INR (cnt (slot dt k) T) / (total * dt)) (seq 0 (n - 1))).
Proof.
  intros rcut delta skip frames dt n Hdt Hn Hg Hskip Hf [i0 [Hi0 Hne]] T total.
  set (grid := map (fun i => INR i * dt) (seq 0 n)) in *.
  assert (length grid = n) as Lg by (unfold grid; rewrite map_length, seq_length; reflexivity).
  assert (exists hss, mapM (fun i => f <- get frames i ;; ba_frame Rops acosdeg rcut dt n f) (origins 0 skip (length frames)) = Ok hss /\
     (concat hss <> []) /\ (forall h, In h (concat hss) -> length h = n) /\
     forall k, (k < n)%nat -> list_sum (map (fun h => nth k h 0%nat) (concat hss)) = cnt (slot dt k) T) as [hss [Em [Hnil [Hlen Hcnt]]]].
  { assert (forall l, (forall i, In i l -> (i < length frames)%nat) -> exists hss,
       mapM (fun i => f <- get frames i ;; ba_frame Rops acosdeg rcut dt n f) l = Ok hss /\
       ((exists i, In i l /\ f_pos0 (nth i frames no_frame) <> []) -> concat hss <> []) /\ (forall h, In h (concat hss) -> length h = n) /\
       forall k, (k < n)%nat -> list_sum (map (fun h => nth k h 0%nat) (concat hss)) =
         cnt (slot dt k) (flat_map (fun i => frame_angles rcut (nth i frames no_frame)) l)) as G.
    { induction l as [|i l IH]; intros Hl.
      - exists []. split; [reflexivity|]. split; [intros [i [[] _]]|]. split; [intros h []|reflexivity].
      - assert (i < length frames)%nat as Hi by (apply Hl; left; reflexivity).
        destruct (ba_frame_R rcut dt n (nth i frames no_frame) Hdt (Hf _ (nth_In _ _ Hi))) as [hs [E [L [C1 C2]]]].
        destruct (IH (fun x Hx => Hl x (or_intror Hx))) as [hss [E' [N' [C1' C2']]]].
        exists (hs :: hss). split; [|split; [|split]].
        + cbn [mapM]. eapply bind_intro; [eapply bind_intro; [apply get_Ok; exact Hi|exact E]|].
          eapply bind_intro; [exact E'|]. reflexivity.
        + intros [x [[<-|Hx] Hp]]; cbn [concat]; intros C; apply app_eq_nil in C; destruct C as [C D].
          * rewrite C in L. destruct (f_pos0 (nth i frames no_frame)); [congruence|discriminate].
          * apply N' in D; [exact D|]. exists x. split; assumption.
        + intros h Hh. cbn [concat] in Hh. apply in_app_or in Hh. destruct Hh as [Hh|Hh]; [apply C1|apply C1']; exact Hh.
        + intros k Hk. cbn [concat flat_map]. rewrite map_app, list_sum_app, cnt_app, C2, C2' by exact Hk. reflexivity. }
    destruct (G (origins 0 skip (length frames))) as [hss [E [N [C1 C2]]]].
    { intros i Hi. apply filter_In in Hi. destruct Hi as [Hi _]. apply in_seq in Hi. lia. }
    exists hss. split; [exact E|]. split; [apply N; exists i0; split; assumption|]. split; [exact C1|exact C2]. }
  unfold ba_compute. eapply bind_intro; [exact Hg|].
  eapply bind_intro; [apply get_Ok; change (num Rops) with R; rewrite Lg; lia|].
  eapply bind_intro; [apply get_Ok; change (num Rops) with R; rewrite Lg; lia|].
  cbn zeta. change (num Rops) with R in *.
  assert (nsub Rops (nth 1 grid 0) (nth 0 grid 0) = dt) as Ed.
  { unfold grid. rewrite !nth_map_seq by lia. cbn [nsub Rops INR]. change (num Rops) with R. ring. }
  match goal with |- context [nsub Rops ?a ?b] => replace (nsub Rops a b) with dt by (symmetry; exact Ed) end.
  eapply bind_intro; [apply py_range_spec; exact Hskip|].
  fold (origins 0 skip (length frames)). rewrite Lg.
  eapply bind_intro; [exact Em|].
  destruct (concat hss) as [|h0 hr] eqn:Ec; [congruence|]. clear Hnil.
  destruct (hadd_fold n hr h0 (Hlen h0 (or_introl eq_refl)) (fun h Hh => Hlen h (or_intror Hh))) as [Lh Ch].
  set (hist := fold_left hadd hr h0) in *. rewrite Lh.
  assert (firstn (n - 1) hist = map (fun k => cnt (slot dt k) T) (seq 0 (n - 1))) as Ei.
  { apply nth_ext with (d := 0%nat) (d' := 0%nat).
    - rewrite firstn_length, map_length, seq_length, Lh. lia.
    - intros k Hk. rewrite firstn_length, Lh in Hk.
      rewrite nth_map_seq by lia.
      rewrite <- (firstn_skipn (n - 1) hist) in Ch. specialize (Ch k).
      rewrite app_nth1 in Ch by (rewrite firstn_length, Lh; lia). rewrite Ch by lia. apply Hcnt. lia. }
  rewrite Ei.
  assert (list_sum (map (fun k => cnt (slot dt k) T) (seq 0 (n - 1))) = cnt (fun t => Rltb t (INR (n - 1) * dt)) T) as ->.
  { apply slots_total; [exact Hdt|]. intros t Ht. apply (angles_nonneg rcut skip frames). exact Ht. }
  f_equal. f_equal.
  - assert (firstn (n - 1) grid = map (fun i => INR i * dt) (seq 0 (n - 1))) as E1.
    { unfold grid. rewrite firstn_map. f_equal. replace n with (n - 1 + 1)%nat at 2 by lia. rewrite seq_app, firstn_app.
      rewrite seq_length, Nat.sub_diag. cbn [firstn]. rewrite app_nil_r. rewrite <- (seq_length (n - 1) 0) at 1. apply firstn_all. }
    assert (tl grid = map (fun i => INR (S i) * dt) (seq 0 (n - 1))) as E2.
    { unfold grid. destruct n as [|m]; [lia|]. cbn [seq map tl]. rewrite Nat.sub_succ, Nat.sub_0_r, <- seq_shift, map_map. reflexivity. }
    change (num Rops) with R in *. rewrite E1, E2. unfold map2.
    assert (forall (f g : nat -> R) l, combine (map f l) (map g l) = map (fun k => (f k, g k)) l) as Hc.
    { intros f g. induction l as [|a l IH]; [reflexivity|]. cbn [map combine]. rewrite IH. reflexivity. }
    rewrite Hc, map_map. apply map_ext. intros k. cbn [fst snd nadd ndiv nofZ Rops]. rewrite S_INR. field.
  - rewrite map_map. apply map_ext. intros k. rewrite !nofnat_R. reflexivity.
Qed.

Lemma ba_normalised : forall dt m T, 0 < dt -> (forall t, In t T -> 0 <= t) ->
  (exists t, In t T /\ t < INR m * dt) ->
  rsum (map (fun v => v * dt) (map (fun k => INR (cnt (slot dt k) T) / (INR (cnt (fun t => Rltb t (INR m * dt)) T) * dt)) (seq 0 m))) = 1.
Proof.
  intros dt m T Hdt HT [t0 [Ht Hb]]. set (N := cnt (fun t => Rltb t (INR m * dt)) T).
  assert (0 < INR N) as HN.
  { apply lt_0_INR. unfold N, cnt. assert (In t0 (filter (fun t => Rltb t (INR m * dt)) T)) as Hin.
    { apply filter_In. split; [exact Ht|]. destruct (Rltb_spec t0 (INR m * dt)); [reflexivity|lra]. }
    destruct (filter _ T); [destruct Hin|cbn; lia]. }
  rewrite map_map. rewrite (map_ext _ (fun k => INR (cnt (slot dt k) T) * / INR N)) by (intros k; field; lra).
  assert (forall l, rsum (map (fun k => INR (cnt (slot dt k) T) * / INR N) l) = INR (list_sum (map (fun k => cnt (slot dt k) T) l)) / INR N) as G.
  { induction l as [|k l IH]; [cbn; unfold Rdiv; lra|]. cbn [map rsum]. rewrite list_sum_cons, plus_INR.
    cbn [rsum fold_right] in *. unfold Rdiv in *. lra. }
  rewrite G, slots_total by assumption. fold N. field. lra.
Qed.
