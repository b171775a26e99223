(** Proofs about the center-of-mass correction. *)
From Coq Require Import List ZArith Bool Arith Reals Lia Lra.
From Verif Require Import PyBase PyBaseFacts Num Spec_Stats NumFacts M_Helpers M_Dynamics Spec_Dynamics P_Dynamics2.
Import ListNotations.
Local Open Scope R_scope.


Lemma map2_length : forall X Y W (f : X -> Y -> W) x y, length (map2 f x y) = Nat.min (length x) (length y).
Proof. intros. unfold map2. rewrite map_length, combine_length. reflexivity. Qed.

Lemma map2_nth : forall X Y W (f : X -> Y -> W) x y k dx dy dw,
  (k < length x)%nat -> (k < length y)%nat -> nth k (map2 f x y) dw = f (nth k x dx) (nth k y dy).
Proof.
  intros X Y W f. unfold map2. induction x as [|a x IH]; intros [|b y] k dx dy dw H1 H2; cbn in *; try lia.
  destruct k as [|k]; [reflexivity|]. apply IH; lia.
Qed.

Lemma list_nth_ext : forall (l m : list R), length l = length m ->
  (forall k, (k < length l)%nat -> nth k l 0 = nth k m 0) -> l = m.
Proof. intros l m Hl H. apply (nth_ext _ _ 0 0 Hl H). Qed.

Lemma cm_fold : forall d ps (acc : list R) m, of_dim d ps -> length acc = d ->
  let st := fold_left (fun st p => (vadd Rops (fst st) (vscale Rops (fst p) (snd p)), nadd Rops (snd st) (fst p)))
              ps (acc, m) in
  length (fst st) = d /\ (forall k, (k < d)%nat -> nth k (fst st) 0 = nth k acc 0 + moment ps k) /\
  snd st = m + total_mass ps.
Proof.
  intros d. induction ps as [|p ps IH]; intros acc m Hd Ha; cbn [fold_left].
  - cbn. split; [assumption|]. unfold moment, total_mass. cbn. split; [intros; lra|lra].
  - assert (length (snd p) = d) as Hp by (apply Hd; left; reflexivity).
    assert (length (vscale Rops (fst p) (snd p)) = d) as Hv by (unfold vscale; rewrite map_length; exact Hp).
    assert (length (vadd Rops acc (vscale Rops (fst p) (snd p))) = d) as Hv2.
    { unfold vadd. rewrite map2_length. flatR. rewrite Hv, Ha. lia. }
    destruct (IH (vadd Rops acc (vscale Rops (fst p) (snd p))) (m + fst p)) as [H1 [H2 H3]];
      [intros q Hq; apply Hd; right; exact Hq|exact Hv2|].
    split; [exact H1|]. split.
    + intros k Hk. cbn [fst]. flatR. etransitivity; [apply H2; exact Hk|].
      unfold moment at 2. cbn [map rsum]. fold (moment ps k).
      unfold vadd. rewrite (map2_nth _ _ _ _ _ _ k 0 0) by (flatR; lia).
      unfold vscale. rewrite (nth_map_lt _ _ _ _ _ _ 0) by lia. cbn [nmul nadd Rops]. flatR. lra.
    + cbn [fst snd]. flatR. etransitivity; [apply H3|]. unfold total_mass. cbn [map rsum]. lra.
Qed.

Lemma nth_repeat0 : forall d k, nth k (repeat 0 d) 0 = 0.
Proof. induction d; intros [|k]; cbn; auto. Qed.

Lemma cm_spec : forall d ps, of_dim d ps ->
  length (center_of_mass Rops ps d) = d /\
  forall k, (k < d)%nat -> nth k (center_of_mass Rops ps d) 0 = moment ps k / total_mass ps.
Proof.
  intros d ps Hd. unfold center_of_mass.
  destruct (cm_fold d ps (repeat 0 d) 0 Hd (repeat_length 0 d)) as [H1 [H2 H3]].
  cbn [n0 Rops] in *. flatR. rewrite map_length. split; [exact H1|].
  intros k Hk. rewrite (nth_map_lt _ _ _ _ _ _ 0) by (rewrite H1; exact Hk).
  rewrite H2 by exact Hk. rewrite H3, nth_repeat0. cbn [ndiv Rops]. f_equal; lra.
Qed.

(** Result of the correction, particle by particle. *)
Lemma fix_cm_frame_spec : forall d ps, ps <> [] -> of_dim d ps ->
  fix_cm_frame Rops ps = Ok (map (fun p => (fst p, vsub Rops (snd p) (center_of_mass Rops ps d))) ps).
Proof.
  intros d [|p ps] Hn Hd; [congruence|]. unfold fix_cm_frame. cbn [get nth_error bind].
  assert (length (snd p) = d) as E by (apply Hd; left; reflexivity). rewrite <- E. reflexivity.
Qed.

Lemma fixed_nth : forall d ps p k, of_dim d ps -> In p ps -> (k < d)%nat ->
  nth k (vsub Rops (snd p) (center_of_mass Rops ps d)) 0 = nth k (snd p) 0 - moment ps k / total_mass ps.
Proof.
  intros d ps p k Hd Hp Hk. destruct (cm_spec d ps Hd) as [H1 H2].
  unfold vsub. rewrite (map2_nth _ _ _ _ _ _ k 0 0).
  - rewrite H2 by exact Hk. reflexivity.
  - rewrite (Hd p Hp). exact Hk.
  - flatR. rewrite H1. exact Hk.
Qed.
Lemma fixed_length : forall d ps p, of_dim d ps -> In p ps ->
  length (vsub Rops (snd p) (center_of_mass Rops ps d)) = d.
Proof.
  intros d ps p Hd Hp. unfold vsub. rewrite map2_length. destruct (cm_spec d ps Hd) as [H1 _].
  flatR. rewrite H1, (Hd p Hp). lia.
Qed.


Lemma plusv_length : forall r c, length r = length c -> length (plusv r c) = length c.
Proof. induction r as [|a r IH]; intros [|b c] H; cbn in *; try discriminate; [reflexivity|]. rewrite IH; congruence. Qed.
Lemma plusv_nth : forall r c k, length r = length c -> (k < length c)%nat -> nth k (plusv r c) 0 = nth k r 0 + nth k c 0.
Proof.
  induction r as [|a r IH]; intros [|b c] [|k] H Hk; cbn in *; try discriminate; try lia; try reflexivity.
  apply IH; [congruence|lia].
Qed.

Lemma displaced_dim : forall c ps, of_dim (length c) ps -> of_dim (length c) (displaced c ps).
Proof.
  intros c ps Hd q Hq. unfold displaced in Hq. apply in_map_iff in Hq. destruct Hq as [p [<- Hp]].
  cbn. apply plusv_length. apply Hd. exact Hp.
Qed.

Lemma moment_displaced : forall c ps k, of_dim (length c) ps -> (k < length c)%nat ->
  moment (displaced c ps) k = moment ps k + total_mass ps * nth k c 0.
Proof.
  intros c ps k Hd Hk. unfold moment, displaced, total_mass. rewrite map_map. cbn [fst snd].
  rewrite (rsum_ext _ _ (fun p => fst p * nth k (snd p) 0 + nth k c 0 * fst p)).
  - rewrite rsum_plus, rsum_scal. lra.
  - intros p Hp. rewrite plusv_nth by (try apply Hd; assumption). lra.
Qed.
Lemma total_displaced : forall c ps, total_mass (displaced c ps) = total_mass ps.
Proof. intros. unfold total_mass, displaced. rewrite map_map. reflexivity. Qed.

Lemma fix_cm_invariant : forall c ps, ps <> [] -> of_dim (length c) ps -> total_mass ps <> 0 ->
  fix_cm_frame Rops (displaced c ps) = fix_cm_frame Rops ps.
Proof.
  intros c ps Hn Hd HM. pose proof (displaced_dim c ps Hd) as Hd'.
  rewrite (fix_cm_frame_spec (length c) (displaced c ps)), (fix_cm_frame_spec (length c) ps); auto.
  2: { destruct ps; [congruence|discriminate]. }
  f_equal. unfold displaced at 2. rewrite map_map. apply map_ext_in. intros p Hp. cbn [fst snd]. f_equal.
  assert (In (fst p, plusv (snd p) c) (displaced c ps)) as Hp'.
  { unfold displaced. apply (in_map (fun p => (fst p, plusv (snd p) c)) ps p Hp). }
  pose proof (fixed_length _ _ _ Hd' Hp') as L1. pose proof (fixed_length _ _ _ Hd Hp) as L2.
  cbn [snd] in L1. flatR.
  apply list_nth_ext; [congruence|]. intros k Hk. rewrite L1 in Hk.
  pose proof (fixed_nth _ _ _ k Hd' Hp' Hk) as N1. pose proof (fixed_nth _ _ _ k Hd Hp Hk) as N2.
  cbn [snd] in N1. flatR. rewrite N1, N2.
  rewrite moment_displaced, total_displaced, plusv_nth by (try apply Hd; assumption). field. exact HM.
Qed.

Lemma fix_cm_centered : forall d ps, ps <> [] -> of_dim d ps -> total_mass ps <> 0 ->
  exists ps', fix_cm_frame Rops ps = Ok ps' /\ of_dim d ps' /\ map fst ps' = map fst ps /\
    (forall k, (k < d)%nat -> moment ps' k = 0) /\
    (forall i j k, (i < length ps)%nat -> (j < length ps)%nat -> (k < d)%nat ->
       nth k (snd (nth i ps' (0, []))) 0 - nth k (snd (nth j ps' (0, []))) 0
       = nth k (snd (nth i ps (0, []))) 0 - nth k (snd (nth j ps (0, []))) 0) /\
    fix_cm_frame Rops ps' = Ok ps'.
Proof.
  intros d ps Hn Hd HM. eexists. split; [apply (fix_cm_frame_spec d); assumption|].
  set (ps' := map (fun p => (fst p, vsub Rops (snd p) (center_of_mass Rops ps d))) ps). flatR.
  assert (of_dim d ps') as Hd'.
  { intros q Hq. unfold ps' in Hq. apply in_map_iff in Hq. destruct Hq as [p [<- Hp]].
    cbn [snd]. apply fixed_length; assumption. }
  assert (map fst ps' = map fst ps) as Hf by (unfold ps'; rewrite map_map; reflexivity).
  assert (forall k, (k < d)%nat -> moment ps' k = 0) as Hm.
  { intros k Hk. unfold moment, ps'. rewrite map_map. cbn [fst snd].
    rewrite (rsum_ext _ _ (fun p => fst p * nth k (snd p) 0 - moment ps k / total_mass ps * fst p)).
    - rewrite rsum_minus, rsum_scal. fold (moment ps k) (total_mass ps). field. exact HM.
    - intros p Hp. pose proof (fixed_nth d ps p k Hd Hp Hk) as N. flatR. rewrite N. lra. }
  split; [exact Hd'|]. split; [exact Hf|]. split; [exact Hm|]. split.
  - intros i j k Hi Hj Hk. unfold ps'. rewrite !(nth_map_lt _ _ _ _ _ _ (0, [])) by assumption. cbn [snd].
    pose proof (fixed_nth d ps _ k Hd (nth_In ps (0, []) Hi) Hk) as N1.
    pose proof (fixed_nth d ps _ k Hd (nth_In ps (0, []) Hj) Hk) as N2. flatR. rewrite N1, N2. lra.
  - rewrite (fix_cm_frame_spec d ps'); [|unfold ps'; destruct ps; [congruence|discriminate]|exact Hd'].
    f_equal. rewrite <- (map_id ps') at 2. apply map_ext_in. intros p Hp.
    destruct p as [m r] eqn:Ep. rewrite <- Ep in Hp. f_equal. cbn [fst snd].
    assert (length r = d) as Lr by (rewrite Ep in Hp; apply (Hd' _ Hp)).
    pose proof (fixed_length d ps' p Hd' Hp) as L. rewrite Ep in L. cbn [snd] in L. flatR.
    apply list_nth_ext; [congruence|]. intros k Hk. rewrite L in Hk.
    pose proof (fixed_nth d ps' p k Hd' Hp Hk) as N. rewrite Ep in N. cbn [snd] in N. flatR.
    rewrite N, Hm by exact Hk. unfold Rdiv. lra.
Qed.

(** Drift: the total momentum does not enter. *)
Lemma fix_cm_empty : fix_cm_frame Rops [] = Err IndexError.
Proof. reflexivity. Qed.
