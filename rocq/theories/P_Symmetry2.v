(** Static and scattering functions under relabellings, translations, periodic
    images and changes of the unit of length. *)
From Coq Require Import List ZArith Reals Bool Arith Lra Lia Permutation Sorting.Sorted.
From Verif Require Import PyBase PyBaseFacts Num NumFacts M_Helpers M_Realspace Spec_Stats Spec_Dynamics Spec_Correlation Spec_Pairs
  P_Dynamics2 P_Count P_Image Spec_Fkt P_Gr P_Gr2 P_GrFast2 Spec_Symmetry P_Symmetry.
Import ListNotations.
Local Open Scope R_scope.

(** ** g(r) *)
Lemma rmean_ext : forall X (f g : X -> R) l, (forall x, In x l -> f x = g x) -> rmean (map f l) = rmean (map g l).
Proof. intros. f_equal. apply map_ext_in. assumption. Qed.

Lemma ordered_perm : forall X (P : X -> X -> bool) l l' d, Permutation l l' -> ordered_pairs P l d = ordered_pairs P l' d.
Proof.
  intros X P l l' d H.
  pose proof (ordered_diag X P l d) as A. pose proof (ordered_diag X P l' d) as B.
  rewrite (count_prod_perm_l _ _ P l l' l H), (count_prod_perm_r _ _ P l' l l' H) in A.
  rewrite (cnt_perm _ (fun x => P x x) _ _ H) in A. lia.
Qed.

Lemma neighbours_perm : forall same D P side p0 p1 q0 q1, Permutation p0 q0 -> Permutation p1 q1 ->
  neighbours same D P side p0 p1 = neighbours same D P side q0 q1.
Proof.
  intros same D P side p0 p1 q0 q1 H0 H1. unfold neighbours. destruct same.
  - apply ordered_perm. exact H0.
  - rewrite (count_prod_perm_l _ _ _ _ _ _ H0). apply count_prod_perm_r. exact H1.
Qed.

Lemma Forall2_nth_all : forall X Y (P : X -> Y -> Prop) l m dx dy, Forall2 P l m ->
  length m = length l /\ forall i, (i < length l)%nat -> P (nth i l dx) (nth i m dy).
Proof.
  intros X Y P l m dx dy H. induction H as [|a b l m Hab Hlm [IL IH]]; [split; [reflexivity|cbn; lia]|].
  split; [cbn; congruence|]. intros [|i] Hi; cbn [nth]; [exact Hab|]. apply IH. cbn in Hi. lia.
Qed.

Lemma mean_number_ext : forall pos pos', length pos' = length pos ->
  (forall i, (i < length pos)%nat -> length (nth i pos' []) = length (nth i pos [])) -> mean_number pos' = mean_number pos.
Proof.
  intros pos pos' L H. unfold mean_number.
  rewrite <- (nth_seq_all _ pos []) at 1. rewrite <- (nth_seq_all _ pos' []). rewrite !map_map, L. apply rmean_ext.
  intros i Hi. apply in_seq in Hi. rewrite H by lia. reflexivity.
Qed.

(** g(r) depends on the frames only through the numbers of particles and of pairs. *)
Lemma gr_legacy_ext : forall pi V crop ndims same (grid es : list R) skip pos0 pos1 sides pos0' pos1',
  edges_of_grid Rops grid = Ok es -> StronglySorted Rlt es ->
  gr_input same skip pos0 pos1 sides -> gr_input same skip pos0' pos1' sides ->
  (forall i, (i < length pos0)%nat -> length (nth i pos0' []) = length (nth i pos0 []) /\
     length (nth i pos1' []) = length (nth i pos1 []) /\
     forall P, neighbours same img_D P (nth i sides []) (nth i pos0' []) (nth i pos1' [])
             = neighbours same img_D P (nth i sides []) (nth i pos0 []) (nth i pos1 [])) ->
  gr_legacy Rops pi ndims same grid skip pos0' pos1' sides V crop
  = gr_legacy Rops pi ndims same grid skip pos0 pos1 sides V crop.
Proof.
  intros pi V crop ndims same grid es skip pos0 pos1 sides pos0' pos1' He Hs I I' H.
  rewrite (gr_legacy_form img_D pi V crop ndims same grid es skip pos0 pos1 sides img_D_distance He Hs I).
  rewrite (gr_legacy_form img_D pi V crop ndims same grid es skip pos0' pos1' sides img_D_distance He Hs I').
  assert (L0 : length pos0' = length pos0) by (rewrite <- (gi_len2 _ _ _ _ _ I), <- (gi_len2 _ _ _ _ _ I'); reflexivity).
  assert (L1 : length pos1' = length pos1) by (rewrite (gi_len1 _ _ _ _ _ I), (gi_len1 _ _ _ _ _ I'); exact L0).
  rewrite (mean_number_ext pos0 pos0' L0) by (intros; apply H; assumption).
  rewrite (mean_number_ext pos1 pos1' L1) by (intros i Hi; apply H; rewrite <- (gi_len1 _ _ _ _ _ I); assumption).
  f_equal. apply map_ext. intros k. do 2 f_equal. unfold mean_neighbours. rewrite L0. apply rmean_ext.
  intros i Hi. f_equal. apply H. apply filter_In in Hi. destruct Hi as [Hi _]. apply in_seq in Hi. lia.
Qed.

Lemma gr_input_perm : forall same skip pos0 pos1 sides pos0' pos1',
  gr_input same skip pos0 pos1 sides -> Forall2 (@Permutation _) pos0 pos0' -> Forall2 (@Permutation _) pos1 pos1' ->
  (same = true -> pos1' = pos0') -> gr_input same skip pos0' pos1' sides.
Proof.
  intros same skip pos0 pos1 sides pos0' pos1' I F0 F1 Hs.
  destruct (Forall2_nth_all _ _ _ _ _ [] [] F0) as [L0 N0]. destruct (Forall2_nth_all _ _ _ _ _ [] [] F1) as [L1 N1].
  destruct I as [A B C D E F]. split; try assumption; try congruence.
  intros i Hi. assert (Hi' : (i < length pos0)%nat) by congruence. destruct (F i Hi') as [[X1 X2] [Y1 Y2]].
  specialize (N0 i Hi'). specialize (N1 i ltac:(congruence)).
  repeat split.
  - intros Z. rewrite Z in N0. apply Permutation_sym, Permutation_nil in N0. contradiction.
  - intros r Hr. apply X2. eapply Permutation_in; [symmetry; exact N0|exact Hr].
  - intros Z. rewrite Z in N1. apply Permutation_sym, Permutation_nil in N1. contradiction.
  - intros r Hr. apply Y2. eapply Permutation_in; [symmetry; exact N1|exact Hr].
Qed.

Lemma gr_relabel : forall pi V crop ndims same (grid es : list R) skip pos0 pos1 sides pos0' pos1',
  edges_of_grid Rops grid = Ok es -> StronglySorted Rlt es ->
  gr_input same skip pos0 pos1 sides ->
  Forall2 (@Permutation _) pos0 pos0' -> Forall2 (@Permutation _) pos1 pos1' -> (same = true -> pos1' = pos0') ->
  gr_legacy Rops pi ndims same grid skip pos0' pos1' sides V crop
  = gr_legacy Rops pi ndims same grid skip pos0 pos1 sides V crop.
Proof.
  intros pi V crop ndims same grid es skip pos0 pos1 sides pos0' pos1' He Hs I F0 F1 Hsame.
  apply (gr_legacy_ext _ _ _ _ _ _ es); try assumption; [eapply gr_input_perm; eassumption|].
  destruct (Forall2_nth_all _ _ _ _ _ [] [] F0) as [L0 N0]. destruct (Forall2_nth_all _ _ _ _ _ [] [] F1) as [L1 N1].
  intros i Hi. specialize (N0 i Hi). specialize (N1 i ltac:(rewrite (gi_len1 _ _ _ _ _ I); exact Hi)).
  split; [symmetry; apply Permutation_length; exact N0|]. split; [symmetry; apply Permutation_length; exact N1|].
  intros P. apply neighbours_perm; symmetry; assumption.
Qed.

(** Replacing every position by another one without changing pair distances. *)
Lemma cnt_rel : forall X Y (Q : X -> bool) (Q' : Y -> bool) (Rel : X -> Y -> Prop) l l', Forall2 Rel l l' ->
  (forall x y, Rel x y -> Q' y = Q x) -> length (filter Q' l') = length (filter Q l).
Proof.
  intros X Y Q Q' Rel l l' H HQ. induction H as [|x y l l' Hxy Hl IH]; [reflexivity|].
  cbn [filter]. rewrite (HQ x y Hxy). destruct (Q x); cbn [length]; congruence.
Qed.

Lemma neighbours_rel : forall same D P side side' (Rel : list R -> list R -> Prop) P' p0 p1 q0 q1,
  Forall2 Rel p0 q0 -> Forall2 Rel p1 q1 ->
  (forall x y x' y', Rel x x' -> Rel y y' -> P' (D side' x' y') = P (D side x y)) ->
  neighbours same D P' side' q0 q1 = neighbours same D P side p0 p1.
Proof.
  intros same D P side side' Rel P' p0 p1 q0 q1 H0 H1 H. unfold neighbours. destruct same.
  - destruct (Forall2_nth_all _ _ _ _ _ [] [] H0) as [L N]. unfold ordered_pairs. rewrite L. f_equal. apply filter_ext_in. intros [i j] Hij.
    apply in_prod_iff in Hij. destruct Hij as [Hi Hj]. apply in_seq in Hi, Hj. cbn [fst snd].
    f_equal. apply H; apply N; lia.
  - induction H0 as [|x x' p0 q0 Hx Hp IH]; [reflexivity|]. rewrite !count_prod_cons, IH. f_equal.
    apply (cnt_rel _ _ _ _ Rel _ _ H1). intros y y' Hy. apply H; assumption.
Qed.

(** Distances between periodic images. *)
Lemma image_shifted : forall side x y, image side x y -> exists ks, length ks = length side /\ y = shifted x ks side.
Proof.
  induction side as [|L side IH]; intros x y [Lx [Ly H]].
  - destruct x; [|discriminate]. destruct y; [|discriminate]. exists []. split; reflexivity.
  - destruct x as [|a x]; [discriminate|]. destruct y as [|b y]; [discriminate|].
    destruct (H 0%nat ltac:(cbn; lia)) as [n Hn]. cbn [nth] in Hn.
    destruct (IH x y) as [ks [Lk E]].
    { cbn in Lx, Ly. split; [lia|]. split; [lia|]. intros j Hj. apply (H (S j)). cbn. lia. }
    exists (n :: ks). split; [cbn; lia|]. cbn [shifted]. rewrite Hn, E. reflexivity.
Qed.

Lemma shifted_image : forall side x ks, length x = length side -> length ks = length side -> image side x (shifted x ks side).
Proof.
  induction side as [|L side IH]; intros x ks Lx Lk.
  - destruct x; [|discriminate]. destruct ks; [|discriminate]. repeat split; cbn; lia.
  - destruct x as [|a x]; [discriminate|]. destruct ks as [|k ks]; [discriminate|].
    destruct (IH x ks) as [H1 [H2 H3]]; [cbn in *; lia|cbn in *; lia|]. cbn [shifted].
    split; [cbn in *; lia|]. split; [cbn in *; lia|]. intros [|j] Hj; cbn [nth]; [exists k; reflexivity|].
    apply H3. cbn in Hj. lia.
Qed.

Lemma image_sym : forall side x y, image side x y -> image side y x.
Proof.
  intros side x y [Lx [Ly H]]. split; [assumption|]. split; [assumption|]. intros j Hj. destruct (H j Hj) as [n E].
  exists (- n)%Z. rewrite E, opp_IZR. ring.
Qed.
Lemma image_trans : forall side x y z, image side x y -> image side y z -> image side x z.
Proof.
  intros side x y z [Lx [Ly H]] [_ [Lz H']]. split; [assumption|]. split; [assumption|]. intros j Hj.
  destruct (H j Hj) as [n E]. destruct (H' j Hj) as [m E']. exists (n + m)%Z. rewrite E', E, plus_IZR. ring.
Qed.

(** The distances from x to the images of y, in terms of coordinate differences. *)
Lemma dist2_diff : forall x y x' y', length x' = length x -> length y' = length y -> 
  (forall j, (j < length x)%nat -> (j < length y)%nat -> nth j x' 0 - nth j y' 0 = nth j x 0 - nth j y 0) ->
  dist2 x' y' = dist2 x y.
Proof.
  induction x as [|a x IH]; intros y x' y' Lx Ly H; destruct x' as [|a' x']; try discriminate; [reflexivity|].
  destruct y as [|b y], y' as [|b' y']; try discriminate; [reflexivity|].
  cbn [dist2]. pose proof (H 0%nat ltac:(cbn; lia) ltac:(cbn; lia)) as E. cbn [nth] in E.
  rewrite (IH y x' y'); [rewrite E; reflexivity| cbn in *; lia|cbn in *; lia|].
  intros j Hj Hj'. apply (H (S j)); cbn; lia.
Qed.

Lemma nth_map_seq : forall (f : nat -> R) n j, (j < n)%nat -> nth j (map f (seq 0 n)) 0 = f j.
Proof.
  intros f n j Hj. rewrite (nth_indep _ 0 (f 0%nat)) by (rewrite map_length, seq_length; exact Hj).
  rewrite (map_nth f), seq_nth by exact Hj. reflexivity.
Qed.

(** Translating both, or taking images of both, keeps the set of distances between x
    and the images of y, hence its minimum. *)
Lemma img_D_moved : forall side x y x' y' (d : nat -> R),
  positive side -> length x = length side -> length y = length side -> length x' = length side -> length y' = length side ->
  (forall j, (j < length side)%nat -> exists n : Z, nth j x' 0 = nth j x 0 + d j + IZR n * nth j side 0) ->
  (forall j, (j < length side)%nat -> exists n : Z, nth j y' 0 = nth j y 0 + d j + IZR n * nth j side 0) ->
  img_D side x' y' = img_D side x y.
Proof.
  assert (G : forall side x y x' y' (d : nat -> R),
    positive side -> length x = length side -> length y = length side -> length x' = length side -> length y' = length side ->
    (forall j, (j < length side)%nat -> exists n : Z, nth j x' 0 = nth j x 0 + d j + IZR n * nth j side 0) ->
    (forall j, (j < length side)%nat -> exists n : Z, nth j y' 0 = nth j y 0 + d j + IZR n * nth j side 0) ->
    img_D side x' y' <= img_D side x y).
  { intros side x y x' y' d Hp Lx Ly Lx' Ly' Hx Hy.
    destruct (img_D_distance side x y Hp Lx Ly) as [[ks [Lk E]] _].
    destruct (img_D_distance side x' y' Hp Lx' Ly') as [_ M].
    rewrite E.
    set (z := shifted y ks side). pose proof (shifted_image side y ks Ly Lk) as [_ [Lz Hz]]. fold z in Lz, Hz.
    (* image of y' at the same separation from x' *)
    set (w := map (fun j => nth j x' 0 - nth j x 0 + nth j z 0) (seq 0 (length side))).
    assert (W : forall j, (j < length side)%nat -> nth j w 0 = nth j x' 0 - nth j x 0 + nth j z 0).
    { intros j Hj. unfold w. apply (nth_map_seq (fun j => nth j x' 0 - nth j x 0 + nth j z 0)). exact Hj. }
    assert (Lw : length w = length side) by (unfold w; rewrite map_length, seq_length; reflexivity).
    assert (Iw : image side y' w).
    { split; [exact Ly'|]. split; [exact Lw|]. intros j Hj. destruct (Hx j Hj) as [n En]. destruct (Hy j Hj) as [m Em].
      destruct (Hz j Hj) as [k Ek]. exists (n + k - m)%Z. rewrite W by exact Hj. rewrite Ek, En, Em, minus_IZR, plus_IZR. ring. }
    destruct (image_shifted side y' w Iw) as [ks' [Lk' Ew]].
    specialize (M ks' Lk'). rewrite <- Ew in M.
    replace (euclid x z) with (euclid x' w); [exact M|].
    unfold euclid. f_equal. apply dist2_diff; [congruence|congruence|]. intros j Hj _. rewrite W by congruence. ring. }
  intros side x y x' y' d Hp Lx Ly Lx' Ly' Hx Hy. apply Rle_antisym; [apply (G side x y x' y' d); assumption|].
  apply (G side x' y' x y (fun j => - d j)); try assumption.
  - intros j Hj. destruct (Hx j Hj) as [n E]. exists (- n)%Z. rewrite E, opp_IZR. ring.
  - intros j Hj. destruct (Hy j Hj) as [n E]. exists (- n)%Z. rewrite E, opp_IZR. ring.
Qed.

(** [carried side d x y]: y is an image of x + d. *)
Lemma moved_fits : forall side d p q, Forall2 (carried side d) p q -> p <> [] -> fits side p /\ fits side q.
Proof.
  intros side d p q H Hp. split; split.
  - exact Hp.
  - intros r Hr. clear Hp. induction H as [|a b p q Hab Hl IH]; [destruct Hr|]. destruct Hr as [<-|Hr]; [apply Hab|auto].
  - destruct H; [contradiction|discriminate].
  - intros r Hr. clear Hp. induction H as [|a b p q Hab Hl IH]; [destruct Hr|]. destruct Hr as [<-|Hr]; [apply Hab|auto].
Qed.

Lemma gr_moved : forall pi V crop ndims same (grid es : list R) skip pos0 pos1 sides pos0' pos1' (d : nat -> nat -> R),
  edges_of_grid Rops grid = Ok es -> StronglySorted Rlt es ->
  gr_input same skip pos0 pos1 sides ->
  length pos0' = length pos0 -> length pos1' = length pos1 ->
  (forall i, (i < length pos0)%nat ->
     Forall2 (carried (nth i sides []) (d i)) (nth i pos0 []) (nth i pos0' []) /\
     Forall2 (carried (nth i sides []) (d i)) (nth i pos1 []) (nth i pos1' [])) ->
  (same = true -> pos1' = pos0') ->
  gr_legacy Rops pi ndims same grid skip pos0' pos1' sides V crop
  = gr_legacy Rops pi ndims same grid skip pos0 pos1 sides V crop.
Proof.
  intros pi V crop ndims same grid es skip pos0 pos1 sides pos0' pos1' d He Hs I L0 L1 F Hsame.
  assert (I' : gr_input same skip pos0' pos1' sides).
  { destruct I as [A B C D E G]. split; try assumption; try congruence.
    intros i Hi. rewrite L0 in Hi. destruct (F i Hi) as [F0 F1]. destruct (G i Hi) as [[X _] [Y _]].
    split; [apply (moved_fits _ _ _ _ F0 X)|apply (moved_fits _ _ _ _ F1 Y)]. }
  apply (gr_legacy_ext _ _ _ _ _ _ es); try assumption.
  intros i Hi. destruct (F i Hi) as [F0 F1].
  split; [apply (Forall2_nth_all _ _ _ _ _ [] [] F0)|]. split; [apply (Forall2_nth_all _ _ _ _ _ [] [] F1)|].
  intros P. apply (neighbours_rel same img_D P _ _ (carried (nth i sides []) (d i))); try assumption.
  intros x y x' y' [Lx [Lx' Hx]] [Ly [Ly' Hy]]. f_equal. apply (img_D_moved _ _ _ _ _ (d i)); try assumption.
  apply (gi_pos _ _ _ _ _ I). apply nth_In. rewrite (gi_len2 _ _ _ _ _ I). exact Hi.
Qed.

(** ** Unit of length *)
Section Unit.
Variable c : R.
Hypothesis Hc : 0 < c.

Lemma timesv_len : forall v, length (timesv c v) = length v.
Proof. intros. unfold timesv. apply map_length. Qed.

Lemma shifted_timesv : forall y ks side, shifted (timesv c y) ks (timesv c side) = timesv c (shifted y ks side).
Proof.
  induction y as [|a y IH]; intros [|k ks] [|L side]; try reflexivity. cbn [timesv map shifted].
  f_equal; [ring|]. apply (IH ks side).
Qed.

Lemma euclid_timesv : forall x y, euclid (timesv c x) (timesv c y) = c * euclid x y.
Proof.
  intros x y. unfold euclid. rewrite dist2_scale, sqrt_mult_alt by (apply Rle_0_sqr). rewrite sqrt_square; [reflexivity|lra].
Qed.

Lemma img_D_scale : forall side x y, positive side -> length x = length side -> length y = length side ->
  img_D (timesv c side) (timesv c x) (timesv c y) = c * img_D side x y.
Proof.
  intros side x y Hp Lx Ly.
  assert (P' : positive (timesv c side)).
  { intros L HL. unfold timesv in HL. apply in_map_iff in HL. destruct HL as [l [<- Hl]]. apply Rmult_lt_0_compat; auto. }
  apply (min_image_unique (timesv c x) (timesv c y) (timesv c side)).
  - apply img_D_distance; [exact P'| |]; rewrite !timesv_len; assumption.
  - destruct (img_D_distance side x y Hp Lx Ly) as [[ks [Lk E]] M]. split.
    + exists ks. rewrite timesv_len. split; [exact Lk|]. rewrite shifted_timesv, euclid_timesv, E. reflexivity.
    + intros ks' Lk'. rewrite timesv_len in Lk'. rewrite shifted_timesv, euclid_timesv.
      apply Rmult_le_compat_l; [lra|apply M; exact Lk'].
Qed.

Lemma nth_scale : forall k es, nth k (map (Rmult c) es) 0 = c * nth k es 0.
Proof. intros k es. rewrite <- (Rmult_0_r c) at 1. apply map_nth. Qed.

Lemma Rleb_scale : forall a b, Rleb (c * a) (c * b) = Rleb a b.
Proof. intros. destruct (Rleb_spec a b), (Rleb_spec (c * a) (c * b)); try reflexivity; nra. Qed.
Lemma Rltb_scale : forall a b, Rltb (c * a) (c * b) = Rltb a b.
Proof. intros. destruct (Rltb_spec a b), (Rltb_spec (c * a) (c * b)); try reflexivity; nra. Qed.

Lemma in_bin_scale : forall es k v, in_bin 0 Rleb Rltb (map (Rmult c) es) k (c * v) = in_bin 0 Rleb Rltb es k v.
Proof. intros. unfold in_bin. rewrite map_length, !nth_scale, Rleb_scale, Rltb_scale, Rleb_scale. reflexivity. Qed.

Lemma edges_scale : forall grid es, edges_of_grid Rops grid = Ok es -> edges_of_grid Rops (map (Rmult c) grid) = Ok (map (Rmult c) es).
Proof.
  intros grid es H. unfold edges_of_grid in *. change (num Rops) with R in *.
  apply bind_Ok_inv in H. destruct H as [g0 [E0 H]]. apply bind_Ok_inv in H. destruct H as [g1 [E1 H]].
  apply bind_Ok_inv in H. destruct H as [gl [El H]]. apply Ok_inj in H. subst es.
  rewrite !get_map, getZ_map, E0, E1, El. cbn [bind nsub nadd ndiv nofZ Rops]. f_equal. rewrite map_app, !map_map. cbn [map].
  f_equal; [apply map_ext; intros; field|f_equal; field].
Qed.

Lemma bins_upto_scale : forall es r, bins_upto (map (Rmult c) es) (c * r) = bins_upto es r.
Proof.
  intros. unfold bins_upto. rewrite map_length. apply filter_ext. intros k. unfold center. rewrite !nth_scale.
  replace ((c * nth k es 0 + c * nth (k + 1) es 0) / 2) with (c * ((nth k es 0 + nth (k + 1) es 0) / 2)) by field.
  apply Rleb_scale.
Qed.

Lemma npow_scale : forall n x, npow Rops (c * x) n = npow Rops c n * npow Rops x n.
Proof. induction n as [|n IH]; intros x; cbn [npow]; cbn [nmul n1 Rops]; [|rewrite IH];
  match goal with |- @eq _ ?a ?b => change (@eq R a b) end; ring. Qed.

Lemma npow_pow : forall n x, npow Rops x n = x ^ n.
Proof. induction n as [|n IH]; intros x; cbn [npow pow]; [reflexivity|]. rewrite IH. reflexivity. Qed.

Lemma shell_scale : forall pi d r0 r1, shell Rops pi d (c * r0) (c * r1) = c ^ d * shell Rops pi d r0 r1.
Proof.
  intros pi d r0 r1. rewrite <- npow_pow.
  assert (G : forall n, npow Rops (c * r1) n - npow Rops (c * r0) n = npow Rops c n * (npow Rops r1 n - npow Rops r0 n)).
  { intros n. rewrite !npow_scale. ring. }
  unfold shell. destruct d as [|[|[|[|d]]]]; cbn [nsub nmul ndiv nofZ Rops]; rewrite G; unfold Rdiv; match goal with |- @eq _ ?a ?b => change (@eq R a b) end; ring.
Qed.

Lemma gr_scale : forall pi V crop ndims same (grid es : list R) skip pos0 pos1 sides out,
  edges_of_grid Rops grid = Ok es -> StronglySorted Rlt es ->
  gr_input same skip pos0 pos1 sides -> V <> 0 ->
  gr_legacy Rops pi ndims same grid skip pos0 pos1 sides V crop = Ok out ->
  gr_legacy Rops pi ndims same (map (Rmult c) grid) skip (map (map (timesv c)) pos0) (map (map (timesv c)) pos1)
    (map (timesv c) sides) (c ^ ndims * V) (c * crop)
  = Ok (map (fun p => (c * fst p, snd p)) out).
Proof.
  intros pi V crop ndims same grid es skip pos0 pos1 sides out He Hs I HV Ho.
  assert (Hs' : StronglySorted Rlt (map (Rmult c) es)).
  { clear - Hs Hc. induction Hs as [|a l Hl IH Hf]; cbn [map]; constructor; [exact IH|].
    apply Forall_forall. intros x Hx. apply in_map_iff in Hx. destruct Hx as [y [<- Hy]]. rewrite Forall_forall in Hf.
    apply Rmult_lt_compat_l; auto. }
  assert (NF : forall p i, nth i (map (map (timesv c)) p) [] = map (timesv c) (nth i p [])) by (intros; apply (map_nth (map (timesv c)) p [])).
  assert (NS : forall i, nth i (map (timesv c) sides) [] = timesv c (nth i sides [])) by (intros; apply (map_nth (timesv c) sides [])).
  assert (I' : gr_input same skip (map (map (timesv c)) pos0) (map (map (timesv c)) pos1) (map (timesv c) sides)).
  { destruct I as [A B C D E F]. split; rewrite ?map_length; try assumption.
    - intros H. rewrite D by exact H. reflexivity.
    - intros s H. apply in_map_iff in H. destruct H as [s0 [<- H]]. intros L HL. unfold timesv in HL. apply in_map_iff in HL.
      destruct HL as [l [<- Hl]]. apply Rmult_lt_0_compat; [exact Hc|]. apply (E s0 H). exact Hl.
    - intros i Hi. rewrite !NF, NS. destruct (F i Hi) as [[X1 X2] [Y1 Y2]].
      split; split.
      + intros Z. apply X1. destruct (nth i pos0 []); [reflexivity|discriminate].
      + intros r Hr. apply in_map_iff in Hr. destruct Hr as [r0 [<- Hr]]. rewrite !timesv_len. auto.
      + intros Z. apply Y1. destruct (nth i pos1 []); [reflexivity|discriminate].
      + intros r Hr. apply in_map_iff in Hr. destruct Hr as [r0 [<- Hr]]. rewrite !timesv_len. auto. }
  rewrite (gr_legacy_form img_D pi V crop ndims same grid es skip pos0 pos1 sides img_D_distance He Hs I) in Ho. apply Ok_inj in Ho. subst out.
  rewrite (gr_legacy_form img_D pi _ _ ndims same _ _ skip _ _ _ img_D_distance (edges_scale _ _ He) Hs' I').
  rewrite bins_upto_scale, map_map. apply (f_equal Ok). apply map_ext_in. intros k Hk. cbn [fst snd].
  apply pair_equal_spec. split; [unfold center; rewrite !nth_scale; field|].
  assert (N0 : forall p, mean_number (map (map (timesv c)) p) = mean_number p).
  { intros p. unfold mean_number. rewrite map_map. apply rmean_ext. intros. rewrite map_length. reflexivity. }
  rewrite !N0, !nth_scale, shell_scale.
  assert (M : mean_neighbours img_D same skip (map (map (timesv c)) pos0) (map (map (timesv c)) pos1) (map (timesv c) sides)
      (in_bin 0 Rleb Rltb (map (Rmult c) es) k) = mean_neighbours img_D same skip pos0 pos1 sides (in_bin 0 Rleb Rltb es k)).
  { unfold mean_neighbours. rewrite map_length. apply rmean_ext. intros i Hi. f_equal.
    assert (Hi' : (i < length pos0)%nat) by (apply filter_In in Hi; destruct Hi as [Hi _]; apply in_seq in Hi; lia).
    destruct (gi_fit _ _ _ _ _ I i Hi') as [[_ X] [_ Y]]. rewrite !NF, NS.
    assert (FM : forall p : list (list R), (forall r, In r p -> length r = length (nth i sides [])) ->
      Forall2 (fun x x' => length x = length (nth i sides []) /\ x' = timesv c x) p (map (timesv c) p)).
    { intros p Hp. induction p as [|r p IH]; cbn [map]; constructor; [split; [apply Hp; left; reflexivity|reflexivity]|].
      apply IH. intros q Hq. apply Hp. right. exact Hq. }
    apply (neighbours_rel same img_D _ _ _ _ _ _ _ _ _ (FM _ X) (FM _ Y)).
    intros x y x' y' [Lx ->] [Ly ->]. rewrite img_D_scale; try assumption; [apply in_bin_scale|].
    apply (gi_pos _ _ _ _ _ I). apply nth_In. rewrite (gi_len2 _ _ _ _ _ I). exact Hi'. }
  rewrite M. f_equal. unfold Rdiv. rewrite Rinv_mult.
  pose proof (pow_lt c ndims Hc) as Pc. set (q := c ^ ndims) in *. 
  field_simplify_eq; [reflexivity|split; [exact HV|lra]].
Qed.
End Unit.
