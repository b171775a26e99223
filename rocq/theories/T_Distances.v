(** Pair distances and histograms of distances in double precision: C115, C116. *)
From Coq Require Import List ZArith Bool Arith Reals Lia Lra Psatz Floats.SpecFloat.
From Verif Require Import PyBase PyBaseFacts Num Spec_Stats NumFacts P_Text F64Round F64Ops F64Facts F64Sqrt P_F64Mean M_Helpers M_Correlation M_Dynamics M_Realspace
  Spec_Dynamics P_Dynamics P_Overlap Spec_Pairs P_Pairs P_Image P_Count P_GrFast P_GrFast2 Spec_Doubles P_F64Time P_F64Overlap P_F64Msd P_F64Order T_Realspace Spec_Dot P_F64Dot Spec_Dist P_F64Dist P_F64Bins.
Import ListNotations.
Local Open Scope R_scope.

Lemma pair_coords_impl : forall (P Q : f64 -> f64 -> f64 -> Prop), (forall a b L, P a b L -> Q a b L) -> forall x y side, pair_coords P x y side -> pair_coords Q x y side.
Proof. intros P Q H. induction x as [|a x IH]; intros [|b y] [|L side] HP; try destruct HP; cbn [pair_coords]; auto. Qed.
Lemma pair_coords_sym : forall (P : f64 -> f64 -> f64 -> Prop) x y side, pair_coords P x y side -> pair_coords (fun a b L => P b a L) y x side.
Proof. intros P. induction x as [|a x IH]; intros [|b y] [|L side] HP; try destruct HP; cbn [pair_coords]; auto. Qed.
Lemma pair_coords_length : forall (P : f64 -> f64 -> f64 -> Prop) x y side, pair_coords P x y side -> length x = length side /\ length y = length side.
Proof. intros P. induction x as [|a x IH]; intros [|b y] [|L side] HP; try destruct HP; cbn [length]; auto. destruct (IH y side H0) as [-> ->]. auto. Qed.
Lemma pair_coords_side : forall (P : f64 -> f64 -> f64 -> Prop) (Q : f64 -> Prop), (forall a b L, P a b L -> Q L) -> forall x y side, pair_coords P x y side -> forall L, In L side -> Q L.
Proof. intros P Q H. induction x as [|a x IH]; intros [|b y] [|L side] HP l Hl; try destruct HP; [destruct Hl|]. destruct Hl as [<-|Hl]; [eapply H; eassumption|eapply IH; eassumption]. Qed.

Lemma spread_sym : forall x y side, spread x y side = spread y x side.
Proof. induction x as [|a x IH]; intros [|b y] [|L side]; try reflexivity. cbn [spread]. rewrite IH, Rabs_minus_sym. reflexivity. Qed.

Lemma regular_sym : forall m x y side, regular m x y side -> regular m y x side.
Proof.
  intros m x y side [H1 [H2 H3]]. split; [exact H1|]. split; [exact H2|]. apply pair_coords_sym in H3. revert H3. apply pair_coords_impl. intros a b L [[C1 [C2 [C3 [C4 [C5 C6]]]]] F].
  split; [repeat split; try assumption; try apply C1; try apply C2; try apply C3; try apply C6|rewrite Rabs_minus_sym; exact F].
Qed.

Lemma coordinate_size : forall a b L, coordinate a b L -> p2 (-400) <= fval L /\ Rabs (fval a - fval b) + fval L <= p2 405.
Proof.
  intros a b L [_ [_ [_ [A [B [L1 L2]]]]]]. split; [exact L1|]. assert (E : p2 405 = 32 * p2 400) by (change 405%Z with (400 + 1 + 1 + 1 + 1 + 1)%Z; rewrite !p2_succ; ring). rewrite E.
  assert (Rabs (fval a - fval b) <= Rabs (fval a) + Rabs (fval b)) by (unfold Rminus; apply Rle_trans with (1 := Rabs_triang _ _); rewrite Rabs_Ropp; lra). pose proof (p2_pos 400). lra.
Qed.

Lemma spread_bound : forall m x y side, pair_coords (fun a b L => coordinate a b L /\ Rabs (fval a - fval b) <= m * fval L) x y side ->
  0 <= spread (map fval x) (map fval y) (map fval side) <= INR (length side) * p2 405.
Proof.
  intros m. induction x as [|a x IH]; intros [|b y] [|L side] HP; try destruct HP; cbn [map spread length]; [cbn [INR]; lra|]. specialize (IH y side H0). rewrite S_INR. destruct (coordinate_size a b L (proj1 H)) as [S1 S2].
  pose proof (p2_pos (-400)). pose proof (Rabs_pos (fval a - fval b)). lra.
Qed.

Lemma img_dist_spread : forall x y side, positive side -> img_dist Rops x y side <= spread x y side.
Proof.
  intros x y side Hp. assert (Ei : img_dist Rops x y side = norm2 (map2 (fun r L => per r L) (map2 Rminus x y) side)).
  { unfold img_dist, img_sq, norm2. cbn [nsqrt Rops]. f_equal. rewrite nsum_R. unfold map2. rewrite map_map. f_equal. apply map_ext. intros p. unfold nsq, per. cbn [nmul Rops].
    rewrite <- Rabs_mult. symmetry. apply Rabs_right. apply Rle_ge, Rle_0_sqr. }
  refine (Rle_trans _ _ _ (Req_le _ _ Ei) _). apply Rle_trans with (1 := norm_le _). clear Ei. revert y side Hp. unfold map2.
  induction x as [|a x IH]; intros [|b y] [|L side] Hp; cbn [combine map rsum spread fst snd]; try lra.
  specialize (IH y side (fun l Hl => Hp l (or_intror Hl))). assert (L0 : 0 < L) by (apply Hp; left; reflexivity). assert (per (a - b) L <= L / 2) by (apply image_half; exact L0). assert (0 <= per (a - b) L) by apply Rabs_pos. pose proof (Rabs_pos (a - b)). rewrite (Rabs_right (per (a - b) L)) by lra. lra.
Qed.

Lemma regular_positive : forall m x y side, regular m x y side -> positive (map fval side).
Proof.
  intros m x y side [_ [_ H]] L HL. apply in_map_iff in HL. destruct HL as [l [<- Hl]]. apply (pair_coords_side _ (fun l => 0 < fval l)) with (2 := H); [|exact Hl].
  intros a b l' [C _]. apply Rlt_le_trans with (2 := proj1 (coordinate_size a b l' C)), p2_pos.
Qed.

Lemma regular_size : forall m x y side v, regular m x y side -> Rabs (v - img_dist Rops (map fval x) (map fval y) (map fval side)) <= slack (map fval x) (map fval y) (map fval side) -> v <= p2 500.
Proof.
  intros m x y side v Rg H. pose proof (img_dist_spread (map fval x) (map fval y) (map fval side) (regular_positive _ _ _ _ Rg)) as D. destruct Rg as [_ [Hd HP]]. destruct (spread_bound _ _ _ _ HP) as [S0 S1].
  unfold slack in H. rewrite map_length in H. set (s := spread (map fval x) (map fval y) (map fval side)) in *. set (d := length side) in *.
  assert (Dn : INR d <= p2 40) by (rewrite p2_Z by lia; rewrite INR_IZR_INZ; apply IZR_le; exact Hd).
  assert (U : (2 * INR d + 15) * p2 (-53) <= 1).
  { apply Rle_trans with (p2 50 * p2 (-53)); [|rewrite <- p2_add; change 1 with (p2 0); apply p2_le; lia]. apply Rmult_le_compat_r; [left; apply p2_pos|]. apply Rle_trans with (2 * p2 40 + p2 40); [|apply Rle_trans with (p2 42); [change 42%Z with (40 + 1 + 1)%Z; rewrite !p2_succ; pose proof (p2_pos 40); lra|apply p2_le; lia]].
    assert (15 <= p2 40) by (apply Rle_trans with (p2 4); [unfold p2; simpl; lra|apply p2_le; lia]). lra. }
  assert (B : (2 * INR d + 15) * p2 (-53) * s <= s) by (rewrite <- (Rmult_1_l s) at 2; apply Rmult_le_compat_r; assumption).
  apply Rabs_le_inv in H. apply Rle_trans with (2 * s); [lra|]. apply Rle_trans with (2 * (p2 40 * p2 405)); [assert (INR d * p2 405 <= p2 40 * p2 405) by (apply Rmult_le_compat_r; [left; apply p2_pos|exact Dn]); lra|].
  rewrite <- p2_add, <- p2_succ. apply p2_le. lia.
Qed.

(** ** C115 *)
(** The distance of the Python kernel, in double precision, is the distance of the
    closest periodic images of the two particles up to (2 d + 15) 2^-53 times the sum over the
    directions of the difference of the coordinates and the side of the cell, for any
    positions up to 2^40 cells apart and whatever the order of the sum. *)
Theorem C115_python :
  forall (x y side : list f64) s D, regular (p2 40) x y side -> min_image (map fval x) (map fval y) (map fval side) D ->
  sum_of (map2 (fun r L => nsq F64ops (image F64ops r L)) (map2 (nsub F64ops) x y) side) s ->
  ok (nsqrt F64ops s) /\ 0 <= fval (nsqrt F64ops s) /\ Rabs (fval (nsqrt F64ops s) - D) <= slack (map fval x) (map fval y) (map fval side).
Proof.
  intros x y side s D Rg HD Hs. pose proof (regular_positive _ _ _ _ Rg) as Pos. destruct Rg as [Ne [Hd HP]]. destruct (pair_coords_length _ _ _ _ HP) as [Lx Ly].
  assert (ED : img_dist Rops (map fval x) (map fval y) (map fval side) = D) by (apply (min_image_unique (map fval x) (map fval y) (map fval side)); [apply img_dist_min; [exact Pos|rewrite !map_length; exact Lx|rewrite !map_length; exact Ly]|exact HD]).
  destruct (components_close (image F64ops) (fun a b L => coordinate a b L /\ Rabs (fval a - fval b) <= p2 40 * fval L)) with (x := x) (y := y) (side := side) (s := s) as [K [S0 B]]; try assumption.
  - intros a b L [C F]. destruct (coordinate_size a b L C) as [S1 S2]. split; [exact S1|]. split; [exact S2|]. apply image_close; assumption.
  - split; [exact K|]. split; [exact S0|]. unfold slack. rewrite map_length. rewrite <- ED. exact B.
Qed.
Print Assumptions C115_python.

(** The kernel itself. *)
Theorem C115_img_dist :
  forall (x y side : list f64) D, regular (p2 40) x y side -> min_image (map fval x) (map fval y) (map fval side) D ->
  ok (img_dist F64ops x y side) /\ 0 <= fval (img_dist F64ops x y side) /\ Rabs (fval (img_dist F64ops x y side) - D) <= slack (map fval x) (map fval y) (map fval side).
Proof. intros x y side D Rg HD. apply (C115_python x y side (img_sq F64ops x y side) D Rg HD). apply nsum_sum_of. Qed.
Print Assumptions C115_img_dist.

(** The Fortran kernels, for particles at most 3/2 sides apart (in particular in the same cell). *)
Theorem C115_fdist :
  forall (x y side : list f64) D, regular (3 / 2) x y side -> min_image (map fval x) (map fval y) (map fval side) D ->
  ok (fdist F64ops x y side) /\ 0 <= fval (fdist F64ops x y side) <= p2 500 /\ Rabs (fval (fdist F64ops x y side) - D) <= slack (map fval x) (map fval y) (map fval side).
Proof.
  intros x y side D Rg HD. pose proof (regular_positive _ _ _ _ Rg) as Pos. pose proof (regular_sym _ _ _ _ Rg) as [Ne [Hd HP]]. destruct (pair_coords_length _ _ _ _ HP) as [Ly Lx].
  assert (ED : img_dist Rops (map fval x) (map fval y) (map fval side) = D) by (apply (min_image_unique (map fval x) (map fval y) (map fval side)); [apply img_dist_min; [exact Pos|rewrite !map_length; exact Lx|rewrite !map_length; exact Ly]|exact HD]).
  assert (ES : img_dist Rops (map fval y) (map fval x) (map fval side) = D) by (rewrite <- ED; apply img_dist_sym; [exact Pos| |]; rewrite !map_length; assumption).
  destruct (components_close (wrap F64ops) (fun a b L => coordinate a b L /\ Rabs (fval a - fval b) <= 3 / 2 * fval L)) with (x := y) (y := x) (side := side)
    (s := nsum F64ops (map2 (fun r L => nsq F64ops (wrap F64ops r L)) (map2 (nsub F64ops) y x) side)) as [K [S0 B]]; try assumption.
  - intros a b L [C F]. destruct (coordinate_size a b L C) as [S1 S2]. split; [exact S1|]. split; [exact S2|]. apply wrap_close; assumption.
  - apply nsum_sum_of.
  - assert (B' : Rabs (fval (fdist F64ops x y side) - D) <= slack (map fval x) (map fval y) (map fval side)).
    { unfold slack. rewrite map_length, (spread_sym (map fval x)). rewrite <- ES. exact B. }
    split; [exact K|]. split; [split; [exact S0|]|exact B']. apply (regular_size _ _ _ _ _ Rg). rewrite ED. exact B'.
Qed.
Print Assumptions C115_fdist.

(** The two backends agree up to twice the same error. *)
Theorem C115_backends :
  forall (x y side : list f64), regular (3 / 2) x y side ->
  Rabs (fval (img_dist F64ops x y side) - fval (fdist F64ops x y side)) <= 2 * slack (map fval x) (map fval y) (map fval side).
Proof.
  intros x y side Rg. pose proof (regular_positive _ _ _ _ Rg) as Pos. assert (Rg' : regular (p2 40) x y side).
  { destruct Rg as [Ne [Hd HP]]. split; [exact Ne|]. split; [exact Hd|]. revert HP. apply pair_coords_impl. intros a b L [C F]. split; [exact C|]. apply Rle_trans with (1 := F).
    destruct (coordinate_size a b L C) as [S1 _]. pose proof (p2_pos (-400)). apply Rmult_le_compat_r; [lra|]. apply Rle_trans with (p2 1); [unfold p2; simpl; lra|apply p2_le; lia]. }
  destruct (pair_coords_length _ _ _ _ (proj2 (proj2 Rg))) as [Lx Ly].
  assert (M : min_image (map fval x) (map fval y) (map fval side) (img_dist Rops (map fval x) (map fval y) (map fval side))) by (apply img_dist_min; [exact Pos| |]; rewrite !map_length; assumption).
  destruct (C115_img_dist x y side _ Rg' M) as [_ [_ A]]. destruct (C115_fdist x y side _ Rg M) as [_ [_ B]].
  set (D := img_dist Rops (map fval x) (map fval y) (map fval side)) in *. change (num Rops) with R in D.
  apply Rabs_le_inv in A. apply Rabs_le_inv in B. apply Rabs_le. lra.
Qed.
Print Assumptions C115_backends.

Lemma frac_val : forall p q, (Z.abs p <= 16)%Z -> (1 <= q <= 16)%Z -> ok (f64_frac p q) /\ Rabs (fval (f64_frac p q) - IZR p / IZR q) <= / 1024.
Proof.
  intros p q Hp Hq. destruct (ofZ_exact p ltac:(lia)) as [[Vp Fp] Ep]. destruct (ofZ_exact q ltac:(lia)) as [[Vq Fq] Eq].
  assert (Q : 1 <= IZR q <= 16) by (split; apply IZR_le; lia). assert (P : Rabs (IZR p) <= 16) by (rewrite <- abs_IZR; apply IZR_le; exact Hp).
  pose proof (div_spec (f64_ofZ p) (f64_ofZ q) Vp Vq Fp Fq ltac:(rewrite Eq; lra)) as G. rewrite Ep, Eq in G. fold (f64_frac p q) in G.
  assert (B : Rabs (IZR p / IZR q) <= 16).
  { unfold Rdiv. rewrite Rabs_mult, (Rabs_right (/ IZR q)) by (apply Rle_ge, Rlt_le, Rinv_0_lt_compat; lra).
    assert (0 < / IZR q <= 1) by (split; [apply Rinv_0_lt_compat; lra|rewrite <- Rinv_1; apply Rinv_le_contravar; lra]). pose proof (Rabs_pos (IZR p)). nra. }
  assert (K : ok (f64_frac p q)).
  { apply (rounded_bounded _ _ (p2 4) G); [apply format_p2; lia|apply Rle_trans with (1 := B); unfold p2; simpl; lra|apply p2_lt; lia]. }
  split; [exact K|]. apply Rle_trans with (1 := rounded_error _ _ G K).
  assert (u <= / 65536) by (unfold u; apply Rle_trans with (p2 (-16)); [apply p2_le; lia|unfold p2; simpl; lra]).
  assert (tiny <= / 65536) by (unfold tiny; apply Rle_trans with (p2 (-16)); [apply p2_le; lia|unfold p2; simpl; lra]).
  pose proof (Rabs_pos (IZR p / IZR q)). assert (0 < u) by apply p2_pos. nra.
Qed.

(** Particles at opposite sides of a cell of side 0.3: 0.1 and -0.1 are 0.1 apart. *)
Definition opposite : list f64 * list f64 * list f64 := ([f64_frac 1 10; f64_ofZ 0], [f64_frac (-1) 10; f64_ofZ 0], [f64_frac 3 10; f64_ofZ 1]).
Example C115_nonvacuous :
  regular (3 / 2) (fst (fst opposite)) (snd (fst opposite)) (snd opposite) /\ 
  img_dist F64ops (fst (fst opposite)) (snd (fst opposite)) (snd opposite) = fdist F64ops (fst (fst opposite)) (snd (fst opposite)) (snd opposite) /\
  SFltb (fdist F64ops (fst (fst opposite)) (snd (fst opposite)) (snd opposite)) (f64_frac 1 10) = true.
Proof.
  split; [|split; vm_compute; reflexivity].
  destruct (frac_val 1 10 ltac:(lia) ltac:(lia)) as [K1 V1]. destruct (frac_val (-1) 10 ltac:(lia) ltac:(lia)) as [K2 V2]. destruct (frac_val 3 10 ltac:(lia) ltac:(lia)) as [K3 V3].
  destruct (ofZ_exact 0 ltac:(lia)) as [K4 V4]. destruct (ofZ_exact 1 ltac:(lia)) as [K5 V5].
  apply Rabs_le_inv in V1. apply Rabs_le_inv in V2. apply Rabs_le_inv in V3.
  assert (B1 : 2 <= p2 400) by (apply Rle_trans with (p2 1); [unfold p2; simpl; lra|apply p2_le; lia]).
  assert (B2 : p2 (-400) <= / 16) by (apply Rle_trans with (p2 (-4)); [apply p2_le; lia|unfold p2; simpl; lra]).
  unfold opposite. cbn [fst snd]. split; [discriminate|]. split; [cbn; lia|]. cbn [pair_coords]. unfold coordinate.
  split; [|split; [|exact I]]; (split; [split; [assumption|]; split; [assumption|]; split; [assumption|]; split; [apply Rabs_le; lra|]; split; [apply Rabs_le; lra|lra]|]);
    apply Rabs_le; lra.
Qed.

(** ** C116 *)
Section Groups.
Variables (side : list f64) (D : list R -> list R -> list R -> R) (E : R).
Definition exact (a b : list f64) : R := D (map fval side) (map fval a) (map fval b).
Lemma exact_close : is_distance D -> forall a b, regular (3 / 2) a b side -> slack (map fval a) (map fval b) (map fval side) <= E ->
  ok (fdist F64ops a b side) /\ 0 <= fval (fdist F64ops a b side) <= p2 500 /\ Rabs (fval (fdist F64ops a b side) - exact a b) <= E.
Proof.
  intros HD a b Rg HE. destruct (pair_coords_length _ _ _ _ (proj2 (proj2 Rg))) as [La Lb].
  destruct (C115_fdist a b side (exact a b) Rg) as [K [B A]]; [apply HD; [apply (regular_positive _ _ _ _ Rg)| |]; rewrite !map_length; assumption|].
  split; [exact K|]. split; [exact B|]. apply Rle_trans with (1 := A). exact HE.
Qed.
End Groups.

(** The histograms of the Fortran kernels, in double precision: a pair is in bin k if its
    distance is in [k dr, (k+1) dr) and at least E (the error of C115) and a relative 2^-51 away from the
    ends, and only if it is at most as far outside. *)
Theorem C116_self :
  forall pos side dr n E D h, is_distance D -> width_ok dr -> (1 <= n)%nat -> (Z.of_nat n <= 2 ^ 53)%Z ->
  (forall a b, In a pos -> In b pos -> regular (3 / 2) a b side /\ slack (map fval a) (map fval b) (map fval side) <= E) ->
  gr_self_c F64ops pos side dr n = Ok h ->
  length h = n /\
  (forall K, (K <= n)%nat ->
    (count_pairs (fun a b => Rltb (exact side D a b + E) (INR K * fval dr * (1 - p2 (-51)))) pos [] <= first_bins K h
     <= count_pairs (fun a b => Rltb (exact side D a b) (INR K * fval dr + E)) pos [])%nat) /\
  (forall k, (k < n)%nat ->
    (count_pairs (fun a b => Rleb (INR k * fval dr + E) (exact side D a b) && Rltb (exact side D a b + E) (INR (k + 1) * fval dr * (1 - p2 (-51)))) pos [] <= nth k h 0
     <= count_pairs (fun a b => Rleb (INR k * fval dr * (1 - p2 (-51))) (exact side D a b + E) && Rltb (exact side D a b) (INR (k + 1) * fval dr + E)) pos [])%nat).
Proof.
  intros pos side dr n E D h HD W N1 N2 HP H. rewrite self_loop in H. unfold count_pairs.
  set (dd := fun p : nat * nat => fdist F64ops (nth (fst p) pos []) (nth (snd p) pos []) side) in *.
  set (DD := fun p : nat * nat => exact side D (nth (fst p) pos []) (nth (snd p) pos [])).
  assert (HH : forall p, In p (index_pairs (length pos)) -> ok (dd p) /\ 0 <= fval (dd p) <= p2 500 /\ Rabs (fval (dd p) - DD p) <= E).
  { intros p Hp. unfold index_pairs in Hp. apply filter_In in Hp. destruct p as [i j]. destruct Hp as [Hp _]. apply in_prod_iff in Hp. rewrite !in_seq in Hp.
    destruct (HP (nth i pos []) (nth j pos [])) as [Rg HE]; [apply nth_In; lia|apply nth_In; lia|]. unfold dd, DD. cbn [fst snd]. apply exact_close; assumption. }
  destruct (hist_bounds _ dd DD E dr n W N1 N2 _ _ HH H) as [L C]. split; [exact L|]. split; [exact C|]. exact (hist_bin _ dd DD E dr n W N1 N2 _ _ HH H).
Qed.
Print Assumptions C116_self.

Theorem C116_distinct :
  forall pos1 pos2 side dr n E D h, is_distance D -> width_ok dr -> (1 <= n)%nat -> (Z.of_nat n <= 2 ^ 53)%Z ->
  (forall a b, In a pos1 -> In b pos2 -> regular (3 / 2) a b side /\ slack (map fval a) (map fval b) (map fval side) <= E) ->
  gr_distinct_c F64ops pos1 pos2 side dr n = Ok h ->
  length h = n /\
  (forall K, (K <= n)%nat ->
    (count_prod (fun a b => Rltb (exact side D a b + E) (INR K * fval dr * (1 - p2 (-51)))) pos1 pos2 <= first_bins K h
     <= count_prod (fun a b => Rltb (exact side D a b) (INR K * fval dr + E)) pos1 pos2)%nat) /\
  (forall k, (k < n)%nat ->
    (count_prod (fun a b => Rleb (INR k * fval dr + E) (exact side D a b) && Rltb (exact side D a b + E) (INR (k + 1) * fval dr * (1 - p2 (-51)))) pos1 pos2 <= nth k h 0
     <= count_prod (fun a b => Rleb (INR k * fval dr * (1 - p2 (-51))) (exact side D a b + E) && Rltb (exact side D a b) (INR (k + 1) * fval dr + E)) pos1 pos2)%nat).
Proof.
  intros pos1 pos2 side dr n E D h HD W N1 N2 HP H. rewrite distinct_loop in H. unfold count_prod.
  set (dd := fun p : list f64 * list f64 => fdist F64ops (fst p) (snd p) side) in *.
  set (DD := fun p : list f64 * list f64 => exact side D (fst p) (snd p)).
  assert (HH : forall p, In p (list_prod pos1 pos2) -> ok (dd p) /\ 0 <= fval (dd p) <= p2 500 /\ Rabs (fval (dd p) - DD p) <= E).
  { intros [a b] Hp. apply in_prod_iff in Hp. destruct (HP a b) as [Rg HE]; [apply Hp|apply Hp|]. unfold dd, DD. cbn [fst snd]. apply exact_close; assumption. }
  destruct (hist_bounds _ dd DD E dr n W N1 N2 _ _ HH H) as [L C]. split; [exact L|]. split; [exact C|]. exact (hist_bin _ dd DD E dr n W N1 N2 _ _ HH H).
Qed.
Print Assumptions C116_distinct.

(** With no distance that close to an end of a bin, the kernel ends (no entry beyond the last
    bin) and its histogram is the exact one. *)
Theorem C116_exact :
  forall pos side dr n E D, is_distance D -> width_ok dr -> (1 <= n)%nat -> (Z.of_nat n <= 2 ^ 53)%Z ->
  (forall a b, In a pos -> In b pos -> regular (3 / 2) a b side /\ slack (map fval a) (map fval b) (map fval side) <= E) ->
  (forall p, In p (index_pairs (length pos)) -> forall k, (1 <= k <= n)%nat ->
     let d := exact side D (nth (fst p) pos []) (nth (snd p) pos []) in d + E < INR k * fval dr * (1 - p2 (-51)) \/ INR k * fval dr * (1 + p2 (-51)) + E <= d) ->
  exists h, gr_self_c F64ops pos side dr n = Ok h /\ length h = n /\
    forall k, (k < n)%nat -> nth k h 0%nat = count_pairs (fun a b => slot (fval dr) k (exact side D a b)) pos [].
Proof.
  intros pos side dr n E D HD W N1 N2 HP Far.
  set (dd := fun p : nat * nat => fdist F64ops (nth (fst p) pos []) (nth (snd p) pos []) side).
  set (DD := fun p : nat * nat => exact side D (nth (fst p) pos []) (nth (snd p) pos [])).
  assert (HH : forall p, In p (index_pairs (length pos)) -> ok (dd p) /\ 0 <= fval (dd p) <= p2 500 /\ Rabs (fval (dd p) - DD p) <= E).
  { intros p Hp. unfold index_pairs in Hp. apply filter_In in Hp. destruct p as [i j]. destruct Hp as [Hp _]. apply in_prod_iff in Hp. rewrite !in_seq in Hp.
    destruct (HP (nth i pos []) (nth j pos [])) as [Rg HE]; [apply nth_In; lia|apply nth_In; lia|]. unfold dd, DD. cbn [fst snd]. apply exact_close; assumption. }
  destruct (hist_exists _ dd DD E dr n W N1 N2 (index_pairs (length pos))) as [h Eh].
  { intros p Hp. destruct (HH p Hp) as [A1 [A2 A3]]. split; [exact A1|]. split; [exact A2|]. split; [exact A3|]. destruct (Far p Hp n ltac:(lia)) as [G|G]; [left; exact G|right; unfold DD; lra]. }
  rewrite self_loop. exists h. split; [exact Eh|]. destruct (hist_bounds _ dd DD E dr n W N1 N2 _ _ HH Eh) as [L _]. split; [exact L|]. intros k Hk.
  pose proof (hist_bin _ dd DD E dr n W N1 N2 _ _ HH Eh k Hk) as [C1 C2].
  assert (P : 0 < fval dr) by (apply Rlt_le_trans with (2 := proj1 (proj2 W)), p2_pos).
  assert (U51 : 0 < p2 (-51) < 1) by (pose proof (p2_pos (-51)); assert (p2 (-51) <= p2 (-10)) by (apply p2_le; lia); assert (p2 (-10) = / 1024) by (unfold p2; simpl; lra); lra).
  assert (HE : forall p, In p (index_pairs (length pos)) -> 0 <= E) by (intros p Hp; destruct (HH p Hp) as [_ [_ A]]; apply Rle_trans with (2 := A), Rabs_pos).
  assert (Dp : forall p, In p (index_pairs (length pos)) -> 0 <= DD p).
  { intros p Hp. unfold index_pairs in Hp. apply filter_In in Hp. destruct p as [i j]. destruct Hp as [Hp _]. apply in_prod_iff in Hp. rewrite !in_seq in Hp.
    destruct (HP (nth i pos []) (nth j pos [])) as [Rg _]; [apply nth_In; lia|apply nth_In; lia|]. destruct (pair_coords_length _ _ _ _ (proj2 (proj2 Rg))) as [La Lb].
    unfold DD, exact. cbn [fst snd]. destruct (HD (map fval side) (map fval (nth i pos [])) (map fval (nth j pos [])) (regular_positive _ _ _ _ Rg)) as [[ks [_ Ek]] _]; [rewrite !map_length; assumption|rewrite !map_length; assumption|]. rewrite Ek. apply sqrt_pos. }
  assert (SL : forall p, In p (index_pairs (length pos)) -> slot (fval dr) k (DD p) = true -> DD p + E < INR (k + 1) * fval dr * (1 - p2 (-51)) /\ (k = 0%nat \/ INR k * fval dr + E <= DD p)).
  { intros p Hp Hs. unfold slot in Hs. apply andb_true_iff in Hs. destruct Hs as [Hs1 Hs2]. revert Hs1 Hs2. destruct (Rleb_spec (INR k * fval dr) (DD p)) as [S1|]; [|discriminate]. destruct (Rltb_spec (DD p) (INR (k + 1) * fval dr)) as [S2|]; [|discriminate]. intros _ _.
    pose proof (HE p Hp) as E0. split.
    - destruct (Far p Hp (k + 1)%nat ltac:(lia)) as [G|G]; [exact G|]. exfalso. change (exact side D (nth (fst p) pos []) (nth (snd p) pos [])) with (DD p) in G.
      assert (0 <= INR (k + 1) * fval dr * p2 (-51)) by (apply Rmult_le_pos; [apply Rmult_le_pos; [apply pos_INR|lra]|lra]). lra.
    - destruct k as [|k']; [left; reflexivity|right]. destruct (Far p Hp (S k') ltac:(lia)) as [G|G]; change (exact side D (nth (fst p) pos []) (nth (snd p) pos [])) with (DD p) in G.
      + exfalso. assert (0 <= INR (S k') * fval dr * p2 (-51)) by (apply Rmult_le_pos; [apply Rmult_le_pos; [apply pos_INR|lra]|lra]). lra.
      + assert (0 <= INR (S k') * fval dr * p2 (-51)) by (apply Rmult_le_pos; [apply Rmult_le_pos; [apply pos_INR|lra]|lra]). lra. }
  unfold count_pairs. change (fun p => slot (fval dr) k (exact side D (nth (fst p) pos []) (nth (snd p) pos []))) with (fun p => slot (fval dr) k (DD p)). apply Nat.le_antisymm.
  - apply Nat.le_trans with (1 := C2). apply filter_mono. intros p Hp Hb. apply andb_true_iff in Hb. destruct Hb as [Hb1 Hb2]. revert Hb1 Hb2.
    destruct (Rleb_spec (INR k * fval dr * (1 - p2 (-51))) (DD p + E)) as [S1|]; [|discriminate]. destruct (Rltb_spec (DD p) (INR (k + 1) * fval dr + E)) as [S2|]; [|discriminate]. intros _ _.
    pose proof (HE p Hp) as E0. pose proof (Dp p Hp) as D0. unfold slot. apply andb_true_iff. split.
    + destruct (Rleb_spec (INR k * fval dr) (DD p)) as [|N]; [reflexivity|exfalso]. apply Rnot_le_lt in N. destruct k as [|k']; [cbn [INR] in N; lra|].
      assert (0 <= INR (S k') * fval dr * p2 (-51)) by (apply Rmult_le_pos; [apply Rmult_le_pos; [apply pos_INR|lra]|lra]).
      destruct (Far p Hp (S k') ltac:(lia)) as [G|G]; change (exact side D (nth (fst p) pos []) (nth (snd p) pos [])) with (DD p) in G; lra.
    + destruct (Rltb_spec (DD p) (INR (k + 1) * fval dr)) as [|N]; [reflexivity|exfalso]. apply Rnot_lt_le in N.
      assert (0 <= INR (k + 1) * fval dr * p2 (-51)) by (apply Rmult_le_pos; [apply Rmult_le_pos; [apply pos_INR|lra]|lra]).
      assert (0 < INR (k + 1) * fval dr) by (apply Rmult_lt_0_compat; [apply lt_0_INR; lia|exact P]).
      assert (0 < INR (k + 1) * fval dr * p2 (-51)) by (apply Rmult_lt_0_compat; lra).
      destruct (Far p Hp (k + 1)%nat ltac:(lia)) as [G|G]; change (exact side D (nth (fst p) pos []) (nth (snd p) pos [])) with (DD p) in G; lra.
  - destruct k as [|k'].
    + destruct (hist_bounds _ dd DD E dr n W N1 N2 _ _ HH Eh) as [_ B]. destruct (B 1%nat ltac:(lia)) as [B1 _]. assert (F1 : first_bins 1 h = nth 0 h 0%nat) by (unfold first_bins; destruct h as [|h0 h']; cbn; lia). rewrite <- F1.
      refine (Nat.le_trans _ _ _ _ B1). apply filter_mono. intros p Hp Hs. destruct (SL p Hp Hs) as [Q _]. cbn [Nat.add] in Q. destruct (Rltb_spec (DD p + E) (INR 1 * fval dr * (1 - p2 (-51)))) as [|N]; [reflexivity|contradiction].
    + refine (Nat.le_trans _ _ _ _ C1). apply filter_mono. intros p Hp Hs. destruct (SL p Hp Hs) as [Q1 [Q2|Q2]]; [discriminate|]. apply andb_true_iff. split.
      * destruct (Rleb_spec (INR (S k') * fval dr + E) (DD p)) as [|N]; [reflexivity|contradiction].
      * destruct (Rltb_spec (DD p + E) (INR (S k' + 1) * fval dr * (1 - p2 (-51)))) as [|N]; [reflexivity|contradiction].
Qed.
Print Assumptions C116_exact.

(** The histogram of the Python code (numpy.histogram of the distances of [__pbc]): the bins are
    those of the edges e_0, ..., e_n. *)
Section Legacy.
Variables (side : list f64) (D : list R -> list R -> list R -> R) (E : R).
Hypothesis HD : is_distance D.
Lemma legacy_close : forall a b, regular (p2 40) a b side -> slack (map fval a) (map fval b) (map fval side) <= E ->
  ok (img_dist F64ops a b side) /\ Rabs (fval (img_dist F64ops a b side) - exact side D a b) <= E /\ exact side D b a = exact side D a b.
Proof.
  intros a b Rg HE. destruct (pair_coords_length _ _ _ _ (proj2 (proj2 Rg))) as [La Lb]. pose proof (regular_positive _ _ _ _ Rg) as Pos.
  assert (Ma : min_image (map fval a) (map fval b) (map fval side) (exact side D a b)) by (apply HD; [exact Pos| |]; rewrite !map_length; assumption).
  assert (Mb : min_image (map fval b) (map fval a) (map fval side) (exact side D b a)) by (apply HD; [exact Pos| |]; rewrite !map_length; assumption).
  destruct (C115_img_dist a b side (exact side D a b) Rg Ma) as [K [_ A]]. split; [exact K|]. split; [apply Rle_trans with (1 := A); exact HE|].
  assert (La' : length (map fval a) = length (map fval side)) by (rewrite !map_length; exact La). assert (Lb' : length (map fval b) = length (map fval side)) by (rewrite !map_length; exact Lb).
  rewrite (min_image_unique _ _ _ _ _ Ma (img_dist_min _ _ _ Pos La' Lb')), (min_image_unique _ _ _ _ _ Mb (img_dist_min _ _ _ Pos Lb' La')). apply img_dist_sym; assumption.
Qed.
Lemma legacy_bin : forall es k a b, Forall ok es -> (k + 1 < length es)%nat -> regular (p2 40) a b side -> slack (map fval a) (map fval b) (map fval side) <= E ->
  let d := exact side D a b in let e := fun k => fval (nth k es (n0 F64ops)) in let got := in_bin (n0 F64ops) (nle F64ops) (nlt F64ops) es k (img_dist F64ops a b side) in
  ((Rleb (e k + E) d && Rltb (d + E) (e (k + 1)%nat))%bool = true -> got = true) /\ (got = true -> (Rleb (e k) (d + E) && Rleb d (e (k + 1)%nat + E))%bool = true).
Proof.
  intros es k a b Hes Hk Rg HE d e got. destruct (legacy_close a b Rg HE) as [K [A _]]. fold d in A. apply Rabs_le_inv in A. rewrite Forall_forall in Hes.
  assert (K1 : ok (nth k es (n0 F64ops))) by (apply Hes, nth_In; lia). assert (K2 : ok (nth (k + 1) es (n0 F64ops))) by (apply Hes, nth_In; lia).
  assert (T1 : nle F64ops (nth k es (n0 F64ops)) (img_dist F64ops a b side) = true <-> e k <= fval (img_dist F64ops a b side)) by (apply leb_spec; assumption).
  assert (T2 : nle F64ops (img_dist F64ops a b side) (nth (k + 1) es (n0 F64ops)) = true <-> fval (img_dist F64ops a b side) <= e (k + 1)%nat) by (apply leb_spec; assumption).
  assert (T3 : nlt F64ops (img_dist F64ops a b side) (nth (k + 1) es (n0 F64ops)) = true <-> fval (img_dist F64ops a b side) < e (k + 1)%nat) by (apply ltb_spec; assumption).
  set (v := fval (img_dist F64ops a b side)) in *. unfold got, in_bin. split; intros H.
  - apply andb_true_iff in H. destruct H as [H1 H2]. revert H1 H2. destruct (Rleb_spec (e k + E) d) as [S1|]; [|discriminate]. destruct (Rltb_spec (d + E) (e (k + 1)%nat)) as [S2|]; [|discriminate]. intros _ _.
    apply andb_true_iff. split; [apply T1; lra|]. match goal with |- (if ?c then _ else _) = _ => destruct c end; [apply T2; lra|apply T3; lra].
  - apply andb_true_iff in H. destruct H as [H1 H2]. apply T1 in H1. assert (H3 : v <= e (k + 1)%nat) by (revert H2; match goal with |- (if ?c then _ else _) = _ -> _ => destruct c end; intros H2; [apply T2 in H2|apply T3 in H2]; lra).
    apply andb_true_iff. split; [destruct (Rleb_spec (e k) (d + E)) as [|N]; [reflexivity|exfalso; apply N; lra]|destruct (Rleb_spec d (e (k + 1)%nat + E)) as [|N]; [reflexivity|exfalso; apply N; lra]].
Qed.
End Legacy.

Theorem C116_legacy :
  forall x side es E D, is_distance D -> x <> [] -> edges_ok F64ops es = true -> Forall ok es ->
  (forall a b, In a x -> In b x -> regular (p2 40) a b side /\ slack (map fval a) (map fval b) (map fval side) <= E) ->
  exists h, pairs_newton_hist F64ops (fun a b => img_dist F64ops a b side) x x es = Ok h /\ length h = (length es - 1)%nat /\
  let e := fun k => fval (nth k es (n0 F64ops)) in
  forall k, (k + 1 < length es)%nat ->
    (count_pairs (fun a b => Rleb (e k + E) (exact side D a b) && Rltb (exact side D a b + E) (e (k + 1)%nat)) x [] <= nth k h 0
     <= count_pairs (fun a b => Rleb (e k) (exact side D a b + E) && Rleb (exact side D a b) (e (k + 1)%nat + E)) x [])%nat.
Proof.
  intros x side es E D HD Hx He Hes HP. destruct (C26_newton_counts_once_default F64ops (fun a b => img_dist F64ops a b side) x es Hx He) as [h [Eh [L C]]].
  exists h. split; [exact Eh|]. split; [exact L|]. intros e k Hk. rewrite C by exact Hk. unfold count_pairs.
  assert (G : forall p, In p (index_pairs (length x)) -> In (nth (fst p) x []) x /\ In (nth (snd p) x []) x).
  { intros p Hp. unfold index_pairs in Hp. apply filter_In in Hp. destruct p as [i j]. destruct Hp as [Hp _]. apply in_prod_iff in Hp. rewrite !in_seq in Hp. cbn [fst snd]. split; apply nth_In; lia. }
  split; apply filter_mono; intros p Hp; destruct (G p Hp) as [Ia Ib]; destruct (HP _ _ Ib Ia) as [Rg HE];
    destruct (legacy_close side D E HD _ _ Rg HE) as [_ [_ Sy]]; destruct (legacy_bin side D E HD es k _ _ Hes Hk Rg HE) as [B1 B2]; rewrite Sy; assumption.
Qed.
Print Assumptions C116_legacy.

Theorem C116_legacy_distinct :
  forall x y side es E D, is_distance D -> edges_ok F64ops es = true -> Forall ok es ->
  (forall a b, In a x -> In b y -> regular (p2 40) a b side /\ slack (map fval a) (map fval b) (map fval side) <= E) ->
  exists h, pairs_hist F64ops (fun a b => img_dist F64ops a b side) x y es = Ok h /\ length h = (length es - 1)%nat /\
  let e := fun k => fval (nth k es (n0 F64ops)) in
  forall k, (k + 1 < length es)%nat ->
    (count_prod (fun b a => Rleb (e k + E) (exact side D a b) && Rltb (exact side D a b + E) (e (k + 1)%nat)) y x <= nth k h 0
     <= count_prod (fun b a => Rleb (e k) (exact side D a b + E) && Rleb (exact side D a b) (e (k + 1)%nat + E)) y x)%nat.
Proof.
  intros x y side es E D HD He Hes HP. destruct (C26_distinct_counts_once F64ops (fun a b => img_dist F64ops a b side) x y es He) as [h [Eh [L C]]].
  exists h. split; [exact Eh|]. split; [exact L|]. intros e k Hk. rewrite C by exact Hk. unfold count_prod.
  split; apply filter_mono; intros [b a] Hp; apply in_prod_iff in Hp; destruct (HP a b (proj2 Hp) (proj1 Hp)) as [Rg HE];
    destruct (legacy_bin side D E HD es k a b Hes Hk Rg HE) as [B1 B2]; assumption.
Qed.
Print Assumptions C116_legacy_distinct.

(** Three particles 0.7 and 1.6 apart along a side of 8, bins of width 1/2. *)
Definition row_pos : list (list f64) := [[f64_ofZ 0]; [f64_frac 7 10]; [f64_frac (-9) 10]].
Definition row_side : list f64 := [f64_ofZ 8].
Example C116_nonvacuous :
  (forall a b, In a row_pos -> In b row_pos -> regular (3 / 2) a b row_side /\ slack (map fval a) (map fval b) (map fval row_side) <= / 1024) /\
  width_ok (f64_frac 1 2) /\ gr_self_c F64ops row_pos row_side (f64_frac 1 2) 4 = Ok [0; 2; 0; 1]%nat /\
  pairs_newton_hist F64ops (fun a b => img_dist F64ops a b row_side) row_pos row_pos (map (fun k => f64_frac k 2) [0; 1; 2; 3; 4]%Z) = Ok [0; 2; 0; 1]%nat.
Proof.
  destruct (frac_val 7 10 ltac:(lia) ltac:(lia)) as [K1 V1]. destruct (frac_val (-9) 10 ltac:(lia) ltac:(lia)) as [K2 V2]. destruct (frac_val 1 2 ltac:(lia) ltac:(lia)) as [K3 V3].
  destruct (ofZ_exact 0 ltac:(lia)) as [K4 V4]. destruct (ofZ_exact 8 ltac:(lia)) as [K5 V5].
  apply Rabs_le_inv in V1. apply Rabs_le_inv in V2. apply Rabs_le_inv in V3.
  assert (B1 : 8 <= p2 400) by (apply Rle_trans with (p2 3); [unfold p2; simpl; lra|apply p2_le; lia]).
  assert (B2 : p2 (-400) <= / 16) by (apply Rle_trans with (p2 (-4)); [apply p2_le; lia|unfold p2; simpl; lra]).
  assert (B3 : 0 < p2 (-53) <= / 1048576) by (split; [apply p2_pos|apply Rle_trans with (p2 (-20)); [apply p2_le; lia|unfold p2; simpl; lra]]).
  split; [|split; [split; [exact K3|lra]|split; vm_compute; reflexivity]].
  assert (Q : forall v, In v row_pos -> exists c, v = [c] /\ ok c /\ -1 <= fval c <= 1).
  { intros v [<-|[<-|[<-|[]]]]; eexists; (split; [reflexivity|]); (split; [assumption|]); lra. }
  intros a b Ia Ib. destruct (Q a Ia) as [c [-> [Kc Bc]]]. destruct (Q b Ib) as [c' [-> [Kc' Bc']]]. split.
  - split; [discriminate|]. split; [cbn; lia|]. cbn [pair_coords row_side]. unfold coordinate. rewrite V5. split; [|exact I].
    split; [split; [assumption|]; split; [assumption|]; split; [assumption|]; split; [apply Rabs_le; lra|]; split; [apply Rabs_le; lra|lra]|]. apply Rabs_le; lra.
  - unfold slack, row_side. cbn [map length spread INR]. rewrite V5. assert (A : Rabs (fval c - fval c') <= 2) by (apply Rabs_le; lra). pose proof (Rabs_pos (fval c - fval c')). nra.
Qed.
