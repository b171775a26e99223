(** Theorems about peaks in double precision: C137. *)
From Coq Require Import List ZArith Bool Arith Reals Lia Lra Psatz Sorting.Sorted Floats.SpecFloat.
From Verif Require Import PyBase PyBaseFacts Num NumFacts P_Text F64Round F64Ops F64Facts P_F64Mean P_F64Time P_F64Dot P_F64Dist P_F64Order M_Helpers Spec_Fit P_Helpers P_Fit64 P_Stress64 Spec_Feqc64 Spec_Peak64 P_Peak64.
Import ListNotations.
Local Open Scope R_scope.

Lemma ltb_value : forall x y, ok x -> ok y -> SFltb x y = Rltb (fval x) (fval y).
Proof.
  intros x y Kx Ky. pose proof (ltb_spec x y Kx Ky) as S. destruct (Rltb_spec (fval x) (fval y)) as [H|H]; [apply S; exact H|]. destruct (SFltb x y); [exfalso; apply H, S; reflexivity|reflexivity].
Qed.
Lemma eqb_value : forall x y, ok x -> ok y -> SFeqb x y = Reqb (fval x) (fval y).
Proof.
  intros x y Kx Ky. pose proof (eqb_spec x y Kx Ky) as S. destruct (Reqb_spec (fval x) (fval y)) as [H|H]; [apply S; exact H|]. destruct (SFeqb x y); [exfalso; apply H, S; reflexivity|reflexivity].
Qed.
Lemma list_best_value : forall (bf : f64 -> f64 -> bool) (br : R -> R -> bool), (forall x y, ok x -> ok y -> bf x y = br (fval x) (fval y)) ->
  forall (l : list f64) x, ok x -> (forall y, In y l -> ok y) -> ok (list_best F64ops bf x l) /\ fval (list_best F64ops bf x l) = list_best Rops br (fval x) (map fval l).
Proof.
  intros bf br H. induction l as [|y l IH]; intros x Kx Hl; [split; [exact Kx|reflexivity]|]. cbn [list_best map]. assert (Ky : ok y) by (apply Hl; left; reflexivity). rewrite <- (H y x Ky Kx).
  destruct (bf y x); apply IH; auto; intros; apply Hl; right; assumption.
Qed.
Lemma list_index_value : forall (l : list f64) v, ok v -> (forall y, In y l -> ok y) -> list_index F64ops l v = list_index Rops (map fval l) (fval v).
Proof.
  induction l as [|y l IH]; intros v Kv Hl; [reflexivity|]. cbn [list_index map]. change (neq F64ops y v) with (SFeqb y v). change (neq Rops (fval y) (fval v)) with (Reqb (fval y) (fval v)).
  rewrite (eqb_value y v (Hl y (or_introl eq_refl)) Kv). destruct (Reqb (fval y) (fval v)); [reflexivity|]. rewrite (IH v Kv (fun z Hz => Hl z (or_intror Hz))). reflexivity.
Qed.
Lemma index_best_value : forall (bf : f64 -> f64 -> bool) (br : R -> R -> bool), (forall x y, ok x -> ok y -> bf x y = br (fval x) (fval y)) ->
  forall l : list f64, (forall y, In y l -> ok y) -> index_best F64ops bf l = index_best Rops br (map fval l).
Proof.
  intros bf br H [|x l] Hl; [reflexivity|]. cbn [index_best map]. assert (Kx : ok x) by (apply Hl; left; reflexivity).
  destruct (list_best_value bf br H l x Kx (fun y Hy => Hl y (or_intror Hy))) as [Kb Eb]. change (list_index F64ops (x :: l) (list_best F64ops bf x l) = list_index Rops (fval x :: map fval l) (list_best Rops br (fval x) (map fval l))).
  rewrite (list_index_value (x :: l) _ Kb Hl). rewrite <- Eb. reflexivity.
Qed.

Lemma nth_value : forall (l : list f64) i, nth i (map fval l) 0 = fval (nth i l zero64').
Proof. intros l i. exact (map_nth fval l zero64' i). Qed.

(** One extremum *)
Lemma extremum64 : forall sg x f X Y h i, (sg = 1 \/ sg = -1) -> peak_table x f X Y h -> (i < length f)%nat ->
  (forall j, (j < length f)%nat -> sg * nth i (map fval f) 0 <= sg * nth j (map fval f) 0) ->
  (forall j, (j < i)%nat -> sg * nth i (map fval f) 0 < sg * nth j (map fval f) 0) ->
  exists q p, ifabsmm_at F64ops x f i = Ok q /\ extremum_at sg (map fval x) (map fval f) i p /\ reported_for X Y h q p /\
    ((i = 0 \/ i = length f - 1)%nat -> q = (nth i x zero64', nth i f zero64')).
Proof.
  intros sg x f X Y h i Hsg [Hl [Hn [Hx [Hf [Hs [Hg [H60 [HX [HY HK]]]]]]]]] Hi Hm Hfi. pose proof u_small as U. pose proof (p2_pos (-60)) as P60. pose proof (p2_pos (-120)) as P120.
  assert (Ix : increasing (map fval x)).
  { clear - Hs H60 P60. unfold increasing. induction x as [|a x IH]; [constructor|]. cbn [map].
    assert (Hs' : forall i, (S i < length x)%nat -> h <= fval (nth (S i) x zero64') - fval (nth i x zero64')) by (intros i Hi; apply (Hs (S i)); cbn [length]; lia).
    specialize (IH Hs'). constructor; [exact IH|]. destruct x as [|b x]; [constructor|]. assert (ab : fval a < fval b) by (pose proof (Hs 0%nat ltac:(cbn; lia)) as W; cbn [nth] in W; lra).
    cbn [map] in *. inversion IH as [|? ? _ F]; subst. constructor; [exact ab|]. rewrite Forall_forall in *. intros z Hz. specialize (F z Hz). lra. }
  assert (HX0 : 0 <= X) by (destruct (Hx i ltac:(lia)) as [_ W]; pose proof (Rabs_pos (fval (nth i x zero64'))); lra). assert (HY0 : 0 <= Y) by (destruct (Hf i Hi) as [_ W]; pose proof (Rabs_pos (fval (nth i f zero64'))); lra).
  assert (h0 : 0 < h) by lra. assert (h3 : 0 < h * h * h) by (apply Rmult_lt_0_compat; [apply Rmult_lt_0_compat|]; lra).
  destruct (ifabsmm_at_spec sg (map fval x) (map fval f) i Hsg Ix ltac:(rewrite !map_length; exact Hl) ltac:(rewrite map_length; exact Hi) ltac:(rewrite map_length; exact Hm) Hfi) as [p [_ Ep]]. change (num Rops) with R in *.
  assert (E0 : 0 <= 34 * (u * (X * X / h)) /\ 0 <= 300 * (u * (X * X * X / (h * h * h) * Y))).
  { assert (0 <= / h) by (left; apply Rinv_0_lt_compat; lra). assert (0 <= / (h * h * h)) by (left; apply Rinv_0_lt_compat; lra). split; repeat (apply Rmult_le_pos; try lra). }
  destruct (Nat.eq_dec i 0) as [I0|I0]; [|destruct (Nat.eq_dec i (length f - 1)) as [I1|I1]].
  1,2: exists (nth i x zero64', nth i f zero64'), p; (split; [unfold ifabsmm_at; change (num F64ops) with f64; replace ((i =? length f - 1)%nat || (i =? 0)%nat) with true by (symmetry; apply orb_true_iff; rewrite !Nat.eqb_eq; lia); change (num F64ops) with f64; rewrite (get_Ok _ x i zero64'), (get_Ok _ f i zero64') by lia; reflexivity|]); (split; [exact Ep|]); (split; [|intros _; reflexivity]);
    destruct Ep as [Ep _]; rewrite (Ep ltac:(rewrite map_length; lia)), !nth_value; (split; [apply Hx; lia|]); (split; [apply Hf; lia|]); cbn [fst snd]; rewrite !Rminus_diag_eq, Rabs_R0 by reflexivity; exact E0.
  assert (Hin : (0 < i < length f - 1)%nat) by lia. pose proof Ep as Ep0. destruct Ep as [_ Ep]. rewrite map_length in Ep. specialize (Ep Hin). rewrite !nth_value in Ep.
  pose proof (Hm (i - 1)%nat ltac:(lia)) as m1. pose proof (Hm (i + 1)%nat ltac:(lia)) as m3. pose proof (Hfi (i - 1)%nat ltac:(lia)) as s1. rewrite !nth_value in m1, m3, s1.
  destruct (Hx (i - 1)%nat ltac:(lia)) as [K1 X1]. destruct (Hx i ltac:(lia)) as [K2 X2]. destruct (Hx (i + 1)%nat ltac:(lia)) as [K3 X3].
  destruct (Hf (i - 1)%nat ltac:(lia)) as [L1 Y1]. destruct (Hf i ltac:(lia)) as [L2 Y2]. destruct (Hf (i + 1)%nat ltac:(lia)) as [L3 Y3].
  pose proof (Hs (i - 1)%nat ltac:(lia)) as S1. replace (S (i - 1)) with i in S1 by lia. pose proof (Hs i ltac:(lia)) as S2. replace (S i) with (i + 1)%nat in S2 by lia.
  pose proof (Hg (i - 1)%nat i ltac:(lia) ltac:(lia)) as G.
  assert (EF : ifabsmm_at F64ops x f i = (abc <- parabola_3points F64ops (nth (i - 1) x zero64') (nth (i - 1) f zero64') (nth i x zero64') (nth i f zero64') (nth (i + 1) x zero64') (nth (i + 1) f zero64') ;; vertex_parabola F64ops (fst (fst abc)) (snd (fst abc)) (snd abc))).
  { unfold ifabsmm_at. change (num F64ops) with f64. replace ((i =? length f - 1)%nat || (i =? 0)%nat) with false by (symmetry; apply orb_false_iff; rewrite !Nat.eqb_neq; lia). change (num F64ops) with f64. rewrite (get_Ok _ x (i - 1) zero64'), (get_Ok _ x i zero64'), (get_Ok _ x (i + 1) zero64'), (get_Ok _ f (i - 1) zero64'), (get_Ok _ f i zero64'), (get_Ok _ f (i + 1) zero64') by lia. reflexivity. }
  rewrite EF. clear EF.
  set (x1 := nth (i - 1) x zero64') in *. set (x2 := nth i x zero64') in *. set (x3 := nth (i + 1) x zero64') in *. set (y1 := nth (i - 1) f zero64') in *. set (y2 := nth i f zero64') in *. set (y3 := nth (i + 1) f zero64') in *.
  set (D := sg * (fval y1 - fval y2) + sg * (fval y3 - fval y2)).
  assert (D1 : 0 < sg * (fval y1 - fval y2)) by lra. assert (D3 : 0 <= sg * (fval y3 - fval y2)) by lra.
  apply abs_bounds in Y1 as Y1'. apply abs_bounds in Y2 as Y2'. apply abs_bounds in Y3 as Y3'. apply abs_bounds in X1 as X1'. apply abs_bounds in X2 as X2'. apply abs_bounds in X3 as X3'.
  assert (sgD : forall v, Rabs v <= D <-> (sg * v <= D /\ - (sg * v) <= D)) by (intros v; split; [intros W; apply abs_bounds in W; destruct Hsg as [-> | ->]; lra|intros W; apply Rabs_le; destruct Hsg as [-> | ->]; lra]).
  assert (D4 : D <= 4 * Y) by (unfold D; destruct Hsg as [-> | ->]; lra).
  assert (DL : p2 (-120) <= D).
  { destruct G as [G|G]; [exfalso; rewrite G in D1; rewrite Rminus_diag_eq, Rmult_0_r in D1 by reflexivity; lra|]. unfold D. destruct Hsg as [-> | ->]; [rewrite Rabs_right in G by lra|rewrite Rabs_left in G by lra]; lra. }
  set (A := fval x3 * (fval y2 - fval y1) + fval x2 * (fval y1 - fval y3) + fval x1 * (fval y3 - fval y2)).
  set (B := fval x3 * fval x3 * (fval y1 - fval y2) + fval x2 * fval x2 * (fval y3 - fval y1) + fval x1 * fval x1 * (fval y2 - fval y3)).
  set (C := fval x2 * fval x3 * (fval x2 - fval x3) * fval y1 + fval x3 * fval x1 * (fval x3 - fval x1) * fval y2 + fval x1 * fval x2 * (fval x1 - fval x2) * fval y3).
  set (d := (fval x1 - fval x2) * (fval x1 - fval x3) * (fval x2 - fval x3)).
  assert (LA : h * D <= Rabs A).
  { assert (W : h * D <= - (sg * A)).
    { replace (- (sg * A)) with ((fval x3 - fval x2) * (sg * (fval y1 - fval y2)) + (fval x2 - fval x1) * (sg * (fval y3 - fval y2))) by (unfold A; ring). unfold D. rewrite Rmult_plus_distr_l. apply Rplus_le_compat; apply Rmult_le_compat_r; lra. }
    apply Rle_trans with (1 := W). pose proof (Rle_abs A). pose proof (Rle_abs (- A)) as V. rewrite Rabs_Ropp in V. destruct Hsg as [-> | ->]; lra. }
  assert (hD : 0 < h * D) by (apply Rmult_lt_0_compat; lra). assert (A0 : A <> 0) by (intros E; rewrite E, Rabs_R0 in LA; lra).
  assert (n12 : fval x1 - fval x2 <> 0) by lra. assert (n13 : fval x1 - fval x3 <> 0) by lra. assert (n23 : fval x2 - fval x3 <> 0) by lra.
  assert (d0 : d <> 0) by (unfold d; repeat apply Rmult_integral_contrapositive_currified; assumption).
  destruct Ep as [Pb [_ Ev]]. specialize (Ev (A / d) (B / d) (C / d)).
  assert (Q1 : fval y1 = A / d * fval x1 * fval x1 + B / d * fval x1 + C / d) by (unfold A, B, C, d; field; auto).
  assert (Q2 : fval y2 = A / d * fval x2 * fval x2 + B / d * fval x2 + C / d) by (unfold A, B, C, d; field; auto).
  assert (Q3 : fval y3 = A / d * fval x3 * fval x3 + B / d * fval x3 + C / d) by (unfold A, B, C, d; field; auto).
  specialize (Ev Q1 Q2 Q3).
  assert (F1 : fst p = - B / (2 * A)) by (rewrite Ev; cbn [fst]; field; auto). assert (F2 : snd p = (C - A * (- B / (2 * A) * (- B / (2 * A)))) / d) by (rewrite Ev; cbn [snd]; field; auto).
  assert (HB : Rabs B <= 2 * Rabs A * X).
  { assert (PX : Rabs (fst p) <= X) by (apply Rabs_le; lra). replace B with (- (2 * A * fst p)) by (rewrite F1; field; auto). rewrite Rabs_Ropp, !Rabs_mult, (Rabs_right 2) by lra. apply Rmult_le_compat_l; [assert (0 <= Rabs A) by apply Rabs_pos; lra|exact PX]. }
  assert (Hu : 2048 * (u * X) <= h).
  { apply Rle_trans with (2048 * (u * (p2 42 * h))); [apply Rmult_le_compat_l; [lra|]; apply Rmult_le_compat_l; lra|]. apply Req_le. replace (2048 * (u * (p2 42 * h))) with (2048 * (u * p2 42) * h) by ring.
    replace (2048 * (u * p2 42)) with 1; [ring|]. unfold u. rewrite <- p2_add. replace 2048 with (p2 11) by (rewrite (p2_Z 11) by lia; reflexivity). rewrite <- p2_add. reflexivity. }
  destruct (vertex64 x1 y1 x2 y2 x3 y3 X Y D h K1 L1 K2 L2 K3 L3 X1 X2 X3 Y1 Y2 Y3 S1 S2 ltac:(apply sgD; unfold D; lra) ltac:(apply sgD; unfold D; lra) ltac:(apply sgD; unfold D; lra) D4 H60 HX DL HY Hu LA HB) as [px [py [Eq [Kx [Ky [Ex Ey]]]]]].
  exists (px, py), p. split; [exact Eq|]. split; [exact Ep0|]. split; [|intros W; exfalso; lia].
  split; [exact Kx|]. split; [exact Ky|]. cbn [fst snd]. rewrite F1, F2. split; [exact Ex|exact Ey].
Qed.

(** ** C137 *)
(** The reported minimum and maximum are, up to the errors of [reported_for], the extremum of the parabola around
    the first lowest and the first highest sample; at the ends of the table they are the samples themselves. *)
Theorem C137_peak_partial : forall x f X Y h, peak_table x f X Y h ->
  exists imin imax qmin qmax pmin pmax, ifabsmm F64ops x f = Ok (qmin, qmax) /\ first_min (map fval f) imin /\ first_max (map fval f) imax /\
    extremum_at 1 (map fval x) (map fval f) imin pmin /\ extremum_at (-1) (map fval x) (map fval f) imax pmax /\
    reported_for X Y h qmin pmin /\ reported_for X Y h qmax pmax /\
    ((imin = 0 \/ imin = length f - 1)%nat -> qmin = (nth imin x zero64', nth imin f zero64')) /\ ((imax = 0 \/ imax = length f - 1)%nat -> qmax = (nth imax x zero64', nth imax f zero64')).
Proof.
  intros x f X Y h T. assert (Hf : forall y, In y f -> ok y) by (intros y Iy; apply (In_nth _ _ zero64') in Iy; destruct Iy as [j [Hj <-]]; destruct T as [_ [_ [_ [F _]]]]; apply F; exact Hj).
  assert (Nf : map fval f <> []) by (destruct T as [_ [N _]]; destruct f; [congruence|discriminate]).
  destruct (index_min_spec (map fval f) Nf) as [imin [E1 M1]]. destruct (index_max_spec (map fval f) Nf) as [imax [E2 M2]].
  pose proof M1 as [I1 [A1 B1]]. pose proof M2 as [I2 [A2 B2]]. rewrite map_length in *.
  destruct (extremum64 1 x f X Y h imin ltac:(left; reflexivity) T I1) as [qmin [pmin [Q1 [R1 [S1 T1]]]]]; [intros j Hj; specialize (A1 j Hj); lra|intros j Hj; specialize (B1 j Hj); lra|].
  destruct (extremum64 (-1) x f X Y h imax ltac:(right; reflexivity) T I2) as [qmax [pmax [Q2 [R2 [S2 T2]]]]]; [intros j Hj; specialize (A2 j Hj); lra|intros j Hj; specialize (B2 j Hj); lra|].
  exists imin, imax, qmin, qmax, pmin, pmax. split.
  - unfold ifabsmm. change (num F64ops) with f64. rewrite (index_best_value (fun a b => nlt F64ops a b) (fun a b => nlt Rops a b) (fun a b Ka Kb => ltb_value a b Ka Kb) f Hf).
    rewrite (index_best_value (fun a b => nlt F64ops b a) (fun a b => nlt Rops b a) (fun a b Ka Kb => ltb_value b a Kb Ka) f Hf). change (num Rops) with R in *. rewrite E1, E2. cbn [bind]. change (num F64ops) with f64 in *. rewrite Q1. cbn [bind]. rewrite Q2. reflexivity.
  - split; [exact M1|]. split; [exact M2|]. auto 10.
Qed.
Print Assumptions C137_peak_partial.

(** Consequence: far enough below 2^53 in the ratio of the abscissas to their spacing, no peak is below the highest sample by more than the error. *)
Theorem C137_not_below_partial : forall x f X Y h, peak_table x f X Y h -> exists qmin t height, ifabsmm F64ops x f = Ok (qmin, (t, height)) /\
  forall i, (i < length f)%nat -> fval (nth i f zero64') - 300 * (p2 (-53) * (X * X * X / (h * h * h) * Y)) <= fval height.
Proof.
  intros x f X Y h T. destruct (C137_peak_partial x f X Y h T) as [imin [imax [qmin [qmax [pmin [pmax [E [_ [M [_ [P [_ [[_ [_ [_ Q]]] _]]]]]]]]]]]]]. destruct qmax as [t height]. exists qmin, t, height. split; [exact E|]. intros i Hi.
  destruct M as [I [A _]]. rewrite map_length in *. specialize (A i Hi). rewrite !nth_value in A. cbn [snd] in Q. apply abs_bounds in Q.
  assert (W : fval (nth imax f zero64') <= snd pmax); [|lra]. destruct P as [P1 P2]. rewrite map_length in *. destruct (Nat.eq_dec imax 0) as [J|J]; [rewrite P1 by lia; cbn [snd]; rewrite nth_value; lra|]. destruct (Nat.eq_dec imax (length f - 1)) as [J'|J']; [rewrite P1 by lia; cbn [snd]; rewrite nth_value; lra|].
  destruct (P2 ltac:(lia)) as [_ [V _]]. rewrite nth_value in V. lra.
Qed.
Print Assumptions C137_not_below_partial.

(** The peak of positive values whose highest sample is 1 is reported at less than minus twenty: the values
    0.1, 1, 0.1 at the times 999999, 1000000, 1000001. *)
Theorem C137_peak_refuted : exists (x f : list f64) (qmin : f64 * f64) (t height : f64),
  peak_table x f (p2 20) 1 1 /\ (forall i, (i < length f)%nat -> 0 < fval (nth i f zero64') <= 1) /\ first_max (map fval f) 1 /\ fval (nth 1 f zero64') = 1 /\
  ifabsmm F64ops x f = Ok (qmin, (t, height)) /\ fval height < -20.
Proof.
  assert (Kz : forall k, (Z.abs k < 2 ^ 53)%Z -> ok (f64_ofZ k) /\ fval (f64_ofZ k) = IZR k) by (intros k Hk; apply ofZ_exact; lia).
  destruct (Kz 999999%Z ltac:(reflexivity)) as [K1 E1]. destruct (Kz 1000000%Z ltac:(reflexivity)) as [K2 E2]. destruct (Kz 1000001%Z ltac:(reflexivity)) as [K3 E3]. destruct (Kz 1%Z ltac:(reflexivity)) as [L2 F2].
  pose (a := f64_frac 1 10).
  assert (L1 : ok a) by (split; vm_compute; reflexivity).
  assert (Ea : a = S754_finite false 7205759403792794 (-56)) by (vm_compute; reflexivity).
  assert (F1 : / 16 < fval a < / 8).
  { rewrite Ea. unfold fval. fold (p2 (-56)). replace (-56)%Z with (-52 + -4)%Z by reflexivity. rewrite p2_add. change (p2 (-4)) with (/ (2 * (2 * (2 * (2 * 1))))). assert (W : p2 52 * p2 (-52) = 1) by (rewrite <- p2_add; reflexivity). rewrite (p2_Z 52) in W by lia. assert (V : IZR (2 ^ 52) = 4503599627370496) by reflexivity. rewrite V in W. pose proof (p2_pos (-52)). unfold sgn. split; lra. }
  exists [f64_ofZ 999999; f64_ofZ 1000000; f64_ofZ 1000001], [a; f64_ofZ 1; a].
  assert (Ei : exists qmin t height, ifabsmm F64ops [f64_ofZ 999999; f64_ofZ 1000000; f64_ofZ 1000001] [a; f64_ofZ 1; a] = Ok (qmin, (t, height)) /\ ok height /\ SFltb height (f64_ofZ (-20)) = true).
  { eexists _, _, _. split; [vm_compute; reflexivity|]. split; [split; vm_compute; reflexivity|vm_compute; reflexivity]. }
  destruct Ei as [qmin [t [height [Ei [Kh Lh]]]]]. exists qmin, t, height.
  assert (B20 : p2 20 = 1048576) by (rewrite (p2_Z 20) by lia; reflexivity).
  assert (I3 : forall i, (i < 3)%nat -> i = 0%nat \/ i = 1%nat \/ i = 2%nat) by lia.
  assert (p2_le1 : p2 (-120) <= / 2) by (apply Rle_trans with (p2 (-1)); [apply p2_le; lia|right; change (p2 (-1)) with (/ (2 * 1)); lra]).
  split; [|split; [|split; [|split; [|split; [exact Ei|]]]]].
  - split; [reflexivity|]. split; [discriminate|]. split.
    { intros i Hi. destruct (I3 i Hi) as [->|[->| ->]]; cbn [nth]; (split; [assumption|]); rewrite ?E1, ?E2, ?E3, B20; apply Rabs_le; lra. }
    split; [intros i Hi; destruct (I3 i Hi) as [->|[->| ->]]; cbn [nth]; (split; [assumption|]); rewrite ?F2; apply Rabs_le; lra|].
    split; [intros i Hi; cbn [length] in Hi; assert (J : i = 0%nat \/ i = 1%nat) by lia; destruct J as [-> | ->]; cbn [nth]; rewrite ?E1, ?E2, ?E3; lra|].
    split; [intros i j Hi Hj; destruct (I3 i Hi) as [->|[->| ->]], (I3 j Hj) as [->|[->| ->]]; cbn [nth]; rewrite ?F2; try (left; reflexivity); right; [rewrite Rabs_left|rewrite Rabs_right|rewrite Rabs_right|rewrite Rabs_left]; lra|].
    rewrite B20. assert (p2 (-60) <= 1) by (apply Rle_trans with (p2 0); [apply p2_le; lia|right; reflexivity]). assert (1048576 <= p2 42 /\ 1 <= p2 60 /\ 1048576 <= p2 60) by (rewrite !p2_Z by lia; repeat split; apply IZR_le; reflexivity || (cbn; lia)). lra.
  - intros i Hi. destruct (I3 i Hi) as [->|[->| ->]]; cbn [nth]; rewrite ?F2; lra.
  - split; [cbn; lia|]. split; intros j Hj; [destruct (I3 j Hj) as [->|[->| ->]]|assert (j = 0%nat) as -> by lia]; cbn [nth map]; rewrite ?F2; lra.
  - exact F2.
  - apply ltb_spec in Lh; [|exact Kh|apply ofZ_exact; cbn; lia]. rewrite (proj2 (Kz (-20)%Z ltac:(reflexivity))) in Lh. exact Lh.
Qed.
Print Assumptions C137_peak_refuted.

(** The values 1, 3, 2, 0 at the times 1, 2, 3, 4: the maximum is reported within 10^-11 of the vertex of the parabola
    through the first three points, and the minimum is the last sample. *)
Example C137_nonvacuous : let x := map f64_ofZ [1; 2; 3; 4]%Z in let f := map f64_ofZ [1; 3; 2; 0]%Z in
  peak_table x f 4 3 1 /\ 300 * (p2 (-53) * (4 * 4 * 4 / (1 * 1 * 1) * 3)) < / 100000000000 /\
  exists t height, ifabsmm F64ops x f = Ok ((f64_ofZ 4, f64_ofZ 0), (t, height)) /\ SFltb (f64_ofZ 2) t = true /\ SFltb (f64_ofZ 3) height = true.
Proof.
  intros x f. assert (Kz : forall k, (Z.abs k < 2 ^ 53)%Z -> ok (f64_ofZ k) /\ fval (f64_ofZ k) = IZR k) by (intros k Hk; apply ofZ_exact; lia).
  destruct (Kz 0%Z ltac:(reflexivity)) as [K0 E0]. destruct (Kz 1%Z ltac:(reflexivity)) as [K1 E1]. destruct (Kz 2%Z ltac:(reflexivity)) as [K2 E2]. destruct (Kz 3%Z ltac:(reflexivity)) as [K3 E3]. destruct (Kz 4%Z ltac:(reflexivity)) as [K4 E4].
  assert (I4 : forall i, (i < 4)%nat -> i = 0%nat \/ i = 1%nat \/ i = 2%nat \/ i = 3%nat) by lia.
  assert (p2_le1 : p2 (-120) <= / 2) by (apply Rle_trans with (p2 (-1)); [apply p2_le; lia|right; change (p2 (-1)) with (/ (2 * 1)); lra]).
  split; [|split].
  - unfold x, f. split; [reflexivity|]. split; [discriminate|].
    split; [intros i Hi; destruct (I4 i Hi) as [->|[->|[->| ->]]]; cbn [nth map]; (split; [assumption|]); rewrite ?E1, ?E2, ?E3, ?E4; apply Rabs_le; lra|].
    split; [intros i Hi; destruct (I4 i Hi) as [->|[->|[->| ->]]]; cbn [nth map]; (split; [assumption|]); rewrite ?E0, ?E1, ?E2, ?E3; apply Rabs_le; lra|].
    split; [intros i Hi; cbn [length map] in Hi; assert (J : i = 0%nat \/ i = 1%nat \/ i = 2%nat) by lia; destruct J as [->|[->| ->]]; cbn [nth map]; rewrite ?E1, ?E2, ?E3, ?E4; lra|].
    split; [intros i j Hi Hj; destruct (I4 i Hi) as [->|[->|[->| ->]]], (I4 j Hj) as [->|[->|[->| ->]]]; cbn [nth map]; rewrite ?E0, ?E1, ?E2, ?E3; try (left; reflexivity); right; unfold Rabs; destruct (Rcase_abs _); lra|].
    assert (p2 (-60) <= 1) by (apply Rle_trans with (p2 0); [apply p2_le; lia|right; reflexivity]). assert (4 <= p2 42 /\ 4 <= p2 60) by (rewrite !p2_Z by lia; split; apply IZR_le; cbn; lia). lra.
  - assert (W : p2 53 * p2 (-53) = 1) by (rewrite <- p2_add; reflexivity). rewrite (p2_Z 53) in W by lia. assert (V : IZR (2 ^ 53) = 9007199254740992) by reflexivity. rewrite V in W. pose proof (p2_pos (-53)). lra.
  - eexists _, _. split; [vm_compute; reflexivity|]. split; vm_compute; reflexivity.
Qed.
