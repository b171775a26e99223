(** Histograms of distances in double precision (C116). *)
From Coq Require Import List ZArith Bool Arith Reals Lia Lra Psatz Floats.SpecFloat.
From Verif Require Import PyBase PyBaseFacts Num Spec_Stats NumFacts P_Text F64Round F64Ops F64Facts F64Sqrt P_F64Mean M_Helpers M_Correlation M_Dynamics M_Realspace
  Spec_Dynamics P_Dynamics P_Overlap Spec_Pairs P_Pairs P_Image P_Count P_GrFast Spec_Doubles P_F64Time P_F64Overlap P_F64Msd P_F64Order Spec_Dot P_F64Dot Spec_Dist P_F64Dist.
Import ListNotations.
Local Open Scope R_scope.

Lemma floor_spec64 : forall x, ok x -> exists k, f64_toint rnd_floor x = Some k /\ IZR k <= fval x < IZR k + 1.
Proof.
  intros x [V F]. destruct x as [s|s| |s m e]; try destruct F; cbn [f64_toint].
  - exists 0%Z. split; [reflexivity|]. cbn [fval]. lra.
  - destruct (Z.leb_spec 0 e) as [L|L].
    + eexists. split; [reflexivity|]. rewrite cond_Zopp_IZR, mult_IZR, <- p2_Z by exact L. cbn [fval]. change (powerRZ 2 e) with (p2 e). lra.
    + eexists. split; [reflexivity|]. unfold rnd_floor. cbn [fval]. change (powerRZ 2 e) with (p2 e). rewrite <- Rmult_assoc, <- cond_Zopp_IZR.
      assert (D0 : (0 < 2 ^ (- e))%Z) by (apply Z.pow_pos_nonneg; lia). set (z := cond_Zopp s (Zpos m)).
      pose proof (Z.mul_div_le z _ D0) as A. pose proof (Z.mul_succ_div_gt z _ D0) as B. apply IZR_le in A. apply IZR_lt in B. rewrite mult_IZR, <- p2_Z in A, B by lia. rewrite succ_IZR in B.
      assert (E : p2 (- e) * p2 e = 1) by (rewrite <- p2_add; replace (- e + e)%Z with 0%Z by lia; reflexivity). pose proof (p2_pos e) as P.
      assert (A' : p2 (- e) * IZR (z / 2 ^ (- e)) * p2 e <= IZR z * p2 e) by (apply Rmult_le_compat_r; lra). assert (B' : IZR z * p2 e < p2 (- e) * (IZR (z / 2 ^ (- e)) + 1) * p2 e) by (apply Rmult_lt_compat_r; lra).
      replace (p2 (- e) * IZR (z / 2 ^ (- e)) * p2 e) with (p2 (- e) * p2 e * IZR (z / 2 ^ (- e))) in A' by ring.
      replace (p2 (- e) * (IZR (z / 2 ^ (- e)) + 1) * p2 e) with (p2 (- e) * p2 e * (IZR (z / 2 ^ (- e)) + 1)) in B' by ring. rewrite E in A', B'. lra.
Qed.

Lemma first_incr : forall h k K, (k < length h)%nat -> first_bins K (incr h k) = (first_bins K h + if (k <? K)%nat then 1 else 0)%nat.
Proof.
  induction h as [|a h IH]; intros k K Hk; [cbn in Hk; lia|]. unfold first_bins in *. destruct K as [|K]; [destruct k; reflexivity|].
  assert (E : forall x l, list_sum (x :: l) = (x + list_sum l)%nat) by reflexivity.
  destruct k as [|k]; cbn [incr firstn]; rewrite !E; [destruct (Nat.ltb_spec 0 (S K)); lia|]. cbn [length] in Hk. rewrite IH by lia. destruct (Nat.ltb_spec k K), (Nat.ltb_spec (S k) (S K)); lia.
Qed.

(** In the first K bins. *)
Definition below (A : arith) (dr : num A) (K : nat) (d : num A) : bool :=
  match nfloor A (ndiv A d dr) with Some z => (z <? Z.of_nat K)%Z | None => false end.

Lemma bins_fold : forall (A : arith) (dr : num A) vs h h', foldM (bin_add A dr) h vs = Ok h' -> length h' = length h /\
  forall K, (K <= length h)%nat -> first_bins K h' = (first_bins K h + cnt (below A dr K) vs)%nat.
Proof.
  intros A dr vs. induction vs as [|d vs IH]; intros h h' H; cbn [foldM] in H.
  - injection H as <-. split; [reflexivity|]. intros K _. unfold cnt. cbn. lia.
  - unfold bin_add in H at 1. destruct (nfloor A (ndiv A d dr)) as [z|] eqn:Ez; [|discriminate].
    destruct ((0 <=? z)%Z && (z <? Z.of_nat (length h))%Z) eqn:Er; [|discriminate]. apply andb_true_iff in Er. destruct Er as [R0 R1]. apply Z.leb_le in R0. apply Z.ltb_lt in R1.
    cbn [bind] in H. destruct (IH _ _ H) as [L C]. rewrite incr_length in *. split; [exact L|]. intros K HK. rewrite C by exact HK. rewrite first_incr by lia.
    change (d :: vs) with ([d] ++ vs). rewrite cnt_app. unfold cnt at 2. cbn [filter]. unfold below at 2. rewrite Ez.
    destruct (Nat.ltb_spec (Z.to_nat z) K), (Z.ltb_spec z (Z.of_nat K)); cbn [length]; lia.
Qed.

Lemma bin_fold : forall (A : arith) (dr : num A) vs h h', foldM (bin_add A dr) h vs = Ok h' ->
  forall k, (k < length h)%nat -> nth k h' 0%nat = (nth k h 0 + cnt (fun d => below A dr (k + 1) d && negb (below A dr k d)) vs)%nat.
Proof.
  intros A dr vs. induction vs as [|d vs IH]; intros h h' H k Hk; cbn [foldM] in H.
  - injection H as <-. unfold cnt. cbn. lia.
  - unfold bin_add in H at 1. destruct (nfloor A (ndiv A d dr)) as [z|] eqn:Ez; [|discriminate].
    destruct ((0 <=? z)%Z && (z <? Z.of_nat (length h))%Z) eqn:Er; [|discriminate]. apply andb_true_iff in Er. destruct Er as [R0 R1]. apply Z.leb_le in R0. apply Z.ltb_lt in R1.
    cbn [bind] in H. pose proof (IH _ _ H k) as C. rewrite incr_length in C. rewrite C by exact Hk. rewrite incr_nth by lia.
    change (d :: vs) with ([d] ++ vs). rewrite cnt_app. unfold cnt at 2. cbn [filter]. unfold below at 3 4. rewrite Ez.
    destruct (Nat.eqb_spec k (Z.to_nat z)), (Z.ltb_spec z (Z.of_nat (k + 1))), (Z.ltb_spec z (Z.of_nat k)); cbn [andb negb length]; lia.
Qed.

Lemma bins_fold_ok : forall (A : arith) (dr : num A) vs h,
  (forall d, In d vs -> exists z, nfloor A (ndiv A d dr) = Some z /\ (0 <= z < Z.of_nat (length h))%Z) -> exists h', foldM (bin_add A dr) h vs = Ok h'.
Proof.
  intros A dr vs. induction vs as [|d vs IH]; intros h H; cbn [foldM]; [eauto|]. destruct (H d (or_introl eq_refl)) as [z [Ez [R0 R1]]].
  unfold bin_add at 1. rewrite Ez. apply Z.leb_le in R0. apply Z.ltb_lt in R1. rewrite R0, R1. cbn [andb bind]. apply IH. intros e He. rewrite incr_length. apply H. right. exact He.
Qed.

(** The kernels as one loop over all pairs. *)
Lemma self_loop : forall (A : arith) (pos : list (list (num A))) side dr n, gr_self_c A pos side dr n =
  foldM (bin_add A dr) (repeat 0%nat n) (filter (fun d => nlt A d (nmul A dr (nofnat A n))) (map (fun p => fdist A (nth (fst p) pos []) (nth (snd p) pos []) side) (index_pairs (length pos)))).
Proof.
  intros A pos side dr n. unfold gr_self_c.
  rewrite (foldM_ext_in _ _ _ (fun h i => foldM (bin_add A dr) h
    (filter (fun d => nlt A d (nmul A dr (nofnat A n))) (map (fun pj => fdist A (nth i pos []) pj side) (skipn (i + 1) pos))))).
  2:{ intros h i Hi. apply in_seq in Hi. rewrite (get_Ok _ pos i []) by lia. reflexivity. }
  rewrite foldM_foldM, flat_map_filter. do 2 f_equal. rewrite index_pairs_rows, concat_map, map_map, flat_map_concat_map. f_equal. apply map_ext. intros i.
  rewrite (skipn_nth_map _ pos [] (i + 1)), !map_map. reflexivity.
Qed.

Lemma distinct_loop : forall (A : arith) (pos1 pos2 : list (list (num A))) side dr n, gr_distinct_c A pos1 pos2 side dr n =
  foldM (bin_add A dr) (repeat 0%nat n) (filter (fun d => nlt A d (nmul A dr (nofnat A n))) (map (fun p => fdist A (fst p) (snd p) side) (list_prod pos1 pos2))).
Proof.
  intros A pos1 pos2 side dr n. unfold gr_distinct_c. rewrite foldM_foldM, flat_map_filter. do 2 f_equal.
  induction pos1 as [|p pos1 IH]; [reflexivity|]. cbn [flat_map list_prod]. rewrite map_app, map_map, IH. reflexivity.
Qed.

(** ** One distance *)
Definition width_ok (dr : f64) : Prop := ok dr /\ p2 (-400) <= fval dr <= p2 400.

Lemma quotient_bin : forall d dr, ok d -> 0 <= fval d <= p2 500 -> width_ok dr ->
  exists q z, ok q /\ rounded (fval d / fval dr) q /\ nfloor F64ops (ndiv F64ops d dr) = Some z /\ (0 <= z)%Z /\ IZR z <= fval q < IZR z + 1.
Proof.
  intros d dr Kd [D0 D1] [Kr [R0 R1]]. assert (P : 0 < fval dr) by (apply Rlt_le_trans with (2 := R0), p2_pos).
  assert (Rq : rounded (fval d / fval dr) (fdiv d dr)) by (apply div_spec; try apply Kd; try apply Kr; lra).
  assert (Q0 : 0 <= fval d / fval dr) by (apply Rle_mult_inv_pos; lra).
  destruct (rounded_bounded _ _ (p2 900) Rq) as [Kq Bq]; [apply format_p2; lia| |apply p2_lt; lia|].
  { rewrite Rabs_right by lra. apply Rle_trans with (p2 500 * p2 400); [|rewrite <- p2_add; apply p2_le; lia]. unfold Rdiv. apply Rmult_le_compat; [lra|left; apply Rinv_0_lt_compat; exact P|exact D1|].
    apply Rmult_le_reg_r with (fval dr); [exact P|]. rewrite Rinv_l by lra. apply Rle_trans with (p2 400 * p2 (-400)); [rewrite <- p2_add; change (p2 (400 + -400)) with 1; lra|].
    apply Rmult_le_compat_l; [left; apply p2_pos|exact R0]. }
  pose proof (rounded_ge _ _ 0 Rq Kq format_0 Q0) as G0. destruct (floor_spec64 _ Kq) as [z [Ez Bz]]. exists (fdiv d dr), z. split; [exact Kq|]. split; [exact Rq|]. split; [exact Ez|]. split; [|exact Bz].
  assert (-1 < z)%Z; [|lia]. apply lt_IZR. lra.
Qed.

Lemma below_upper : forall d dr K, ok d -> 0 <= fval d <= p2 500 -> width_ok dr -> (Z.of_nat K <= 2 ^ 53)%Z -> below F64ops dr K d = true -> fval d < INR K * fval dr.
Proof.
  intros d dr K Kd D W HK H. destruct (quotient_bin d dr Kd D W) as [q [z [Kq [Rq [Ez [Z0 Bz]]]]]]. unfold below in H. rewrite Ez in H. apply Z.ltb_lt in H.
  assert (P : 0 < fval dr) by (apply Rlt_le_trans with (2 := proj1 (proj2 W)), p2_pos).
  destruct (Rlt_le_dec (fval d) (INR K * fval dr)) as [G|G]; [exact G|]. exfalso.
  assert (A : INR K <= fval d / fval dr) by (apply Rmult_le_reg_r with (fval dr); [exact P|]; unfold Rdiv; rewrite Rmult_assoc, Rinv_l, Rmult_1_r by lra; exact G).
  assert (FK : format (INR K)) by (rewrite INR_IZR_INZ; apply format_Z; lia). pose proof (rounded_ge _ _ _ Rq Kq FK A) as B. rewrite INR_IZR_INZ in B.
  assert (IZR z + 1 <= IZR (Z.of_nat K)) by (rewrite <- plus_IZR; apply IZR_le; lia). lra.
Qed.

Lemma below_lower : forall d dr K, ok d -> 0 <= fval d <= p2 500 -> width_ok dr -> fval d < INR K * fval dr * (1 - p2 (-51)) -> below F64ops dr K d = true.
Proof.
  intros d dr K Kd D W H. destruct (quotient_bin d dr Kd D W) as [q [z [Kq [Rq [Ez [Z0 Bz]]]]]]. unfold below. rewrite Ez. apply Z.ltb_lt.
  assert (P : 0 < fval dr) by (apply Rlt_le_trans with (2 := proj1 (proj2 W)), p2_pos). assert (U4 : p2 (-51) = 4 * u) by (unfold u; change (-51)%Z with (-53 + 1 + 1)%Z; rewrite !p2_succ; ring). rewrite U4 in H.
  pose proof u_tiny as U1. pose proof u_pos as U0. assert (K1 : 1 <= INR K).
  { destruct K as [|K]; [cbn [INR] in H; lra|]. rewrite S_INR. pose proof (pos_INR K). lra. }
  assert (A : fval d / fval dr < INR K * (1 - 4 * u)) by (apply Rmult_lt_reg_r with (fval dr); [exact P|]; unfold Rdiv; rewrite (Rmult_assoc (fval d)), Rinv_l, Rmult_1_r by lra; lra).
  pose proof (rounded_error _ _ Rq Kq) as E. assert (Q0 : 0 <= fval d / fval dr) by (apply Rle_mult_inv_pos; lra). rewrite (Rabs_right (fval d / fval dr)) in E by lra. apply Rabs_le_inv in E.
  assert (T : tiny <= u) by (unfold tiny, u; apply p2_le; lia). assert (UQ : u * (fval d / fval dr) <= u * INR K) by (apply Rmult_le_compat_l; [lra|]; assert (0 <= INR K * u) by (apply Rmult_le_pos; lra); lra). assert (UK : u <= u * INR K) by (rewrite <- (Rmult_1_r u) at 1; apply Rmult_le_compat_l; lra).
  assert (B : fval q < INR K) by lra. apply lt_IZR. rewrite <- INR_IZR_INZ. lra.
Qed.

Lemma limit_close : forall dr n, width_ok dr -> (1 <= n)%nat -> (Z.of_nat n <= 2 ^ 53)%Z -> let m := nmul F64ops dr (nofnat F64ops n) in
  ok m /\ INR n * fval dr * (1 - p2 (-51)) <= fval m <= INR n * fval dr * (1 + p2 (-51)).
Proof.
  intros dr n [Kr [R0 R1]] N1 N2 m. destruct (ofZ_exact (Z.of_nat n)) as [Kn En]; [lia|]. rewrite <- INR_IZR_INZ in En.
  assert (Rm : rounded (fval dr * INR n) m) by (rewrite <- En; apply mul_spec; try apply Kr; apply Kn). assert (P : 0 < fval dr) by (apply Rlt_le_trans with (2 := R0), p2_pos). assert (P1 : 1 <= INR n) by (apply (le_INR 1); exact N1).
  destruct (rounded_bounded _ _ (p2 500) Rm) as [Km Bm]; [apply format_p2; lia| |apply p2_lt; lia|].
  { rewrite Rabs_right by (apply Rle_ge, Rmult_le_pos; lra). apply Rle_trans with (p2 400 * p2 53); [|rewrite <- p2_add; apply p2_le; lia]. apply Rmult_le_compat; try lra. rewrite p2_Z by lia. rewrite INR_IZR_INZ. apply IZR_le. exact N2. }
  split; [exact Km|]. pose proof (rounded_error _ _ Rm Km) as E. rewrite (Rabs_right (fval dr * INR n)) in E by (apply Rle_ge, Rmult_le_pos; lra). apply Rabs_le_inv in E.
  assert (U4 : p2 (-51) = 4 * u) by (unfold u; change (-51)%Z with (-53 + 1 + 1)%Z; rewrite !p2_succ; ring). rewrite U4. pose proof u_pos as U0. destruct (tiny_side _ R0) as [T _].
  assert (A : u * fval dr <= u * (fval dr * INR n)) by (apply Rmult_le_compat_l; [lra|]; rewrite <- (Rmult_1_r (fval dr)) at 1; apply Rmult_le_compat_l; lra). assert (0 <= u * fval dr) by (apply Rmult_le_pos; lra).
  replace (INR n * fval dr * (1 - 4 * u)) with (fval dr * INR n - 4 * (u * (fval dr * INR n))) by ring. replace (INR n * fval dr * (1 + 4 * u)) with (fval dr * INR n + 4 * (u * (fval dr * INR n))) by ring. lra.
Qed.

(** ** A histogram *)
Section Hist.
Variables (X : Type) (d : X -> f64) (D : X -> R) (E : R) (dr : f64) (n : nat).
Hypothesis Wd : width_ok dr.
Hypothesis N1 : (1 <= n)%nat.
Hypothesis N2 : (Z.of_nat n <= 2 ^ 53)%Z.

Lemma hist_bounds : forall (l : list X) h, (forall p, In p l -> ok (d p) /\ 0 <= fval (d p) <= p2 500 /\ Rabs (fval (d p) - D p) <= E) ->
  foldM (bin_add F64ops dr) (repeat 0%nat n) (filter (fun v => nlt F64ops v (nmul F64ops dr (nofnat F64ops n))) (map d l)) = Ok h ->
  length h = n /\
  forall K, (K <= n)%nat -> (length (filter (fun p => Rltb (D p + E) (INR K * fval dr * (1 - p2 (-51)))) l) <= first_bins K h <= length (filter (fun p => Rltb (D p) (INR K * fval dr + E)) l))%nat.
Proof.
  intros l h H Eh. destruct (bins_fold _ _ _ _ _ Eh) as [L C]. rewrite repeat_length in *. split; [exact L|]. intros K HK. rewrite C by exact HK.
  assert (Z0 : forall m K', first_bins K' (repeat 0%nat m) = 0%nat) by (induction m as [|m IH]; intros [|K']; try reflexivity; apply (IH K')). rewrite Z0. cbn [Nat.add]. clear C Z0.
  destruct (limit_close dr n Wd N1 N2) as [Km [M1 M2]]. cbv zeta in *. set (m := nmul F64ops dr (nofnat F64ops n)) in *.
  assert (P : 0 < fval dr) by (apply Rlt_le_trans with (2 := proj1 (proj2 Wd)), p2_pos). assert (KN : INR K <= INR n) by (apply le_INR; exact HK).
  assert (U51 : 0 < 1 - p2 (-51)) by (assert (p2 (-51) <= p2 (-10)) by (apply p2_le; lia); assert (p2 (-10) = / 1024) by (unfold p2; simpl; lra); lra).
  clear Eh. unfold cnt. induction l as [|p l IH]; [cbn; lia|]. specialize (IH (fun q Hq => H q (or_intror Hq))). destruct (H p (or_introl eq_refl)) as [Kd [B B']]. apply Rabs_le_inv in B'.
  cbn [map filter].
  assert (Up : below F64ops dr K (d p) = true -> Rltb (D p) (INR K * fval dr + E) = true).
  { intros Q. apply below_upper in Q; [|assumption|assumption|assumption|lia]. destruct (Rltb_spec (D p) (INR K * fval dr + E)) as [G|G]; [reflexivity|exfalso; apply G; lra]. }
  assert (Lo : Rltb (D p + E) (INR K * fval dr * (1 - p2 (-51))) = true -> nlt F64ops (d p) m = true /\ below F64ops dr K (d p) = true).
  { intros Q. destruct (Rltb_spec (D p + E) (INR K * fval dr * (1 - p2 (-51)))) as [G|G]; [|discriminate]. split.
    - apply ltb_spec; [exact Kd|exact Km|]. apply Rlt_le_trans with (2 := M1). apply Rlt_le_trans with (INR K * fval dr * (1 - p2 (-51))); [lra|]. apply Rmult_le_compat_r; [lra|]. apply Rmult_le_compat_r; lra.
    - apply below_lower; [exact Kd|exact B|exact Wd|lra]. }
  destruct (Rltb (D p + E) (INR K * fval dr * (1 - p2 (-51)))); [destruct (Lo eq_refl) as [-> Q]; cbn [filter]; rewrite Q, (Up Q); cbn [length]; lia|].
  destruct (nlt F64ops (d p) m); cbn [filter]; [destruct (below F64ops dr K (d p)); [rewrite (Up eq_refl)|]|]; destruct (Rltb (D p) (INR K * fval dr + E)); cbn [length]; lia.
Qed.

Lemma hist_bin : forall (l : list X) h, (forall p, In p l -> ok (d p) /\ 0 <= fval (d p) <= p2 500 /\ Rabs (fval (d p) - D p) <= E) ->
  foldM (bin_add F64ops dr) (repeat 0%nat n) (filter (fun v => nlt F64ops v (nmul F64ops dr (nofnat F64ops n))) (map d l)) = Ok h ->
  forall k, (k < n)%nat ->
    (length (filter (fun p => Rleb (INR k * fval dr + E) (D p) && Rltb (D p + E) (INR (k + 1) * fval dr * (1 - p2 (-51)))) l) <= nth k h 0%nat
     <= length (filter (fun p => Rleb (INR k * fval dr * (1 - p2 (-51))) (D p + E) && Rltb (D p) (INR (k + 1) * fval dr + E)) l))%nat.
Proof.
  intros l h H Eh k Hk. pose proof (bin_fold _ _ _ _ _ Eh k) as C. rewrite repeat_length in C. rewrite C by exact Hk. rewrite nth_repeat. cbn [Nat.add]. clear C.
  destruct (limit_close dr n Wd N1 N2) as [Km [M1 M2]]. cbv zeta in *. set (m := nmul F64ops dr (nofnat F64ops n)) in *.
  assert (P : 0 < fval dr) by (apply Rlt_le_trans with (2 := proj1 (proj2 Wd)), p2_pos). assert (KN : INR (k + 1) <= INR n) by (apply le_INR; lia).
  assert (U51 : 0 < 1 - p2 (-51)) by (assert (p2 (-51) <= p2 (-10)) by (apply p2_le; lia); assert (p2 (-10) = / 1024) by (unfold p2; simpl; lra); lra).
  clear Eh. unfold cnt. induction l as [|p l IH]; [cbn; lia|]. specialize (IH (fun q Hq => H q (or_intror Hq))). destruct (H p (or_introl eq_refl)) as [Kd [B B']]. apply Rabs_le_inv in B'.
  cbn [map filter].
  assert (Up : forall K, (K <= n)%nat -> below F64ops dr K (d p) = true -> D p < INR K * fval dr + E).
  { intros K HK Q. apply below_upper in Q; [lra|assumption|assumption|assumption|lia]. }
  assert (Lo : forall K, below F64ops dr K (d p) = false -> INR K * fval dr * (1 - p2 (-51)) <= D p + E).
  { intros K Q. destruct (Rle_lt_dec (INR K * fval dr * (1 - p2 (-51))) (D p + E)) as [G|G]; [exact G|]. exfalso. rewrite below_lower in Q; [discriminate|assumption|assumption|assumption|lra]. }
  assert (Mn : D p + E < INR (k + 1) * fval dr * (1 - p2 (-51)) -> nlt F64ops (d p) m = true).
  { intros G. apply ltb_spec; [exact Kd|exact Km|]. apply Rlt_le_trans with (2 := M1). apply Rlt_le_trans with (INR (k + 1) * fval dr * (1 - p2 (-51))); [lra|]. apply Rmult_le_compat_r; [lra|]. apply Rmult_le_compat_r; lra. }
  pose proof (Up k ltac:(lia)) as U0. pose proof (Up (k + 1)%nat ltac:(lia)) as U1. pose proof (Lo k) as L0. pose proof (Lo (k + 1)%nat) as L1.
  destruct (Rleb_spec (INR k * fval dr + E) (D p)) as [A1|A1], (Rltb_spec (D p + E) (INR (k + 1) * fval dr * (1 - p2 (-51)))) as [A2|A2];
  destruct (Rleb_spec (INR k * fval dr * (1 - p2 (-51))) (D p + E)) as [A3|A3], (Rltb_spec (D p) (INR (k + 1) * fval dr + E)) as [A4|A4]; try apply Rnot_le_lt in A1; try apply Rnot_le_lt in A3; try apply Rnot_lt_le in A2; try apply Rnot_lt_le in A4;
  destruct (nlt F64ops (d p) m); cbn [filter andb negb length]; try destruct (below F64ops dr (k + 1) (d p)); try destruct (below F64ops dr k (d p)); cbn [andb negb length];
  try (specialize (Mn A2); discriminate Mn); try (specialize (U0 eq_refl); lra); try (specialize (U1 eq_refl); lra); try (specialize (L0 eq_refl); lra); try (specialize (L1 eq_refl); lra); try lia.
Qed.

Lemma hist_exists : forall (l : list X), (forall p, In p l -> ok (d p) /\ 0 <= fval (d p) <= p2 500 /\ Rabs (fval (d p) - D p) <= E /\
    (D p + E < INR n * fval dr * (1 - p2 (-51)) \/ INR n * fval dr * (1 + p2 (-51)) <= D p - E)) ->
  exists h, foldM (bin_add F64ops dr) (repeat 0%nat n) (filter (fun v => nlt F64ops v (nmul F64ops dr (nofnat F64ops n))) (map d l)) = Ok h.
Proof.
  intros l H. apply bins_fold_ok. rewrite repeat_length. intros v Hv. apply filter_In in Hv. destruct Hv as [Hv Hlt]. apply in_map_iff in Hv. destruct Hv as [p [<- Hp]].
  destruct (H p Hp) as [Kd [B [B' G]]]. apply Rabs_le_inv in B'. destruct (limit_close dr n Wd N1 N2) as [Km [M1 M2]]. cbv zeta in *. apply ltb_spec in Hlt; [|exact Kd|exact Km].
  assert (Q : fval (d p) < INR n * fval dr * (1 - p2 (-51))) by (destruct G; lra). apply below_lower in Q; [|assumption|assumption|assumption].
  destruct (quotient_bin (d p) dr Kd B Wd) as [q [z [_ [_ [Ez [Z0 _]]]]]]. exists z. split; [exact Ez|]. split; [exact Z0|]. unfold below in Q. rewrite Ez in Q. apply Z.ltb_lt in Q. exact Q.
Qed.
End Hist.
