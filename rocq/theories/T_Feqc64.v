(** Theorems about roots of tabulated functions and relaxation times in double precision: C130. *)
From Coq Require Import List ZArith Bool Arith Reals Lia Lra Floats.SpecFloat.
From Verif Require Import PyBase PyBaseFacts Num NumFacts P_Text F64Round F64Ops F64Facts P_F64Mean P_F64Time P_F64Dot M_Helpers M_Analyze Spec_Fit P_Helpers Spec_Feqc64 P_Feqc64.
Import ListNotations.
Local Open Scope R_scope.

(** ** C130 *)
(** The abscissa found in doubles belongs to the interval where the exact values first cross the target, and is
    within 2^-50 (relative to its right end) of the exact crossing of the straight line; no abscissa is reported
    only if the exact values do not cross the target.  No exception is raised. *)
Theorem C130_root :
  forall (x f : list f64) (fstar : f64), table x f fstar -> x <> [] -> f <> [] ->
  let X := map fval x in let Y := map fval f in
  exists r, feqc F64ops x f fstar = Ok r /\
    match r with
    | None => forall j, (j < Nat.min (length x) (length f))%nat -> ~ crossing Y (fval fstar) j
    | Some (xs, k) => (1 <= k < Nat.min (length x) (length f))%nat /\ crossing Y (fval fstar) k /\ (forall j, (j < k)%nat -> ~ crossing Y (fval fstar) j) /\
        ok xs /\ nth (k - 1) X 0 <= fval xs /\
        exists y, nth (k - 1) X 0 <= y < nth k X 0 /\ line_through (nth (k - 1) X 0) (nth (k - 1) Y 0) (nth k X 0) (nth k Y 0) y = fval fstar /\
          Rabs (fval xs - y) <= p2 (-50) * nth k X 0
    end.
Proof.
  intros x f fstar Ht Hx Hf X Y. assert (Hm : (0 < Nat.min (length x) (length f))%nat) by (destruct x, f; try congruence; cbn; lia).
  assert (Nx : forall i, nth i X 0 = fval (nth i x zero64')) by (intros i; exact (map_nth fval x zero64' i)).
  assert (Ny : forall i, nth i Y 0 = fval (nth i f zero64')) by (intros i; exact (map_nth fval f zero64' i)).
  destruct (feqc_spec64 x f fstar Ht Hm) as [r [E H]]. exists r. split; [exact E|]. unfold crossing. destruct r as [[xs k]|].
  - rewrite !Nx, !Ny. destruct H as [A [B [C [D [F G]]]]]. split; [exact A|]. split; [exact B|]. split; [intros j Hj; rewrite Ny; apply C; exact Hj|]. auto.
  - intros j Hj. rewrite !Ny. apply H. exact Hj.
Qed.
Print Assumptions C130_root.

Lemma exponent_bound : forall k e, (Z.abs k < 2 ^ 53)%Z -> p2 (-201) <= Rabs (IZR k * p2 e) -> (-254 <= e)%Z.
Proof.
  intros k e Hk H. destruct (Z.le_gt_cases (-254) e) as [|L]; [assumption|exfalso]. rewrite Rabs_mult, (Rabs_right (p2 e)), <- abs_IZR in H by (left; apply p2_pos).
  assert (A : p2 e <= p2 (-255)) by (apply p2_le; lia). assert (B : IZR (Z.abs k) <= p2 53) by (rewrite p2_Z by lia; apply IZR_le; lia).
  assert (C : IZR (Z.abs k) * p2 e <= p2 53 * p2 (-255)) by (apply Rmult_le_compat; [apply IZR_le; lia|left; apply p2_pos|exact B|exact A]).
  rewrite <- p2_add in C. change (53 + -255)%Z with (-202)%Z in C. assert (p2 (-202) < p2 (-201)) by (apply p2_lt; lia). lra.
Qed.

(** Doubles cannot come closer than 2^-254 to a target of magnitude 2^-200 or more without being equal to it. *)
Lemma gap : forall a b, ok a -> ok b -> p2 (-200) <= Rabs (fval b) -> fval a = fval b \/ p2 (-300) <= Rabs (fval a - fval b).
Proof.
  intros a b Ka Kb Hb. assert (P : p2 (-200) = 2 * p2 (-201)) by (change (-200)%Z with (-201 + 1)%Z; apply p2_succ).
  assert (Q : p2 (-300) <= p2 (-254) <= p2 (-201)) by (split; apply p2_le; lia).
  destruct (Rle_or_lt (p2 (-201)) (Rabs (fval a))) as [L|L].
  2: { right. pose proof (Rabs_triang_inv (fval b) (fval a)) as T. rewrite (Rabs_minus_sym (fval b)) in T. lra. }
  destruct (ok_format _ Ka) as [k [e [Ea [Hk He]]]]. destruct (ok_format _ Kb) as [l [g [Eb [Hl Hg]]]]. pose proof (p2_pos (-201)) as P0.
  rewrite Ea in L. rewrite Eb in Hb. pose proof (exponent_bound k e Hk L) as He'. pose proof (exponent_bound l g Hl ltac:(lra)) as Hg'.
  assert (S : forall z h, (-254 <= h)%Z -> IZR z * p2 h = IZR (z * 2 ^ (h + 254)) * p2 (-254)).
  { intros z h Hh. rewrite mult_IZR, <- p2_Z by lia. rewrite Rmult_assoc, <- p2_add. do 2 f_equal. lia. }
  rewrite Ea, Eb, (S k e He'), (S l g Hg'), <- Rmult_minus_distr_r, <- minus_IZR.
  set (a' := (k * 2 ^ (e + 254))%Z). set (b' := (l * 2 ^ (g + 254))%Z). destruct (Z.eq_dec a' b') as [->|N]; [left; reflexivity|right].
  rewrite Rabs_mult, <- abs_IZR, (Rabs_right (p2 (-254))) by (left; apply p2_pos). assert (1 <= IZR (Z.abs (a' - b'))) by (apply IZR_le; lia).
  apply Rle_trans with (1 * p2 (-254)); [lra|]. apply Rmult_le_compat_r; [left; apply p2_pos|assumption].
Qed.

(** Decaying correlation functions: times from zero on with steps of at least 2^-300, values from -1 to 1, the first
    of which is above the level, which is at least 2^-200 (for instance the double next to 1/e).  The relaxation time
    is in the interval where the values first fall below the level, within 2^-50 of the crossing; otherwise all
    values stay above. *)
Theorem C130_relaxation_time :
  forall (t c : list f64) (level : f64), length t = length c -> t <> [] ->
  (forall i, (i < length t)%nat -> ok (nth i t zero64') /\ 0 <= fval (nth i t zero64') <= p2 300) ->
  (forall i, (S i < length t)%nat -> p2 (-300) <= fval (nth (S i) t zero64') - fval (nth i t zero64')) ->
  (forall i, (i < length c)%nat -> ok (nth i c zero64') /\ Rabs (fval (nth i c zero64')) <= 1) ->
  ok level -> p2 (-200) <= fval level <= 1 -> fval level < fval (nth 0 c zero64') ->
  let X := map fval t in let Y := map fval c in
  exists r, first_root F64ops t c level = Ok r /\
    match r with
    | None => forall y, In y Y -> fval level <= y
    | Some tau => ok tau /\ exists k y, (1 <= k < length t)%nat /\ (forall j, (j < k)%nat -> fval level <= nth j Y 0) /\ nth k Y 0 < fval level /\
        nth (k - 1) X 0 <= y < nth k X 0 /\ line_through (nth (k - 1) X 0) (nth (k - 1) Y 0) (nth k X 0) (nth k Y 0) y = fval level /\
        Rabs (fval tau - y) <= p2 (-50) * nth k X 0
    end.
Proof.
  intros t c level Hl Hn Ht Hs Hc Kl Bl H0 X Y. pose proof (p2_pos (-200)) as P. assert (P1 : 1 <= p2 300) by (change 1 with (p2 0); apply p2_le; lia).
  assert (Nc : c <> []) by (intros ->; destruct t; [congruence|discriminate]).
  assert (T : table t c level).
  { split; [exact Ht|]. split; [|split; [exact Kl|split; [rewrite Rabs_right; lra|exact Hs]]]. intros i Hi. destruct (Hc i Hi) as [K B]. split; [exact K|]. split; [lra|].
    apply gap; [exact K|exact Kl|rewrite Rabs_right; lra]. }
  destruct (C130_root t c level T Hn Nc) as [r [E H]]. fold X Y in H. rewrite <- Hl, Nat.min_id in H.
  assert (Y0 : fval level < nth 0 Y 0) by (unfold Y; rewrite (map_nth fval c zero64' 0%nat : nth 0 (map fval c) 0 = _); exact H0).
  assert (Cr : forall j, crossing Y (fval level) j <-> nth j Y 0 < fval level).
  { intros j. unfold crossing. split; intros A.
    - apply Rnot_le_lt. intros B. assert (0 <= (nth j Y 0 - fval level) * (nth 0 Y 0 - fval level)) by (apply Rmult_le_pos; lra). lra.
    - assert (0 < - (nth j Y 0 - fval level) * (nth 0 Y 0 - fval level)) by (apply Rmult_lt_0_compat; lra). lra. }
  exists (option_map fst r). split; [unfold first_root; change (num F64ops) with f64 in *; rewrite E; destruct r as [[? ?]|]; reflexivity|].
  destruct r as [[tau k]|].
  - destruct H as [A [B [C [D [F [y [G1 [G2 G3]]]]]]]]. split; [exact D|]. exists k, y. split; [exact A|]. split; [intros j Hj; apply Rnot_lt_le; intros W; apply (C j Hj); apply Cr; exact W|]. split; [apply Cr; exact B|]. auto.
  - cbn [option_map]. intros y Hy. apply (In_nth _ _ 0) in Hy. destruct Hy as [j [Hj <-]]. unfold Y in Hj. rewrite map_length in Hj. apply Rnot_lt_le. intros W. apply (H j ltac:(lia)). apply Cr. exact W.
Qed.
Print Assumptions C130_relaxation_time.

(** *** Example: 1, 1/2, 1/4 at times 0, 1, 2 and the level 0.375: the relaxation time is 3/2 *)
Local Definition one64 : f64 := S754_finite false 4503599627370496 (-52).
Local Definition two64 : f64 := S754_finite false 4503599627370496 (-51).
Local Definition half64 : f64 := S754_finite false 4503599627370496 (-53).
Local Definition quarter64 : f64 := S754_finite false 4503599627370496 (-54).
Local Definition level64 : f64 := S754_finite false 6755399441055744 (-54).
Local Definition ts : list f64 := [zero64'; one64; two64].
Local Definition cs : list f64 := [one64; half64; quarter64].
Local Lemma values : fval zero64' = 0 /\ fval one64 = 1 /\ fval two64 = 2 /\ fval half64 = / 2 /\ fval quarter64 = / 4 /\ fval level64 = 3 / 8.
Proof. unfold fval. simpl. unfold p2. simpl. repeat split; lra. Qed.
Local Lemma oks : ok zero64' /\ ok one64 /\ ok two64 /\ ok half64 /\ ok quarter64 /\ ok level64.
Proof. split; [|split; [|split; [|split; [|split]]]]; (split; vm_compute; try reflexivity; try exact I). Qed.
Example C130_nonvacuous :
  length ts = length cs /\ (forall i, (i < length ts)%nat -> ok (nth i ts zero64') /\ 0 <= fval (nth i ts zero64') <= p2 300) /\
  (forall i, (S i < length ts)%nat -> p2 (-300) <= fval (nth (S i) ts zero64') - fval (nth i ts zero64')) /\
  (forall i, (i < length cs)%nat -> ok (nth i cs zero64') /\ Rabs (fval (nth i cs zero64')) <= 1) /\
  ok level64 /\ p2 (-200) <= fval level64 <= 1 /\ fval level64 < fval (nth 0 cs zero64') /\
  exists tau, first_root F64ops ts cs level64 = Ok (Some tau) /\ fval tau = 3 / 2.
Proof.
  destruct values as [V0 [V1 [V2 [V3 [V4 V5]]]]]. destruct oks as [K0 [K1 [K2 [K3 [K4 K5]]]]].
  assert (P : 2 <= p2 300) by (change 2 with (IZR (2 ^ 1)); rewrite <- p2_Z by lia; apply p2_le; lia). assert (Q : p2 (-300) <= 1) by (change 1 with (p2 0); apply p2_le; lia).
  assert (Q2 : p2 (-200) <= / 4) by (replace (/ 4) with (p2 (-2)) by (unfold p2; simpl; lra); apply p2_le; lia).
  split; [reflexivity|]. split; [|split; [|split; [|split; [exact K5|split; [rewrite V5; lra|split; [cbn [nth cs]; rewrite V5, V1; lra|]]]]]].
  - intros i Hi. destruct i as [|[|[|i]]]; [| | |cbn in Hi; lia]; cbn [nth ts]; (split; [assumption|]); rewrite ?V0, ?V1, ?V2; lra.
  - intros i Hi. destruct i as [|[|i]]; [| |cbn in Hi; lia]; cbn [nth ts]; rewrite ?V0, ?V1, ?V2; lra.
  - intros i Hi. destruct i as [|[|[|i]]]; [| | |cbn in Hi; lia]; cbn [nth cs]; (split; [assumption|]); rewrite ?V1, ?V3, ?V4, Rabs_right; lra.
  - eexists. split; [vm_compute; reflexivity|]. unfold fval. simpl. unfold p2. simpl. lra.
Qed.

(** Values far below the smallest normal double when multiplied: the product that tests for the crossing is rounded to
    zero and the root is missed.  The lower bound on the distance to the target cannot be dropped. *)
Local Definition small64 : f64 := SFldexp 53 1024 (binary_normalize 53 1024 1 0 false) (-600).
Example C130_underflow :
  feqc F64ops ts [small64; SFopp small64; SFopp small64] (S754_zero false) = Ok None.
Proof. vm_compute. reflexivity. Qed.
