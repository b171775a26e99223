(** Theorems on the frames selected by first, last and skip: C104. *)
From Coq Require Import Ascii String List ZArith Bool Arith Reals Lia Lra Sorting.Sorted.
From Verif Require Import PyBase PyBaseFacts Num M_Helpers M_Correlation M_Dynamics M_Slice Spec_Correlation Spec_Time P_Time Spec_Symmetry P_Symmetry
  P_Dynamics2.
Import ListNotations.
Local Open Scope nat_scope.

(** ** C104 *)
(** The block of [bs] frames to which a frame belongs is i / bs. *)
Definition from_block (bs : nat) (first : option nat) (i : nat) : bool :=
  match first with None => true | Some s => s / bs <=? i / bs end.
Definition before_block (bs : nat) (last : option nat) (i : nat) : bool :=
  match last with None => true | Some e => i / bs <? e / bs end.

Lemma block_floor_nat : forall bs s, 1 <= bs -> block_floor bs (Z.of_nat s) = Z.of_nat (s / bs * bs).
Proof. intros bs s H. unfold block_floor. rewrite <- Nat2Z.inj_div, <- Nat2Z.inj_mul. reflexivity. Qed.

Lemma slice_end_nat : forall n d s, slice_end n d (Some (Z.of_nat s)) = Nat.min s n.
Proof. intros n d s. unfold slice_end. destruct (Z.ltb_spec (Z.of_nat s) 0); [lia|]. rewrite Nat2Z.id. reflexivity. Qed.

Lemma block_lower : forall bs s i, 1 <= bs -> (s / bs * bs <=? i) = (s / bs <=? i / bs).
Proof.
  intros bs s i H. apply Bool.eq_iff_eq_true. rewrite !Nat.leb_le. split; intros K.
  - apply Nat.div_le_lower_bound; lia.
  - pose proof (Nat.mul_div_le i bs). nia.
Qed.
Lemma block_upper : forall bs e i, 1 <= bs -> (i <? e / bs * bs) = (i / bs <? e / bs).
Proof.
  intros bs e i H. apply Bool.eq_iff_eq_true. rewrite !Nat.ltb_lt. split; intros K.
  - apply Nat.div_lt_upper_bound; lia.
  - pose proof (Nat.mul_succ_div_gt i bs). nia.
Qed.

(** The three arguments with first and last counted from the start, skip positive. *)
Definition request (first last : option nat) (skip : nat) : pyslice :=
  mkSlice (option_map Z.of_nat first) (option_map Z.of_nat last) (Some skip).

Lemma filter_seq_range : forall a b n, filter (fun i => (a <=? i) && (i <? b)) (seq 0 n) = seq (Nat.min a n) (Nat.min b n - Nat.min a n).
Proof.
  intros a b n.
  assert (G : forall m s, filter (fun i => (a <=? i) && (i <? b)) (seq s m) = seq (Nat.max s (Nat.min a (s + m))) (Nat.min b (s + m) - Nat.max s (Nat.min a (s + m)))).
  { induction m as [|m IH]; intros s; cbn [seq filter].
    - replace (Nat.min b (s + 0) - Nat.max s (Nat.min a (s + 0))) with 0 by lia. reflexivity.
    - rewrite IH. destruct (Nat.leb_spec a s); destruct (Nat.ltb_spec s b); cbn [andb].
      + replace (Nat.max s (Nat.min a (s + S m))) with s by lia. replace (Nat.max (S s) (Nat.min a (S s + m))) with (S s) by lia.
        replace (Nat.min b (s + S m) - s) with (S (Nat.min b (S s + m) - S s)) by lia. reflexivity.
      + replace (Nat.min b (s + S m) - Nat.max s (Nat.min a (s + S m))) with 0 by lia.
        replace (Nat.min b (S s + m) - Nat.max (S s) (Nat.min a (S s + m))) with 0 by lia. reflexivity.
      + f_equal; lia.
      + replace (Nat.min b (s + S m) - Nat.max s (Nat.min a (s + S m))) with 0 by lia.
        replace (Nat.min b (S s + m) - Nat.max (S s) (Nat.min a (S s + m))) with 0 by lia. reflexivity. }
  rewrite (G n 0). cbn [Nat.max]. reflexivity.
Qed.

(** Positive first and last: the frames of all the blocks from that of frame [first] up to,
    not including, that of frame [last], one every [skip]. *)
Definition block_start (bs : nat) (first : option nat) : nat := match first with None => 0 | Some s => s / bs * bs end.
Theorem C104_whole_blocks_partial : forall n bs first last skip, 1 <= bs -> 1 <= skip -> (forall s, first = Some s -> s < n) ->
  used_frames n bs (request first last skip) =
    Ok (filter (fun i => from_block bs first i && before_block bs last i && ((i - block_start bs first) mod skip =? 0)) (seq 0 n)).
Proof.
  intros n bs first last skip Hb Hs Hf. unfold block_start.
  assert (OB : on_blocks bs (request first last skip) =
     mkSlice (option_map (fun s => Z.of_nat (s / bs * bs)) first) (option_map (fun s => Z.of_nat (s / bs * bs)) last) (Some skip)).
  { unfold on_blocks, request. cbn [sl_start sl_stop sl_step]. destruct (Nat.ltb_spec 1 bs) as [H|H].
    - f_equal; [destruct first|destruct last]; cbn [option_map]; rewrite ?block_floor_nat by lia; reflexivity.
    - assert (bs = 1) as -> by lia. f_equal; [destruct first|destruct last]; cbn [option_map]; rewrite ?Nat.div_1_r, ?Nat.mul_1_r; reflexivity. }
  unfold used_frames. rewrite OB. set (start := match first with None => 0 | Some s => s / bs * bs end).
  assert (R : slice_frames n (mkSlice (option_map (fun s => Z.of_nat (s / bs * bs)) first) (option_map (fun s => Z.of_nat (s / bs * bs)) last) (Some skip))
     = Ok (filter (fun i => from_block bs first i && before_block bs last i && ((i - start) mod skip =? 0)) (seq 0 n))).
  { unfold slice_frames. cbn [sl_start sl_stop sl_step]. rewrite py_range_spec by exact Hs. f_equal.
    assert (E1 : slice_end n 0 (option_map (fun s => Z.of_nat (s / bs * bs)) first) = start).
    { destruct first as [s|]; [|reflexivity]. cbn [option_map]. rewrite slice_end_nat. unfold start. specialize (Hf s eq_refl).
      pose proof (Nat.mul_div_le s bs). lia. }
    rewrite E1.
    set (e := match last with None => n | Some s => s / bs * bs end).
    assert (E2 : slice_end n n (option_map (fun s => Z.of_nat (s / bs * bs)) last) = Nat.min e n).
    { destruct last as [s|]; cbn [option_map]; [rewrite slice_end_nat; reflexivity|unfold e; cbn; lia]. }
    rewrite E2.
    assert (Sq : forall P : nat -> bool, filter P (seq 0 (Nat.min e n)) = filter (fun i => (i <? e) && P i) (seq 0 n)).
    { intros P. replace n with (Nat.min e n + (n - Nat.min e n)) at 2 by lia. rewrite seq_app, filter_app.
      rewrite (filter_ext_in (fun i => (i <? e) && P i) P) by (intros i Hi; apply in_seq in Hi; destruct (Nat.ltb_spec i e); [reflexivity|lia]).
      rewrite (filter_ext_in (fun i => (i <? e) && P i) (fun _ => false) (seq (0 + Nat.min e n) (n - Nat.min e n))).
      - assert (N : forall l : list nat, filter (fun _ => false) l = []) by (induction l; cbn; auto). rewrite N, app_nil_r. reflexivity.
      - intros i Hi. apply in_seq in Hi. destruct (Nat.ltb_spec i e); [lia|reflexivity]. }
    rewrite Sq. apply filter_ext_in. intros i Hi. apply in_seq in Hi.
    assert (F1 : (start <=? i) = from_block bs first i).
    { unfold start, from_block. destruct first as [s|]; [apply block_lower; exact Hb|reflexivity]. }
    assert (F2 : (i <? e) = before_block bs last i).
    { unfold e, before_block. destruct last as [s|]; [apply block_upper; exact Hb|]. destruct (Nat.ltb_spec i n); [reflexivity|lia]. }
    rewrite F1, F2. destruct (from_block bs first i), (before_block bs last i); reflexivity. }
  destruct (trivial _) eqn:T; [|exact R]. rewrite <- R. clear R.
  unfold trivial in T. cbn [sl_start sl_stop sl_step] in T. destruct first; [discriminate|]. destruct last; [discriminate|].
  destruct skip as [|[|k]]; try discriminate. cbn [option_map]. unfold slice_frames. cbn [sl_start sl_stop sl_step slice_end]. rewrite py_range_1. reflexivity.
Qed.
Print Assumptions C104_whole_blocks_partial.

(** Without skip the steps of the selection are, up to a constant, those of the first
    frames of the trajectory; when [last] is given, of a whole number of blocks. *)
Lemma used_range : forall n bs first last, 1 <= bs -> (forall s, first = Some s -> s < n) ->
  used_frames n bs (request first last 1) =
  Ok (seq (block_start bs first) (Nat.min (match last with None => n | Some e => e / bs * bs end) n - block_start bs first)).
Proof.
  intros n bs first last Hb Hf. rewrite C104_whole_blocks_partial by (try assumption; lia). f_equal.
  set (e := match last with None => n | Some e => e / bs * bs end). set (st := block_start bs first).
  assert (Hst : st <= n).
  { unfold st, block_start. destruct first as [s|]; [|lia]. specialize (Hf s eq_refl). pose proof (Nat.mul_div_le s bs). lia. }
  rewrite (filter_ext_in _ (fun i => (st <=? i) && (i <? e))).
  - rewrite filter_seq_range. rewrite (Nat.min_l st n) by exact Hst. reflexivity.
  - intros i Hi. apply in_seq in Hi. rewrite Nat.mod_1_r. cbn [Nat.eqb]. rewrite andb_true_r. f_equal.
    + unfold st, block_start, from_block. destruct first as [s|]; [symmetry; apply block_lower; exact Hb|reflexivity].
    + unfold e, before_block. destruct last as [s|]; [symmetry; apply block_upper; exact Hb|]. destruct (Nat.ltb_spec i n); [reflexivity|lia].
Qed.

Lemma periodic_many : forall steps bs T k i, block_periodic steps bs T -> i + k * bs < length steps ->
  nth (i + k * bs) steps 0%Z = (nth i steps 0 + Z.of_nat k * T)%Z.
Proof.
  intros steps bs T k. induction k as [|k IH]; intros i P H; [rewrite Nat.add_0_r; lia|].
  replace (i + S k * bs) with (i + k * bs + bs) by lia. rewrite (P (i + k * bs)) by lia. rewrite IH by (try assumption; lia). lia.
Qed.

Theorem C104_same_steps_partial : forall steps bs T first last, 1 <= bs -> (forall s, first = Some s -> s < length steps) ->
  block_periodic steps bs T ->
  exists frames m c, used_frames (length steps) bs (request first last 1) = Ok frames /\
    sliced frames steps 0%Z = map (Z.add c) (firstn m steps) /\ m <= length steps /\
    (forall e, last = Some e -> e <= length steps -> m mod bs = 0) /\
    forall A (timestep : num A) grid offset,
      setup_t_grid A (sliced frames steps 0%Z) bs timestep grid offset = setup_t_grid A (firstn m steps) bs timestep grid offset.
Proof.
  intros steps bs T first last Hb Hf P. rewrite used_range by assumption. set (n := length steps) in *.
  set (e := match last with None => n | Some e => e / bs * bs end). set (st := block_start bs first).
  set (m := Nat.min e n - st).
  assert (Q : exists k, st = k * bs).
  { unfold st, block_start. destruct first as [s|]; [exists (s / bs); reflexivity|exists 0; reflexivity]. }
  destruct Q as [k Q].
  assert (Eq : sliced (seq st m) steps 0%Z = map (Z.add (Z.of_nat k * T)) (firstn m steps)).
  { apply (nth_ext _ _ 0%Z 0%Z).
    - unfold sliced. rewrite !map_length, seq_length, firstn_length. fold n. unfold m. lia.
    - intros i Hi. unfold sliced in Hi |- *. rewrite map_length, seq_length in Hi.
      rewrite (nth_map_lt _ _ _ _ _ 0%Z 0) by (rewrite seq_length; exact Hi). rewrite seq_nth by exact Hi.
      rewrite (nth_map_lt _ _ _ _ _ 0%Z 0%Z) by (rewrite firstn_length; fold n; unfold m in *; lia).
      assert (NF : nth i (firstn m steps) 0%Z = nth i steps 0%Z).
      { rewrite <- (firstn_skipn m steps) at 2. rewrite app_nth1; [reflexivity|]. rewrite firstn_length. fold n. unfold m in *. lia. }
      rewrite NF. replace (st + i) with (i + k * bs) by lia. rewrite (periodic_many steps bs T) by (try assumption; unfold m, n in *; lia). lia. }
  exists (seq st m), m, (Z.of_nat k * T)%Z. split; [reflexivity|]. split; [exact Eq|]. split; [unfold m; lia|]. split.
  - intros e0 -> He. unfold m, e. rewrite Nat.min_l by (pose proof (Nat.mul_div_le e0 bs); lia). rewrite Q, <- Nat.mul_sub_distr_r. apply Nat.mod_mul. lia.
  - intros A timestep grid offset. rewrite Eq. apply setup_t_grid_shift.
Qed.
Print Assumptions C104_same_steps_partial.

(** With skip the steps still repeat over blocks, of bs / gcd(bs, skip) frames. *)
Theorem C104_skip_partial : forall steps bs T skip st cnt, 1 <= bs -> 1 <= skip -> block_periodic steps bs T ->
  st + (cnt - 1) * skip < length steps ->
  block_periodic (sliced (map (fun k => st + k * skip) (seq 0 cnt)) steps 0%Z) (bs / Nat.gcd bs skip) (Z.of_nat (skip / Nat.gcd bs skip) * T).
Proof.
  intros steps bs T skip st cnt Hb Hs P Hl i Hi. unfold sliced in *. rewrite !map_length, seq_length in Hi.
  set (g := Nat.gcd bs skip) in *.
  assert (G : 1 <= g). { unfold g. pose proof (Nat.gcd_eq_0_l bs skip). lia. }
  destruct (Nat.gcd_divide_l bs skip) as [q Hq]. destruct (Nat.gcd_divide_r bs skip) as [r Hr]. fold g in Hq, Hr.
  assert (Dq : bs / g = q) by (rewrite Hq; apply Nat.div_mul; lia).
  assert (Dr : skip / g = r) by (rewrite Hr; apply Nat.div_mul; lia).
  rewrite Dq in *. rewrite Dr.
  rewrite !(nth_map_lt _ _ _ _ _ 0%Z 0) by (rewrite map_length, seq_length; lia).
  rewrite !(nth_map_lt _ _ _ _ _ 0 0) by (rewrite seq_length; lia). rewrite !seq_nth by lia. cbn [Nat.add].
  replace (st + (i + q) * skip) with (st + i * skip + r * bs) by (rewrite Hq, Hr; ring).
  apply periodic_many; [exact P|].
  assert (st + i * skip + r * bs = st + (i + q) * skip) as -> by (rewrite Hq, Hr; ring). nia.
Qed.
Print Assumptions C104_skip_partial.

(** The frames selected with skip are equally spaced, as supposed above. *)
Theorem C104_skip_frames_partial : forall n bs first last skip, 1 <= bs -> 1 <= skip -> (forall s, first = Some s -> s < n) ->
  exists cnt, used_frames n bs (request first last skip) = Ok (map (fun k => block_start bs first + k * skip) (seq 0 cnt)) /\
    (cnt <> 0 -> block_start bs first + (cnt - 1) * skip < n).
Proof.
  intros n bs first last skip Hb Hs Hf. pose proof (used_range n bs first last Hb Hf) as U.
  rewrite C104_whole_blocks_partial in U by (try assumption; lia). apply (f_equal (fun r => match r with Ok l => l | Err _ => [] end)) in U.
  rewrite C104_whole_blocks_partial by (try assumption; lia).
  set (st := block_start bs first) in *. set (len := Nat.min _ n - st) in *.
  assert (F : filter (fun i => from_block bs first i && before_block bs last i && ((i - st) mod skip =? 0)) (seq 0 n)
     = filter (fun i => (i - st) mod skip =? 0) (seq st len)).
  { rewrite <- U. clear. induction (seq 0 n) as [|i l IH]; [reflexivity|]. cbn [filter]. rewrite Nat.mod_1_r. cbn [Nat.eqb].
    destruct (from_block bs first i && before_block bs last i); cbn [andb filter]; rewrite IH; reflexivity. }
  rewrite F. exists ((len + (skip - 1)) / skip). split.
  - f_equal. clear F U.
    assert (G : forall len st0, (st0 - st) mod skip = 0 -> st <= st0 ->
       filter (fun i => (i - st) mod skip =? 0) (seq st0 len) = map (fun k => st0 + k * skip) (seq 0 ((len + (skip - 1)) / skip))).
    { intros l0. induction l0 as [l0 IH] using lt_wf_ind. intros st0 Hm Hle.
      destruct (Nat.le_gt_cases l0 0) as [Z|Z].
      { assert (l0 = 0) as -> by lia. rewrite (Nat.div_small (0 + (skip - 1))) by lia. reflexivity. }
      destruct (Nat.le_gt_cases l0 skip) as [W|W].
      - replace ((l0 + (skip - 1)) / skip) with 1 by (apply Nat.div_unique with (l0 - 1); lia).
        destruct l0 as [|l0]; [lia|]. cbn [seq filter map]. rewrite Hm. cbn [Nat.eqb]. rewrite Nat.add_0_r. f_equal.
        rewrite (filter_ext_in _ (fun _ => false)).
        + assert (N : forall l : list nat, filter (fun _ => false) l = []) by (induction l; cbn; auto). apply N.
        + intros i Hi. apply in_seq in Hi. apply Nat.eqb_neq. intros E.
          assert (X : (i - st) mod skip = (i - st0) mod skip).
          { replace (i - st) with ((i - st0) + (st0 - st)) by lia. rewrite Nat.add_mod, Hm, Nat.add_0_r, Nat.mod_mod by lia. reflexivity. }
          rewrite X, Nat.mod_small in E by lia. lia.
      - replace l0 with (skip + (l0 - skip)) at 1 by lia. rewrite seq_app, filter_app.
        assert (H1 : filter (fun i => (i - st) mod skip =? 0) (seq st0 skip) = [st0]).
        { rewrite (IH skip W st0 Hm Hle). replace ((skip + (skip - 1)) / skip) with 1 by (apply Nat.div_unique with (skip - 1); lia).
          cbn. rewrite Nat.add_0_r. reflexivity. }
        rewrite H1. rewrite (IH (l0 - skip)); [|lia| |lia].
        + replace ((l0 + (skip - 1)) / skip) with (S ((l0 - skip + (skip - 1)) / skip)).
          * cbn [seq map app]. rewrite Nat.add_0_r. f_equal. rewrite <- seq_shift, map_map. apply map_ext. intros k. lia.
          * replace (l0 + (skip - 1)) with (l0 - skip + (skip - 1) + 1 * skip) by lia. rewrite Nat.div_add by lia. lia.
        + replace (st0 + skip - st) with (st0 - st + 1 * skip) by lia. rewrite Nat.mod_add by lia. exact Hm. }
    apply G; [rewrite Nat.sub_diag; apply Nat.mod_0_l; lia|lia].
  - intros H. assert (len <> 0). { intros Z. apply H. rewrite Z. apply Nat.div_small. lia. }
    assert (((len + (skip - 1)) / skip - 1) * skip < len).
    { pose proof (Nat.mul_div_le (len + (skip - 1)) skip). nia. }
    unfold len in *. lia.
Qed.
Print Assumptions C104_skip_frames_partial.

(** Counting from the end: as documented for Python, when the trajectory is made of
    whole blocks. *)
Theorem C104_negative_partial : forall n bs z last skip, 1 <= bs -> n mod bs = 0 -> (- Z.of_nat n <= z < 0)%Z ->
  used_frames n bs (mkSlice (Some z) last skip) = used_frames n bs (mkSlice (Some (z + Z.of_nat n)%Z) last skip) /\
  used_frames n bs (mkSlice last (Some z) skip) = used_frames n bs (mkSlice last (Some (z + Z.of_nat n)%Z) skip).
Proof.
  intros n bs z last skip Hb Hn Hz.
  assert (K : exists k, n = k * bs). { exists (n / bs). pose proof (Nat.div_mod n bs). lia. }
  destruct K as [k ->].
  assert (F : block_floor bs (z + Z.of_nat (k * bs)) = (block_floor bs z + Z.of_nat (k * bs))%Z).
  { unfold block_floor. rewrite Nat2Z.inj_mul, Z.div_add by lia. ring. }
  assert (B : (block_floor bs z < 0 /\ - Z.of_nat (k * bs) <= block_floor bs z)%Z).
  { unfold block_floor. split.
    - assert (z / Z.of_nat bs < 0)%Z by (apply Z.div_lt_upper_bound; lia). nia.
    - assert (- Z.of_nat k <= z / Z.of_nat bs)%Z by (apply Z.div_le_lower_bound; lia). nia. }
  assert (S : forall d y, (y < 0 -> - Z.of_nat (k * bs) <= y -> slice_end (k * bs) d (Some y) = slice_end (k * bs) d (Some (y + Z.of_nat (k * bs))))%Z).
  { intros d y H1 H2. unfold slice_end. destruct (Z.ltb_spec y 0); [|lia]. destruct (Z.ltb_spec (y + Z.of_nat (k * bs)) 0); [lia|].
    rewrite Nat.min_l by lia. reflexivity. }
  assert (T1 : forall y a b, trivial (mkSlice (Some y) a b) = false) by reflexivity.
  assert (T2 : forall y a b, trivial (mkSlice a (Some y) b) = false) by (intros y [a|] b; reflexivity).
  unfold used_frames, on_blocks. cbn [sl_start sl_stop sl_step option_map].
  destruct (1 <? bs); split; rewrite ?T1, ?T2; unfold slice_frames; cbn [sl_start sl_stop sl_step]; rewrite ?F, <- S by lia; reflexivity.
Qed.
Print Assumptions C104_negative_partial.

(** Otherwise the selection starts inside a block: two blocks of four frames and one
    more frame, first = -4. *)
Theorem C104_negative_refuted : exists n bs sl frames steps T,
  sl_start sl = Some (-4)%Z /\ length steps = n /\ block_periodic steps bs T /\
  used_frames n bs sl = Ok frames /\ nth 0 frames 0 mod bs <> 0 /\
  forall c m, sliced frames steps 0%Z <> map (Z.add c) (firstn m steps).
Proof.
  exists 9, 4, (mkSlice (Some (-4)%Z) None (Some 1)), [5; 6; 7; 8], [0; 1; 2; 4; 10; 11; 12; 14; 20]%Z, 10%Z.
  split; [reflexivity|]. split; [reflexivity|]. split.
  - intros i Hi. cbn in Hi. do 5 (destruct i as [|i]; [reflexivity|]). lia.
  - split; [reflexivity|]. split; [discriminate|]. intros c m E.
    assert (L : m = 4).
    { apply (f_equal (@length Z)) in E. unfold sliced in E. rewrite !map_length, firstn_length in E. cbn in E. lia. }
    subst m. cbn in E. injection E. intros. lia.
Qed.
Print Assumptions C104_negative_refuted.

(** Three blocks of four frames, first = 5 and last = 11: the second block, whose frame 4
    precedes [first]. *)
Example C104_nonvacuous :
  used_frames 13 4 (request (Some 5) (Some 11) 1) = Ok [4; 5; 6; 7] /\
  used_frames 13 4 (request None None 1) = Ok (seq 0 13) /\
  used_frames 13 4 (request (Some 5) None 2) = Ok [4; 6; 8; 10; 12] /\
  used_frames 13 1 (request (Some 5) (Some 11) 2) = Ok [5; 7; 9] /\
  used_frames 12 4 (mkSlice (Some (-1)%Z) None None) = Ok [8; 9; 10; 11].
Proof. repeat split; reflexivity. Qed.
