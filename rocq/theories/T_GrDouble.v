(** C125: the radial distribution function in double precision, from positions to values. *)
From Coq Require Import List ZArith Bool Arith Reals Lia Lra Floats.SpecFloat Sorting.Sorted.
From Verif Require P_Dynamics P_Gr.
From Verif Require Import PyBase PyBaseFacts Num Spec_Stats NumFacts P_Text F64Round F64Ops F64Facts F64Sqrt F64Pi P_F64Mean M_Helpers M_Correlation M_Dynamics M_Realspace M_LinkedCells M_GrObject
  Spec_Correlation Spec_Dynamics Spec_Pairs P_Pairs P_Image P_GrFast Spec_Doubles P_F64Time P_F64Order Spec_Dot P_F64Dot Spec_Dist P_F64Dist P_F64Bins
  T_Distances P_F64Alpha M_Norm64 Spec_Norm64 P_Norm64 T_Norm64 Spec_GrDouble P_GrObject P_GrDouble.
Import ListNotations.
Local Open Scope R_scope.

(** What is asked of a frame: the cell, particles in both groups, coordinates at most 3/2 sides
    apart, and no exact distance within E of the end of a bin, where E bounds the error of a
    distance. *)
Definition good_frame (same : bool) (D : list R -> list R -> list R -> R) (c : gcell F64ops) (dr : f64) (n : nat) (E : R) (N : nat) (f : gframe F64ops) : Prop :=
  f_cell f = Some c /\ f_0 f <> [] /\ f_1 f <> [] /\ (same = true -> f_1 f = f_0 f) /\ (length (f_0 f) <= N)%nat /\ (length (f_1 f) <= N)%nat /\
  forall a b, In (a, b) (pairs_of same f) -> regular (3 / 2) a b (c_side c) /\ slack (map fval a) (map fval b) (map fval (c_side c)) <= E /\
    forall k, (1 <= k <= n)%nat -> let d := D (map fval (c_side c)) (map fval a) (map fval b) in
      d + E < INR k * fval dr * (1 - p2 (-51)) \/ INR k * fval dr * (1 + p2 (-51)) + E <= d.

Lemma sum_bound : forall (l : list nat) M k, (forall x, In x l -> (x <= M)%nat) -> (fold_left Nat.add l k <= k + length l * M)%nat.
Proof.
  induction l as [|x l IH]; intros M k H; cbn [fold_left length]; [lia|]. specialize (IH M (k + x)%nat (fun y Hy => H y (or_intror Hy))). pose proof (H x (or_introl eq_refl)). lia.
Qed.

Lemma pairs_number : forall same f, (length (pairs_of same f) <= length (f_0 f) * (if same then length (f_0 f) else length (f_1 f)))%nat.
Proof.
  intros same f. unfold pairs_of. destruct same; [|rewrite prod_length; lia]. rewrite map_length. unfold index_pairs.
  apply Nat.le_trans with (1 := P_Overlap.filter_length_le _ _ _). rewrite prod_length, !seq_length. lia.
Qed.

Lemma volume_shift : forall d distinct dr V V' acc k, V <> 0 -> V' <> 0 -> exact_shell d dr k <> 0 ->
  rmean (map (fun s => INR (snd (snd s))) acc) <> 0 -> rmean (map (fun s => INR (fst (snd s))) acc) <> 0 ->
  exact_gr d distinct dr V' acc k = exact_gr d distinct dr V acc k * (V' / V).
Proof. intros d distinct dr V V' acc k H1 H2 H3 H4 H5. unfold exact_gr. destruct distinct; field; repeat split; assumption. Qed.

(** The values reported are the g(r) of the exact distances, up to a relative error of
    (448 + 46 k) u in bin k; the distances are the centers of the bins up to 5/2 roundings; all
    bins up to half of the smallest side L are reported, up to those roundings, and no other. *)
Theorem C125_values : forall d sd big same p skip frames f0 c grid E D N, (d = 2 \/ d = 3)%nat -> is_distance D -> good_cell d c -> (1 <= skip)%nat -> frames <> [] ->
  rmax_given F64ops p = false -> gr_setup_grid F64ops p sd (Some c) = Ok grid -> (2 <= length grid)%nat -> (Z.of_nat (length grid) <= 2 ^ 20)%Z ->
  let dr := fsub (nth 1 grid (f64_ofZ 0)) (nth 0 grid (f64_ofZ 0)) in
  ok dr -> p2 (-60) <= fval dr <= p2 60 ->
  (forall f, In f frames -> good_frame same D c dr (length grid) E N f) -> (Z.of_nat (length frames * (N * N)) <= 2 ^ 50)%Z ->
  exists out ks L, gr_object_fast F64ops f64_pi sd big d same p skip frames = Ok out /\
    In L (c_side c) /\ (forall M, In M (c_side c) -> fval L <= fval M) /\
    StronglySorted lt ks /\
    (forall k, (k < length grid - 1)%nat -> (1 + 5 / 2 * u) * ((INR k + / 2) * fval dr) <= fval L / 2 -> In k ks) /\
    (forall k, In k ks -> (k < length grid - 1)%nat /\ (1 - 5 / 2 * u) * ((INR k + / 2) * fval dr) <= fval L / 2) /\
    Forall2 (fun k rg => ok (fst rg) /\ Rabs (fval (fst rg) - (INR k + / 2) * fval dr) <= 5 / 2 * u * ((INR k + / 2) * fval dr) /\
      let g := true_gr d same D (c_side c) (fval dr) (used_frames skip frames f0) k in ok (snd rg) /\ Rabs (fval (snd rg) - g) <= (448 + 46 * INR k) * u * g) ks out.
Proof.
  intros d sd big same p skip frames f0 c grid E D N Hd HD Hc Hs Hne Hr Hg Hn Hn20 dr Kd Bd Hf HN.
  set (n := length grid) in *. set (os := origins 0 skip (length frames)).
  assert (Hd1 : (1 <= d)%nat) by lia. assert (Hlen : (1 <= length frames)%nat) by (destruct frames; [congruence|cbn; lia]).
  assert (W : width_ok dr) by (split; [exact Kd|]; assert (p2 (-400) <= p2 (-60)) by (apply p2_le; lia); assert (p2 60 <= p2 400) by (apply p2_le; lia); lra).
  assert (Hos : forall i, In i os -> In (nth i frames f0) frames) by (intros i Hi; apply nth_In, (origins_lt skip); exact Hi).
  assert (Hose : os <> []) by (apply origins_nonempty; lia).
  (* the histograms *)
  set (hist := fun i => match frame_histogram same (c_side c) dr n (nth i frames f0) with Ok h => h | Err _ => [] end).
  assert (HH : forall i, In i os -> frame_histogram same (c_side c) dr n (nth i frames f0) = Ok (hist i) /\ length (hist i) = n /\ forall k, (k < n)%nat -> nth k (hist i) 0%nat = true_count same D (c_side c) (fval dr) (nth i frames f0) k).
  { intros i Hi. destruct (Hf _ (Hos i Hi)) as [_ [_ [_ [_ [_ [_ HP]]]]]].
    destruct (histogram_exact same (c_side c) dr n E D (nth i frames f0) HD W ltac:(lia) ltac:(lia)) as [h [Eh Hh]]; [intros a b Hab; destruct (HP a b Hab) as [A1 [A2 A3]]; split; [exact A1|]; split; [exact A2|exact A3]|].
    unfold hist. rewrite Eh. split; [reflexivity|exact Hh]. }
  set (acc := map (fun i => (hist i, (length (f_0 (nth i frames f0)), length (f_1 (nth i frames f0))))) os).
  pose proof (object_form sd big d same p skip frames f0 c grid hist Hd1 Hc Hs Hne (fun f Hi => match Hf f Hi with conj a (conj b (conj e (conj g _))) => conj a (conj b (conj e g)) end) Hr Hg Hn (fun i Hi => proj1 (HH i Hi))) as OF.
  cbv zeta in OF. fold dr n os acc in OF.
  destruct (crop_half p d c Hd1 Hc Hr) as [crop [L [Ecrop [IL [ML [Kcrop Vcrop]]]]]]. rewrite Ecrop in OF. cbn [bind] in OF.
  destruct (volume_close d c Hd Hc) as [KV [BV [PV NV]]]. cbv zeta in *. set (V := fold_right Rmult 1 (map fval (c_side c))) in *. set (V64 := cell_volume F64ops c) in *.
  (* the premises of the normalisation *)
  assert (Ha : acc <> []) by (unfold acc; destruct os; [congruence|discriminate]).
  assert (Los : (length os <= length frames)%nat) by (unfold os, origins; apply Nat.le_trans with (1 := P_Overlap.filter_length_le _ _ _); rewrite seq_length; lia).
  assert (La : length acc = length os) by (unfold acc; apply map_length).
  assert (N1 : (1 <= N)%nat). { destruct os as [|i os'] eqn:Eo; [congruence|]. destruct (Hf _ (Hos i (or_introl eq_refl))) as [_ [A [_ [_ [B _]]]]]. destruct (f_0 (nth i frames f0)); [congruence|]. cbn [length] in B. lia. }
  assert (NN : (N <= N * N)%nat) by nia. assert (LN : (length frames <= length frames * (N * N))%nat) by nia. assert (LN' : (length os * (N * N) <= length frames * (N * N))%nat) by (apply Nat.mul_le_mono_r; exact Los).
  assert (Pos : forall s, In s acc -> (1 <= fst (snd s))%nat /\ (1 <= snd (snd s))%nat).
  { intros s Hi. unfold acc in Hi. apply in_map_iff in Hi. destruct Hi as [i [<- Hi]]. cbn [fst snd]. destruct (Hf _ (Hos i Hi)) as [_ [A [B _]]]. destruct (f_0 (nth i frames f0)); [congruence|]. destruct (f_1 (nth i frames f0)); [congruence|]. cbn [length]. lia. }
  assert (Tot : forall g : list nat * (nat * nat) -> nat, (forall s, In s acc -> (g s <= N * N)%nat) -> (Z.of_nat (total acc g) <= 2 ^ 53)%Z).
  { intros g Hgs. unfold total. pose proof (sum_bound (map g acc) (N * N) 0%nat) as B. rewrite map_length, La in B. specialize (B ltac:(intros x Hx; apply in_map_iff in Hx; destruct Hx as [s [<- Hsx]]; apply Hgs; exact Hsx)). lia. }
  assert (T0 : (Z.of_nat (total acc (fun s => fst (snd s))) <= 2 ^ 53)%Z).
  { apply Tot. intros s Hi. unfold acc in Hi. apply in_map_iff in Hi. destruct Hi as [i [<- Hi]]. cbn [fst snd]. destruct (Hf _ (Hos i Hi)) as [_ [_ [_ [_ [A _]]]]]. lia. }
  assert (T1 : (Z.of_nat (total acc (fun s => snd (snd s))) <= 2 ^ 53)%Z).
  { apply Tot. intros s Hi. unfold acc in Hi. apply in_map_iff in Hi. destruct Hi as [i [<- Hi]]. cbn [fst snd]. destruct (Hf _ (Hos i Hi)) as [_ [_ [_ [_ [_ [A _]]]]]]. lia. }
  assert (T2 : forall k, (k < n)%nat -> (Z.of_nat (total acc (fun s => nth k (fst s) 0%nat)) <= 2 ^ 53)%Z).
  { intros k Hk. apply Tot. intros s Hi. unfold acc in Hi. apply in_map_iff in Hi. destruct Hi as [i [<- Hi]]. cbn [fst snd]. rewrite (proj2 (proj2 (HH i Hi)) k Hk). unfold true_count.
    apply Nat.le_trans with (1 := P_Overlap.filter_length_le _ _ _). apply Nat.le_trans with (1 := pairs_number _ _). destruct (Hf _ (Hos i Hi)) as [_ [_ [_ [_ [A [B _]]]]]]. destruct same; apply Nat.mul_le_mono; lia. }
  assert (LA : (Z.of_nat (length acc) <= 2 ^ 50)%Z) by lia.
  (* the exact values *)
  assert (EG : forall k, (k < n)%nat -> exact_gr d (negb same) (fval dr) V acc k = true_gr d same D (c_side c) (fval dr) (used_frames skip frames f0) k).
  { intros k Hk. unfold exact_gr, true_gr, used_frames. fold V os. unfold acc. rewrite !map_map. cbn [fst snd].
    rewrite (map_ext_in (fun i => INR (nth k (hist i) 0%nat)) (fun i => INR (true_count same D (c_side c) (fval dr) (nth i frames f0) k)) os) by (intros i Hi; rewrite (proj2 (proj2 (HH i Hi)) k Hk); reflexivity).
    destruct same; reflexivity. }
  pose proof u_small as U.
  assert (VAL : forall k, (k < n - 1)%nat -> let g := true_gr d same D (c_side c) (fval dr) (used_frames skip frames f0) k in
    let v := value_by dr (npow F64ops) f64_pi V64 acc d (negb same) k in ok v /\ Rabs (fval v - g) <= (448 + 46 * INR k) * u * g).
  { intros k Hk g v. destruct (value_close dr Kd Bd (npow F64ops) products_fair f64_pi pi_ok pi_nearest V64 KV BV acc Ha LA Pos d (negb same) k Hd ltac:(lia) T0 T1 (T2 k ltac:(lia))) as [Kg Ng]. fold v in Kg, Ng. split; [exact Kg|].
    assert (PS : 0 < exact_shell d (fval dr) k).
    { unfold exact_shell. apply Rmult_lt_0_compat; [pose proof PI2_1; destruct (d =? 2)%nat; lra|]. change ((INR (k + 1) * fval dr) ^ d - (INR k * fval dr) ^ d) with (exact_step dr d k). pose proof (step_size dr Bd d k Hd ltac:(lia)). pose proof (p2_pos (-180)). lra. }
    pose proof (mean_positive acc Ha LA Pos (fun s => fst (snd s)) (fun s Hi => proj1 (Pos s Hi))) as M0. pose proof (mean_positive acc Ha LA Pos (fun s => snd (snd s)) (fun s Hi => proj2 (Pos s Hi))) as M1. cbv beta in M0, M1.
    pose proof (p2_pos (-200)) as P200. rewrite (volume_shift d (negb same) (fval dr) V (fval V64) acc k) in Ng by (apply not_eq_sym, Rlt_not_eq; lra). rewrite (EG k) in Ng by lia. fold g in Ng.
    assert (Pg : 0 <= g).
    { unfold g. rewrite <- (EG k) by lia. unfold exact_gr. assert (0 < / V) by (apply Rinv_0_lt_compat; exact PV).
      apply Rmult_le_pos; [apply P_Dynamics.rmean_ge; [destruct acc; [congruence|discriminate]|]; intros x Hx; apply in_map_iff in Hx; destruct Hx as [s [<- _]]; apply pos_INR|]. left. apply Rinv_0_lt_compat. unfold Rdiv.
      apply Rmult_lt_0_compat; [|destruct same; cbn [negb]; lra]. apply Rmult_lt_0_compat; [|lra]. apply Rmult_lt_0_compat; [|exact PS]. apply Rmult_lt_0_compat; lra. }
    assert (Q : Rabs (fval V64 / V - 1) <= 5 / 2 * u).
    { replace (fval V64 / V - 1) with ((fval V64 - V) * / V) by (field; lra). rewrite Rabs_mult, (Rabs_right (/ V)) by (apply Rle_ge, Rlt_le, Rinv_0_lt_compat; exact PV).
      apply Rmult_le_reg_r with V; [exact PV|]. rewrite Rmult_assoc, Rinv_l, Rmult_1_r by lra. exact NV. }
    set (q := fval V64 / V) in *. apply Rabs_le_inv in Q.
    destruct (square_small (445 + 46 * k)) as [_ S2]; [lia|]. replace (INR (445 + 46 * k)) with (445 + 46 * INR k) in S2 by (rewrite plus_INR, mult_INR, !INR_IZR_INZ; simpl; ring).
    set (cc := (445 + 46 * INR k) * u) in *. assert (C0 : 0 <= cc) by (unfold cc; apply Rmult_le_pos; [pose proof (pos_INR k); lra|lra]).
    replace ((448 + 46 * INR k) * u * g) with (cc * g + 3 * (u * g)) by (unfold cc; ring).
    assert (Pug : 0 <= u * g) by (apply Rmult_le_pos; lra). 
    assert (G1 : Rabs (g * q - g) <= 5 / 2 * (u * g)).
    { replace (g * q - g) with (g * (q - 1)) by ring. rewrite Rabs_mult, (Rabs_right g) by lra. apply Rle_trans with (g * (5 / 2 * u)); [apply Rmult_le_compat_l; [exact Pg|apply Rabs_le; lra]|lra]. }
    apply Rabs_le_inv in G1. assert (G2 : cc * (g * q) <= cc * g + / 1000000 * (5 / 2 * (u * g))).
    { apply Rle_trans with (cc * (g + 5 / 2 * (u * g))); [apply Rmult_le_compat_l; lra|]. rewrite Rmult_plus_distr_l. apply Rplus_le_compat_l. apply Rmult_le_compat_r; lra. }
    apply Rabs_le_inv in Ng. apply Rabs_le. lra. }
  assert (CEN : forall k, (k < n)%nat -> ok (bin_center dr k) /\ Rabs (fval (bin_center dr k) - (INR k + / 2) * fval dr) <= 5 / 2 * u * ((INR k + / 2) * fval dr)).
  { intros k Hk. destruct (center_near dr Kd Bd k) as [Kb Nb]; [lia|]. split; [exact Kb|]. apply Rle_trans with (1 := Nb). right. field. }
  assert (EO : combine (map (bin_center dr) (seq 0 n)) (map (value_by dr (npow F64ops) f64_pi V64 acc d (negb same)) (seq 0 (n - 1)))
    = map (fun k => (bin_center dr k, value_by dr (npow F64ops) f64_pi V64 acc d (negb same) k)) (seq 0 (n - 1))).
  { rewrite combine_map_seq. replace (Nat.min n (n - 1)) with (n - 1)%nat by lia. reflexivity. }
  assert (Le : forall k, (k < n)%nat -> nle F64ops (bin_center dr k) crop = true <-> fval (bin_center dr k) <= fval L / 2) by (intros k Hk; rewrite <- Vcrop; apply leb_spec; [apply CEN; exact Hk|exact Kcrop]).
  set (ks := filter (fun k => nle F64ops (bin_center dr k) crop) (seq 0 (n - 1))).
  exists (map (fun k => (bin_center dr k, value_by dr (npow F64ops) f64_pi V64 acc d (negb same) k)) ks), ks, L.
  split.
  { rewrite OF. f_equal. refine (eq_trans (f_equal (filter _) EO) _). rewrite P_Gr.filter_map. reflexivity. }
  split; [exact IL|]. split; [exact ML|]. split.
  { unfold ks. apply filter_StronglySorted, seq_StronglySorted. }
  split.
  { intros k Hk HL. unfold ks. apply filter_In. split; [apply in_seq; lia|]. apply Le; [lia|]. destruct (CEN k ltac:(lia)) as [_ B]. apply Rabs_le_inv in B. lra. }
  split.
  { intros k Hk. unfold ks in Hk. apply filter_In in Hk. destruct Hk as [Hk HL]. apply in_seq in Hk. split; [lia|]. apply Le in HL; [|lia]. destruct (CEN k ltac:(lia)) as [_ B]. apply Rabs_le_inv in B. lra. }
  assert (HK : forall k, In k ks -> (k < n - 1)%nat) by (intros k Hk; unfold ks in Hk; apply filter_In in Hk; destruct Hk as [Hk _]; apply in_seq in Hk; lia).
  clearbody ks. clear OF EO. induction ks as [|k ks IH]; cbn [map]; constructor; [|apply IH; intros j Hj; apply HK; right; exact Hj].
  cbn [fst snd]. assert (Hk : (k < n - 1)%nat) by (apply HK; left; reflexivity). destruct (CEN k ltac:(lia)) as [A1 A2]. split; [exact A1|]. split; [exact A2|]. apply (VAL k Hk).
Qed.
Print Assumptions C125_values.

(** Two particles 5 apart in a square of side 16, bins of width 2: one value per bin up to 8. *)
Definition square_cell : gcell F64ops := @mkCell F64ops [f64_ofZ 16; f64_ofZ 16] [true; true].
Definition square_pos : list (list f64) := [[f64_ofZ 0; f64_ofZ 0]; [f64_ofZ 3; f64_ofZ 4]].
Definition square_frame : gframe F64ops := @mkFrame F64ops square_pos square_pos (Some square_cell) 2 (f64_ofZ 1).
Definition square_params : gparams F64ops := @mkGr F64ops (Some (map f64_ofZ [1; 3; 5; 7; 9]%Z)) (f64_ofZ 2) (f64_ofZ (-1)).

Lemma square_distance : forall D, is_distance D -> D [16; 16] [0; 0] [3; 4] = 5.
Proof.
  intros D HD. apply (min_image_unique [0; 0] [3; 4] [16; 16]); [apply HD; [|reflexivity|reflexivity]; intros L [<-|[<-|[]]]; lra|].
  assert (Q : forall k : Z, forall a, 0 <= a <= 8 -> a * a <= (0 - (a + IZR k * 16)) * (0 - (a + IZR k * 16))).
  { intros k a Ha. destruct (Z_le_gt_dec 0 k) as [Hk|Hk]; [apply IZR_le in Hk; nra|]. assert (H : (k <= -1)%Z) by lia. apply IZR_le in H. nra. }
  split.
  - exists [0; 0]%Z. split; [reflexivity|]. unfold euclid. cbn [shifted dist2]. symmetry. replace (_ + _) with (5 * 5) by ring. apply sqrt_square. lra.
  - intros [|k1 [|k2 [|k3 ks]]] Hl; try discriminate Hl. unfold euclid. cbn [shifted dist2]. rewrite <- (sqrt_square 5) by lra. apply sqrt_le_1_alt. pose proof (Q k1 3 ltac:(lra)). pose proof (Q k2 4 ltac:(lra)). lra.
Qed.

Example C125_nonvacuous :
  good_cell 2 square_cell /\ rmax_given F64ops square_params = false /\ gr_setup_grid F64ops square_params (f64_ofZ 2) (Some square_cell) = Ok (map f64_ofZ [1; 3; 5; 7; 9]%Z) /\
  ok (fsub (f64_ofZ 3) (f64_ofZ 1)) /\ fval (fsub (f64_ofZ 3) (f64_ofZ 1)) = 2 /\
  (forall D, is_distance D -> good_frame true D square_cell (fsub (f64_ofZ 3) (f64_ofZ 1)) 5 (/ 2) 2 square_frame) /\
  match gr_object_fast F64ops f64_pi (f64_ofZ 2) (f64_ofZ 1000) 2 true square_params 1 [square_frame] with
  | Ok out => map (fun rg => SFeqb (snd rg) (f64_ofZ 0)) out = [true; true; false; true]
  | Err _ => False
  end.
Proof.
  assert (Z3 : forall z : Z, (Z.abs z <= 2 ^ 53)%Z -> ok (f64_ofZ z) /\ fval (f64_ofZ z) = IZR z) by (intros z Hz; apply ofZ_exact; exact Hz).
  destruct (Z3 0%Z ltac:(lia)) as [K0 V0]. destruct (Z3 3%Z ltac:(lia)) as [K3 V3]. destruct (Z3 4%Z ltac:(lia)) as [K4 V4]. destruct (Z3 16%Z ltac:(lia)) as [K16 V16]. destruct (Z3 2%Z ltac:(lia)) as [K2 V2].
  assert (E2 : fsub (f64_ofZ 3) (f64_ofZ 1) = f64_ofZ 2) by (vm_compute; reflexivity).
  assert (B1 : 16 <= p2 60) by (apply Rle_trans with (p2 4); [unfold p2; simpl; lra|apply p2_le; lia]).
  assert (B2 : p2 (-60) <= 1) by (apply Rle_trans with (p2 0); [apply p2_le; lia|unfold p2; simpl; lra]).
  assert (B3 : 16 <= p2 400) by (apply Rle_trans with (1 := B1); apply p2_le; lia). assert (B4 : p2 (-400) <= 1) by (apply Rle_trans with (2 := B2); apply p2_le; lia).
  assert (B5 : 0 < p2 (-53) <= / 1048576) by (split; [apply p2_pos|apply Rle_trans with (p2 (-20)); [apply p2_le; lia|unfold p2; simpl; lra]]).
  assert (B6 : 0 < p2 (-51) <= / 1048576) by (split; [apply p2_pos|apply Rle_trans with (p2 (-20)); [apply p2_le; lia|unfold p2; simpl; lra]]).
  split. { split; [reflexivity|]. split; [reflexivity|]. cbn [square_cell c_side]. assert (P : ok (f64_ofZ 16) /\ p2 (-60) <= fval (f64_ofZ 16) <= p2 60) by (split; [exact K16|rewrite V16; lra]). apply Forall_cons; [exact P|]. apply Forall_cons; [exact P|]. apply Forall_nil. }
  split; [vm_compute; reflexivity|]. split; [vm_compute; reflexivity|]. rewrite E2. split; [exact K2|]. split; [exact V2|]. split; [|vm_compute; reflexivity].
  intros D HD. split; [reflexivity|]. split; [discriminate|]. split; [discriminate|]. split; [reflexivity|]. split; [cbn; lia|]. split; [cbn; lia|].
  intros a b Hab. assert (EP : pairs_of true square_frame = [([f64_ofZ 0; f64_ofZ 0], [f64_ofZ 3; f64_ofZ 4])]) by reflexivity. rewrite EP in Hab. destruct Hab as [Hab|[]]. assert (Ha : a = [f64_ofZ 0; f64_ofZ 0]) by (exact (eq_sym (f_equal fst Hab))). assert (Hb : b = [f64_ofZ 3; f64_ofZ 4]) by (exact (eq_sym (f_equal snd Hab))). rewrite Ha, Hb. clear Hab Ha Hb a b.
  assert (EA : map fval [f64_ofZ 0; f64_ofZ 0] = [0; 0]) by (cbn [map]; rewrite V0; reflexivity). assert (EB : map fval [f64_ofZ 3; f64_ofZ 4] = [3; 4]) by (cbn [map]; rewrite V3, V4; reflexivity).
  assert (ES : map fval (c_side square_cell) = [16; 16]) by (refine (eq_trans (y := [fval (f64_ofZ 16); fval (f64_ofZ 16)]) _ _); [reflexivity|rewrite V16; reflexivity]). rewrite EA, EB, ES, V2. split.
  { split; [discriminate|]. split; [cbn; lia|]. change (c_side square_cell) with [f64_ofZ 16; f64_ofZ 16]. cbn [pair_coords]. unfold coordinate. rewrite V0, V3, V4, V16.
    split; [|split; [|exact I]]; (split; [split; [assumption|]; split; [assumption|]; split; [assumption|]; split; [apply Rabs_le; lra|]; split; [apply Rabs_le; lra|lra]|]); apply Rabs_le; lra. }
  split. { unfold slack. cbn [length spread INR]. rewrite !Rabs_left by lra. nra. }
  intros k Hk. cbv zeta. rewrite (square_distance D HD). assert (C : (k <= 2 \/ 3 <= k)%nat) by lia. destruct C as [C|C]; apply le_INR in C; cbn [INR] in C.
  - right. pose proof (pos_INR k). nra.
  - left. nra.
Qed.
Print Assumptions C125_nonvacuous.
