(** C127: the radial distribution function with a cutoff, in double precision. *)
From Coq Require Import List ZArith Bool Arith Reals Lia Lra Psatz Floats.SpecFloat Sorting.Sorted.
From Verif Require P_Dynamics P_Gr.
From Verif Require Import PyBase PyBaseFacts Num Spec_Stats NumFacts P_Text F64Round F64Ops F64Facts F64Sqrt F64Pi P_F64Mean M_Helpers M_Correlation M_Dynamics M_Realspace M_LinkedCells M_GrObject
  Spec_Correlation Spec_Dynamics P_Overlap Spec_Pairs P_Pairs P_Image P_Count P_GrFast P_GrFast2 Spec_LinkedCells P_LinkedCells P_LinkedCells2 P_LinkedCells3 Spec_Doubles P_F64Time P_F64Overlap P_F64Order Spec_Dot P_F64Dot Spec_Dist P_F64Dist P_F64Bins
  T_Distances P_F64Alpha M_Norm64 Spec_Norm64 P_Norm64 T_Norm64 Spec_GrDouble P_GrObject P_GrDouble T_GrDouble Spec_Linked64 P_Linked64 T_Linked64 P_GrLinked P_GrLinked2.
Import ListNotations.
Local Open Scope R_scope.

(** What linked cells ask of a frame besides: particles in the cell, away from its upper end by
    2^-50 of a side, and distances below the end of the last bin. *)
Definition in_cells (same : bool) (D : list R -> list R -> list R -> R) (c : gcell F64ops) (dr : f64) (n : nat) (E : R) (f : gframe F64ops) : Prop :=
  (forall x, In x (f_0 f) \/ In x (f_1 f) -> well_inside x (c_side c)) /\
  forall a b, In (a, b) (pairs_of same f) -> D (map fval (c_side c)) (map fval a) (map fval b) + E < INR n * fval dr * (1 - p2 (-51)).

(** Linked cells are used for cells of at least four cutoffs, up to roundings. *)
Lemma linked_fits : forall (p : gparams F64ops) d (f : gframe F64ops) c, good_cell d c -> (1 <= d)%nat -> f_cell f = Some c -> ok (g_rmax p) -> p2 (-60) <= fval (g_rmax p) ->
  (forall L, In L (c_side c) -> fval L <= p2 30 * fval (g_rmax p)) -> use_linked F64ops p d f = Ok true -> cell_fits (g_rmax p) (c_side c).
Proof.
  intros p d f c [Ln [_ F]] Hd Ec Kr Br Hmax Hu. split; [exact Kr|]. split; [exact Br|]. apply Forall_forall. intros L HL. rewrite Forall_forall in F. destruct (F L HL) as [KL BL].
  split; [exact KL|]. split; [|apply BL]. split; [|apply Hmax; exact HL]. set (rc := g_rmax p) in *. assert (P : 0 < fval rc) by (pose proof (p2_pos (-60)); lra).
  unfold use_linked in Hu. rewrite Ec in Hu. destruct (rmax_given F64ops p); [|discriminate].
  assert (KD : forall M, In M (c_side c) -> rounded (fval M / fval rc) (fdiv M rc) /\ ok (fdiv M rc)).
  { intros M HM. destruct (F M HM) as [KM BM]. assert (Rd : rounded (fval M / fval rc) (fdiv M rc)) by (apply div_spec; try apply KM; try apply Kr; lra). split; [exact Rd|].
    assert (Q : 0 <= fval M / fval rc <= p2 30).
    { pose proof (p2_pos (-60)). split; [apply Rmult_le_pos; [lra|left; apply Rinv_0_lt_compat; exact P]|]. apply Rmult_le_reg_r with (fval rc); [exact P|]. unfold Rdiv. rewrite Rmult_assoc, Rinv_l by lra. pose proof (Hmax M HM). lra. }
    destruct (rounded_bounded _ _ (p2 30) Rd) as [K _]; [apply format_p2; lia|rewrite Rabs_right by lra; lra|apply p2_lt; lia|exact K]. }
  destruct (c_side c) as [|a l] eqn:El; [contradiction|]. cbn [map side_min bind] in Hu.
  assert (Fk : Forall ok (map (fun M => fdiv M rc) (a :: l))) by (apply Forall_forall; intros x Hx; apply in_map_iff in Hx; destruct Hx as [M [<- HM]]; apply KD; exact HM). cbn [map] in Fk. inversion Fk as [|? ? Ka Fl]; subst.
  destruct (best_smallest (map (fun M => fdiv M rc) l) (fdiv a rc) Ka Fl) as [Km [_ Mm]]. cbv zeta in *.
  set (m := list_best F64ops (nlt F64ops) (fdiv a rc) (map (fun M => fdiv M rc) l)) in *.
  assert (Bm : 4 <= fval m).
  { assert (Hk : exists k, pyint F64ops m = Ok k /\ (3 < k)%Z).
    { match type of Hu with bind (pyint F64ops ?x) _ = _ => change x with m in Hu end. destruct (pyint F64ops m) as [k|]; [|discriminate]. exists k. split; [reflexivity|]. cbn [bind] in Hu. injection Hu as Hu. apply andb_true_iff in Hu. apply Z.ltb_lt. apply Hu. }
    destruct Hk as [k0 [Ek0 Hk0]]. unfold pyint in Ek0. change (ntrunc F64ops m) with (f64_toint rnd_trunc m) in Ek0. destruct (Rle_dec 0 (fval m)) as [P0|P0].
    - destruct (trunc_spec64 m Km P0) as [k [Ek [_ Bk]]]. rewrite Ek in Ek0. injection Ek0 as ->. assert (IZR 4 <= IZR k0) by (apply IZR_le; lia). simpl in *. lra.
    - exfalso. assert (Pm : forall y, In y (fdiv a rc :: map (fun M => fdiv M rc) l) -> 0 <= fval y).
      { intros y Hy. assert (Hy' : In y (map (fun M => fdiv M rc) (a :: l))) by exact Hy. apply in_map_iff in Hy'. destruct Hy' as [M [<- HM]]. destruct (KD M HM) as [Rd KM]. destruct (F M HM) as [_ BM].
        apply (nearest_lower (fval M / fval rc) (fval (fdiv M rc)) 0); [exact (proj1 (rounded_value _ _ Rd (proj2 KM)))|apply (format_Z 0); cbn; lia|]. pose proof (p2_pos (-60)). apply Rmult_le_pos; [lra|left; apply Rinv_0_lt_compat; exact P]. }
      destruct (best_smallest (map (fun M => fdiv M rc) l) (fdiv a rc) Ka Fl) as [_ [Im _]]. apply P0, Pm. exact Im. }
  destruct (KD L HL) as [Rd KM]. assert (Bd : 4 <= fval (fdiv L rc)).
  { apply Rle_trans with (1 := Bm). apply Mm. change (In (fdiv L rc) (map (fun M => fdiv M rc) (a :: l))). apply (in_map (fun M => fdiv M rc)). exact HL. }
  destruct (Rle_dec (3 * fval rc) (fval L)) as [|Q]; [assumption|exfalso]. apply Rnot_le_lt in Q.
  assert (U3 : fval (fdiv L rc) <= 3).
  { apply (nearest_upper (fval L / fval rc) (fval (fdiv L rc)) 3); [exact (proj1 (rounded_value _ _ Rd (proj2 KM)))|apply (format_Z 3); cbn; lia|]. apply Rmult_le_reg_r with (fval rc); [exact P|]. unfold Rdiv. rewrite Rmult_assoc, Rinv_l by lra. lra. }
  lra.
Qed.

Lemma values_accurate : forall d (same : bool) dr n c (os : list nat) (h : nat -> list nat) (fr : nat -> gframe F64ops) N F, (d = 2 \/ d = 3)%nat -> good_cell d c -> ok dr -> p2 (-60) <= fval dr <= p2 60 -> (2 <= n)%nat -> (Z.of_nat n <= 2 ^ 20)%Z ->
  os <> [] -> (length os <= F)%nat -> (Z.of_nat (F * (N * N)) <= 2 ^ 50)%Z ->
  (forall i, In i os -> f_0 (fr i) <> [] /\ f_1 (fr i) <> [] /\ (length (f_0 (fr i)) <= N)%nat /\ (length (f_1 (fr i)) <= N)%nat /\ forall k, (k < n)%nat -> (nth k (h i) 0 <= N * N)%nat) ->
  let acc := map (fun i => (h i, (length (f_0 (fr i)), length (f_1 (fr i))))) os in
  forall k, (k < n - 1)%nat ->
    let g := rmean (map (fun i => INR (nth k (h i) 0%nat)) os) / (rmean (map (fun i => INR (length (f_1 (fr i)))) os) / fold_right Rmult 1 (map fval (c_side c)) * exact_shell d (fval dr) k * rmean (map (fun i => INR (length (f_0 (fr i)))) os) / (if same then 2 else 1)) in
    let v := value_by dr (npow F64ops) f64_pi (cell_volume F64ops c) acc d (negb same) k in
    ok v /\ Rabs (fval v - g) <= (448 + 46 * INR k) * u * g /\ 0 < rmean (map (fun i => INR (length (f_1 (fr i)))) os) / fold_right Rmult 1 (map fval (c_side c)) * exact_shell d (fval dr) k * rmean (map (fun i => INR (length (f_0 (fr i)))) os) / (if same then 2 else 1).
Proof.
  intros d same dr n c os hist fr N F Hd Hc Kd Bd Hn Hn20 Hose Los HN Hi0 acc k Hk g v.
  destruct (volume_close d c Hd Hc) as [KV [BV [PV NV]]]. cbv zeta in *. set (V := fold_right Rmult 1 (map fval (c_side c))) in *. set (V64 := cell_volume F64ops c) in *.
  assert (Ha : acc <> []) by (unfold acc; destruct os; [congruence|discriminate]).
  assert (La : length acc = length os) by (unfold acc; apply map_length).
  assert (N1 : (1 <= N)%nat). { destruct os as [|i os'] eqn:Eo; [congruence|]. destruct (Hi0 i (or_introl eq_refl)) as [A [_ [B _]]]. destruct (f_0 (fr i)); [congruence|]. cbn [length] in B. lia. }
  assert (NN : (N <= N * N)%nat) by nia. assert (F1 : (1 <= F)%nat) by (destruct os; [congruence|cbn [length] in Los; lia]). assert (LN : (F <= F * (N * N))%nat) by nia. assert (LN' : (length os * (N * N) <= F * (N * N))%nat) by (apply Nat.mul_le_mono_r; exact Los).
  assert (Pos : forall s, In s acc -> (1 <= fst (snd s))%nat /\ (1 <= snd (snd s))%nat).
  { intros s Hi. unfold acc in Hi. apply in_map_iff in Hi. destruct Hi as [i [<- Hi]]. cbn [fst snd]. destruct (Hi0 i Hi) as [A [B _]]. destruct (f_0 (fr i)); [congruence|]. destruct (f_1 (fr i)); [congruence|]. cbn [length]. lia. }
  assert (Tot : forall g : list nat * (nat * nat) -> nat, (forall s, In s acc -> (g s <= N * N)%nat) -> (Z.of_nat (total acc g) <= 2 ^ 53)%Z).
  { intros g0 Hgs. unfold total. pose proof (sum_bound (map g0 acc) (N * N) 0%nat) as B. rewrite map_length, La in B. specialize (B ltac:(intros x Hx; apply in_map_iff in Hx; destruct Hx as [s [<- Hsx]]; apply Hgs; exact Hsx)). lia. }
  assert (T0 : (Z.of_nat (total acc (fun s => fst (snd s))) <= 2 ^ 53)%Z).
  { apply Tot. intros s Hi. unfold acc in Hi. apply in_map_iff in Hi. destruct Hi as [i [<- Hi]]. cbn [fst snd]. destruct (Hi0 i Hi) as [_ [_ [A _]]]. lia. }
  assert (T1 : (Z.of_nat (total acc (fun s => snd (snd s))) <= 2 ^ 53)%Z).
  { apply Tot. intros s Hi. unfold acc in Hi. apply in_map_iff in Hi. destruct Hi as [i [<- Hi]]. cbn [fst snd]. destruct (Hi0 i Hi) as [_ [_ [_ [A _]]]]. lia. }
  assert (T2 : (Z.of_nat (total acc (fun s => nth k (fst s) 0%nat)) <= 2 ^ 53)%Z).
  { apply Tot. intros s Hi. unfold acc in Hi. apply in_map_iff in Hi. destruct Hi as [i [<- Hi]]. cbn [fst snd]. apply (Hi0 i Hi). lia. }
  assert (LA : (Z.of_nat (length acc) <= 2 ^ 50)%Z) by lia.
  assert (EG : exact_gr d (negb same) (fval dr) V acc k = g) by (unfold exact_gr, g, acc; rewrite !map_map; cbn [fst snd]; destruct same; reflexivity).
  pose proof u_small as U.
  destruct (value_close dr Kd Bd (npow F64ops) products_fair f64_pi pi_ok pi_nearest V64 KV BV acc Ha LA Pos d (negb same) k Hd ltac:(lia) T0 T1 T2) as [Kg Ng]. fold v in Kg, Ng. split; [exact Kg|].
  assert (PS : 0 < exact_shell d (fval dr) k).
  { unfold exact_shell. apply Rmult_lt_0_compat; [pose proof PI2_1; destruct (d =? 2)%nat; lra|]. change ((INR (k + 1) * fval dr) ^ d - (INR k * fval dr) ^ d) with (exact_step dr d k). pose proof (step_size dr Bd d k Hd ltac:(lia)). pose proof (p2_pos (-180)). lra. }
  pose proof (mean_positive acc Ha LA Pos (fun s => fst (snd s)) (fun s Hi => proj1 (Pos s Hi))) as M0. pose proof (mean_positive acc Ha LA Pos (fun s => snd (snd s)) (fun s Hi => proj2 (Pos s Hi))) as M1. cbv beta in M0, M1.
  assert (Norm : 0 < rmean (map (fun i => INR (length (f_1 (fr i)))) os) / V * exact_shell d (fval dr) k * rmean (map (fun i => INR (length (f_0 (fr i)))) os) / (if same then 2 else 1)).
  { assert (I1 : map (fun i => INR (length (f_1 (fr i)))) os = map (fun s => INR (snd (snd s))) acc) by (unfold acc; rewrite map_map; reflexivity). assert (I0 : map (fun i => INR (length (f_0 (fr i)))) os = map (fun s => INR (fst (snd s))) acc) by (unfold acc; rewrite map_map; reflexivity). rewrite I0, I1.
    assert (0 < / V) by (apply Rinv_0_lt_compat; exact PV). unfold Rdiv. apply Rmult_lt_0_compat; [|destruct same; lra]. apply Rmult_lt_0_compat; [|lra]. apply Rmult_lt_0_compat; [|exact PS]. apply Rmult_lt_0_compat; lra. }
  split; [|exact Norm].
  pose proof (p2_pos (-200)) as P200. rewrite (volume_shift d (negb same) (fval dr) V (fval V64) acc k) in Ng by (apply not_eq_sym, Rlt_not_eq; lra). rewrite EG in Ng.
  assert (Pg : 0 <= g).
  { unfold g. fold V. apply Rmult_le_pos; [apply P_Dynamics.rmean_ge; [destruct os; [congruence|discriminate]|]; intros x Hx; apply in_map_iff in Hx; destruct Hx as [s [<- _]]; apply pos_INR|]. left. apply Rinv_0_lt_compat. exact Norm. }
  assert (Q : Rabs (fval V64 / V - 1) <= 5 / 2 * u).
  { replace (fval V64 / V - 1) with ((fval V64 - V) * / V) by (field; lra). rewrite Rabs_mult, (Rabs_right (/ V)) by (apply Rle_ge, Rlt_le, Rinv_0_lt_compat; exact PV).
    apply Rmult_le_reg_r with V; [exact PV|]. rewrite Rmult_assoc, Rinv_l, Rmult_1_r by lra. exact NV. }
  set (q := fval V64 / V) in *. apply Rabs_le_inv in Q.
  destruct (square_small (445 + 46 * k)) as [_ S2]; [lia|]. replace (INR (445 + 46 * k)) with (445 + 46 * INR k) in S2 by (rewrite plus_INR, mult_INR, !INR_IZR_INZ; simpl; ring).
  set (cc := (445 + 46 * INR k) * u) in *. assert (C0 : 0 <= cc) by (unfold cc; apply Rmult_le_pos; [pose proof (pos_INR k); lra|lra]).
  clearbody g. replace ((448 + 46 * INR k) * u * g) with (cc * g + 3 * (u * g)) by (unfold cc; ring).
  assert (Pug : 0 <= u * g) by (apply Rmult_le_pos; lra). 
  assert (G1 : Rabs (g * q - g) <= 5 / 2 * (u * g)).
  { replace (g * q - g) with (g * (q - 1)) by ring. rewrite Rabs_mult, (Rabs_right g) by lra. apply Rle_trans with (g * (5 / 2 * u)); [apply Rmult_le_compat_l; [exact Pg|apply Rabs_le; lra]|lra]. }
  apply Rabs_le_inv in G1. assert (G2 : cc * (g * q) <= cc * g + / 1000000 * (5 / 2 * (u * g))).
  { apply Rle_trans with (cc * (g + 5 / 2 * (u * g))); [apply Rmult_le_compat_l; lra|]. rewrite Rmult_plus_distr_l. apply Rplus_le_compat_l. apply Rmult_le_compat_r; lra. }
  apply Rabs_le_inv in Ng. apply Rabs_le. lra.
Qed.

Lemma rmean_le_pointwise : forall (f g : nat -> R) os, (forall i, In i os -> f i <= g i) -> os <> [] -> rmean (map f os) <= rmean (map g os).
Proof.
  intros f g os H Hne. unfold rmean. rewrite !map_length. unfold Rdiv. apply Rmult_le_compat_r.
  - left. apply Rinv_0_lt_compat. apply lt_0_INR. destruct os; [congruence|cbn; lia].
  - clear Hne. induction os as [|i os IH]; [apply Rle_refl|]; cbn [map]; unfold rsum; cbn [fold_right]; fold (rsum (map f os)); fold (rsum (map g os)). apply Rplus_le_compat; [apply H; left; reflexivity|apply IH; intros j Hj; apply H; right; exact Hj].
Qed.

(** With a cutoff, whether linked cells are used or not: distances as in C125, all bins up to the
    cutoff, no other; with linked cells, bins that end before the cutoff by 2^-49 of every side
    are as accurate as without, and the others never exceed the g(r) of the exact distances by
    more than the roundings. *)
Theorem C127_values : forall d sd big linked (same : bool) (p : gparams F64ops) skip frames f0 c grid E D N, (d = 2 \/ d = 3)%nat -> is_distance D -> good_cell d c -> (1 <= skip)%nat -> frames <> [] ->
  rmax_given F64ops p = true -> ok (g_rmax p) -> p2 (-60) <= fval (g_rmax p) -> (forall L, In L (c_side c) -> fval L <= p2 30 * fval (g_rmax p)) ->
  use_linked F64ops p d (nth 0 frames f0) = Ok linked -> gr_setup_grid F64ops p sd (Some c) = Ok grid -> (2 <= length grid)%nat -> (Z.of_nat (length grid) <= 2 ^ 20)%Z ->
  let dr := fsub (nth 1 grid (f64_ofZ 0)) (nth 0 grid (f64_ofZ 0)) in
  ok dr -> p2 (-60) <= fval dr <= p2 60 ->
  (forall f, In f frames -> good_frame same D c dr (length grid) E N f) -> (linked = true -> forall f, In f frames -> in_cells same D c dr (length grid) E f) ->
  (Z.of_nat (length frames * (N * N)) <= 2 ^ 50)%Z ->
  exists out ks, gr_object_fast F64ops f64_pi sd big d same p skip frames = Ok out /\
    StronglySorted lt ks /\
    (forall k, (k < length grid - 1)%nat -> (1 + 5 / 2 * u) * ((INR k + / 2) * fval dr) <= fval (g_rmax p) -> In k ks) /\
    (forall k, In k ks -> (k < length grid - 1)%nat /\ (1 - 5 / 2 * u) * ((INR k + / 2) * fval dr) <= fval (g_rmax p)) /\
    Forall2 (fun k rg => ok (fst rg) /\ Rabs (fval (fst rg) - (INR k + / 2) * fval dr) <= 5 / 2 * u * ((INR k + / 2) * fval dr) /\
      let g := true_gr d same D (c_side c) (fval dr) (used_frames skip frames f0) k in
      ok (snd rg) /\ fval (snd rg) <= g + (448 + 46 * INR k) * u * g /\
      (linked = false \/ (forall L, In L (c_side c) -> INR (k + 1) * fval dr + p2 (-49) * fval L <= fval (g_rmax p)) -> Rabs (fval (snd rg) - g) <= (448 + 46 * INR k) * u * g)) ks out.
Proof.
  intros d sd big linked same p skip frames f0 c grid E D N Hd HD Hc Hs Hne Hr Kr Br Hmax Hu Hg Hn Hn20 dr Kd Bd Hf Hl HN.
  set (n := length grid) in *. set (os := origins 0 skip (length frames)).
  assert (Hlen : (1 <= length frames)%nat) by (destruct frames; [congruence|cbn; lia]).
  assert (W : width_ok dr) by (split; [exact Kd|]; assert (p2 (-400) <= p2 (-60)) by (apply p2_le; lia); assert (p2 60 <= p2 400) by (apply p2_le; lia); lra).
  assert (Hos : forall i, In i os -> In (nth i frames f0) frames) by (intros i Hi; apply nth_In, (origins_lt skip); exact Hi).
  assert (Hose : os <> []) by (apply origins_nonempty; lia).
  assert (Hfit : linked = true -> cell_fits (g_rmax p) (c_side c)).
  { intros ->. apply (linked_fits p d (nth 0 frames f0)); try assumption; [lia|]. apply Hf. apply nth_In. lia. }
  assert (Hall : forall i, In i os -> exists h, counted linked same (g_rmax p) (c_side c) dr n (nth i frames f0) h /\
    (forall k, (k < n)%nat -> (nth k h 0 <= true_count same D (c_side c) (fval dr) (nth i frames f0) k)%nat) /\
    (forall k, (k < n)%nat -> linked = false \/ (forall L, In L (c_side c) -> INR (k + 1) * fval dr + p2 (-49) * fval L <= fval (g_rmax p)) -> nth k h 0%nat = true_count same D (c_side c) (fval dr) (nth i frames f0) k)).
  { intros i Hi. destruct (Hf _ (Hos i Hi)) as [_ [A0 [_ [As [_ [_ HP]]]]]]. destruct linked.
    - destruct (Hl eq_refl _ (Hos i Hi)) as [I1 I2].
      destruct (linked_histogram same (g_rmax p) (c_side c) dr n E D (nth i frames f0)) as [ns [h [En [Ne [Eh [Lh [Hle Heq]]]]]]]; try assumption; try lia.
      + exact (eq_ind_r (fun z => dim23 z) Hd (proj1 Hc)).
      + apply Hfit. reflexivity.
      + intros a b Hab. destruct (HP a b Hab) as [B1 [B2 B3]]. split; [exact B1|]. split; [exact B2|]. split; [exact B3|apply I2; exact Hab].
      + exists h. split; [exists ns; auto|]. split; [exact Hle|]. intros k Hk [Q|Q]; [discriminate|]. apply (Heq (INR (k + 1) * fval dr)); [exact Q|exact Hk|lra].
    - destruct (histogram_exact same (c_side c) dr n E D (nth i frames f0) HD W ltac:(lia) ltac:(lia)) as [h [Eh [Lh Hh]]]; [intros a b Hab; destruct (HP a b Hab) as [A1 [A2 A3]]; split; [exact A1|]; split; [exact A2|exact A3]|].
      exists h. split; [exact Eh|]. split; [intros k Hk; rewrite Hh by exact Hk; lia|]. intros k Hk _. apply Hh. exact Hk. }
  assert (Hch : exists hist : nat -> list nat, forall i, In i os -> counted linked same (g_rmax p) (c_side c) dr n (nth i frames f0) (hist i) /\
    (forall k, (k < n)%nat -> (nth k (hist i) 0 <= true_count same D (c_side c) (fval dr) (nth i frames f0) k)%nat) /\
    (forall k, (k < n)%nat -> linked = false \/ (forall L, In L (c_side c) -> INR (k + 1) * fval dr + p2 (-49) * fval L <= fval (g_rmax p)) -> nth k (hist i) 0%nat = true_count same D (c_side c) (fval dr) (nth i frames f0) k)).
  { clear - Hall. clearbody os. induction os as [|i os IH]; [exists (fun _ => []); intros i []|]. destruct IH as [hist IH]; [intros j Hj; apply Hall; right; exact Hj|]. destruct (Hall i (or_introl eq_refl)) as [h Hh].
    exists (fun j => if Nat.eq_dec i j then h else hist j). intros j Hj. destruct (Nat.eq_dec i j) as [->|Nn]; [exact Hh|]. apply IH. destruct Hj; [contradiction|assumption]. }
  destruct Hch as [hist HH]. clear Hall.
  set (acc := map (fun i => (hist i, (length (f_0 (nth i frames f0)), length (f_1 (nth i frames f0))))) os).
  pose proof (cutoff_form sd big d linked same p skip frames f0 c grid hist Hd Hc Hs Hne (fun f Hi => match Hf f Hi with conj a (conj b (conj e (conj g _))) => conj a (conj b (conj e g)) end) Hr Hu Hg Hn (fun i Hi => proj1 (HH i Hi))) as OF.
  cbv zeta in OF. fold dr n os acc in OF.
  assert (Los : (length os <= length frames)%nat) by (unfold os, origins; apply Nat.le_trans with (1 := P_Overlap.filter_length_le _ _ _); rewrite seq_length; lia).
  pose proof u_small as U.
  assert (VAL : forall k, (k < n - 1)%nat -> let g := true_gr d same D (c_side c) (fval dr) (used_frames skip frames f0) k in
    let v := value_by dr (npow F64ops) f64_pi (cell_volume F64ops c) acc d (negb same) k in ok v /\ fval v <= g + (448 + 46 * INR k) * u * g /\
      (linked = false \/ (forall L, In L (c_side c) -> INR (k + 1) * fval dr + p2 (-49) * fval L <= fval (g_rmax p)) -> Rabs (fval v - g) <= (448 + 46 * INR k) * u * g)).
  { intros k Hk g v. destruct (values_accurate d same dr n c os hist (fun i => nth i frames f0) N (length frames) Hd Hc Kd Bd Hn Hn20 Hose Los HN) with (k := k) as [Kv [Ev Pn]].
    - intros i Hi. destruct (Hf _ (Hos i Hi)) as [_ [A0 [A1 [As [B0 [B1 _]]]]]]. split; [exact A0|]. split; [exact A1|]. split; [exact B0|]. split; [exact B1|]. intros j Hj.
      apply Nat.le_trans with (1 := proj1 (proj2 (HH i Hi)) j Hj). unfold true_count. apply Nat.le_trans with (1 := P_Overlap.filter_length_le _ _ _). apply Nat.le_trans with (1 := pairs_number _ _). destruct same; apply Nat.mul_le_mono; lia.
    - exact Hk.
    - fold acc in Kv, Ev. fold v in Kv, Ev. cbv beta zeta in Ev, Pn.
      assert (Eg : g = rmean (map (fun i => INR (true_count same D (c_side c) (fval dr) (nth i frames f0) k)) os) / (rmean (map (fun i => INR (length (f_1 (nth i frames f0)))) os) / fold_right Rmult 1 (map fval (c_side c)) * exact_shell d (fval dr) k * rmean (map (fun i => INR (length (f_0 (nth i frames f0)))) os) / (if same then 2 else 1))).
      { unfold g, true_gr, used_frames. fold os. rewrite !map_map. reflexivity. }
      set (norm := rmean (map (fun i => INR (length (f_1 (nth i frames f0)))) os) / fold_right Rmult 1 (map fval (c_side c)) * exact_shell d (fval dr) k * rmean (map (fun i => INR (length (f_0 (nth i frames f0)))) os) / (if same then 2 else 1)) in *.
      set (g' := rmean (map (fun i => INR (nth k (hist i) 0%nat)) os) / norm) in *.
      assert (Le : g' <= g).
      { rewrite Eg. unfold g', Rdiv. apply Rmult_le_compat_r; [left; apply Rinv_0_lt_compat; exact Pn|]. apply rmean_le_pointwise; [|exact Hose]. intros i Hi. apply le_INR. apply (proj1 (proj2 (HH i Hi))). lia. }
      assert (Cp : 0 <= (448 + 46 * INR k) * u) by (apply Rmult_le_pos; [pose proof (pos_INR k); lra|lra]).
      split; [exact Kv|]. split.
      + apply Rabs_le_inv in Ev. assert ((448 + 46 * INR k) * u * g' <= (448 + 46 * INR k) * u * g) by (apply Rmult_le_compat_l; assumption). lra.
      + intros Q. assert (Eq : g' = g).
        { rewrite Eg. unfold g'. f_equal. f_equal. apply map_ext_in. intros i Hi. f_equal. apply (proj2 (proj2 (HH i Hi))); [lia|exact Q]. }
        rewrite Eq in Ev. exact Ev. }
  assert (CEN : forall k, (k < n)%nat -> ok (bin_center dr k) /\ Rabs (fval (bin_center dr k) - (INR k + / 2) * fval dr) <= 5 / 2 * u * ((INR k + / 2) * fval dr)).
  { intros k Hk. destruct (center_near dr Kd Bd k) as [Kb Nb]; [lia|]. split; [exact Kb|]. apply Rle_trans with (1 := Nb). right. field. }
  assert (EO : combine (map (bin_center dr) (seq 0 n)) (map (value_by dr (npow F64ops) f64_pi (cell_volume F64ops c) acc d (negb same)) (seq 0 (n - 1)))
    = map (fun k => (bin_center dr k, value_by dr (npow F64ops) f64_pi (cell_volume F64ops c) acc d (negb same) k)) (seq 0 (n - 1))).
  { rewrite combine_map_seq. replace (Nat.min n (n - 1)) with (n - 1)%nat by lia. reflexivity. }
  assert (Le : forall k, (k < n)%nat -> nle F64ops (bin_center dr k) (g_rmax p) = true <-> fval (bin_center dr k) <= fval (g_rmax p)) by (intros k Hk; apply leb_spec; [apply CEN; exact Hk|exact Kr]).
  set (ks := filter (fun k => nle F64ops (bin_center dr k) (g_rmax p)) (seq 0 (n - 1))).
  exists (map (fun k => (bin_center dr k, value_by dr (npow F64ops) f64_pi (cell_volume F64ops c) acc d (negb same) k)) ks), ks.
  split.
  { rewrite OF. f_equal. refine (eq_trans (f_equal (filter _) EO) _). rewrite P_Gr.filter_map. reflexivity. }
  split.
  { unfold ks. apply filter_StronglySorted, seq_StronglySorted. }
  split.
  { intros k Hk HL. unfold ks. apply filter_In. split; [apply in_seq; lia|]. apply Le; [lia|]. destruct (CEN k ltac:(lia)) as [_ B]. apply Rabs_le_inv in B. lra. }
  split.
  { intros k Hk. unfold ks in Hk. apply filter_In in Hk. destruct Hk as [Hk HL]. apply in_seq in Hk. split; [lia|]. apply Le in HL; [|lia]. destruct (CEN k ltac:(lia)) as [_ B]. apply Rabs_le_inv in B. lra. }
  assert (HK : forall k, In k ks -> (k < n - 1)%nat) by (intros k Hk; unfold ks in Hk; apply filter_In in Hk; destruct Hk as [Hk _]; apply in_seq in Hk; lia).
  clearbody ks. clear OF EO. induction ks as [|k ks IH]; cbn [map]; constructor; [|apply IH; intros j Hj; apply HK; right; exact Hj].
  cbn [fst snd]. assert (Hk : (k < n - 1)%nat) by (apply HK; left; reflexivity). destruct (CEN k ltac:(lia)) as [A1 A2]. split; [exact A1|]. split; [exact A2|]. apply (VAL k Hk).
Qed.
Print Assumptions C127_values.

(** Two particles 1 apart in a square of side 16, bins of width 2 and a cutoff of 3: linked cells
    are used. *)
Definition near_pos : list (list f64) := [[f64_ofZ 0; f64_ofZ 0]; [f64_ofZ 1; f64_ofZ 0]].
Definition near_frame : gframe F64ops := @mkFrame F64ops near_pos near_pos (Some square_cell) 2 (f64_ofZ 1).
Definition near_params : gparams F64ops := @mkGr F64ops (Some (map f64_ofZ [1; 3; 5; 7; 9]%Z)) (f64_ofZ 2) (f64_ofZ 3).

Lemma near_distance : forall D, is_distance D -> D [16; 16] [0; 0] [1; 0] = 1.
Proof.
  intros D HD. apply (min_image_unique [0; 0] [1; 0] [16; 16]); [apply HD; [|reflexivity|reflexivity]; intros L [<-|[<-|[]]]; lra|].
  assert (Q : forall k : Z, forall a, 0 <= a <= 8 -> a * a <= (0 - (a + IZR k * 16)) * (0 - (a + IZR k * 16))).
  { intros k a Ha. destruct (Z_le_gt_dec 0 k) as [Hk|Hk]; [apply IZR_le in Hk; nra|]. assert (H : (k <= -1)%Z) by lia. apply IZR_le in H. nra. }
  split.
  - exists [0; 0]%Z. split; [reflexivity|]. unfold euclid. cbn [shifted dist2]. symmetry. replace (_ + _) with (1 * 1) by ring. apply sqrt_square. lra.
  - intros [|k1 [|k2 [|k3 ks]]] Hl; try discriminate Hl. unfold euclid. cbn [shifted dist2]. apply Rle_trans with (sqrt (1 * 1)); [rewrite sqrt_square; lra|]. apply sqrt_le_1_alt. pose proof (Q k1 1 ltac:(lra)). pose proof (Q k2 0 ltac:(lra)). lra.
Qed.

Example C127_nonvacuous :
  good_cell 2 square_cell /\ rmax_given F64ops near_params = true /\ use_linked F64ops near_params 2 near_frame = Ok true /\
  gr_setup_grid F64ops near_params (f64_ofZ 2) (Some square_cell) = Ok (map f64_ofZ [1; 3; 5; 7; 9]%Z) /\
  ok (fsub (f64_ofZ 3) (f64_ofZ 1)) /\ fval (fsub (f64_ofZ 3) (f64_ofZ 1)) = 2 /\
  (forall D, is_distance D -> good_frame true D square_cell (fsub (f64_ofZ 3) (f64_ofZ 1)) 5 (/ 2) 2 near_frame /\ in_cells true D square_cell (fsub (f64_ofZ 3) (f64_ofZ 1)) 5 (/ 2) near_frame) /\
  (forall L, In L (c_side square_cell) -> INR (0 + 1) * 2 + p2 (-49) * fval L <= fval (g_rmax near_params)) /\
  match gr_object_fast F64ops f64_pi (f64_ofZ 2) (f64_ofZ 1000) 2 true near_params 1 [near_frame] with
  | Ok out => map (fun rg => SFeqb (snd rg) (f64_ofZ 0)) out = [false; true]
  | Err _ => False
  end.
Proof.
  assert (Z3 : forall z : Z, (Z.abs z <= 2 ^ 53)%Z -> ok (f64_ofZ z) /\ fval (f64_ofZ z) = IZR z) by (intros z Hz; apply ofZ_exact; exact Hz).
  destruct (Z3 0%Z ltac:(lia)) as [K0 V0]. destruct (Z3 3%Z ltac:(lia)) as [K3 V3]. destruct (Z3 1%Z ltac:(lia)) as [K1 V1]. destruct (Z3 16%Z ltac:(lia)) as [K16 V16]. destruct (Z3 2%Z ltac:(lia)) as [K2 V2].
  assert (E2 : fsub (f64_ofZ 3) (f64_ofZ 1) = f64_ofZ 2) by (vm_compute; reflexivity).
  assert (B1 : 16 <= p2 60) by (apply Rle_trans with (p2 4); [unfold p2; simpl; lra|apply p2_le; lia]).
  assert (B2 : p2 (-60) <= 1) by (apply Rle_trans with (p2 0); [apply p2_le; lia|unfold p2; simpl; lra]).
  assert (B3 : 16 <= p2 400) by (apply Rle_trans with (1 := B1); apply p2_le; lia). assert (B4 : p2 (-400) <= 1) by (apply Rle_trans with (2 := B2); apply p2_le; lia).
  assert (B5 : 0 < p2 (-53) <= / 1048576) by (split; [apply p2_pos|apply Rle_trans with (p2 (-20)); [apply p2_le; lia|unfold p2; simpl; lra]]).
  assert (B6 : 0 < p2 (-51) <= / 1048576) by (split; [apply p2_pos|apply Rle_trans with (p2 (-20)); [apply p2_le; lia|unfold p2; simpl; lra]]).
  assert (B7 : 0 < p2 (-49) <= / 1048576) by (split; [apply p2_pos|apply Rle_trans with (p2 (-20)); [apply p2_le; lia|unfold p2; simpl; lra]]).
  assert (B8 : 0 < p2 (-50) <= / 1048576) by (split; [apply p2_pos|apply Rle_trans with (p2 (-20)); [apply p2_le; lia|unfold p2; simpl; lra]]).
  split. { split; [reflexivity|]. split; [reflexivity|]. cbn [square_cell c_side]. assert (P : ok (f64_ofZ 16) /\ p2 (-60) <= fval (f64_ofZ 16) <= p2 60) by (split; [exact K16|rewrite V16; lra]). apply Forall_cons; [exact P|]. apply Forall_cons; [exact P|]. apply Forall_nil. }
  split; [vm_compute; reflexivity|]. split; [vm_compute; reflexivity|]. split; [vm_compute; reflexivity|]. rewrite E2. split; [exact K2|]. split; [exact V2|]. split; [|split; [|vm_compute; reflexivity]].
  2:{ intros L HL. assert (HL' : L = f64_ofZ 16) by (destruct HL as [<-|[<-|[]]]; reflexivity). rewrite HL', V16. change (g_rmax near_params) with (f64_ofZ 3). rewrite V3. cbn [INR Nat.add]. lra. }
  intros D HD.
  assert (EA : map fval [f64_ofZ 0; f64_ofZ 0] = [0; 0]) by (cbn [map]; rewrite V0; reflexivity). assert (EB : map fval [f64_ofZ 1; f64_ofZ 0] = [1; 0]) by (cbn [map]; rewrite V1, V0; reflexivity).
  assert (ES : map fval (c_side square_cell) = [16; 16]) by (refine (eq_trans (y := [fval (f64_ofZ 16); fval (f64_ofZ 16)]) _ _); [reflexivity|rewrite V16; reflexivity]).
  assert (EP : pairs_of true near_frame = [([f64_ofZ 0; f64_ofZ 0], [f64_ofZ 1; f64_ofZ 0])]) by reflexivity.
  assert (Pair : forall a b, In (a, b) (pairs_of true near_frame) -> a = [f64_ofZ 0; f64_ofZ 0] /\ b = [f64_ofZ 1; f64_ofZ 0]) by (intros a b Hab; rewrite EP in Hab; destruct Hab as [Hab|[]]; split; [exact (eq_sym (f_equal fst Hab))|exact (eq_sym (f_equal snd Hab))]).
  split.
  - split; [reflexivity|]. split; [discriminate|]. split; [discriminate|]. split; [reflexivity|]. split; [cbn; lia|]. split; [cbn; lia|].
    intros a b Hab. destruct (Pair a b Hab) as [Ha Hb]. rewrite Ha, Hb. clear Hab Ha Hb a b. rewrite EA, EB, ES, V2. split.
    { split; [discriminate|]. split; [cbn; lia|]. change (c_side square_cell) with [f64_ofZ 16; f64_ofZ 16]. cbn [pair_coords]. unfold coordinate. rewrite V0, V1, V16.
      split; [|split; [|exact I]]; (split; [split; [assumption|]; split; [assumption|]; split; [assumption|]; split; [apply Rabs_le; lra|]; split; [apply Rabs_le; lra|lra]|]); apply Rabs_le; lra. }
    split. { unfold slack. cbn [length spread INR]. rewrite (Rabs_left (0 - 1)) by lra. rewrite (Rabs_right (0 - 0)) by lra. nra. }
    intros k Hk. cbv zeta. rewrite (near_distance D HD). left. assert (C : (1 <= k)%nat) by lia. apply le_INR in C. cbn [INR] in C. nra.
  - split.
    + assert (G : forall x, x = [f64_ofZ 0; f64_ofZ 0] \/ x = [f64_ofZ 1; f64_ofZ 0] -> well_inside x (c_side square_cell)).
      { intros x Hx. change (c_side square_cell) with [f64_ofZ 16; f64_ofZ 16].
        assert (A0 : ok (f64_ofZ 0) /\ - (fval (f64_ofZ 16) / 2) <= fval (f64_ofZ 0) <= fval (f64_ofZ 16) / 2 - p2 (-50) * fval (f64_ofZ 16)) by (split; [exact K0|rewrite V0, V16; lra]).
        assert (A1 : ok (f64_ofZ 1) /\ - (fval (f64_ofZ 16) / 2) <= fval (f64_ofZ 1) <= fval (f64_ofZ 16) / 2 - p2 (-50) * fval (f64_ofZ 16)) by (split; [exact K1|rewrite V1, V16; lra]).
        destruct Hx as [-> | ->]; (apply Forall2_cons; [assumption|]; apply Forall2_cons; [assumption|]; apply Forall2_nil). }
      intros x Hx. apply G. change (f_0 near_frame) with near_pos in Hx. change (f_1 near_frame) with near_pos in Hx. unfold near_pos in Hx.
      destruct Hx as [[<-|[<-|[]]]|[<-|[<-|[]]]]; auto.
    + intros a b Hab. destruct (Pair a b Hab) as [Ha Hb]. rewrite Ha, Hb, EA, EB, ES, V2, (near_distance D HD). cbn [INR]. lra.
Qed.
Print Assumptions C127_nonvacuous.
