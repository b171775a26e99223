(** C124: accuracy of the normalisation of g(r) in double precision. *)
From Coq Require Import List ZArith Bool Arith Reals Lia Lra Floats.SpecFloat.
From Verif Require Import PyBase PyBaseFacts Num NumFacts Spec_Stats P_Text F64Round F64Ops F64Facts F64Pi P_F64Mean P_F64Order P_F64Dot P_F64Alpha
  M_Helpers M_Correlation M_Dynamics M_Realspace M_LinkedCells M_GrObject M_Norm64 Spec_Doubles Spec_Norm64 P_Norm64.
Import ListNotations.
Local Open Scope R_scope.

(** Grids of at most 2^20 bins with a sensible spacing, a cell of sensible volume, at least one
    frame, particles of both groups in each frame, totals that fit in 53 bits. *)
Definition sensible (dr volume : f64) (n : nat) (acc : list (list nat * (nat * nat))) : Prop :=
  ok dr /\ p2 (-60) <= fval dr <= p2 60 /\ ok volume /\ p2 (-200) <= fval volume <= p2 200 /\
  (2 <= n)%nat /\ (Z.of_nat n <= 2 ^ 20)%Z /\ acc <> [] /\ (Z.of_nat (length acc) <= 2 ^ 50)%Z /\
  (forall s, In s acc -> (1 <= fst (snd s))%nat /\ (1 <= snd (snd s))%nat) /\
  (Z.of_nat (fold_left Nat.add (map (fun s => fst (snd s)) acc) 0%nat) <= 2 ^ 53)%Z /\
  (Z.of_nat (fold_left Nat.add (map (fun s => snd (snd s)) acc) 0%nat) <= 2 ^ 53)%Z /\
  (forall k, (k < n)%nat -> (Z.of_nat (fold_left Nat.add (map (fun s => nth k (fst s) 0%nat) acc) 0%nat) <= 2 ^ 53)%Z).

(** With math.pi, in two and three dimensions and with any powers good to 4u, the grid is the
    list of bin centers to 5/2 roundings, and every value is the exact g(r) of the histograms
    to a relative error of (445 + 46 k) u. *)
Theorem C124_values : forall pow64 d distinct dr n acc volume, fair_power pow64 -> (d = 2 \/ d = 3)%nat -> sensible dr volume n acc ->
  exists bins vals, fast_values_by F64ops pow64 f64_pi d distinct dr n acc volume = Ok (bins, vals) /\
    length bins = n /\ length vals = (n - 1)%nat /\
    (forall k b, nth_error bins k = Some b -> ok b /\ Rabs (fval b - (INR k + / 2) * fval dr) <= 5 / 2 * u * ((INR k + / 2) * fval dr)) /\
    (forall k g, nth_error vals k = Some g -> ok g /\
       Rabs (fval g - exact_gr d distinct (fval dr) (fval volume) acc k) <= (445 + 46 * INR k) * u * exact_gr d distinct (fval dr) (fval volume) acc k).
Proof.
  intros pow64 d distinct dr n acc volume Hp Hd [Kd [Bd [Kv [Bv [N2 [N20 [Ha [Hl [Hs [T0 [T1 T2]]]]]]]]]]].
  exists (map (bin_center dr) (seq 0 n)), (map (value_by dr pow64 f64_pi volume acc d distinct) (seq 0 (n - 1))).
  split; [apply values_form; exact N2|]. rewrite !map_length, !seq_length. split; [reflexivity|]. split; [reflexivity|].
  assert (Sel : forall (X : Type) (f : nat -> X) m k x, nth_error (map f (seq 0 m)) k = Some x -> (k < m)%nat /\ x = f k).
  { intros X f m k x H. assert (k < m)%nat by (rewrite <- (seq_length m 0), <- (map_length f); apply nth_error_Some; rewrite H; discriminate). split; [assumption|].
    rewrite nth_error_map in H. rewrite (nth_error_nth' (seq 0 m) 0%nat) in H by (rewrite seq_length; assumption). rewrite seq_nth in H by assumption. cbn in H. congruence. }
  split.
  - intros k b H. apply Sel in H. destruct H as [Hk ->]. destruct (center_near dr Kd Bd k) as [Kb Nb]; [lia|]. split; [exact Kb|]. apply Rle_trans with (1 := Nb). right. field.
  - intros k g H. apply Sel in H. destruct H as [Hk ->]. apply (value_close dr Kd Bd pow64 Hp f64_pi pi_ok pi_nearest volume Kv Bv acc Ha Hl Hs d distinct k Hd); try assumption; [lia|apply T2; lia].
Qed.
Print Assumptions C124_values.

(** The same for the model of the class, whose powers are products. *)
Theorem C124_products : forall d distinct dr n acc volume, (d = 2 \/ d = 3)%nat -> sensible dr volume n acc ->
  exists bins vals, fast_values F64ops f64_pi d distinct false dr n acc volume = Ok (bins, vals) /\ length vals = (n - 1)%nat /\
    (forall k g, nth_error vals k = Some g -> ok g /\
       Rabs (fval g - exact_gr d distinct (fval dr) (fval volume) acc k) <= (445 + 46 * INR k) * u * exact_gr d distinct (fval dr) (fval volume) acc k).
Proof.
  intros d distinct dr n acc volume Hd Hs. destruct (C124_values (npow F64ops) d distinct dr n acc volume products_fair Hd Hs) as [bins [vals [E [_ [L [_ V]]]]]].
  exists bins, vals. split; [rewrite fast_values_products; exact E|]. split; assumption.
Qed.
Print Assumptions C124_products.

(** A value is zero exactly where no frame has a pair. *)
Lemma relative_small : forall k, (Z.of_nat k <= 2 ^ 20)%Z -> (445 + 46 * INR k) * u < 1.
Proof.
  intros k H. destruct (square_small (445 + 46 * k)) as [_ S2]; [lia|]. replace (445 + 46 * INR k) with (INR (445 + 46 * k)); [lra|]. rewrite plus_INR, mult_INR, !INR_IZR_INZ. simpl. ring.
Qed.

Theorem C124_empty_bins : forall pow64 d distinct dr n acc volume, fair_power pow64 -> (d = 2 \/ d = 3)%nat -> sensible dr volume n acc ->
  forall bins vals, fast_values_by F64ops pow64 f64_pi d distinct dr n acc volume = Ok (bins, vals) ->
  forall k g, nth_error vals k = Some g -> 0 <= fval g /\ (fval g = 0 <-> forall s, In s acc -> nth k (fst s) 0%nat = 0%nat).
Proof.
  intros pow64 d distinct dr n acc volume Hp Hd Hs bins vals H k g Hg. destruct (C124_values pow64 d distinct dr n acc volume Hp Hd Hs) as [b' [v' [E [_ [L [_ V]]]]]].
  rewrite E in H. inversion H; subst b' v'. destruct (V k g Hg) as [Kg Ng]. assert (Hk : (k < n - 1)%nat) by (rewrite <- L; apply nth_error_Some; rewrite Hg; discriminate).
  destruct Hs as [Kd [Bd [Kv [Bv [N2 [N20 [Ha [Hl [Hs [T0 [T1 T2]]]]]]]]]]].
  destruct (norm_close dr Kd Bd pow64 Hp f64_pi pi_ok pi_nearest volume Kv Bv acc Ha Hl Hs d distinct k Hd ltac:(lia) T0 T1) as [_ PN].
  pose proof (relative_small k ltac:(lia)) as RS. unfold exact_gr in Ng. fold (exact_norm dr volume acc d distinct k) in Ng. set (z := exact_norm dr volume acc d distinct k) in *. set (y := rmean (map (fun s => INR (nth k (fst s) 0%nat)) acc)) in *.
  assert (P : 1 <= INR (length acc)) by (apply (le_INR 1); destruct acc; [congruence|cbn; lia]).
  assert (Ey : y = rsum (map (fun s => INR (nth k (fst s) 0%nat)) acc) / INR (length acc)) by (unfold y, rmean; rewrite map_length; reflexivity).
  assert (G : forall l : list (list nat * (nat * nat)), 0 <= rsum (map (fun s => INR (nth k (fst s) 0%nat)) l) /\ (rsum (map (fun s => INR (nth k (fst s) 0%nat)) l) = 0 <-> forall s, In s l -> nth k (fst s) 0%nat = 0%nat)).
  { clear. induction l as [|x l [IH1 IH2]]; cbn [map rsum]; [split; [lra|]; split; [intros _ s []|reflexivity]|]. pose proof (pos_INR (nth k (fst x) 0%nat)) as Px. split; [lra|]. split.
    - intros H s [<-|Hs]; [apply INR_eq; cbn [INR]; lra|apply IH2; [lra|exact Hs]].
    - intros H. rewrite (H x (or_introl eq_refl)). cbn [INR]. rewrite (proj2 IH2) by (intros s Hs; apply H; right; exact Hs). lra. }
  destruct (G acc) as [G1 G2]. set (t := rsum (map (fun s => INR (nth k (fst s) 0%nat)) acc)) in *.
  assert (Iz : 0 < / z) by (apply Rinv_0_lt_compat; exact PN). assert (In : 0 < / INR (length acc)) by (apply Rinv_0_lt_compat; lra).
  assert (Py : 0 <= y) by (rewrite Ey; unfold Rdiv; apply Rmult_le_pos; lra). assert (Pq : 0 <= y / z) by (unfold Rdiv; apply Rmult_le_pos; lra).
  apply Rabs_le_inv in Ng. set (c := (445 + 46 * INR k) * u) in *. assert (0 <= c) by (unfold c; apply Rmult_le_pos; [pose proof (pos_INR k); lra|pose proof u_small; lra]).
  assert (0 <= (1 - c) * (y / z)) by (apply Rmult_le_pos; lra).
  split; [lra|]. rewrite <- G2. split.
  - intros E0. destruct (Req_dec t 0) as [|Nt]; [assumption|]. exfalso. assert (0 < y / z) by (rewrite Ey; unfold Rdiv; apply Rmult_lt_0_compat; [apply Rmult_lt_0_compat; lra|lra]). assert (0 < (1 - c) * (y / z)) by (apply Rmult_lt_0_compat; lra). lra.
  - intros E0. assert (Q0 : y / z = 0) by (rewrite Ey, E0; unfold Rdiv; ring); rewrite Q0 in Ng. lra.
Qed.
Print Assumptions C124_empty_bins.

(** Two frames of ten and twelve particles in a cell of volume 8, 5 bins of width 1/10. *)
Definition C124_acc : list (list nat * (nat * nat)) := [([0; 3; 7; 20; 4]%nat, (10, 10)%nat); ([0; 1; 9; 31; 2]%nat, (12, 12)%nat)].
Definition C124_dr : f64 := fdiv (f64_ofZ 1) (f64_ofZ 10).

Example C124_nonvacuous : fair_power (npow F64ops) /\ sensible C124_dr (f64_ofZ 8) 5 C124_acc /\
  (forall s, In s C124_acc -> nth 0 (fst s) 0%nat = 0%nat) /\ ~ (forall s, In s C124_acc -> nth 3 (fst s) 0%nat = 0%nat).
Proof.
  split; [exact products_fair|]. split; [|split].
  - destruct (ofZ_exact 8) as [K8 E8]; [lia|].
    assert (ED : C124_dr = S754_finite false 7205759403792794 (-56)) by (vm_compute; reflexivity).
    assert (VD : fval C124_dr = 7205759403792794 / 72057594037927936) by (rewrite ED; unfold fval, sgn; simpl; lra).
    unfold sensible. rewrite E8, VD.
    assert (A1 : p2 (-60) <= / 1000) by (unfold p2; simpl; lra). assert (A2 : 1000 <= p2 60) by (unfold p2; simpl; lra).
    assert (A3 : p2 (-200) <= p2 (-60)) by (apply p2_le; lia). assert (A4 : p2 60 <= p2 200) by (apply p2_le; lia).
    split; [rewrite ED; split; reflexivity|]. split; [lra|]. split; [exact K8|]. split; [lra|]. split; [lia|]. split; [cbn; lia|]. split; [discriminate|]. split; [cbn; lia|].
    split; [intros s [<-|[<-|[]]]; cbn; lia|]. split; [vm_compute; discriminate|]. split; [vm_compute; discriminate|]. intros k Hk.
    destruct k as [|[|[|[|[|k]]]]]; [vm_compute; discriminate ..|lia].
  - intros s [<-|[<-|[]]]; reflexivity.
  - intros H. specialize (H _ (or_introl eq_refl)). discriminate H.
Qed.
