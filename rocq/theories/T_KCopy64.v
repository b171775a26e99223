(** Theorems on wave-vectors copied from one correlation to another in double precision: C140. *)
From Coq Require Import List ZArith Bool Arith Reals Lra Lia Permutation Floats.SpecFloat.
From Verif Require Import PyBase PyBaseFacts Num NumFacts P_Text F64Round F64Ops F64Facts P_F64Mean P_F64Time P_F64Dot P_F64Dist P_Fit64 M_Helpers M_KGrid Spec_Stats Spec_BondAngle
  P_BondAngle Spec_KGrid Spec_KGrid64 Spec_KCopy64 P_KGrid P_KGrid2 P_KGrid3 P_KGrid4 P_KGrid64 P_KGrid64b T_KGrid.
Import ListNotations.
Local Open Scope R_scope.

(** One component: a value within 0.49 k of z k is rounded to z. *)
Lemma round_component : forall k x z, ok k -> ok x -> p2 (-60) <= fval k <= p2 60 -> (Z.abs z <= 2 ^ 40)%Z -> Rabs (fval x - fval k * IZR z) <= 49 / 100 * fval k ->
  f64_toint rnd_even (fdiv x k) = Some z.
Proof.
  intros k x z Kk Kx Bk Hz H. pose proof u_small as U. pose proof (p2_pos (-60)) as P60.
  assert (Az : Rabs (IZR z) <= p2 40) by (rewrite (p2_Z 40), <- abs_IZR by lia; apply IZR_le; exact Hz). pose proof (p2_pos 40) as P40.
  assert (one : 1 <= p2 40) by (change 1 with (p2 0); apply p2_le; lia).
  assert (P41 : p2 41 = 2 * p2 40) by (change 41%Z with (40 + 1)%Z; apply p2_succ).
  assert (Q : Rabs (fval x / fval k - IZR z) <= 49 / 100).
  { replace (fval x / fval k - IZR z) with ((fval x - fval k * IZR z) * / fval k) by (field; lra). rewrite Rabs_mult, (Rabs_right (/ fval k)) by (left; apply Rinv_0_lt_compat; lra).
    apply Rmult_le_reg_r with (fval k); [lra|]. rewrite Rmult_assoc, Rinv_l, Rmult_1_r by lra. exact H. }
  assert (Q2 : Rabs (fval x / fval k) <= p2 41).
  { replace (fval x / fval k) with ((fval x / fval k - IZR z) + IZR z) by ring. eapply Rle_trans; [apply Rabs_triang|]. lra. }
  assert (X : Rabs (fval x) <= p2 101).
  { replace (fval x) with (fval x / fval k * fval k) by (field; lra). rewrite Rabs_mult, (Rabs_right (fval k)) by lra. change 101%Z with (41 + 60)%Z. rewrite p2_add. apply Rmult_le_compat; [apply Rabs_pos|lra|exact Q2|lra]. }
  destruct (div_bound 101 (-60) x k Kx Kk X ltac:(rewrite Rabs_right; lra) ltac:(lia)) as [Kd [_ [Ed _]]].
  apply rint_exact; [exact Kd|].
  assert (T10 : p2 (-10) <= / 1000) by (assert (W : p2 (-10) * p2 10 = 1) by (rewrite <- p2_add; reflexivity); assert (W2 : p2 10 = 1024) by (rewrite (p2_Z 10) by lia; reflexivity); rewrite W2 in W; lra).
  assert (E1 : u * Rabs (fval x / fval k) <= / 1000).
  { apply Rle_trans with (u * p2 41); [apply Rmult_le_compat_l; lra|]. unfold u. rewrite <- p2_add. apply Rle_trans with (p2 (-10)); [apply p2_le; lia|exact T10]. }
  assert (E2 : tiny <= / 1000) by (unfold tiny; apply Rle_trans with (p2 (-10)); [apply p2_le; lia|exact T10]).
  replace (fval (fdiv x k) - IZR z) with ((fval (fdiv x k) - fval x / fval k) + (fval x / fval k - IZR z)) by ring. eapply Rle_lt_trans; [apply Rabs_triang|]. lra.
Qed.

Lemma near_cons : forall k k0 x v z n, near_lattice (k :: k0) (x :: v) (z :: n) ->
  (ok x /\ (Z.abs z <= 2 ^ 40)%Z /\ Rabs (fval x - fval k * IZR z) <= 49 / 100 * fval k) /\ near_lattice k0 v n.
Proof.
  intros k k0 x v z n [L1 [L2 H]]. split; [exact (H 0%nat k x z eq_refl eq_refl eq_refl)|]. split; [cbn in L1; lia|]. split; [cbn in L2; lia|]. intros j. exact (H (S j)).
Qed.

Definition sized (k0 : list f64) : Prop := forall k, In k k0 -> ok k /\ p2 (-60) <= fval k <= p2 60.

Lemma round_near : forall (k0 v : list f64) n, sized k0 -> near_lattice k0 v n -> round_kvec F64ops k0 v = Ok n.
Proof.
  intros k0 v n Hk H. unfold round_kvec. pose proof (proj1 H) as L. assert (E : (length v =? length k0)%nat = true) by (apply Nat.eqb_eq; exact L).
  change (num F64ops) with f64 in *. rewrite E. clear E L. revert v n H. induction k0 as [|k k0 IH]; intros [|x v] [|z n] H; try (destruct H as [L1 [L2 _]]; cbn in L1, L2; discriminate); [reflexivity|].
  apply near_cons in H. destruct H as [[Kx [Hz Hx]] H]. cbn [combine mapM]. destruct (Hk k (or_introl eq_refl)) as [Kk Bk]. eapply bind_intro with (a := z).
  - pose proof (round_component k x z Kk Kx Bk Hz Hx) as RC. change (match f64_toint rnd_even (fdiv x k) with Some z0 => Ok z0 | None => Err ValueError end = Ok z). rewrite RC. reflexivity.
  - eapply bind_intro; [apply IH; [intros k' Ik; apply Hk; right; exact Ik|exact H]|]. reflexivity.
Qed.

Lemma round_near_all : forall (k0 : list f64) kv ns, sized k0 -> Forall2 (Forall2 (near_lattice k0)) kv ns -> mapM (mapM (round_kvec F64ops k0)) kv = Ok ns.
Proof.
  intros k0 kv ns Hk F. induction F as [|vs l kv ns F1 F IH]; [reflexivity|]. cbn [mapM]. eapply bind_intro with (a := l).
  - clear F IH. induction F1 as [|v n vs l H F IH]; [reflexivity|]. cbn [mapM]. eapply bind_intro; [apply round_near; [exact Hk|exact H]|]. eapply bind_intro; [exact IH|]. reflexivity.
  - eapply bind_intro; [exact IH|]. reflexivity.
Qed.

Lemma assigned64 : forall tp (side : list f64) kv ns, cell_waves (cell_k0 F64ops tp side) -> Forall2 (Forall2 (near_lattice (cell_k0 F64ops tp side))) kv ns ->
  exists off, set_kvectors F64ops tp side kv = Ok (mkK (A := F64ops) (cell_k0 F64ops tp side) (map (map (map (fun n => (n + off)%Z))) ns) off
     (map (mean_norm F64ops (cell_k0 F64ops tp side) off) (map (map (map (fun n => (n + off)%Z))) ns))) /\ (1 <= off)%Z /\
     (forall l n z, In l ns -> In n l -> In z n -> (1 <= z + off)%Z).
Proof.
  intros tp side kv ns [Hd Hk] F. set (k0 := cell_k0 F64ops tp side) in *. change (sized k0) in Hk.
  assert (L : forall l n, In l ns -> In n l -> length n = length k0).
  { clear - F. induction F as [|vs l kv ns F1 F IH]; intros l' n Hl Hn; [destruct Hl|]. destruct Hl as [<-|Hl]; [|eapply IH; eassumption]. clear - F1 Hn. induction F1 as [|v m vs l H F IH]; [destruct Hn|]. destruct Hn as [<-|Hn]; [apply H|apply IH; exact Hn]. }
  destruct (shift_fold (concat ns)) with (s0 := 0%Z) as [s [E [L1 [L2 _]]]]; [|lia|].
  { intros v Hv C. apply in_concat in Hv. destruct Hv as [l [Hl Hv]]. specialize (L l v Hl Hv). subst v. cbn in L. lia. }
  exists (Z.abs s + 1)%Z. split; [|split; [lia|]].
  - unfold set_kvectors. fold k0. eapply bind_intro; [exact (round_near_all k0 kv ns Hk F)|]. eapply bind_intro; [exact E|]. reflexivity.
  - intros l n z Hl Hn Hz. assert (s <= z)%Z by (apply (L2 n z); [apply in_concat; eauto|exact Hz]). lia.
Qed.

(** A product with an integer is within rounding of the exact one, hence near the lattice. *)
Lemma component_double : forall k z, ok k -> p2 (-60) <= fval k <= p2 60 -> (Z.abs z <= 2 ^ 40)%Z -> let x := fmul k (f64_ofZ z) in
  ok x /\ Rabs (fval x - fval k * IZR z) <= p2 (-53) * Rabs (fval k * IZR z).
Proof.
  intros k z Kk Bk Hz x. pose proof (p2_pos (-60)) as P60. destruct (ofZ_exact z ltac:(lia)) as [Kz Ez].
  assert (Bz : Rabs (fval (f64_ofZ z)) <= p2 40) by (rewrite Ez, (p2_Z 40), <- abs_IZR by lia; apply IZR_le; exact Hz).
  destruct (mul_bound 60 40 k (f64_ofZ z) Kk Kz ltac:(rewrite Rabs_right; lra) Bz ltac:(lia)) as [K [_ _]]. split; [exact K|].
  pose proof (mul_spec k (f64_ofZ z) (proj1 Kk) (proj1 Kz) (proj2 Kk) (proj2 Kz)) as R1. rewrite Ez in R1. fold x in R1, K.
  fold u. eapply rounded_relative; [exact R1|exact K|]. destruct (Z.eq_dec z 0) as [->|Nz].
  - left. apply Rmult_0_r.
  - right.
    rewrite Rabs_mult, (Rabs_right (fval k)) by lra. apply Rle_trans with (p2 (-60) * 1); [rewrite Rmult_1_r; apply p2_le; lia|]. apply Rmult_le_compat; try lra. rewrite <- abs_IZR. apply IZR_le. lia.
Qed.

Lemma kscale_double : forall (k0 : list f64) n, sized k0 -> length n = length k0 -> Forall (fun z => (Z.abs z <= 2 ^ 40)%Z) n ->
  lattice_double k0 (kscale F64ops k0 n) n /\ near_lattice k0 (kscale F64ops k0 n) n.
Proof.
  intros k0 n Hk Ln Fn.
  assert (L : length (kscale F64ops k0 n) = length k0) by (unfold kscale; rewrite map_length, combine_length; change (num F64ops) with f64; lia).
  assert (W : forall j k x z, nth_error k0 j = Some k -> nth_error (kscale F64ops k0 n) j = Some x -> nth_error n j = Some z -> In k k0 /\ In z n /\ x = fmul k (f64_ofZ z)).
  { clear. intros j k x z H1 H2 H3. split; [eapply nth_error_In; exact H1|]. split; [eapply nth_error_In; exact H3|]. revert k0 n H1 H2 H3. induction j as [|j IH]; intros [|k' k0] [|z' n] H1 H2 H3; cbn in H1, H2, H3; try discriminate.
    - injection H1 as ->. injection H3 as ->. change (Some (fmul k (f64_ofZ z)) = Some x) in H2. injection H2 as <-. reflexivity.
    - exact (IH k0 n H1 H2 H3). }
  split; (split; [exact L|]; split; [exact Ln|]); intros j k x z H1 H2 H3; destruct (W j k x z H1 H2 H3) as [Ik [Iz ->]]; destruct (Hk k Ik) as [Kk Bk]; rewrite Forall_forall in Fn; pose proof (Fn z Iz) as Hz;
    destruct (component_double k z Kk Bk Hz) as [K E]; [split; assumption|]. split; [exact K|]. split; [exact Hz|]. eapply Rle_trans; [exact E|].
  pose proof (p2_pos (-60)) as P60. rewrite Rabs_mult, (Rabs_right (fval k)) by lra. replace (p2 (-53) * (fval k * Rabs (IZR z))) with (p2 (-53) * Rabs (IZR z) * fval k) by ring. apply Rmult_le_compat_r; [lra|].
  assert (Az : Rabs (IZR z) <= p2 40) by (rewrite (p2_Z 40), <- abs_IZR by lia; apply IZR_le; exact Hz).
  apply Rle_trans with (p2 (-53) * p2 40); [apply Rmult_le_compat_l; [left; apply p2_pos|exact Az]|]. rewrite <- p2_add. apply Rle_trans with (p2 (-2)); [apply p2_le; lia|]. assert (W1 : p2 (-2) * p2 2 = 1) by (rewrite <- p2_add; reflexivity). assert (W2 : p2 2 = 4) by (rewrite (p2_Z 2) by lia; reflexivity). rewrite W2 in W1. lra.
Qed.

(** ** C140 *)
(** Wave-vectors given by the user, as doubles within 0.49 of the lattice spacing of lattice vectors, are accepted, in any number
    of shells; the vectors then used are those lattice vectors, up to rounding of each component, and their indices in the tables are positive. *)
Theorem C140_assign : forall tp (side : list f64) kv ns, cell_waves (cell_k0 F64ops tp side) -> Forall2 (Forall2 (near_lattice (cell_k0 F64ops tp side))) kv ns ->
  exists q, set_kvectors F64ops tp side kv = Ok q /\ Forall2 (Forall2 (lattice_double (cell_k0 F64ops tp side))) (kvectors F64ops q) ns /\
    length (ks_grid q) = length kv /\ (forall l t z, In l (ks_vectors q) -> In t l -> In z t -> (1 <= z)%Z).
Proof.
  intros tp side kv ns Hc F. destruct (assigned64 tp side kv ns Hc F) as [off [E [_ Po]]]. eexists. split; [exact E|]. destruct Hc as [_ Hk]. set (k0 := cell_k0 F64ops tp side) in *. change (sized k0) in Hk.
  assert (HH : forall v n z, near_lattice k0 v n -> In z n -> (Z.abs z <= 2 ^ 40)%Z).
  { clear. generalize k0. clear. intros k0 v n z [L1 [L2 H]] Hz. change (num F64ops) with f64 in *. apply In_nth_error in Hz. destruct Hz as [j Hj]. assert (j < length n)%nat by (apply nth_error_Some; congruence).
    destruct (nth_error k0 j) as [k|] eqn:Ek; [|apply nth_error_None in Ek; lia]. destruct (nth_error v j) as [x|] eqn:Ex; [|apply nth_error_None in Ex; lia]. apply (H j k x z Ek Ex Hj). }
  split; [|split].
  - unfold kvectors. cbn [ks_k0 ks_vectors ks_offset]. clear E Po. induction F as [|vs l kv ns F1 F IH]; cbn [map]; constructor; [|exact IH]. clear F IH.
    induction F1 as [|v n vs l H F IH]; cbn [map]; constructor; [|exact IH]. change (map (fun z => (z - off)%Z) (map (fun z => (z + off)%Z) n)) with (unshift off (map (fun z => (z + off)%Z) n)). rewrite unshift_shift.
    apply kscale_double; [exact Hk|apply H|]. apply Forall_forall. intros z Hz. eapply HH; [exact H|exact Hz].
  - cbn [ks_grid]. rewrite !map_length. clear - F. induction F; cbn; congruence.
  - cbn [ks_vectors]. intros l t z Hl Ht Hz. apply in_map_iff in Hl. destruct Hl as [l0 [<- Hl]]. apply in_map_iff in Ht. destruct Ht as [t0 [<- Ht]]. apply in_map_iff in Hz. destruct Hz as [z0 [<- Hz]]. eapply Po; eassumption.
Qed.
Print Assumptions C140_assign.

(** Reading the wave-vectors of one calculation and assigning them to another one in the same cell: the second has
    bit for bit the same wave-vectors, and bit for bit the same mean norms. *)
Theorem C140_copy : forall tp (side : list f64) (st : kstate F64ops), cell_waves (cell_k0 F64ops tp side) -> ks_k0 st = cell_k0 F64ops tp side ->
  (forall l t, In l (ks_vectors st) -> In t l -> length t = length side /\ forall z, In z t -> (Z.abs (z - ks_offset st) <= 2 ^ 40)%Z) ->
  exists q, set_kvectors F64ops tp side (kvectors F64ops st) = Ok q /\ kvectors F64ops q = kvectors F64ops st /\
    ks_grid q = map (fun l => nmean F64ops (map (fun t => k_norm F64ops t (ks_k0 st) (ks_offset st)) l)) (ks_vectors st).
Proof.
  intros tp side [k0' vs o gr] Hc E0 Hv. cbn [ks_k0 ks_vectors ks_offset] in *. subst k0'. set (ns := map (map (unshift o)) vs). set (k0 := cell_k0 F64ops tp side) in *.
  assert (Lk : length k0 = length side) by (unfold k0, cell_k0; apply map_length).
  assert (EK : kvectors F64ops (mkK (A := F64ops) k0 vs o gr) = map (map (kscale F64ops k0)) ns).
  { unfold kvectors, ns. cbn [ks_k0 ks_vectors ks_offset]. rewrite map_map. apply map_ext. intros l. rewrite map_map. reflexivity. }
  assert (F : Forall2 (Forall2 (near_lattice k0)) (map (map (kscale F64ops k0)) ns) ns).
  { assert (Hn : forall l n, In l ns -> In n l -> length n = length k0 /\ Forall (fun z => (Z.abs z <= 2 ^ 40)%Z) n).
    { intros l n Hl Hn. apply in_map_iff in Hl. destruct Hl as [l0 [<- Hl]]. apply in_map_iff in Hn. destruct Hn as [t [<- Ht]]. destruct (Hv l0 t Hl Ht) as [Lt Zt]. split; [rewrite unshift_length; congruence|].
      apply Forall_forall. intros z Hz. apply in_map_iff in Hz. destruct Hz as [z0 [<- Hz]]. apply Zt. exact Hz. }
    clear - Hc Hn. destruct Hc as [_ Hk]. induction ns as [|l ns IH]; cbn [map]; constructor; [|apply IH; intros; eapply Hn; [right; eassumption|eassumption]].
    assert (Hl : forall n, In n l -> length n = length k0 /\ Forall (fun z => (Z.abs z <= 2 ^ 40)%Z) n) by (intros; eapply Hn; [left; reflexivity|assumption]). clear - Hk Hl.
    induction l as [|n l IH]; cbn [map]; constructor; [|apply IH; intros; apply Hl; right; assumption]. destruct (Hl n (or_introl eq_refl)) as [L Z]. apply kscale_double; assumption. }
  rewrite EK. destruct (assigned64 tp side _ ns Hc F) as [off [E _]]. eexists. split; [exact E|]. split.
  - unfold kvectors. cbn [ks_k0 ks_vectors ks_offset]. fold k0. rewrite map_map. apply map_ext. intros l. rewrite map_map. apply map_ext. intros n.
    change (map (fun z => (z - off)%Z) (map (fun z => (z + off)%Z) n)) with (unshift off (map (fun z => (z + off)%Z) n)). rewrite unshift_shift. reflexivity.
  - cbn [ks_grid]. unfold ns. rewrite !map_map. apply map_ext. intros l. unfold mean_norm. f_equal. rewrite !map_map. apply map_ext. intros t. unfold k_norm. fold k0.
    change (map (fun n => (n - off)%Z) (map (fun n => (n + off)%Z) (unshift o t))) with (unshift off (map (fun n => (n + off)%Z) (unshift o t))). rewrite unshift_shift. reflexivity.
Qed.
Print Assumptions C140_copy.

(** In particular those selected by a calculation, with any sampler. *)
Theorem C140_setup : forall fuel tp (g : rng) p (side : list f64) s grid st w s', sampler_ok g -> cell_waves (cell_k0 F64ops tp side) ->
  setup F64ops fuel tp g p side s grid = Ok (st, w, s') -> (ks_offset st <= 2 ^ 40)%Z ->
  exists q, set_kvectors F64ops tp side (kvectors F64ops st) = Ok q /\ kvectors F64ops q = kvectors F64ops st /\ ks_grid q = ks_grid st.
Proof.
  intros fuel tp g p side s grid st w s' G Hc H Ho. unfold setup in H. cbv zeta in H.
  apply bind_Ok_inv in H. destruct H as [kgrid [E1 H]]. apply bind_Ok_inv in H. destruct H as [[shells off] [E2 H]]. apply bind_Ok_inv in H. destruct H as [[kept s2] [E3 H]]. cbn [fst snd] in H, E3. apply Ok_inj in H.
  assert (Est : st = mkK (A := F64ops) (cell_k0 F64ops tp side) kept off (map (mean_norm F64ops (cell_k0 F64ops tp side) off) kept)) by (pose proof (f_equal (fun r => fst (fst r)) H) as X; cbn [fst] in X; symmetry; exact X).
  clear H. subst st. cbn [ks_offset] in Ho.
  assert (B : forall l t, In l kept -> In t l -> length t = length side /\ forall z, In z t -> (Z.abs (z - off) <= 2 ^ 40)%Z).
  { apply decimate_spec in E3; [|exact G]. apply (setup_grid_gen F64ops) in E2; [|apply map_length]. destruct E2 as [dk' [_ [P _]]].
    assert (SH : forall sh t, In sh shells -> In t sh -> length t = length side /\ forall z, In z t -> (Z.abs (z - off) <= 2 ^ 40)%Z).
    { apply grid_pass_spec in P. destruct P as [kl [dl [km [q [pts [_ [_ [_ [_ [_ [Ep [_ N]]]]]]]]]]]]. apply lattice_points_spec in Ep. destruct Ep as [_ [_ Ip]].
      intros sh t Hs Ht. apply In_nth with (d := []) in Hs. destruct Hs as [i [_ <-]]. rewrite N in Ht. apply in_map_iff in Ht. destruct Ht as [n [<- Hn]]. apply filter_In in Hn. destruct Hn as [Hn _]. apply Ip in Hn. destruct Hn as [Ln Bn].
      unfold cell_k0 in Ln. rewrite map_length in Ln. split; [rewrite map_length; exact Ln|]. intros z Hz. apply in_map_iff in Hz. destruct Hz as [z0 [<- Hz]]. rewrite Forall_forall in Bn. specialize (Bn z0 Hz). cbn in Bn. lia. }
    clear - E3 SH. induction E3 as [|kp sh ks ss [_ [rest R]] F IH]; intros l t Hl Ht; [destruct Hl|]. destruct Hl as [<-|Hl].
    - apply (SH sh t); [left; reflexivity|]. apply Permutation_in with (l := kp ++ rest); [apply Permutation_sym; exact R|]. apply in_or_app. left. exact Ht.
    - eapply IH; [intros sh' t' Hs; apply SH; right; exact Hs|exact Hl|exact Ht]. }
  destruct (C140_copy tp side (mkK (A := F64ops) (cell_k0 F64ops tp side) kept off (map (mean_norm F64ops (cell_k0 F64ops tp side) off) kept)) Hc eq_refl B) as [q [Q1 [Q2 Q3]]].
  exists q. split; [exact Q1|]. split; [exact Q2|]. rewrite Q3. reflexivity.
Qed.
Print Assumptions C140_setup.

(** A square cell with smallest wave-number 1: the vector (0.75, -2.25) is read as (1, -2), with table indices 4 and 1;
    and the hypotheses of C140_copy and C140_setup hold of a calculation. *)
Definition p_copy : kparams F64ops := mkP (A := F64ops) (f64_frac 1 2) 8 (f64_ofZ (-1)) (f64_ofZ 10) 20.
Example C140_nonvacuous : let one := f64_ofZ 1 in cell_waves (cell_k0 F64ops one [one; one]) /\
  near_lattice (cell_k0 F64ops one [one; one]) [f64_frac 3 4; f64_frac (-9) 4] [1%Z; (-2)%Z] /\
  match set_kvectors F64ops one [one; one] [[[f64_frac 3 4; f64_frac (-9) 4]]] with Ok q => ks_vectors q = [[[4%Z; 1%Z]]] | Err _ => False end /\
  match setup F64ops 1 one first_n p_copy [one; one] 0%nat (Some [one]) with Ok r => ks_offset (fst (fst r)) = 2%Z | Err _ => False end.
Proof.
  intros one. assert (E : cell_k0 F64ops one [one; one] = [one; one]) by (vm_compute; reflexivity). rewrite E. destruct (ofZ_exact 1 ltac:(cbn; lia)) as [K1 E1]. fold one in K1, E1.
  split; [split; [left; reflexivity|]; intros k [<-|[<-|[]]]; (split; [exact K1|]; rewrite E1; split; change 1 with (p2 0); apply p2_le; lia)|].
  assert (A : f64_frac 3 4 = S754_finite false 6755399441055744 (-53)) by (vm_compute; reflexivity). assert (B : f64_frac (-9) 4 = S754_finite true 5066549580791808 (-51)) by (vm_compute; reflexivity).
  assert (P51 : p2 (-51) * 2251799813685248 = 1) by (replace 2251799813685248 with (p2 51) by (rewrite (p2_Z 51) by lia; reflexivity); rewrite <- p2_add; reflexivity).
  assert (P53 : p2 (-53) * 9007199254740992 = 1) by (replace 9007199254740992 with (p2 53) by (rewrite (p2_Z 53) by lia; reflexivity); rewrite <- p2_add; reflexivity).
  assert (FA : fval (f64_frac 3 4) = 3 / 4) by (rewrite A; unfold fval, sgn; fold (p2 (-53)); lra).
  assert (FB : fval (f64_frac (-9) 4) = - (9 / 4)) by (rewrite B; unfold fval, sgn; fold (p2 (-51)); lra).
  split; [|split; vm_compute; reflexivity]. split; [reflexivity|]. split; [reflexivity|].
  assert (SI : forall X (a b : X), Some a = Some b -> b = a) by congruence.
  intros [|[|j]] k x z H1 H2 H3; [apply SI in H1, H2, H3|apply SI in H1, H2, H3|destruct j; discriminate H3].
  - rewrite H1, H2, H3. split; [split; vm_compute; reflexivity|]. split; [lia|]. rewrite FA, E1. apply Rabs_le. lra.
  - rewrite H1, H2, H3. split; [split; vm_compute; reflexivity|]. split; [lia|]. rewrite FB, E1. apply Rabs_le. lra.
Qed.
