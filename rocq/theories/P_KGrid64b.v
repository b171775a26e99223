(** Selection of wave-vectors in double precision: one pass. *)
From Coq Require Import List ZArith Bool Arith Reals Lra Lia Psatz Floats.SpecFloat.
From Verif Require Import PyBase PyBaseFacts Num NumFacts P_Text F64Round F64Ops F64Facts F64Sqrt P_F64Mean P_F64Time P_F64Dot P_F64Dist P_Fit64 P_Linked64 M_Helpers M_KGrid Spec_Stats Spec_BondAngle
  P_BondAngle Spec_KGrid Spec_KGrid64 P_KGrid P_KGrid2 P_KGrid3 P_KGrid64.
Import ListNotations.
Local Open Scope R_scope.

Lemma shell_test : forall r v k d, ok r -> ok k -> ok d -> 0 <= fval r <= p2 114 -> norm v <= p2 113 -> Rabs (fval r - norm v) <= 10 * (u * norm v) -> 0 <= fval k <= p2 60 ->
  (nlt F64ops (nabs F64ops (nsub F64ops r k)) d = true -> possibly_within v (fval k) (fval d)) /\ (surely_within v (fval k) (fval d) -> nlt F64ops (nabs F64ops (nsub F64ops r k)) d = true).
Proof.
  intros r v k d Kr Kk Kd Br Bn En Bk. pose proof u_small as U. unfold possibly_within, surely_within, edge. fold u. pose proof (norm_nonneg v) as N0. set (N := norm v) in *.
  assert (P : p2 60 <= p2 114) by (apply p2_le; lia).
  destruct (sub_bound 114 r k Kr Kk ltac:(rewrite Rabs_right; lra) ltac:(rewrite Rabs_right; lra) ltac:(lia)) as [Kx [_ Ex]].
  change (nlt F64ops (nabs F64ops (nsub F64ops r k)) d) with (SFltb (SFabs (fsub r k)) d). destruct (abs_value _ Kx) as [Ka Ea].
  pose proof (ltb_spec (SFabs (fsub r k)) d Ka Kd) as T. rewrite Ea in T. set (x := fval (fsub r k)) in *. set (y := fval r) in *. set (kk := fval k) in *. set (dd := fval d) in *.
  assert (uN : 0 <= u * N <= / 1000000 * N) by (split; [apply Rmult_le_pos; lra|apply Rmult_le_compat_r; lra]). assert (uk : 0 <= u * kk) by (apply Rmult_le_pos; lra). apply Rabs_le_inv in En.
  assert (Yk : Rabs (y - kk) <= N + 10 * (u * N) + kk) by (apply Rabs_le; lra).
  assert (Uy : u * Rabs (y - kk) <= 2 * (u * N) + u * kk).
  { apply Rle_trans with (u * (N + 10 * (u * N) + kk)); [apply Rmult_le_compat_l; lra|]. assert (u * (u * N) <= / 1000000 * (u * N)) by (apply Rmult_le_compat_r; lra). lra. }
  apply Rabs_le_inv in Ex.
  assert (G : Rabs (Rabs x - Rabs (N - kk)) <= 12 * (u * N) + u * kk).
  { apply Rle_trans with (1 := Rabs_triang_inv2 _ _). apply Rabs_le. lra. }
  apply Rabs_le_inv in G. rewrite T. split; intros H; lra.
Qed.

Lemma cutoff_test : forall s kmax v K, close 8 s (dot v v) -> ok kmax -> p2 (-60) <= K <= p2 113 -> Rabs (fval kmax - K) <= u * K ->
  (nlt F64ops (nmul F64ops kmax kmax) s = false -> norm v <= K * (1 + 16 * u)) /\ (norm v <= K * (1 - 16 * u) -> nlt F64ops (nmul F64ops kmax kmax) s = false).
Proof.
  intros s kmax v K [Ks [Bs Es]] Km BK EK. pose proof u_small as U. pose proof (p2_pos (-60)) as P60.
  assert (uK : 0 <= u * K <= / 1000000 * K) by (split; [apply Rmult_le_pos; lra|apply Rmult_le_compat_r; lra]). apply Rabs_le_inv in EK.
  assert (P : p2 114 = 2 * p2 113) by (change 114%Z with (113 + 1)%Z; apply p2_succ).
  destruct (mul_bound 114 114 kmax kmax Km Km ltac:(rewrite Rabs_right; lra) ltac:(rewrite Rabs_right; lra) ltac:(lia)) as [Kq [_ Eq]].
  change (nlt F64ops (nmul F64ops kmax kmax) s) with (SFltb (fmul kmax kmax) s). pose proof (ltb_spec _ _ Kq Ks) as T.
  rewrite <- norm_sq in Es, Bs. pose proof (norm_nonneg v) as N0. set (N := norm v) in *. set (a := fval kmax) in *. set (q := fval (fmul kmax kmax)) in *. set (ss := fval s) in *.
  assert (K2 : p2 (-120) <= K * K) by (change (-120)%Z with (-60 + -60)%Z; rewrite p2_add; apply Rmult_le_compat; lra). pose proof (p2_pos (-120)) as P120.
  assert (T2 : tiny <= / 1000 * (u * (K * K))).
  { apply Rle_trans with (/ 1000 * (u * p2 (-120))); [|apply Rmult_le_compat_l; [lra|]; apply Rmult_le_compat_l; lra]. unfold tiny, u. rewrite <- p2_add. assert (p2 (-1075) * 1024 <= p2 (-53 + -120)) by (replace 1024 with (p2 10) by (rewrite (p2_Z 10) by lia; reflexivity); rewrite <- p2_add; apply p2_le; lia). pose proof (p2_pos (-1075)). lra. }
  set (e := u * (K * K)) in *. assert (e0 : 0 < e <= / 1000000 * (K * K)) by (split; [apply Rmult_lt_0_compat; lra|apply Rmult_le_compat_r; lra]). assert (ue : 0 <= u * e <= / 1000000 * e) by (split; [apply Rmult_le_pos; lra|apply Rmult_le_compat_r; lra]).
  assert (Aa : K * K - 2 * e <= a * a <= K * K + 2 * e + u * e).
  { split.
    - apply Rle_trans with ((K - u * K) * (K - u * K)); [replace ((K - u * K) * (K - u * K)) with (K * K - 2 * e + u * e) by (unfold e; ring); lra|apply Rmult_le_compat; lra].
    - apply Rle_trans with ((K + u * K) * (K + u * K)); [apply Rmult_le_compat; lra|right; unfold e; ring]. }
  rewrite (Rabs_right (a * a)) in Eq by lra. assert (Ua : u * (a * a) <= 101 / 100 * e).
  { apply Rle_trans with (u * (K * K + 2 * e + u * e)); [apply Rmult_le_compat_l; lra|]. assert (u * (u * e) <= / 1000000 * (u * e)) by (apply Rmult_le_compat_r; lra). replace (u * (K * K + 2 * e + u * e)) with (e + 2 * (u * e) + u * (u * e)) by (unfold e; ring). lra. }
  apply Rabs_le_inv in Eq. assert (Q : K * K - 4 * e <= q <= K * K + 4 * e) by lra. clear Eq Ua Aa T2.
  apply Rabs_le_inv in Es. split; intros H.
  - apply Rnot_lt_le. intros C. assert (L : ss <= q) by (apply Rnot_lt_le; intros W; apply T in W; congruence).
    assert (S1 : K * K + 32 * e <= N * N) by (apply Rle_trans with (K * (1 + 16 * u) * (K * (1 + 16 * u))); [replace (K * (1 + 16 * u) * (K * (1 + 16 * u))) with (K * K + 32 * e + 256 * (u * e)) by (unfold e; ring); lra|apply Rmult_le_compat; try lra; apply Rmult_le_pos; lra]).
    assert ((1 - 8 * u) * (K * K + 32 * e) <= (1 - 8 * u) * (N * N)) by (apply Rmult_le_compat_l; lra). replace ((1 - 8 * u) * (K * K + 32 * e)) with (K * K + 24 * e - 256 * (u * e)) in H0 by (unfold e; ring). lra.
  - apply not_true_is_false. intros X. apply T in X.
    assert (S1 : N * N <= K * K - 31 * e) by (apply Rle_trans with (K * (1 - 16 * u) * (K * (1 - 16 * u))); [apply Rmult_le_compat; lra|replace (K * (1 - 16 * u) * (K * (1 - 16 * u))) with (K * K - 32 * e + 256 * (u * e)) by (unfold e; ring); lra]).
    assert ((1 + 8 * u) * (N * N) <= (1 + 8 * u) * (K * K - 31 * e)) by (apply Rmult_le_compat_l; lra). replace ((1 + 8 * u) * (K * K - 31 * e)) with (K * K - 23 * e - 248 * (u * e)) in H0 by (unfold e; ring). lra.
Qed.

Lemma find_shell_some : forall (A : arith) x (kgrid dk : list (num A)) i k d, nth_error kgrid i = Some k -> nth_error dk i = Some d -> nlt A (nabs A (nsub A x k)) d = true ->
  exists j, (j <= i)%nat /\ find_shell A x kgrid dk = Some j.
Proof.
  intros A x kgrid. induction kgrid as [|k' kr IH]; intros [|d' dr] [|i] k d Hk Hd T; cbn in Hk, Hd; try discriminate.
  - injection Hk as ->. injection Hd as ->. exists 0%nat. split; [lia|]. cbn [find_shell]. rewrite T. reflexivity.
  - cbn [find_shell]. destruct (nlt A (nabs A (nsub A x k')) d'); [exists 0%nat; split; [lia|reflexivity]|]. destruct (IH dr i k d Hk Hd T) as [j [Hj ->]]. exists (S j). split; [lia|reflexivity].
Qed.

Lemma smallest64 : forall (l : list f64) b, ok b -> (forall x, In x l -> ok x) -> let m := list_best F64ops (nlt F64ops) b l in In m (b :: l) /\ forall x, In x (b :: l) -> fval m <= fval x.
Proof.
  intros l. induction l as [|y r IH]; intros b Kb Hl; cbn zeta; cbn [list_best].
  - split; [left; reflexivity|]. intros x [->|[]]. lra.
  - assert (Ky : ok y) by (apply Hl; left; reflexivity). assert (Hr : forall x, In x r -> ok x) by (intros; apply Hl; right; assumption). pose proof (ltb_spec y b Ky Kb) as T. change (nlt F64ops y b) with (SFltb y b). destruct (SFltb y b).
    + destruct (IH y Ky Hr) as [I M]. split; [destruct I as [I|I]; [right; left; exact I|right; right; exact I]|]. assert (fval y < fval b) by (apply T; reflexivity).
      intros x [->|[->|Hx]]; [pose proof (M y (or_introl eq_refl)); lra|apply M; left; reflexivity|apply M; right; exact Hx].
    + destruct (IH b Kb Hr) as [I M]. split; [destruct I as [I|I]; [left; exact I|right; right; exact I]|]. assert (fval b <= fval y) by (apply Rnot_lt_le; intros W; apply T in W; discriminate).
      intros x [->|[->|Hx]]; [apply M; left; reflexivity|pose proof (M b (or_introl eq_refl)); lra|apply M; right; exact Hx].
Qed.

(** ** One pass *)
Lemma toint_fin : forall x q, valid x -> f64_toint rnd_trunc x = Some q -> ok x.
Proof. intros x q V H. split; [exact V|]. destruct x; try discriminate H; reflexivity. Qed.

Lemma pass64 : forall (dk kgrid k0 : list f64) kvec kb, cell_waves k0 -> (forall k, In k kgrid -> ok k /\ 0 <= fval k <= p2 60) -> (forall d, In d dk -> ok d /\ p2 (-60) <= fval d <= p2 1020) ->
  grid_pass F64ops dk kgrid k0 = Ok (kvec, kb) -> (kb <= 2 ^ 50)%Z ->
  exists kl dl, nth_error kgrid (length kgrid - 1) = Some kl /\ nth_error dk (length dk - 1) = Some dl /\ length kvec = length kgrid /\ (0 < kb)%Z /\
    (forall i, NoDup (nth i kvec [])) /\
    (forall i t, In t (nth i kvec []) -> in_cube (length k0) kb (unshift kb t) /\ norm (wave (map fval k0) (unshift kb t)) <= (fval kl + fval dl) * (1 + 16 * u) /\
       (exists k d, nth_error kgrid i = Some k /\ nth_error dk i = Some d /\ possibly_within (wave (map fval k0) (unshift kb t)) (fval k) (fval d)) /\
       forall j k d, (j < i)%nat -> nth_error kgrid j = Some k -> nth_error dk j = Some d -> ~ surely_within (wave (map fval k0) (unshift kb t)) (fval k) (fval d)) /\
    (forall i j t, In t (nth i kvec []) -> In t (nth j kvec []) -> i = j) /\
    (forall n i k d, length n = length k0 -> nth_error kgrid i = Some k -> nth_error dk i = Some d -> surely_within (wave (map fval k0) n) (fval k) (fval d) ->
       norm (wave (map fval k0) n) <= (fval kl + fval dl) * (1 - 16 * u) -> exists j, (j <= i)%nat /\ In (map (fun z => (z + kb)%Z) n) (nth j kvec [])).
Proof.
  intros dk kgrid k0 kvec kb Hk Hg Hd H Hkb. pose proof u_small as U. pose proof (p2_pos (-60)) as P60. apply grid_pass_spec in H.
  destruct H as [kl [dl [km [q [pts [E1 [E2 [E3 [E4 [E5 [E6 [E7 E8]]]]]]]]]]]]. apply lattice_points_spec in E6. destruct E6 as [Dm [ND IN]].
  apply getZ_last in E1. apply getZ_last in E2. destruct E1 as [N1 [_ B1]], E2 as [N2 [_ B2]]. exists kl, dl.
  split; [exact B1|]. split; [exact B2|]. split; [exact E7|].
  destruct (Hg kl (nth_error_In _ _ B1)) as [Kkl Bkl]. destruct (Hd dl (nth_error_In _ _ B2)) as [Kdl Bdl].
  assert (P1 : p2 60 <= p2 1020) by (apply p2_le; lia).
  pose proof (add_spec kl dl (proj1 Kkl) (proj1 Kdl) (proj2 Kkl) (proj2 Kdl)) as R1.
  destruct (rounded_bounded _ _ (p2 1021) R1) as [Kx _]; [apply format_p2; lia|rewrite Rabs_right by lra; change 1021%Z with (1020 + 1)%Z; rewrite p2_succ; lra|apply p2_lt; lia|].
  pose proof (add_relative kl dl _ Kkl Kdl R1 Kx) as Ex. change (nadd F64ops kl dl) with (fadd kl dl) in *. set (kmax := fadd kl dl) in *. set (K := fval kl + fval dl) in *. assert (K0 : p2 (-60) <= K) by (unfold K; lra). rewrite (Rabs_right K) in Ex by lra.
  assert (uK : 0 <= u * K <= / 1000000 * K) by (split; [apply Rmult_le_pos; lra|apply Rmult_le_compat_r; lra]). pose proof (Rabs_le_inv _ _ Ex) as Ex'.
  assert (Ikm : In km k0 /\ forall x, In x k0 -> fval km <= fval x).
  { unfold kmin0 in E3. destruct k0 as [|x r]; [discriminate|]. apply Ok_inj in E3. subst km. apply smallest64; [apply Hk; left; reflexivity|intros y Hy; apply Hk; right; exact Hy]. }
  destruct Ikm as [Ikm Mkm]. destruct (proj2 Hk km Ikm) as [Kkm Bkm].
  pose proof (div_spec kmax km (proj1 Kx) (proj1 Kkm) (proj2 Kx) (proj2 Kkm) ltac:(lra)) as R2. change (ndiv F64ops kmax km) with (fdiv kmax km) in E4. change (ntrunc F64ops) with (f64_toint rnd_trunc) in E4.
  assert (Kr : ok (fdiv kmax km)) by (apply toint_fin with q; [apply R2|exact E4]).
  set (V := fval kmax / fval km) in *. assert (V0 : 0 < V) by (apply Rdiv_lt_0_compat; lra).
  assert (r0 : 0 <= fval (fdiv kmax km)) by (apply (rounded_ge _ _ 0 R2 Kr format_0); lra).
  destruct (trunc_spec64 _ Kr r0) as [q' [E4' [Pq Bq]]]. assert (q' = q) as -> by (rewrite E4 in E4'; injection E4' as ->; reflexivity). clear E4'.
  assert (Bq' : IZR q <= p2 50 - 1) by (rewrite (p2_Z 50) by lia; rewrite <- minus_IZR; apply IZR_le; lia).
  assert (P52 : p2 52 = 4 * p2 50) by (change 52%Z with (50 + 1 + 1)%Z; rewrite !p2_succ; ring). assert (P50 : 1 <= p2 50) by (rewrite (p2_Z 50) by lia; apply IZR_le; cbn; lia).
  assert (V52 : V <= p2 52).
  { pose proof (rounded_error _ _ R2 Kr) as W. rewrite (Rabs_right V) in W by lra. apply Rabs_le_inv in W. assert (u * V <= / 1000000 * V) by (apply Rmult_le_compat_r; lra). assert (tiny <= 1) by (change 1 with (p2 0); unfold tiny; apply p2_le; lia). lra. }
  assert (KV : fval kmax = V * fval km) by (unfold V; field; lra).
  assert (Km112 : fval kmax <= p2 112) by (rewrite KV; change 112%Z with (52 + 60)%Z; rewrite p2_add; apply Rmult_le_compat; lra).
  assert (K113 : K <= p2 113) by (change 113%Z with (112 + 1)%Z; rewrite p2_succ; lra).
  subst kb. split; [lia|].
  assert (Small : forall n, in_cube (length k0) (1 + q) n -> length n = length k0 /\ Forall (fun z => (Z.abs z <= 2 ^ 52)%Z) n) by (intros n [L F]; split; [exact L|]; apply Forall_impl with (2 := F); intros z Hz; cbn beta in Hz |- *; lia).
  assert (AS : forall n i, length n = length k0 -> Forall (fun z => (Z.abs z <= 2 ^ 52)%Z) n -> assigned F64ops k0 kgrid dk (nmul F64ops kmax kmax) i n = true ->
     norm (wave (map fval k0) n) <= K * (1 + 16 * u) /\ (exists k d, nth_error kgrid i = Some k /\ nth_error dk i = Some d /\ possibly_within (wave (map fval k0) n) (fval k) (fval d)) /\
     forall j k d, (j < i)%nat -> nth_error kgrid j = Some k -> nth_error dk j = Some d -> ~ surely_within (wave (map fval k0) n) (fval k) (fval d)).
  { intros n i Ln Fn Ha. unfold assigned, assign in Ha. destruct (close_square k0 n Hk Ln Fn) as [Cs _]. destruct (cutoff_test _ kmax _ K Cs Kx ltac:(lra) Ex) as [T1 _]. destruct (close_norm k0 n Hk Ln Fn) as [Kn [Bn [En Nn]]].
    destruct (nlt F64ops (nmul F64ops kmax kmax) (self_dot F64ops (kscale F64ops k0 n))); [discriminate|]. specialize (T1 eq_refl). split; [exact T1|].
    destruct (find_shell F64ops _ kgrid dk) as [j|] eqn:F; [|discriminate]. apply Nat.eqb_eq in Ha. subst j. apply find_shell_gen in F. destruct F as [[k [d [F1 [F2 F3]]]] F4]. split.
    - exists k, d. split; [exact F1|]. split; [exact F2|]. destruct (Hg k (nth_error_In _ _ F1)) as [Kk Bk]. destruct (Hd d (nth_error_In _ _ F2)) as [Kd Bd]. apply (shell_test _ _ k d Kn Kk Kd Bn Nn En Bk). exact F3.
    - intros j k' d' Hj H1 H2 C. specialize (F4 j k' d' Hj H1 H2). destruct (Hg k' (nth_error_In _ _ H1)) as [Kk Bk]. destruct (Hd d' (nth_error_In _ _ H2)) as [Kd Bd]. apply (shell_test _ _ k' d' Kn Kk Kd Bn Nn En Bk) in C. congruence. }
  assert (Mem : forall i t, In t (nth i kvec []) <-> in_cube (length k0) (1 + q) (unshift (1 + q) t) /\ assigned F64ops k0 kgrid dk (nmul F64ops kmax kmax) i (unshift (1 + q) t) = true).
  { intros i t. rewrite E8, in_map_iff. split.
    - intros [n [<- Hn]]. rewrite unshift_shift. apply filter_In in Hn. rewrite IN in Hn. exact Hn.
    - intros [Hc Ha]. exists (unshift (1 + q) t). split; [apply shift_unshift|]. apply filter_In. rewrite IN. split; [exact Hc|exact Ha]. }
  split; [intros i; rewrite E8; apply FinFun.Injective_map_NoDup; [intros x y Hxy; rewrite <- (unshift_shift (1 + q) x), <- (unshift_shift (1 + q) y); f_equal; exact Hxy|apply NoDup_filter; exact ND]|].
  split; [|split].
  - intros i t Ht. apply Mem in Ht. destruct Ht as [Hc Ha]. split; [exact Hc|]. destruct (Small _ Hc) as [L F]. exact (AS _ i L F Ha).
  - intros i j t Hi Hj. apply Mem in Hi. apply Mem in Hj. destruct Hi as [_ Hi], Hj as [_ Hj]. unfold assigned in Hi, Hj. destruct (assign F64ops _ _ _ _ _) as [m|]; [|discriminate]. apply Nat.eqb_eq in Hi. apply Nat.eqb_eq in Hj. congruence.
  - intros n i k d Ln Hki Hdi Hw Hn.
    assert (Cz : forall z, In z n -> (Z.abs z <= q)%Z).
    { intros z Hz. apply In_nth_error in Hz. destruct Hz as [j Hj]. assert (B : (j < length k0)%nat) by (rewrite <- Ln; apply nth_error_Some; congruence).
      destruct (nth_error k0 j) as [kj|] eqn:Ek; [|apply nth_error_None in Ek; lia]. assert (Ij := nth_error_In _ _ Ek). destruct (proj2 Hk kj Ij) as [Kkj Bkj].
      pose proof (component_le_norm (map fval k0) n j (fval kj) z ltac:(rewrite nth_error_map, Ek; reflexivity) Hj) as C. rewrite Rabs_mult, (Rabs_right (fval kj)), <- abs_IZR in C by lra.
      assert (D : IZR (Z.abs z) <= V).
      { apply Rmult_le_reg_r with (fval km); [lra|]. rewrite <- KV. apply Rle_trans with (fval kj * IZR (Z.abs z)); [rewrite Rmult_comm; apply Rmult_le_compat_r; [apply IZR_le; lia|apply Mkm; exact Ij]|]. lra. }
      assert (Zb : (Z.abs z <= 2 ^ 52)%Z) by (apply le_IZR; rewrite <- (p2_Z 52) by lia; lra).
      assert (Fz : format (IZR (Z.abs z))) by (destruct (ofZ_exact (Z.abs z) ltac:(lia)) as [Kz Ez]; rewrite <- Ez; apply ok_format; exact Kz).
      pose proof (rounded_ge _ _ _ R2 Kr Fz D) as G. assert (IZR (Z.abs z) < IZR (q + 1)) by (rewrite plus_IZR; lra). apply lt_IZR in H. lia. }
    assert (Hc : in_cube (length k0) (1 + q) n) by (split; [exact Ln|]; apply Forall_forall; intros z Hz; specialize (Cz z Hz); lia). destruct (Small n Hc) as [_ Fn].
    destruct (close_square k0 n Hk Ln Fn) as [Cs _]. destruct (cutoff_test _ kmax _ K Cs Kx ltac:(lra) Ex) as [_ T2]. specialize (T2 Hn). destruct (close_norm k0 n Hk Ln Fn) as [Kn [Bn [En Nn]]].
    destruct (Hg k (nth_error_In _ _ Hki)) as [Kk Bk]. destruct (Hd d (nth_error_In _ _ Hdi)) as [Kd Bd]. apply (shell_test _ _ k d Kn Kk Kd Bn Nn En Bk) in Hw.
    destruct (find_shell_some F64ops _ kgrid dk i k d Hki Hdi Hw) as [j [Hj Fj]]. exists j. split; [exact Hj|]. apply Mem. rewrite unshift_shift. split; [exact Hc|]. unfold assigned, assign. rewrite T2, Fj. apply Nat.eqb_refl.
Qed.
