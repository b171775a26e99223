(** Loops of the structure factor for any arithmetic, and its normalisation in double precision. *)
From Coq Require Import List ZArith Bool Arith Reals Lia Lra Psatz Floats.SpecFloat.
From Verif Require Import PyBase PyBaseFacts Num NumFacts Spec_Stats P_Text F64Round F64Ops F64Facts F64Sqrt P_F64Mean P_F64Order P_F64Dist P_F64Time P_F64Dot P_F64Alpha M_Helpers M_KGrid M_Fourier M_Fkt
  Spec_Doubles Spec_Expo64 Spec_Collective64 M_Expo64 M_Fkt64 M_Collective64 P_Collective64.
Import ListNotations.
Local Open Scope R_scope.

(** ** Loops *)
Section Loops.
Variables (D : carith) (A : arith) (re : cx D -> num A).

Definition prod_re (r : cx D * cx D) : num A := re (cxmul D (fst r) (cxconj D (snd r))).

Lemma sk_shells_in_run : forall rho (r : list Z -> cx D * cx D) (F : list (list Z) -> sk_acc_in A) shells,
  (forall kl t, In kl shells -> In t kl -> rho t = Ok (r t)) ->
  sk_shells_in D A re rho (map F shells) shells =
  Ok (map (fun kl => ((fst (F kl) + length kl)%nat, fold_left (nadd A) (map (fun t => prod_re (r t)) kl) (snd (F kl)))) shells).
Proof.
  intros rho r F shells. induction shells as [|kl sr IH]; intros H; [reflexivity|].
  assert (IH' := IH (fun kl' t H1 H2 => H kl' t (or_intror H1) H2)).
  assert (G : forall l a, (forall t, In t l -> rho t = Ok (r t)) ->
    foldM (fun (a : sk_acc_in A) kvec => r <- rho kvec ;; Ok (S (fst a), nadd A (snd a) (re (cxmul D (fst r) (cxconj D (snd r)))))) a l
    = Ok ((fst a + length l)%nat, fold_left (nadd A) (map (fun t => prod_re (r t)) l) (snd a))).
  { clear. induction l as [|t l IH]; intros a H; cbn [foldM map fold_left length]; [destruct a; cbn [fst snd]; rewrite Nat.add_0_r; reflexivity|].
    rewrite (H t (or_introl eq_refl)). cbn [bind]. rewrite IH by (intros; apply H; right; assumption). cbn [fst snd]. do 2 f_equal. lia. }
  cbn [map sk_shells_in]. destruct kl as [|t kl].
  - rewrite IH'. cbn [bind map fold_left length]. destruct (F []) as [c s]. cbn [fst snd]. rewrite Nat.add_0_r. reflexivity.
  - rewrite G by (intros t' Ht; apply (H (t :: kl)); [left; reflexivity|exact Ht]). cbn [bind]. rewrite IH'. reflexivity.
Qed.

Lemma sk_frames_run : forall (step : list (sk_acc_in A) -> nat -> res (list (sk_acc_in A))) (val : nat -> list Z -> num A) shells is (F : list (list Z) -> sk_acc_in A),
  (forall i (F : list (list Z) -> sk_acc_in A), In i is -> step (map F shells) i = Ok (map (fun kl => ((fst (F kl) + length kl)%nat, fold_left (nadd A) (map (val i) kl) (snd (F kl)))) shells)) ->
  foldM step (map F shells) is =
  Ok (map (fun kl => ((fst (F kl) + length is * length kl)%nat, fold_left (nadd A) (flat_map (fun i => map (val i) kl) is) (snd (F kl)))) shells).
Proof.
  intros step val shells is. induction is as [|i is IH]; intros F H; cbn [foldM].
  - f_equal. apply map_ext. intros kl. cbn [length flat_map fold_left]. destruct (F kl). cbn [fst snd]. rewrite Nat.add_0_r. reflexivity.
  - rewrite (H i F (or_introl eq_refl)). cbn [bind]. rewrite IH by (intros; apply H; right; assumption). f_equal. apply map_ext. intros kl. cbn [fst snd flat_map length]. rewrite fold_left_app. f_equal. lia.
Qed.
End Loops.

(** ** Normalisation *)
(** The plain double precision operations. *)
Lemma plain_quotient : fair_quotient (fun a n => SFdiv fprec femax a (f64_ofZ (Z.of_nat n))).
Proof.
  intros a n Ka Ba Hn Hn2. pose proof u_small as U. destruct (ofZ_exact (Z.of_nat n)) as [Kn En]; [lia|]. rewrite <- INR_IZR_INZ in En.
  assert (N1 : 1 <= INR n) by (change 1 with (INR 1); apply le_INR; exact Hn).
  assert (Rq := div_spec a _ (proj1 Ka) (proj1 Kn) (proj2 Ka) (proj2 Kn) ltac:(lra)). rewrite En in Rq.
  assert (B : Rabs (fval a / INR n) <= p2 500).
  { apply Rle_trans with (2 := Ba). unfold Rdiv. rewrite Rabs_mult, Rabs_inv, (Rabs_right (INR n)) by lra. pose proof (Rabs_pos (fval a)) as P.
    assert (/ INR n <= 1) by (rewrite <- Rinv_1; apply Rinv_le_contravar; lra). nra. }
  destruct (rounded_bounded _ _ (p2 500) Rq) as [Kd _]; [apply format_p2; lia|exact B|apply p2_lt; lia|]. split; [exact Kd|].
  pose proof (rounded_error _ _ Rq Kd) as Ed. change (p2 (-53)) with u. assert (tiny <= p2 (-1070)) by (apply p2_le; lia). pose proof (Rabs_pos (fval a / INR n)). nra.
Qed.

Lemma plain_root : fair_root (fun x => SFsqrt fprec femax x).
Proof.
  intros x Kx [B0 B1]. pose proof u_small as U. pose proof (p2_pos (-500)) as P0. assert (X0 : 0 <= fval x) by lra. assert (Rq := sqrt_spec64 x (proj1 Kx) (proj2 Kx) X0).
  assert (S1 : p2 (-250) <= sqrt (fval x)).
  { rewrite <- (sqrt_square (p2 (-250))) by (left; apply p2_pos). apply sqrt_le_1_alt. rewrite <- p2_add. exact B0. }
  assert (S2 : sqrt (fval x) <= p2 250).
  { rewrite <- (sqrt_square (p2 250)) by (left; apply p2_pos). apply sqrt_le_1_alt. rewrite <- p2_add. exact B1. }
  pose proof (p2_pos (-250)) as P1.
  destruct (rounded_bounded _ _ (p2 250) Rq) as [Kd _]; [apply format_p2; lia|rewrite Rabs_right by lra; exact S2|apply p2_lt; lia|]. split; [exact Kd|].
  pose proof (rounded_error _ _ Rq Kd) as Ed. rewrite (Rabs_right (sqrt (fval x))) in Ed by lra. change (p2 (-53)) with u.
  assert (T : tiny <= u * p2 (-250)) by (unfold tiny, u; rewrite <- p2_add; apply p2_le; lia).
  assert (u * p2 (-250) <= u * sqrt (fval x)) by (apply Rmult_le_compat_l; lra). assert (0 <= u * sqrt (fval x)) by (apply Rmult_le_pos; lra). lra.
Qed.

(** The mean number of particles. *)
Lemma mean_number_near : forall (pos : list (list (list f64))) N, pos <> [] -> (forall f, In f pos -> f <> [] /\ (length f <= N)%nat) -> (Z.of_nat (N * length pos) <= 2 ^ 53)%Z ->
  let m := rmean (map (fun f => INR (length f)) (map (map (map fval)) pos)) in
  ok (mean_number_in F64ops pos) /\ 1 <= m <= INR N /\ Rabs (fval (mean_number_in F64ops pos) - m) <= 2 * u * m.
Proof.
  intros pos N Hp Hf HN m. pose proof u_small as U.
  assert (Tot : (length pos <= list_sum (map (@length (list f64)) pos) <= N * length pos)%nat).
  { clear - Hf. induction pos as [|f pos IH]; [cbn; lia|]. destruct (Hf f (or_introl eq_refl)) as [Q1 Q2]. assert (I := IH (fun g H => Hf g (or_intror H))). cbn [map length].
    change (list_sum (length f :: map (@length (list f64)) pos)) with (length f + list_sum (map (@length (list f64)) pos))%nat. assert (1 <= length f)%nat by (destruct f; [congruence|cbn; lia]). nia. }
  set (T := list_sum (map (@length (list f64)) pos)) in *.
  assert (L1 : (1 <= length pos)%nat) by (destruct pos; [congruence|cbn; lia]).
  assert (Em : m = INR T / INR (length pos)).
  { unfold m, rmean, T. rewrite map_map, !map_length. f_equal. clear. induction pos as [|f pos IH]; [reflexivity|]. cbn [map rsum].
    change (list_sum (length f :: map (@length (list f64)) pos)) with (length f + list_sum (map (@length (list f64)) pos))%nat. rewrite plus_INR, IH, map_length. reflexivity. }
  assert (A1 : 1 <= INR (length pos)) by (change 1 with (INR 1); apply le_INR; exact L1).
  pose proof (le_INR _ _ (proj1 Tot)) as T1. pose proof (le_INR _ _ (proj2 Tot)) as T2. rewrite mult_INR in T2.
  assert (M1 : 1 <= m <= INR N).
  { rewrite Em. split; [apply Rmult_le_reg_r with (INR (length pos)); [lra|]|apply Rmult_le_reg_r with (INR (length pos)); [lra|]]; unfold Rdiv; rewrite Rmult_assoc, Rinv_l by lra; lra. }
  destruct (ofZ_exact (Z.of_nat T)) as [KT ET]; [lia|]. destruct (ofZ_exact (Z.of_nat (length pos))) as [Kl El]; [lia|]. rewrite <- INR_IZR_INZ in ET, El.
  assert (Rq := div_spec _ _ (proj1 KT) (proj1 Kl) (proj2 KT) (proj2 Kl) ltac:(lra)). rewrite ET, El, <- Em in Rq.
  assert (B : Rabs m <= p2 53).
  { rewrite Rabs_right by lra. apply Rle_trans with (INR N); [lra|]. rewrite p2_Z by lia. rewrite INR_IZR_INZ. apply IZR_le. nia. }
  destruct (rounded_bounded _ _ (p2 53) Rq) as [Kd _]; [apply format_p2; lia|exact B|apply p2_lt; lia|].
  split; [exact Kd|]. split; [exact M1|]. pose proof (rounded_error _ _ Rq Kd) as Ed. rewrite (Rabs_right m) in Ed by lra.
  assert (Ty : tiny <= u) by (unfold tiny, u; apply p2_le; lia). assert (u * 1 <= u * m) by (apply Rmult_le_compat_l; lra).
  change (mean_number_in F64ops pos) with (SFdiv fprec femax (f64_ofZ (Z.of_nat T)) (f64_ofZ (Z.of_nat (length pos)))). lra.
Qed.

(** The square root of the product of two numbers known to 2u. *)
Lemma norm_near : forall root a b x y, fair_root root -> ok a -> ok b -> 1 <= x <= p2 53 -> 1 <= y <= p2 53 ->
  Rabs (fval a - x) <= 2 * u * x -> Rabs (fval b - y) <= 2 * u * y ->
  let n := root (SFmul fprec femax a b) in ok n /\ Rabs (fval n - sqrt (x * y)) <= 10 * u * sqrt (x * y).
Proof.
  intros root a b x y Hr Ka Kb Bx By Ea Eb n. pose proof u_small as U.
  assert (U2 : u <= / 1000000) by (unfold u; apply Rle_trans with (p2 (-20)); [apply p2_le; lia|]; unfold p2; simpl powerRZ; lra).
  assert (Rm := mul_spec a b (proj1 Ka) (proj1 Kb) (proj2 Ka) (proj2 Kb)).
  set (z := x * y). assert (Z1 : 1 <= z) by (unfold z; nra). assert (Z2 : z <= p2 106) by (unfold z; change 106%Z with (53 + 53)%Z; rewrite p2_add; apply Rmult_le_compat; lra).
  assert (P1 : Rabs (fval a * fval b - z) <= (4 * u + 4 * u * u) * z).
  { replace (fval a * fval b - z) with ((fval a - x) * (fval b - y) + x * (fval b - y) + (fval a - x) * y) by (unfold z; ring).
    pose proof (Rabs_triang ((fval a - x) * (fval b - y) + x * (fval b - y)) ((fval a - x) * y)) as T1. pose proof (Rabs_triang ((fval a - x) * (fval b - y)) (x * (fval b - y))) as T2.
    rewrite !Rabs_mult in *. rewrite (Rabs_right x), (Rabs_right y) in * by lra.
    assert (Q1 : Rabs (fval a - x) * Rabs (fval b - y) <= (2 * u * x) * (2 * u * y)) by (apply Rmult_le_compat; try apply Rabs_pos; assumption).
    assert (Q2 : x * Rabs (fval b - y) <= x * (2 * u * y)) by (apply Rmult_le_compat_l; lra). assert (Q3 : Rabs (fval a - x) * y <= (2 * u * x) * y) by (apply Rmult_le_compat_r; lra).
    unfold z. replace ((4 * u + 4 * u * u) * (x * y)) with ((2 * u * x) * (2 * u * y) + x * (2 * u * y) + (2 * u * x) * y) by ring. lra. }
  assert (UU : u * u <= / 1000000 * u) by (apply Rmult_le_compat_r; lra).
  assert (P2 : Rabs (fval a * fval b - z) <= 5 * u * z) by (apply Rle_trans with (1 := P1); apply Rmult_le_compat_r; lra).
  assert (UZ : 0 <= u * z) by (apply Rmult_le_pos; lra). assert (UZ1 : u * z <= / 1000000 * z) by (apply Rmult_le_compat_r; lra).
  assert (P3 : Rabs (fval a * fval b) <= 2 * z).
  { replace (fval a * fval b) with ((fval a * fval b - z) + z) by ring. apply Rle_trans with (1 := Rabs_triang _ _). rewrite (Rabs_right z) by lra. lra. }
  destruct (rounded_bounded _ _ (p2 107) Rm) as [Km _]; [apply format_p2; lia|apply Rle_trans with (1 := P3); change 107%Z with (1 + 106)%Z; rewrite p2_add; unfold p2 at 1; simpl powerRZ; lra|apply p2_lt; lia|].
  pose proof (rounded_error _ _ Rm Km) as Em. set (p := SFmul fprec femax a b) in *.
  assert (Ty : tiny <= / 1000 * u) by (apply Rle_trans with (2 := speck); apply p2_le; lia).
  assert (Uz : u * 1 <= u * z) by (apply Rmult_le_compat_l; lra).
  assert (P4 : u * Rabs (fval a * fval b) <= u * z + / 1000 * (u * z)).
  { assert (Rabs (fval a * fval b) <= z + 5 * u * z) by (replace (fval a * fval b) with ((fval a * fval b - z) + z) by ring; apply Rle_trans with (1 := Rabs_triang _ _); rewrite (Rabs_right z) by lra; lra).
    apply Rle_trans with (u * (z + 5 * u * z)); [apply Rmult_le_compat_l; lra|]. replace (u * (z + 5 * u * z)) with (u * z + 5 * u * (u * z)) by ring. assert (5 * u * (u * z) <= / 1000 * (u * z)) by (apply Rmult_le_compat_r; lra). lra. }
  assert (P5 : Rabs (fval p - z) <= 6.1 * u * z).
  { replace (fval p - z) with ((fval p - fval a * fval b) + (fval a * fval b - z)) by ring. apply Rle_trans with (1 := Rabs_triang _ _). lra. }
  pose proof (Rabs_le_inv _ _ P5) as P6. assert (Pp : z / 2 <= fval p <= 2 * z) by lra.
  destruct (Hr p Km) as [Kn En].
  { split; [apply Rle_trans with (/ 2); [apply Rle_trans with (p2 (-1)); [apply p2_le; lia|unfold p2; simpl powerRZ; lra]|lra]|]. apply Rle_trans with (p2 107); [change 107%Z with (1 + 106)%Z; rewrite p2_add; unfold p2 at 1; simpl powerRZ; lra|apply p2_le; lia]. }
  fold n in Kn, En. split; [exact Kn|]. change (p2 (-53)) with u in En.
  assert (Q : Rabs (sqrt (fval p) - sqrt z) <= 6.1 * u * sqrt z + sqrt 0) by (apply sqrt_perturbed; lra). rewrite sqrt_0 in Q.
  pose proof (sqrt_pos z) as Sz. pose proof (Rabs_le_inv _ _ Q) as Q'. assert (Us : 0 <= u * sqrt z) by (apply Rmult_le_pos; lra). assert (Us1 : u * sqrt z <= / 1000000 * sqrt z) by (apply Rmult_le_compat_r; lra).
  assert (S3 : 3 * u * sqrt (fval p) <= 3 * u * (sqrt z * 1.01)) by (apply Rmult_le_compat_l; lra).
  replace (fval n - sqrt z) with ((fval n - sqrt (fval p)) + (sqrt (fval p) - sqrt z)) by ring. apply Rle_trans with (1 := Rabs_triang _ _). lra.
Qed.

(** A quotient by such a number. *)
Lemma quotient_near : forall v n y s P e, ok v -> ok n -> 1 <= s -> s <= p2 53 -> 1 <= P -> P <= p2 98 -> 0 <= e <= 4 ->
  Rabs y <= P -> Rabs (fval v - y) <= P * e -> Rabs (fval n - s) <= 10 * u * s ->
  ok (SFdiv fprec femax v n) /\ Rabs (fval (SFdiv fprec femax v n) - y / s) <= P / s * (e + 64 * u).
Proof.
  intros v n y s P e Kv Kn S1 S2 P1 P2 [E0 E4] By Ev En. pose proof u_small as U.
  assert (U2 : u <= / 1000000) by (unfold u; apply Rle_trans with (p2 (-20)); [apply p2_le; lia|]; unfold p2; simpl powerRZ; lra).
  pose proof (Rabs_le_inv _ _ En) as N'. assert (Us : 0 <= u * s) by (apply Rmult_le_pos; lra). assert (Us1 : u * s <= / 1000000 * s) by (apply Rmult_le_compat_r; lra).
  assert (Np : 0 < fval n) by lra.
  assert (I : / fval n <= (1 + 11 * u) / s).
  { apply Rmult_le_reg_r with (fval n * s); [apply Rmult_lt_0_compat; lra|]. replace (/ fval n * (fval n * s)) with s by (field; lra). replace ((1 + 11 * u) / s * (fval n * s)) with ((1 + 11 * u) * fval n) by (field; lra).
    assert ((1 + 11 * u) * (s - 10 * u * s) <= (1 + 11 * u) * fval n) by (apply Rmult_le_compat_l; lra). replace ((1 + 11 * u) * (s - 10 * u * s)) with (s + (u * s) * (1 - 110 * u)) in H by ring. assert (0 <= u * s * (1 - 110 * u)) by (apply Rmult_le_pos; lra). lra. }
  assert (Is : 0 < / s) by (apply Rinv_0_lt_compat; lra). assert (In : 0 < / fval n) by (apply Rinv_0_lt_compat; lra).
  set (Q := P / s) in *. assert (Q0 : 0 < Q) by (unfold Q, Rdiv; apply Rmult_lt_0_compat; lra).
  assert (X : Rabs (fval v / fval n - y / s) <= Q * (e + 56 * u)).
  { replace (fval v / fval n - y / s) with ((fval v - y) * / fval n + y * (s - fval n) * / fval n * / s) by (field; split; lra).
    apply Rle_trans with (1 := Rabs_triang _ _). rewrite !Rabs_mult, (Rabs_right (/ fval n)), (Rabs_right (/ s)) by lra. rewrite (Rabs_minus_sym s).
    assert (A1 : Rabs (fval v - y) * / fval n <= P * e * ((1 + 11 * u) / s)) by (apply Rmult_le_compat; try lra; apply Rabs_pos).
    assert (A2 : Rabs y * Rabs (fval n - s) * / fval n * / s <= P * (10 * u * s) * ((1 + 11 * u) / s) * / s).
    { apply Rmult_le_compat_r; [lra|]. apply Rmult_le_compat; [apply Rmult_le_pos; apply Rabs_pos|lra| |exact I]. apply Rmult_le_compat; try apply Rabs_pos; assumption. }
    replace (P * e * ((1 + 11 * u) / s)) with (Q * e + 11 * (Q * u) * e) in A1 by (unfold Q; field; lra).
    replace (P * (10 * u * s) * ((1 + 11 * u) / s) * / s) with (10 * (Q * u) + 110 * u * (Q * u)) in A2 by (unfold Q; field; lra).
    assert (Qu : 0 <= Q * u) by (apply Rmult_le_pos; lra). assert (Z1 : 11 * (Q * u) * e <= 11 * (Q * u) * 4) by (apply Rmult_le_compat_l; lra). assert (Z2 : 110 * u * (Q * u) <= 1 * (Q * u)) by (apply Rmult_le_compat_r; lra). lra. }
  assert (Ys : Rabs (y / s) <= Q).
  { unfold Rdiv. rewrite Rabs_mult, (Rabs_right (/ s)) by lra. unfold Q, Rdiv. apply Rmult_le_compat_r; lra. }
  assert (Qu : 0 <= Q * u) by (apply Rmult_le_pos; lra). assert (Qu1 : Q * u <= Q * / 1000000) by (apply Rmult_le_compat_l; lra). assert (Qe : Q * e <= Q * 4) by (apply Rmult_le_compat_l; lra).
  assert (Qe0 : 0 <= Q * e) by (apply Rmult_le_pos; lra).
  assert (B : Rabs (fval v / fval n) <= Q + Q * (e + 56 * u)).
  { replace (fval v / fval n) with ((fval v / fval n - y / s) + y / s) by ring. apply Rle_trans with (1 := Rabs_triang _ _). lra. }
  assert (QP : Q <= P) by (unfold Q, Rdiv; assert (/ s <= 1) by (rewrite <- Rinv_1; apply Rinv_le_contravar; lra); nra).
  assert (Rq := div_spec v n (proj1 Kv) (proj1 Kn) (proj2 Kv) (proj2 Kn) ltac:(lra)).
  destruct (rounded_bounded _ _ (p2 101) Rq) as [Kd _]; [apply format_p2; lia| |apply p2_lt; lia|].
  { apply Rle_trans with (1 := B). assert (p2 101 = 8 * p2 98) by (change 101%Z with (3 + 98)%Z; rewrite p2_add; unfold p2 at 1; simpl powerRZ; lra). lra. }
  split; [exact Kd|]. pose proof (rounded_error _ _ Rq Kd) as Ed.
  assert (B2 : u * Rabs (fval v / fval n) <= u * (Q + Q * (e + 56 * u))) by (apply Rmult_le_compat_l; lra).
  assert (T : tiny <= Q * u).
  { apply Rle_trans with (p2 (-53) * u); [unfold tiny, u; rewrite <- p2_add; apply p2_le; lia|]. apply Rmult_le_compat_r; [lra|]. unfold Q, Rdiv. apply Rle_trans with (1 * / s); [|apply Rmult_le_compat_r; lra]. rewrite Rmult_1_l.
    replace (p2 (-53)) with (/ p2 53); [apply Rinv_le_contravar; lra|]. apply Rmult_eq_reg_l with (p2 53); [|pose proof (p2_pos 53); lra]. rewrite Rinv_r by (pose proof (p2_pos 53); lra). rewrite <- p2_add. reflexivity. }
  assert (B3 : u * (Q + Q * (e + 56 * u)) = Q * u + (Q * u) * (e + 56 * u)) by ring. assert (B4 : (Q * u) * (e + 56 * u) <= (Q * u) * 5) by (apply Rmult_le_compat_l; lra).
  replace (fval (SFdiv fprec femax v n) - y / s) with ((fval (SFdiv fprec femax v n) - fval v / fval n) + (fval v / fval n - y / s)) by ring.
  apply Rle_trans with (1 := Rabs_triang _ _). lra.
Qed.
