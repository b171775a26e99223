(** Complex arithmetic and the tables of exponentials. *)
From Coq Require Import List ZArith Bool Arith Reals Lra Lia.
From Verif Require Import PyBase PyBaseFacts Num NumFacts M_Helpers M_KGrid M_Fourier Spec_Stats
  Spec_BondAngle P_BondAngle Spec_KGrid P_KGrid.
Import ListNotations.
Local Open Scope R_scope.

Lemma c_eq : forall a b : C, fst a = fst b -> snd a = snd b -> a = b.
Proof. intros [a b] [c d]; cbn; congruence. Qed.
Ltac cring := apply c_eq; cbn; ring.

Lemma cadd_comm : forall a b, cadd a b = cadd b a. Proof. intros; cring. Qed.
Lemma cadd_assoc : forall a b c, cadd a (cadd b c) = cadd (cadd a b) c. Proof. intros; cring. Qed.
Lemma cadd_0_l : forall a, cadd c0 a = a. Proof. intros; cring. Qed.
Lemma cadd_0_r : forall a, cadd a c0 = a. Proof. intros; cring. Qed.
Lemma cmul_comm : forall a b, cmul a b = cmul b a. Proof. intros; cring. Qed.
Lemma cmul_assoc : forall a b c, cmul a (cmul b c) = cmul (cmul a b) c. Proof. intros; cring. Qed.
Lemma cmul_1_l : forall a, cmul c1 a = a. Proof. intros; cring. Qed.
Lemma cmul_1_r : forall a, cmul a c1 = a. Proof. intros; cring. Qed.
Lemma cmul_add_l : forall a b c, cmul a (cadd b c) = cadd (cmul a b) (cmul a c). Proof. intros; cring. Qed.
Lemma cmul_0_r : forall a, cmul a c0 = c0. Proof. intros; cring. Qed.
Lemma cconj_add : forall a b, cconj (cadd a b) = cadd (cconj a) (cconj b). Proof. intros; cring. Qed.
Lemma cconj_mul : forall a b, cconj (cmul a b) = cmul (cconj a) (cconj b). Proof. intros; cring. Qed.

Lemma cis_add : forall a b, cmul (cis a) (cis b) = cis (a + b).
Proof. intros. apply c_eq; cbn; rewrite ?cos_plus, ?sin_plus; ring. Qed.
Lemma cis_conj : forall a, cconj (cis a) = cis (- a).
Proof. intros. apply c_eq; cbn; rewrite ?cos_neg, ?sin_neg; ring. Qed.
Lemma cis_0 : cis 0 = c1.
Proof. apply c_eq; cbn; [apply cos_0|apply sin_0]. Qed.

Lemma csum_acc : forall l a, fold_left cadd l a = cadd a (csum l).
Proof.
  unfold csum. intros l. induction l as [|x r IH]; intros a; cbn; [symmetry; apply cadd_0_r|].
  rewrite IH, (IH (cadd c0 x)). rewrite cadd_0_l. symmetry. apply cadd_assoc.
Qed.
Lemma csum_cons : forall x l, csum (x :: l) = cadd x (csum l).
Proof. intros. unfold csum at 1. cbn. rewrite csum_acc, cadd_0_l. reflexivity. Qed.
Lemma csum_app : forall l m, csum (l ++ m) = cadd (csum l) (csum m).
Proof.
  intros l m. induction l as [|x r IH]; cbn [app]; [rewrite cadd_0_l; reflexivity|].
  rewrite !csum_cons, IH. apply cadd_assoc.
Qed.
Lemma fst_csum : forall l, fst (csum l) = rsum (map fst l).
Proof. intros l. induction l as [|x r IH]; [reflexivity|]. rewrite csum_cons. cbn. rewrite IH. reflexivity. Qed.
Lemma snd_csum : forall l, snd (csum l) = rsum (map snd l).
Proof. intros l. induction l as [|x r IH]; [reflexivity|]. rewrite csum_cons. cbn. rewrite IH. reflexivity. Qed.

(** ** Array updates *)
Lemma skipn_nth : forall X (l : list X) a d, (a < length l)%nat -> skipn a l = nth a l d :: skipn (S a) l.
Proof.
  intros X l. induction l as [|y l IH]; intros a d H; cbn in H; [lia|].
  destruct a; [reflexivity|]. cbn [skipn nth]. apply IH. lia.
Qed.

Lemma getZ_pos : forall X (l : list X) i d, (0 <= i < Z.of_nat (length l))%Z ->
  getZ l i = Ok (nth (Z.to_nat i) l d).
Proof.
  intros X l i d H. unfold getZ. destruct (Z.ltb_spec i 0); [lia|]. apply get_Ok. lia.
Qed.

Lemma setidx_pos : forall X (l : list X) i v, (0 <= i < Z.of_nat (length l))%Z ->
  exists l', setidx l i v = Ok l' /\ length l' = length l /\
    forall j d, nth j l' d = if (Z.of_nat j =? i)%Z then v else nth j l d.
Proof.
  intros X l i v H. unfold setidx. destruct (Z.ltb_spec i 0); [lia|].
  destruct (Z.leb_spec 0 i); [|lia]. destruct (Z.ltb_spec i (Z.of_nat (length l))); [|lia]. cbn [andb].
  eexists. split; [reflexivity|].
  assert (Hi : (Z.to_nat i < length l)%nat) by lia.
  set (k := Z.to_nat i) in *.
  assert (L1 : length (firstn k l) = k) by (apply firstn_length_le; lia).
  split.
  - rewrite app_length, L1. cbn [length]. rewrite skipn_length. lia.
  - intros j d. destruct (Z.eqb_spec (Z.of_nat j) i) as [E|E].
    + assert (j = k) by lia. subst j. rewrite app_nth2 by lia. rewrite L1, Nat.sub_diag. reflexivity.
    + transitivity (nth j (firstn k l ++ skipn k l) d); [|rewrite firstn_skipn; reflexivity].
      destruct (Nat.lt_ge_cases j k).
      * rewrite !app_nth1 by lia. reflexivity.
      * rewrite !app_nth2 by lia. rewrite L1.
        destruct (j - k)%nat as [|m] eqn:Em; [lia|].
        assert (SK : skipn k l = nth k l d :: skipn (S k) l).
        { apply skipn_nth. assumption. }
        rewrite SK. reflexivity.
Qed.

Lemma foldM_zrange : forall S (P : Z -> S -> Prop) (step : S -> Z -> res S) a b s,
  (forall i s, (a <= i <= b)%Z -> P i s -> exists s', step s i = Ok s' /\ P (i + 1)%Z s') ->
  P a s -> exists s', foldM step s (zrange a b) = Ok s' /\ P (Z.max a (b + 1)) s'.
Proof.
  intros S P step a b s H P0. unfold zrange.
  assert (G : forall n k s, P (a + Z.of_nat k)%Z s -> (a + Z.of_nat (k + n) <= b + 1)%Z ->
    exists s', foldM step s (map (fun i => (a + Z.of_nat i)%Z) (seq k n)) = Ok s' /\ P (a + Z.of_nat (k + n))%Z s').
  { intros n. induction n as [|n IH]; intros k s0 Hk Hb.
    - exists s0. split; [reflexivity|]. rewrite Nat.add_0_r. assumption.
    - cbn [seq map foldM]. destruct (H (a + Z.of_nat k)%Z s0) as [s1 [E1 P1]]; [lia|assumption|].
      rewrite E1. cbn [bind].
      replace (a + Z.of_nat k + 1)%Z with (a + Z.of_nat (Datatypes.S k))%Z in P1 by lia.
      destruct (IH (Datatypes.S k) s1 P1) as [s2 [E2 P2]]; [lia|].
      exists s2. split; [assumption|]. replace (k + Datatypes.S n)%nat with (Datatypes.S k + n)%nat by lia. assumption. }
  destruct (Z.le_gt_cases a (b + 1)).
  - destruct (G (Z.to_nat (b + 1 - a)) 0%nat s) as [s' [E P']].
    + replace (a + Z.of_nat 0)%Z with a by lia. assumption.
    + lia.
    + exists s'. split; [assumption|].
      replace (Z.max a (b + 1)) with (a + Z.of_nat (0 + Z.to_nat (b + 1 - a)))%Z by lia. assumption.
  - replace (Z.to_nat (b + 1 - a)) with 0%nat by lia. exists s. split; [reflexivity|].
    rewrite Z.max_l by lia. assumption.
Qed.

(** Entries [lo..hi] (relative to the middle) of a table are right. *)
Definition good (nk : Z) (th : R) (lo hi : Z) (t : list C) : Prop :=
  length t = Z.to_nat (2 * nk + 1) /\
  forall n, (lo <= n <= hi)%Z -> nth (Z.to_nat (nk + n)) t c0 = cis (IZR n * th).

Lemma expo_row_good : forall junk kj nk x, (1 <= nk)%Z -> length junk = Z.to_nat (2 * nk + 1) ->
  exists t, expo_row junk kj nk x = Ok t /\ good nk (kj * x) (- nk) nk t.
Proof.
  intros junk kj nk x Hn L. set (th := kj * x).
  unfold expo_row. fold th.
  destruct (setidx_pos C junk nk c1) as [t1 [E1 [L1 N1]]]; [lia|].
  destruct (setidx_pos C t1 (nk + 1) (cis th)) as [t2 [E2 [L2 N2]]]; [lia|].
  assert (G2 : getZ t2 (nk + 1) = Ok (cis th)).
  { rewrite (getZ_pos C t2 _ c0) by lia. rewrite N2. destruct (Z.eqb_spec (Z.of_nat (Z.to_nat (nk + 1))) (nk + 1)); [reflexivity|lia]. }
  destruct (setidx_pos C t2 (nk - 1) (cconj (cis th))) as [t3 [E3 [L3 N3]]]; [lia|].
  rewrite E1. cbn [bind]. rewrite E2. cbn [bind]. rewrite G2. cbn [bind]. rewrite E3. cbn [bind].
  assert (G3 : good nk th (-1) 1 t3).
  { split; [congruence|]. intros n Hn'. rewrite N3.
    destruct (Z.eqb_spec (Z.of_nat (Z.to_nat (nk + n))) (nk - 1)).
    - assert (n = (-1)%Z) by lia. subst n. rewrite cis_conj. f_equal. ring.
    - rewrite N2. destruct (Z.eqb_spec (Z.of_nat (Z.to_nat (nk + n))) (nk + 1)).
      + assert (n = 1%Z) by lia. subst n. f_equal. ring.
      + rewrite N1. destruct (Z.eqb_spec (Z.of_nat (Z.to_nat (nk + n))) nk); [|lia].
        assert (n = 0%Z) by lia. subst n. rewrite Rmult_0_l. symmetry. apply cis_0. }
  clear - G3 Hn.
  (* the product of two neighbouring entries *)
  assert (PR : forall i t lo, good nk th lo (i - 1) t -> (lo <= 1)%Z -> (2 <= i <= nk)%Z ->
    exists a b, getZ t (nk + i - 1) = Ok a /\ getZ t (nk + 1) = Ok b /\ cmul a b = cis (IZR i * th)).
  { intros i t lo [Lt Nt] Hlo Hi.
    exists (cis (IZR (i - 1) * th)), (cis (IZR 1 * th)). split; [|split].
    - rewrite (getZ_pos C t _ c0) by lia. f_equal.
      replace (nk + i - 1)%Z with (nk + (i - 1))%Z by lia. apply Nt. lia.
    - rewrite (getZ_pos C t _ c0) by lia. f_equal. apply Nt. lia.
    - rewrite cis_add. f_equal. rewrite minus_IZR. ring. }
  destruct (foldM_zrange _ (fun i t => good nk th (-1) (i - 1) t)
    (fun t i => a <- getZ t (nk + i - 1) ;; b <- getZ t (nk + 1) ;; setidx t (nk + i) (cmul a b)) 2 (nk - 1) t3)
    as [t4 [E4 G4]].
  { intros i t Hi Gt. destruct (PR i t (-1)%Z Gt ltac:(lia) ltac:(lia)) as [a [b [Ea [Eb Eab]]]].
    rewrite Ea, Eb. cbn [bind]. destruct Gt as [Lt Nt].
    destruct (setidx_pos C t (nk + i) (cmul a b)) as [t' [E' [L' N']]]; [lia|].
    exists t'. split; [assumption|]. split; [congruence|]. intros n Hn'. rewrite N'.
    destruct (Z.eqb_spec (Z.of_nat (Z.to_nat (nk + n))) (nk + i)).
    - assert (n = i) by lia. subst n. assumption.
    - apply Nt. lia. }
  { exact G3. }
  rewrite E4. cbn [bind].
  (* the second loop needs only the entries -1..1 *)
  assert (G5 : good nk th (-1) 1 t4).
  { destruct G4 as [Lt Nt]. split; [assumption|]. intros n Hn'. apply Nt. lia. }
  clear E4 G4 G3.
  destruct (foldM_zrange _ (fun i t => good nk th (- (i - 1)) (i - 1) t)
    (fun t i => a <- getZ t (nk + i - 1) ;; b <- getZ t (nk + 1) ;;
                    t <- setidx t (nk + i) (cmul a b) ;;
                    c <- getZ t (nk + i) ;;
                    setidx t (nk - i) (cconj c)) 2 nk t4) as [t5 [E5 G6]].
  { intros i t Hi Gt. destruct (PR i t (- (i - 1))%Z Gt ltac:(lia) ltac:(lia)) as [a [b [Ea [Eb Eab]]]].
    rewrite Ea, Eb. cbn [bind]. destruct Gt as [Lt Nt].
    destruct (setidx_pos C t (nk + i) (cmul a b)) as [t' [E' [L' N']]]; [lia|].
    rewrite E'. cbn [bind].
    assert (Gc : getZ t' (nk + i) = Ok (cis (IZR i * th))).
    { rewrite (getZ_pos C t' _ c0) by lia. rewrite N'.
      destruct (Z.eqb_spec (Z.of_nat (Z.to_nat (nk + i))) (nk + i)); [congruence|lia]. }
    rewrite Gc. cbn [bind].
    destruct (setidx_pos C t' (nk - i) (cconj (cis (IZR i * th)))) as [t'' [E'' [L'' N'']]]; [lia|].
    exists t''. split; [assumption|]. split; [congruence|]. intros n Hn'. rewrite N''.
    destruct (Z.eqb_spec (Z.of_nat (Z.to_nat (nk + n))) (nk - i)).
    - assert (n = (- i)%Z) by lia. subst n. rewrite cis_conj. f_equal. rewrite opp_IZR. ring.
    - rewrite N'. destruct (Z.eqb_spec (Z.of_nat (Z.to_nat (nk + n))) (nk + i)).
      + assert (n = i) by lia. subst n. assumption.
      + apply Nt. lia. }
  { exact G5. }
  exists t5. split; [exact E5|].
  replace (Z.max 2 (nk + 1)) with (nk + 1)%Z in G6 by lia.
  destruct G6 as [L6 N6]. split; [assumption|]. intros n Hn'. apply N6. lia.
Qed.

(** nk_max = 0: the first off-centre entry is out of bounds. *)
Lemma expo_row_0 : forall z kj x, expo_row [z] kj 0 x = Err IndexError.
Proof. reflexivity. Qed.

Definition row_ok (k0 : list R) (nk : Z) (x : list R) (rows : list (list C)) : Prop :=
  length rows = length x /\
  forall j n, (j < length x)%nat -> (- nk <= n <= nk)%Z ->
    length (nth j rows []) = Z.to_nat (2 * nk + 1) /\
    nth (Z.to_nat (nk + n)) (nth j rows []) c0 = cis (IZR n * (nth j k0 0 * nth j x 0)).

Lemma mapM_seq : forall Y (f : nat -> res Y) (Q : nat -> Y -> Prop) n,
  (forall j, (j < n)%nat -> exists y, f j = Ok y /\ Q j y) ->
  exists ys, mapM f (seq 0 n) = Ok ys /\ length ys = n /\ forall j (d : Y), (j < n)%nat -> Q j (nth j ys d).
Proof.
  intros Y f Q n.
  assert (G : forall m a, (forall j, (a <= j < a + m)%nat -> exists y, f j = Ok y /\ Q j y) ->
    exists ys, mapM f (seq a m) = Ok ys /\ length ys = m /\ forall j (d : Y), (j < m)%nat -> Q (a + j)%nat (nth j ys d)).
  { intros m. induction m as [|m IH]; intros a H.
    - exists []. split; [reflexivity|]. split; [reflexivity|]. intros; lia.
    - cbn [seq mapM]. destruct (H a) as [y [Ey Qy]]; [lia|]. rewrite Ey. cbn [bind].
      destruct (IH (S a)) as [ys [E [L F]]]; [intros; apply H; lia|]. rewrite E. cbn [bind].
      exists (y :: ys). split; [reflexivity|]. split; [cbn; lia|]. intros [|j] d Hj; cbn [nth].
      + rewrite Nat.add_0_r. assumption.
      + replace (a + S j)%nat with (S a + j)%nat by lia. apply F. lia. }
  intros H. destruct (G n 0%nat) as [ys [E [L F]]]; [intros; apply H; lia|]. exists ys. auto.
Qed.

Lemma expo_particle_ok : forall k0 nk x, (1 <= nk)%Z -> (length x <= length k0)%nat ->
  exists rows, expo_particle k0 nk x = Ok rows /\ row_ok k0 nk x rows.
Proof.
  intros k0 nk x Hn L. unfold expo_particle.
  destruct (mapM_seq (list C) (fun j => kj <- get k0 j ;; xj <- get x j ;;
                 expo_row (repeat c0 (Z.to_nat (2 * nk + 1))) kj nk xj)
             (fun j t => good nk (nth j k0 0 * nth j x 0) (- nk) nk t) (length x)) as [rows [E [Lr F]]].
  - intros j Hj. rewrite (get_Ok _ k0 j 0) by lia. rewrite (get_Ok _ x j 0) by lia. cbn [bind].
    destruct (expo_row_good (repeat c0 (Z.to_nat (2 * nk + 1))) (nth j k0 0) nk (nth j x 0) Hn) as [t [Et Gt]].
    + apply repeat_length.
    + eauto.
  - exists rows. split; [assumption|]. split; [assumption|]. intros j n Hj Hn'.
    destruct (F j [] Hj) as [Lj Nj]. auto.
Qed.

Lemma mapM_Forall2 : forall X Y (f : X -> res Y) (Q : X -> Y -> Prop) l,
  (forall x, In x l -> exists y, f x = Ok y /\ Q x y) -> exists ys, mapM f l = Ok ys /\ Forall2 Q l ys.
Proof.
  intros X Y f Q l. induction l as [|x r IH]; intros H; [exists []; split; [reflexivity|constructor]|].
  cbn [mapM]. destruct (H x (or_introl eq_refl)) as [y [E Qy]]. rewrite E. cbn [bind].
  destruct IH as [ys [E2 F]]; [intros; apply H; right; assumption|]. rewrite E2. cbn [bind].
  exists (y :: ys). split; [reflexivity|]. constructor; assumption.
Qed.

Lemma expo_sphere_ok : forall k0 nk pos, (1 <= nk)%Z -> pos <> [] ->
  (forall x, In x pos -> (length x <= length k0)%nat) ->
  exists tab, expo_sphere k0 nk pos = Ok tab /\ Forall2 (row_ok k0 nk) pos tab.
Proof.
  intros k0 nk pos Hn Hp L. unfold expo_sphere. destruct pos as [|p r] eqn:E; [congruence|].
  rewrite <- E in *. apply mapM_Forall2. intros x Hx. apply expo_particle_ok; auto.
Qed.

Lemma expo_frames_ok : forall k0 nk pos, (1 <= nk)%Z -> pos <> [] ->
  (forall f x, In f pos -> In x f -> (length x <= length k0)%nat) ->
  exists tab, expo_frames k0 nk pos = Ok tab /\ Forall2 (Forall2 (row_ok k0 nk)) pos tab.
Proof.
  intros k0 nk pos Hn Hp L. unfold expo_frames. destruct pos as [|p r] eqn:E; [congruence|].
  rewrite <- E in *. apply mapM_Forall2. intros f Hf. apply mapM_Forall2. intros x Hx.
  apply expo_particle_ok; [assumption|]. eapply L; eassumption.
Qed.

(** ** Plane waves *)
Lemma plane_wave_cis : forall nd k0 nk x rows n w, row_ok k0 nk x rows -> length x = nd -> length k0 = nd ->
  length n = nd -> Forall (fun z => (- nk <= z <= nk)%Z) n ->
  plane_wave nd rows (map (fun z => (z + nk)%Z) n) w = Ok (cmul w (cis (dot (wave k0 n) x))).
Proof.
  intros nd k0 nk x rows n w [Lr Rr] Lx Lk Ln Fn. unfold plane_wave.
  assert (G : forall m a w, (a + m = nd)%nat ->
    foldM (fun acc d => r <- get rows d ;; k <- get (map (fun z => (z + nk)%Z) n) d ;; e <- getZ r k ;; Ok (cmul acc e))
        w (seq a m) = Ok (cmul w (cis (dot (wave (skipn a k0) (skipn a n)) (skipn a x))))).
  { intros m. induction m as [|m IH]; intros a w0 Ha.
    - cbn [seq foldM]. rewrite (skipn_all2 x) by lia. rewrite (skipn_all2 k0) by lia. cbn.
      rewrite cis_0, cmul_1_r. reflexivity.
    - cbn [seq foldM].
      assert (Hn : (- nk <= nth a n 0 <= nk)%Z).
      { rewrite Forall_forall in Fn. apply Fn. apply nth_In. lia. }
      destruct (Rr a (nth a n 0%Z)) as [La Na]; [lia|assumption|].
      rewrite (get_Ok _ rows a []) by lia. cbn [bind].
      rewrite (get_Ok _ (map (fun z => (z + nk)%Z) n) a (0 + nk)%Z) by (rewrite map_length; lia).
      rewrite (map_nth (fun z => (z + nk)%Z)). cbn [bind].
      rewrite (getZ_pos C _ _ c0) by (rewrite La; lia).
      replace (nth a n 0 + nk)%Z with (nk + nth a n 0)%Z by lia. rewrite Na. cbn [bind].
      rewrite IH by lia. f_equal. rewrite <- cmul_assoc. f_equal. rewrite cis_add. f_equal.
      rewrite (skipn_nth R k0 a 0), (skipn_nth Z n a 0%Z), (skipn_nth R x a 0) by lia. cbn [wave combine map dot fst snd]. unfold wave. ring. }
  apply (G nd 0%nat w). lia.
Qed.
