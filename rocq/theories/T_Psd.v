(** C95: the partial structure factors are a positive semi-definite matrix. *)
From Coq Require Import List ZArith Bool Arith Reals Lra Lia Permutation.
From Verif Require Import PyBase PyBaseFacts Num NumFacts M_Helpers M_KGrid M_Fourier Spec_Stats
  Spec_BondAngle P_BondAngle Spec_KGrid P_KGrid P_KGrid2 P_KGrid3 P_KGrid4 P_Expo Spec_Fourier Spec_Correlation P_Sk P_Sk2 P_Sk3 P_SkVar T_Fourier.
Import ListNotations.
Local Open Scope R_scope.

(** The value of the quadratic form of the matrix [M] of [n] rows and columns. *)
Definition form (n : nat) (M : nat -> nat -> R) (x : nat -> R) : R :=
  rsum (map (fun i => rsum (map (fun j => x i * x j * M i j) (seq 0 n))) (seq 0 n)).

Lemma form_ext : forall n M M' x, (forall i j, (i < n)%nat -> (j < n)%nat -> x i * x j * M i j = M' i j) ->
  form n M x = rsum (map (fun i => rsum (map (fun j => M' i j) (seq 0 n))) (seq 0 n)).
Proof.
  intros n M M' x H. unfold form. apply rsum_ext. intros i Hi. apply in_seq in Hi. apply rsum_ext. intros j Hj. apply in_seq in Hj.
  apply H; lia.
Qed.

Lemma double_product : forall (u : nat -> R) l,
  rsum (map (fun i => rsum (map (fun j => u i * u j) l)) l) = rsum (map u l) * rsum (map u l).
Proof.
  intros u l. transitivity (rsum (map (fun i => rsum (map u l) * u i) l)).
  - apply rsum_ext. intros i _. rewrite rsum_scal. ring.
  - rewrite rsum_scal. reflexivity.
Qed.

(** Sum over samples of a sum of products of two real amplitudes. *)
Lemma samples_form : forall X (re im : nat -> X -> R) (y : nat -> R) n (L : list X),
  0 <= rsum (map (fun i => rsum (map (fun j => rsum (map (fun p => y i * y j * (re i p * re j p + im i p * im j p)) L)) (seq 0 n))) (seq 0 n)).
Proof.
  intros X re im y n L. induction L as [|p L IH].
  - cbn [map rsum]. right. symmetry. rewrite (rsum_ext _ _ (fun _ => 0)).
    + rewrite rsum_const. ring.
    + intros i _. rewrite rsum_const. ring.
  - cbn [map rsum].
    rewrite (rsum_ext _ _ (fun i =>
      rsum (map (fun j => y i * y j * (re i p * re j p + im i p * im j p)) (seq 0 n))
      + rsum (map (fun j => rsum (map (fun p => y i * y j * (re i p * re j p + im i p * im j p)) L)) (seq 0 n)))).
    2: { intros i _. rewrite <- rsum_plus. reflexivity. }
    rewrite rsum_plus. apply Rplus_le_le_0_compat; [|exact IH].
    rewrite (rsum_ext _ _ (fun i => rsum (map (fun j => (y i * re i p) * (y j * re j p)) (seq 0 n))
                                    + rsum (map (fun j => (y i * im i p) * (y j * im j p)) (seq 0 n)))).
    2: { intros i _. rewrite <- rsum_plus. apply rsum_ext. intros j _. ring. }
    rewrite rsum_plus, (double_product (fun i => y i * re i p)), (double_product (fun i => y i * im i p)).
    apply Rplus_le_le_0_compat; apply Rle_0_sqr.
Qed.

(** [species] are the positions of the particles of each species in [n] frames, every
    species being present in every frame; the wave-vectors are those of each frame, so that
    the cell may change.  Two or three dimensions. *)
Theorem C95_positive : forall kst skip n m nd (species : list (list (list (list R)))) S x k,
  (1 <= skip)%nat -> (1 <= n)%nat -> (nd = 2 \/ nd = 3)%nat ->
  (forall i, In i (origins 0 skip n) -> usable (kst i) /\ length (ks_k0 (kst i)) = nd /\ length (ks_vectors (kst i)) = m) ->
  (forall a, In a species -> length a = n /\ group_ok nd a) ->
  (forall i j, (i < length species)%nat -> (j < length species)%nat ->
     structure_factor (i =? j)%nat false kst skip (pair_frames (nth i species []) (nth j species [])) = Ok (S i j)) ->
  (k < m)%nat ->
  0 <= form (length species) (fun i j => fst (nth k (S i j) (0, 0))) x.
Proof.
  intros kst skip n m nd species S x k Hs Hn Hd HU Gs HS Hk.
  set (L := flat_map (fun i : nat => map (fun v : list R => (v, i)) (nth k (kvectors Rops (kst i)) [])) (origins 0 skip n)).
  set (re := fun i (p : list R * nat) => let f := nth (snd p) (nth i species []) [] in rho_re (fst p) f (unit_weights f)).
  set (im := fun i (p : list R * nat) => let f := nth (snd p) (nth i species []) [] in rho_im (fst p) f (unit_weights f)).
  set (y := fun i => x i / sqrt (mean_N (nth i species []))).
  rewrite (form_ext _ _ (fun i j => / INR (length L) * rsum (map (fun p => y i * y j * (re i p * re j p + im i p * im j p)) L))).
  - rewrite (rsum_ext _ _ (fun i => / INR (length L) * rsum (map (fun j =>
       rsum (map (fun p => y i * y j * (re i p * re j p + im i p * im j p)) L)) (seq 0 (length species))))).
    2: { intros i _. apply rsum_scal. }
    rewrite rsum_scal. apply Rmult_le_pos; [|apply samples_form].
    destruct (Nat.eq_dec (length L) 0) as [Z|Z]; [rewrite Z; cbn; rewrite Rinv_0; lra|].
    left. apply Rinv_0_lt_compat, lt_0_INR. lia.
  - intros i j Hi Hj. specialize (HS i j Hi Hj).
    destruct (Gs (nth i species [])) as [Li Gi]; [apply nth_In; assumption|].
    destruct (Gs (nth j species [])) as [Lj Gj]; [apply nth_In; assumption|].
    assert (Ni : nth i species [] <> []) by (intros C; rewrite C in Li; cbn in Li; lia).
    assert (Nj : nth j species [] <> []) by (intros C; rewrite C in Lj; cbn in Lj; lia).
    rewrite (pairs_value_var _ _ _ m nd) in HS; try assumption; try lia.
    + apply Ok_inj in HS. rewrite <- HS, (nth_map_in _ _ _ _ _ 0%nat) by (rewrite seq_length; assumption).
      rewrite seq_nth by assumption. rewrite Nat.add_0_l. cbn [fst].
      pose proof (mean_N_pos _ _ Ni Gi) as P1. pose proof (mean_N_pos _ _ Nj Gj) as P2.
      rewrite sqrt_mult by lra. pose proof (sqrt_lt_R0 _ P1). pose proof (sqrt_lt_R0 _ P2).
      unfold shell_mean_var, rmean. rewrite Li.
      rewrite (rsum_scal _ (y i * y j)).
      assert (E : forall l, flat_map (fun i0 : nat => map (fun v => density_cross v (nth i0 (nth i species []) []) (nth i0 (nth j species []) []))
                  (nth k (kvectors Rops (kst i0)) [])) l =
                map (fun p : list R * nat => re i p * re j p + im i p * im j p)
                  (flat_map (fun i : nat => map (fun v : list R => (v, i)) (nth k (kvectors Rops (kst i)) [])) l)).
      { induction l as [|q l IH]; [reflexivity|]. cbn [flat_map]. rewrite map_app, IH, map_map. reflexivity. }
      rewrite E. fold L. rewrite map_length. unfold y. unfold Rdiv. rewrite Rinv_mult. change (num Rops) with R. set (s1 := rsum _). set (s2 := length L). set (s3 := / INR s2). ring.
    + rewrite Li. assumption.
    + intros C. apply Nat.eqb_eq in C. subst. reflexivity.
Qed.
Print Assumptions C95_positive.

Lemma form_two : forall (M : nat -> nat -> R) x, form 2 M x
  = x 0%nat * x 0%nat * M 0%nat 0%nat + x 0%nat * x 1%nat * M 0%nat 1%nat + (x 1%nat * x 0%nat * M 1%nat 0%nat + x 1%nat * x 1%nat * M 1%nat 1%nat).
Proof. intros M x. unfold form. cbn [seq map rsum]. ring. Qed.

Lemma psd_two : forall a b c, (forall u v, 0 <= u * u * a + 2 * (u * v * b) + v * v * c) -> 0 <= a /\ 0 <= c /\ b * b <= a * c.
Proof.
  intros a b c H. assert (A := H 1 0). assert (C := H 0 1). assert (0 <= a) by lra. assert (0 <= c) by lra.
  repeat split; try assumption. pose proof (H b (- a)). destruct (Req_dec a 0) as [->|Na].
  - destruct (Req_dec b 0) as [->|Nb]; [lra|]. pose proof (H (- (c + 1) / (2 * b)) 1).
    assert (2 * (- (c + 1) / (2 * b) * 1 * b) = - (c + 1)) as E by (field; assumption). rewrite E in H3. lra.
  - assert (0 < a) by lra. assert (0 <= a * (a * c - b * b)) by lra. assert (0 <= a * c - b * b); [|lra].
    apply Rmult_le_reg_l with a; [assumption|]. lra.
Qed.

(** Two species: S_AB^2 <= S_AA S_BB. *)
Theorem C95_cauchy_schwarz : forall kst skip n m nd (a b : list (list (list R))) Saa Sbb Sab k,
  (1 <= skip)%nat -> (1 <= n)%nat -> (nd = 2 \/ nd = 3)%nat ->
  (forall i, In i (origins 0 skip n) -> usable (kst i) /\ length (ks_k0 (kst i)) = nd /\ length (ks_vectors (kst i)) = m) ->
  length a = n -> length b = n -> group_ok nd a -> group_ok nd b ->
  structure_factor true false kst skip (pair_frames a a) = Ok Saa ->
  structure_factor true false kst skip (pair_frames b b) = Ok Sbb ->
  structure_factor false false kst skip (pair_frames a b) = Ok Sab -> (k < m)%nat ->
  let v s := fst (nth k s (0, 0)) in
  0 <= v Saa /\ 0 <= v Sbb /\ v Sab * v Sab <= v Saa * v Sbb.
Proof.
  intros kst skip n m nd a b Saa Sbb Sab k Hs Hn Hd HU La Lb Ga Gb Eaa Ebb Eab Hk v.
  assert (Sba : exists s, structure_factor false false kst skip (pair_frames b a) = Ok s /\ v s = v Sab).
  { assert (Na : a <> []) by (intros C; subst a; cbn in La; lia). assert (Nb : b <> []) by (intros C; subst b; cbn in Lb; lia).
    rewrite (pairs_value_var _ _ _ m nd) in Eab; try assumption; try lia; [|rewrite La; assumption].
    rewrite (pairs_value_var _ _ _ m nd); try assumption; try lia; [|rewrite Lb; assumption].
    eexists. split; [reflexivity|]. apply Ok_inj in Eab. rewrite <- Eab. unfold v.
    rewrite !(nth_map_in _ _ _ _ _ 0%nat) by (rewrite seq_length; assumption). cbn [fst].
    rewrite La, Lb, (Rmult_comm (mean_N b)). f_equal. unfold shell_mean_var. f_equal. apply flat_map_ext. intros i. apply map_ext. intros w.
    unfold density_cross. ring. }
  destruct Sba as [sba [Eba Vba]].
  set (S := fun i j : nat => match i, j with O, O => Saa | O, _ => Sab | _, O => sba | _, _ => Sbb end).
  apply psd_two. intros p q.
  assert (F := C95_positive kst skip n m nd [a; b] S (fun i => match i with O => p | _ => q end) k Hs Hn Hd HU).
  cbn [length] in F. rewrite form_two in F. cbn [S] in F. fold (v Saa) (v Sbb) (v Sab) (v sba) in F. rewrite Vba in F.
  eapply Rle_trans; [apply F|right; ring].
  - intros c [<-|[<-|[]]]; auto.
  - intros i j Hi Hj. assert (i = 0 \/ i = 1)%nat as [->| ->] by lia; assert (j = 0 \/ j = 1)%nat as [->| ->] by lia; assumption.
  - assumption.
Qed.
Print Assumptions C95_cauchy_schwarz.

Example C95_nonvacuous : exists Saa Sbb Sab,
  structure_factor true false (fun _ => K43) 1 (pair_frames a44 a44) = Ok Saa /\
  structure_factor true false (fun _ => K43) 1 (pair_frames b44 b44) = Ok Sbb /\
  structure_factor false false (fun _ => K43) 1 (pair_frames a44 b44) = Ok Sab /\
  fst (nth 0 Sab (0, 0)) * fst (nth 0 Sab (0, 0)) <= fst (nth 0 Saa (0, 0)) * fst (nth 0 Sbb (0, 0)).
Proof.
  assert (GA : group_ok 3 a44) by (intros f Hf; destruct Hf as [<-|[<-|[]]]; (split; [discriminate|]); intros x Hx; destruct Hx as [<-|[]]; reflexivity).
  assert (GB : group_ok 3 b44) by (intros f Hf; destruct Hf as [<-|[<-|[]]]; (split; [discriminate|]); intros x Hx; destruct Hx as [<-|[]]; reflexivity).
  assert (E : forall same a b, group_ok 3 a -> group_ok 3 b -> a <> [] -> length a = length b -> (same = true -> b = a) ->
    exists s, structure_factor same false (fun _ => K43) 1 (pair_frames a b) = Ok s).
  { intros same a b G1 G2 Na L Hb. rewrite pairs_value; try assumption; [eauto|apply K43_usable|lia|right; right; reflexivity]. }
  destruct (E true a44 a44) as [s1 E1]; try assumption; try discriminate; [reflexivity|auto|].
  destruct (E true b44 b44) as [s2 E2]; try assumption; try discriminate; [reflexivity|auto|].
  destruct (E false a44 b44) as [s3 E3]; try assumption; try discriminate; [reflexivity|].
  exists s1, s2, s3. repeat split; try assumption.
  refine (proj2 (proj2 (C95_cauchy_schwarz (fun _ => K43) 1 2 1 3 a44 b44 s1 s2 s3 0 _ _ _ _ _ _ _ _ _ _ _ _))); auto.
  intros i _. split; [apply K43_usable|]. split; reflexivity.
Qed.
