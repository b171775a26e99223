(** Decimation, copying of wave-vectors, table indices. *)
From Coq Require Import List ZArith Bool Arith Reals Lra Lia Permutation.
From Verif Require Import PyBase PyBaseFacts Num NumFacts M_Helpers M_KGrid Spec_Stats Spec_BondAngle
  P_BondAngle Spec_KGrid P_KGrid P_KGrid2 P_KGrid3.
Import ListNotations.
Local Open Scope R_scope.

Lemma nth_map_const : forall X (d : R) (l : list X) i, (i < length l)%nat -> nth i (map (fun _ => d) l) 0 = d.
Proof. intros X d l. induction l as [|x r IH]; intros [|i] H; cbn in *; try lia; auto. apply IH. lia. Qed.

(** ** Shells *)
Lemma shells_spec : forall fuel dk (kgrid k0 : list R) kvec off, posk k0 -> (forall k, In k kgrid -> 0 <= k) -> 0 < dk ->
  setup_grid_sphere Rops fuel (map (fun _ => dk) kgrid) kgrid k0 = Ok (kvec, off) ->
  exists dks, length dks = length kgrid /\ (forall d, In d dks -> exists w : nat, d = dk * (12 / 10) ^ w) /\
    length kvec = length kgrid /\ (length k0 = 2 \/ length k0 = 3)%nat /\
    (forall i shell, nth_error kvec i = Some shell -> shell <> [] /\ NoDup shell /\
       forall t, In t shell <->
         (length t = length k0 /\ in_shell kgrid dks (wave k0 (unshift off t)) i /\
          norm (wave k0 (unshift off t)) <= last kgrid 0 + last dks 0)) /\
    (forall i shell t z, nth_error kvec i = Some shell -> In t shell -> In z t -> (0 <= z <= 2 * off)%Z).
Proof.
  intros fuel dk kgrid k0 kvec off Pk Pg Pd H.
  apply setup_grid_result in H; [|apply map_length].
  destruct H as [dks [[L W] [P N]]]. rewrite map_length in L, W.
  apply pass_In in P. destruct P as [kl [dl [km [E1 [E2 [E3 [E4 [Lk [D [ND IN]]]]]]]]]].
  exists dks. split; [assumption|].
  assert (Wd : forall d, In d dks -> exists w : nat, d = dk * (12 / 10) ^ w).
  { intros d Hd. apply In_nth with (d := 0) in Hd. destruct Hd as [i [Hi Hd]].
    destruct (W i ltac:(lia)) as [w Hw]. exists w. rewrite nth_map_const in Hw by lia. congruence. }
  split; [assumption|]. split; [assumption|]. split; [assumption|].
  apply getZ_last in E1. apply getZ_last in E2.
  destruct E1 as [N1 [A1 B1]], E2 as [N2 [A2 B2]].
  assert (LK : last kgrid 0 = kl).
  { destruct (exists_last N1) as [l' [a ->]]. rewrite last_last in *. congruence. }
  assert (LD : last dks 0 = dl).
  { destruct (exists_last N2) as [l' [a ->]]. rewrite last_last in *. congruence. }
  assert (K0 : 0 <= kl) by (apply Pg; eapply nth_error_In; eassumption).
  assert (D0 : 0 < dl).
  { destruct (Wd dl) as [w ->]; [eapply nth_error_In; eassumption|].
    apply Rmult_lt_0_compat; [assumption|]. apply pow_lt. lra. }
  rewrite LK, LD. apply kmin0_R in E3. destruct E3 as [I3 M3].
  assert (IN' : forall i t, In t (nth i kvec []) <->
      (length t = length k0 /\ in_shell kgrid dks (wave k0 (unshift off t)) i /\
       norm (wave k0 (unshift off t)) <= kl + dl)).
  { intros i t. rewrite IN. rewrite (Rabs_pos_eq (kl + dl)) by lra. split.
    - intros [[Lt _] [Nt St]]. rewrite unshift_length in Lt. tauto.
    - intros [Lt [St Nt]]. split; [|tauto]. rewrite E4. apply cube_cover; try assumption.
      + rewrite unshift_length. assumption.
      + rewrite <- E4. assumption. }
  assert (NTH : forall i shell, nth_error kvec i = Some shell -> nth i kvec [] = shell /\ (i < length kgrid)%nat).
  { intros i shell Hi. split; [apply nth_error_nth; assumption|].
    rewrite <- Lk. apply nth_error_Some. congruence. }
  split.
  - intros i shell Hi. destruct (NTH i shell Hi) as [<- Hb].
    split; [apply N; assumption|]. split; [apply ND|apply IN'].
  - intros i shell t z Hi Ht Hz. destruct (NTH i shell Hi) as [<- _].
    apply IN in Ht. destruct Ht as [[_ F] _]. rewrite Forall_forall in F.
    assert (B := F (z - off)%Z (in_map (fun i => (i - off)%Z) t z Hz)). cbn in B. lia.
Qed.

Lemma ascending_last : forall l x, ascending l -> In x l -> x <= last l 0.
Proof.
  intros l x Ha Hx. destruct l as [|a r] eqn:E; [destruct Hx|]. rewrite <- E in *.
  assert (N : l <> []) by congruence. destruct (exists_last N) as [l' [b El]].
  rewrite El, last_last. apply In_nth_error in Hx. destruct Hx as [i Hi].
  assert (Lb : nth_error l (length l') = Some b).
  { rewrite El. rewrite nth_error_app2 by lia. replace (length l' - length l')%nat with 0%nat by lia. reflexivity. }
  assert (B : (i < length l)%nat) by (apply nth_error_Some; congruence).
  rewrite El, app_length in B. cbn in B.
  destruct (Nat.eq_dec i (length l')) as [->|].
  - rewrite Lb in Hi. injection Hi as ->. lra.
  - apply (Ha i (length l') x b); [lia|assumption|assumption].
Qed.

Lemma last_map_const : forall X (d : R) (l : list X), l <> [] -> last (map (fun _ => d) l) 0 = d.
Proof.
  intros X d l H. destruct (exists_last H) as [l' [a ->]]. rewrite map_app. cbn. apply last_last.
Qed.

Lemma complete_shells : forall fuel dk (kgrid k0 : list R), posk k0 -> (forall k, In k kgrid -> 0 <= k) -> 0 < dk ->
  (length k0 = 2 \/ length k0 = 3)%nat -> kgrid <> [] -> ascending kgrid ->
  (forall i, (i < length kgrid)%nat -> exists n, length n = length k0 /\ in_shell kgrid (map (fun _ => dk) kgrid) (wave k0 n) i) ->
  exists kvec off, setup_grid_sphere Rops (S fuel) (map (fun _ => dk) kgrid) kgrid k0 = Ok (kvec, off) /\
    forall i shell, nth_error kvec i = Some shell -> forall t, In t shell <->
      (length t = length k0 /\ in_shell kgrid (map (fun _ => dk) kgrid) (wave k0 (unshift off t)) i).
Proof.
  intros fuel dk kgrid k0 Pk Pg Pd D Hne Asc Pop.
  set (dks := map (fun _ => dk) kgrid) in *.
  assert (Ldk : length dks = length kgrid) by apply map_length.
  destruct (pass_ok k0 kgrid dks Pk D Hne Ldk dks Ldk) as [kvec [off P]].
  pose proof P as P0. apply pass_In in P. destruct P as [kl [dl [km [E1 [E2 [E3 [E4 [Lk [_ [ND IN]]]]]]]]]].
  assert (LK : last kgrid 0 = kl).
  { apply getZ_last in E1. destruct E1 as [N1 [A1 B1]].
    destruct (exists_last N1) as [l' [a ->]]. rewrite last_last in *. congruence. }
  assert (LD : dl = dk).
  { apply getZ_last in E2. destruct E2 as [N2 [A2 B2]]. unfold dks in *.
    rewrite <- (last_map_const _ dk kgrid Hne). destruct (exists_last N2) as [l' [a Ea]].
    rewrite Ea in *. rewrite last_last in *. congruence. }
  assert (K0 : 0 <= kl).
  { apply Pg. apply getZ_last in E1. destruct E1 as [_ [_ B1]]. eapply nth_error_In; eassumption. }
  apply kmin0_R in E3. destruct E3 as [I3 M3].
  assert (IN' : forall i t, In t (nth i kvec []) <->
      (length t = length k0 /\ in_shell kgrid dks (wave k0 (unshift off t)) i)).
  { intros i t. rewrite IN. subst dl. rewrite (Rabs_pos_eq (kl + dk)) by lra. split.
    - intros [[Lt _] [Nt St]]. rewrite unshift_length in Lt. tauto.
    - intros [Lt St].
      assert (Nt : norm (wave k0 (unshift off t)) <= kl + dk).
      { destruct St as [[k [d [Hk [Hd Hw]]]] _]. unfold within in Hw.
        assert (Ed : d = dk).
        { unfold dks in Hd. apply nth_error_In in Hd. apply in_map_iff in Hd. destruct Hd as [? [Hd _]]. congruence. }
        subst d. apply nth_error_In in Hk. pose proof (ascending_last kgrid k Asc Hk).
        apply Rabs_def2 in Hw. lra. }
      split; [|tauto]. rewrite E4. apply cube_cover; try assumption.
      + rewrite unshift_length. assumption.
      + rewrite <- E4. assumption. }
  exists kvec, off. split.
  - apply setup_grid_first; [assumption|]. intros i Hi C. destruct (Pop i Hi) as [n [Ln Sn]].
    assert (X : In (map (fun z => (z + off)%Z) n) (nth i kvec [])).
    { apply IN'. rewrite map_length, unshift_shift. tauto. }
    rewrite C in X. destruct X.
  - intros i shell Hi t. rewrite <- IN'. apply nth_error_nth with (d := []) in Hi. rewrite Hi. tauto.
Qed.

(** ** Decimation *)
(** [random.sample(l, n)] returns [n] entries of [l] at distinct positions. *)
Definition sampler_ok (g : rng) : Prop :=
  forall s l n, (n <= length l)%nat ->
    length (fst (rng_sample g s l n)) = n /\ exists rest, Permutation l (fst (rng_sample g s l n) ++ rest).

Lemma decimate_spec : forall (g : rng) nk kvec s out s', sampler_ok g ->
  decimate g nk s kvec = Ok (out, s') ->
  Forall2 (fun kept shell => Z.of_nat (length kept) = Z.min nk (Z.of_nat (length shell)) /\
                             exists rest, Permutation shell (kept ++ rest)) out kvec.
Proof.
  intros g nk kvec s out s' G H.
  assert (K : forall kvec acc s, (forall r, 
     foldM (fun (st : list (list (list Z)) * rng_state g) klist =>
           let n := Z.min nk (Z.of_nat (length klist)) in
           if (n <? 0)%Z then Err ValueError
           else let r := rng_sample g (snd st) klist (Z.to_nat n) in
                Ok (fst st ++ [fst r], snd r)) (acc, s) kvec = Ok r ->
     exists out, fst r = acc ++ out /\ Forall2 (fun kept shell => Z.of_nat (length kept) = Z.min nk (Z.of_nat (length shell)) /\
                             exists rest, Permutation shell (kept ++ rest)) out kvec)).
  { clear - G. intros kvec. induction kvec as [|sh kr IH]; intros acc s r H.
    - apply Ok_inj in H. subst r. exists []. cbn. rewrite app_nil_r. auto.
    - apply bind_Ok_inv in H. destruct H as [st [H1 H2]].
      destruct (Z.ltb_spec (Z.min nk (Z.of_nat (length sh))) 0) as [C|C]; [discriminate|].
      apply Ok_inj in H1. subst st. cbn [fst snd] in H2.
      apply IH in H2. destruct H2 as [out [E F]].
      destruct (G s sh (Z.to_nat (Z.min nk (Z.of_nat (length sh))))) as [L [rest R]]; [lia|].
      exists (fst (rng_sample g s sh (Z.to_nat (Z.min nk (Z.of_nat (length sh))))) :: out).
      split.
      + rewrite E. rewrite <- app_assoc. reflexivity.
      + constructor; [|assumption]. split; [|eauto]. rewrite L. lia. }
  unfold decimate in H. apply K in H. destruct H as [o [E F]]. cbn in E. subst o. assumption.
Qed.

(** ** The setter *)
Lemma k_norm_R : forall (k0 : list R) off t, k_norm Rops t k0 off = norm (wave k0 (unshift off t)).
Proof. intros. unfold k_norm, norm. cbn [nsqrt Rops]. rewrite self_dot_R. reflexivity. Qed.

Lemma mean_norm_R : forall (k0 : list R) off l,
  mean_norm Rops k0 off l = rmean (map (fun t => norm (wave k0 (unshift off t))) l).
Proof.
  intros k0 off l. unfold mean_norm, rmean. rewrite nmean_R. rewrite !map_length.
  f_equal. f_equal. apply map_ext. intros; apply k_norm_R.
Qed.

Lemma kvectors_R : forall st : kstate Rops, kvectors Rops st =
  map (map (fun t => wave (ks_k0 st) (unshift (ks_offset st) t))) (ks_vectors st).
Proof. reflexivity. Qed.

Lemma round_wave : forall (k0 : list R) n, posk k0 -> length n = length k0 ->
  round_kvec Rops k0 (wave k0 n) = Ok n.
Proof.
  intros k0 n Pk L. unfold round_kvec.
  assert (LW : length (wave k0 n) = length k0).
  { unfold wave. rewrite map_length, combine_length. lia. }
  change (num Rops) with R in *. rewrite LW, Nat.eqb_refl.
  clear LW. revert n L. induction k0 as [|k r IH]; intros [|z n] L; cbn in L; try lia; [reflexivity|].
  cbn [wave combine map fst snd]. cbn [mapM].
  assert (Hk : 0 < k) by (apply Pk; left; reflexivity).
  eapply bind_intro with (a := z).
  - cbn [fst snd nrint ndiv Rops]. replace (k * IZR z / k) with (IZR z) by (field; lra).
    rewrite Rrint_IZR. reflexivity.
  - eapply bind_intro with (a := n); [|reflexivity]. apply IH; [|lia].
    intros x Hx. apply Pk. right. assumption.
Qed.

Lemma round_all : forall (k0 : list R) ns, posk k0 -> (forall l n, In l ns -> In n l -> length n = length k0) ->
  mapM (mapM (round_kvec Rops k0)) (map (map (wave k0)) ns) = Ok ns.
Proof.
  intros k0 ns Pk L. induction ns as [|l r IH]; [reflexivity|]. cbn [map mapM].
  eapply bind_intro with (a := l).
  - assert (Ll : forall n, In n l -> length n = length k0) by (intros; eapply L; [left; reflexivity|assumption]).
    clear - Pk Ll. induction l as [|n l IH]; [reflexivity|]. cbn [map mapM].
    eapply bind_intro; [apply round_wave; [assumption|apply Ll; left; reflexivity]|].
    eapply bind_intro; [apply IH; intros; apply Ll; right; assumption|]. reflexivity.
  - eapply bind_intro; [apply IH; intros l' n Hl; apply L; right; assumption|]. reflexivity.
Qed.

Lemma fold_min_le : forall l x, (fold_left Z.min l x <= x)%Z /\ (forall z, In z l -> (fold_left Z.min l x <= z)%Z) /\
  (fold_left Z.min l x = x \/ In (fold_left Z.min l x) l).
Proof.
  intros l. induction l as [|y r IH]; intros x; cbn; [split; [lia|split; [tauto|auto]]|].
  destruct (IH (Z.min x y)) as [A [B C]]. split; [lia|]. split.
  - intros z [->|H]; [lia|apply B; assumption].
  - destruct C as [C|C]; [|auto]. destruct (Z.min_spec x y) as [[? E]|[? E]]; rewrite E in *; [auto|].
    right. left. congruence.
Qed.

(** The smallest component, or 0. *)
Lemma shift_fold : forall vs : list (list Z), (forall v, In v vs -> v <> []) -> forall s0, (s0 <= 0)%Z ->
  exists s, foldM (fun s v => m <- min_list v ;; Ok (Z.min s m)) s0 vs = Ok s /\ (s <= s0)%Z /\
    (forall v z, In v vs -> In z v -> (s <= z)%Z) /\ (s = s0 \/ exists v, In v vs /\ In s v).
Proof.
  intros vs. induction vs as [|v r IH]; intros Hv s0 H0.
  - exists s0. split; [reflexivity|]. split; [lia|]. split; [intros v z []|auto].
  - cbn [foldM]. assert (Nv : v <> []) by (apply Hv; left; reflexivity).
    destruct v as [|x v]; [congruence|]. cbn [min_list bind].
    destruct (fold_min_le v x) as [A [B C]]. set (m := fold_left Z.min v x) in *.
    destruct (IH (fun w H => Hv w (or_intror H)) (Z.min s0 m)) as [s [E [L1 [L2 L3]]]]; [lia|].
    exists s. split; [exact E|]. split; [lia|]. split.
    + intros w z [<-|Hw] Hz; [|eapply L2; eassumption].
      destruct Hz as [->|Hz]; [lia|]. specialize (B z Hz). lia.
    + destruct L3 as [->|[w [Hw Hs]]]; [|right; exists w; split; [right; assumption|assumption]].
      destruct (Z.min_spec s0 m) as [[? E2]|[? E2]]; rewrite E2; [auto|].
      right. exists (x :: v). split; [left; reflexivity|]. destruct C as [C|C]; [left; congruence|right; assumption].
Qed.

(** The smallest integer component of a list of vectors, or 0 if none is negative. *)
Definition lowest (ns : list (list (list Z))) (s : Z) : Prop :=
  (s <= 0)%Z /\ (forall l n z, In l ns -> In n l -> In z n -> (s <= z)%Z) /\
  (s = 0%Z \/ exists l n, In l ns /\ In n l /\ In s n).

Lemma set_kvectors_R : forall tp (side : list R) ns, posk (cell_k0 Rops tp side) ->
  cell_k0 Rops tp side <> [] ->
  (forall l n, In l ns -> In n l -> length n = length (cell_k0 Rops tp side)) ->
  exists s, lowest ns s /\
    set_kvectors Rops tp side (map (map (wave (cell_k0 Rops tp side))) ns) =
      Ok (mkK (A:=Rops) (cell_k0 Rops tp side) (map (map (map (fun n => (n + (Z.abs s + 1))%Z))) ns) (Z.abs s + 1)
           (map (fun l => rmean (map (fun n => norm (wave (cell_k0 Rops tp side) n)) l)) ns)).
Proof.
  intros tp side ns Pk Hne L. set (k0 := cell_k0 Rops tp side) in *.
  destruct (shift_fold (concat ns)) with (s0 := 0%Z) as [s [E [L1 [L2 L3]]]]; [|lia|].
  { intros v Hv C. apply in_concat in Hv. destruct Hv as [l [Hl Hv]]. specialize (L l v Hl Hv).
    subst v. cbn in L. destruct k0; [congruence|discriminate]. }
  exists s. split.
  - split; [assumption|]. split.
    + intros l n z Hl Hn Hz. apply (L2 n z); [|assumption]. apply in_concat. eauto.
    + destruct L3 as [->|[v [Hv Hs]]]; [auto|]. right. apply in_concat in Hv. destruct Hv as [l [Hl Hv]]. eauto.
  - unfold set_kvectors. fold k0. eapply bind_intro; [apply round_all; assumption|].
    eapply bind_intro; [exact E|]. cbv zeta. f_equal. f_equal.
    rewrite map_map. apply map_ext. intros l. rewrite mean_norm_R. rewrite map_map.
    f_equal. apply map_ext. intros n. rewrite unshift_shift. reflexivity.
Qed.
