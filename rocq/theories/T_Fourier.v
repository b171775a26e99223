(** Theorems on tabulated exponentials, the structure factor and variable cells:
    C36, C43-C45, C49, C68. *)
From Coq Require Import List ZArith Bool Arith Reals Lra Lia Permutation.
From Verif Require Import PyBase PyBaseFacts Num NumFacts M_Helpers M_KGrid M_Fourier Spec_Stats
  Spec_BondAngle P_BondAngle Spec_KGrid P_KGrid P_KGrid2 P_KGrid3 P_KGrid4 P_Expo Spec_Fourier Spec_Correlation
  P_Sk P_Sk2 P_Sk3.
Import ListNotations.
Local Open Scope R_scope.

(** ** C36 *)
(** For every nk >= 1 and every array of positions whose rows are no longer than
    k0, the table exists, has one row of 2*nk+1 entries per particle and
    dimension, and entry nk+n is (cos, sin) (n k0_j x_j). *)
Theorem C36_table : forall k0 nk (pos : list (list (list R))), (1 <= nk)%Z -> pos <> [] ->
  (forall f x, In f pos -> In x f -> (length x <= length k0)%nat) ->
  exists tab, expo_frames k0 nk pos = Ok tab /\ length tab = length pos /\
    forall i f p x j n, nth_error pos i = Some f -> nth_error f p = Some x -> (j < length x)%nat -> (- nk <= n <= nk)%Z ->
      exists tf tp row, nth_error tab i = Some tf /\ nth_error tf p = Some tp /\ nth_error tp j = Some row /\
        length tp = length x /\ length row = Z.to_nat (2 * nk + 1) /\
        getZ row (nk + n) = Ok (cos (IZR n * (nth j k0 0 * nth j x 0)), sin (IZR n * (nth j k0 0 * nth j x 0))).
Proof.
  intros k0 nk pos Hn Hp L. destruct (expo_frames_ok k0 nk pos Hn Hp L) as [tab [E F]].
  exists tab. split; [assumption|]. split; [symmetry; eapply Forall2_len; exact F|].
  intros i f p x j n Hf Hx Hj Hb.
  assert (FN : forall X Y (P : X -> Y -> Prop) l m, Forall2 P l m -> forall i a, nth_error l i = Some a ->
            exists b, nth_error m i = Some b /\ P a b).
  { clear. intros X Y P l m F. induction F as [|a b l m Hab F IH]; intros [|i] c Hc; try discriminate.
    - injection Hc as <-. exists b. auto.
    - apply (IH i c Hc). }
  destruct (FN _ _ _ _ _ F i f Hf) as [tf [Etf Ff]]. destruct (FN _ _ _ _ _ Ff p x Hx) as [tp [Etp [Ltp R]]].
  destruct (R j n Hj Hb) as [Lr Er].
  assert (Hjt : (j < length tp)%nat) by lia.
  exists tf, tp, (nth j tp []). split; [assumption|]. split; [assumption|].
  split; [apply nth_error_nth'; assumption|]. split; [assumption|]. split; [rewrite Lr; f_equal; lia|].
  rewrite (getZ_pos C _ _ c0) by (rewrite Lr; lia). rewrite Er. unfold cis. do 2 f_equal; f_equal; ring.
Qed.
Print Assumptions C36_table.

(** The variant that works out the size of the table from kmax gives the same. *)
Theorem C36_safe : forall k0 kmax km (pos : list (list (list R))), kmin0 Rops k0 = Ok km -> pos <> [] ->
  expo_frames_safe k0 kmax pos = expo_frames k0 (1 + Rtrunc (kmax / km)) pos.
Proof.
  intros k0 kmax km pos E Hp. unfold expo_frames_safe, expo_frames.
  change (num Rops) with R in *. rewrite E. cbn [bind]. destruct pos; [congruence|reflexivity].
Qed.
Print Assumptions C36_safe.

Example C36_nonvacuous : exists tab row, expo_frames [2; 3] 2 [[[5; 7]; [1; 0]]] = Ok tab /\
  nth_error (nth 0 (nth 0 tab []) []) 1 = Some row /\ getZ row 0 = Ok (cos (-2 * (3 * 7)), sin (-2 * (3 * 7))).
Proof.
  destruct (C36_table [2; 3] 2 [[[5; 7]; [1; 0]]]) as [tab [E [_ H]]]; [lia|congruence| |].
  { intros f x [<-|[]] [<-|[<-|[]]]; cbn; lia. }
  destruct (H 0%nat _ 0%nat [5; 7] 1%nat (-2)%Z eq_refl eq_refl) as [tf [tp [row [E1 [E2 [E3 [_ [_ G]]]]]]]]; [cbn; lia|lia|].
  exists tab, row. split; [exact E|]. split; [|exact G].
  rewrite (nth_error_nth _ _ _ E1), (nth_error_nth _ _ _ E2). exact E3.
Qed.

(** ** C43 *)
(** One group of particles without weights: per shell, the value is the average of
    |sum_p exp(i k.r_p)|^2 over the frames used and the vectors of the shell,
    divided by the average number of particles over all frames. *)
Theorem C43_value : forall K skip (a : list (list (list R))),
  usable K -> (1 <= skip)%nat -> a <> [] -> group_ok (length (ks_k0 K)) a ->
  structure_factor true false (fun _ => K) skip (pair_frames a a) =
  Ok (map (fun vs => let m := shell_mean (fun v i => density_sq v (nth i a [])) skip (length a) vs in
                     (m / mean_N a, m)) (kvectors Rops K)).
Proof.
  intros K skip a U Hs Ha Ga. rewrite pairs_value; auto.
  f_equal. apply map_ext. intros vs. cbv zeta. f_equal. f_equal.
  apply sqrt_square. unfold mean_N, rmean. apply Rmult_le_pos.
  - apply rsum_nonneg. intros x Hx. apply in_map_iff in Hx. destruct Hx as [f [<- _]]. apply pos_INR.
  - rewrite map_length. apply Rlt_le, Rinv_0_lt_compat, INR_pos_length. assumption.
Qed.
Print Assumptions C43_value.

(** The wave-vectors selected by the code for the cell are usable ... *)
Theorem C43_selected : forall fuel tp (g : rng) p (side : list R) s grid st u s',
  (forall L, In L side -> 0 < L) -> 0 < tp -> sampler_ok g -> (1 <= kp_nk Rops p)%Z ->
  setup Rops fuel tp g p side s grid = Ok (st, u, s') -> usable st /\ length (ks_k0 st) = length side.
Proof.
  intros fuel tp g p side s grid st u s' Hs Ht G Hn H.
  destruct (setup_usable fuel tp g p side s grid st u s') as [U [E D]]; try assumption.
  - intros k Hk. apply in_map_iff in Hk. destruct Hk as [L [<- HL]]. cbn. apply Rdiv_lt_0_compat; auto.
  - split; [assumption|]. rewrite E. apply map_length.
Qed.
Print Assumptions C43_selected.

(** ... and so are those given by the user, under the condition of C41. *)
Theorem C43_assigned : forall tp (side : list R) ns, (forall k, In k (cell_k0 Rops tp side) -> 0 < k) -> side <> [] ->
  (forall l n, In l ns -> In n l -> length n = length side) -> (forall l, In l ns -> l <> []) ->
  (forall s l n z, lowest ns s -> In l ns -> In n l -> In z n -> (z <= - s + 1)%Z) ->
  exists q, set_kvectors Rops tp side (map (map (wave (cell_k0 Rops tp side))) ns) = Ok q /\ usable q.
Proof. exact set_kvectors_usable. Qed.
Print Assumptions C43_assigned.

Lemma shell_mean_nonneg : forall s skip n vs, (forall v i, In v vs -> (i < n)%nat -> 0 <= s v i) ->
  0 <= shell_mean s skip n vs.
Proof.
  intros s skip n vs H. unfold shell_mean, rmean.
  set (l := flat_map _ _). assert (N : 0 <= rsum l).
  { apply rsum_nonneg. intros x Hx. unfold l in Hx. apply in_flat_map in Hx. destruct Hx as [i [Hi Hx]].
    apply in_map_iff in Hx. destruct Hx as [v [<- Hv]]. apply H; [assumption|eapply origins_lt; eassumption]. }
  destruct l as [|x r]; [cbn; unfold Rdiv; lra|].
  apply Rmult_le_pos; [assumption|]. apply Rlt_le, Rinv_0_lt_compat, INR_pos_length. congruence.
Qed.

Lemma shell_mean_const : forall c skip n vs, vs <> [] -> (1 <= skip)%nat -> (1 <= n)%nat -> shell_mean (fun _ _ => c) skip n vs = c.
Proof.
  intros c skip n vs Hv Hs Hn. unfold shell_mean, rmean.
  set (l := flat_map _ _).
  assert (Nl : l <> []).
  { unfold l. pose proof (origins_nonempty skip n Hs Hn). destruct (origins 0 skip n); [congruence|].
    destruct vs; [congruence|discriminate]. }
  assert (E : map (fun _ : R => c) l = l).
  { unfold l. rewrite map_flat_map. apply flat_map_ext. intros i. rewrite map_map. reflexivity. }
  rewrite <- E at 1. rewrite rsum_const. field. apply Rgt_not_eq. apply INR_pos_length. assumption.
Qed.

Lemma nth_error_map_inv : forall X Y (f : X -> Y) l k y, nth_error (map f l) k = Some y ->
  exists x, nth_error l k = Some x /\ y = f x.
Proof.
  intros X Y f l k y H. rewrite nth_error_map in H. destruct (nth_error l k) as [x|]; [|discriminate H].
  injection H as <-. exists x. auto.
Qed.

Theorem C43_nonneg : forall K skip (a : list (list (list R))) r k v w,
  usable K -> (1 <= skip)%nat -> a <> [] -> group_ok (length (ks_k0 K)) a ->
  structure_factor true false (fun _ => K) skip (pair_frames a a) = Ok r ->
  nth_error r k = Some (v, w) -> 0 <= v /\ 0 <= w.
Proof.
  intros K skip a r k v w U Hs Ha Ga H Hk. rewrite C43_value in H by assumption. apply Ok_inj in H. subst r.
  apply nth_error_map_inv in Hk. destruct Hk as [vs [Evs Ek]].
  cbv zeta in Ek. injection Ek as -> ->.
  assert (N : 0 <= shell_mean (fun v i => density_sq v (nth i a [])) skip (length a) vs)
    by (apply shell_mean_nonneg; intros; apply density_sq_nonneg).
  split; [|assumption]. apply Rmult_le_pos; [assumption|].
  assert (P : 0 < mean_N a); [|apply Rlt_le, Rinv_0_lt_compat; assumption].
  unfold mean_N, rmean. rewrite map_length. apply Rdiv_lt_0_compat; [|apply INR_pos_length; assumption].
  destruct a as [|f r]; [congruence|]. cbn [map rsum].
  assert (0 < INR (length f)) by (apply INR_pos_length; apply (Ga f); left; reflexivity).
  assert (0 <= rsum (map (fun f => INR (length f)) r)); [|lra].
  apply rsum_nonneg. intros x Hx. apply in_map_iff in Hx. destruct Hx as [? [<- _]]. apply pos_INR.
Qed.
Print Assumptions C43_nonneg.

(** Displacing all the particles of each frame by a vector of that frame changes
    neither the total nor the cross structure factors. *)
Theorem C43_translation : forall same K skip (a b : list (list (list R))) ds,
  usable K -> (1 <= skip)%nat -> a <> [] -> length a = length b ->
  group_ok (length (ks_k0 K)) a -> group_ok (length (ks_k0 K)) b -> (same = true -> b = a) ->
  (same = true \/ length (ks_k0 K) = 2%nat \/ length (ks_k0 K) = 3%nat) ->
  length ds = length a -> (forall d, In d ds -> length d = length (ks_k0 K)) ->
  let move g := map (fun p => translate (fst p) (snd p)) (combine ds g) in
  structure_factor same false (fun _ => K) skip (pair_frames (move a) (move b)) =
  structure_factor same false (fun _ => K) skip (pair_frames a b).
Proof.
  intros same K skip a b ds U Hs Ha Lab Ga Gb Hsame Hd Ld Dd move. change (num Rops) with R in *.
  assert (ML : forall g, length g = length a -> length (move g) = length a)
    by (intros g Lg; unfold move; rewrite map_length, combine_length; lia).
  assert (MG : forall g, group_ok (length (ks_k0 K)) g -> group_ok (length (ks_k0 K)) (move g)).
  { intros g Gg f Hf. unfold move in Hf. apply in_map_iff in Hf. destruct Hf as [[d x] [<- Hdx]]. cbn [fst snd].
    destruct (Gg x (in_combine_r _ _ _ _ Hdx)) as [Nx Lx]. specialize (Dd d (in_combine_l _ _ _ _ Hdx)).
    split; [destruct x; [congruence|discriminate]|].
    intros y Hy. unfold translate in Hy. apply in_map_iff in Hy. destruct Hy as [z [<- Hz]].
    unfold vplus. rewrite map_length, combine_length, (Lx z Hz), Dd. apply Nat.min_id. }
  assert (MN : forall g i, length g = length a -> (i < length a)%nat -> nth i (move g) [] = translate (nth i ds []) (nth i g [])).
  { intros g i Lg Hi. unfold move.
    change (@nil (list R)) with ((fun p => translate (fst p) (snd p)) ([], [])) at 1.
    rewrite map_nth, combine_nth2 by lia. reflexivity. }
  assert (MM : forall g, length g = length a -> mean_N (move g) = mean_N g).
  { intros g Lg. unfold mean_N. f_equal. unfold move. rewrite map_map.
    assert (length ds = length g) as L2 by lia. clear - L2. revert g L2. induction ds as [|d ds IH]; intros [|f g] L; try discriminate; [reflexivity|].
    cbn [combine map fst snd]. rewrite IH by (cbn in L; lia). unfold translate at 1. rewrite map_length. reflexivity. }
  rewrite !pairs_value; auto.
  - rewrite (ML a), !MM by auto. f_equal. apply map_ext_in. intros vs Hvs. cbv zeta.
    assert (E : shell_mean (fun v i => density_cross v (nth i (move a) []) (nth i (move b) [])) skip (length a) vs =
                shell_mean (fun v i => density_cross v (nth i a []) (nth i b [])) skip (length a) vs).
    { apply shell_mean_ext. intros v i Hv Hi. rewrite !MN by (auto || lia).
      rewrite kvectors_R in Hvs. apply in_map_iff in Hvs. destruct Hvs as [kl [<- Hkl]].
      apply in_map_iff in Hv. destruct Hv as [t [<- Ht]].
      assert (Lw : length (wave (ks_k0 K) (unshift (ks_offset K) t)) = length (ks_k0 K)).
      { unfold wave. rewrite map_length, combine_length, unshift_length, (us_len K U kl t Hkl Ht). apply Nat.min_id. }
      apply density_cross_translate; rewrite Lw.
      - apply Dd. apply nth_In. lia.
      - apply (group_nth _ _ i Ga). assumption.
      - apply (group_nth _ _ i Gb). lia. }
    rewrite E. reflexivity.
  - intros C. assert (length (move a) = 0%nat) by (rewrite C; reflexivity). rewrite ML in H by reflexivity.
    destruct a; [congruence|discriminate].
  - rewrite !ML by auto. reflexivity.
  - intros E. rewrite (Hsame E). reflexivity.
Qed.
Print Assumptions C43_translation.

(** A single particle: 1 for every shell. *)
Theorem C43_one : forall K skip (xs : list (list R)), usable K -> (1 <= skip)%nat -> xs <> [] ->
  (forall x, In x xs -> length x = length (ks_k0 K)) ->
  structure_factor true false (fun _ => K) skip (pair_frames (map (fun x => [x]) xs) (map (fun x => [x]) xs)) =
  Ok (map (fun _ => (1, 1)) (ks_vectors K)).
Proof.
  intros K skip xs U Hs Hx Lx. rewrite C43_value; try assumption.
  - f_equal. rewrite kvectors_R, map_map. apply map_ext_in. intros kl Hkl. cbv zeta.
    rewrite map_length.
    assert (E : forall vs, vs <> [] -> shell_mean (fun v i => density_sq v (nth i (map (fun x => [x]) xs) [])) skip (length xs) vs = 1).
    { intros vs Hv. rewrite (shell_mean_ext _ (fun _ _ => 1)).
      - apply shell_mean_const; [assumption|assumption|destruct xs; [congruence|cbn; lia]].
      - intros v i _ Hi. rewrite (nth_indep _ [] ((fun x => [x]) [])) by (rewrite map_length; assumption).
        rewrite (map_nth (fun x => [x])). apply density_sq_one. }
    rewrite E.
    + f_equal. unfold mean_N. rewrite map_map. cbn [length INR]. unfold rmean. rewrite rsum_const, map_length.
      field. apply Rgt_not_eq, INR_pos_length. assumption.
    + pose proof (us_nonempty K U kl Hkl). destruct kl; [congruence|discriminate].
  - destruct xs; [congruence|discriminate].
  - intros f Hf. apply in_map_iff in Hf. destruct Hf as [x [<- Hxx]]. split; [discriminate|].
    intros y [<-|[]]. apply Lx. assumption.
Qed.
Print Assumptions C43_one.

(** Never more than the number of particles, when that number is constant. *)
Theorem C43_bound : forall K skip (a : list (list (list R))) r k v w N,
  usable K -> (1 <= skip)%nat -> a <> [] -> group_ok (length (ks_k0 K)) a ->
  (forall f, In f a -> length f = N) ->
  structure_factor true false (fun _ => K) skip (pair_frames a a) = Ok r ->
  nth_error r k = Some (v, w) -> v <= INR N.
Proof.
  intros K skip a r k v w N U Hs Ha Ga HN H Hk. rewrite C43_value in H by assumption. apply Ok_inj in H. subst r.
  apply nth_error_map_inv in Hk. destruct Hk as [vs [Evs Ek]].
  cbv zeta in Ek. injection Ek as -> ->.
  assert (Nvs : vs <> []).
  { apply nth_error_In in Evs. rewrite kvectors_R in Evs. apply in_map_iff in Evs. destruct Evs as [kl [<- Hkl]].
    pose proof (us_nonempty K U kl Hkl). destruct kl; [congruence|discriminate]. }
  assert (La : (1 <= length a)%nat) by (destruct a; [congruence|cbn; lia]).
  assert (B : 0 <= INR N * INR N - shell_mean (fun v i => density_sq v (nth i a [])) skip (length a) vs).
  { rewrite <- (shell_mean_const (INR N * INR N) skip (length a) vs) by assumption.
    replace (shell_mean (fun _ _ => INR N * INR N) skip (length a) vs - shell_mean (fun v i => density_sq v (nth i a [])) skip (length a) vs)
      with (shell_mean (fun v i => INR N * INR N - density_sq v (nth i a [])) skip (length a) vs).
    - apply shell_mean_nonneg. intros v i _ Hi. pose proof (density_sq_le v (nth i a [])) as D.
      rewrite (HN (nth i a [])) in D by (apply nth_In; assumption). lra.
    - unfold shell_mean, rmean. set (o := origins 0 skip (length a)).
      assert (L : forall s : list R -> nat -> R, length (flat_map (fun i => map (fun v => s v i) vs) o) = (length o * length vs)%nat).
      { clear. intros s. induction o as [|i r IH]; [reflexivity|]. cbn. rewrite app_length, map_length, IH. reflexivity. }
      rewrite !L.
      assert (S : forall s s' : list R -> nat -> R, rsum (flat_map (fun i => map (fun v => s v i - s' v i) vs) o) =
                  rsum (flat_map (fun i => map (fun v => s v i) vs) o) - rsum (flat_map (fun i => map (fun v => s' v i) vs) o)).
      { clear. intros s s'. induction o as [|i r IH]; [cbn; ring|]. cbn. rewrite !rsum_app, IH, rsum_minus. ring. }
      rewrite (S (fun _ _ => INR N * INR N) (fun v i => density_sq v (nth i a []))). unfold Rdiv. ring. }
  assert (EN : mean_N a = INR N).
  { unfold mean_N. rewrite (rmean_ext _ _ (fun _ => INR N)) by (intros f Hf; rewrite (HN f Hf); reflexivity).
    unfold rmean. rewrite rsum_const, map_length. field. apply Rgt_not_eq, INR_pos_length. assumption. }
  rewrite EN. assert (PN : 0 < INR N).
  { destruct a as [|f r]; [congruence|]. rewrite <- (HN f) by (left; reflexivity). apply INR_pos_length.
    apply (Ga f). left. reflexivity. }
  apply Rmult_le_reg_r with (INR N); [assumption|]. unfold Rdiv. rewrite Rmult_assoc, Rinv_l by lra. lra.
Qed.
Print Assumptions C43_bound.

(** A cube, the shell of (1,0,0) and (0,-1,0), two frames of two particles. *)
Definition K43 : kstate Rops := mkK (A:=Rops) [1; 1; 1] [[[2; 1; 1]; [1; 0; 1]]]%Z 1 [1].
Definition a43 : list (list (list R)) := [[[0; 0; 0]; [1; 2; 3]]; [[5; 0; 1]; [1; 1; 1]]].
Lemma K43_usable : usable K43.
Proof.
  split; cbn.
  - lia.
  - reflexivity.
  - intros l [<-|[]]. discriminate.
  - intros l t [<-|[]] [<-|[<-|[]]]; reflexivity.
  - intros l t z [<-|[]] [<-|[<-|[]]] Hz; cbn in Hz; lia.
Qed.
Lemma a43_ok : group_ok 3 a43.
Proof.
  intros f [<-|[<-|[]]]; (split; [discriminate|]); intros x [<-|[<-|[]]]; reflexivity.
Qed.
Example C43_nonvacuous : usable K43 /\ group_ok (length (ks_k0 K43)) a43 /\
  exists r, structure_factor true false (fun _ => K43) 1 (pair_frames a43 a43) = Ok r /\ length r = 1%nat.
Proof.
  split; [exact K43_usable|]. split; [exact a43_ok|]. eexists. split.
  - apply C43_value; [exact K43_usable|lia|discriminate|exact a43_ok].
  - reflexivity.
Qed.
Example C43_nonvacuous_setup : exists fuel st u s', setup Rops fuel (2 * PI) (mkRng nat (fun _ => 0%nat) (fun s l n => (firstn n l, S s)))
    (mkP (A:=Rops) (/ 10) 8 (-1) 10 20) [1; 1; 1] 7%nat (Some [7]) = Ok (st, u, s') /\ usable st.
Proof.
  assert (G : sampler_ok (mkRng nat (fun _ => 0%nat) (fun s l n => (firstn n l, S s)))).
  { intros s l n H. cbn. split; [apply firstn_length_le; assumption|].
    exists (skipn n l). rewrite firstn_skipn. apply Permutation_refl. }
  assert (PP : 0 < 2 * PI) by (pose proof PI_RGT_0; lra).
  assert (SS : forall L, In L [1; 1; 1] -> 0 < L) by (cbn; intros L [<-|[<-|[<-|[]]]]; lra).
  destruct (widening_ends (cell_k0 Rops (2 * PI) [1; 1; 1]) [7] (map (fun _ => / 10) [7])) as [f [r H]].
  - intros k Hk. apply in_map_iff in Hk. destruct Hk as [L [<- HL]]. cbn. apply Rdiv_lt_0_compat; auto.
  - right. reflexivity.
  - discriminate.
  - reflexivity.
  - cbn. intros x [<-|[]]. lra.
  - assert (X : exists st u s', setup Rops f (2 * PI) (mkRng nat (fun _ => 0%nat) (fun s l n => (firstn n l, S s)))
      (mkP (A:=Rops) (/ 10) 8 (-1) 10 20) [1; 1; 1] 7%nat (Some [7]) = Ok (st, u, s')).
    { assert (D : forall l acc s, exists d, foldM (fun (st : list (list (list Z)) * nat) klist =>
           let n := Z.min 8 (Z.of_nat (length klist)) in
           if (n <? 0)%Z then Err ValueError
           else Ok (fst st ++ [firstn (Z.to_nat n) klist], S (snd st))) (acc, s) l = Ok d).
      { intros l. induction l as [|sh ks IH]; intros acc s; cbn [foldM]; [eauto|].
        destruct (Z.ltb_spec (Z.min 8 (Z.of_nat (length sh))) 0); [lia|]. cbn [bind]. apply IH. }
      destruct (D (fst r) [] 0%nat) as [d Hd].
      do 3 eexists. eapply bind_intro.
      - eapply bind_intro; [reflexivity|]. cbn [sort_num fold_right insert_num]. cbn [nlt Rops].
        instantiate (1 := [7]). unfold n0. cbn. destruct (Rltb_spec 7 0); [lra|reflexivity].
      - eapply bind_intro; [exact H|]. eapply bind_intro; [exact Hd|]. reflexivity. }
    destruct X as [st [u [s' E]]]. exists f, st, u, s'. split; [exact E|].
    eapply C43_selected; [exact SS|exact PP|exact G| |exact E]. cbn. lia.
Qed.

(** ** C44 *)
Lemma flat_count : forall (s : list R -> nat -> R) vs o,
  length (flat_map (fun i => map (fun v => s v i) vs) o) = (length o * length vs)%nat.
Proof. intros s vs o. induction o as [|i r IH]; [reflexivity|]. cbn. rewrite app_length, map_length, IH. reflexivity. Qed.

Lemma shell_mean_sum : forall X (s : X -> list R -> nat -> R) P skip n vs,
  shell_mean (fun v i => rsum (map (fun p => s p v i) P)) skip n vs = rsum (map (fun p => shell_mean (s p) skip n vs) P).
Proof.
  intros X s P skip n vs. unfold shell_mean, rmean. set (o := origins 0 skip n).
  rewrite flat_count. induction P as [|p P IH].
  - cbn [map rsum]. 
    replace (rsum (flat_map (fun _ : nat => map (fun _ => 0) vs) o)) with 0; [unfold Rdiv; ring|].
    clear. induction o as [|i r IH]; [reflexivity|]. cbn. rewrite rsum_app, <- IH, rsum_const. ring.
  - cbn [map rsum]. rewrite <- IH, flat_count. unfold Rdiv. rewrite <- Rmult_plus_distr_r. f_equal.
    clear. induction o as [|i r IH]; [cbn; ring|]. cbn. rewrite !rsum_app, IH, rsum_plus. ring.
Qed.

Lemma density_cross_flat : forall X v (f : X -> list (list R)) l q,
  density_cross v (flat_map f l) q = rsum (map (fun a => density_cross v (f a) q) l).
Proof.
  intros X v f l q. induction l as [|a r IH].
  - unfold density_cross, rho_re, rho_im. cbn. ring.
  - cbn [flat_map map rsum]. rewrite density_cross_app, IH. reflexivity.
Qed.

Lemma mean_N_pos : forall nd a, a <> [] -> group_ok nd a -> 0 < mean_N a.
Proof.
  intros nd a Ha Ga. unfold mean_N, rmean. rewrite map_length. apply Rdiv_lt_0_compat; [|apply INR_pos_length; assumption].
  destruct a as [|f r]; [congruence|]. cbn [map rsum].
  assert (0 < INR (length f)) by (apply INR_pos_length; apply (Ga f); left; reflexivity).
  assert (0 <= rsum (map (fun f => INR (length f)) r)); [|lra].
  apply rsum_nonneg. intros x Hx. apply in_map_iff in Hx. destruct Hx as [? [<- _]]. apply pos_INR.
Qed.

(** Whatever the number of species: [species] are the positions of the particles of
    each species, frame by frame, and [total] those of all particles in any order.
    Partial structure factors are computed as Partial does: one group for equal
    species, two groups otherwise.  Two or three dimensions; every species is
    present in every frame. *)
Theorem C44_sum_rule_partial : forall K skip (species : list (list (list (list R)))) total S T k,
  usable K -> (1 <= skip)%nat -> (length (ks_k0 K) = 2 \/ length (ks_k0 K) = 3)%nat ->
  total <> [] -> group_ok (length (ks_k0 K)) total ->
  (forall a, In a species -> length a = length total /\ group_ok (length (ks_k0 K)) a) ->
  (forall i, (i < length total)%nat -> Permutation (nth i total []) (flat_map (fun a => nth i a []) species)) ->
  (forall i j, (i < length species)%nat -> (j < length species)%nat ->
     structure_factor (i =? j)%nat false (fun _ => K) skip (pair_frames (nth i species []) (nth j species [])) = Ok (S i j)) ->
  structure_factor true false (fun _ => K) skip (pair_frames total total) = Ok T ->
  (k < length (ks_vectors K))%nat ->
  rsum (map (fun i => rsum (map (fun j =>
      sqrt (mean_N (nth i species []) * mean_N (nth j species [])) * fst (nth k (S i j) (0, 0)))
      (seq 0 (length species)))) (seq 0 (length species))) =
  mean_N total * fst (nth k T (0, 0)).
Proof.
  intros K skip species total S T k U Hs Hd Ht Gt Gs Pm HS HT Hk.
  rewrite C43_value in HT by assumption. apply Ok_inj in HT. subst T.
  set (vs := nth k (kvectors Rops K) []).
  assert (NK : forall f : list (list R) -> R * R, nth k (map f (kvectors Rops K)) (0, 0) = f vs).
  { intros f. rewrite (nth_indep _ (0, 0) (f [])); [apply map_nth|].
    rewrite map_length, kvectors_R, map_length. assumption. }
  rewrite NK. cbn [fst].
  set (dc := fun i j v n => density_cross v (nth n (nth i species []) []) (nth n (nth j species []) [])).
  assert (E : forall i j, (i < length species)%nat -> (j < length species)%nat ->
    sqrt (mean_N (nth i species []) * mean_N (nth j species [])) * fst (nth k (S i j) (0, 0)) =
    shell_mean (dc i j) skip (length total) vs).
  { intros i j Hi Hj. specialize (HS i j Hi Hj).
    destruct (Gs (nth i species [])) as [Li Gi]; [apply nth_In; assumption|].
    destruct (Gs (nth j species [])) as [Lj Gj]; [apply nth_In; assumption|].
    assert (Ni : nth i species [] <> []) by (intros C; rewrite C in Li; destruct total; [congruence|discriminate]).
    assert (Nj : nth j species [] <> []) by (intros C; rewrite C in Lj; destruct total; [congruence|discriminate]).
    rewrite pairs_value in HS; try assumption; try lia.
    - apply Ok_inj in HS. rewrite <- HS, NK. cbn [fst]. rewrite Li. fold (dc i j).
      pose proof (mean_N_pos _ _ Ni Gi). pose proof (mean_N_pos _ _ Nj Gj).
      assert (0 < sqrt (mean_N (nth i species []) * mean_N (nth j species []))) by (apply sqrt_lt_R0, Rmult_lt_0_compat; assumption).
      unfold Rdiv. field. lra.
    - intros C. apply Nat.eqb_eq in C. subst. reflexivity.
  }
  transitivity (rsum (map (fun i => rsum (map (fun j => shell_mean (dc i j) skip (length total) vs) (seq 0 (length species)))) (seq 0 (length species)))).
  { f_equal. apply map_ext_in. intros i Hi. apply in_seq in Hi. f_equal. apply map_ext_in. intros j Hj. apply in_seq in Hj.
    apply E; lia. }
  transitivity (shell_mean (fun v i => density_sq v (nth i total [])) skip (length total) vs).
  2: { pose proof (mean_N_pos _ _ Ht Gt). field. lra. }
  transitivity (rsum (map (fun i => shell_mean (fun v n => rsum (map (fun j => dc i j v n) (seq 0 (length species)))) skip (length total) vs) (seq 0 (length species)))).
  { f_equal. apply map_ext. intros i. symmetry. apply shell_mean_sum. }
  rewrite <- (shell_mean_sum nat (fun i v n => rsum (map (fun j => dc i j v n) (seq 0 (length species))))).
  apply shell_mean_ext. intros v n _ Hn.
  assert (SP : flat_map (fun a => nth n a []) species = flat_map (fun i => nth n (nth i species []) []) (seq 0 (length species))).
  { rewrite (flat_map_concat_map (fun i => nth n (nth i species []) [])).
    rewrite <- (map_map (fun i => nth i species []) (fun a => nth n a [])).
    rewrite <- flat_map_concat_map. f_equal.
    clear. induction species as [|a r IH]; [reflexivity|]. cbn. f_equal. rewrite <- seq_shift, map_map. exact IH. }
  rewrite <- density_sq_cross.
  rewrite (density_cross_perm v _ _ _ (Pm n Hn)), density_cross_sym, (density_cross_perm v _ _ _ (Pm n Hn)), SP.
  rewrite density_cross_flat. f_equal. apply map_ext. intros i.
  rewrite density_cross_sym, density_cross_flat. f_equal. apply map_ext. intros j. unfold dc. apply density_cross_sym.
Qed.
Print Assumptions C44_sum_rule_partial.

(** S_ab = S_ba. *)
Theorem C44_symmetric_partial : forall K skip (a b : list (list (list R))),
  usable K -> (1 <= skip)%nat -> (length (ks_k0 K) = 2 \/ length (ks_k0 K) = 3)%nat -> a <> [] -> length a = length b ->
  group_ok (length (ks_k0 K)) a -> group_ok (length (ks_k0 K)) b ->
  structure_factor false false (fun _ => K) skip (pair_frames a b) =
  structure_factor false false (fun _ => K) skip (pair_frames b a).
Proof.
  intros K skip a b U Hs Hd Ha L Ga Gb. rewrite !pairs_value; auto; try discriminate.
  - f_equal. apply map_ext. intros vs. cbv zeta. rewrite L, (Rmult_comm (mean_N b)).
    rewrite (shell_mean_ext _ (fun v i => density_cross v (nth i b []) (nth i a []))); [reflexivity|].
    intros. apply density_cross_sym.
  - intros ->. destruct a; [congruence|discriminate].
Qed.
Print Assumptions C44_symmetric_partial.

Definition a44 : list (list (list R)) := [[[0; 0; 0]]; [[5; 0; 1]]].
Definition b44 : list (list (list R)) := [[[1; 2; 3]]; [[1; 1; 1]]].
Example C44_nonvacuous : exists S T,
  (forall i j, (i < 2)%nat -> (j < 2)%nat ->
     structure_factor (i =? j)%nat false (fun _ => K43) 1 (pair_frames (nth i [a44; b44] []) (nth j [a44; b44] [])) = Ok (S i j)) /\
  structure_factor true false (fun _ => K43) 1 (pair_frames a43 a43) = Ok T /\
  (forall i, (i < 2)%nat -> Permutation (nth i a43 []) (flat_map (fun a => nth i a []) [a44; b44])).
Proof.
  assert (G : forall i, (i < 2)%nat -> group_ok 3 (nth i [a44; b44] []) /\ length (nth i [a44; b44] []) = 2%nat).
  { intros [|[|i]] Hi; try lia; (split; [|reflexivity]); intros f [<-|[<-|[]]]; (split; [discriminate|]); intros x [<-|[]]; reflexivity. }
  exists (fun i j => match structure_factor (i =? j)%nat false (fun _ => K43) 1 (pair_frames (nth i [a44; b44] []) (nth j [a44; b44] [])) with Ok r => r | Err _ => [] end).
  eexists. split; [|split].
  - intros i j Hi Hj. destruct (G i Hi) as [Gi Li], (G j Hj) as [Gj Lj].
    rewrite pairs_value; [reflexivity|exact K43_usable|lia| |congruence|exact Gi|exact Gj| |right; right; reflexivity].
    + intros C. rewrite C in Li. discriminate.
    + intros C. apply Nat.eqb_eq in C. subst. reflexivity.
  - apply C43_value; [exact K43_usable|lia|discriminate|exact a43_ok].
  - intros [|[|i]] Hi; try lia; apply Permutation_refl.
Qed.

(** In other dimensions (with wave-vectors given by the user) the sum rule fails:
    one dimension, unit cell, A at 0 and B at 1/2, k = 2 pi.  The cross term
    multiplies twice by the exponential of the first dimension: S_AA = S_BB = 1,
    S_AB = 1 and S = 0. *)
Theorem C44_other_dims_refuted : exists K,
  set_kvectors Rops (2 * PI) [1] [[wave (cell_k0 Rops (2 * PI) [1]) [1%Z]]] = Ok K /\
  structure_factor true false (fun _ => K) 1 (pair_frames [[[0]; [/ 2]]] [[[0]; [/ 2]]]) = Ok [(0, 0)] /\
  structure_factor true false (fun _ => K) 1 (pair_frames [[[0]]] [[[0]]]) = Ok [(1, 1)] /\
  structure_factor true false (fun _ => K) 1 (pair_frames [[[/ 2]]] [[[/ 2]]]) = Ok [(1, 1)] /\
  structure_factor false false (fun _ => K) 1 (pair_frames [[[0]]] [[[/ 2]]]) = Ok [(1, 1)] /\
  structure_factor false false (fun _ => K) 1 (pair_frames [[[/ 2]]] [[[0]]]) = Ok [(1, 1)].
Proof.
  assert (PP : 0 < 2 * PI / 1) by (pose proof PI_RGT_0; lra).
  assert (Pk : forall k, In k (cell_k0 Rops (2 * PI) [1]) -> 0 < k) by (cbn; intros k [<-|[]]; exact PP).
  destruct (set_kvectors_R (2 * PI) [1] [[[1%Z]]] Pk) as [s [[S0 [S1 S2]] E]].
  { discriminate. }
  { intros l n [<-|[]] [<-|[]]. reflexivity. }
  assert (s = 0%Z).
  { destruct S2 as [->|[l [m [[<-|[]] [[<-|[]] [Hm|[]]]]]]]; lia. }
  subst s. cbn [Z.abs Z.add] in E.
  match type of E with _ = Ok ?q => set (K := q) in * end. exists K. split; [exact E|].
  assert (U : usable K).
  { split; cbn.
    - lia.
    - reflexivity.
    - intros l [<-|[]]. discriminate.
    - intros l t [<-|[]] [<-|[]]. reflexivity.
    - intros l t z [<-|[]] [<-|[]] [<-|[]]. lia. }
  assert (V : kvectors Rops K = [[[2 * PI / 1 * 1]]]) by (rewrite kvectors_R; reflexivity).
  assert (T0 : 2 * PI / 1 * 1 * 0 + 0 = 0) by field.
  assert (T1 : 2 * PI / 1 * 1 * / 2 + 0 = PI) by field.
  assert (X : forall x y, (x = 0 \/ x = / 2) -> (y = 0 \/ y = / 2) ->
    structure_factor false false (fun _ => K) 1 (pair_frames [[[x]]] [[[y]]]) = Ok [(1, 1)]).
  { intros x y Hx Hy. unfold structure_factor. cbn [length pair_frames combine map py_range].
    assert (Q : forall z, (z = 0 \/ z = / 2) -> exists row, expo_sphere (ks_k0 K) (ks_offset K) [[z]] = Ok [[row]] /\
                getZ row 2 = Ok (cis (2 * PI * z)) /\ (2 * PI * z = 0 \/ 2 * PI * z = PI)).
    { intros z Hz. destruct (expo_sphere_ok (ks_k0 K) (ks_offset K) [[z]]) as [tab [Et Ft]].
      - cbn. lia.
      - discriminate.
      - intros w [<-|[]]. cbn. lia.
      - inversion Ft as [|? rows ? tl [Lr Rr] F2]; subst. inversion F2; subst.
        cbn in Lr. destruct rows as [|row [|]]; try discriminate Lr.
        exists row. split; [exact Et|].
        destruct (Rr 0%nat 1%Z) as [Lrow Erow]; [cbn; lia|cbn; lia|].
        cbn [nth] in Lrow, Erow. split.
        + change 2%Z with (ks_offset K + 1)%Z at 1.
          rewrite (getZ_pos C _ _ c0) by (rewrite Lrow; cbn; lia). rewrite Erow. do 2 f_equal. cbn. field.
        + destruct Hz as [-> | ->]; [left|right]; field. }
    destruct (Q x Hx) as [rx [Ex [Gx Zx]]], (Q y Hy) as [ry [Ey [Gy Zy]]].
    change (py_range 0 1 1) with (Ok [0%nat]). cbn [bind foldM].
    unfold sk_step at 1. cbn [get nth_error bind sf_pos0 sf_pos1 fst snd].
    change (num Rops) with R in *. rewrite Ex, Ey. cbn [bind].
    cbn [K ks_vectors ks_grid map sf_w0 sf_w1].
    change (length (ks_k0 K)) with 1%nat.
    assert (RP : rho_pair false 1 [[rx]] [[ry]] None None [2%Z] = Ok (c1, c1)).
    { unfold rho_pair. cbn [Nat.eqb orb]. unfold density_cross_nd. cbn [length weights repeat Nat.eqb combine mapM fst snd get nth_error bind].
      rewrite Gx, Gy. cbn [bind]. unfold plane_wave. cbn [seq foldM get nth_error bind]. rewrite Gx, Gy. cbn [bind].
      assert (W : forall t, t = 0 \/ t = PI -> csum [cmul (cmul c1 (cis t)) (cis t)] = c1).
      { intros t Ht. unfold csum. cbn [fold_left]. rewrite cadd_0_l, cmul_1_l, cis_add.
        destruct Ht as [-> | ->].
        - rewrite Rplus_0_r. apply cis_0.
        - unfold cis. replace (PI + PI) with (2 * PI) by ring. rewrite cos_2PI, sin_2PI. reflexivity. }
      rewrite (W _ Zx), (W _ Zy). reflexivity. }
    cbn [sk_shells foldM]. change (1 + 1)%Z with 2%Z. rewrite RP. cbn [bind mapM].
    unfold mean_number. rewrite !nmean_R. cbn [map sf_pos0 sf_pos1 fst snd length rsum].
    unfold sk_value, sk_acc0, sk_add. cbn [Nat.eqb bind INR].
    assert (V1 : fst (csub (cdivr (cadd c0 (cmul c1 (cconj c1))) 1) (cdivr (cmul c0 (cconj c0)) (1 * 1))) = 1).
    { cbn. field. }
    cbn [fst snd]. rewrite V1. f_equal. f_equal. f_equal.
    replace ((1 + 0) / 1 * ((1 + 0) / 1)) with 1 by field. rewrite sqrt_1. field. }
  assert (G1 : forall x, group_ok (length (ks_k0 K)) [[[x]]]).
  { intros x f [<-|[]]. split; [discriminate|]. intros z [<-|[]]. reflexivity. }
  assert (O : forall x, structure_factor true false (fun _ => K) 1 (pair_frames [[[x]]] [[[x]]]) = Ok [(1, 1)]).
  { intros x. pose proof (C43_one K 1 [[x]] U) as H. cbn [map] in H. apply H; [lia|discriminate|]. intros z [<-|[]]. reflexivity. }
  split; [|repeat split; auto].
  rewrite C43_value; [|exact U|lia|discriminate|].
  - change (kvectors Rops K) with [[wave (ks_k0 K) (unshift 1 [2%Z])]]. cbn [map].
    assert (D : shell_mean (fun v i => density_sq v (nth i [[[0]; [/ 2]]] [])) 1 (length [[[0]; [/ 2]]]) [wave (ks_k0 K) (unshift 1 [2%Z])] = 0).
    { rewrite (shell_mean_ext _ (fun _ _ => 0)).
      - apply shell_mean_const; [discriminate|lia|cbn; lia].
      - intros v i [<-|[]] Hi. cbn in Hi. assert (i = 0%nat) by lia. subst i. cbn [nth].
        unfold density_sq. rewrite rho_re_unit, rho_im_unit. cbn [map rsum].
        change (wave (ks_k0 K) (unshift 1 [2%Z])) with [2 * PI / 1 * 1]. cbn [dot]. rewrite T0, T1.
        rewrite cos_0, sin_0, cos_PI, sin_PI. ring. }
    cbv zeta. rewrite D. f_equal. f_equal. f_equal. unfold Rdiv. ring.
  - intros f [<-|[]]. split; [discriminate|]. intros z [<-|[<-|[]]]; reflexivity.
Qed.
Print Assumptions C44_other_dims_refuted.

(** ** C45 *)
(** False as stated: in a unit cube, particles at (0,0,0) and (1/2,0,0), and the
    wave-vector (2 pi, 0, 0), the Python version returns 0 and the Fortran one 2. *)
Theorem C45_refuted : exists K,
  set_kvectors Rops (2 * PI) [1; 1; 1] [[wave (cell_k0 Rops (2 * PI) [1; 1; 1]) [1; 0; 0]%Z]] = Ok K /\
  let a := [[[0; 0; 0]; [/ 2; 0; 0]]] in
  structure_factor true false (fun _ => K) 1 (pair_frames a a) = Ok [(0, 0)] /\
  structure_factor_fast (fun _ => K) 1 (pair_frames a a) = Ok [(2, 4)].
Proof.
  assert (PP : 0 < 2 * PI / 1) by (pose proof PI_RGT_0; lra).
  assert (Pk : forall k, In k (cell_k0 Rops (2 * PI) [1; 1; 1]) -> 0 < k) by (cbn; intros k [<-|[<-|[<-|[]]]]; exact PP).
  destruct (set_kvectors_R (2 * PI) [1; 1; 1] [[[1; 0; 0]%Z]] Pk) as [s [[S0 [S1 S2]] E]].
  { discriminate. }
  { intros l n [<-|[]] [<-|[]]. reflexivity. }
  assert (s = 0%Z).
  { destruct S2 as [->|[l [m [[<-|[]] [[<-|[]] [Hm|[Hm|[Hm|[]]]]]]]]]; lia. }
  subst s. cbn [Z.abs Z.add] in E.
  match type of E with _ = Ok ?q => set (K := q) in * end. exists K. split; [exact E|].
  assert (U : usable K).
  { split; cbn.
    - lia.
    - reflexivity.
    - intros l [<-|[]]. discriminate.
    - intros l t [<-|[]] [<-|[]]. reflexivity.
    - intros l t z [<-|[]] [<-|[]] [<-|[<-|[<-|[]]]]; lia. }
  assert (U' : usable (one_less K)).
  { split; cbn.
    - lia.
    - reflexivity.
    - intros l [<-|[]]. discriminate.
    - intros l t [<-|[]] [<-|[]]. reflexivity.
    - intros l t z [<-|[]] [<-|[]] [<-|[<-|[<-|[]]]]; lia. }
  intros a.
  assert (G : group_ok 3 a).
  { intros f [<-|[]]. split; [discriminate|]. intros z [<-|[<-|[]]]; reflexivity. }
  split.
  - rewrite C43_value; [|exact U|lia|discriminate|exact G].
    change (kvectors Rops K) with [[wave (ks_k0 K) (unshift 1 [2; 1; 1]%Z)]]. cbn [map].
    assert (D : shell_mean (fun v i => density_sq v (nth i a [])) 1 (length a) [wave (ks_k0 K) (unshift 1 [2; 1; 1]%Z)] = 0).
    { rewrite (shell_mean_ext _ (fun _ _ => 0)).
      - apply shell_mean_const; [discriminate|lia|cbn; lia].
      - intros v i [<-|[]] Hi. cbn in Hi. assert (i = 0%nat) by lia. subst i. cbn [nth a].
        unfold density_sq. rewrite rho_re_unit, rho_im_unit. cbn [map rsum].
        change (wave (ks_k0 K) (unshift 1 [2; 1; 1]%Z)) with [2 * PI / 1 * 1; 2 * PI / 1 * 0; 2 * PI / 1 * 0]. cbn [dot].
        replace (2 * PI / 1 * 1 * 0 + (2 * PI / 1 * 0 * 0 + (2 * PI / 1 * 0 * 0 + 0))) with 0 by field.
        replace (2 * PI / 1 * 1 * / 2 + (2 * PI / 1 * 0 * 0 + (2 * PI / 1 * 0 * 0 + 0))) with PI by field.
        rewrite cos_0, sin_0, cos_PI, sin_PI. ring. }
    cbv zeta. rewrite D. f_equal. f_equal. f_equal. unfold Rdiv. ring.
  - rewrite (fast_is_one_less K 1 a); [|cbn; lia|lia|reflexivity|exact G| |].
    + rewrite C43_value; [|exact U'|lia|discriminate|exact G].
      change (kvectors Rops (one_less K)) with [[wave (ks_k0 K) (unshift 1 [1; 0; 0]%Z)]]. cbn [map].
      assert (D : shell_mean (fun v i => density_sq v (nth i a [])) 1 (length a) [wave (ks_k0 K) (unshift 1 [1; 0; 0]%Z)] = 4).
      { rewrite (shell_mean_ext _ (fun _ _ => 4)).
        - apply shell_mean_const; [discriminate|lia|cbn; lia].
        - intros v i [<-|[]] Hi. cbn in Hi. assert (i = 0%nat) by lia. subst i. cbn [nth a].
          unfold density_sq. rewrite rho_re_unit, rho_im_unit. cbn [map rsum].
          change (wave (ks_k0 K) (unshift 1 [1; 0; 0]%Z)) with [2 * PI / 1 * 0; 2 * PI / 1 * -1; 2 * PI / 1 * -1]. cbn [dot].
          replace (2 * PI / 1 * 0 * 0 + (2 * PI / 1 * -1 * 0 + (2 * PI / 1 * -1 * 0 + 0))) with 0 by field.
          replace (2 * PI / 1 * 0 * / 2 + (2 * PI / 1 * -1 * 0 + (2 * PI / 1 * -1 * 0 + 0))) with 0 by field.
          rewrite cos_0, sin_0. ring. }
      cbv zeta. rewrite D. f_equal. f_equal. f_equal. unfold mean_N, rmean. cbn. field.
    + intros l t [<-|[]] [<-|[]]. reflexivity.
    + intros l t z [<-|[]] [<-|[]] [<-|[<-|[<-|[]]]]; lia.
Qed.
Print Assumptions C45_refuted.

(** What the Fortran version computes: the structure factor at wave-vectors whose
    integer components are all one less (indices counted from 0 are passed to an
    array counted from 1).  Three dimensions, one group, and no index 0, which
    would be outside the array. *)
Theorem C45_partial : forall K skip (a : list (list (list R))),
  (1 <= ks_offset K)%Z -> (1 <= skip)%nat -> length (ks_k0 K) = 3%nat -> group_ok 3 a ->
  (forall l t, In l (ks_vectors K) -> In t l -> length t = 3%nat) ->
  (forall l t z, In l (ks_vectors K) -> In t l -> In z t -> (1 <= z)%Z) ->
  structure_factor_fast (fun _ => K) skip (pair_frames a a) =
  structure_factor true false (fun _ => one_less K) skip (pair_frames a a).
Proof. exact fast_is_one_less. Qed.
Print Assumptions C45_partial.

(** In two dimensions it always raises: its array of wave-vectors has three rows. *)
Theorem C45_two_dimensions : forall K skip (a : list (list (list R))),
  usable K -> (1 <= skip)%nat -> length (ks_k0 K) = 2%nat -> a <> [] -> group_ok 2 a -> ks_vectors K <> [] ->
  structure_factor_fast (fun _ => K) skip (pair_frames a a) = Err ValueError.
Proof.
  intros K skip a U Hs Hd Ha Ga Hv. change (num Rops) with R in *. unfold structure_factor_fast.
  rewrite py_range_spec by assumption. cbn [bind].
  destruct a as [|f a]; [congruence|].
  cbn [pair_frames combine map length]. rewrite <- cons_seq. cbn [filter].
  rewrite Nat.mod_0_l by lia. cbn [Nat.leb Nat.eqb andb foldM].
  unfold fast_step at 1. cbn [get nth_error bind sf_pos0 fst snd].
  destruct (Ga f (or_introl eq_refl)) as [Nf Lf].
  destruct (expo_sphere_ok (ks_k0 K) (ks_offset K) f (us_off K U) Nf) as [tab [E F]].
  { intros z Hz. rewrite (Lf z Hz). change (num Rops) with R in *. lia. }
  change (num Rops) with R in *. rewrite E. cbn [bind].
  pose proof (us_shells K U) as LG. pose proof (us_nonempty K U) as NE. pose proof (us_len K U) as UL.
  change (num Rops) with R in *.
  destruct (ks_vectors K) as [|kl sr]; [congruence|].
  destruct (ks_grid K) as [|g gr]; [discriminate|].
  specialize (NE kl (or_introl eq_refl)). destruct kl as [|t kl]; [congruence|].
  specialize (UL _ t (or_introl eq_refl) (or_introl eq_refl)). change (num Rops) with R in *.
  cbn [map sk_shells foldM]. rewrite UL, Hd. reflexivity.
Qed.
Print Assumptions C45_two_dimensions.

Example C45_nonvacuous : exists K : kstate Rops, (1 <= ks_offset K)%Z /\ length (ks_k0 K) = 3%nat /\
  (forall l t, In l (ks_vectors K) -> In t l -> length t = 3%nat) /\
  (forall l t z, In l (ks_vectors K) -> In t l -> In z t -> (1 <= z)%Z) /\ group_ok 3 a43 /\ ks_vectors K <> [].
Proof.
  exists (mkK (A:=Rops) [1; 1; 1] [[[4; 3; 2]]]%Z 3 [1]). cbn [ks_offset ks_k0 ks_vectors length].
  split; [lia|]. split; [reflexivity|]. split; [intros l t [<-|[]] [<-|[]]; reflexivity|].
  split; [intros l t z [<-|[]] [<-|[]] [<-|[<-|[<-|[]]]]; lia|]. split; [exact a43_ok|discriminate].
Qed.

(** ** C49 *)
Lemma sides_differ_R : forall a b : list R, length a = length b -> (sides_differ Rops a b = true <-> a <> b).
Proof.
  intros a. induction a as [|x a IH]; intros [|y b] L; try discriminate L.
  - cbn. split; [discriminate|congruence].
  - unfold sides_differ in *. cbn [combine existsb fst snd]. rewrite orb_true_iff, (IH b) by (cbn in L; lia).
    cbn. destruct (Reqb_spec x y) as [->|N]; cbn.
    + split; [intros [H|H]; [discriminate|congruence]|]. intros H. right. congruence.
    + split; [intros _; congruence|]. intros _. left. reflexivity.
Qed.

(** False as stated: with the default of one test only the last frame is compared
    with the first one. *)
Theorem C49_refuted : is_cell_variable Rops [[1; 1; 1]; [2; 2; 2]; [1; 1; 1]] 1 = Ok false.
Proof.
  unfold is_cell_variable. cbn [length Z.ltb Z.of_nat Pos.of_succ_nat Pos.succ].
  change (Nat.max 1 (Z.to_nat (3 / 1))) with 3%nat. cbn.
  destruct (Reqb_spec 1 1); [reflexivity|congruence].
Qed.
Print Assumptions C49_refuted.

(** The value is True if and only if the cell of one of the frames compared
    differs; these are the last frame and every [skip]-th one before it, where
    skip = max(1, int(frames/tests)). *)
Theorem C49_partial : forall (sides : list (list R)) tests, sides <> [] ->
  (forall s, In s sides -> length s = length (nth 0 sides [])) ->
  exists b, is_cell_variable Rops sides tests = Ok b /\
    (b = true <-> exists i, compared (length sides) tests i /\ nth i sides [] <> nth 0 sides []).
Proof.
  intros sides tests Hne L. destruct (is_cell_variable_spec Rops sides tests Hne) as [b [E H]].
  exists b. split; [assumption|]. rewrite H. change (num Rops) with R in *.
  split; intros [i [Hc D]]; exists i; (split; [assumption|]).
  - apply sides_differ_R in D; [congruence|]. symmetry. apply L. apply nth_In. destruct Hc. lia.
  - apply sides_differ_R; [|congruence]. symmetry. apply L. apply nth_In. destruct Hc. lia.
Qed.
Print Assumptions C49_partial.

(** With no limit on the tests, or more tests than half the frames, the answer is exact. *)
Theorem C49_all_frames : forall (sides : list (list R)) tests, sides <> [] ->
  (forall s, In s sides -> length s = length (nth 0 sides [])) ->
  (tests <= 0 \/ Z.of_nat (length sides) < 2 * tests)%Z ->
  exists b, is_cell_variable Rops sides tests = Ok b /\
    (b = true <-> exists s, In s sides /\ s <> nth 0 sides []).
Proof.
  intros sides tests Hne L Ht. destruct (C49_partial sides tests Hne L) as [b [E H]].
  exists b. split; [assumption|]. rewrite H.
  assert (Sk : cell_skip (length sides) tests = 1%nat).
  { unfold cell_skip. destruct (Z.ltb_spec 0 tests) as [P|P]; [|reflexivity].
    assert (Z.of_nat (length sides) / tests < 2)%Z by (apply Z.div_lt_upper_bound; lia). lia. }
  split.
  - intros [i [[Hi _] D]]. exists (nth i sides []). split; [apply nth_In; lia|assumption].
  - intros [s [Hs D]]. apply In_nth with (d := []) in Hs. destruct Hs as [i [Hi <-]].
    exists i. split; [|assumption]. split.
    + destruct i; [congruence|lia].
    + exists (length sides - 1 - i)%nat. rewrite Sk. lia.
Qed.
Print Assumptions C49_all_frames.

(** A positive answer is always right. *)
Theorem C49_sound : forall (sides : list (list R)) tests, sides <> [] ->
  (forall s, In s sides -> length s = length (nth 0 sides [])) ->
  is_cell_variable Rops sides tests = Ok true -> exists s, In s sides /\ s <> nth 0 sides [].
Proof.
  intros sides tests Hne L H. destruct (C49_partial sides tests Hne L) as [b [E B]].
  change (num Rops) with R in *. rewrite H in E. apply Ok_inj in E. subst b.
  destruct (proj1 B eq_refl) as [i [[Hi _] D]]. exists (nth i sides []). split; [apply nth_In; lia|assumption].
Qed.
Print Assumptions C49_sound.

Example C49_nonvacuous : is_cell_variable Rops [[1; 1; 1]; [2; 2; 2]; [1; 1; 1]] 2 = Ok true.
Proof.
  destruct (C49_all_frames [[1; 1; 1]; [2; 2; 2]; [1; 1; 1]] 2) as [b [E H]].
  - discriminate.
  - intros s [<-|[<-|[<-|[]]]]; reflexivity.
  - right. reflexivity.
  - rewrite E. f_equal. apply H. exists [2; 2; 2]. split; [right; left; reflexivity|].
    cbn. intros C. apply (f_equal (fun l => nth 0 l 0)) in C. cbn in C. lra.
Qed.

(** ** C68 *)
(** One group with weights: the value is the variance of the real part plus the
    variance of the imaginary part of sum_p w_p exp(i k.r_p) over the frames used
    and the vectors of the shell, divided by the mean number of particles.  Hence
    it is nonnegative. *)
Definition weighted_frames (a : list (list (list R) * list R)) : list sk_frame :=
  map (fun p => mkSkFrame (fst p) (fst p) (Some (snd p)) (Some (snd p))) a.
Definition shell_samples (s : list R -> list (list R) -> list R -> R) (a : list (list (list R) * list R))
  (skip : nat) (vs : list (list R)) : list R :=
  flat_map (fun i => map (fun v => s v (fst (nth i a ([], []))) (snd (nth i a ([], [])))) vs) (origins 0 skip (length a)).

Lemma variance_alt : forall l, l <> [] -> variance l = rmean (map (fun x => x * x) l) - rmean l * rmean l.
Proof. intros l H. unfold variance, rmean. rewrite map_length. apply rsum_var. assumption. Qed.

Theorem C68_variance : forall K skip (a : list (list (list R) * list R)),
  usable K -> (1 <= skip)%nat -> a <> [] -> group_ok (length (ks_k0 K)) (map fst a) ->
  (forall p, In p a -> length (snd p) = length (fst p)) ->
  structure_factor true true (fun _ => K) skip (weighted_frames a) =
  Ok (map (fun vs => let m := variance (shell_samples rho_re a skip vs) + variance (shell_samples rho_im a skip vs) in
                     (m / mean_N (map fst a), m)) (kvectors Rops K)).
Proof.
  intros K skip a U Hs Ha Ga Lw.
  assert (LP : length (weighted_frames a) = length a) by apply map_length.
  rewrite structure_factor_spec; try assumption.
  - f_equal. apply map_ext_in. intros vs Hvs. cbv zeta. change (num Rops) with R in *.
    set (re := shell_samples rho_re a skip vs). set (im := shell_samples rho_im a skip vs).
    assert (FA : forall i, (i < length a)%nat -> rhos (frame_at (weighted_frames a) i) =
              fun v => let r := (rho_re v (fst (nth i a ([], []))) (snd (nth i a ([], []))), rho_im v (fst (nth i a ([], []))) (snd (nth i a ([], [])))) in (r, r)).
    { intros i Hi. unfold frame_at, weighted_frames.
      rewrite (nth_indep _ no_sk_frame ((fun p => mkSkFrame (fst p) (fst p) (Some (snd p)) (Some (snd p))) ([], []))) by (rewrite map_length; assumption).
      rewrite (map_nth (fun p => mkSkFrame (fst p) (fst p) (Some (snd p)) (Some (snd p)))). reflexivity. }
    assert (SM : forall (f : C * C -> R) (h : R -> R -> R), (forall x y, f ((x, y), (x, y)) = h x y) ->
              map f (samples (weighted_frames a) skip vs) = map (fun p => h (fst p) (snd p)) (combine re im)).
    { intros f h Hf. unfold samples, re, im, shell_samples. rewrite LP, map_flat_map.
      assert (B : forall i, In i (origins 0 skip (length a)) -> (i < length a)%nat) by (intros; eapply origins_lt; eassumption).
      induction (origins 0 skip (length a)) as [|i r IH]; [reflexivity|].
      cbn [flat_map]. rewrite IH by (intros; apply B; right; assumption).
      rewrite FA by (apply B; left; reflexivity).
      assert (CA : forall (l1 l2 m1 m2 : list R), length l1 = length m1 -> combine (l1 ++ l2) (m1 ++ m2) = combine l1 m1 ++ combine l2 m2).
      { clear. intros l1. induction l1 as [|x l1 IH]; intros l2 [|y m1] m2 L; try discriminate L; [reflexivity|].
        cbn. rewrite IH by (cbn in L; lia). reflexivity. }
      rewrite CA by (rewrite !map_length; reflexivity). rewrite map_app. f_equal.
      clear - Hf. change (num Rops) with R in *. unfold C in *. induction vs as [|v vs IH]; [reflexivity|]. cbn [map combine fst snd].
      rewrite IH. f_equal. apply Hf. }
    assert (LRI : length re = length im).
    { unfold re, im, shell_samples. rewrite !flat_count. reflexivity. }
    assert (P1 : forall l m : list R, length l = length m -> map (fun p => fst p) (combine l m) = l).
    { clear. intros l. induction l as [|x l IH]; intros [|y m] L; try discriminate L; [reflexivity|]. cbn. rewrite IH by (cbn in L; lia). reflexivity. }
    assert (P2 : forall l m : list R, length l = length m -> map (fun p => snd p) (combine l m) = m).
    { clear. intros l. induction l as [|x l IH]; intros [|y m] L; try discriminate L; [reflexivity|]. cbn. rewrite IH by (cbn in L; lia). reflexivity. }
    unfold C in *.
    rewrite (SM (fun r => fst (cmul (fst r) (cconj (snd r)))) (fun x y => x * x + y * y)) by (intros; cbn; ring).
    rewrite (SM (fun r => fst (fst r)) (fun x _ => x)) by reflexivity.
    rewrite (SM (fun r => fst (snd r)) (fun x _ => x)) by reflexivity.
    rewrite (SM (fun r => snd (fst r)) (fun _ y => y)) by reflexivity.
    rewrite (SM (fun r => snd (snd r)) (fun _ y => y)) by reflexivity.
    rewrite (P1 re im LRI), (P2 re im LRI).
    assert (Nre : re <> []).
    { unfold re, shell_samples. pose proof (origins_nonempty skip (length a) Hs) as O.
      assert (vs <> []).
      { rewrite kvectors_R in Hvs. apply in_map_iff in Hvs. destruct Hvs as [kl [<- Hkl]].
        pose proof (us_nonempty K U kl Hkl). destruct kl; [congruence|discriminate]. }
      destruct (origins 0 skip (length a)); [exfalso; apply O; [destruct a; [congruence|cbn; lia]|reflexivity]|].
      destruct vs; [congruence|discriminate]. }
    assert (Nim : im <> []) by (intros C; rewrite C in LRI; destruct re; [congruence|discriminate]).
    assert (E : rmean (map (fun p => fst p * fst p + snd p * snd p) (combine re im)) - (rmean re * rmean re + rmean im * rmean im)
                = variance re + variance im).
    { rewrite !variance_alt by assumption. unfold rmean. rewrite !map_length.
      rewrite combine_length, <- LRI, Nat.min_id, rsum_plus.
      rewrite <- (map_map (fun p => fst p) (fun x => x * x)), <- (map_map (fun p => snd p) (fun x => x * x)).
      rewrite (P1 re im LRI), (P2 re im LRI).
      assert (0 < INR (length re)) by (apply INR_pos_length; assumption). field. lra. }
    rewrite E. f_equal. f_equal.
    unfold weighted_frames. rewrite !map_map. cbn [sf_pos0 sf_pos1]. unfold mean_N. rewrite map_map.
    apply sqrt_square. unfold rmean. apply Rmult_le_pos.
    + apply rsum_nonneg. intros x Hx. apply in_map_iff in Hx. destruct Hx as [f [<- _]]. apply pos_INR.
    + rewrite map_length. apply Rlt_le, Rinv_0_lt_compat, INR_pos_length. assumption.
  - intros C. rewrite C in LP. destruct a; [congruence|discriminate].
  - intros f Hf. unfold weighted_frames in Hf. apply in_map_iff in Hf. destruct Hf as [p [<- Hp]].
    destruct (Ga (fst p)) as [Np Lp]; [apply in_map; assumption|].
    split; cbn [sf_pos0 sf_pos1 sf_w0 sf_w1 wts]; auto.
  - left. reflexivity.
Qed.
Print Assumptions C68_variance.

Lemma variance_nonneg : forall l, 0 <= variance l.
Proof.
  intros l. unfold variance. destruct l as [|x r]; [cbn; unfold Rdiv; lra|].
  apply Rmult_le_pos.
  - apply rsum_nonneg. intros y Hy. apply in_map_iff in Hy. destruct Hy as [z [<- _]]. match goal with |- 0 <= ?a * ?a => pose proof (Rle_0_sqr a) as Q; unfold Rsqr in Q; exact Q end.
  - apply Rlt_le, Rinv_0_lt_compat, INR_pos_length. discriminate.
Qed.

Theorem C68_nonneg : forall K skip (a : list (list (list R) * list R)) r k v w,
  usable K -> (1 <= skip)%nat -> a <> [] -> group_ok (length (ks_k0 K)) (map fst a) ->
  (forall p, In p a -> length (snd p) = length (fst p)) ->
  structure_factor true true (fun _ => K) skip (weighted_frames a) = Ok r ->
  nth_error r k = Some (v, w) -> 0 <= v /\ 0 <= w.
Proof.
  intros K skip a r k v w U Hs Ha Ga Lw H Hk. rewrite C68_variance in H by assumption. apply Ok_inj in H. subst r.
  apply nth_error_map_inv in Hk. destruct Hk as [vs [Evs Ek]]. cbv zeta in Ek. injection Ek as -> ->.
  pose proof (variance_nonneg (shell_samples rho_re a skip vs)).
  pose proof (variance_nonneg (shell_samples rho_im a skip vs)).
  assert (P : 0 < mean_N (map fst a)) by (eapply mean_N_pos; [destruct a; [congruence|discriminate]|exact Ga]).
  split; [|lra]. apply Rmult_le_pos; [lra|]. apply Rlt_le, Rinv_0_lt_compat. assumption.
Qed.
Print Assumptions C68_nonneg.

Example C68_nonvacuous : exists r,
  structure_factor true true (fun _ => K43) 1 (weighted_frames [([[0; 0; 0]; [1; 2; 3]], [1; -2]); ([[5; 0; 1]; [1; 1; 1]], [3; 0])]) = Ok r /\
  length r = 1%nat.
Proof.
  eexists. split.
  - apply C68_variance; [exact K43_usable|lia|discriminate|exact a43_ok|].
    intros p [<-|[<-|[]]]; reflexivity.
  - reflexivity.
Qed.
