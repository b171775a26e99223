(** Normalisation of the self part; the collective part. *)
From Coq Require Import List ZArith Bool Arith Reals Lra Lia Sorting.Sorted.
From Verif Require Import PyBase PyBaseFacts Num NumFacts M_Helpers M_KGrid M_Fourier M_Fkt Spec_Stats
  Spec_BondAngle P_BondAngle Spec_KGrid P_KGrid P_KGrid2 P_KGrid4 P_Expo Spec_Fourier Spec_Correlation Spec_Fkt
  P_Sk P_Sk2 P_Sk3 P_Tcf P_Fkt.
Import ListNotations.
Local Open Scope R_scope.

Lemma setidx_nat : forall X (l : list X) i v, (i < length l)%nat ->
  setidx l (Z.of_nat i) v = Ok (firstn i l ++ v :: skipn (S i) l).
Proof.
  intros X l i v H. unfold setidx. destruct (Z.ltb_spec (Z.of_nat i) 0); [lia|].
  destruct (Z.leb_spec 0 (Z.of_nat i)); [|lia]. destruct (Z.ltb_spec (Z.of_nat i) (Z.of_nat (length l))); [|lia].
  cbn [andb]. rewrite Nat2Z.id. reflexivity.
Qed.

(** In-place division: only the first entry changes. *)
Lemma normalize_inplace_cons : forall v0 r, v0 <> 0 -> normalize_inplace (v0 :: r) = Ok (1 :: r).
Proof.
  intros v0 r H. unfold normalize_inplace. cbn [length seq foldM].
  assert (E0 : setidx (v0 :: r) (Z.of_nat 0) (v0 / v0) = Ok (1 :: r)).
  { rewrite setidx_nat by (cbn [length]; lia). cbn. do 2 f_equal. field. assumption. }
  change (get (v0 :: r) 0) with (Ok v0). cbn [bind]. rewrite E0. cbn [bind].
  assert (G : forall l, (forall i, In i l -> (i < length (1%R :: r))%nat) ->
     foldM (fun row i => v <- get row i ;; v0 <- get row 0 ;; setidx row (Z.of_nat i) (v / v0)) (1 :: r) l = Ok (1 :: r)).
  { intros l. induction l as [|i l IH]; intros Hl; [reflexivity|].
    assert (Hi : (i < length (1%R :: r))%nat) by (apply Hl; left; reflexivity).
    cbn [foldM]. rewrite (get_Ok _ (1 :: r) i 0) by assumption. cbn [bind]. change (get (1 :: r) 0) with (Ok 1). cbn [bind].
    rewrite setidx_nat by assumption.
    replace (nth i (1 :: r) 0 / 1) with (nth i (1 :: r) 0) by field.
    rewrite <- skipn_nth by assumption. rewrite firstn_skipn. cbn [bind].
    apply IH. intros; apply Hl; right; assumption. }
  apply G. intros i Hi. apply in_seq in Hi. cbn [length]. lia.
Qed.

Lemma map_const_len : forall X Y S (c : S) (l : list X) (m : list Y), length l = length m ->
  map (fun _ => c) l = map (fun _ => c) m.
Proof.
  intros X Y S c l. induction l as [|x l IH]; intros [|y m] L; try discriminate; [reflexivity|].
  cbn [map]. f_equal. apply IH. cbn in L. lia.
Qed.

Lemma normalize_first_ok : forall row, row <> [] -> normalize_first row = Ok (map (fun x => x / nth 0 row 0) row).
Proof.
  intros row H. unfold normalize_first. apply mapM_pure. intros x _. destruct row; [congruence|reflexivity].
Qed.

(** ** The collective part *)
Lemma same_key_spec : forall a b, reflect (a = b) (same_key a b).
Proof. intros a b. unfold same_key. destruct (list_eq_dec Z.eq_dec a b); constructor; assumption. Qed.

Lemma kget_kset : forall d k k' v, kget (kset d k v) k' = if same_key k' k then v else kget d k'.
Proof.
  intros d k k' v. induction d as [|[k1 v1] d IH]; [reflexivity|]. cbn [kset].
  destruct (same_key_spec k k1) as [->|N1]; cbn [kget].
  - destruct (same_key_spec k' k1); reflexivity.
  - rewrite IH. destruct (same_key_spec k' k1) as [->|N2]; [|reflexivity].
    destruct (same_key_spec k1 k); [congruence|reflexivity].
Qed.

Lemma tabulate_ok : forall nd tab (r : list Z -> C) kvecs, (nd = 2 \/ nd = 3)%nat ->
  (forall t, In t kvecs -> density nd tab None t = Ok (r t)) ->
  exists d, tabulate nd tab kvecs = Ok d /\ forall t, In t kvecs -> kget d t = r t.
Proof.
  intros nd tab r kvecs Hnd H. unfold tabulate.
  assert (((nd =? 3) || (nd =? 2))%nat%bool = true) as -> by (destruct Hnd as [->| ->]; reflexivity).
  rewrite (foldM_pure _ _ _ (fun d t => kset d t (r t))).
  2: { intros s t Ht. rewrite (H t Ht). reflexivity. }
  eexists. split; [reflexivity|].
  assert (G : forall l d0 t, (In t l \/ kget d0 t = r t) -> kget (fold_left (fun d t => kset d t (r t)) l d0) t = r t).
  { intros l. induction l as [|k l IH]; intros d0 t Ht; cbn [fold_left].
    - destruct Ht as [[]|]; assumption.
    - apply IH. rewrite kget_kset. destruct (same_key_spec t k) as [->|N]; [right; reflexivity|].
      destruct Ht as [[->|Ht]|Ht]; [congruence|left; assumption|right; assumption]. }
  intros t Ht. apply G. left. assumption.
Qed.

Definition rho1 (v : list R) (f : list (list R)) : C := rho v f (unit_weights f).

Lemma densities_ok : forall K pos, usable K -> (length (ks_k0 K) = 2 \/ length (ks_k0 K) = 3)%nat ->
  group_ok (length (ks_k0 K)) pos ->
  exists l, densities K pos = Ok l /\ length l = length pos /\
  forall i kl t, (i < length pos)%nat -> In kl (ks_vectors K) -> In t kl ->
    kget (nth i l []) t = rho1 (wave (ks_k0 K) (unshift (ks_offset K) t)) (nth i pos []).
Proof.
  intros K pos U Hnd. unfold densities. induction pos as [|f r IH]; intros G.
  - exists []. split; [reflexivity|]. split; [reflexivity|]. intros i kl t Hi. cbn in Hi. lia.
  - destruct (G f (or_introl eq_refl)) as [Hne Hd].
    destruct (expo_sphere_ok (ks_k0 K) (ks_offset K) f) as [tab [Et Ft]]; [apply U|assumption|intros x Hx; rewrite (Hd x Hx); apply le_n|].
    destruct (tabulate_ok (length (ks_k0 K)) tab (fun t => rho1 (wave (ks_k0 K) (unshift (ks_offset K) t)) f) (concat (ks_vectors K))) as [d [Ed Hg]].
    { assumption. }
    { intros t Ht. apply in_concat in Ht. destruct Ht as [kl [Hkl Ht]].
      apply (density_rho (length (ks_k0 K)) (ks_k0 K) (ks_offset K) f tab None t Ft); auto.
      - eapply us_len; eassumption.
      - intros z Hz. eapply us_idx; eassumption.
      - cbn. unfold unit_weights. apply map_length. }
    destruct IH as [l [El [Ll Hl]]]; [intros g Hg'; apply G; right; assumption|].
    exists (d :: l). split.
    + cbn [mapM]. change (num Rops) with R in *. rewrite Et. cbn [bind]. rewrite Ed. cbn [bind].
      rewrite El. reflexivity.
    + split; [cbn; lia|]. intros [|i] kl t Hi Hkl Ht; cbn [nth].
      * apply Hg. apply in_concat. exists kl. auto.
      * eapply Hl; [cbn in Hi; lia|eassumption|assumption].
Qed.

Lemma rho1_cross : forall v f g, fst (cmul (rho1 v f) (cconj (rho1 v g))) = density_cross v f g.
Proof. intros v f g. unfold rho1, rho, density_cross. cbn. ring. Qed.

Lemma fkt_values_ok : forall K steps dgrid skip (pos0 pos1 : list (list (list R))) same,
  usable K -> ks_vectors K <> [] -> (length (ks_k0 K) = 2 \/ length (ks_k0 K) = 3)%nat -> (1 <= skip)%nat ->
  length steps = length pos0 -> length pos1 = length pos0 ->
  group_ok (length (ks_k0 K)) pos0 -> group_ok (length (ks_k0 K)) pos1 -> (same = true -> pos1 = pos0) ->
  exists dts, reported steps (admitted dgrid skip (length pos0)) dts /\
    forall normalize,
    fkt_compute K steps dgrid skip normalize pos0 (if same then None else Some pos1) =
    let un := map (fun vs => map (pair_mean (fun v a b => density_cross v (nth a pos0 []) (nth b pos1 [])) steps
                                    (admitted dgrid skip (length pos0)) vs) dts) (kvectors Rops K) in
    v <- (if normalize then mapM normalize_first un else Ok un) ;; Ok (dts, v, un).
Proof.
  intros K steps dgrid skip pos0 pos1 same U Hv Hnd Hs Ls L1 G0 G1 Hsame.
  destruct (densities_ok K pos0 U Hnd G0) as [l0 [E0 [Len0 D0]]].
  destruct (densities_ok K pos1 U Hnd G1) as [l1 [E1 [Len1 D1]]].
  set (ps := admitted dgrid skip (length pos0)).
  set (vec := fun t => wave (ks_k0 K) (unshift (ks_offset K) t)).
  set (vv := fun (_ : unit) t a b => density_cross (vec t) (nth a pos0 []) (nth b pos1 [])).
  destruct (tcf_values_all unit (list Z) vv (fun _ => 1) steps ps [tt] 1) with (shells := ks_vectors K) as [dts [Rd Ev]].
  { cbn. lra. } { lra. } { assumption. } { intros kl Hkl. eapply us_nonempty; eassumption. }
  exists dts. split; [exact Rd|]. intros normalize. unfold fkt_compute. rewrite E0. cbn [bind].
  assert (Er : match (if same then None else Some pos1) with None => Ok l0 | Some q => densities K q end = Ok l1).
  { destruct same; [|exact E1]. rewrite Hsame in E1 by reflexivity. congruence. }
  rewrite Er. cbn [bind].
  assert (Eg : map (fun _ : num Rops => tcf_state0) (ks_grid K) = map (fun kl : list (list Z) => ev_st [] tcf_state0) (ks_vectors K)).
  { exact (map_const_len _ _ _ tcf_state0 _ _ (us_shells K U)). }
  rewrite Eg.
  rewrite (over_shells_ev _ _ (fun t => pair_events (vv tt t) 1 steps ps)).
  2: { intros kl t st Hkl Ht. rewrite Len0. apply tcf_vector_ok; try assumption. intros a b Ha Hb.
       unfold collective_sum. rewrite (get_Ok _ l0 a []) by lia. rewrite (get_Ok _ l1 b []) by lia. cbn [bind].
       rewrite (D0 a kl t), (D1 b kl t) by (try assumption; lia). rewrite rho1_cross. reflexivity. }
  cbn [bind].
  assert (Es : map (fun kl => ev_st ([] ++ flat_map (fun t => pair_events (vv tt t) 1 steps ps) kl) tcf_state0) (ks_vectors K) =
               map (fun kl => ev_st (all_events unit (list Z) vv (fun _ => 1) steps ps [tt] kl) tcf_state0) (ks_vectors K)).
  { apply map_ext. intros kl. unfold all_events. cbn [flat_map app]. rewrite app_nil_r. reflexivity. }
  rewrite Es, Ev. cbn [bind fst snd].
  assert (Em : map (fun kl => map (tcf_mean unit (list Z) vv steps ps [tt] 1 kl) dts) (ks_vectors K) =
    map (fun vs => map (pair_mean (fun v a b => density_cross v (nth a pos0 []) (nth b pos1 [])) steps ps vs) dts) (kvectors Rops K)).
  { rewrite kvectors_wave, map_map. apply map_ext. intros kl. apply map_ext. intros d. unfold tcf_mean.
    apply (pair_mean_map _ vec (fun k a b => rsum (map (fun j => vv j k a b) [tt]) / 1)).
    intros t p _ _. cbn. unfold vv, vec. field. }
  rewrite Em. reflexivity.
Qed.
