(** The collective scattering function in dimensions other than two and three (fkt.py:307-311,
    325-329): the products are stored in the table of exponentials. *)
From Coq Require Import List ZArith Bool Arith Reals Lra Lia.
From Verif Require Import PyBase PyBaseFacts Num NumFacts M_Helpers M_KGrid M_Fourier M_Fkt Spec_Stats
  Spec_BondAngle P_BondAngle Spec_KGrid P_KGrid P_KGrid2 P_KGrid3 P_KGrid4 P_Expo Spec_Fourier Spec_Correlation Spec_Fkt Spec_FktDim P_Sk P_Sk2 P_Sk3 P_Tcf P_Fkt P_Fkt2 P_GrFast.
Import ListNotations.
Local Open Scope R_scope.

Definition shifted (nk : Z) (n : list Z) : list Z := map (fun z => (z + nk)%Z) n.

(** ** One particle *)
Definition row0_ok (nk : Z) (P : Z -> R) (r0 : list C) : Prop :=
  length r0 = Z.to_nat (2 * nk + 1) /\ forall z, (- nk <= z <= nk)%Z -> nth (Z.to_nat (nk + z)) r0 c0 = cis (P z).

Lemma view_step : forall nk P r0 rest tk tx h ns, row0_ok nk P r0 -> row_ok tk nk tx rest -> length tk = length tx -> length ns = length tx ->
  (- nk <= h <= nk)%Z -> Forall (fun z => (- nk <= z <= nk)%Z) ns ->
  let e := P h + dot (wave tk ns) tx in
  exists r0', view_product (r0 :: rest) (shifted nk (h :: ns)) = Ok (r0' :: rest, cis e) /\
    row0_ok nk (fun z => if (z =? h)%Z then e else P z) r0'.
Proof.
  intros nk P r0 rest tk tx h ns [L0 R0] Rr Lk Ln Hh Fn e. unfold view_product.
  change (get (r0 :: rest) 0) with (@Ok (list C) r0). change (get (shifted nk (h :: ns)) 0) with (@Ok Z (h + nk)%Z). cbn [bind].
  rewrite (getZ_pos C _ _ c0) by (rewrite L0; lia). cbn [bind]. replace (h + nk)%Z with (nk + h)%Z by lia. rewrite R0 by exact Hh.
  assert (G : foldM (fun acc d => r <- get (r0 :: rest) d ;; k <- get (shifted nk (h :: ns)) d ;; e <- getZ r k ;; Ok (cmul acc e)) (cis (P h)) (seq 1 (length (shifted nk (h :: ns)) - 1)) = Ok (cis e)).
  { assert (Es : seq 1 (length (shifted nk (h :: ns)) - 1) = map S (seq 0 (length tx))).
    { unfold shifted. rewrite map_length. cbn [length]. replace (S (length ns) - 1)%nat with (length tx) by lia. rewrite seq_shift. reflexivity. }
    rewrite Es, foldM_map. unfold e. rewrite <- cis_add. rewrite <- (plane_wave_cis (length tx) tk nk tx rest ns (cis (P h)) Rr eq_refl Lk Ln Fn). reflexivity. }
  rewrite G. cbn [bind].
  destruct (setidx_pos C r0 (nk + h) (cis e)) as [r0' [Er [Lr Nr]]]; [rewrite L0; lia|]. exists r0'.
  rewrite Er. cbn [bind skipn]. split; [reflexivity|]. split; [congruence|]. intros z Hz. rewrite Nr.
  rewrite Z2Nat.id by lia. destruct (Z.eqb_spec (nk + z) (nk + h)); destruct (Z.eqb_spec z h); try lia; [reflexivity|]. apply R0. exact Hz.
Qed.

(** The phase of the entry [z] of the first row after the vectors of [done]. *)
Definition pile (k : R) (tk : list R) (c : R) (tx : list R) (done : list (list Z)) (z : Z) : R :=
  IZR z * (k * c) + rsum (map (fun m => dot (wave tk (tl m)) tx) (filter (fun m => (hd 0 m =? z)%Z) done)).

Lemma pile_step : forall k tk c tx done h ns z,
  pile k tk c tx (done ++ [h :: ns]) z = if (z =? h)%Z then pile k tk c tx done h + dot (wave tk ns) tx else pile k tk c tx done z.
Proof.
  intros k tk c tx done h ns z. unfold pile. rewrite filter_app, map_app, rsum_app. cbn [filter hd tl map].
  rewrite (Z.eqb_sym h z). destruct (Z.eqb_spec z h) as [->|_]; cbn [map rsum tl]; ring.
Qed.

Definition piled_rows (k : R) (tk : list R) (nk : Z) (done : list (list Z)) (x : list R) (rows : list (list C)) : Prop :=
  exists c tx r0 rest, x = c :: tx /\ rows = r0 :: rest /\ length tk = length tx /\ row_ok tk nk tx rest /\ row0_ok nk (pile k tk c tx done) r0.

Lemma rows_start : forall k tk nk x rows, (0 <= nk)%Z -> length x = S (length tk) -> row_ok (k :: tk) nk x rows -> piled_rows k tk nk [] x rows.
Proof.
  intros k tk nk x rows Hnk Lx [Lr Rr]. destruct x as [|c tx]; [discriminate|]. destruct rows as [|r0 rest]; [discriminate|]. injection Lx as Lx. injection Lr as Lr.
  exists c, tx, r0, rest. split; [reflexivity|]. split; [reflexivity|]. split; [congruence|]. split; [split; [exact Lr|]|].
  - intros j n Hj Hn. apply (Rr (S j) n); [cbn; lia|exact Hn].
  - split; [apply (Rr 0%nat 0%Z); [cbn; lia|lia]|].
    intros z Hz. destruct (Rr 0%nat z) as [_ E]; [cbn; lia|exact Hz|]. cbn [nth] in E. rewrite E. unfold pile. cbn. f_equal. ring.
Qed.

Lemma rows_step : forall k tk nk done x rows n, piled_rows k tk nk done x rows -> length n = S (length tk) -> Forall (fun z => (- nk <= z <= nk)%Z) n ->
  exists rows', view_product rows (shifted nk n) = Ok (rows', cis (pile k tk (hd 0 x) (tl x) (done ++ [n]) (hd 0%Z n))) /\ piled_rows k tk nk (done ++ [n]) x rows'.
Proof.
  intros k tk nk done x rows n [c [tx [r0 [rest [-> [-> [Lk [Rr R0]]]]]]]] Ln Fn. destruct n as [|h ns]; [discriminate|]. injection Ln as Ln. inversion Fn as [|? ? Hh Fns]; subst.
  destruct (view_step nk _ r0 rest tk tx h ns R0 Rr Lk ltac:(congruence) Hh Fns) as [r0' [E [L' R']]].
  exists (r0' :: rest). cbn [hd tl]. rewrite E. split; [do 3 f_equal; rewrite pile_step, Z.eqb_refl; reflexivity|].
  exists c, tx, r0', rest. split; [reflexivity|]. split; [reflexivity|]. split; [exact Lk|]. split; [exact Rr|]. split; [exact L'|]. intros z Hz. rewrite (R' z Hz), pile_step. reflexivity.
Qed.

(** The vector of the phase. *)
Lemma addz_length : forall a b, length a = length b -> length (addz a b) = length a.
Proof. induction a as [|x a IH]; intros [|y b] H; try discriminate; cbn; [reflexivity|]. injection H as H. rewrite IH by exact H. reflexivity. Qed.
Lemma dot_wave_addz : forall tk tx a b, length a = length b -> dot (wave tk (addz a b)) tx = dot (wave tk a) tx + dot (wave tk b) tx.
Proof.
  unfold wave. induction tk as [|k tk IH]; intros tx a b H; [cbn; ring|]. destruct a as [|x a], b as [|y b]; try discriminate; [cbn; ring|].
  cbn [addz combine map fst snd]. destruct tx as [|c tx]; [cbn; ring|]. cbn [dot]. injection H as H. rewrite IH by exact H. rewrite plus_IZR. ring.
Qed.
Lemma piled_dot : forall k tk c tx done n d, length n = S d -> (forall m, In m done -> length m = S d) ->
  dot (wave (k :: tk) (piled done n)) (c :: tx) = pile k tk c tx (done ++ [n]) (hd 0%Z n).
Proof.
  intros k tk c tx done n d Ln Ld. destruct n as [|h ns]; [discriminate|]. rewrite pile_step. cbn [hd]. rewrite Z.eqb_refl.
  unfold piled. cbn [hd tl].
  unfold wave at 1. cbn [combine map fst snd dot]. fold (wave tk (fold_right addz ns (map (@tl Z) (filter (fun m => (hd 0 m =? h)%Z) done)))).
  unfold pile. injection Ln as Ln.
  assert (G : forall l, (forall m, In m l -> length m = S d) -> length (fold_right addz ns (map (@tl Z) l)) = d /\ dot (wave tk (fold_right addz ns (map (@tl Z) l))) tx = rsum (map (fun m => dot (wave tk (tl m)) tx) l) + dot (wave tk ns) tx).
  { clear - Ln. induction l as [|m l IH]; intros H; [split; [exact Ln|cbn; ring]|]. destruct IH as [I1 I2]; [intros; apply H; right; assumption|].
    assert (Lm : length (tl m) = d) by (specialize (H m (or_introl eq_refl)); destruct m; [discriminate|]; injection H as H; exact H).
    cbn [map fold_right rsum]. split; [rewrite addz_length by congruence; exact Lm|]. rewrite dot_wave_addz by congruence. rewrite I2. ring. }
  destruct (G (filter (fun m => (hd 0 m =? h)%Z) done)) as [_ G2]; [intros m Hm; apply filter_In in Hm; apply Ld; apply Hm|].
  rewrite G2. ring.
Qed.

(** ** One frame *)
Definition re_density (k0 : list R) (n : list Z) (f : list (list R)) : R := rsum (map (fun x => cos (dot (wave k0 n) x)) f).

Lemma shifted_inj : forall nk a b, shifted nk a = shifted nk b -> a = b.
Proof.
  unfold shifted. induction a as [|x a IH]; intros [|y b] H; try discriminate; [reflexivity|]. cbn [map] in H. injection H as H1 H2. f_equal; [lia|]. apply IH. exact H2.
Qed.

Lemma csum_cis : forall l, fst (csum (map cis l)) = rsum (map cos l).
Proof.
  intros l. unfold csum. assert (G : forall l z, fst (fold_left cadd (map cis l) z) = fst z + rsum (map cos l)).
  { clear. induction l as [|a l IH]; intros z; cbn [map fold_left rsum]; [ring|]. rewrite IH. cbn. ring. }
  rewrite G. cbn. ring.
Qed.

Lemma tabulate_other : forall k tk nk f (todo done : list (list Z)) tab d, let nd := S (length tk) in
  Forall2 (piled_rows k tk nk done) f tab -> (forall x, In x f -> length x = nd) ->
  (forall n, In n done \/ In n todo -> length n = nd /\ Forall (fun z => (- nk <= z <= nk)%Z) n) -> NoDup todo -> (forall n, In n todo -> kget d (shifted nk n) = c0) ->
  exists st, foldM (fun (st : list (list (list C)) * kdict) kvec =>
            l <- mapM (fun rows => view_product rows kvec) (fst st) ;;
            Ok (map fst l, kset (snd st) kvec (cadd (kget (snd st) kvec) (fst (csum (map snd l)), 0)))) (tab, d) (map (shifted nk) todo) = Ok st /\
    (forall n, ~ In n todo -> kget (snd st) (shifted nk n) = kget d (shifted nk n)) /\
    forall a n b, todo = a ++ n :: b -> kget (snd st) (shifted nk n) = (re_density (k :: tk) (piled (done ++ a) n) f, 0).
Proof.
  intros k tk nk f todo. induction todo as [|n todo IH]; intros done tab d nd F Lf Hn Nd Hd.
  - exists (tab, d). split; [reflexivity|]. split; [reflexivity|]. intros a n b E. destruct a; discriminate.
  - cbn [map foldM]. destruct (Hn n (or_intror (or_introl eq_refl))) as [Ln Fn].
    assert (G : exists l, mapM (fun rows => view_product rows (shifted nk n)) tab = Ok l /\ Forall2 (piled_rows k tk nk (done ++ [n])) f (map fst l) /\
      map snd l = map (fun x => cis (pile k tk (hd 0 x) (tl x) (done ++ [n]) (hd 0%Z n))) f).
    { clear - F Ln Fn. induction F as [|x rows f tab Px F IH]; [exists []; split; [reflexivity|]; split; [constructor|reflexivity]|].
      destruct (rows_step k tk nk done x rows n Px Ln Fn) as [rows' [E Q]]. destruct IH as [l [El [Fl Sl]]].
      exists ((rows', cis (pile k tk (hd 0 x) (tl x) (done ++ [n]) (hd 0%Z n))) :: l). cbn [mapM]. rewrite E. cbn [bind]. rewrite El. cbn [bind map fst snd]. split; [reflexivity|]. split; [constructor; assumption|]. f_equal. exact Sl. }
    destruct G as [l [El [Fl Sl]]]. cbn [fst snd]. rewrite El. cbn [bind]. rewrite Sl.
    assert (Ev : fst (csum (map (fun x => cis (pile k tk (hd 0 x) (tl x) (done ++ [n]) (hd 0%Z n))) f)) = re_density (k :: tk) (piled done n) f).
    { rewrite <- (map_map (fun x => pile k tk (hd 0 x) (tl x) (done ++ [n]) (hd 0%Z n)) cis), csum_cis, map_map. unfold re_density. f_equal. apply map_ext_in. intros x Hx. f_equal.
      specialize (Lf x Hx). destruct x as [|c tx]; [discriminate|]. cbn [hd tl]. symmetry. apply (piled_dot k tk c tx done n (length tk)); [exact Ln|]. intros m Hm. apply Hn. left. exact Hm. }
    rewrite Ev. rewrite (Hd n (or_introl eq_refl)). inversion Nd as [|? ? Nn Nd']; subst.
    destruct (IH (done ++ [n]) (map fst l) (kset d (shifted nk n) (cadd c0 (re_density (k :: tk) (piled done n) f, 0)))) as [st [Es [Eo Ea]]]; try assumption.
    { intros m [Hm|Hm]; apply Hn; [apply in_app_or in Hm; destruct Hm as [Hm|[<-|[]]]; [left; exact Hm|right; left; reflexivity]|right; right; exact Hm]. }
    { intros m Hm. rewrite kget_kset. destruct (same_key_spec (shifted nk m) (shifted nk n)) as [E|_]; [apply shifted_inj in E; congruence|]. apply Hd. right. exact Hm. }
    exists st. split; [exact Es|]. split.
    + intros m Hm. rewrite Eo by (intros H; apply Hm; right; exact H). rewrite kget_kset. destruct (same_key_spec (shifted nk m) (shifted nk n)) as [E|_]; [|reflexivity]. apply shifted_inj in E. exfalso. apply Hm. left. congruence.
    + intros a m b E. destruct a as [|n' a]; cbn [app] in E; injection E as <- E.
      * rewrite app_nil_r. subst todo. rewrite Eo by exact Nn. rewrite kget_kset. destruct (same_key_spec (shifted nk n) (shifted nk n)) as [_|N]; [|congruence]. unfold cadd, c0. cbn [fst snd]. f_equal; ring.
      * specialize (Ea a m b E). rewrite <- app_assoc in Ea. exact Ea.
Qed.

(** ** All frames *)
Lemma upto_split : forall t l, In t l -> exists b, l = upto t l ++ t :: b.
Proof.
  intros t l. induction l as [|a l IH]; intros H; [destruct H|]. cbn [upto]. destruct (list_eq_dec Z.eq_dec a t) as [->|N]; [exists l; reflexivity|].
  destruct H as [H|H]; [congruence|]. destruct (IH H) as [b E]. exists b. cbn [app]. f_equal. exact E.
Qed.

Lemma unshift_shifted : forall nk t, shifted nk (unshift nk t) = t.
Proof. intros nk t. unfold shifted, unshift. rewrite map_map. rewrite <- (map_id t) at 2. apply map_ext. intros z. lia. Qed.

Lemma densities_other : forall K pos, usable K -> (length (ks_k0 K) <> 0 /\ length (ks_k0 K) <> 2 /\ length (ks_k0 K) <> 3)%nat -> NoDup (concat (ks_vectors K)) ->
  group_ok (length (ks_k0 K)) pos ->
  exists l, densities K pos = Ok l /\ length l = length pos /\
  forall i kl t, (i < length pos)%nat -> In kl (ks_vectors K) -> In t kl ->
    kget (nth i l []) t = (rho_re (piled_vector K t) (nth i pos []) (unit_weights (nth i pos [])), 0).
Proof.
  intros K pos U [D0 [D2 D3]] ND G. unfold densities.
  destruct (ks_k0 K) as [|k tk] eqn:Ek; [cbn in D0; congruence|]. set (nk := ks_offset K) in *.
  assert (Hvec : forall t, In t (concat (ks_vectors K)) -> length t = S (length tk) /\ forall z, In z t -> (0 <= z <= 2 * nk)%Z).
  { intros t Ht. apply in_concat in Ht. destruct Ht as [kl [H1 H2]]. split; [rewrite (us_len K U kl t H1 H2), Ek; reflexivity|]. intros z Hz. exact (us_idx K U kl t z H1 H2 Hz). }
  set (ns := map (unshift nk) (concat (ks_vectors K))).
  assert (Ens : concat (ks_vectors K) = map (shifted nk) ns).
  { unfold ns. rewrite map_map. rewrite <- (map_id (concat (ks_vectors K))) at 1. apply map_ext. intros t. symmetry. apply unshift_shifted. }
  assert (Nns : NoDup ns). { apply (NoDup_map_inv (shifted nk)). rewrite <- Ens. exact ND. }
  assert (Hns : forall n, In n ns -> length n = S (length tk) /\ Forall (fun z => (- nk <= z <= nk)%Z) n).
  { intros n Hn. unfold ns in Hn. apply in_map_iff in Hn. destruct Hn as [t [<- Ht]]. destruct (Hvec t Ht) as [Lt Zt]. unfold unshift. rewrite map_length. split; [exact Lt|].
    apply Forall_forall. intros z Hz. apply in_map_iff in Hz. destruct Hz as [w [<- Hw]]. specialize (Zt w Hw). lia. }
  assert (One : forall f, In f pos -> exists d, (tab <- expo_sphere (k :: tk) nk f ;; tabulate (S (length tk)) tab (concat (ks_vectors K))) = Ok d /\
    forall t, In t (concat (ks_vectors K)) -> kget d t = (rho_re (piled_vector K t) f (unit_weights f), 0)).
  { intros f Hf. destruct (G f Hf) as [Hne Hd].
    destruct (expo_sphere_ok (k :: tk) nk f) as [tab [Et Ft]]; [apply U|assumption|intros x Hx; rewrite (Hd x Hx); apply le_n|]. rewrite Et. cbn [bind].
    assert (U1 := us_off K U). fold nk in U1.
    assert (F0 : Forall2 (piled_rows k tk nk []) f tab).
    { clear - Ft Hd U1. induction Ft as [|x rows f tab Hx Ft IH]; constructor; [apply rows_start; [lia|apply (Hd x (or_introl eq_refl))|exact Hx]|]. apply IH. intros y Hy. apply Hd. right. exact Hy. }
    destruct (tabulate_other k tk nk f ns [] tab [] F0 Hd) as [st [Es [_ Ea]]]; [intros n [[]|Hn]; apply Hns; exact Hn|exact Nns|reflexivity|].
    exists (snd st). split.
    - unfold tabulate. assert (((S (length tk) =? 3) || (S (length tk) =? 2))%nat%bool = false) as ->.
      { apply orb_false_iff. split; apply Nat.eqb_neq; assumption. }
      rewrite Ens. refine (eq_trans (f_equal (fun z => x <- z ;; _) Es) _). reflexivity.
    - intros t Ht. destruct (upto_split t _ Ht) as [b Eb].
      assert (E1 : ns = map (unshift nk) (upto t (concat (ks_vectors K))) ++ unshift nk t :: map (unshift nk) b) by (unfold ns; rewrite Eb at 1; rewrite map_app; reflexivity).
      specialize (Ea _ _ _ E1). rewrite unshift_shifted in Ea. rewrite Ea. f_equal. cbn [app]. unfold piled_vector. fold nk. rewrite Ek. unfold re_density, rho_re, unit_weights.
      set (v := wave (k :: tk) _). clear. induction f as [|x f IH]; [reflexivity|]. cbn [map combine rsum fst snd]. rewrite IH. unfold v, nk. rewrite Rmult_1_l. reflexivity. }
  clear - One. induction pos as [|f pos IH].
  - exists []. split; [reflexivity|]. split; [reflexivity|]. intros i kl t Hi. cbn in Hi. lia.
  - destruct (One f (or_introl eq_refl)) as [d [Ed Gd]]. destruct IH as [l [El [Ll Hl]]]; [intros; apply One; right; assumption|].
    exists (d :: l). split; [cbn [mapM]; change (length (k :: tk)) with (S (length tk)) in *; rewrite Ed; cbn [bind]; rewrite El; reflexivity|]. split; [cbn; lia|].
    intros [|i] kl t Hi Hkl Ht; cbn [nth]; [apply Gd; apply in_concat; exists kl; split; assumption|]. apply (Hl i kl t); [cbn in Hi; lia|exact Hkl|exact Ht].
Qed.

Lemma fkt_other_dimensions : forall K steps dgrid skip (pos0 pos1 : list (list (list R))) same,
  usable K -> ks_vectors K <> [] -> (length (ks_k0 K) <> 0 /\ length (ks_k0 K) <> 2 /\ length (ks_k0 K) <> 3)%nat -> NoDup (concat (ks_vectors K)) -> (1 <= skip)%nat ->
  length steps = length pos0 -> length pos1 = length pos0 ->
  group_ok (length (ks_k0 K)) pos0 -> group_ok (length (ks_k0 K)) pos1 -> (same = true -> pos1 = pos0) ->
  exists dts, reported steps (admitted dgrid skip (length pos0)) dts /\
    forall normalize,
    fkt_compute K steps dgrid skip normalize pos0 (if same then None else Some pos1) =
    let un := map (fun kl => map (pair_mean (fun v a b => re_product v (nth a pos0 []) (nth b pos1 [])) steps
                                    (admitted dgrid skip (length pos0)) (map (piled_vector K) kl)) dts) (ks_vectors K) in
    v <- (if normalize then mapM normalize_first un else Ok un) ;; Ok (dts, v, un).
Proof.
  intros K steps dgrid skip pos0 pos1 same U Hv Hnd ND Hs Ls L1 G0 G1 Hsame.
  destruct (densities_other K pos0 U Hnd ND G0) as [l0 [E0 [Len0 D0]]].
  destruct (densities_other K pos1 U Hnd ND G1) as [l1 [E1 [Len1 D1]]].
  set (ps := admitted dgrid skip (length pos0)).
  set (vec := piled_vector K).
  set (vv := fun (_ : unit) t a b => re_product (vec t) (nth a pos0 []) (nth b pos1 [])).
  destruct (tcf_values_all unit (list Z) vv (fun _ => 1) steps ps [tt] 1) with (shells := ks_vectors K) as [dts [Rd Ev]].
  { cbn. lra. } { lra. } { assumption. } { intros kl Hkl. eapply us_nonempty; eassumption. }
  exists dts. split; [exact Rd|]. intros normalize. unfold fkt_compute. rewrite E0. cbn [bind].
  assert (Er : match (if same then None else Some pos1) with None => Ok l0 | Some q => densities K q end = Ok l1).
  { destruct same; [|exact E1]. rewrite Hsame in E1 by reflexivity. congruence. }
  rewrite Er. cbn [bind].
  assert (Eg : map (fun _ : num Rops => tcf_state0) (ks_grid K) = map (fun kl : list (list Z) => ev_st [] tcf_state0) (ks_vectors K)).
  { exact (map_const_len _ _ _ tcf_state0 _ _ (us_shells K U)). }
  rewrite Eg.
  rewrite (over_shells_ev _ _ (fun t => pair_events (vv tt t) 1 steps ps)).
  2: { intros kl t st Hkl Ht. rewrite Len0. apply tcf_vector_ok; try assumption. intros a b Ha Hb.
       unfold collective_sum. rewrite (get_Ok _ l0 a []) by lia. rewrite (get_Ok _ l1 b []) by lia. cbn [bind].
       rewrite (D0 a kl t), (D1 b kl t) by (try assumption; lia). unfold vv, re_product, cmul, cconj. cbn [fst snd]. f_equal. unfold vec. ring. }
  cbn [bind].
  assert (Es : map (fun kl => ev_st ([] ++ flat_map (fun t => pair_events (vv tt t) 1 steps ps) kl) tcf_state0) (ks_vectors K) =
               map (fun kl => ev_st (all_events unit (list Z) vv (fun _ => 1) steps ps [tt] kl) tcf_state0) (ks_vectors K)).
  { apply map_ext. intros kl. unfold all_events. cbn [flat_map app]. rewrite app_nil_r. reflexivity. }
  rewrite Es, Ev. cbn [bind fst snd].
  assert (Em : map (fun kl => map (tcf_mean unit (list Z) vv steps ps [tt] 1 kl) dts) (ks_vectors K) =
    map (fun kl => map (pair_mean (fun v a b => re_product v (nth a pos0 []) (nth b pos1 [])) steps ps (map vec kl)) dts) (ks_vectors K)).
  { apply map_ext. intros kl. apply map_ext. intros d. unfold tcf_mean.
    apply (pair_mean_map _ vec (fun k a b => rsum (map (fun j => vv j k a b) [tt]) / 1)).
    intros t p _ _. cbn. unfold vv, vec. field. }
  rewrite Em. reflexivity.
Qed.
