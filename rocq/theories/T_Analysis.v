(** Theorems about susceptibilities and relaxation times: C62, C63. *)
From Coq Require Import Ascii String List ZArith Bool Arith Lia Reals Lra Permutation Sorting.Sorted Floats.SpecFloat.
From Verif Require Import PyBase PyBaseFacts Num NumFacts Spec_Stats Spec_Fit M_Helpers M_Partial M_Text M_Analysis P_Helpers P_Suscept.
Import ListNotations.
Local Open Scope nat_scope.

(** ** C62 *)
(** The values found at time x by all the single-origin calculations. *)
Definition samples (x : R) (ps : list (R * R)) : list R :=
  map snd (filter (fun p => if Req_EM_T (fst p) x then true else false) ps).
Definition all_pairs {K V} (xys : list (list K * list V)) : list (K * V) := flat_map (fun xy => combine (fst xy) (snd xy)) xys.

Lemma fold_plus : forall l a, fold_left Rplus l a = (a + rsum l)%R.
Proof. induction l as [|x l IH]; intros a; cbn; [lra|]. rewrite IH. lra. Qed.
Lemma np_mean_is : forall l, nmean Rops l = rmean l.
Proof. intros l. unfold nmean, nsum, nofnat, rmean. cbn [nadd n0 ndiv nofZ Rops num]. rewrite fold_plus, <- INR_IZR_INZ. f_equal. lra. Qed.
Lemma rsum_scale : forall c l, rsum (map (fun y => (c * y)%R) l) = (c * rsum l)%R.
Proof. intros c l. induction l as [|x l IH]; cbn; [lra|]. rewrite IH. lra. Qed.
Lemma np_var_scaled : forall N (l : list R), 0 < N -> (np_var Rops (map (fun y : R => (y * INR N)%R) l) / INR N = INR N * variance l)%R.
Proof.
  intros N l HN. assert (PN : (INR N <> 0)%R) by (apply not_0_INR; lia).
  assert (M : @eq R (nmean Rops (map (fun y : R => (y * INR N)%R) l)) (INR N * rmean l)%R).
  { rewrite np_mean_is. unfold rmean. rewrite map_length. replace (map (fun y => (y * INR N)%R) l) with (map (fun y => (INR N * y)%R) l) by (apply map_ext; intros; ring).
    rewrite rsum_scale. unfold Rdiv. ring. }
  unfold np_var. cbv zeta. rewrite M, np_mean_is. cbn [nsub nmul Rops num]. unfold rmean at 1. rewrite map_length, map_length, map_map.
  replace (map (fun x => ((x * INR N - INR N * rmean l) * (x * INR N - INR N * rmean l))%R) l)
    with (map (fun v => (INR N * INR N * v)%R) (map (fun v => ((v - rmean l) * (v - rmean l))%R) l)).
  2:{ rewrite map_map. apply map_ext. intros; ring. }
  rewrite rsum_scale. unfold variance, Rdiv.
  match goal with |- (_ * _ * ?s * ?l * _ = _)%R => replace (INR N * INR N * s * l * / INR N)%R with (INR N * / INR N * (INR N * (s * l)))%R by ring end.
  rewrite Rinv_r by assumption. ring.
Qed.

Lemma variance_nonneg : forall l, (0 <= variance l)%R.
Proof.
  intros l. unfold variance. destruct l as [|x l]; [cbn; unfold Rdiv; rewrite Rmult_0_l; lra|].
  apply Rmult_le_pos.
  - assert (P : forall m, (forall y, In y m -> 0 <= y)%R -> (0 <= rsum m)%R).
    { induction m as [|y m IH]; intros H; cbn; [lra|]. specialize (H y (or_introl eq_refl)) as Hy. assert (0 <= rsum m)%R by (apply IH; intros; apply H; right; assumption). lra. }
    apply P. intros y Hy. apply in_map_iff in Hy. destruct Hy as [v [<- _]]. apply Rle_0_sqr.
  - left. apply Rinv_0_lt_compat, lt_0_INR. cbn. lia.
Qed.

Lemma Rleb_iff : forall x y : R, Rleb x y = true <-> (x <= y)%R.
Proof. intros x y. unfold Rleb. destruct (Rle_dec x y); split; intros; try assumption; try reflexivity; try discriminate; contradiction. Qed.
Lemma Reqb_iff : forall x y : R, Reqb x y = true <-> x = y.
Proof. intros x y. unfold Reqb. destruct (Req_EM_T x y); split; intros; try assumption; try reflexivity; try discriminate; contradiction. Qed.
Lemma Forall_true : forall {X} (l : list X), Forall (fun _ => True) l.
Proof. intros X l. apply Forall_forall. intros; exact I. Qed.
Lemma samples_app : forall x ps qs, samples x (ps ++ qs) = samples x ps ++ samples x qs.
Proof. intros. unfold samples. rewrite filter_app, map_app. reflexivity. Qed.

(** The grid holds each time found by a single-origin calculation once, in increasing
    order, and the value is N times the variance of the values found at that time.  The
    origins are 0, skip, 2 skip, ... below int(nsteps * tmax / total_time) - skip. *)
Theorem C62_susceptibility : forall N nsteps skip tgrid total corr grid value, 0 < N ->
  susceptibility Rops N nsteps skip tgrid total corr = Ok (grid, value) ->
  exists tlast n origins xys,
    getZ tgrid (-1) = Ok tlast /\ ntrunc Rops (INR nsteps * (tlast / total))%R = Some n /\
    (forall i, In i origins <-> (exists j, i = Z.of_nat (j * skip)) /\ (i < n - Z.of_nat skip)%Z) /\ NoDup origins /\
    mapM corr origins = Ok xys /\
    StronglySorted Rlt grid /\ (forall x, In x grid <-> samples x (all_pairs xys) <> []) /\
    value = map (fun x => (INR N * variance (samples x (all_pairs xys)))%R) grid /\
    (forall v, In v value -> 0 <= v)%R.
Proof.
  intros N nsteps skip tgrid total corr grid value HN H. unfold susceptibility in H.
  apply bind_Ok_inv in H. destruct H as [tlast [E1 H]]. apply bind_Ok_inv in H. destruct H as [frac [E2 H]].
  apply bind_Ok_inv in H. destruct H as [origins [E3 H]]. apply bind_Ok_inv in H. destruct H as [xys [E4 H]].
  apply Ok_inj in H. destruct (suscept_origins_spec _ _ _ _ _ E3) as [n [En [_ [Ho No]]]]. apply pair_equal_spec in H. destruct H as [Hg Hv].
  destruct (table_spec (neq Rops) (nle Rops) (fun x : R => x) (fun _ => True) (fun x y _ _ => Reqb_iff x y)
     (fun x y _ _ => Rleb_iff x y) (fun x y _ _ E => E) (fun y => nmul Rops y (nofnat Rops N)) xys (fun xy _ => Forall_true (fst xy))) as [So [_ [Ik Iv]]].
  assert (EN : nofnat Rops N = INR N) by (unfold nofnat; cbn [nofZ Rops]; rewrite <- INR_IZR_INZ; reflexivity).
  assert (V : value = map (fun x => (INR N * variance (samples x (all_pairs xys)))%R) grid).
  { rewrite <- Hv, <- Hg, map_map. apply map_ext_in. intros [x l] Hin. cbn [fst snd].
    destruct (Iv x l Hin) as [-> _]. cbn [ndiv Rops nmul]. rewrite EN. apply np_var_scaled. assumption. }
  exists tlast, n, origins, xys. split; [assumption|]. split; [|split; [exact Ho|split; [exact No|split; [assumption|split; [|split; [|split; [exact V|]]]]]]].
  - unfold pyint in En. unfold pydiv in E2. destruct (neq Rops total (n0 Rops)); [discriminate|]. apply Ok_inj in E2. subst frac.
    destruct (ntrunc Rops _) as [z|] eqn:T; [|discriminate]. apply Ok_inj in En. subst z. rewrite <- T. f_equal. cbn. rewrite <- INR_IZR_INZ. reflexivity.
  - rewrite <- Hg. exact So.
  - intros x. rewrite <- Hg. exact (Ik x I).
  - intros v Hin. rewrite V in Hin. apply in_map_iff in Hin. destruct Hin as [x [<- _]].
    apply Rmult_le_pos; [apply pos_INR|apply variance_nonneg].
Qed.
Print Assumptions C62_susceptibility.

Theorem C62_defined : forall N nsteps skip tgrid total corr, 0 < skip -> tgrid <> [] -> total <> 0%R ->
  (forall i, exists xy, corr i = Ok xy) -> exists r, susceptibility Rops N nsteps skip tgrid total corr = Ok r.
Proof.
  intros N nsteps skip tgrid total corr Hs Hg Ht Hc. unfold susceptibility. change (num Rops) with R in *.
  assert (G : exists tlast, getZ tgrid (-1) = Ok tlast).
  { unfold getZ. destruct (Z.ltb_spec (-1) 0) as [_|C]; [|lia].
    destruct tgrid as [|x l]; [contradiction|]. destruct (Z.ltb_spec (-1 + Z.of_nat (length (x :: l))) 0) as [C|_]; [cbn [length] in C; lia|].
    eexists. apply (get_Ok _ _ _ 0%R). cbn [length]. lia. }
  destruct G as [tlast ->]. cbn [bind]. unfold pydiv. cbn [neq Rops n0]. destruct (Reqb_spec total 0) as [|_]; [contradiction|]. cbn [bind].
  unfold suscept_origins, pyint. cbn [ntrunc Rops bind]. destruct (Nat.eqb_spec skip 0) as [|_]; [lia|]. cbn [bind].
  match goal with |- context [mapM corr ?l] => assert (M : exists xys, mapM corr l = Ok xys) end.
  { generalize (filter (fun i => (i <? Rtrunc (nmul Rops (nofnat Rops nsteps) (ndiv Rops tlast total)) - Z.of_nat skip)%Z)
      (map (fun j => Z.of_nat (j * skip)) (seq 0 (Z.to_nat (Rtrunc (nmul Rops (nofnat Rops nsteps) (ndiv Rops tlast total))))))) as l.
    induction l as [|i l [xys IH]]; [exists []; reflexivity|]. destruct (Hc i) as [xy E]. cbn [mapM]. rewrite E. cbn [bind]. rewrite IH. eexists. reflexivity. }
  destruct M as [xys ->]. cbn [bind]. eexists. reflexivity.
Qed.
Print Assumptions C62_defined.

(** Two particles, four frames, all origins: at time 0 and 1 the values are 1, 2, 3. *)
Example C62_nonvacuous : exists grid value,
  susceptibility Rops 2 4 1 [0; 3]%R 3%R (fun i => Ok ([0; 1]%R, [IZR i + 1; IZR i + 1]%R)) = Ok (grid, value) /\ In 1%R grid.
Proof.
  destruct (C62_defined 2 4 1 [0; 3]%R 3%R (fun i => Ok ([0; 1]%R, [IZR i + 1; IZR i + 1]%R))) as [[grid value] E]; [lia|discriminate|lra|intros; eexists; reflexivity|].
  exists grid, value. split; [exact E|].
  destruct (C62_susceptibility 2 4 1 _ _ _ grid value ltac:(lia) E) as [tlast [n [origins [xys [E1 [E2 [Ho [_ [E4 [_ [Hg _]]]]]]]]]]].
  apply Hg. change (getZ [0; 3]%R (-1)) with (Ok 3%R) in E1. apply Ok_inj in E1. subst tlast.
  assert (n = 4%Z).
  { replace (INR 4 * (3 / 3))%R with (IZR 4) in E2 by (cbn; lra).
    change (ntrunc Rops (IZR 4)) with (Some (Rtrunc (IZR 4))) in E2. rewrite Rtrunc_IZR in E2. congruence. }
  subst n. assert (I0 : In 0%Z origins) by (apply Ho; split; [exists 0; reflexivity|lia]).
  clear - E4 I0. revert xys E4. induction origins as [|o origins IH]; intros xys E4; [destruct I0|].
  cbn [mapM bind] in E4. apply bind_Ok_inv in E4. destruct E4 as [r [E5 E4]]. apply Ok_inj in E4. subst xys.
  unfold all_pairs. cbn [flat_map]. change (num Rops) with R. rewrite samples_app. cbn [fst snd combine].
  replace (samples 1 [(0, IZR o + 1); (1, IZR o + 1)])%R with [(IZR o + 1)%R]; [discriminate|].
  unfold samples. cbn [filter fst]. destruct (Req_EM_T 0 1); [lra|]. destruct (Req_EM_T 1 1); [reflexivity|lra].
Qed.

(** ** C63 *)
(** (x, y) is on the line joining the data points. *)
Definition on_line (t f : list R) (x y : R) : Prop :=
  exists j, S j < Nat.min (length t) (length f) /\ (nth j t 0 <= x <= nth (S j) t 0)%R /\
    (y = line_through (nth j t 0) (nth j f 0) (nth (S j) t 0) (nth (S j) f 0) x)%R.

(** [r] is the time at which the line first gets down to [c] from above; None if the data
    never go below. *)
Definition first_decay (t f : list R) (c : R) (r : option R) : Prop :=
  match r with
  | Some x => on_line t f x c /\
      (forall x' y', on_line t f x' y' -> (x' < x)%R -> (c <= y')%R) /\
      (~ In c f -> forall x' y', on_line t f x' y' -> (x' < x)%R -> (c < y')%R)
  | None => (forall j, j < Nat.min (length t) (length f) -> (c <= nth j f 0)%R) /\
      (~ In c f -> forall x' y', on_line t f x' y' -> (c < y')%R)
  end.

Lemma increasing_nth : forall t i j, increasing t -> i <= j < length t -> (nth i t 0 <= nth j t 0)%R.
Proof.
  intros t i j H. revert i j. induction H as [|x t Hs IH Hf]; intros i j L; [cbn in L; lia|].
  destruct i, j; cbn [nth length] in *; try lra; [|lia|apply IH; lia].
  rewrite Forall_forall in Hf. left. apply Hf. apply nth_In. lia.
Qed.
Lemma increasing_next : forall t i, increasing t -> S i < length t -> (nth i t 0 < nth (S i) t 0)%R.
Proof.
  intros t i H. revert i. induction H as [|x t Hs IH Hf]; intros i L; [cbn in L; lia|].
  destruct i; [|cbn [nth length] in *; apply IH; lia]. cbn [nth length] in *. rewrite Forall_forall in Hf. apply Hf.
  destruct t; [cbn in L; lia|]. left. reflexivity.
Qed.

Lemma line_above : forall x1 y1 x2 y2 u c, (x1 < x2)%R -> (x1 <= u <= x2)%R ->
  ((c <= y1)%R -> (c <= y2)%R -> (c <= line_through x1 y1 x2 y2 u)%R) /\
  ((c < y1)%R -> (c < y2)%R -> (c < line_through x1 y1 x2 y2 u)%R).
Proof.
  intros x1 y1 x2 y2 u c Hx Hu. unfold line_through.
  set (s := ((u - x1) / (x2 - x1))%R).
  assert (S1 : (0 <= s)%R) by (apply Rmult_le_pos; [lra|left; apply Rinv_0_lt_compat; lra]).
  assert (S2 : (s <= 1)%R) by (apply (Rmult_le_reg_r (x2 - x1)); [lra|]; unfold s, Rdiv; rewrite Rmult_assoc, Rinv_l by lra; lra).
  replace (y1 + (y2 - y1) * (u - x1) / (x2 - x1))%R with (y1 * (1 - s) + y2 * s)%R by (unfold s; field; lra).
  clearbody s. split; intros A B.
  - assert (0 <= (1 - s) * (y1 - c))%R by (apply Rmult_le_pos; lra). assert (0 <= s * (y2 - c))%R by (apply Rmult_le_pos; lra). lra.
  - assert (0 <= (1 - s) * (y1 - c))%R by (apply Rmult_le_pos; lra). assert (0 <= s * (y2 - c))%R by (apply Rmult_le_pos; lra).
    destruct (Rle_lt_dec s (1/2)).
    + assert (0 < (1 - s) * (y1 - c))%R by (apply Rmult_lt_0_compat; lra). lra.
    + assert (0 < s * (y2 - c))%R by (apply Rmult_lt_0_compat; lra). lra.
Qed.

Lemma feqc_first_decay : forall t f c, increasing t -> t <> [] -> f <> [] -> (c < nth 0 f 0)%R ->
  exists r, feqc Rops t f c = Ok r /\ first_decay t f c (option_map fst r).
Proof.
  intros t f c Ht Nt Nf H0. destruct (feqc_spec t f c Ht Nf Nt) as [r [E H]]. exists r. split; [exact E|].
  assert (Cr : forall j, crossing f c j <-> (nth j f 0 < c)%R).
  { intros j. unfold crossing. split; intros; nra. }
  destruct r as [[xs k]|]; cbn [option_map fst first_decay].
  - destruct H as [Hk [Hc [Hb [Hx Hl]]]]. apply Cr in Hc.
    assert (Hb' : forall j, j < k -> (c <= nth j f 0)%R) by (intros j Hj; specialize (Hb j Hj); rewrite Cr in Hb; lra).
    split; [|assert (W : forall x' y', on_line t f x' y' -> (x' < xs)%R -> (c <= y')%R /\ (~ In c f -> (c < y')%R)); [|split; [intros; eapply W; eassumption|intros N x' y' A B; apply (W x' y' A B); exact N]]].
    + exists (k - 1). replace (S (k - 1)) with k by lia. split; [lia|]. split; [lra|]. symmetry. exact Hl.
    + intros x' y' [j [Hj [Hj1 ->]]] L.
      assert (Lt : (nth j t 0 < nth (S j) t 0)%R) by (apply increasing_next; [assumption|lia]).
      destruct (Nat.lt_ge_cases (S j) k) as [C|C].
      * split.
        -- apply line_above; try assumption; apply Hb'; lia.
        -- intros N. apply line_above; try assumption.
           ++ specialize (Hb' j ltac:(lia)). destruct (Req_EM_T c (nth j f 0%R)) as [E1|]; [|lra]. exfalso. apply N. rewrite E1. apply nth_In. lia.
           ++ specialize (Hb' (S j) C). destruct (Req_EM_T c (nth (S j) f 0%R)) as [E1|]; [|lra]. exfalso. apply N. rewrite E1. apply nth_In. lia.
      * assert (j = k - 1).
        { destruct (Nat.lt_ge_cases j k); [lia|]. pose proof (increasing_nth t k j Ht ltac:(lia)). lra. }
        subst j. replace (S (k - 1)) with k in * by lia.
        specialize (Hb' (k - 1) ltac:(lia)). unfold line_through in *.
        set (x1 := nth (k - 1) t 0%R) in *. set (x2 := nth k t 0%R) in *. set (y1 := nth (k - 1) f 0%R) in *. set (y2 := nth k f 0%R) in *.
        assert (D : (0 < / (x2 - x1))%R) by (apply Rinv_0_lt_compat; lra).
        assert (X : (c < y1 + (y2 - y1) * (x' - x1) / (x2 - x1))%R).
        { rewrite <- Hl at 1. unfold Rdiv. apply Rplus_lt_compat_l. apply Rmult_lt_compat_r; [assumption|]. nra. }
        split; [lra|intros _; exact X].
  - assert (H' : forall j, j < Nat.min (length t) (length f) -> (c <= nth j f 0)%R) by (intros j Hj; specialize (H j Hj); rewrite Cr in H; lra).
    split; [exact H'|]. intros N x' y' [j [Hj [Hj1 ->]]].
    apply line_above; [apply increasing_next; [assumption|lia]|assumption| |].
    + specialize (H' j ltac:(lia)). destruct (Req_EM_T c (nth j f 0%R)) as [E1|]; [|lra]. exfalso. apply N. rewrite E1. apply nth_In. lia.
    + specialize (H' (S j) ltac:(lia)). destruct (Req_EM_T c (nth (S j) f 0%R)) as [E1|]; [|lra]. exfalso. apply N. rewrite E1. apply nth_In. lia.
Qed.

(** The relaxation time of each wave-number is the first time at which the line joining
    the data gets down to 1/e of the initial value, if no sample is exactly 1/e of it
    (otherwise: see below); None if the data stay above. *)
Theorem C63_tau_partial : forall ks t f, NoDup ks -> increasing t -> t <> [] -> (nth 0 t 0 <= 0)%R ->
  length ks <= length f -> (forall fi, In fi f -> fi <> [] /\ (0 < nth 0 fi 0)%R) ->
  exists d, extract_tau Rops ks t f (/ exp 1)%R = Ok d /\ map fst d = ks /\
    forall i, i < length ks -> exists r, nth_error d i = Some (nth i ks 0%R, r) /\
      first_decay t (nth i f []) (nth 0 (nth i f []) 0 * / exp 1)%R r.
Proof.
  intros ks t f ND Ht Nt T0 L F. unfold extract_tau. change (num Rops) with R in *.
  rewrite (get_Ok _ t 0 0%R) by (destruct t; [contradiction|cbn; lia]). cbn [bind]. cbn [nlt Rops n0].
  destruct (Rltb_spec 0 (nth 0 t 0%R)) as [C|_]; [lra|].
  set (step := fun (d : list (R * option R)) (ik : nat * R) => _).
  assert (G : forall pre suf, ks = pre ++ suf -> forall d, map fst d = pre ->
    (forall i, i < length pre -> exists r, nth_error d i = Some (nth i ks 0%R, r) /\ first_decay t (nth i f []) (nth 0 (nth i f []) 0 * / exp 1)%R r) ->
    exists d', foldM step d (combine (seq (length pre) (length suf)) suf) = Ok d' /\ map fst d' = ks /\
      forall i, i < length ks -> exists r, nth_error d' i = Some (nth i ks 0%R, r) /\ first_decay t (nth i f []) (nth 0 (nth i f []) 0 * / exp 1)%R r).
  2:{ apply (G [] ks eq_refl []); [reflexivity|]. intros i Hi. cbn in Hi. lia. }
  intros pre suf. revert pre. induction suf as [|k suf IH]; intros pre E d Hd Hi.
  - rewrite app_nil_r in E. subst pre. exists d. split; [reflexivity|]. split; assumption.
  - cbn [length seq combine foldM].
    assert (Lp : length pre < length f) by (rewrite E, app_length in L; cbn [length] in L; lia).
    destruct (F (nth (length pre) f []) (nth_In _ _ Lp)) as [F1 F2].
    assert (P : (0 < exp 1)%R) by apply exp_pos.
    assert (P1 : (/ exp 1 < 1)%R).
    { assert (E1 : (exp 0 < exp 1)%R) by (apply exp_increasing; lra). rewrite exp_0 in E1.
      apply (Rmult_lt_reg_l (exp 1)); [assumption|]. rewrite Rinv_r by lra. lra. }
    assert (C : (nth 0 (nth (length pre) f []) 0 * / exp 1 < nth 0 (nth (length pre) f []) 0)%R) by nra.
    destruct (feqc_first_decay t (nth (length pre) f []) _ Ht Nt F1 C) as [r [Er Hr]].
    assert (St : step d (length pre, k) = Ok (dict_set (neq Rops) d k (option_map fst r))).
    { unfold step. cbn [fst snd]. rewrite (get_Ok _ f (length pre) []) by exact Lp. cbn [bind].
      rewrite (get_Ok _ (nth (length pre) f []) 0 0%R) by (destruct (nth (length pre) f []); [contradiction|cbn; lia]). cbn [bind].
      change (nmul Rops (nth 0 (nth (length pre) f []) 0%R) (/ exp 1)%R) with (nth 0 (nth (length pre) f []) 0 * / exp 1)%R.
      rewrite Er. destruct r as [[x n]|]; reflexivity. }
    rewrite St. cbn [bind].
    assert (Nk : ~ In k pre) by (rewrite E in ND; apply NoDup_remove_2 in ND; intros X; apply ND, in_or_app; left; exact X).
    assert (Sd : dict_set (neq Rops) d k (option_map fst r) = d ++ [(k, option_map fst r)]).
    { rewrite <- Hd in Nk. clear - Nk. induction d as [|[k' v'] d IHd]; [reflexivity|]. cbn [dict_set map fst app] in *.
      cbn [neq Rops]. destruct (Reqb_spec k' k) as [->|]; [exfalso; apply Nk; left; reflexivity|]. f_equal. apply IHd. intros X. apply Nk. right. exact X. }
    rewrite Sd. assert (Ld : length d = length pre) by (rewrite <- Hd, map_length; reflexivity).
    specialize (IH (pre ++ [k])). rewrite app_length in IH. cbn [length] in IH. replace (length pre + 1) with (S (length pre)) in IH by lia.
    apply IH.
    + rewrite <- app_assoc. exact E.
    + rewrite map_app, Hd. reflexivity.
    + intros i Hi'. destruct (Nat.eq_dec i (length pre)) as [->|Ne].
      * exists (option_map fst r). split; [|exact Hr]. rewrite nth_error_app2, Ld, Nat.sub_diag by lia. cbn. do 2 f_equal.
        rewrite E, app_nth2, Nat.sub_diag by lia. reflexivity.
      * destruct (Hi i) as [r' [A B]]; [lia|]. exists r'. split; [|exact B]. rewrite nth_error_app1; [exact A|]. rewrite Ld. lia.
Qed.
Print Assumptions C63_tau_partial.

(** The claim fails when a sample is exactly 1/e of the first: a function that touches
    it and grows again has no relaxation time. *)
Theorem C63_tau_refuted : exists t f, increasing t /\ nth 0 t 0%R = 0%R /\ nth 1 f 0%R = (nth 0 f 0 * / exp 1)%R /\
  extract_tau Rops [7%R] t [f] (/ exp 1)%R = Ok [(7%R, None)].
Proof.
  exists [0; 1; 2]%R, [exp 1; 1; 2]%R. pose proof (exp_pos 1) as P.
  split; [repeat constructor; lra|]. split; [reflexivity|]. split; [cbn; field; lra|].
  unfold extract_tau. cbn [get bind length seq combine foldM fst snd nth_error nmul Rops nlt n0].
  destruct (Rltb_spec 0 0) as [C|_]; [lra|]. cbn [bind].
  replace (exp 1 * / exp 1)%R with 1%R by (field; lra).
  destruct (feqc_spec [0; 1; 2]%R [exp 1; 1; 2]%R 1) as [r [E H]]; [repeat constructor; lra|discriminate|discriminate|].
  assert (r = None).
  { destruct r as [[x k]|]; [|reflexivity]. exfalso. destruct H as [Hk [Hc _]]. unfold crossing in Hc. cbn [length Nat.min] in Hk.
    assert (E1 : (exp 0 < exp 1)%R) by (apply exp_increasing; lra). rewrite exp_0 in E1.
    assert (k = 1 \/ k = 2) as [-> | ->] by lia; cbn in Hc; nra. }
  subst r. change (feqc Rops [0; 1; 2] [exp 1; 1; 2] 1 = Ok None)%R in E. rewrite E. reflexivity.
Qed.
Print Assumptions C63_tau_refuted.

(** In double precision: a function decaying linearly from 1 to 0 in three steps. *)
Example C63_nonvacuous :
  exists tau, extract_tau F64ops [f64_ofZ 7] (map f64_ofZ [0; 1; 2; 3]%Z) [[f64_ofZ 1; f64_frac 3 4; f64_frac 1 4; f64_ofZ 0]] (f64_frac 3679 10000) =
    Ok [(f64_ofZ 7, Some tau)] /\ show_g tau = "1.7642"%string.
Proof. eexists. split; [vm_compute; reflexivity|vm_compute; reflexivity]. Qed.
