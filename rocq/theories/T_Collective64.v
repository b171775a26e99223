(** The collective intermediate scattering function in double precision: C122. *)
From Coq Require Import List ZArith Bool Arith Reals Lia Lra Psatz Floats.SpecFloat Sorting.Permutation.
From Verif Require Import PyBase PyBaseFacts Num NumFacts Spec_Stats P_Text F64Round F64Ops F64Facts P_F64Mean P_F64Time P_F64Order P_F64Dot P_F64Alpha M_Helpers M_KGrid M_Fourier M_Fkt Spec_Doubles Spec_BondAngle Spec_KGrid Spec_Fourier Spec_Correlation Spec_Fkt
  P_F64Dist P_Overlap P_Expo P_Tcf P_Fkt P_Fkt2 M_Expo64 M_Fkt64 M_Collective64 Spec_Expo64 Spec_Collective64 P_Expo64 P_Density64 P_Tcf64 P_Fkt64 P_Collective64 T_Expo64 T_Fkt64.
Import ListNotations.
Local Open Scope R_scope.

(** ** Auxiliary facts *)
Section Frames.
Variables (mul : f64 * f64 -> f64 * f64 -> f64 * f64) (sum : list (f64 * f64) -> f64 * f64) (ex : f64 -> f64 * f64).
Let D := Fops mul sum ex.

(** The density of one frame at one vector of the table. *)
Lemma frame_density : forall prod eps k0 nk f tab t W N, faithful_product mul -> wave_product mul prod -> sum_in_some_order sum -> k0 <> [] ->
  Forall2 (row_in D k0 nk) f tab -> f <> [] -> (length f <= N)%nat -> (Z.of_nat N <= 2 ^ 48)%Z -> length t = length k0 -> Forall (fun z => (0 <= z <= 2 * nk)%Z) t -> W <= / 16 ->
  (forall x, In x f -> length x = length k0 /\ fine_phases ex eps k0 x /\ wave_error eps (map fval k0) (unshift nk t) (map fval x) <= W) ->
  exists rho, density_by D prod (length k0) tab t = Ok rho /\ okc rho /\
    cdist (cval rho) (rho_of (wave (map fval k0) (unshift nk t)) (map (map fval) f)) <= INR N * (2 * W + 16 * u + 8 * INR N * u) /\
    cnorm (rho_of (wave (map fval k0) (unshift nk t)) (map (map fval) f)) <= INR N.
Proof.
  intros prod eps k0 nk f tab t W N M Hp Hs Hk F Nf Lf HN Lt Ft W16 Hx. pose proof u_small as U.
  assert (Lu : length (unshift nk t) = length k0) by (unfold unshift; rewrite map_length; exact Lt).
  assert (Fu : Forall (fun z => (- nk <= z <= nk)%Z) (unshift nk t)).
  { unfold unshift. apply Forall_forall. intros z Hz. apply in_map_iff in Hz. destruct Hz as [w [<- Hw]]. rewrite Forall_forall in Ft. specialize (Ft w Hw). lia. }
  assert (Lz : (Z.of_nat (length f) <= 2 ^ 49)%Z) by (assert (Z.of_nat (length f) <= Z.of_nat N)%Z by (apply inj_le; exact Lf); lia).
  destruct (density_by_near mul sum ex prod eps k0 nk f tab (unshift nk t) W M Hp Hs Hk F Lz Lu Fu W16 Hx) as [rho [Er [Kr Dr]]].
  rewrite shift_back in Er. exists rho. split; [exact Er|]. split; [exact Kr|]. assert (W0 : 0 <= W).
  { destruct f as [|x f]; [congruence|]. destruct (Hx x (or_introl eq_refl)) as [_ [[He _] Q]]. pose proof (wave_error_pos eps (map fval k0) (unshift nk t) (map fval x) He). lra. }
  pose proof (le_INR _ _ Lf) as Lr. split.
  - apply Rle_trans with (1 := Dr).
    assert (X : forall L, 0 <= L -> L <= INR N -> L * (2 * W + 16 * u + 8 * L * u) <= INR N * (2 * W + 16 * u + 8 * INR N * u)).
    { intros L L0 L1. assert (L * u <= INR N * u) by (apply Rmult_le_compat_r; lra). assert (0 <= L * u) by (apply Rmult_le_pos; lra). apply Rmult_le_compat; lra. }
    apply X; [apply pos_INR|exact Lr].
  - apply Rle_trans with (1 := rho_of_norm _ _). rewrite map_length. exact Lr.
Qed.

(** The dictionaries of densities of all frames. *)
Definition good_density (k0 : list f64) (nk : Z) (W : R) (N : nat) (f : list (list f64)) (t : list Z) (rho : f64 * f64) : Prop :=
  okc rho /\ cdist (cval rho) (rho_of (wave (map fval k0) (unshift nk t)) (map (map fval) f)) <= INR N * (2 * W + 16 * u + 8 * INR N * u) /\
  cnorm (rho_of (wave (map fval k0) (unshift nk t)) (map (map fval) f)) <= INR N.

Lemma densities_near : forall prod eps k0 nk shells pos W N, faithful_product mul -> wave_product mul prod -> sum_in_some_order sum -> k0 <> [] -> (1 <= nk)%Z ->
  (forall f, In f pos -> f <> [] /\ (length f <= N)%nat) -> (Z.of_nat N <= 2 ^ 48)%Z ->
  (forall kl t, In kl shells -> In t kl -> length t = length k0 /\ Forall (fun z => (0 <= z <= 2 * nk)%Z) t) -> W <= / 16 ->
  (forall f x, In f pos -> In x f -> length x = length k0 /\ fine_phases ex eps k0 x /\
     forall kl t, In kl shells -> In t kl -> wave_error eps (map fval k0) (unshift nk t) (map fval x) <= W) ->
  exists ds, densities_in D prod k0 nk shells pos = Ok ds /\
    Forall2 (fun f d => forall kl t, In kl shells -> In t kl -> good_density k0 nk W N f t (kget_in D d t)) pos ds.
Proof.
  intros prod eps k0 nk shells pos W N M Hp Hs Hk Hn Hf HN Ht W16 Hx. unfold densities_in. apply mapM_Forall2. intros f Hfi.
  destruct (Hf f Hfi) as [Nf Lf].
  destruct (expo_sphere_in_ok D k0 nk f Hn Nf) as [tab [Et Ft]]; [intros x Hxi; destruct (Hx f x Hfi Hxi) as [Q _]; exact (Nat.eq_le_incl _ _ Q)|].
  rewrite Et. cbn [bind].
  set (rho := fun t => match density_by D prod (length k0) tab t with Ok r => r | Err _ => cx0 D end).
  assert (G : forall kl t, In kl shells -> In t kl -> density_by D prod (length k0) tab t = Ok (rho t) /\ good_density k0 nk W N f t (rho t)).
  { intros kl t H1 H2. destruct (Ht kl t H1 H2) as [Lt Fz].
    destruct (frame_density prod eps k0 nk f tab t W N M Hp Hs Hk Ft Nf Lf HN Lt Fz W16) as [r [Er Gr]].
    { intros x Hxi. destruct (Hx f x Hfi Hxi) as [Q1 [Q2 Q3]]. split; [exact Q1|]. split; [exact Q2|]. apply (Q3 kl t); assumption. }
    assert (E : rho t = r) by exact (f_equal (fun z => match z with Ok r => r | Err _ => cx0 D end) Er). rewrite E. split; [exact Er|exact Gr]. }
  destruct (tabulate_in_ok D prod (length k0) tab rho (concat shells)) as [d [Ed Gd]].
  { intros t Hti. apply in_concat in Hti. destruct Hti as [kl [H1 H2]]. apply (G kl t H1 H2). }
  exists d. split; [exact Ed|]. intros kl t H1 H2. rewrite Gd by (apply in_concat; exists kl; split; assumption). apply (G kl t H1 H2).
Qed.
End Frames.

Lemma flat_map_map' : forall X Y Z (g : X -> Y) (h : Y -> list Z) l, flat_map h (map g l) = flat_map (fun x => h (g x)) l.
Proof. intros X Y Z g h l. induction l as [|x l IH]; [reflexivity|]. cbn [map flat_map]. rewrite IH. reflexivity. Qed.

Lemma list_sum_ones : forall X (l : list X), list_sum (map (fun _ => 1%nat) l) = length l.
Proof. intros X l. induction l as [|x l IH]; [reflexivity|]. cbn [map length]. change (list_sum (1%nat :: map (fun _ => 1%nat) l)) with (1 + list_sum (map (fun _ => 1%nat) l))%nat. rewrite IH. reflexivity. Qed.
Lemma Forall2_len : forall X Y (P : X -> Y -> Prop) l m, Forall2 P l m -> length l = length m.
Proof. intros X Y P l m F. induction F; cbn [length]; [reflexivity|]. f_equal. assumption. Qed.

(** ** C122 *)
(** F(k,t) in double precision, in two and three dimensions.  [W] bounds the rounding errors of all
    the plane waves, N0 and N1 the numbers of particles of the two groups. *)
Theorem C122_collective_accuracy : forall mul sum ex prod eps W k0 nk shells steps dgrid skip (pos0 : list (list (list f64))) pos1 N0 N1,
  let D := Fops mul sum ex in let ps := admitted dgrid skip (length pos0) in let other := match pos1 with None => pos0 | Some q => q end in
  faithful_product mul -> wave_product mul prod -> sum_in_some_order sum ->
  (1 <= nk)%Z -> (length k0 = 2 \/ length k0 = 3)%nat -> shells <> [] -> (forall kl, In kl shells -> kl <> []) ->
  (forall kl t, In kl shells -> In t kl -> length t = length k0 /\ Forall (fun z => (0 <= z <= 2 * nk)%Z) t) ->
  (1 <= skip)%nat -> length steps = length pos0 -> length other = length pos0 ->
  (forall f, In f pos0 -> f <> [] /\ (length f <= N0)%nat) -> (forall f, In f other -> f <> [] /\ (length f <= N1)%nat) -> (Z.of_nat N0 <= 2 ^ 47)%Z -> (Z.of_nat N1 <= 2 ^ 47)%Z ->
  (forall kl, In kl shells -> (Z.of_nat (length kl * length ps) <= 2 ^ 49)%Z) -> W <= / 16 ->
  (forall f x, In f pos0 \/ In f other -> In x f -> length x = length k0 /\ fine_phases ex eps k0 x /\
     forall kl t, In kl shells -> In t kl -> wave_error eps (map fval k0) (unshift nk t) (map fval x) <= W) ->
  exists dts vals, reported steps ps dts /\
    fkt_values_in D F64ops (@fst f64 f64) prod k0 nk shells (length shells) steps dgrid skip pos0 pos1 = Ok (dts, vals) /\ length vals = length shells /\
    forall s i, (s < length shells)%nat -> (i < length dts)%nat ->
      let v := nth i (nth s vals []) S754_nan in let d := nth i dts 0%Z in let kl := nth s shells [] in
      let r0 := map (map (map fval)) pos0 in let r1 := map (map (map fval)) other in
      ok v /\ Rabs (fval v - pair_mean (fun k a b => density_cross k (nth a r0 []) (nth b r1 [])) steps ps (map (fun t => wave (map fval k0) (unshift nk t)) kl) d)
        <= INR N0 * INR N1 * (6 * W + INR (24 * (N0 + N1) + 6 * (length kl * length (pairs_at steps d ps)) + 72) * p2 (-53)).
Proof.
  intros mul sum ex prod eps W k0 nk shells steps dgrid skip pos0 pos1 N0 N1 D ps other M Hp Hs Hn Hk2 Hsh Hkl Ht Hskip Ls Lo Hf0 Hf1 HN0 HN1 Hsize W16 Hx.
  pose proof u_small as U.
  assert (Hk : k0 <> []) by (destruct k0; [destruct Hk2; discriminate|discriminate]).
  destruct (densities_near mul sum ex prod eps k0 nk shells pos0 W N0 M Hp Hs Hk Hn Hf0 ltac:(lia) Ht W16) as [ds0 [Ed0 G0]].
  { intros f x H1 H2. apply (Hx f x); [left; exact H1|exact H2]. }
  destruct (densities_near mul sum ex prod eps k0 nk shells other W N1 M Hp Hs Hk Hn Hf1 ltac:(lia) Ht W16) as [ds1 [Ed1 G1]].
  { intros f x H1 H2. apply (Hx f x); [right; exact H1|exact H2]. }
  fold D in Ed0, Ed1, G0, G1.
  set (vs := fun t : list Z => wave (map fval k0) (unshift nk t)).
  set (vv := fun (_ : unit) t a b => fst (mul (kget_in D (nth a ds0 []) t) (cxconj D (kget_in D (nth b ds1 []) t)))).
  set (g := 2 * W + 16 * u + 8 * (INR N0 + INR N1) * u).
  assert (L0 : length ds0 = length pos0) by (symmetry; exact (Forall2_len _ _ _ _ _ G0)). assert (L1 : length ds1 = length pos0) by (rewrite <- Lo; symmetry; exact (Forall2_len _ _ _ _ _ G1)).
  assert (Nz : forall N l, (forall f : list (list f64), In f l -> f <> [] /\ (length f <= N)%nat) -> l <> [] -> 1 <= INR N).
  { intros N l H Hl. destruct l as [|f l]; [congruence|]. destruct (H f (or_introl eq_refl)) as [Q1 Q2]. change 1 with (INR 1). apply le_INR. destruct f; [congruence|]. cbn [length] in Q2. lia. }
  assert (Small : forall N, (Z.of_nat N <= 2 ^ 47)%Z -> INR N * u <= / 64 /\ INR N <= p2 48).
  { intros N HN. assert (Q : INR N <= p2 47) by (rewrite p2_Z by lia; rewrite INR_IZR_INZ; apply IZR_le; exact HN). split; [|apply Rle_trans with (1 := Q); apply p2_le; lia].
    unfold u. apply Rle_trans with (p2 47 * p2 (-53)); [apply Rmult_le_compat_r; [left; apply p2_pos|exact Q]|]. rewrite <- p2_add. unfold p2. simpl powerRZ. lra. }
  destruct (Small N0 HN0) as [S0 B0]. destruct (Small N1 HN1) as [S1 B1]. clear Small.
  assert (Q0 : 0 <= INR N0) by apply pos_INR. assert (Q1 : 0 <= INR N1) by apply pos_INR.
  assert (M0 : 0 <= INR N0 * u) by (apply Rmult_le_pos; lra). assert (M1 : 0 <= INR N1 * u) by (apply Rmult_le_pos; lra).
  assert (P49 : p2 48 <= p2 49) by (apply p2_le; lia).
  (* one product of two densities *)
  assert (Term : forall kl t a b, In kl shells -> In t kl -> (a < length pos0)%nat -> (b < length pos0)%nat ->
    ok (vv tt t a b) /\ Rabs (fval (vv tt t a b) - density_cross (vs t) (map (map fval) (nth a pos0 [])) (map (map fval) (nth b other []))) <= INR N0 * INR N1 * (3 * g + 16 * u) /\ Rabs (fval (vv tt t a b)) <= 3 * (INR N0 * INR N1)).
  { intros kl t a b H1 H2 Ha Hb.
    assert (Hb' : (b < length other)%nat) by (rewrite Lo; exact Hb).
    destruct (Forall2_nth_error _ _ _ _ _ a [] G0 Ha) as [da [Ea Fa]]. destruct (Forall2_nth_error _ _ _ _ _ b [] G1 Hb') as [db [Eb Fb]].
    destruct (Fa kl t H1 H2) as [Ka [Da Na]]. destruct (Fb kl t H1 H2) as [Kb [Db Nb]].
    assert (Xa : nth a ds0 [] = da) by (apply nth_error_nth; exact Ea). assert (Xb : nth b ds1 [] = db) by (apply nth_error_nth; exact Eb).
    rewrite density_cross_rho. unfold vv. rewrite Xa, Xb. fold (vs t) in Da, Db, Na, Nb.
    assert (O0 : 1 <= INR N0) by (apply (Nz N0 pos0 Hf0); intros E; rewrite E in Ha; cbn in Ha; lia).
    assert (O1 : 1 <= INR N1) by (apply (Nz N1 other Hf1); intros E; rewrite E in Hb'; cbn in Hb'; lia).
    assert (W0 : 0 <= W).
    { pose proof (nth_In pos0 [] Ha) as I0. destruct (Hf0 _ I0) as [Nn _]. destruct (nth a pos0 []) as [|x xs] eqn:E; [congruence|]. destruct (Hx _ x (or_introl I0) (or_introl eq_refl)) as [_ [[He _] Wx]].
      specialize (Wx kl t H1 H2). pose proof (wave_error_pos eps (map fval k0) (unshift nk t) (map fval x) He). lra. }
    apply (cross_near mul sum ex); try assumption; try lra.
    - split; unfold g; lra.
    - apply Rle_trans with (1 := Da). apply Rmult_le_compat_l; [exact Q0|]. unfold g. lra.
    - apply Rle_trans with (1 := Db). apply Rmult_le_compat_l; [exact Q1|]. unfold g. lra. }
  (* the loop *)
  assert (Run : over_shells (fun st kvec => tcf_vector_in F64ops (collective_sum_in D F64ops (@fst f64 f64) ds0 ds1 kvec) (nofZ F64ops 1) steps (length ds0) dgrid skip st)
      (repeat (tcf_in0 F64ops) (length shells)) shells =
    Ok (map (fun kl => ev_in F64ops (all_events_in F64ops unit (list Z) vv (fun _ => nofZ F64ops 1) steps ps [tt] kl) (tcf_in0 F64ops)) shells)).
  { assert (Eg : repeat (tcf_in0 F64ops) (length shells) = map (fun kl : list (list Z) => ev_in F64ops [] (tcf_in0 F64ops)) shells).
    { clear. induction shells as [|a r IH]; cbn [length repeat map]; [reflexivity|]. f_equal. exact IH. }
    rewrite Eg. rewrite (over_shells_ev_in F64ops _ _ (fun t => pair_events_in F64ops (vv tt t) (nofZ F64ops 1) steps ps)).
    - f_equal. apply map_ext. intros kl. f_equal. unfold all_events_in. cbn [flat_map app]. rewrite app_nil_r. reflexivity.
    - intros kl t st H1 H2. rewrite L0. apply tcf_vector_in_ok; [exact Ls|exact Hskip|]. intros a b Ha Hb. unfold collective_sum_in, vv, D.
      rewrite (get_Ok _ ds0 a []) by (rewrite L0; exact Ha). rewrite (get_Ok _ ds1 b []) by (rewrite L1; exact Hb). reflexivity. }
  assert (Val : forall kl d, In kl shells -> (exists p, In p ps /\ pair_dt steps p = d) ->
    let s := nsum F64ops (acf_terms F64ops unit (list Z) vv steps ps [tt] kl d) in let c := nsum F64ops (cnt_terms F64ops unit (list Z) (fun _ => nofZ F64ops 1) steps ps [tt] kl d) in
    ok c /\ 0 < fval c /\ ok (SFdiv fprec femax s c) /\
    Rabs (fval (SFdiv fprec femax s c) - pair_mean (fun k a b => density_cross k (nth a (map (map (map fval)) pos0) []) (nth b (map (map (map fval)) other) [])) steps ps (map vs kl) d)
      <= INR N0 * INR N1 * (6 * W + INR (24 * (N0 + N1) + 6 * (length kl * length (pairs_at steps d ps)) + 72) * u)).
  { intros kl d Hkl' [p [Hpp Hd]] s c.
    assert (Hq : (1 <= length (pairs_at steps d ps))%nat).
    { assert (H : In p (pairs_at steps d ps)) by (apply filter_In; split; [assumption|apply Z.eqb_eq; assumption]). destruct (pairs_at steps d ps); [destruct H|cbn; lia]. }
    assert (Hk1 : (1 <= length kl)%nat) by (specialize (Hkl kl Hkl'); destruct kl; [congruence|cbn; lia]).
    assert (Hq2 : (length (pairs_at steps d ps) <= length ps)%nat) by (unfold pairs_at; apply P_Overlap.filter_length_le).
    specialize (Hsize kl Hkl').
    set (n := (length kl * length (pairs_at steps d ps))%nat).
    assert (Sz : (n <= length kl * length ps)%nat) by (apply Nat.mul_le_mono_l; exact Hq2). assert (N1' : (1 <= n)%nat) by (unfold n; nia).
    set (l := visits unit (list Z) steps ps [tt] kl d).
    assert (Ll : length l = n) by (unfold l; rewrite visits_length; cbn [length]; unfold n; lia).
    assert (Hl0 : l <> []) by (intros E; rewrite E in Ll; cbn in Ll; lia).
    assert (O0 : 1 <= INR N0 /\ 1 <= INR N1).
    { apply admitted_lt in Hpp. destruct Hpp as [Ha Hb]. split; [apply (Nz N0 pos0 Hf0); intros E; rewrite E in Ha; cbn in Ha; lia|]. apply (Nz N1 other Hf1). intros E. rewrite <- Lo, E in Ha. cbn in Ha. lia. }
    destruct O0 as [O0 O1]. set (P := INR N0 * INR N1) in *. assert (P1 : 1 <= P) by (unfold P; nra).
    assert (PB : 3 * P <= p2 98).
    { assert (P <= p2 48 * p2 48) by (unfold P; apply Rmult_le_compat; lra). assert (p2 98 = 4 * (p2 48 * p2 48)) by (rewrite <- p2_add; change 98%Z with (2 + (48 + 48))%Z; rewrite (p2_add 2 (48 + 48)); unfold p2 at 1; simpl powerRZ; lra). lra. }
    destruct (mean_near _ l (fun v => vv (fst (fst v)) (snd (fst v)) (fst (snd v)) (snd (snd v))) (fun v => density_cross (vs (snd (fst v))) (map (map fval) (nth (fst (snd v)) pos0 [])) (map (map fval) (nth (snd (snd v)) other []))) s (P * (3 * g + 16 * u)) 98 (3 * P)) as [Ks [Bs [Bm Em]]].
    - exact (nsum_sum_of _).
    - exact Hl0.
    - rewrite Ll. lia.
    - lia.
    - exact PB.
    - intros v Hv. apply visits_In in Hv. destruct Hv as [_ [H2 H3]]. apply admitted_lt in H3. destruct H3 as [H3 H4]. destruct (fst (fst v)). apply (Term kl); assumption.
    - rewrite Ll in *.
      assert (Ec : ok c /\ fval c = INR n).
      { destruct (ints_sum (map (fun _ => 1%Z) l) (S754_zero false) 0) as [Kc Ec].
        { apply Forall_forall. intros z Hz. apply in_map_iff in Hz. destruct Hz as [x [<- _]]. lia. } { apply ok_zero. } { reflexivity. } { lia. }
        { pose proof (fold_add_nat _ (fun _ => 1%nat) l 0) as Q. cbn [Z.of_nat Nat.add Pos.of_succ_nat] in Q. rewrite Q. rewrite list_sum_ones, Ll. lia. }
        pose proof (fold_add_nat _ (fun _ => 1%nat) l 0) as Q. cbn [Z.of_nat Nat.add Pos.of_succ_nat] in Q. rewrite Q, list_sum_ones, Ll, <- INR_IZR_INZ, map_map in *. split; [exact Kc|exact Ec]. }
      destruct Ec as [Kc Ec]. assert (Cn : 1 <= INR n) by (change 1 with (INR 1); apply le_INR; exact N1').
      split; [exact Kc|]. split; [rewrite Ec; lra|].
      assert (Rq := div_spec s c (proj1 Ks) (proj1 Kc) (proj2 Ks) (proj2 Kc) ltac:(lra)). rewrite Ec in Rq.
      destruct (rounded_bounded _ _ (p2 99) Rq) as [Kd _]; [apply format_p2; lia| |apply p2_lt; lia|].
      { apply Rle_trans with (1 := Bm). assert (p2 99 = 2 * p2 98) by (change 99%Z with (1 + 98)%Z; rewrite p2_add; unfold p2 at 1; simpl powerRZ; lra). lra. }
      split; [exact Kd|]. pose proof (rounded_error _ _ Rq Kd) as Ed.
      assert (Ey : rmean (map (fun v => density_cross (vs (snd (fst v))) (map (map fval) (nth (fst (snd v)) pos0 [])) (map (map fval) (nth (snd (snd v)) other []))) l) =
        pair_mean (fun k a b => density_cross k (nth a (map (map (map fval)) pos0) []) (nth b (map (map (map fval)) other) [])) steps ps (map vs kl) d).
      { unfold pair_mean. f_equal. rewrite flat_map_map'. unfold l, visits. cbn [flat_map]. rewrite app_nil_r, map_flat_map. apply flat_map_ext. intros t. rewrite map_map. apply map_ext. intros q. cbn [fst snd].
        assert (Nr : forall (l : list (list (list f64))) c, nth c (map (map (map fval)) l) [] = map (map fval) (nth c l [])) by (intros l' c'; change (@nil (list R)) with (map (map fval) []) at 1; apply map_nth).
        rewrite !Nr. reflexivity. }
      rewrite Ey in Em. set (F := pair_mean _ _ _ _ _) in *.
      assert (Ty : tiny <= / 1000 * u) by (apply Rle_trans with (2 := speck); apply p2_le; lia).
      assert (R1 : u * Rabs (fval s / INR n) <= u * (2 * (3 * P))) by (apply Rmult_le_compat_l; lra).
      assert (Pu : u <= P * u) by (rewrite <- (Rmult_1_l u) at 1; apply Rmult_le_compat_r; lra).
      replace (fval (SFdiv fprec femax s c) - F) with ((fval (SFdiv fprec femax s c) - fval s / INR n) + (fval s / INR n - F)) by ring.
      apply Rle_trans with (1 := Rabs_triang _ _). rewrite !plus_INR, !mult_INR, plus_INR.
      replace (INR 24) with 24 by (cbn; lra). replace (INR 6) with 6 by (cbn; lra). replace (INR 72) with 72 by (rewrite INR_IZR_INZ; reflexivity).
      unfold n in *. rewrite mult_INR in *. set (nn := INR (length kl) * INR (length (pairs_at steps d ps))) in *.
      replace (P * (3 * g + 16 * u)) with (6 * (P * W) + 64 * (P * u) + 24 * (INR N0 + INR N1) * (P * u)) in Em by (unfold g; ring).
      replace (P * (6 * W + (24 * (INR N0 + INR N1) + 6 * nn + 72) * u)) with (6 * (P * W) + 24 * (INR N0 + INR N1) * (P * u) + 6 * nn * (P * u) + 72 * (P * u)) by ring.
      replace (2 * nn * u * (3 * P)) with (6 * nn * (P * u)) in Em by ring. lra. }
  destruct (tcf_values_in_all F64ops unit (list Z) vv (fun _ => nofZ F64ops 1) steps ps [tt] shells Hsh ltac:(discriminate) Hkl) as [dts [Rd Ev]].
  { intros kl d H1 H2. destruct (Val kl d H1 H2) as [Kc [Pc _]]. destruct (neq F64ops _ _) eqn:E; [|reflexivity]. apply (eqb_spec _ (S754_zero false) Kc (ok_zero false)) in E. cbn [fval] in E. lra. }
  exists dts. eexists. split; [exact Rd|]. split.
  { unfold fkt_values_in. rewrite Ed0. cbn [bind].
    assert (Eo : match pos1 with None => Ok ds0 | Some q => densities_in D prod k0 nk shells q end = Ok ds1).
    { unfold other in Ed1. destruct pos1 as [q|]; [exact Ed1|]. exact (eq_trans (eq_sym Ed0) Ed1). }
    refine (eq_trans (f_equal (fun z => rho1 <- z ;; sts <- over_shells (fun st kvec => tcf_vector_in F64ops (collective_sum_in D F64ops (@fst f64 f64) ds0 rho1 kvec) (nofZ F64ops 1) steps (length ds0) dgrid skip st)
           (repeat (tcf_in0 F64ops) (length shells)) shells ;; tcf_values_in F64ops sts) Eo) _).
    cbn [bind]. rewrite Run. cbn [bind]. exact Ev. }
  split; [rewrite map_length; reflexivity|].
  intros s i Hss Hi. cbv zeta. rewrite (nth_map_lt _ _ _ _ _ [] _ Hss). rewrite (nth_map_lt _ _ _ _ _ 0%Z _ Hi).
  destruct (Val (nth s shells []) (nth i dts 0%Z)) as [_ [_ [Kv Bv]]]; [apply nth_In; exact Hss|apply Rd, nth_In; exact Hi|]. split; [exact Kv|exact Bv].
Qed.
Print Assumptions C122_collective_accuracy.

(** The two ways of multiplying the factors in the code. *)
Theorem C122_products : forall mul sum ex,
  wave_product mul (flat_product (Fops mul sum ex)) /\ wave_product mul (weight_product (Fops mul sum ex)).
Proof.
  intros mul sum ex. split; intros l Hl.
  - left. apply flat_product_order. exact Hl.
  - right. exact (flat_product_order mul sum ex ((f64_ofZ 1, S754_zero false) :: l) ltac:(discriminate)).
Qed.
Print Assumptions C122_products.

(** The division by the value at t = 0: the first value becomes exactly 1, the others keep the
    relative accuracy of the values. *)
Theorem C122_normalised : forall v0 rest x0 xs E, ok v0 -> Rabs (fval v0 - x0) <= E -> E < Rabs x0 ->
  Forall2 (fun v x => ok v /\ Rabs (fval v - x) <= E) rest xs ->
  exists w out, normalize_first_in F64ops (v0 :: rest) = Ok (w :: out) /\ ok w /\ fval w = 1 /\
    Forall2 (fun x v => Rabs (x / x0) <= p2 500 -> E / (Rabs x0 - E) <= p2 500 ->
       ok v /\ Rabs (fval v - x / x0) <= 2 * (E * (1 + Rabs (x / x0)) / (Rabs x0 - E)) + p2 (-53) * Rabs (x / x0) + p2 (-1075)) xs out.
Proof.
  intros v0 rest x0 xs E K0 E0 EX F. pose proof u_small as U.
  assert (E1 : 0 <= E) by (pose proof (Rabs_pos (fval v0 - x0)); lra).
  assert (A0 : Rabs x0 - E <= Rabs (fval v0)).
  { pose proof (Rabs_triang (fval v0) (- (fval v0 - x0))) as T. rewrite Rabs_Ropp in T. replace (fval v0 + - (fval v0 - x0)) with x0 in T by ring. lra. }
  assert (N0 : fval v0 <> 0) by (intros Z; rewrite Z, Rabs_R0 in A0; lra).
  assert (X0 : x0 <> 0) by (intros Z; rewrite Z, Rabs_R0 in EX; lra).
  set (w := SFdiv fprec femax v0 v0).
  assert (Rw := div_spec v0 v0 (proj1 K0) (proj1 K0) (proj2 K0) (proj2 K0) N0). replace (fval v0 / fval v0) with (IZR 1) in Rw by (field; exact N0).
  destruct (rounded_exact _ _ Rw) as [Kw Ew]; [apply format_Z; lia|rewrite Rabs_right by lra; change (IZR 1) with (p2 0); apply p2_lt; lia|]. fold w in Kw, Ew.
  exists w, (map (fun v => SFdiv fprec femax v v0) rest). split.
  - unfold normalize_first_in. cbn [mapM]. change (@get (num F64ops) (v0 :: rest) 0) with (@Ok (num F64ops) v0). cbn [bind].
    assert (G : forall l : list (num F64ops), mapM (fun v => Ok (ndiv F64ops v v0)) l = Ok (map (fun v => SFdiv fprec femax v v0) l)).
    { clear. induction l as [|v l IH]; [reflexivity|]. cbn [mapM bind]. rewrite IH. reflexivity. }
    rewrite G. reflexivity.
  - split; [exact Kw|]. split; [exact Ew|]. clear - F A0 N0 X0 E0 E1 EX K0 U. induction F as [|v x rest xs [Kv Ev] F IH]; [constructor|]. cbn [map]. constructor; [|exact IH].
    intros B1 B2. set (q := x / x0) in *. set (D := Rabs x0 - E) in *. assert (Dp : 0 < D) by (unfold D; lra).
    assert (Rq := div_spec v v0 (proj1 Kv) (proj1 K0) (proj2 Kv) (proj2 K0) N0).
    assert (Q : Rabs (fval v / fval v0 - q) <= E * (1 + Rabs q) / D).
    { replace (fval v / fval v0 - q) with (((fval v - x) - q * (fval v0 - x0)) / fval v0) by (unfold q; field; split; assumption).
      unfold Rdiv at 1. rewrite Rabs_mult, Rabs_inv. unfold Rdiv. apply Rmult_le_compat; [apply Rabs_pos|left; apply Rinv_0_lt_compat; lra| |apply Rinv_le_contravar; lra].
      apply Rle_trans with (1 := Rabs_triang _ _). rewrite Rabs_Ropp, Rabs_mult. pose proof (Rabs_pos q) as Pq. assert (Rabs q * Rabs (fval v0 - x0) <= Rabs q * E) by (apply Rmult_le_compat_l; assumption). lra. }
    set (S0 := E * (1 + Rabs q) / D) in *.
    assert (S1 : S0 = E / D + Rabs q * (E / D)) by (unfold S0; field; lra).
    assert (P500 : 1 <= p2 500) by (change 1 with (p2 0); apply p2_le; lia). assert (P1000 : p2 1003 = 8 * (p2 500 * p2 500)) by (rewrite <- p2_add; change 1003%Z with (3 + (500 + 500))%Z; rewrite (p2_add 3 (500 + 500)); unfold p2 at 1; simpl powerRZ; lra).
    assert (D0 : 0 <= E / D) by (unfold Rdiv; apply Rmult_le_pos; [assumption|left; apply Rinv_0_lt_compat; assumption]).
    assert (QE : Rabs q * (E / D) <= p2 500 * p2 500) by (apply Rmult_le_compat; try assumption; apply Rabs_pos).
    assert (P2 : p2 500 <= p2 500 * p2 500) by nra.
    assert (Bq : Rabs (fval v / fval v0) <= S0 + Rabs q).
    { replace (fval v / fval v0) with ((fval v / fval v0 - q) + q) by ring. apply Rle_trans with (1 := Rabs_triang _ _). lra. }
    destruct (rounded_bounded _ _ (p2 1003) Rq) as [Kd _]; [apply format_p2; lia|lra|apply p2_lt; lia|].
    split; [exact Kd|]. pose proof (rounded_error _ _ Rq Kd) as Ed.
    replace (fval (SFdiv fprec femax v v0) - q) with ((fval (SFdiv fprec femax v v0) - fval v / fval v0) + (fval v / fval v0 - q)) by ring.
    apply Rle_trans with (1 := Rabs_triang _ _).
    change (p2 (-53)) with u. change (p2 (-1075)) with tiny.
    assert (u * Rabs (fval v / fval v0) <= u * (S0 + Rabs q)) by (apply Rmult_le_compat_l; lra).
    assert (Sp : 0 <= S0) by (apply Rle_trans with (2 := Q); apply Rabs_pos).
    assert (u * S0 <= 1 * S0) by (apply Rmult_le_compat_r; lra). lra.
Qed.
Print Assumptions C122_normalised.

(** ** A case: two particles in the plane that swap places, k = (1, 0) and (0, 1), and the exponential of C120. *)
Definition pos122 : list (list (list f64)) :=
  [[[half64; half64]; [S754_zero false; half64]]; [[S754_zero false; half64]; [half64; S754_zero false]]].
Lemma pos122_fine : forall f x, In f pos122 -> In x f -> length x = 2%nat /\ fine_phases ex_exp (/ 100) [f64_ofZ 1; f64_ofZ 1] x /\
  forall kl t, In kl [[[4; 3]; [3; 4]]]%Z -> In t kl -> wave_error (/ 100) (map fval [f64_ofZ 1; f64_ofZ 1]) (unshift 3 t) (map fval x) <= / 16.
Proof.
  intros f x Hf Hx. destruct C120_nonvacuous as [H _]. destruct (ofZ_exact 1) as [K1 E1]; [lia|]. pose proof u_small as U.
  assert (X : exists a b, x = [a; b] /\ In [a] [[half64]; [S754_zero false]] /\ In [b] [[half64]; [S754_zero false]]).
  { destruct Hf as [<-|[<-|[]]]; destruct Hx as [<-|[<-|[]]]; do 2 eexists; (split; [reflexivity|]); cbn; auto. }
  destruct X as [a [b [-> [Ha Hb]]]]. destruct (H _ Ha) as [[E0 Fa] Wa]. destruct (H _ Hb) as [[_ Fb] Wb]. split; [reflexivity|]. split.
  - split; [exact E0|]. intros [|[|j]] Hj; [exact (Fa 0%nat ltac:(cbn; lia))|exact (Fb 0%nat ltac:(cbn; lia))|cbn in Hj; lia].
  - assert (P : forall c, In [c] [[half64]; [S754_zero false]] -> 0 <= phase_error (/ 100) (fval (f64_ofZ 1)) (fval c) <= / 50).
    { intros c Hc. destruct half_value as [_ Eh]. rewrite E1. unfold phase_error. change (p2 (-53)) with u. rewrite Rmult_1_l.
      assert (Rabs (fval c) <= / 2) by (destruct Hc as [Hc|[Hc|[]]]; injection Hc as <-; [rewrite Eh, Rabs_right; lra|cbn [fval]; rewrite Rabs_R0; lra]). pose proof (Rabs_pos (fval c)). nra. }
    pose proof (P a Ha) as Pa. pose proof (P b Hb) as Pb. intros kl t [<-|[]] [<-|[<-|[]]]; cbn [map unshift wave_error]; change (p2 (-53)) with u; change (4 - 3)%Z with 1%Z; change (3 - 3)%Z with 0%Z; rewrite Rabs_R0, (Rabs_right 1) by lra; lra.
Qed.
Example C122_nonvacuous :
  (forall f x, In f pos122 -> In x f -> length x = 2%nat /\ fine_phases ex_exp (/ 100) [f64_ofZ 1; f64_ofZ 1] x /\
     forall kl t, In kl [[[4; 3]; [3; 4]]]%Z -> In t kl -> wave_error (/ 100) (map fval [f64_ofZ 1; f64_ofZ 1]) (unshift 3 t) (map fval x) <= / 16) /\
  fkt_values_in (Fops plain_product plain_sum ex_exp) F64ops (@fst f64 f64) (flat_product (Fops plain_product plain_sum ex_exp))
    [f64_ofZ 1; f64_ofZ 1] 3 [[[4; 3]; [3; 4]]]%Z 1 [0; 10]%Z [(0, 0); (0, 1)]%nat 1 pos122 None
  = Ok ([0; 10]%Z, [[S754_finite false 8593709908250366 (-51); S754_finite false 8455880126086824 (-51)]]).
Proof. split; [exact pos122_fine|]. vm_compute. reflexivity. Qed.
