(** Structure factors and scattering functions under relabellings and changes of the
    unit of length. *)
From Coq Require Import List ZArith Reals Bool Arith Lra Lia Permutation Sorting.Sorted.
From Verif Require Import PyBase PyBaseFacts Num NumFacts M_Helpers M_KGrid M_Fourier M_Fkt Spec_Stats Spec_Dynamics
  Spec_BondAngle P_BondAngle Spec_KGrid P_KGrid P_KGrid2 P_KGrid4 P_Expo Spec_Fourier Spec_Correlation Spec_Fkt
  P_Sk P_Sk2 P_Sk3 P_Tcf P_Fkt P_Fkt2 P_Fkt3 P_Dynamics P_Dynamics2 T_Fourier T_Fkt Spec_Symmetry P_Symmetry P_Symmetry2.
Import ListNotations.
Local Open Scope R_scope.

Lemma density_cross_perm2 : forall k p p' q q', Permutation p p' -> Permutation q q' ->
  density_cross k p' q' = density_cross k p q.
Proof.
  intros k p p' q q' Hp Hq.
  assert (C : forall a b, density_cross k a b = density_cross k b a) by (intros; unfold density_cross; ring).
  rewrite <- (density_cross_perm k p p' q' Hp), (C p q'), <- (density_cross_perm k q q' p Hq). apply C.
Qed.

Lemma group_perm : forall nd a a', Forall2 (@Permutation (list R)) a a' -> group_ok nd a -> group_ok nd a'.
Proof.
  intros nd a a' H. induction H as [|f g a a' Hfg Ha IH]; intros G; [intros f []|].
  assert (Ga : group_ok nd a) by (intros h Hh; apply G; right; exact Hh).
  intros h [<-|Hh]; [|apply IH; assumption]. destruct (G f (or_introl eq_refl)) as [N L]. split.
  - intros ->. apply N. apply Permutation_nil. symmetry. exact Hfg.
  - intros x Hx. apply L. eapply Permutation_in; [symmetry; exact Hfg|exact Hx].
Qed.

Lemma mean_N_perm : forall a a', Forall2 (@Permutation (list R)) a a' -> mean_N a' = mean_N a.
Proof.
  intros a a' H. unfold mean_N. f_equal. induction H as [|f g a a' Hfg Ha IH]; [reflexivity|].
  cbn [map]. rewrite IH, (Permutation_length Hfg). reflexivity.
Qed.

Lemma shell_mean_ext : forall s s' skip n vs, (forall v i, In v vs -> (i < n)%nat -> s v i = s' v i) ->
  shell_mean s skip n vs = shell_mean s' skip n vs.
Proof.
  intros s s' skip n vs H. unfold shell_mean. f_equal. apply flat_map_ext_in. intros i Hi. apply map_ext_in. intros v Hv.
  apply H; [exact Hv|]. eapply origins_lt; exact Hi.
Qed.

Lemma sk_relabel : forall same K skip a b a' b',
  usable K -> (1 <= skip)%nat -> a <> [] -> length a = length b ->
  group_ok (length (ks_k0 K)) a -> group_ok (length (ks_k0 K)) b -> (same = true -> b = a) -> (same = true -> b' = a') ->
  (same = true \/ length (ks_k0 K) = 2%nat \/ length (ks_k0 K) = 3%nat) ->
  Forall2 (@Permutation (list R)) a a' -> Forall2 (@Permutation (list R)) b b' ->
  structure_factor same false (fun _ => K) skip (pair_frames a' b') = structure_factor same false (fun _ => K) skip (pair_frames a b).
Proof.
  intros same K skip a b a' b' U Hs Ha L Ga Gb E E' Hd Fa Fb.
  destruct (Forall2_nth_all _ _ _ _ _ [] [] Fa) as [La Na]. destruct (Forall2_nth_all _ _ _ _ _ [] [] Fb) as [Lb Nb].
  rewrite !pairs_value; try assumption; try congruence; try (eapply group_perm; eassumption).
  2:{ intros ->. destruct a; [congruence|discriminate]. }
  rewrite (mean_N_perm _ _ Fa), (mean_N_perm _ _ Fb), La. f_equal. apply map_ext. intros vs. cbv zeta.
  rewrite (shell_mean_ext (fun v i => density_cross v (nth i a' []) (nth i b' [])) (fun v i => density_cross v (nth i a []) (nth i b []))); [reflexivity|].
  intros v i _ Hi. apply density_cross_perm2; [apply Na; exact Hi|apply Nb; congruence].
Qed.

Lemma pair_mean_ext : forall s s' steps ps vs d, (forall v p, In v vs -> In p ps -> s v (fst p) (snd p) = s' v (fst p) (snd p)) ->
  pair_mean s steps ps vs d = pair_mean s' steps ps vs d.
Proof.
  intros s s' steps ps vs d H. unfold pair_mean. f_equal. apply flat_map_ext_in. intros v Hv. apply map_ext_in. intros p Hp.
  apply H; [exact Hv|]. apply filter_In in Hp. apply Hp.
Qed.

Lemma reported_unique : forall steps ps d1 d2, reported steps ps d1 -> reported steps ps d2 -> d1 = d2.
Proof. intros steps ps d1 d2 [S1 H1] [S2 H2]. apply sorted_lt_irr_ext; try assumption. intros d. rewrite H1, H2. reflexivity. Qed.

Lemma fkt_relabel : forall K steps dgrid skip a b a' b' same,
  usable K -> ks_vectors K <> [] -> (length (ks_k0 K) = 2 \/ length (ks_k0 K) = 3)%nat -> (1 <= skip)%nat ->
  length steps = length a -> length b = length a ->
  group_ok (length (ks_k0 K)) a -> group_ok (length (ks_k0 K)) b -> (same = true -> b = a) -> (same = true -> b' = a') ->
  Forall2 (@Permutation (list R)) a a' -> Forall2 (@Permutation (list R)) b b' ->
  forall normalize, fkt_compute K steps dgrid skip normalize a' (second same b') = fkt_compute K steps dgrid skip normalize a (second same b).
Proof.
  intros K steps dgrid skip a b a' b' same U Hv Hd Hs Ls L1 Ga Gb E E' Fa Fb.
  destruct (Forall2_nth_all _ _ _ _ _ [] [] Fa) as [La Na]. destruct (Forall2_nth_all _ _ _ _ _ [] [] Fb) as [Lb Nb].
  destruct (fkt_values_ok K steps dgrid skip a b same U Hv Hd Hs Ls L1 Ga Gb E) as [d1 [R1 E1]].
  destruct (fkt_values_ok K steps dgrid skip a' b' same U Hv Hd Hs ltac:(congruence) ltac:(congruence)
    (group_perm _ _ _ Fa Ga) (group_perm _ _ _ Fb Gb) E') as [d2 [R2 E2]].
  intros normalize. unfold second. rewrite E1, E2. rewrite La in *. rewrite (reported_unique _ _ _ _ R2 R1). cbv zeta.
  assert (X : collective_values a' b' steps (admitted dgrid skip (length a)) (kvectors Rops K) d1
            = collective_values a b steps (admitted dgrid skip (length a)) (kvectors Rops K) d1).
  { unfold collective_values. apply map_ext. intros vs. apply map_ext. intros d. apply pair_mean_ext.
    intros v p _ Hp. apply admitted_lt in Hp. apply density_cross_perm2; [apply Na; apply Hp|apply Nb; rewrite L1; apply Hp]. }
  unfold collective_values in X. rewrite X. reflexivity.
Qed.

Lemma fs_pair_relabel : forall sigma N v x y, Permutation sigma (seq 0 N) -> length x = N -> length y = N ->
  fs_pair v (relabel sigma x) (relabel sigma y) = fs_pair v x y.
Proof.
  intros sigma N v x y Hp Hx Hy. unfold fs_pair, rmean. pose proof (relabel_combine R sigma N x y Hp Hx Hy) as P.
  rewrite !map_length, (Permutation_length P). f_equal. apply rsum_perm, Permutation_map, P.
Qed.

Lemma relabel_in : forall X sigma N (x : list (list X)) r, Permutation sigma (seq 0 N) -> length x = N ->
  In r (relabel sigma x) -> In r x.
Proof.
  intros X sigma N x r Hp Hx Hr. unfold relabel in Hr. apply in_map_iff in Hr. destruct Hr as [i [<- Hi]].
  apply nth_In. eapply Permutation_in in Hi; [|exact Hp]. apply in_seq in Hi. lia.
Qed.

(** Equal without normalization, equal with it. *)
Lemma fskt_normalize : forall K K' steps steps' dgrid dgrid' skip skip' pos pos' r,
  fskt_legacy K steps dgrid skip false pos = Ok r -> fskt_legacy K' steps' dgrid' skip' false pos' = Ok r ->
  forall normalize, fskt_legacy K' steps' dgrid' skip' normalize pos' = fskt_legacy K steps dgrid skip normalize pos.
Proof.
  intros K K' steps steps' dgrid dgrid' skip skip' pos pos' r E1 E2 [|]; [|congruence]. unfold fskt_legacy, self_compute in *.
  destruct (self_loop self_sum legacy_block K steps dgrid skip pos) as [s1|]; cbn [bind] in *; [|discriminate].
  destruct (self_loop self_sum legacy_block K' steps' dgrid' skip' pos') as [s2|]; cbn [bind] in *; [|discriminate].
  destruct (tcf_values s1) as [t1|]; cbn [bind] in *; [|discriminate]. destruct (tcf_values s2) as [t2|]; cbn [bind] in *; [|discriminate].
  apply Ok_inj in E1. apply Ok_inj in E2. rewrite E1, E2. reflexivity.
Qed.

Lemma relabel_same : forall nd sigma pos N, Permutation sigma (seq 0 N) -> same_particles nd pos N ->
  same_particles nd (map (relabel sigma) pos) N.
Proof.
  intros nd sigma pos N Hp [HN [Hne Hf]]. split; [exact HN|]. split; [destruct pos; [congruence|discriminate]|].
  intros f Hin. apply in_map_iff in Hin. destruct Hin as [g [<- Hg]]. destruct (Hf g Hg) as [Lg Lx].
  split; [rewrite (relabel_length _ _ N); assumption|]. intros x Hx. apply Lx. eapply relabel_in; eassumption.
Qed.

Lemma fskt_relabel : forall sigma K steps dgrid skip pos N nb normalize,
  Permutation sigma (seq 0 N) ->
  usable K -> ks_vectors K <> [] -> (1 <= skip)%nat -> length steps = length pos ->
  same_particles (length (ks_k0 K)) pos N ->
  fskt_legacy K steps dgrid skip normalize (map (relabel sigma) pos) = fskt_legacy K steps dgrid skip normalize pos /\
  fskt_fast nb K steps dgrid skip normalize (map (relabel sigma) pos) = fskt_fast nb K steps dgrid skip normalize pos.
Proof.
  intros sigma K steps dgrid skip pos N nb normalize Hp U Hv Hs Ls SP.
  pose proof (relabel_same _ sigma pos N Hp SP) as SP'.
  assert (Ls' : length steps = length (map (relabel sigma) pos)) by (rewrite map_length; exact Ls).
  destruct (C46_value K steps dgrid skip pos N U Hv Hs Ls SP) as [d1 [R1 [_ [E1 _]]]].
  destruct (C46_value K steps dgrid skip _ N U Hv Hs Ls' SP') as [d2 [R2 [_ [E2 _]]]].
  rewrite map_length in *. rewrite (reported_unique _ _ _ _ R2 R1) in *.
  assert (X : self_values (map (relabel sigma) pos) steps (admitted dgrid skip (length pos)) (kvectors Rops K) d1
            = self_values pos steps (admitted dgrid skip (length pos)) (kvectors Rops K) d1).
  { unfold self_values. apply map_ext. intros vs. apply map_ext. intros d. apply pair_mean_ext.
    intros v p _ Hin. apply admitted_lt in Hin. destruct SP as [_ [_ Hf]].
    rewrite !(nth_indep (map (relabel sigma) pos) [] (relabel sigma [])) by (rewrite map_length; apply Hin).
    rewrite !map_nth. apply (fs_pair_relabel _ N); [exact Hp| |]; apply Hf, nth_In; apply Hin. }
  rewrite X in E2. pose proof (fskt_normalize _ _ _ _ _ _ _ _ _ _ _ E1 E2 normalize) as EL.
  split; [exact EL|]. rewrite !(C46_fast_is_legacy nb K steps dgrid skip _ N) by (try assumption; rewrite ?map_length; assumption). exact EL.
Qed.

(** ** Unit of length *)
Section Unit.
Variable c : R.
Hypothesis Hc : 0 < c.

(** The same wave-vectors in the new unit. *)
Definition rescaled (K : kstate Rops) : kstate Rops :=
  mkK (A:=Rops) (map (fun k => k / c) (ks_k0 K)) (ks_vectors K) (ks_offset K) (map (fun k => k / c) (ks_grid K)).

Lemma rescaled_usable : forall K, usable K -> usable (rescaled K).
Proof. intros K [A B C D E]. split; cbn [rescaled ks_offset ks_grid ks_vectors ks_k0]; rewrite ?map_length; assumption. Qed.

Lemma rescaled_vectors : forall K, kvectors Rops (rescaled K) = map (map (timesv (/ c))) (kvectors Rops K).
Proof.
  intros K. unfold kvectors. cbn [rescaled ks_offset ks_vectors ks_k0]. rewrite map_map. apply map_ext. intros l. rewrite map_map.
  apply map_ext. intros t. unfold kscale. generalize (map (fun n => (n - ks_offset K)%Z) t). generalize (ks_k0 K). change (num Rops) with R.
  induction l0 as [|k l0 IH]; intros [|z zs]; try reflexivity. cbn [map combine timesv]. f_equal; [|apply IH].
  cbn [fst snd nmul nofZ Rops]. unfold Rdiv. match goal with |- @eq _ ?a ?b => change (@eq R a b) end. ring.
Qed.

Lemma dot_scale : forall v x, dot (timesv (/ c) v) (timesv c x) = dot v x.
Proof.
  induction v as [|a v IH]; intros [|b x]; try reflexivity. cbn [timesv map dot]. fold (timesv (/ c) v). fold (timesv c x).
  rewrite IH. field. lra.
Qed.

Lemma density_scale : forall v p q, density_cross (timesv (/ c) v) (map (timesv c) p) (map (timesv c) q) = density_cross v p q.
Proof.
  intros v p q. unfold density_cross. rewrite !rho_re_unit, !rho_im_unit, !map_map.
  rewrite !(map_ext (fun x => cos (dot (timesv (/ c) v) (timesv c x))) (fun x => cos (dot v x))) by (intros; rewrite dot_scale; reflexivity).
  rewrite !(map_ext (fun x => sin (dot (timesv (/ c) v) (timesv c x))) (fun x => sin (dot v x))) by (intros; rewrite dot_scale; reflexivity).
  reflexivity.
Qed.

Lemma fs_pair_scale : forall v x y, fs_pair (timesv (/ c) v) (map (timesv c) x) (map (timesv c) y) = fs_pair v x y.
Proof.
  intros v x y. unfold fs_pair. rewrite combine_map_both, map_map. f_equal. apply map_ext. intros p. cbn [fst snd].
  rewrite !dot_scale. reflexivity.
Qed.

Lemma timesv_len' : forall v, length (timesv c v) = length v.
Proof. intros. unfold timesv. apply map_length. Qed.

Lemma nth_scale_frames : forall i (a : list (list (list R))), nth i (map (map (timesv c)) a) [] = map (timesv c) (nth i a []).
Proof. intros. apply (map_nth (map (timesv c)) a []). Qed.

Lemma group_scale : forall nd a, group_ok nd a -> group_ok nd (map (map (timesv c)) a).
Proof.
  intros nd a G f Hf. apply in_map_iff in Hf. destruct Hf as [g [<- Hg]]. destruct (G g Hg) as [N L]. split.
  - destruct g; [congruence|discriminate].
  - intros x Hx. apply in_map_iff in Hx. destruct Hx as [y [<- Hy]]. rewrite timesv_len'. auto.
Qed.

Lemma mean_N_scale : forall a, mean_N (map (map (timesv c)) a) = mean_N a.
Proof. intros a. unfold mean_N. rewrite map_map. f_equal. apply map_ext. intros f. rewrite map_length. reflexivity. Qed.

Lemma shell_mean_map : forall (g : list R -> list R) s skip n vs, shell_mean s skip n (map g vs) = shell_mean (fun v i => s (g v) i) skip n vs.
Proof. intros. unfold shell_mean. f_equal. apply flat_map_ext. intros i. apply map_map. Qed.

Lemma pair_mean_map : forall (g : list R -> list R) s steps ps vs d,
  pair_mean s steps ps (map g vs) d = pair_mean (fun v a b => s (g v) a b) steps ps vs d.
Proof.
  intros. unfold pair_mean. f_equal. induction vs as [|v vs IH]; [reflexivity|]. cbn [map flat_map]. rewrite IH. reflexivity.
Qed.

Lemma sk_scale : forall same K skip a b,
  usable K -> (1 <= skip)%nat -> a <> [] -> length a = length b ->
  group_ok (length (ks_k0 K)) a -> group_ok (length (ks_k0 K)) b -> (same = true -> b = a) ->
  (same = true \/ length (ks_k0 K) = 2%nat \/ length (ks_k0 K) = 3%nat) ->
  structure_factor same false (fun _ => rescaled K) skip (pair_frames (map (map (timesv c)) a) (map (map (timesv c)) b))
  = structure_factor same false (fun _ => K) skip (pair_frames a b).
Proof.
  intros same K skip a b U Hs Ha L Ga Gb E Hd.
  assert (LK : length (ks_k0 (rescaled K)) = length (ks_k0 K)) by apply map_length.
  rewrite !pairs_value; rewrite ?LK, ?map_length; try assumption; try apply group_scale; try assumption; try (apply rescaled_usable; assumption).
  3:{ intros H. rewrite (E H). reflexivity. }
  2:{ destruct a; [congruence|discriminate]. }
  rewrite rescaled_vectors, map_map, !mean_N_scale. f_equal. apply map_ext. intros vs. cbv zeta. rewrite shell_mean_map.
  rewrite (shell_mean_ext _ (fun v i => density_cross v (nth i a []) (nth i b []))); [reflexivity|].
  intros v i _ _. rewrite !nth_scale_frames. apply density_scale.
Qed.

Lemma fkt_scale : forall K steps dgrid skip normalize a b same,
  usable K -> ks_vectors K <> [] -> (length (ks_k0 K) = 2 \/ length (ks_k0 K) = 3)%nat -> (1 <= skip)%nat ->
  length steps = length a -> length b = length a ->
  group_ok (length (ks_k0 K)) a -> group_ok (length (ks_k0 K)) b -> (same = true -> b = a) ->
  fkt_compute (rescaled K) steps dgrid skip normalize (map (map (timesv c)) a) (second same (map (map (timesv c)) b))
  = fkt_compute K steps dgrid skip normalize a (second same b).
Proof.
  intros K steps dgrid skip normalize a b same U Hv Hd Hs Ls L1 Ga Gb E.
  assert (LK : length (ks_k0 (rescaled K)) = length (ks_k0 K)) by apply map_length.
  destruct (fkt_values_ok K steps dgrid skip a b same U Hv Hd Hs Ls L1 Ga Gb E) as [d1 [R1 E1]].
  destruct (fkt_values_ok (rescaled K) steps dgrid skip (map (map (timesv c)) a) (map (map (timesv c)) b) same) as [d2 [R2 E2]];
    rewrite ?LK, ?map_length; try assumption; try apply group_scale; try assumption; try (apply rescaled_usable; assumption).
  { intros H. rewrite (E H). reflexivity. }
  unfold second. rewrite E1, E2. rewrite map_length in *. rewrite (reported_unique _ _ _ _ R2 R1). cbv zeta.
  rewrite rescaled_vectors, map_map.
  assert (X : map (fun vs => map (pair_mean (fun v x y => density_cross v (nth x (map (map (timesv c)) a) []) (nth y (map (map (timesv c)) b) []))
       steps (admitted dgrid skip (length a)) (map (timesv (/ c)) vs)) d1) (kvectors Rops K)
     = map (fun vs => map (pair_mean (fun v x y => density_cross v (nth x a []) (nth y b []))
       steps (admitted dgrid skip (length a)) vs) d1) (kvectors Rops K)).
  { apply map_ext. intros vs. apply map_ext. intros d. rewrite pair_mean_map. apply pair_mean_ext. intros v p _ _.
    rewrite !nth_scale_frames. apply density_scale. }
  rewrite X. reflexivity.
Qed.

Lemma fskt_scale : forall K steps dgrid skip pos N nb normalize,
  usable K -> ks_vectors K <> [] -> (1 <= skip)%nat -> length steps = length pos ->
  same_particles (length (ks_k0 K)) pos N ->
  fskt_legacy (rescaled K) steps dgrid skip normalize (map (map (timesv c)) pos) = fskt_legacy K steps dgrid skip normalize pos /\
  fskt_fast nb (rescaled K) steps dgrid skip normalize (map (map (timesv c)) pos) = fskt_fast nb K steps dgrid skip normalize pos.
Proof.
  intros K steps dgrid skip pos N nb normalize U Hv Hs Ls SP.
  assert (LK : length (ks_k0 (rescaled K)) = length (ks_k0 K)) by apply map_length.
  assert (SP' : same_particles (length (ks_k0 (rescaled K))) (map (map (timesv c)) pos) N).
  { rewrite LK. destruct SP as [HN [Hne Hf]]. split; [exact HN|]. split; [destruct pos; [congruence|discriminate]|].
    intros f Hin. apply in_map_iff in Hin. destruct Hin as [g [<- Hg]]. destruct (Hf g Hg) as [Lg Lx]. rewrite map_length.
    split; [exact Lg|]. intros x Hx. apply in_map_iff in Hx. destruct Hx as [y [<- Hy]]. rewrite timesv_len'. auto. }
  assert (Ls' : length steps = length (map (map (timesv c)) pos)) by (rewrite map_length; exact Ls).
  pose proof (rescaled_usable K U) as U'.
  destruct (C46_value K steps dgrid skip pos N U Hv Hs Ls SP) as [d1 [R1 [_ [E1 _]]]].
  destruct (C46_value (rescaled K) steps dgrid skip _ N U' Hv Hs Ls' SP') as [d2 [R2 [_ [E2 _]]]].
  rewrite map_length in R2, E2. rewrite (reported_unique _ _ _ _ R2 R1) in *.
  assert (X : self_values (map (map (timesv c)) pos) steps (admitted dgrid skip (length pos)) (kvectors Rops (rescaled K)) d1
            = self_values pos steps (admitted dgrid skip (length pos)) (kvectors Rops K) d1).
  { unfold self_values. rewrite rescaled_vectors, map_map. apply map_ext. intros vs. apply map_ext. intros d.
    rewrite pair_mean_map. apply pair_mean_ext. intros v p _ _. rewrite !nth_scale_frames. apply fs_pair_scale. }
  rewrite X in E2. pose proof (fskt_normalize _ _ _ _ _ _ _ _ _ _ _ E1 E2 normalize) as EL.
  split; [exact EL|]. rewrite (C46_fast_is_legacy nb K steps dgrid skip _ N) by assumption.
  rewrite (C46_fast_is_legacy nb (rescaled K) steps dgrid skip _ N) by assumption. exact EL.
Qed.
End Unit.
