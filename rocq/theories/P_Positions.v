(** Proofs about the positions and species used by a calculation. *)
From Coq Require Import Ascii String List ZArith Bool Arith Lia Reals Lra Sorting.Sorted.
From Verif Require Import PyBase PyBaseFacts Num NumFacts M_Helpers M_Correlation M_Dynamics M_Realspace M_Groups M_Arrays M_Cache.
From Verif Require Import Spec_Stats Spec_Correlation Spec_Dynamics P_Helpers P_Dynamics P_Dynamics2 P_FixCM P_Cache Spec_Positions.
Import ListNotations.
Local Open Scope nat_scope.

Lemma dump_recorded : forall A (s : system A), recorded s -> dump_unf A s = Ok (map recorded_pos s).
Proof.
  intros A s H. apply mapM_pure. intros p Hp. specialize (H p Hp). unfold recorded_pos. destruct (p_unf p); [reflexivity|congruence].
Qed.

Lemma one_body_selects : forall P (cbk : list (callback P)), (forall f, In f cbk -> selects f) -> selects (one_body cbk).
Proof. intros P [|f r] H s p Hp; [exact Hp|]. exact (H f (or_introl eq_refl) s p Hp). Qed.

Lemma has_recorded : forall A (s : system A) frames, s <> [] -> recorded s -> has_unfolded A (s :: frames) = Ok true.
Proof.
  intros A [|p s] frames Hne H; [congruence|]. unfold has_unfolded. cbn [get nth_error bind].
  specialize (H p (or_introl eq_refl)). destruct (p_unf p); [reflexivity|congruence].
Qed.

Lemma setup_recorded : forall A (D : decor A) cbk (frames : list (system A)),
  frames <> [] -> hd [] frames <> [] -> (forall s, In s frames -> recorded s) -> (forall f, In f cbk -> selects f) ->
  setup_onebody A D unfolded_only false cbk frames arrays0 =
  Ok (mkArr [] [] [] (map (fun s => map recorded_pos (one_body cbk s)) frames)).
Proof.
  intros A D cbk frames Hne Hh Hr Hs. destruct frames as [|s frames]; [congruence|].
  rewrite setup_unfolded by (apply has_recorded; [exact Hh|apply Hr; left; reflexivity]).
  rewrite (mapM_pure _ _ _ (fun s => map recorded_pos (one_body cbk s))); [reflexivity|].
  intros x Hx. cbn [bind]. apply dump_recorded. intros p Hp. apply (Hr x Hx). exact (one_body_selects _ cbk Hs x p Hp).
Qed.

(** Without recorded positions the trajectory is unfolded. *)
Lemma setup_reconstructed : forall A (D : decor A) fix_cm cbk (frames : list (system A)),
  has_unfolded A frames = Ok false -> has_unfolded A (d_unfold D fix_cm frames) = Ok false ->
  setup_onebody A D unfolded_only fix_cm cbk frames arrays0 =
  Ok (mkArr [] [] [] (map (fun s => map p_pos (one_body cbk s)) (d_unfold D fix_cm frames))).
Proof.
  intros A D fix_cm cbk frames H H'. unfold setup_onebody, source, dump_first, dump_second, unfolded_only.
  cbn [w_unf w_pos w_vel w_ids]. rewrite H. cbn [bind andb negb orb]. rewrite H'. reflexivity.
Qed.

(** *** Center of mass *)
Local Open Scope R_scope.
Lemma weighted_dim : forall d s, usable_frame d s -> of_dim d (weighted s).
Proof.
  intros d s [_ [H _]] q Hq. unfold weighted in Hq. apply in_map_iff in Hq. destruct Hq as [p [<- Hp]]. cbn [snd].
  destruct (H p Hp) as [u [E L]]. unfold recorded_pos. rewrite E. exact L.
Qed.
Lemma usable_recorded : forall d s, usable_frame d s -> recorded s.
Proof. intros d s [_ [H _]] p Hp. destruct (H p Hp) as [u [E _]]. rewrite E. discriminate. Qed.

Lemma relative_vsub : forall d s p, usable_frame d s -> In p s ->
  vsub Rops (recorded_pos p) (center_of_mass Rops (weighted s) d) = relative_pos d s p.
Proof.
  intros d s p Hu Hp. pose proof (weighted_dim d s Hu) as Hd.
  assert (In (p_mass p : R, recorded_pos p : list R) (weighted s)) as Hin by (apply (in_map (fun p : part Rops => (p_mass p : R, recorded_pos p : list R)) s p Hp)).
  pose proof (fixed_length d _ _ Hd Hin) as L. cbn [snd] in L. flatR. unfold relative_pos.
  apply list_nth_ext; [rewrite map_length, seq_length; exact L|]. intros k Hk. rewrite L in Hk.
  pose proof (fixed_nth d _ _ k Hd Hin Hk) as N. cbn [snd] in N. flatR. rewrite N.
  rewrite (nth_map_lt _ _ _ _ _ _ 0%nat) by (rewrite seq_length; exact Hk). rewrite seq_nth by exact Hk. reflexivity.
Qed.

Lemma fix_relative : forall d s, usable_frame d s -> fix_unfolded Rops s = Ok (relative d s).
Proof.
  intros d s Hu. unfold fix_unfolded. rewrite (dump_recorded Rops s (usable_recorded d s Hu)). cbn [bind].
  assert (combine (map p_mass s) (map recorded_pos s) = weighted s) as Ec.
  { clear. unfold weighted. induction s as [|p s IH]; [reflexivity|]. cbn. f_equal. exact IH. }
  change (num Rops) with R in *. rewrite Ec.
  match goal with |- bind ?x _ = _ => replace x with (Ok (map (fun p : R * list R => (fst p, vsub Rops (snd p) (center_of_mass Rops (weighted s) d))) (weighted s))) end.
  2: { symmetry. refine (fix_cm_frame_spec d (weighted s) _ (weighted_dim d s Hu)). destruct Hu as [Hn _]. destruct s; [congruence|discriminate]. }
  cbn [bind]. f_equal. unfold relative.
  assert (forall l, (forall p, In p l -> In p s) ->
    map2 (fun (p : part Rops) (mu : R * list R) => mkPart (A:=Rops) (p_species p) (p_mass p) (p_pos p) (p_vel p) (Some (snd mu))) l
      (map (fun p : R * list R => (fst p, vsub Rops (snd p) (center_of_mass Rops (weighted s) d))) (weighted l))
    = map (fun p => with_unf (A:=Rops) p (relative_pos d s p)) l) as Hl; [|apply Hl; auto].
  induction l as [|p l IH]; intros Hin; [reflexivity|]. change (weighted (p :: l)) with ((p_mass p : R, recorded_pos p : list R) :: weighted l). unfold map2 in *. cbn [map combine fst snd]. apply f_equal2; [|apply IH; intros q Hq; apply Hin; right; exact Hq].
  unfold with_unf. cbn [snd]. f_equal. apply (f_equal Some). apply relative_vsub; [exact Hu|apply Hin; left; reflexivity].
Qed.

Lemma relative_recorded : forall d s, recorded (relative d s).
Proof. intros d s p Hp. unfold relative in Hp. apply in_map_iff in Hp. destruct Hp as [q [<- _]]. discriminate. Qed.

Lemma setup_fixed : forall (D : decor Rops) d cbk (frames : list (system Rops)),
  frames <> [] -> (forall s, In s frames -> usable_frame d s) -> (forall f, In f cbk -> selects f) ->
  setup_onebody Rops D unfolded_only true cbk frames arrays0 =
  Ok (mkArr [] [] [] (map (fun s => map recorded_pos (one_body cbk (relative d s))) frames)).
Proof.
  intros D d cbk frames Hne Hu Hs. destruct frames as [|s frames]; [congruence|].
  rewrite setup_unfolded by (apply has_recorded; [apply (Hu s (or_introl eq_refl))|apply (usable_recorded d), Hu; left; reflexivity]).
  rewrite (mapM_pure _ _ _ (fun s => map recorded_pos (one_body cbk (relative d s)))); [reflexivity|].
  intros x Hx. rewrite (fix_relative d x (Hu x Hx)). cbn [bind]. apply dump_recorded. intros p Hp.
  apply (relative_recorded d x). exact (one_body_selects _ cbk Hs _ p Hp).
Qed.

(** A filter by a property of the particle: relative positions of the selected ones. *)
Lemma relative_filter : forall d s q, blind q ->
  map recorded_pos (filter q (relative d s)) = map (relative_pos d s) (filter q s).
Proof.
  intros d s q Hq. unfold relative.
  assert (forall l, map recorded_pos (filter q (map (fun p => with_unf (A:=Rops) p (relative_pos d s p)) l)) = map (relative_pos d s) (filter q l)) as H; [|apply H].
  induction l as [|p l IH]; [reflexivity|]. cbn [map filter]. rewrite Hq. destruct (q p); cbn [map]; [f_equal|]; exact IH.
Qed.

Lemma weighted_drifted : forall c s, weighted (drifted c s) = displaced c (weighted s).
Proof. intros c s. unfold weighted, drifted, displaced. rewrite !map_map. reflexivity. Qed.

Lemma usable_drifted : forall c s, usable_frame (length c) s -> usable_frame (length c) (drifted c s).
Proof.
  intros c s Hu. pose proof Hu as [Hn [H HM]]. split; [|split].
  - destruct s; [congruence|discriminate].
  - intros p Hp. unfold drifted in Hp. apply in_map_iff in Hp. destruct Hp as [q [<- Hq]].
    exists (plusv (recorded_pos q) c). split; [reflexivity|]. apply plusv_length.
    apply (weighted_dim _ _ Hu (p_mass q : R, recorded_pos q : list R)). apply (in_map (fun p : part Rops => (p_mass p : R, recorded_pos p : list R)) s q Hq).
  - rewrite weighted_drifted, total_displaced. exact HM.
Qed.

Lemma relative_drifted : forall c s, usable_frame (length c) s -> relative (length c) (drifted c s) = relative (length c) s.
Proof.
  intros c s Hu. pose proof Hu as [Hn [H HM]]. unfold relative, drifted at 2. rewrite map_map. apply map_ext_in. intros p Hp.
  unfold with_unf at 1 3. cbn [p_species p_mass p_pos p_vel with_unf]. unfold with_unf. do 2 f_equal. unfold relative_pos. apply map_ext_in.
  intros k Hk. apply in_seq in Hk. rewrite weighted_drifted, total_displaced.
  pose proof (weighted_dim _ _ Hu) as Hd.
  rewrite moment_displaced by (try exact Hd; lia). cbn [recorded_pos p_unf].
  assert (length (recorded_pos p : list R) = length c) as Lp.
  { apply (Hd (p_mass p : R, recorded_pos p : list R)). apply (in_map (fun p : part Rops => (p_mass p : R, recorded_pos p : list R)) s p Hp). }
  unfold recorded_pos at 1. cbn [p_unf].
  rewrite plusv_nth by (try exact Lp; lia). fold (recorded_pos p). change (num Rops) with R in *. field. exact HM.
Qed.

(** *** Species *)
Local Open Scope nat_scope.
Notation slt := (fun a b => String.ltb a b = true).

Lemma ltb_lt : forall a b, String.ltb a b = true <-> String.compare a b = Lt.
Proof. intros a b. unfold String.ltb. destruct (String.compare a b); split; congruence. Qed.
Lemma compare_gt_lt : forall a b, String.compare a b = Gt -> String.compare b a = Lt.
Proof. intros a b H. rewrite String.compare_antisym, H. reflexivity. Qed.
Lemma ascii_compare_lt_trans : forall a b c, Ascii.compare a b = Lt -> Ascii.compare b c = Lt -> Ascii.compare a c = Lt.
Proof. intros a b c. unfold Ascii.compare. rewrite !N.compare_lt_iff. lia. Qed.
Lemma compare_lt_trans : forall a b c, String.compare a b = Lt -> String.compare b c = Lt -> String.compare a c = Lt.
Proof.
  induction a as [|x a IH]; intros [|y b] [|z c] H1 H2; cbn in *; try discriminate; try reflexivity.
  destruct (Ascii.compare x y) eqn:E1; destruct (Ascii.compare y z) eqn:E2; try discriminate.
  - apply Ascii.compare_eq_iff in E1. subst y. rewrite E2. exact (IH b c H1 H2).
  - apply Ascii.compare_eq_iff in E1. subst y. rewrite E2. reflexivity.
  - apply Ascii.compare_eq_iff in E2. subst z. rewrite E1. reflexivity.
  - rewrite (ascii_compare_lt_trans _ _ _ E1 E2). reflexivity.
Qed.
Lemma slt_trans : forall a b c, slt a b -> slt b c -> slt a c.
Proof. intros a b c. rewrite !ltb_lt. apply compare_lt_trans. Qed.
Lemma slt_irrefl : forall a, ~ slt a a.
Proof.
  intros a. rewrite ltb_lt. pose proof (String.compare_antisym a a) as H. destruct (String.compare a a); cbn in H; congruence.
Qed.
Lemma slt_total : forall a b, a = b \/ slt a b \/ slt b a.
Proof.
  intros a b. rewrite !ltb_lt. destruct (String.compare a b) eqn:E; [left; apply String.compare_eq_iff, E|auto|].
  right. right. apply compare_gt_lt, E.
Qed.

Lemma insert_In : forall x l y, In y (insert_species x l) <-> y = x \/ In y l.
Proof.
  intros x. induction l as [|z l IH]; intros y; cbn [insert_species].
  - cbn. intuition.
  - destruct (String.eqb_spec x z) as [->|N].
    + cbn. intuition.
    + destruct (String.ltb x z); cbn [In]; [intuition|]. rewrite IH. intuition.
Qed.
Lemma insert_sorted : forall x l, StronglySorted slt l -> StronglySorted slt (insert_species x l).
Proof.
  intros x l H. induction H as [|y l H IH Hall]; cbn [insert_species]; [repeat constructor|].
  destruct (String.eqb_spec x y) as [->|N]; [constructor; assumption|].
  destruct (String.ltb x y) eqn:E.
  - constructor; [constructor; assumption|]. constructor; [exact E|]. rewrite Forall_forall in *. intros z Hz. apply slt_trans with y; [exact E|exact (Hall z Hz)].
  - constructor; [exact IH|]. apply Forall_forall. intros z Hz. apply insert_In in Hz. rewrite Forall_forall in Hall. destruct Hz as [->|Hz]; [|exact (Hall z Hz)].
    destruct (slt_total x y) as [C|[C|C]]; congruence.
Qed.

Lemma distinct_species_list : forall A (s : system A), species_list s (distinct_species A s).
Proof.
  intros A s. unfold species_list. induction s as [|p s [IH1 IH2]].
  - split; [constructor|]. intros x. split; [intros []|intros [q [[] _]]].
  - cbn [distinct_species fold_right]. fold (distinct_species A s). split; [apply insert_sorted, IH1|].
    intros x. rewrite insert_In, IH2. split.
    + intros [->|[q [Hq E]]]; [exists p; split; [left; reflexivity|reflexivity]|exists q; split; [right; exact Hq|exact E]].
    + intros [q [[<-|Hq] E]]; [left; congruence|right; exists q; split; assumption].
Qed.

Lemma sorted_unique : forall l l', StronglySorted slt l -> StronglySorted slt l' -> (forall x, In x l <-> In x l') -> l = l'.
Proof.
  intros l l' H. revert l'. induction H as [|x l H IH Hall]; intros l' H' E.
  - destruct l' as [|y l']; [reflexivity|]. destruct (proj2 (E y) (or_introl eq_refl)).
  - destruct H' as [|y l' H' Hall']; [destruct (proj1 (E x) (or_introl eq_refl))|].
    rewrite Forall_forall in Hall, Hall'.
    assert (x = y) as <-.
    { destruct (proj1 (E x) (or_introl eq_refl)) as [->|Hx]; [reflexivity|].
      destruct (proj2 (E y) (or_introl eq_refl)) as [->|Hy]; [reflexivity|].
      destruct (slt_irrefl x). apply slt_trans with y; [apply Hall, Hy|apply Hall', Hx]. }
    f_equal. apply IH; [exact H'|]. intros z. split; intros Hz.
    + destruct (proj1 (E z) (or_intror Hz)) as [->|]; [|assumption]. destruct (slt_irrefl z). apply Hall, Hz.
    + destruct (proj2 (E z) (or_intror Hz)) as [->|]; [|assumption]. destruct (slt_irrefl z). apply Hall', Hz.
Qed.
Lemma species_list_unique : forall A (s : system A) l, species_list s l -> distinct_species A s = l.
Proof.
  intros A s l [H1 H2]. destruct (distinct_species_list A s) as [H3 H4]. apply sorted_unique; auto.
  intros x. rewrite H2, H4. reflexivity.
Qed.

Lemma species_index_nth : forall l x i, species_index l x = Ok i -> i < length l /\ nth i l ""%string = x.
Proof.
  induction l as [|y l IH]; intros x i H; cbn [species_index] in H; [discriminate|].
  destruct (String.eqb_spec y x) as [->|N].
  - apply Ok_inj in H. subst i. cbn. split; [lia|reflexivity].
  - apply bind_Ok_inv in H. destruct H as [j [E H]]. apply Ok_inj in H. subst i. destruct (IH x j E). cbn. split; [lia|assumption].
Qed.
Lemma species_index_ok : forall l x, In x l -> exists i, species_index l x = Ok i.
Proof.
  induction l as [|y l IH]; intros x H; [destruct H|]. cbn [species_index].
  destruct (String.eqb_spec y x) as [->|N]; [eexists; reflexivity|].
  destruct H as [->|H]; [congruence|]. destruct (IH x H) as [i ->]. eexists. reflexivity.
Qed.
Lemma species_index_err : forall l x, ~ In x l -> species_index l x = Err ValueError.
Proof.
  induction l as [|y l IH]; intros x H; [reflexivity|]. cbn [species_index].
  destruct (String.eqb_spec y x) as [->|N]; [destruct H; left; reflexivity|]. rewrite IH by (intros C; apply H; right; exact C). reflexivity.
Qed.

Lemma sorted_nodup : forall l, StronglySorted slt l -> NoDup l.
Proof.
  intros l H. induction H as [|x l H IH Hall]; constructor; [|assumption]. intros C. rewrite Forall_forall in Hall. exact (slt_irrefl x (Hall x C)).
Qed.
