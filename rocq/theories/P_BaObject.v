(** Proofs about the bond-angle distribution from the trajectory to the result. *)
From Coq Require Import Ascii String List ZArith Bool Arith Lia Reals Lra Sorting.Sorted.
From Verif Require Import PyBase PyBaseFacts Num NumFacts M_Helpers M_Correlation M_Dynamics M_Realspace M_Groups M_Arrays M_Cache M_BondAngle M_BaObject.
From Verif Require Import Spec_Stats Spec_Correlation Spec_Dynamics Spec_BondAngle P_Helpers P_Dynamics P_Dynamics2 P_FixCM P_Cache
  Spec_Positions Spec_BaObject P_Positions P_BondAngle T_BondAngle.
Import ListNotations.
Local Open Scope nat_scope.

Definition idx (l : list string) (x : string) : nat := match species_index l x with Ok i => i | Err _ => 0 end.
Lemma idx_ok : forall l x, In x l -> species_index l x = Ok (idx l x) /\ idx l x < length l /\ nth (idx l x) l ""%string = x.
Proof.
  intros l x H. destruct (species_index_ok l x H) as [i E]. unfold idx. rewrite E. split; [reflexivity|]. apply species_index_nth, E.
Qed.

Lemma ids_of_ok : forall A l (s : system A), (forall p, In p s -> In (p_species p) l) ->
  ids_of A l s = Ok (map (fun p => idx l (p_species p)) s).
Proof. intros A l s H. apply mapM_pure. intros p Hp. apply idx_ok, H, Hp. Qed.

Lemma dump_ids : forall A (frames : list (system A)) flt l,
  species_list (hd [] frames) l -> frames <> [] ->
  (forall s p, In s frames -> In p (flt s) -> In (p_species p) l) ->
  dump_first A (mkPS true false false true) frames flt
  = Ok (map (fun s => map p_pos (flt s)) frames, [], map (fun s => map (fun p => idx l (p_species p)) (flt s)) frames).
Proof.
  intros A frames flt l Hl Hne Hs. destruct frames as [|s0 frames]; [congruence|]. unfold dump_first.
  cbn [w_pos w_vel w_ids orb get nth_error bind when].
  rewrite (species_list_unique A s0 l Hl).
  rewrite (mapM_pure _ _ _ (fun s => map (fun p => idx l (p_species p)) (flt s))); [reflexivity|].
  intros s Hin. apply ids_of_ok. intros p Hp. exact (Hs s p Hin Hp).
Qed.

Lemma setup_ids : forall A (D : decor A) cbk (frames : list (system A)) l,
  species_list (hd [] frames) l -> frames <> [] ->
  (forall s p, In s frames -> In p (first_group cbk s) \/ In p (second_group cbk s) -> In (p_species p) l) ->
  exists a0 a1, setup_twobody A D (mkPS true false false true) false cbk frames arrays0 arrays0 arrays0 = Ok (a0, a1) /\
    a_pos a0 = map (fun s => map p_pos (first_group cbk s)) frames /\
    a_pos a1 = map (fun s => map p_pos (second_group cbk s)) frames /\
    a_ids a0 = map (fun s => map (fun p => idx l (p_species p)) (first_group cbk s)) frames /\
    a_ids a1 = map (fun s => map (fun p => idx l (p_species p)) (second_group cbk s)) frames.
Proof.
  intros A D cbk frames l Hl Hne Hs. destruct cbk as [|f [|g r]]; cbn [first_group second_group] in *.
  - unfold setup_twobody, setup_onebody, source, dump_second. cbn [w_unf w_pos bind andb orb].
    rewrite (dump_ids A frames _ l Hl Hne) by (intros s p H1 H2; apply (Hs s p H1); left; exact H2).
    eexists. eexists. cbn [bind fst snd]. split; [reflexivity|]. repeat split; reflexivity.
  - unfold setup_twobody, setup_onebody, source, dump_second. cbn [w_unf w_pos bind andb orb].
    rewrite (dump_ids A frames _ l Hl Hne) by (intros s p H1 H2; apply (Hs s p H1); left; exact H2).
    eexists. eexists. cbn [bind fst snd]. split; [reflexivity|]. repeat split; reflexivity.
  - unfold setup_twobody. cbn [w_unf].
    rewrite (dump_ids A frames f l Hl Hne) by (intros s p H1 H2; apply (Hs s p H1); left; exact H2). cbn [bind fst snd].
    rewrite (dump_ids A frames g l Hl Hne) by (intros s p H1 H2; apply (Hs s p H1); right; exact H2).
    eexists. eexists. cbn [bind fst snd]. split; [reflexivity|]. repeat split; reflexivity.
Qed.

Lemma check_matrix : forall rc l n, n <= length l -> check_cutoffs Rops n (cutoff_matrix rc l) = Ok tt.
Proof.
  intros rc l n Hn. unfold check_cutoffs.
  rewrite (mapM_pure _ _ _ (fun i => map (fun j => rc (nth i l ""%string) (nth j l ""%string)) (seq 0 n))); [reflexivity|].
  intros i Hi. apply in_seq in Hi. unfold cutoff_matrix.
  rewrite (get_Ok _ _ i []) by (rewrite map_length; lia). cbn [bind]. apply mapM_pure. intros j Hj. apply in_seq in Hj.
  rewrite (nth_map_lt _ _ _ _ _ _ ""%string) by lia. rewrite (get_Ok _ _ j 0%R) by (rewrite map_length; lia).
  rewrite (nth_map_lt _ _ _ _ _ _ ""%string) by lia. reflexivity.
Qed.

(** The frames given to the kernels. *)
Definition built (l : list string) (cbk : list (callback (part Rops))) (s : system Rops) (side : list R) : frame Rops :=
  mkFrame (A:=Rops) side (map p_pos (first_group cbk s)) (map (fun p => idx l (p_species p)) (first_group cbk s))
    (map p_pos (second_group cbk s)) (map (fun p => idx l (p_species p)) (second_group cbk s)).

Lemma cutoff_at : forall rc l a b, In a l -> In b l -> nth (idx l b) (nth (idx l a) (cutoff_matrix rc l) []) 0%R = rc a b.
Proof.
  intros rc l a b Ha Hb. destruct (idx_ok l a Ha) as [_ [La Na]]. destruct (idx_ok l b Hb) as [_ [Lb Nb]].
  unfold cutoff_matrix. rewrite (nth_map_lt _ _ _ _ _ _ ""%string) by lia. rewrite (nth_map_lt _ _ _ _ _ _ ""%string) by lia. congruence.
Qed.

Lemma built_neighbours : forall rc l cbk (s : system Rops) side i,
  (forall p, In p (first_group cbk s) \/ In p (second_group cbk s) -> In (p_species p) l) -> i < length (first_group cbk s) ->
  neighbours side (nth i (map p_pos (first_group cbk s)) []) (map p_pos (second_group cbk s))
    (map (fun p => idx l (p_species p)) (second_group cbk s)) (cutoffs (cutoff_matrix rc l) (built l cbk s side) i)
  = bonded rc side (nth i (first_group cbk s) no_part) (second_group cbk s).
Proof.
  intros rc l cbk s side i Hs Hi. unfold neighbours, bonded. rewrite map_length. apply filter_ext_in. intros j Hj. apply in_seq in Hj.
  unfold cutoffs, built. cbn [f_ids0].
  rewrite (nth_map_lt _ _ _ (first_group cbk s) i [] no_part) by lia.
  rewrite (nth_map_lt _ _ _ (second_group cbk s) j [] no_part) by lia.
  rewrite (nth_map_lt _ _ _ (first_group cbk s) i 0 no_part) by lia.
  rewrite (nth_map_lt _ _ _ (second_group cbk s) j 0 no_part) by lia.
  rewrite cutoff_at; [reflexivity|apply Hs; left; apply nth_In; lia|apply Hs; right; apply nth_In; lia].
Qed.

Lemma flat_map_nth : forall X Y (f : X -> list Y) l d, flat_map f l = flat_map (fun i => f (nth i l d)) (seq 0 (length l)).
Proof.
  intros X Y f l d. induction l as [|x l IH]; [reflexivity|]. cbn [flat_map length seq nth]. rewrite IH. f_equal.
  rewrite <- seq_shift, !flat_map_concat_map, map_map. reflexivity.
Qed.
Lemma flat_map_ext_in : forall X Y (f g : X -> list Y) l, (forall x, In x l -> f x = g x) -> flat_map f l = flat_map g l.
Proof. intros X Y f g l H. rewrite !flat_map_concat_map. f_equal. apply map_ext_in, H. Qed.

Lemma built_angles : forall rc l cbk (s : system Rops) side,
  (forall p, In p (first_group cbk s) \/ In p (second_group cbk s) -> In (p_species p) l) ->
  frame_angles (cutoff_matrix rc l) (built l cbk s side) = named_angles rc side (first_group cbk s) (second_group cbk s).
Proof.
  intros rc l cbk s side Hs. unfold frame_angles, named_angles. rewrite (flat_map_nth _ _ _ (first_group cbk s) no_part).
  cbn [built f_pos0 f_pos1 f_side f_ids1]. rewrite map_length. apply flat_map_ext_in. intros i Hi. apply in_seq in Hi.
  rewrite built_neighbours by (try exact Hs; lia). rewrite (nth_map_lt _ _ _ (first_group cbk s) i [] no_part) by lia. reflexivity.
Qed.

Lemma built_ok : forall rc l cbk (s : system Rops) side,
  (forall p, In p (first_group cbk s) \/ In p (second_group cbk s) -> In (p_species p) l) ->
  (forall L, In L side -> (0 < L)%R) ->
  (forall p, In p (first_group cbk s) -> length (bonded rc side p (second_group cbk s)) <= 50) ->
  Spec_BondAngle.frame_ok (cutoff_matrix rc l) (built l cbk s side).
Proof.
  intros rc l cbk s side Hs Hside Hfew. constructor; cbn [built f_side f_pos0 f_pos1 f_ids0 f_ids1].
  - exact Hside.
  - rewrite !map_length. reflexivity.
  - rewrite !map_length. reflexivity.
  - intros i Hi. apply in_map_iff in Hi. destruct Hi as [p [<- Hp]]. unfold cutoff_matrix. rewrite map_length. apply idx_ok, Hs. left. exact Hp.
  - intros i row Hi Hrow. apply in_map_iff in Hi. destruct Hi as [p [<- Hp]]. unfold cutoff_matrix in Hrow. apply in_map_iff in Hrow.
    destruct Hrow as [a [<- _]]. rewrite map_length. apply idx_ok, Hs. right. exact Hp.
  - intros i Hi. rewrite map_length in Hi. rewrite built_neighbours by assumption. apply Hfew, nth_In, Hi.
Qed.
