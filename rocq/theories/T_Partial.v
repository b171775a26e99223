(** Theorems about Partial: C52. *)
From Coq Require Import Ascii String List ZArith Bool Arith Lia Reals Lra Sorting.Sorted.
From Verif Require Import PyBase PyBaseFacts Num NumFacts M_Helpers M_Correlation M_Dynamics M_Realspace M_KGrid M_Fourier M_Fkt
  M_Partial Spec_Stats Spec_Correlation Spec_Dynamics Spec_Pairs Spec_Fourier P_Sk P_Sk2 P_Sk3 P_Gr P_Gr2 P_Partial
  T_Realspace T_Fourier T_Fkt.
Import ListNotations.
Local Open Scope nat_scope.

(** The result held by the entry [k] of the dictionary. *)
Definition entry {K Res} (eqb : K -> K -> bool) (d : list (K * obj Res)) (k : K) : option Res :=
  match dict_get eqb d k with Some o => o_result o | None => None end.

(** One body: entry by entry the result of a single correlation with that filter; an
    exception is that of one of them. *)
Theorem C52_one_body : forall Res (run : nat -> list string -> nat -> res Res) sp, NoDup sp ->
  match partial_compute1 run sp (partial_init1 sp) with
  | Ok d => forall i s, nth_error sp i = Some s -> exists v, run i [s] 0 = Ok v /\ entry String.eqb d s = Some v
  | Err e => exists i s, nth_error sp i = Some s /\ run i [s] 0 = Err e
  end.
Proof.
  intros Res run sp N. pose proof (compute1_correct Res run sp N) as H.
  destruct (partial_compute1 run sp (partial_init1 sp)) as [d|e]; [|assumption].
  intros i s Hs. destruct (H i s Hs) as [v [E G]]. exists v. split; [assumption|]. unfold entry. rewrite G. reflexivity.
Qed.
Print Assumptions C52_one_body.

(** Two bodies, a class declared symmetric that is symmetric, or not declared. *)
Theorem C52_two_bodies : forall Res (run : nat -> list string -> nat -> res Res) sym sp, NoDup sp ->
  (sym = true -> forall s a b, In a sp -> In b sp -> a <> b -> run s [a; b] 0 = run s [b; a] 0) ->
  match partial_compute2 run sym sp (partial_init2 sp) with
  | Ok d => forall a b, In a sp -> In b sp -> exists s v,
      run s (if String.eqb a b then [a] else [a; b]) 0 = Ok v /\ entry pair_eqb d (a, b) = Some v
  | Err e => exists s a b, In a sp /\ In b sp /\ run s (if String.eqb a b then [a] else [a; b]) 0 = Err e
  end.
Proof.
  intros Res run sym sp N Hsym. pose proof (compute2_correct Res run sym sp N) as H.
  assert (In_sp : forall i s, In (i, s) (enum sp) -> In s sp).
  { intros i s Hi. apply enum_fst in Hi. destruct Hi as [_ Hi]. eapply nth_error_In; eassumption. }
  destruct (partial_compute2 run sym sp (partial_init2 sp)) as [d|e].
  - intros a b Ha Hb. destruct (enum_in _ _ Ha) as [i Hi], (enum_in _ _ Hb) as [j Hj].
    destruct (H ((i, a), (j, b))) as [o [Eo D]]; [apply in_prod; assumption|]. cbn [fst snd] in Eo.
    unfold done in D. cbn [fst snd] in D. destruct D as [_ [_ [_ [v [Rv D]]]]].
    destruct ((i <=? j) || negb sym) eqn:C; cbn [negb fst snd] in D; unfold pair_filters in D.
    + exists (i * length sp + j), v. split; [assumption|]. unfold entry. rewrite Eo. assumption.
    + exists (j * length sp + i), v. split; [|unfold entry; rewrite Eo; assumption].
      apply orb_false_iff in C. destruct C as [C Cs]. apply negb_false_iff in Cs. apply Nat.leb_gt in C.
      destruct (String.eqb_spec b a) as [E|E].
      * subst. rewrite String.eqb_refl. assumption.
      * destruct (String.eqb_spec a b) as [E'|E']; [congruence|]. rewrite Hsym by assumption. assumption.
  - destruct H as [[[i a] [j b]] [Hp E]]. apply in_prod_iff in Hp. destruct Hp as [Ha Hb].
    exists (i * length sp + j), a, b. split; [|split]; [eapply In_sp; eassumption|eapply In_sp; eassumption|exact E].
Qed.
Print Assumptions C52_two_bodies.

(** ** The classes *)
(** Positions of the particles of one species, frame by frame. *)
Definition group (frames : list (list (string * list R))) (s : string) : list (list (list R)) :=
  map (fun f => map snd (filter (fun p => String.eqb (fst p) s) f)) frames.

(** What the object with the filters [fs] computes, given the function of the two
    groups; [later] stands for the second and further calls. *)
Definition run_of {Res} (frames : list (list (string * list R)))
  (f : nat -> bool -> list (list (list R)) -> list (list (list R)) -> res Res)
  (later : nat -> list string -> nat -> res Res) (s : nat) (fs : list string) (k : nat) : res Res :=
  match k, fs with
  | 0, [a] => f s true (group frames a) (group frames a)
  | 0, [a; b] => f s false (group frames a) (group frames b)
  | _, _ => later s fs k
  end.

(** Radial distribution function. *)
Theorem C52_gr : forall D pi V crop ndims (grid es : list R) skip frames sides later sp,
  is_distance D -> edges_of_grid Rops grid = Ok es -> StronglySorted Rlt es -> NoDup sp ->
  (forall a b, In a sp -> In b sp -> a <> b -> gr_input false skip (group frames a) (group frames b) sides) ->
  let gr := fun (_ : nat) same p0 p1 => gr_legacy Rops pi ndims same grid skip p0 p1 sides V crop in
  forall d, partial_compute2 (run_of frames gr later) true sp (partial_init2 sp) = Ok d ->
  forall a b, In a sp -> In b sp -> exists v,
    gr_legacy Rops pi ndims (String.eqb a b) grid skip (group frames a) (group frames b) sides V crop = Ok v /\
    entry pair_eqb d (a, b) = Some v.
Proof.
  intros D pi V crop ndims grid es skip frames sides later sp HD He Hs N Hin gr d H a b Ha Hb.
  pose proof (C52_two_bodies _ (run_of frames gr later) true sp N) as G. rewrite H in G.
  destruct (G ltac:(intros _ s x y Hx Hy Hxy; cbn [run_of]; unfold gr; eapply C28_symmetric; eauto) a b Ha Hb) as [s [v [E1 E2]]].
  exists v. split; [|assumption]. destruct (String.eqb_spec a b) as [<-|E]; exact E1.
Qed.
Print Assumptions C52_gr.

(** Structure factor in two and three dimensions: each entry is that of its pair with
    wave-vectors [K s] selected by one of the objects. *)
Theorem C52_sk : forall (K : nat -> kstate Rops) nd skip frames later sp,
  (forall s, usable (K s) /\ length (ks_k0 (K s)) = nd) -> (nd = 2 \/ nd = 3) -> 1 <= skip -> frames <> [] -> NoDup sp ->
  (forall a, In a sp -> group_ok nd (group frames a)) ->
  let sk := fun s same p0 p1 => structure_factor same false (fun _ => K s) skip (pair_frames p0 p1) in
  forall d, partial_compute2 (run_of frames sk later) true sp (partial_init2 sp) = Ok d ->
  forall a b, In a sp -> In b sp -> exists s v,
    structure_factor (String.eqb a b) false (fun _ => K s) skip (pair_frames (group frames a) (group frames b)) = Ok v /\
    entry pair_eqb d (a, b) = Some v.
Proof.
  intros K nd skip frames later sp HK Hd Hs Hf N G sk d H a b Ha Hb.
  pose proof (C52_two_bodies _ (run_of frames sk later) true sp N) as T. rewrite H in T.
  destruct T with (a := a) (b := b) as [s [v [E1 E2]]]; try assumption.
  - intros _ s x y Hx Hy _. cbn [run_of]. unfold sk. destruct (HK s) as [U L].
    apply C44_symmetric_partial; try assumption; rewrite ?L; auto.
    + unfold group. destruct frames; [congruence|discriminate].
    + unfold group. rewrite !map_length. reflexivity.
  - exists s, v. split; [|assumption]. destruct (String.eqb_spec a b) as [<-|E]; exact E1.
Qed.
Print Assumptions C52_sk.

(** F(k,t) is declared symmetric and is not: the entry (B, A) holds F_AB. *)
Definition fkt_run (s : nat) (same : bool) (p0 p1 : list (list (list R))) :=
  fkt_compute K48 [0; 1]%Z [(0, 0); (0, 1)] 2 false p0 (if same then None else Some p1).

Lemma fkt_unnormalized : forall K steps dgrid skip p q t v u,
  fkt_compute K steps dgrid skip true p q = Ok (t, v, u) -> fkt_compute K steps dgrid skip false p q = Ok (t, u, u).
Proof.
  intros K steps dgrid skip p q t v u H. unfold fkt_compute in *.
  apply bind_Ok_inv in H. destruct H as [r0 [E0 H]]. rewrite E0. cbn [bind].
  apply bind_Ok_inv in H. destruct H as [r1 [E1 H]]. rewrite E1. cbn [bind].
  apply bind_Ok_inv in H. destruct H as [sts [E2 H]]. rewrite E2. cbn [bind].
  apply bind_Ok_inv in H. destruct H as [tv [E3 H]]. rewrite E3. cbn [bind].
  apply bind_Ok_inv in H. destruct H as [w [_ H]]. apply Ok_inj in H. injection H as <- _ <-. reflexivity.
Qed.

Theorem C52_fkt_refuted : exists frames d v w,
  partial_compute2 (run_of frames fkt_run (fun _ _ _ => Err IndexError)) true ["A"; "B"]%string (partial_init2 ["A"; "B"]%string) = Ok d /\
  entry pair_eqb d ("B"%string, "A"%string) = Some v /\ fkt_run 0 false (group frames "B") (group frames "A") = Ok w /\ v <> w.
Proof.
  pose (frames := [[("A", [0; 0; 0]%R); ("B", [0; 0; 0]%R)]; [("A", [/ 2; 0; 0]%R); ("B", [0; 0; 0]%R)]]%string).
  destruct C48_refuted as [E1 E2]. apply fkt_unnormalized in E1. apply fkt_unnormalized in E2.
  assert (Same : forall g, g = group frames "A" \/ g = group frames "B" -> exists v, fkt_run 0 true g g = Ok v).
  { intros g Hg. assert (Lg : length g = 2) by (destruct Hg as [-> | ->]; reflexivity).
    assert (G : group_ok 3 g).
    { destruct Hg as [-> | ->]; (intros f [<-|[<-|[]]]; (split; [discriminate|]); intros x [<-|[]]; reflexivity). }
    destruct (C47_value_partial K48 [0; 1]%Z [(0, 0); (0, 1)] 2 g g true) as [v [_ E]];
      [exact K48_usable|discriminate|right; reflexivity|lia|symmetry; assumption|reflexivity|exact G|exact G|reflexivity|].
    eexists. exact E. }
  destruct (Same (group frames "A") (or_introl eq_refl)) as [va Ea].
  destruct (Same (group frames "B") (or_intror eq_refl)) as [vb Eb].
  assert (Fa : forall s, fkt_run s true (group frames "A") (group frames "A") = Ok va) by (intros; exact Ea).
  assert (Fb : forall s, fkt_run s true (group frames "B") (group frames "B") = Ok vb) by (intros; exact Eb).
  assert (Fab : forall s, fkt_run s false (group frames "A") (group frames "B") = Ok ([0; 1]%Z, [[1; -1]]%R, [[1; -1]]%R)) by (intros; exact E1).
  clear Ea Eb E1 Same.
  exists frames. do 3 eexists. split; [|split; [|split; [exact E2|]]].
  - clear E2. clearbody frames.
    Ltac comp := cbn [length seq combine list_prod map app foldM fold_left Nat.mul Nat.add
      dict_set dict_get pair_eqb fst snd String.eqb Ascii.eqb Bool.eqb andb orb negb Nat.leb bind
      o_seed o_filters o_runs o_result obj_set obj_compute dict_at run_of partial_step2].
    unfold partial_compute2, partial_init2, enum, pair_filters. comp.
    unfold partial_step2, dict_at, obj_compute.
    comp. rewrite Fa. comp. rewrite Fab. comp. rewrite Fb. comp. reflexivity.
  - reflexivity.
  - intros C. injection C. intros. lra.
Qed.
Print Assumptions C52_fkt_refuted.

(** The same species twice: the object of that species is computed twice, and what it
    holds is the outcome of the second call. *)
Theorem C52_repeated_species_refuted : exists (run : nat -> list string -> nat -> res nat) d,
  (forall s fs k, run s fs k = Ok k) /\
  partial_compute1 run ["A"; "A"]%string (partial_init1 ["A"; "A"]%string) = Ok d /\
  entry String.eqb d "A"%string = Some 1 /\ run 1 ["A"%string] 0 = Ok 0.
Proof. exists (fun _ _ k => Ok k). eexists. repeat split. Qed.
Print Assumptions C52_repeated_species_refuted.

(** g(r) of the two species of the example of C28. *)
Example C52_nonvacuous : exists frames, group frames "A" = demo_A /\ group frames "B" = demo_B /\
  NoDup ["A"; "B"]%string /\
  forall a b, In a ["A"; "B"]%string -> In b ["A"; "B"]%string -> a <> b -> gr_input false 1 (group frames a) (group frames b) demo_sides.
Proof.
  exists [[("A", [0; 0]%R); ("A", [1; 0]%R); ("B", [2; 2]%R)]; [("B", [-2; 1]%R); ("A", [0; 1]%R); ("A", [1; 1]%R)]]%string.
  split; [reflexivity|]. split; [reflexivity|]. split.
  { constructor; [|constructor; [|constructor]]; cbn; intuition discriminate. }
  intros a b Ha Hb Hab.
  assert (Hp : forall s, In s demo_sides -> positive s).
  { intros s [<-|[<-|[]]] l [<-|[<-|[]]]; lra. }
  assert (Hf : forall side (l : list (list R)), l <> [] -> forallb (fun r => (length r =? length side)%nat) l = true -> fits side l).
  { intros side l Hn H. split; [exact Hn|]. intros r Hr. rewrite forallb_forall in H. apply Nat.eqb_eq, H, Hr. }
  destruct Ha as [<-|[<-|[]]], Hb as [<-|[<-|[]]]; try congruence;
    (constructor; auto; [discriminate|]; intros [|[|i]] Hi; [| |cbn in Hi; lia]; split; apply Hf; cbn; congruence).
Qed.
Example C52_nonvacuous_two :
  let run := fun s fs k => Ok (String.concat "-" fs, s, k) in
  option_map (fun d => (entry pair_eqb d ("A", "B"), entry pair_eqb d ("B", "A"))%string)
    (match partial_compute2 run false ["A"; "B"]%string (partial_init2 ["A"; "B"]%string) with Ok d => Some d | Err _ => None end)
  = Some (Some ("A-B", 1, 0), Some ("B-A", 2, 0))%string.
Proof. vm_compute. reflexivity. Qed.
