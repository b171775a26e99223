(** Theorems about the decorator Filter: C84. *)
From Coq Require Import Ascii String List ZArith Bool Arith Lia.
From Verif Require Import PyBase PyBaseFacts M_Filter M_Path Spec_FilterText P_FilterText.
Import ListNotations.

(** A one-body correlation uses the particles for which the text of the condition
    evaluates to true, in their order; a particle on which it raises makes it raise. *)
Theorem C84_one_body_partial :
  forall P (eval : string -> P -> res bool) tag descr c,
  exists o, filter_text eval (mkFO 1 [] tag descr) c = Ok o /\ fo_description o = c /\
    (forall t ps, decides eval c t ps -> group_one o ps = Ok (List.filter t ps)) /\
    (forall ps p e, In p ps -> eval c p = Err e -> exists e', group_one o ps = Err e').
Proof.
  intros P eval tag descr c. eexists. split; [reflexivity|]. split; [reflexivity|]. split.
  - intros t ps H. exact (filter_eval_spec P eval c t ps H).
  - intros ps p e Hin He. exact (filter_eval_raises P eval c ps p e Hin He).
Qed.
Print Assumptions C84_one_body_partial.

(** Two-body correlations: a condition without comma restricts the first group only, two
    conditions restrict one group each, more raise. *)
Theorem C84_two_body :
  forall P (eval : string -> P -> res bool) tag descr c0 c1 c2,
  without ","%char c0 -> without ","%char c1 ->
  (exists o, filter_text eval (mkFO 2 [] tag descr) c0 = Ok o /\ fo_description o = c0 /\
     forall t ps, decides eval c0 t ps -> groups_two o ps = Ok (List.filter t ps, ps)) /\
  (exists o, filter_text eval (mkFO 2 [] tag descr) (c0 ++ "," ++ c1) = Ok o /\
     forall t0 t1 ps, decides eval c0 t0 ps -> decides eval c1 t1 ps ->
       groups_two o ps = Ok (List.filter t0 ps, List.filter t1 ps)) /\
  filter_text eval (mkFO 2 [] tag descr) (c0 ++ "," ++ c1 ++ "," ++ c2) = Err ValueError.
Proof.
  intros P eval tag descr c0 c1 c2 H0 H1. split; [|split].
  - eexists. split; [unfold filter_text; cbn [fo_nbodies fo_cbk]; rewrite (split_comma_none c0 H0); reflexivity|].
    split; [reflexivity|]. intros t ps H. unfold groups_two. cbn [fo_cbk app].
    rewrite (filter_eval_spec P eval c0 t ps H). reflexivity.
  - eexists. split.
    + unfold filter_text; cbn [fo_nbodies fo_cbk].
      change ("," ++ c1)%string with (String "," c1). rewrite (split_comma_app c0 c1 H0), (split_comma_none c1 H1). reflexivity.
    + intros t0 t1 ps K0 K1. unfold groups_two. cbn [fo_cbk app].
      rewrite (filter_eval_spec P eval c0 t0 ps K0), (filter_eval_spec P eval c1 t1 ps K1). reflexivity.
  - unfold filter_text; cbn [fo_nbodies fo_cbk].
    change ("," ++ c1 ++ "," ++ c2)%string with (String "," (c1 ++ String "," c2)).
    rewrite (split_comma_app c0 _ H0), (split_comma_app c1 c2 H1).
    destruct (split_comma c2) eqn:E; [exfalso; exact (split_comma_nonempty c2 E)|reflexivity].
Qed.
Print Assumptions C84_two_body.

(** The tag has none of the characters that would need quoting in a shell besides the
    operators < > ( ) * and the like: no space, quote or comma. *)
Theorem C84_tag_characters_partial :
  forall P (eval : string -> P -> res bool) o c o', filter_text eval o c = Ok o' ->
  forall ch, In ch [" "%char; """"%char; "'"%char; ","%char] -> without ch (fo_tag o').
Proof.
  intros P eval o c o' H ch Hch.
  assert (fo_tag o' = tag_of c) as ->; [|exact (tag_clean c ch Hch)].
  assert (forall (a : fobj P) f b, add_rfilter a f = Ok b -> fo_tag b = fo_tag a) as A.
  { intros a f b. unfold add_rfilter. destruct (_ <? _)%nat; [discriminate|]. intros E. apply Ok_inj in E. subst b. reflexivity. }
  unfold filter_text in H. cbn [fo_nbodies fo_cbk] in H.
  destruct (fo_nbodies o) as [|[|[|n]]].
  - apply Ok_inj in H. subst o'. reflexivity.
  - exact (A _ _ _ H).
  - destruct (split_comma c) as [|c0 [|c1 [|c2 l]]]; try discriminate;
      apply bind_Ok_inv in H; destruct H as [a [E1 E2]]; rewrite (A _ _ _ E2); exact (A _ _ _ E1).
  - apply Ok_inj in H. subst o'. reflexivity.
Qed.
Print Assumptions C84_tag_characters_partial.

(** *** What fails *)
Definition ex_particle (mass charge : Z) (species : string) : pyenv :=
  [("species", PStr species); ("mass", PInt mass); ("charge", PInt charge)]%string.
Definition ex_system : list pyenv := [ex_particle 1 1 "A"; ex_particle 1 (-1) "B"; ex_particle 0 0 "C"].
Definition ex_group (nbodies : nat) (c : string) : res (list string) :=
  o <- filter_text py_eval (mkFO nbodies [] "" "") c ;; g <- group_one o ex_system ;;
  mapM (fun e => v <- lookup e "species"%string ;; match v with PStr s => Ok s | _ => Err TypeError end) g.

(** Conditions that keep different particles and have the same tag, hence the same output
    file whatever the trajectory and the correlation. *)
Theorem C84_tag_refuted :
  exists c c', ex_group 1 c <> ex_group 1 c' /\
    forall o o', filter_text py_eval (mkFO 1 [] "" "") c = Ok o -> filter_text py_eval (mkFO 1 [] "" "") c' = Ok o' ->
    fo_tag o = fo_tag o' /\
    forall trajectory symbol short long,
      output_file (Some default_template) (mkNames trajectory symbol short long (fo_tag o) (fo_description o)) =
      output_file (Some default_template) (mkNames trajectory symbol short long (fo_tag o') (fo_description o')).
Proof.
  exists "mass or charge"%string, "mass + charge"%string. split; [vm_compute; discriminate|].
  intros o o' H H'. apply Ok_inj in H. apply Ok_inj in H'. subst o o'.
  assert (tag_of "mass or charge" = tag_of "mass + charge") as E by (vm_compute; reflexivity).
  cbn [fo_tag fo_description]. split; [exact E|]. intros. unfold output_file, format, default_template, fill.
  cbn [map n_trajectory n_symbol n_tag fold_right]. rewrite E. reflexivity.
Qed.
Print Assumptions C84_tag_refuted.

(** Two conditions given to a one-body correlation: no error, all particles are kept. *)
Theorem C84_one_body_two_conditions_refuted :
  exists c0 c1, ex_group 1 c0 = Ok ["A"]%string /\ ex_group 1 c1 = Ok ["B"]%string /\
    ex_group 1 (c0 ++ ", " ++ c1) = Ok ["A"; "B"; "C"]%string.
Proof.
  exists "species == 'A'"%string, "species == 'B'"%string.
  split; [|split]; vm_compute; reflexivity.
Qed.
Print Assumptions C84_one_body_two_conditions_refuted.

(** A comma inside one condition on a two-body correlation: Filter accepts it, the
    halves are evaluated and raise, whatever the meaning of the whole. *)
Theorem C84_comma_refuted :
  forall P (eval : string -> P -> res bool) tag descr p,
  (forall q, eval "species in ('A'"%string q = Err SyntaxError) ->
  exists o, filter_text eval (mkFO 2 [] tag descr) "species in ('A', 'B')" = Ok o /\
    forall ps, groups_two o (p :: ps) = Err SyntaxError.
Proof.
  intros P eval tag descr p H. eexists. split; [reflexivity|]. intros ps. unfold groups_two.
  cbn [fo_cbk app filter_eval]. rewrite (H p). reflexivity.
Qed.
Print Assumptions C84_comma_refuted.

(** Filter applied twice to a one-body correlation: no error, the second condition has no
    effect on the particles but is the one in the tag. *)
Theorem C84_twice_refuted :
  forall P (eval : string -> P -> res bool) tag descr c c', exists o o',
  filter_text eval (mkFO 1 [] tag descr) c = Ok o /\ filter_text eval o c' = Ok o' /\
  fo_tag o' = tag_of c' /\ forall ps, group_one o' ps = group_one o ps.
Proof.
  intros P eval tag descr c c'. eexists. eexists. split; [reflexivity|]. split; [reflexivity|].
  split; [reflexivity|]. intros ps. reflexivity.
Qed.
Print Assumptions C84_twice_refuted.

Example C84_nonvacuous :
  ex_group 1 "species != 'C' and charge == 1" = Ok ["A"]%string /\
  (o <- filter_text py_eval (mkFO 2 [] "" "") "species == 'A'" ;; g <- groups_two o ex_system ;;
   Ok (fo_tag o, List.length (fst g), List.length (snd g))) = Ok ("speciesA"%string, 1, 3) /\
  (o <- filter_text py_eval (mkFO 2 [] "" "") "species == 'A', mass == 1" ;; g <- groups_two o ex_system ;;
   Ok (fo_tag o, List.length (fst g), List.length (snd g))) = Ok ("speciesA-mass1"%string, 1, 2) /\
  decides py_eval "mass == 1" (fun e => match e with [_; (_, PInt 1); _] => true | _ => false end) ex_system.
Proof.
  split; [|split; [|split]]; try (vm_compute; reflexivity).
  intros p [<-|[<-|[<-|[]]]]; vm_compute; reflexivity.
Qed.
