(** Theorems about output paths: C58. *)
From Coq Require Import Ascii String List Bool Arith Lia.
From Verif Require Import M_Path.
Import ListNotations.
Local Open Scope string_scope.

(** ** Specification *)
Fixpoint has (c : ascii) (s : string) : Prop :=
  match s with EmptyString => False | String a r => a = c \/ has c r end.

(** [d] is the directory part of [s] and [b] the file name *)
Definition is_split (s d b : string) : Prop :=
  s = d ++ b /\ ~ has "/" b /\ (d = "" \/ exists d', d = d' ++ "/").

Definition punct (c : ascii) : Prop := c = "."%char \/ c = "_"%char \/ c = "-"%char.

(** No doubled punctuation, none at either end. *)
Fixpoint no_double (s : string) : Prop :=
  match s with
  | String a (String b _ as r) => ~ (punct a /\ a = b) /\ no_double r
  | _ => True
  end.
Definition head_ok (s : string) : Prop := match s with String a _ => ~ punct a | _ => True end.
Fixpoint last_ok (s : string) : Prop :=
  match s with
  | EmptyString => True
  | String a EmptyString => ~ punct a
  | String _ r => last_ok r
  end.
Definition neat (s : string) : Prop := no_double s /\ head_ok s /\ last_ok s.

(** ** Strings *)
Lemma app_assoc_s : forall a b c : string, a ++ (b ++ c) = (a ++ b) ++ c.
Proof. induction a; intros; cbn; [reflexivity|]. rewrite IHa. reflexivity. Qed.
Lemma app_nil_s : forall a : string, a ++ "" = a.
Proof. induction a; cbn; [reflexivity|]. rewrite IHa. reflexivity. Qed.
Lemma app_inv_head_s : forall a b c : string, a ++ b = a ++ c -> b = c.
Proof. induction a; cbn; intros b c H; [assumption|]. injection H as H. auto. Qed.
Lemma len_app_s : forall a b, String.length (a ++ b) = String.length a + String.length b.
Proof. induction a; cbn; intros; [reflexivity|]. rewrite IHa. reflexivity. Qed.
Lemma app_inj_len : forall a b c d : string, a ++ b = c ++ d -> String.length a = String.length c -> a = c /\ b = d.
Proof.
  induction a; intros b c d H L; destruct c; try discriminate; cbn in *; [split; [reflexivity|assumption]|].
  injection H as -> H. destruct (IHa b c d H) as [-> ->]; [lia|]. split; reflexivity.
Qed.
Lemma app_inv_tail_s : forall a b c : string, b ++ a = c ++ a -> b = c.
Proof.
  intros a b c H. assert (L : String.length b = String.length c) by (apply (f_equal String.length) in H; rewrite !len_app_s in H; lia).
  apply app_inj_len in H; [|assumption]. apply H.
Qed.
Lemma has_app : forall c a b, has c (a ++ b) <-> has c a \/ has c b.
Proof. intros c a b. induction a; cbn; [tauto|]. rewrite IHa. tauto. Qed.

Lemma squeeze_cons : forall p a b r, squeeze p (String a (String b r)) =
  if (Ascii.eqb a p && Ascii.eqb b p)%bool then String p (squeeze p r) else String a (squeeze p (String b r)).
Proof. reflexivity. Qed.

Lemma squeeze_has : forall c p n s, String.length s <= n -> has c (squeeze p s) -> has c s.
Proof.
  intros c p n. induction n as [|n IH]; intros s L H; [destruct s; [assumption|cbn in L; lia]|].
  destruct s as [|a [|b r]]; [assumption|assumption|]. rewrite squeeze_cons in H.
  destruct (Ascii.eqb_spec a p) as [->|Ha]; destruct (Ascii.eqb_spec b p) as [->|Hb]; cbn [andb] in H.
  - destruct H as [<-|H]; [left; reflexivity|]. right; right. apply IH; [cbn in L; lia|assumption].
  - destruct H as [<-|H]; [left; reflexivity|]. right. apply IH; [cbn in *; lia|assumption].
  - destruct H as [<-|H]; [left; reflexivity|]. right. apply IH; [cbn in *; lia|assumption].
  - destruct H as [<-|H]; [left; reflexivity|]. right. apply IH; [cbn in *; lia|assumption].
Qed.
Lemma lstrip_has : forall c p s, has c (lstrip p s) -> has c s.
Proof. intros c p s. induction s as [|a s IH]; cbn; [tauto|]. destruct (Ascii.eqb a p); [|cbn; tauto]. intros H. right. auto. Qed.
Lemma rstrip_cons : forall p a s, rstrip p (String a s) = String a (rstrip p s) \/
  (rstrip p s = "" /\ rstrip p (String a s) = "" /\ a = p).
Proof.
  intros p a s. cbn [rstrip]. destruct (rstrip p s); [|left; reflexivity].
  destruct (Ascii.eqb_spec a p); [right; repeat split; assumption|left; reflexivity].
Qed.
Lemma rstrip_has : forall c p s, has c (rstrip p s) -> has c s.
Proof.
  intros c p s. induction s as [|a s IH]; [tauto|]. destruct (rstrip_cons p a s) as [->|[_ [-> _]]]; [|intros []].
  cbn. intros [H|H]; [left|right]; auto.
Qed.
Lemma tidy_has : forall c p s, has c (tidy p s) -> has c s.
Proof. intros c p s H. unfold tidy in H. apply rstrip_has, lstrip_has in H. eapply squeeze_has; [apply Nat.le_refl|exact H]. Qed.

(** ** Directories *)
Lemma split_last_noslash : forall b, ~ has "/" b -> split_last b = ("", b).
Proof.
  induction b as [|c b IH]; intros H; [reflexivity|]. cbn [split_last]. rewrite IH by (intros X; apply H; right; exact X).
  destruct (Ascii.eqb_spec c "/") as [->|]; [exfalso; apply H; left; reflexivity|reflexivity].
Qed.
Lemma split_last_app : forall d b, ~ has "/" b -> split_last (d ++ String "/" b) = (d ++ "/", b).
Proof.
  induction d as [|c d IH]; intros b H; cbn [append split_last].
  - rewrite split_last_noslash by assumption. reflexivity.
  - rewrite IH by assumption. destruct (Ascii.eqb c "/"); [reflexivity|]. destruct d; reflexivity.
Qed.
Lemma split_is : forall s d b, is_split s d b -> split_last s = (d, b).
Proof.
  intros s d b [-> [Hb [->|[d' ->]]]]; [apply split_last_noslash; assumption|].
  rewrite <- app_assoc_s. apply split_last_app. assumption.
Qed.
Lemma tidy_base_is : forall p s d b, is_split s d b -> is_split (tidy_base p s) d (tidy p b).
Proof.
  intros p s d b H. unfold tidy_base. rewrite (split_is s d b H). destruct H as [_ [Hb Hd]].
  split; [reflexivity|]. split; [|assumption]. intros X. apply Hb. eapply tidy_has. exact X.
Qed.

Theorem C58_directory : forall template n s d b, is_split (format n template) d b ->
  output_file (Some template) n = Some s -> exists b', is_split s d b'.
Proof.
  intros template n s d b H E. cbn [output_file fold_left] in E. injection E as <-.
  eexists. do 3 apply tidy_base_is. exact H.
Qed.
Print Assumptions C58_directory.

(** ** Neat names *)
Lemma squeeze_neat : forall p s, punct p -> no_double s -> squeeze p s = s.
Proof.
  intros p s Hp. induction s as [|a s IH]; intros H; [reflexivity|]. destruct s as [|b r]; [reflexivity|].
  rewrite squeeze_cons. destruct H as [H1 H2]. rewrite IH by exact H2.
  destruct (Ascii.eqb_spec a p) as [->|]; destruct (Ascii.eqb_spec b p) as [->|]; try reflexivity.
  exfalso. apply H1. split; [assumption|reflexivity].
Qed.
Lemma lstrip_neat : forall p s, punct p -> head_ok s -> lstrip p s = s.
Proof. intros p [|a s] Hp H; [reflexivity|]. cbn in *. destruct (Ascii.eqb_spec a p) as [->|]; [contradiction|reflexivity]. Qed.
Lemma rstrip_neat : forall p s, punct p -> last_ok s -> rstrip p s = s.
Proof.
  intros p s Hp. induction s as [|a s IH]; intros H; [reflexivity|]. destruct s as [|b r].
  - cbn in *. destruct (Ascii.eqb_spec a p) as [->|]; [contradiction|reflexivity].
  - cbn [rstrip] in *. rewrite IH by exact H. reflexivity.
Qed.
Lemma tidy_neat : forall p s, punct p -> neat s -> tidy p s = s.
Proof. intros p s Hp [H1 [H2 H3]]. unfold tidy. rewrite squeeze_neat, lstrip_neat, rstrip_neat by assumption. reflexivity. Qed.

Lemma output_neat : forall template n d b, is_split (format n template) d b -> neat b ->
  output_file (Some template) n = Some (format n template).
Proof.
  intros template n d b H N. cbn [output_file fold_left]. f_equal.
  assert (T : forall p, punct p -> tidy_base p (format n template) = format n template).
  { intros p Hp. unfold tidy_base. rewrite (split_is _ _ _ H), tidy_neat by assumption. symmetry. apply H. }
  unfold punct in T. rewrite !T; tauto.
Qed.

Lemma no_double_app : forall s t, no_double s -> no_double t -> last_ok s \/ head_ok t -> no_double (s ++ t).
Proof.
  intros s t. induction s as [|a s IH]; intros Hs Ht H; [assumption|]. destruct s as [|b s].
  - destruct t as [|c t]; [exact I|]. cbn [append]. split; [|exact Ht]. intros [Pa E]. subst c. destruct H as [H|H]; apply H; assumption.
  - destruct Hs as [H1 H2]. cbn [append]. split; [assumption|]. apply IH; assumption.
Qed.
Lemma last_ok_app : forall s t, t <> "" -> last_ok t -> last_ok (s ++ t).
Proof.
  intros s t Ht H. induction s as [|a s IH]; [assumption|]. cbn [append]. destruct (s ++ t) eqn:E; [|exact IH].
  destruct s; [|discriminate]. cbn in E. congruence.
Qed.
Lemma head_ok_app : forall s t, s <> "" -> head_ok s -> head_ok (s ++ t).
Proof. intros [|a s] t H1 H2; [congruence|exact H2]. Qed.

Lemma neat_dot : forall s t, s <> "" -> t <> "" -> neat s -> neat t -> neat (s ++ String "." t).
Proof.
  intros s t Ns Nt [S1 [S2 S3]] [T1 [T2 T3]]. split; [|split].
  - apply no_double_app; [assumption| |left; assumption]. destruct t as [|c t]; [exact I|]. split; [|exact T1].
    intros [P E]. subst c. apply T2. exact P.
  - apply head_ok_app; assumption.
  - apply last_ok_app; [discriminate|]. destruct t; [congruence|exact T3].
Qed.

Lemma format_default : forall n, format n default_template = n_trajectory n ++ ".pp." ++ n_symbol n ++ "." ++ n_tag n.
Proof. intros n. unfold format, default_template. cbn [map fill fold_right]. rewrite app_nil_s. reflexivity. Qed.

(** Ends with a dot: stripped. *)
Lemma rstrip_dot : forall s, last_ok s -> rstrip "." (s ++ ".") = s.
Proof.
  induction s as [|a s IH]; intros H; [reflexivity|]. cbn [append rstrip]. destruct s as [|b s].
  - cbn. destruct (Ascii.eqb_spec a ".") as [->|]; [exfalso; apply H; left; reflexivity|reflexivity].
  - rewrite IH by exact H. reflexivity.
Qed.
Lemma tidy_dot_last : forall s, s <> "" -> neat s -> tidy "." (s ++ ".") = s.
Proof.
  intros s Hs [H1 [H2 H3]]. unfold tidy. rewrite squeeze_neat; [| left; reflexivity | apply no_double_app; [assumption|exact I|left; assumption]].
  rewrite lstrip_neat; [| left; reflexivity | apply head_ok_app; assumption]. apply rstrip_dot. assumption.
Qed.

Lemma not_slash_app : forall a b, ~ has "/" a -> ~ has "/" b -> ~ has "/" (a ++ b).
Proof. intros a b Ha Hb H. apply has_app in H. tauto. Qed.

Lemma is_split_more : forall s d b t, is_split s d b -> ~ has "/" t -> is_split (s ++ t) d (b ++ t).
Proof.
  intros s d b t [-> [Hb Hd]] Ht. split; [symmetry; apply app_assoc_s|]. split; [apply not_slash_app; assumption|assumption].
Qed.

(** What the default path is, for neat names. *)
Theorem C58_default_path_partial : forall n d b,
  is_split (n_trajectory n) d b -> b <> "" -> neat b ->
  n_symbol n <> "" -> neat (n_symbol n) -> ~ has "/" (n_symbol n) ->
  (n_tag n = "" -> output_file (Some default_template) n = Some (n_trajectory n ++ ".pp." ++ n_symbol n)) /\
  (n_tag n <> "" -> neat (n_tag n) -> ~ has "/" (n_tag n) ->
   output_file (Some default_template) n = Some (n_trajectory n ++ ".pp." ++ n_symbol n ++ "." ++ n_tag n)).
Proof.
  intros n d b Hd Nb Cb Ns Cs Hs.
  assert (PP : neat "pp") by (repeat split; cbn; unfold punct; intuition discriminate).
  assert (N1 : neat (b ++ ".pp." ++ n_symbol n)).
  { change (".pp." ++ n_symbol n) with (String "." ("pp" ++ String "." (n_symbol n))).
    apply neat_dot; [assumption|discriminate|assumption|]. apply neat_dot; [discriminate|assumption|assumption|assumption]. }
  assert (Nb1 : b ++ ".pp." ++ n_symbol n <> "") by (destruct b; [congruence|discriminate]).
  assert (SL : ~ has "/" (".pp." ++ n_symbol n)) by (apply not_slash_app; [cbn; intuition discriminate|assumption]).
  assert (A : format n default_template = (n_trajectory n ++ ".pp." ++ n_symbol n) ++ "." ++ n_tag n).
  { rewrite format_default, <- !app_assoc_s. reflexivity. }
  split.
  - intros Ht. rewrite Ht in A. cbn [append] in A.
    assert (Sp : is_split (format n default_template) d ((b ++ ".pp." ++ n_symbol n) ++ ".")).
    { rewrite A. apply is_split_more; [|cbn; intuition discriminate]. apply is_split_more; assumption. }
    cbn [output_file fold_left]. f_equal.
    assert (E1 : tidy_base "." (format n default_template) = n_trajectory n ++ ".pp." ++ n_symbol n).
    { unfold tidy_base. rewrite (split_is _ _ _ Sp), tidy_dot_last by assumption. destruct Hd as [-> _]. rewrite <- app_assoc_s. reflexivity. }
    rewrite E1. pose proof (is_split_more _ _ _ (".pp." ++ n_symbol n) Hd SL) as Sp2.
    assert (T : forall p, punct p -> tidy_base p (n_trajectory n ++ ".pp." ++ n_symbol n) = n_trajectory n ++ ".pp." ++ n_symbol n).
    { intros p Hp. unfold tidy_base. rewrite (split_is _ _ _ Sp2), tidy_neat by assumption. symmetry. apply Sp2. }
    unfold punct in T. rewrite !T; tauto.
  - intros Nt Ct St. rewrite <- format_default.
    apply (output_neat _ _ d ((b ++ ".pp." ++ n_symbol n) ++ "." ++ n_tag n)).
    + rewrite A. apply is_split_more; [apply is_split_more; assumption|]. apply not_slash_app; [cbn; intuition discriminate|assumption].
    + apply neat_dot; assumption.
Qed.
Print Assumptions C58_default_path_partial.

(** Neat names: other trajectories give other files, and so do other symbols and tags
    of the same trajectory. *)
Definition neat_names (n : names) : Prop :=
  (exists d b, is_split (n_trajectory n) d b /\ b <> "" /\ neat b) /\
  n_symbol n <> "" /\ neat (n_symbol n) /\ ~ has "/" (n_symbol n) /\ ~ has "." (n_symbol n) /\
  neat (n_tag n) /\ ~ has "/" (n_tag n).

Lemma neat_path : forall n, neat_names n -> output_file (Some default_template) n =
  Some (n_trajectory n ++ ".pp." ++ n_symbol n ++ (if String.eqb (n_tag n) "" then "" else "." ++ n_tag n)).
Proof.
  intros n [[d [b [H1 [H2 H3]]]] [H4 [H5 [H6 [_ [H7 H8]]]]]].
  destruct (C58_default_path_partial n d b H1 H2 H3 H4 H5 H6) as [A B].
  destruct (String.eqb_spec (n_tag n) ""); [rewrite A by assumption; rewrite app_nil_s; reflexivity|apply B; assumption].
Qed.

Lemma undotted_inj : forall a b x y, ~ has "." a -> ~ has "." b ->
  (x = "" \/ exists x', x = String "." x') -> (y = "" \/ exists y', y = String "." y') ->
  a ++ x = b ++ y -> a = b /\ x = y.
Proof.
  induction a as [|c a IH]; intros b x y Ha Hb Hx Hy H.
  - destruct b as [|c b]; [split; [reflexivity|exact H]|]. cbn in H. destruct Hx as [->|[x' ->]]; [discriminate|].
    injection H as E _. exfalso. apply Hb. left. symmetry. exact E.
  - destruct b as [|c' b].
    + cbn in H. destruct Hy as [->|[y' ->]]; [discriminate|]. injection H as E _. exfalso. apply Ha. left. exact E.
    + cbn in H. injection H as -> H. assert (Ha' : ~ has "." a) by (intros X; apply Ha; right; exact X).
      assert (Hb' : ~ has "." b) by (intros X; apply Hb; right; exact X).
      destruct (IH b x y Ha' Hb' Hx Hy H) as [-> ->]. split; reflexivity.
Qed.

Theorem C58_distinct_partial : forall n m, neat_names n -> neat_names m ->
  output_file (Some default_template) n = output_file (Some default_template) m ->
  (n_trajectory n = n_trajectory m -> n_symbol n = n_symbol m /\ n_tag n = n_tag m) /\
  (n_symbol n = n_symbol m -> n_tag n = n_tag m -> n_trajectory n = n_trajectory m).
Proof.
  intros n m Hn Hm E. rewrite (neat_path n Hn), (neat_path m Hm) in E. injection E as E. split.
  - intros T. rewrite T in E. apply app_inv_head_s, (app_inv_head_s ".pp.") in E.
    destruct Hn as [_ [_ [_ [_ [Dn _]]]]]. destruct Hm as [_ [_ [_ [_ [Dm _]]]]].
    assert (F : forall t, (if String.eqb t "" then "" else "." ++ t) = "" \/ exists x', (if String.eqb t "" then "" else "." ++ t) = String "." x').
    { intros t. destruct (String.eqb t ""); [left; reflexivity|right; eexists; reflexivity]. }
    apply undotted_inj in E; [|assumption|assumption|apply F|apply F]. destruct E as [-> E]. split; [reflexivity|].
    destruct (String.eqb_spec (n_tag n) "") as [->|]; destruct (String.eqb_spec (n_tag m) "") as [->|]; try discriminate; [reflexivity|].
    cbn in E. injection E as E. exact E.
  - intros S T. rewrite S, T in E. apply app_inv_tail_s in E. exact E.
Qed.
Print Assumptions C58_distinct_partial.

(** Not in general: names that differ by doubled or terminal punctuation share the file,
    and so do the tags of pairs of species whose names contain a dash (partial.py:46-63). *)
Definition of (trajectory symbol tag : string) : names := mkNames trajectory symbol "" "" tag "".
Theorem C58_distinct_refuted :
  (exists t1 t2, t1 <> t2 /\ output_file (Some default_template) (of t1 "gr" "") = output_file (Some default_template) (of t2 "gr" "")) /\
  (exists tag1 tag2, tag1 <> tag2 /\ output_file (Some default_template) (of "data/config.xyz" "gr" tag1) =
     output_file (Some default_template) (of "data/config.xyz" "gr" tag2)) /\
  (exists a b c d, (a, b) <> (c, d) /\ output_file (Some default_template) (of "config.xyz" "gr" (a ++ "-" ++ b)) =
     output_file (Some default_template) (of "config.xyz" "gr" (c ++ "-" ++ d))).
Proof.
  split; [|split].
  - exists "run__1.xyz", "run_1.xyz". split; [discriminate|vm_compute; reflexivity].
  - exists "A", "A_". split; [discriminate|vm_compute; reflexivity].
  - exists "Na", "Cl-", "Na-", "Cl". split; [discriminate|]. vm_compute. reflexivity.
Qed.
Print Assumptions C58_distinct_refuted.

(** The default path with an empty tag is not always <trajectory>.pp.<symbol>. *)
Theorem C58_default_path_refuted : exists t, output_file (Some default_template) (of t "gr" "") <> Some (t ++ ".pp.gr").
Proof. exists "./.hidden/.config..xyz". vm_compute. discriminate. Qed.
Print Assumptions C58_default_path_refuted.

(** The long name and the description bring no blanks: a blank in the path comes from the
    template, the trajectory, the symbol, the short name or the tag. *)
Lemma split_last_has : forall c s, (has c (fst (split_last s)) \/ has c (snd (split_last s))) -> has c s.
Proof.
  intros c. induction s as [|a s IH]; cbn [split_last]; [cbn; tauto|]. destruct (split_last s) as [d b]. cbn [fst snd] in IH.
  destruct (Ascii.eqb a "/"); [cbn; tauto|]. destruct d; cbn in *; tauto.
Qed.
Lemma tidy_base_has : forall c p s, has c (tidy_base p s) -> has c s.
Proof.
  intros c p s. unfold tidy_base. pose proof (split_last_has c s) as H. destruct (split_last s) as [d b]. cbn [fst snd] in H.
  rewrite has_app. intros [X|X]; apply H; [left; exact X|right; exact (tidy_has c p b X)].
Qed.
Lemma underscore_blank : forall s, ~ has " " (underscore s).
Proof.
  induction s as [|a s IH]; [intros []|]. cbn. intros [H|H]; [|exact (IH H)].
  destruct (Ascii.eqb_spec a " ") as [->|N]; [discriminate|congruence].
Qed.
Theorem C58_blanks : forall template n s, output_file (Some template) n = Some s -> has " " s ->
  exists t, has " " t /\ (In (Lit t) template \/ t = n_trajectory n \/ t = n_symbol n \/ t = n_short n \/ t = n_tag n).
Proof.
  intros template n s E H. cbn [output_file fold_left] in E. injection E as <-. apply tidy_base_has, tidy_base_has, tidy_base_has in H.
  induction template as [|p l IH]; [destruct H|]. unfold format in H. cbn [map fold_right] in H. rewrite has_app in H. destruct H as [H|H].
  - destruct p; cbn [fill] in H; try (eexists; split; [exact H|]; tauto).
    + exists s. split; [exact H|]. left. left. reflexivity.
    + destruct (underscore_blank _ H).
    + destruct (underscore_blank _ H).
  - destruct (IH H) as [t [Ht [C|C]]]; exists t; (split; [exact Ht|]); [left; right; exact C|right; exact C].
Qed.
Print Assumptions C58_blanks.

Example C58_nonvacuous :
  neat_names (of "/data/run_1.xyz" "gr" "A-B") /\
  output_file (Some default_template) (of "/data/run_1.xyz" "gr" "A-B") = Some "/data/run_1.xyz.pp.gr.A-B" /\
  output_file (Some default_template) (of "/data.d__x/run_1.xyz" "gr" "") = Some "/data.d__x/run_1.xyz.pp.gr" /\
  output_file (Some [Lit "out/"; FLong; Lit "_"; FTagDescription]) (mkNames "" "" "" "radial distribution function" "" "the whole system") =
    Some "out/radial_distribution_function_the_whole_system".
Proof.
  split; [|vm_compute; repeat split].
  split; [exists "/data/", "run_1.xyz"; split; [|split; [discriminate|]]|].
  - split; [reflexivity|]. split; [cbn; intuition discriminate|]. right. exists "/data". reflexivity.
  - repeat split; cbn; unfold punct; intuition discriminate.
  - cbn [n_symbol n_tag of]. repeat split; try discriminate; cbn; unfold punct; intuition discriminate.
Qed.
