(** Theorems about the text of the output files: C97. *)
From Coq Require Import Ascii String List ZArith Bool Arith Lia.
From Verif Require Import PyBase PyBaseFacts Num M_Text M_Output M_Path M_Header P_Text T_Output T_Path.
Import ListNotations.
Local Open Scope string_scope.

(** ** Lines *)
Definition one_line (s : string) : Prop := ~ has newline s.
Ltac ol := unfold one_line; cbn; intuition discriminate.

Lemma one_line_cons : forall a s, one_line (String a s) -> a <> newline /\ one_line s.
Proof. intros a s H. split; intro E; apply H; cbn; auto. Qed.

Lemma one_line_app : forall a b, one_line a -> one_line b -> one_line (a ++ b).
Proof. intros a b Ha Hb H. apply has_app in H. destruct H as [H|H]; [exact (Ha H)|exact (Hb H)]. Qed.

Lemma text_lines_cons : forall s t, one_line s -> text_lines (s ++ nl ++ t) = s :: text_lines t.
Proof.
  induction s as [|a s IH]; intros t H; [reflexivity|]. apply one_line_cons in H. destruct H as [Ha Hs].
  cbn [append text_lines]. rewrite (IH t Hs).
  destruct (Ascii.eqb_spec a newline) as [E|_]; [congruence|reflexivity].
Qed.

Lemma text_lines_join : forall ls t, (forall s, In s ls -> one_line s) ->
  text_lines (join (map (fun s => s ++ nl) ls) ++ t) = (ls ++ text_lines t)%list.
Proof.
  induction ls as [|s ls IH]; intros t H; [reflexivity|]. cbn [map join fold_right app].
  change (fold_right append "" (map (fun s0 : string => s0 ++ nl) ls)) with (join (map (fun s0 => s0 ++ nl) ls)).
  rewrite <- !append_assoc. rewrite text_lines_cons by (apply H; left; reflexivity).
  f_equal. apply IH. intros x Hx. apply H. right. assumption.
Qed.

Definition key_line (kv : string * option string) : list string :=
  match snd kv with Some v => ["# " ++ fst kv ++ ": " ++ v] | None => [] end.

Lemma join_app : forall a b, join (a ++ b)%list = join a ++ join b.
Proof. induction a as [|x a IH]; intros b; [reflexivity|]. cbn [join fold_right app]. fold (join (a ++ b)%list). rewrite IH. apply append_assoc. Qed.

Lemma key_lines_join : forall kvs, key_lines kvs = join (map (fun s => s ++ nl) (flat_map key_line kvs)).
Proof.
  induction kvs as [|[k [v|]] kvs IH]; [reflexivity| |]; unfold key_lines in *; cbn [map fst snd flat_map key_line app join fold_right].
  - fold (join (map (fun kv : string * option string => match snd kv with Some v0 => "# " ++ fst kv ++ ": " ++ v0 ++ nl | None => "" end) kvs)).
    rewrite IH. rewrite <- !append_assoc. reflexivity.
  - exact IH.
Qed.

Definition kv_one_line (kvs : list (string * option string)) : Prop :=
  forall k v, In (k, Some v) kvs -> one_line k /\ one_line v.

Lemma key_line_spec : forall kvs, kv_one_line kvs -> forall s, In s (flat_map key_line kvs) -> one_line s /\ is_comment s.
Proof.
  intros kvs H s Hs. apply in_flat_map in Hs. destruct Hs as [[k [v|]] [Hin Hk]]; [|destruct Hk].
  cbn [key_line fst snd] in Hk. destruct Hk as [<-|[]]. destruct (H k v Hin) as [Hl Hv]. split.
  - apply one_line_app; [ol|]. apply one_line_app; [assumption|].
    apply one_line_app; [ol|assumption].
  - eexists. reflexivity.
Qed.

Lemma clean_one_line : forall s, clean s = true -> one_line s.
Proof.
  induction s as [|a s IH]; intros H Hh; [exact Hh|]. cbn [clean] in H. apply andb_prop in H. destruct H as [H Hs].
  destruct Hh as [->|Hh]; [discriminate|exact (IH Hs Hh)].
Qed.

Lemma show_row_one_line : forall r, one_line (show_row r).
Proof.
  intros r. unfold show_row. induction r as [|x r IH]; [unfold one_line; cbn; tauto|].
  destruct r as [|y r]; [apply clean_one_line, clean_g|].
  change (String.concat " " (map show_g (x :: y :: r))) with (show_g x ++ " " ++ String.concat " " (map show_g (y :: r))).
  apply one_line_app; [apply clean_one_line, clean_g|]. apply one_line_app; [ol|exact IH].
Qed.

Lemma one_line_concat : forall sep l, one_line sep -> (forall s, In s l -> one_line s) -> one_line (String.concat sep l).
Proof.
  intros sep l Hs. induction l as [|x l IH]; intros H; [unfold one_line; cbn; tauto|].
  destruct l as [|y l]; [apply H; left; reflexivity|].
  change (String.concat sep (x :: y :: l)) with (x ++ sep ++ String.concat sep (y :: l)).
  apply one_line_app; [apply H; left; reflexivity|]. apply one_line_app; [assumption|]. apply IH. intros s Hin. apply H. right. assumption.
Qed.

Lemma split_on_has : forall c x s w, In w (split_on c s) -> has x w -> has x s.
Proof.
  intros c x. induction s as [|a s IH]; intros w H Hx; cbn [split_on] in H.
  - destruct H as [<-|[]]. exact Hx.
  - destruct (Ascii.eqb a c).
    + destruct H as [<-|H]; [destruct Hx|]. right. exact (IH w H Hx).
    + destruct (split_on c s) as [|w0 ws] eqn:E.
      * destruct H as [<-|[]]. cbn in Hx. destruct Hx as [Hx|[]]. left. exact Hx.
      * destruct H as [<-|H].
        -- destruct Hx as [Hx|Hx]; [left; exact Hx|]. right. apply (IH w0); [left; reflexivity|exact Hx].
        -- right. apply (IH w); [right; exact H|exact Hx].
Qed.

Lemma drop_last_has : forall x s, has x (drop_last s) -> has x s.
Proof.
  intros x. induction s as [|a s IH]; intros H; [exact H|]. cbn [drop_last] in H. destruct s as [|b s]; [destruct H|].
  destruct H as [H|H]; [left; exact H|right; exact (IH H)].
Qed.

Lemma get_In : forall X (l : list X) i x, get l i = Ok x -> In x l.
Proof. intros X l i x H. unfold get in H. destruct (nth_error l i) eqn:E; [|discriminate]. apply Ok_inj in H. subst. apply (nth_error_In _ _ E). Qed.

Lemma grid_name_one_line : forall short vs, one_line short -> grid_name short = Ok vs -> forall v, In v vs -> one_line v.
Proof.
  intros short vs Hs H v Hv Hn. unfold grid_name in H. apply bind_Ok_inv in H. destruct H as [w [E H]]. apply Ok_inj in H. subst vs.
  apply get_In in E. apply Hs. apply (split_on_has "(" _ _ w E). apply drop_last_has. exact (split_on_has "," _ _ _ Hv Hn).
Qed.

(** ** C97 *)
(** All the texts that end up in the comments are on one line. *)
Definition one_line_names (n : names) (o : origin) (analysis : list (string * option string)) : Prop :=
  one_line (n_long n) /\ one_line (n_short n) /\ one_line (n_description n) /\
  one_line (o_date o) /\ one_line (o_version o) /\ (forall f, o_parents o = Some f -> one_line f) /\ kv_one_line analysis.

Definition parents_line (o : origin) : list string := match o_parents o with Some f => ["# parents: " ++ f] | None => [] end.

(** The lines of the comments, from the documentation of the fields. *)
Definition header (n : names) (o : origin) (variables : list string) : list string :=
  app ["# title: " ++ title n; "# columns: " ++ String.concat ", " (variables ++ [n_short n])%list; "# date: " ++ o_date o;
    "# command: atooms-pp"; "# version: " ++ o_version o] (parents_line o).

Lemma dump_lines : forall n o vs, dump (title n) (vs ++ [n_short n])%list o = join (map (fun s => s ++ nl) (header n o vs)).
Proof.
  intros n o vs. unfold dump. rewrite key_lines_join. f_equal. f_equal. unfold header, parents_line.
  destruct (o_parents o); reflexivity.
Qed.

Lemma one_line_title : forall n, one_line (n_long n) -> one_line (n_short n) -> one_line (n_description n) -> one_line (title n).
Proof.
  intros n Hl Hs Hd. unfold title.
  assert (B : one_line " ") by (ol).
  repeat (apply one_line_app; [assumption|]). apply one_line_app; [|apply one_line_app; assumption].
  destruct (String.eqb (n_description n) ""); ol.
Qed.

Lemma header_spec : forall n o an vs, one_line_names n o an -> grid_name (n_short n) = Ok vs ->
  forall s, In s (header n o vs) -> one_line s /\ is_comment s.
Proof.
  intros n o an vs [Hl [Hs [Hd [Hda [Hv [Hp _]]]]]] G s Hin. unfold header in Hin. apply in_app_iff in Hin.
  assert (L : forall p x, one_line p -> one_line x -> one_line (p ++ x)) by (intros; apply one_line_app; assumption).
  destruct Hin as [[<-|[<-|[<-|[<-|[<-|[]]]]]]|Hin].
  - split; [|eexists; reflexivity]. apply L; [ol|apply one_line_title; assumption].
  - split; [|eexists; reflexivity]. apply L; [ol|].
    apply one_line_concat; [ol|]. intros x Hx. apply in_app_iff in Hx.
    destruct Hx as [Hx|[<-|[]]]; [exact (grid_name_one_line _ _ Hs G x Hx)|assumption].
  - split; [|eexists; reflexivity]. apply L; [ol|assumption].
  - split; [|eexists; reflexivity]. ol.
  - split; [|eexists; reflexivity]. apply L; [ol|assumption].
  - unfold parents_line in Hin. destruct (o_parents o) as [f|] eqn:E; [|destruct Hin]. destruct Hin as [<-|[]].
    split; [|eexists; reflexivity]. apply L; [ol|apply Hp; reflexivity].
Qed.

Lemma text_lines_file : forall n o us an d t, one_line_names n o an -> (forall s, In s us -> one_line s) ->
  file_text n o (Some (join (map (fun s => s ++ nl) us))) an d = Ok t ->
  exists vs, grid_name (n_short n) = Ok vs /\
    file_lines (header n o vs ++ us)%list (flat_map key_line an) d = Ok (text_lines t).
Proof.
  intros n o us an d t H Hu E. unfold file_text in E. apply bind_Ok_inv in E. destruct E as [rows [Et E]].
  apply bind_Ok_inv in E. destruct E as [vs [Eg E]]. apply Ok_inj in E. subst t. exists vs. split; [assumption|].
  unfold file_lines. rewrite Et. cbn [bind]. f_equal. rewrite dump_lines, key_lines_join.
  rewrite text_lines_join by (intros s Hs; apply (header_spec _ _ _ _ H Eg s Hs)).
  rewrite text_lines_join by exact Hu.
  rewrite text_lines_join by (intros s Hs; destruct H as [_ [_ [_ [_ [_ [_ H]]]]]]; apply (key_line_spec _ H s Hs)).
  rewrite <- (append_empty (join (map (fun r => show_row r ++ nl) rows))).
  replace (map (fun r => show_row r ++ nl) rows) with (map (fun s => s ++ nl) (map show_row rows)) by (rewrite map_map; reflexivity).
  rewrite text_lines_join.
  - cbn [text_lines]. rewrite app_nil_r, <- app_assoc. reflexivity.
  - intros s Hs. apply in_map_iff in Hs. destruct Hs as [r [<- _]]. apply show_row_one_line.
Qed.

Lemma file_text_no_user : forall n o an d, file_text n o None an d = file_text n o (Some (join (map (fun s => s ++ nl) []))) an d.
Proof. reflexivity. Qed.

(** A written file consists of the header, one line per result of the analysis that is not
    None, and the table: every line but those of the table starts with '#'. *)
Theorem C97_lines : forall n o an d t, one_line_names n o an -> file_text n o None an d = Ok t ->
  exists variables, grid_name (n_short n) = Ok variables /\
    let head := header n o variables in
    let results := flat_map (fun kv => match snd kv with Some v => ["# " ++ fst kv ++ ": " ++ v] | None => [] end) an in
    file_lines head results d = Ok (text_lines t) /\
    (forall c, In c (head ++ results)%list -> is_comment c) /\
    (n_description n <> "" -> nth_error (text_lines t) 0 =
       Some ("# title: " ++ n_long n ++ " " ++ n_short n ++ " of " ++ n_description n)) /\
    (n_description n = "" -> nth_error (text_lines t) 0 = Some ("# title: " ++ n_long n ++ " " ++ n_short n ++ "  ")).
Proof.
  intros n o an d t H E. rewrite file_text_no_user in E. destruct (text_lines_file n o [] an d t H) as [vs [G F]]; [intros s []|exact E|].
  exists vs. split; [assumption|]. rewrite app_nil_r in F. split; [exact F|]. split.
  - intros c Hc. apply in_app_iff in Hc. destruct Hc as [Hc|Hc]; [apply (header_spec _ _ _ _ H G c Hc)|].
    destruct H as [_ [_ [_ [_ [_ [_ H]]]]]]. apply (key_line_spec _ H c Hc).
  - unfold file_lines in F. apply bind_Ok_inv in F. destruct F as [rows [_ F]]. apply Ok_inj in F. rewrite <- F.
    cbn [header app nth_error]. unfold title. split; intros Hd; destruct (String.eqb_spec (n_description n) ""); try congruence; [reflexivity|].
    rewrite Hd. reflexivity.
Qed.
Print Assumptions C97_lines.

(** The names of the columns of a function F(v1,...,vn). *)
Lemma split_on_none : forall c s, ~ has c s -> split_on c s = [s].
Proof.
  intros c. induction s as [|a s IH]; intros H; [reflexivity|]. cbn [split_on].
  destruct (Ascii.eqb_spec a c) as [->|_]; [exfalso; apply H; left; reflexivity|].
  rewrite IH by (intro X; apply H; right; exact X). reflexivity.
Qed.

Lemma split_on_cons : forall c s t, ~ has c s -> split_on c (s ++ String c t) = s :: split_on c t.
Proof.
  intros c. induction s as [|a s IH]; intros t H.
  - cbn [append split_on]. rewrite Ascii.eqb_refl. reflexivity.
  - cbn [append split_on]. destruct (Ascii.eqb_spec a c) as [->|_]; [exfalso; apply H; left; reflexivity|].
    rewrite IH by (intro X; apply H; right; exact X). reflexivity.
Qed.

Lemma drop_last_app : forall s a, drop_last (s ++ String a "") = s.
Proof.
  induction s as [|b s IH]; intros a; [reflexivity|]. cbn [append drop_last]. rewrite IH.
  destruct (s ++ String a "") eqn:E; [destruct s; discriminate|reflexivity].
Qed.

Lemma split_on_concat : forall c vs, vs <> [] -> (forall v, In v vs -> ~ has c v) ->
  split_on c (String.concat (String c "") vs) = vs.
Proof.
  intros c. induction vs as [|v vs IH]; intros Hne H; [congruence|].
  destruct vs as [|w vs]; [apply split_on_none, H; left; reflexivity|].
  change (String.concat (String c "") (v :: w :: vs)) with (v ++ String c (String.concat (String c "") (w :: vs))).
  rewrite split_on_cons by (apply H; left; reflexivity). f_equal. apply IH; [discriminate|]. intros x Hx. apply H. right. assumption.
Qed.

Theorem C97_variables : forall f vs, vs <> [] -> ~ has "(" f -> (forall v, In v vs -> ~ has "(" v /\ ~ has "," v) ->
  grid_name (f ++ "(" ++ String.concat "," vs ++ ")") = Ok vs.
Proof.
  intros f vs Hne Hf Hv. unfold grid_name.
  change ("(" ++ String.concat "," vs ++ ")") with (String "(" (String.concat "," vs ++ ")")).
  rewrite split_on_cons by assumption.
  assert (P : forall l, (forall v, In v l -> ~ has "(" v) -> ~ has "(" (String.concat "," l)).
  { induction l as [|x l IH]; intros H; [cbn; tauto|]. destruct l as [|y l]; [apply H; left; reflexivity|].
    change (String.concat "," (x :: y :: l)) with (x ++ "," ++ String.concat "," (y :: l)).
    rewrite !has_app. intros [Q|[Q|Q]]; [exact (H x (or_introl eq_refl) Q)|cbn in Q; intuition discriminate|].
    refine (IH _ Q). intros v Hin. apply H. right. assumption. }
  rewrite split_on_none.
  - cbn [get nth_error bind]. rewrite drop_last_app. rewrite split_on_concat by (try assumption; intros v Hin; apply Hv; assumption). reflexivity.
  - rewrite has_app. intros [Q|Q]; [refine (P vs _ Q); intros v Hin; apply Hv; assumption|cbn in Q; intuition discriminate].
Qed.
Print Assumptions C97_variables.

(** Every class names its variables in the order of its grids: the header has as many
    names as the table has columns. *)
Theorem C97_columns : forall symbol short long grids, In (symbol, short, long, grids) classes ->
  grid_name short = Ok grids /\
  forall n o an d t, n_short n = short -> one_line_names n o an -> file_text n o None an d = Ok t ->
    (match d with Data1 _ _ => length grids = 1%nat | Data2 _ _ _ => length grids = 2%nat end) ->
    nth_error (text_lines t) 1 = Some ("# columns: " ++ String.concat ", " (grids ++ [short])%list) /\
    exists rows, table d = Ok rows /\ forall r, In r rows -> length r = length (grids ++ [short])%list.
Proof.
  intros symbol short long grids Hin.
  assert (G : grid_name short = Ok grids).
  { cbn in Hin. repeat (destruct Hin as [E|Hin]; [injection E as <- <- <- <-; reflexivity|]). destruct Hin. }
  split; [assumption|]. intros n o an d t Hn H E Hd. destruct (C97_lines n o an d t H E) as [vs [G' [F [_ _]]]].
  rewrite Hn in G'. rewrite G in G'. apply Ok_inj in G'. subst vs. split.
  - unfold file_lines in F. apply bind_Ok_inv in F. destruct F as [rows [_ F]]. apply Ok_inj in F. rewrite <- F. rewrite <- Hn. reflexivity.
  - unfold file_lines in F. apply bind_Ok_inv in F. destruct F as [rows [Et _]]. exists rows. split; [assumption|].
    intros r Hr. rewrite app_length. cbn [length].
    destruct d as [g v|g0 g1 v]; rewrite Hd.
    + cbn [table] in Et. apply bind_Ok_inv in Et. destruct Et as [x [_ Et]]. unfold columns2 in Et.
      destruct (Nat.eqb _ _); [|discriminate]. apply Ok_inj in Et. subst rows. apply in_map_iff in Hr. destruct Hr as [[a b] [<- _]]. reflexivity.
    + cbn [table] in Et. apply bind_Ok_inv in Et. destruct Et as [x [_ Et]]. apply bind_Ok_inv in Et. destruct Et as [z [_ Et]]. unfold columns3 in Et.
      destruct (andb _ _); [|discriminate]. apply Ok_inj in Et. subst rows. apply in_map_iff in Hr. destruct Hr as [[[a b] c] [<- _]]. reflexivity.
Qed.
Print Assumptions C97_columns.

(** What is written is read back (C55), whatever the names and the results of the analysis;
    comments of the user do not matter as long as each of their lines starts with '#' and ends. *)
Theorem C97_read_partial : forall s now p n o us an g v s', one_line_names n o an ->
  (forall c, In c us -> one_line c /\ is_comment c) -> (2 <= length g)%nat ->
  write_text s now (Some p) n o (Some (join (map (fun c => c ++ nl) us))) an (Data1 g v) = Ok s' ->
  exists g' v', read s' (Some p) = Ok (LColumns g' v') /\ Forall2 agrees g g' /\ Forall2 agrees v v'.
Proof.
  intros s now p n o us an g v s' H Hu Hg E. unfold write_text in E. apply bind_Ok_inv in E. destruct E as [t [Et E]].
  apply Ok_inj in E. destruct (text_lines_file n o us an (Data1 g v) t H (fun c Hc => proj1 (Hu c Hc)) Et) as [vs [G F]].
  apply (C55_roundtrip_partial s now p (header n o vs ++ us)%list (flat_map key_line an) g v s').
  - intros c Hc. apply in_app_iff in Hc. destruct Hc as [Hc|Hc].
    + apply in_app_iff in Hc. destruct Hc as [Hc|Hc]; [apply (header_spec _ _ _ _ H G c Hc)|apply Hu; assumption].
    + destruct H as [_ [_ [_ [_ [_ [_ H]]]]]]. apply (key_line_spec _ H c Hc).
  - assumption.
  - unfold write. rewrite F. cbn [bind]. rewrite E. reflexivity.
Qed.
Print Assumptions C97_read_partial.

(** Comments of the user that do not end with a newline hide the first row: the file reads
    as if the first point had not been computed.  Comments that do not start with '#' make
    the file unreadable. *)
Theorem C97_user_comments_refuted :
  (forall s now p n o note x y g v s', one_line_names n o [] -> one_line note -> (2 <= length g)%nat ->
     write_text s now (Some p) n o (Some ("# " ++ note)) [] (Data1 (x :: g) (y :: v)) = Ok s' ->
     exists g' v', read s' (Some p) = Ok (LColumns g' v') /\ Forall2 agrees g g' /\ Forall2 agrees v v') /\
  (forall s now p n o w an d s', one_line_names n o an -> clean w = true -> w <> "" -> parse_float w = None ->
     write_text s now (Some p) n o (Some (w ++ nl)) an d = Ok s' -> read s' (Some p) = Err ValueError).
Proof.
  split.
  - intros s now p n o note x y g v s' H Hn Hg E.
    assert (T : forall t, file_text n o (Some ("# " ++ note)) [] (Data1 (x :: g) (y :: v)) = Ok t ->
                file_text n o (Some (join (map (fun c => c ++ nl) ["# " ++ note ++ show_row [x; y]]))) [] (Data1 g v) = Ok t).
    { intros t Et.
      assert (Lv : length v = length g).
      { unfold file_text in Et. apply bind_Ok_inv in Et. destruct Et as [rows [R _]]. cbn [table get nth_error bind] in R.
        apply columns2_ok in R. cbn [length] in R. lia. }
      rewrite <- Et. unfold file_text. destruct g as [|a g]; [cbn in Hg; lia|].
      cbn [table get nth_error bind]. unfold columns2. cbn [length] in *. rewrite !Lv, !Nat.eqb_refl.
      cbn [bind]. destruct (grid_name (n_short n)); [|reflexivity].
      cbn [bind]. f_equal. f_equal. cbn [join map fold_right key_lines combine fst snd]. rewrite <- !append_assoc. cbn [append]. reflexivity. }
    apply (C97_read_partial s now p n o ["# " ++ note ++ show_row [x; y]] [] g v s' H).
    + intros c [<-|[]]. split; [|eexists; reflexivity].
      apply one_line_app; [ol|]. apply one_line_app; [assumption|apply show_row_one_line].
    + assumption.
    + unfold write_text in *. apply bind_Ok_inv in E. destruct E as [t [Et E]]. rewrite (T t Et). exact E.
  - intros s now p n o w an d s' H Hw Hne Hp E. unfold write_text in E. apply bind_Ok_inv in E. destruct E as [t [Et E]]. apply Ok_inj in E. subst s'.
    replace (Some (w ++ nl)) with (Some (join (map (fun c => c ++ nl) [w]))) in Et by (cbn [join map fold_right]; rewrite append_empty; reflexivity).
    destruct (text_lines_file n o [w] an d t H) as [vs [G F]]; [intros c [<-|[]]; apply clean_one_line; assumption|exact Et|].
    unfold read. rewrite fs_set_same. cbn [f_lines]. unfold file_lines in F. apply bind_Ok_inv in F. destruct F as [rows [_ F]]. apply Ok_inj in F. rewrite <- F.
    unfold loadtxt.
    assert (A : forall S X (f : S -> X -> res S) l m s, foldM f s (l ++ m)%list = (s' <- foldM f s l ;; foldM f s' m)).
    { intros S0 X f l m. induction l as [|z l IH]; intros s0; [reflexivity|]. cbn [foldM app]. destruct (f s0 z); [apply IH|reflexivity]. }
    rewrite <- app_assoc, A, load_comments by (intros c Hc; apply (header_spec _ _ _ _ H G c Hc)). cbn [bind app foldM].
    unfold load_row at 1. rewrite <- (append_empty w) at 1. rewrite uncomment_clean by assumption. cbn [uncomment]. rewrite append_empty.
    pose proof (words_concat [w]) as W. cbn [String.concat] in W.
    assert (E : words w = [w]).
    { unfold words. rewrite <- (append_empty w) at 1. rewrite words_from_clean by assumption. cbn [append words_from].
      destruct (String.eqb_spec w ""); [congruence|reflexivity]. }
    rewrite E. cbn [mapM]. unfold parse_word. rewrite Hp. reflexivity.
Qed.
Print Assumptions C97_user_comments_refuted.

(** A function whose short name has no parenthesis cannot be written, not even to no file:
    such is Susceptibility, for every result. *)
Theorem C97_short_name_refuted : forall s now path n o user an d, ~ has "(" (n_short n) ->
  (exists rows, table d = Ok rows) -> write_text s now path n o user an d = Err IndexError.
Proof.
  intros s now path n o user an d H [rows E]. unfold write_text, file_text, grid_name. rewrite E. cbn [bind].
  rewrite split_on_none by assumption. reflexivity.
Qed.
Print Assumptions C97_short_name_refuted.

Theorem C97_susceptibility_refuted : forall s now path n o user an g v, n_short n = susceptibility_short -> g <> [] -> length v = length g ->
  write_text s now path n o user an (Data1 g v) = Err IndexError.
Proof.
  intros s now path n o user an g v Hs Hg Hl. apply C97_short_name_refuted; [rewrite Hs; exact (fun x => x)|].
  cbn [table]. destruct g as [|x g]; [congruence|]. cbn [get nth_error bind]. unfold columns2. rewrite Hl, Nat.eqb_refl. eexists. reflexivity.
Qed.
Print Assumptions C97_susceptibility_refuted.

Example C97_nonvacuous :
  let n := mkNames "traj.xyz" "msd" "dr^2(t)" "mean square displacement" "A" "species A" in
  let o := mkOrigin "2024-01-01 10:00:00" "3.0.0" (Some "traj.xyz") in
  let d := Data1 [f64_ofZ 0; f64_frac 1 2; f64_ofZ 1] [f64_ofZ 0; f64_ofZ 3; f64_ofZ 12] in
  one_line_names n o [("tau", Some "0.5"); ("D", None)] /\
  (t <- file_text n o None [("tau", Some "0.5"); ("D", None)] d ;; Ok (text_lines t)) =
  Ok ["# title: mean square displacement dr^2(t) of species A"; "# columns: t, dr^2(t)"; "# date: 2024-01-01 10:00:00";
      "# command: atooms-pp"; "# version: 3.0.0"; "# parents: traj.xyz"; "# tau: 0.5"; "0 0"; "0.5 3"; "1 12"] /\
  (s <- write_text (fun _ => None) 1 (Some "out") n o (Some "# a note") [] d ;; read s (Some "out")) =
  Ok (LColumns [NDec false 5 (-1); NDec false 1 0] [NDec false 3 0; NDec false 12 0]) /\
  clean "note" = true /\ parse_float "note" = None /\ ~ has "(" susceptibility_short.
Proof.
  cbv zeta. split; [|repeat split; try (vm_compute; reflexivity); intros []].
  unfold one_line_names. cbn [n_long n_short n_description o_date o_version o_parents].
  do 5 (split; [ol|]). split; [intros f E; injection E as <-; ol|].
  intros k v [E|[E|[]]]; [injection E as <- <-; split; ol|discriminate].
Qed.
