(** Proofs about weights. *)
From Coq Require Import Ascii String List ZArith Bool Arith Lia Reals Lra.
From Verif Require Import PyBase PyBaseFacts Num NumFacts Spec_Stats M_Helpers M_Correlation M_Groups M_Weights Spec_Weights P_Filter.
Import ListNotations.
Local Open Scope R_scope.

Lemma attr_find_put : forall A d k k' (v : attr A),
  attr_find A (attr_put A d k v) k' = if String.eqb k k' then Some v else attr_find A d k'.
Proof.
  intros A d k k' v. induction d as [|[a x] d IH]; cbn [attr_put attr_find].
  - destruct (String.eqb_spec k k'); reflexivity.
  - destruct (String.eqb_spec a k) as [->|Ha]; cbn [attr_find].
    + destruct (String.eqb_spec k k') as [->|]; [reflexivity|]. reflexivity.
    + destruct (String.eqb_spec a k') as [->|Ha'].
      * destruct (String.eqb_spec k k') as [->|]; [congruence|reflexivity].
      * exact IH.
Qed.

Lemma getattr_setattr : forall A (p : wpart A) k k' v,
  getattr (setattr p k v) k' = if String.eqb k k' then Ok v else getattr p k'.
Proof.
  intros. unfold getattr, setattr. cbn [wp_attrs]. rewrite attr_find_put.
  destruct (String.eqb k k'); reflexivity.
Qed.

(** ** copy_field *)
Definition zip_taken {A} (field : string) (s so s' : list (wpart A)) : Prop :=
  length s' = length s /\
  forall j p po p', nth_error s j = Some p -> nth_error so j = Some po -> nth_error s' j = Some p' ->
    wp_species p' = wp_species p /\ getattr p' field = getattr po field /\
    forall k, k <> field -> getattr p' k = getattr p k.

Lemma field_taken_of : forall A field (s so s' : list (wpart A)),
  (length s <= length so)%nat -> zip_taken field s so s' -> field_taken field s so s'.
Proof.
  intros A field s so s' Hl [L T]. split; [exact L|]. intros j p Hp.
  assert (j < length s)%nat as Hj by (apply nth_error_Some; congruence).
  destruct (nth_error so j) as [po|] eqn:Eo; [|apply nth_error_None in Eo; lia].
  destruct (nth_error s' j) as [p'|] eqn:E'; [|apply nth_error_None in E'; lia].
  exists po, p'. split; [reflexivity|]. split; [reflexivity|]. exact (T j p po p' Hp Eo E').
Qed.

Lemma copy_zip_spec : forall A field (s so : list (wpart A)),
  (forall p, In p so -> exists v, getattr p field = Ok v) ->
  exists s', copy_zip A field s so = Ok s' /\ zip_taken field s so s' /\
    forall j, (length so <= j)%nat -> nth_error s' j = nth_error s j.
Proof.
  intros A field. induction s as [|p s IH]; intros so H.
  - exists []. destruct so; (split; [reflexivity|split; [split; [reflexivity|intros [|j]; discriminate]|reflexivity]]).
  - destruct so as [|po so]; cbn [copy_zip].
    + exists (p :: s). split; [reflexivity|]. split; [split; [reflexivity|intros [|j]; discriminate]|reflexivity].
    + destruct (H po (or_introl eq_refl)) as [v Ev]. rewrite Ev. cbn [bind].
      destruct (IH so) as [s' [E [[L T] K]]]; [intros q Hq; apply H; right; exact Hq|].
      rewrite E. cbn [bind]. exists (setattr p field v :: s'). split; [reflexivity|]. split; [split|].
      * cbn [length]. lia.
      * intros [|j] a b c Ha Hb Hc; cbn [nth_error] in *.
        -- injection Ha as <-. injection Hb as <-. injection Hc as <-.
           split; [reflexivity|]. split; [rewrite getattr_setattr, String.eqb_refl; symmetry; exact Ev|].
           intros k Hk. rewrite getattr_setattr. destruct (String.eqb_spec field k); [congruence|reflexivity].
        -- exact (T j a b c Ha Hb Hc).
      * intros [|j] Hj; cbn [length] in Hj; [lia|]. cbn [nth_error]. apply K. lia.
Qed.

Lemma read_frame_added : forall A (t w : wtraj A) field i s,
  read_frame A t i = Ok s ->
  read_frame A (mkWT (wt_steps t) (wt_frames t) (wt_cbk t ++ [copy_field A field w])) i =
  (so <- read_frame A w i ;; copy_zip A field s so).
Proof.
  intros A t w field i s H. unfold read_frame at 1. cbn [wt_frames wt_cbk].
  unfold read_frame at 1 in H. destruct (get (wt_frames t) i) as [s0|e]; cbn [bind] in *; [|discriminate].
  rewrite foldM_app. refine (eq_trans (f_equal (fun x => bind x _) H) _). cbn [bind foldM]. unfold copy_field. destruct (so <- read_frame A w i ;; copy_zip A field s so); reflexivity.
Qed.

(** ** Arrays *)
Lemma dump_floats : forall field s, float_field field s ->
  dump Rops field s = Ok (floats (map (weight_of field) s)).
Proof.
  intros field s H. unfold dump.
  assert (mapM (fun p => getattr p field) s = Ok (map (fun p => VNum (A:=Rops) (weight_of field p)) s)) as ->.
  { induction s as [|p s IH]; [reflexivity|]. cbn [mapM map].
    destruct (H p (or_introl eq_refl)) as [x Ex].
    rewrite Ex. cbn [bind]. rewrite IH by (intros q Hq; apply H; right; exact Hq). cbn [bind].
    unfold weight_of at 2. rewrite Ex. reflexivity. }
  cbn [bind]. unfold to_array. destruct s as [|p s]; [reflexivity|]. cbn [map forallb is_int andb].
  f_equal. f_equal. cbn [attr_num]. f_equal. rewrite map_map. reflexivity.
Qed.

Lemma mapM_dump_floats : forall field groups, Forall (float_field field) groups ->
  mapM (dump Rops field) groups = Ok (map (fun s => floats (map (weight_of field) s)) groups).
Proof.
  intros field groups H. induction H as [|s l Hs Hl IH]; [reflexivity|].
  cbn [mapM map]. rewrite dump_floats by exact Hs. cbn [bind]. rewrite IH. reflexivity.
Qed.

Lemma subtract_floats : forall field groups,
  groups <> [] -> (forall s, In s groups -> s <> []) ->
  exists w, subtract_arrays Rops (map (fun s => floats (map (weight_of field) s)) groups) = Ok (map floats w) /\
    centred field groups w.
Proof.
  intros field groups Hne Hs. unfold subtract_arrays. rewrite map_map. cbn [array_nums].
  destruct (subtract_mean_spec (map (map (weight_of field)) groups)) as [w [c [E [Ew Em]]]].
  { destruct groups; [congruence|discriminate]. }
  { intros v Hv. apply in_map_iff in Hv. destruct Hv as [s [<- Hin]]. specialize (Hs s Hin).
    destruct s; [congruence|discriminate]. }
  exists w. change (num Rops) with R in *. refine (conj (eq_trans (f_equal (fun x => bind x _) E) _) _); cbn [bind].
  - assert (existsb (fun a : array Rops => match a with AInts _ => true | ANums _ => false end)
            (map (fun s => floats (map (weight_of field) s)) groups) = false) as ->; [|reflexivity].
    clear. induction groups as [|s l IH]; [reflexivity|exact IH].
  - split; [|exact Em]. exists c. rewrite Ew, map_map. apply map_ext. intros s.
    rewrite map_map. reflexivity.
Qed.

Lemma mapM_map : forall X Y Z (f : Y -> res Z) (g : X -> Y) l, mapM f (map g l) = mapM (fun x => f (g x)) l.
Proof. intros. induction l as [|a l IH]; cbn [mapM map]; [reflexivity|rewrite IH; reflexivity]. Qed.

(** ** The two setups *)
Lemma one_group_spec : forall cbk (t : wtraj Rops) o ss,
  (length cbk <= 1)%nat -> wo_weight o <> None -> wo_fluct o = true -> read_all Rops t = Ok ss -> ss <> [] ->
  (forall s, In s ss -> one_body cbk s <> [] /\ float_field (wo_field o) (one_body cbk s)) ->
  exists w, setup_weight_twobody Rops cbk t o =
    Ok (mkWO (Some (map floats w)) (Some (map floats w)) (Some (map floats w)) (wo_field o) true) /\
    centred (wo_field o) (map (one_body cbk) ss) w.
Proof.
  intros cbk t o ss Hc Hw Hf Hr Hne Hs. unfold setup_weight_twobody.
  destruct (wo_weight o) as [old|]; [|congruence]. rewrite (proj2 (Nat.leb_le _ _) Hc).
  unfold setup_weight_onebody. cbn [wo_weight wo_field wo_fluct]. rewrite Hr. cbn [bind].
  rewrite <- (mapM_map _ _ _ (dump Rops (wo_field o)) (one_body cbk)), mapM_dump_floats.
  2: { apply Forall_forall. intros s Hin. apply in_map_iff in Hin. destruct Hin as [s' [<- Hin]]. apply Hs. exact Hin. }
  cbn [bind app]. rewrite Hf.
  destruct (subtract_floats (wo_field o) (map (one_body cbk) ss)) as [w [E C]].
  { destruct ss; [congruence|discriminate]. }
  { intros s Hin. apply in_map_iff in Hin. destruct Hin as [s' [<- Hin]]. apply Hs. exact Hin. }
  exists w. rewrite E. cbn [bind wo_weight wo_weight0 wo_weight1 wo_field wo_fluct]. split; [reflexivity|exact C].
Qed.

Lemma two_dump : forall field (f0 f1 : callback (wpart Rops)) ss,
  (forall s, In s ss -> float_field field (f0 s) /\ float_field field (f1 s)) ->
  mapM (fun s => a <- dump Rops field (f0 s) ;; b <- dump Rops field (f1 s) ;; Ok (a, b)) ss =
  Ok (map (fun s => (floats (map (weight_of field) (f0 s)), floats (map (weight_of field) (f1 s)))) ss).
Proof.
  intros field f0 f1 ss H. induction ss as [|s ss IH]; [reflexivity|]. cbn [mapM map].
  destruct (H s (or_introl eq_refl)) as [H0 H1]. rewrite !dump_floats by assumption. cbn [bind].
  rewrite IH by (intros q Hq; apply H; right; exact Hq). reflexivity.
Qed.

Lemma two_groups_spec : forall (f0 f1 : callback (wpart Rops)) (t : wtraj Rops) o ss,
  wo_weight o <> None -> wo_fluct o = true -> read_all Rops t = Ok ss -> ss <> [] ->
  (forall s, In s ss -> f0 s <> [] /\ f1 s <> [] /\ float_field (wo_field o) (f0 s) /\ float_field (wo_field o) (f1 s)) ->
  exists w0 w1, setup_weight_twobody Rops [f0; f1] t o =
    Ok (mkWO (Some []) (Some (map floats w0)) (Some (map floats w1)) (wo_field o) true) /\
    centred (wo_field o) (map f0 ss) w0 /\ centred (wo_field o) (map f1 ss) w1.
Proof.
  intros f0 f1 t o ss Hw Hf Hr Hne Hs. unfold setup_weight_twobody.
  destruct (wo_weight o) as [old|]; [|congruence]. cbn [length Nat.leb]. rewrite Hr. cbn [bind].
  rewrite two_dump by (intros s Hin; destruct (Hs s Hin) as [_ [_ H]]; exact H). cbn [bind].
  rewrite !map_map. cbn [fst snd]. rewrite Hf.
  rewrite <- (map_map f0 (fun s => floats (map (weight_of (wo_field o)) s))).
  rewrite <- (map_map f1 (fun s => floats (map (weight_of (wo_field o)) s))).
  destruct (subtract_floats (wo_field o) (map f0 ss)) as [w0 [E0 C0]].
  { destruct ss; [congruence|discriminate]. }
  { intros s Hin. apply in_map_iff in Hin. destruct Hin as [s' [<- Hin]]. apply Hs. exact Hin. }
  destruct (subtract_floats (wo_field o) (map f1 ss)) as [w1 [E1 C1]].
  { destruct ss; [congruence|discriminate]. }
  { intros s Hin. apply in_map_iff in Hin. destruct Hin as [s' [<- Hin]]. apply Hs. exact Hin. }
  exists w0, w1. rewrite E0, E1. cbn [bind]. split; [reflexivity|]. split; assumption.
Qed.

(** ** Integer attributes *)
Lemma dump_ints : forall A field s, s <> [] -> (forall p, In p s -> exists z, getattr p field = Ok (VInt z)) ->
  exists l, dump A field s = Ok (AInts l).
Proof.
  intros A field s Hne H. unfold dump.
  assert (exists zs, mapM (fun p => getattr p field) s = Ok (map VInt zs) /\ length zs = length s) as [zs [-> L]].
  { clear Hne. induction s as [|p s IH]; [exists []; split; reflexivity|]. cbn [mapM].
    destruct (H p (or_introl eq_refl)) as [z Ez]. rewrite Ez. cbn [bind].
    destruct IH as [zs [E L]]; [intros q Hq; apply H; right; exact Hq|]. rewrite E. cbn [bind].
    exists (z :: zs). split; [reflexivity|cbn [length]; lia]. }
  cbn [bind]. destruct zs as [|z zs]; [destruct s; [congruence|discriminate]|].
  unfold to_array. cbn [map forallb is_int andb].
  assert (forallb (@is_int A) (map VInt zs) = true) as -> by (clear; induction zs; auto).
  eexists. reflexivity.
Qed.

Lemma mapM_member : forall X Y (f : X -> res Y) l ys x, mapM f l = Ok ys -> In x l -> exists y, f x = Ok y /\ In y ys.
Proof.
  intros X Y f. induction l as [|a l IH]; intros ys x H Hin; [destruct Hin|]. cbn [mapM] in H.
  apply bind_Ok_inv in H. destruct H as [y [Ey H]]. apply bind_Ok_inv in H. destruct H as [ys' [Es H]].
  apply Ok_inj in H. subst ys. destruct Hin as [<-|Hin].
  - exists y. split; [exact Ey|left; reflexivity].
  - destruct (IH ys' x Es Hin) as [y' [E' I']]. exists y'. split; [exact E'|right; exact I'].
Qed.

Lemma subtract_ints : forall A (ws : list (array A)) l, In (AInts l) ws -> subtract_arrays A ws = Err TypeError.
Proof.
  intros A ws l H. unfold subtract_arrays.
  destruct ws as [|a ws]; [destruct H|]. cbn [map]. unfold subtract_mean. cbn [bind].
  assert (existsb (fun a : array A => match a with AInts _ => true | ANums _ => false end) (a :: ws) = true) as ->.
  { apply existsb_exists. exists (AInts l). split; [exact H|reflexivity]. }
  reflexivity.
Qed.

Lemma integer_error : forall A cbk (t : wtraj A) o ss s ds,
  (length cbk <= 1)%nat -> wo_weight o <> None -> wo_fluct o = true -> read_all A t = Ok ss ->
  mapM (fun s => dump A (wo_field o) (one_body cbk s)) ss = Ok ds ->
  In s ss -> one_body cbk s <> [] -> (forall p, In p (one_body cbk s) -> exists z, getattr p (wo_field o) = Ok (VInt z)) ->
  setup_weight_twobody A cbk t o = Err TypeError.
Proof.
  intros A cbk t o ss s ds Hc Hw Hf Hr Hd Hin Hne Hi. unfold setup_weight_twobody.
  destruct (wo_weight o) as [old|]; [|congruence]. rewrite (proj2 (Nat.leb_le _ _) Hc).
  unfold setup_weight_onebody. cbn [wo_weight wo_field wo_fluct]. rewrite Hr. cbn [bind]. rewrite Hd. cbn [bind app]. rewrite Hf.
  destruct (dump_ints A (wo_field o) (one_body cbk s) Hne Hi) as [l El].
  destruct (mapM_member _ _ _ _ _ _ Hd Hin) as [y [Ey Iy]]. rewrite El in Ey. apply Ok_inj in Ey. subst y.
  rewrite (subtract_ints A ds l Iy). reflexivity.
Qed.
