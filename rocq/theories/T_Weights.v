(** Theorems about weights: C61 (fluctuations), C85 (which weights are used). *)
From Coq Require Import Ascii String List ZArith Bool Arith Lia Reals Lra.
From Verif Require Import PyBase PyBaseFacts Num NumFacts Spec_Stats M_Helpers M_Correlation M_Groups M_Weights Spec_Weights
  P_Filter P_Weights.
Import ListNotations.
Local Open Scope nat_scope.

(** ** C61 *)
(** With no or one filter both groups get the same weights: those of the particles kept
    in each frame minus one constant. *)
Theorem C61_one_group_partial :
  forall cbk (t : wtraj Rops) o ss,
  length cbk <= 1 -> wo_weight o <> None -> wo_fluct o = true -> read_all Rops t = Ok ss -> ss <> [] ->
  (forall s, In s ss -> one_body cbk s <> [] /\ float_field (wo_field o) (one_body cbk s)) ->
  exists w, setup_weight_twobody Rops cbk t o =
    Ok (mkWO (Some (map floats w)) (Some (map floats w)) (Some (map floats w)) (wo_field o) true) /\
    centred (wo_field o) (map (one_body cbk) ss) w.
Proof. exact one_group_spec. Qed.
Print Assumptions C61_one_group_partial.

(** With two filters each group has its own constant. *)
Theorem C61_two_groups_partial :
  forall (f0 f1 : callback (wpart Rops)) (t : wtraj Rops) o ss,
  wo_weight o <> None -> wo_fluct o = true -> read_all Rops t = Ok ss -> ss <> [] ->
  (forall s, In s ss -> f0 s <> [] /\ f1 s <> [] /\ float_field (wo_field o) (f0 s) /\ float_field (wo_field o) (f1 s)) ->
  exists w0 w1, setup_weight_twobody Rops [f0; f1] t o =
    Ok (mkWO (Some []) (Some (map floats w0)) (Some (map floats w1)) (wo_field o) true) /\
    centred (wo_field o) (map f0 ss) w0 /\ centred (wo_field o) (map f1 ss) w1.
Proof. exact two_groups_spec. Qed.
Print Assumptions C61_two_groups_partial.

(** An attribute that is an integer for all the particles kept in some frame: the mean is
    subtracted in place from an array of integers, which raises. *)
Theorem C61_integer_refuted :
  forall A cbk (t : wtraj A) o ss s ds,
  length cbk <= 1 -> wo_weight o <> None -> wo_fluct o = true -> read_all A t = Ok ss ->
  mapM (fun s => dump A (wo_field o) (one_body cbk s)) ss = Ok ds ->
  In s ss -> one_body cbk s <> [] ->
  (forall p, In p (one_body cbk s) -> exists z, getattr p (wo_field o) = Ok (VInt z)) ->
  setup_weight_twobody A cbk t o = Err TypeError.
Proof. exact integer_error. Qed.
Print Assumptions C61_integer_refuted.

(** Two frames; the attribute q is a float in one trajectory, an integer in the other. *)
Definition ex_wpart (sp : string) (v : attr F64ops) : wpart F64ops := mkWP sp [("q"%string, v)].
Definition ex_fnum (z : Z) : attr F64ops := VNum (A:=F64ops) (f64_ofZ z).
Definition ex_wtraj (v : Z -> attr F64ops) : wtraj F64ops :=
  mkWT [0; 10]%Z [[ex_wpart "A" (v 1%Z); ex_wpart "B" (v 3%Z)]; [ex_wpart "A" (v 5%Z); ex_wpart "B" (v 7%Z)]] [].
Definition ex_weight (fluct : bool) (cbk : list (callback (wpart F64ops))) (t : wtraj F64ops) :=
  x <- add_weight F64ops (wobj0 F64ops) t None (Some "q"%string) fluct ;;
  o <- setup_weight_twobody F64ops cbk (snd x) (fst x) ;; Ok (wo_weight0 o, wo_weight1 o).
Definition ex_species (sp : string) : callback (wpart F64ops) := filter (fun p => String.eqb (wp_species p) sp).
Definition ex_arrays (l : list (list Z)) : option (list (array F64ops)) :=
  Some (map (fun r => ANums (A:=F64ops) (map f64_ofZ r)) l).
Example C61_weights_nonvacuous :
  ex_weight true [] (ex_wtraj ex_fnum) = Ok (ex_arrays [[-3; -1]; [1; 3]]%Z, ex_arrays [[-3; -1]; [1; 3]]%Z) /\
  ex_weight true [ex_species "A"; ex_species "B"] (ex_wtraj ex_fnum)
    = Ok (ex_arrays [[-2]; [2]]%Z, ex_arrays [[-2]; [2]]%Z) /\
  ex_weight true [] (ex_wtraj VInt) = Err TypeError /\
  ex_weight false [] (ex_wtraj VInt) = Ok (Some [AInts [1; 3]; AInts [5; 7]]%Z, Some [AInts [1; 3]; AInts [5; 7]]%Z).
Proof. repeat split; vm_compute; reflexivity. Qed.

(** ** C85 *)
(** A weight trajectory with other steps is rejected, a missing field too. *)
Theorem C85_steps_checked :
  forall A (o : wobj A) t w f fluct, wt_steps w <> wt_steps t ->
  add_weight A o t (Some w) f fluct = Err ValueError.
Proof.
  intros A o t w [f|] fluct H; [|reflexivity]. unfold add_weight, steps_eqb.
  destruct (list_eq_dec Z.eq_dec (wt_steps w) (wt_steps t)); [contradiction|reflexivity].
Qed.
Print Assumptions C85_steps_checked.

(** Without a weight trajectory the trajectory is left as it is and the weights are the
    attributes of its own particles, for the particles kept by the filters. *)
Theorem C85_own_field :
  forall (t : wtraj Rops) f ss, read_all Rops t = Ok ss ->
  exists o, add_weight Rops (wobj0 Rops) t None (Some f) false = Ok (o, t) /\
    (forall cbk, length cbk <= 1 -> (forall s, In s ss -> float_field f (one_body cbk s)) ->
       exists o', setup_weight_twobody Rops cbk t o = Ok o' /\
         wo_weight0 o' = Some (map (fun s => floats (map (weight_of f) (one_body cbk s))) ss) /\
         wo_weight1 o' = wo_weight0 o') /\
    (forall f0 f1, (forall s, In s ss -> float_field f (f0 s) /\ float_field f (f1 s)) ->
       exists o', setup_weight_twobody Rops [f0; f1] t o = Ok o' /\
         wo_weight0 o' = Some (map (fun s => floats (map (weight_of f) (f0 s))) ss) /\
         wo_weight1 o' = Some (map (fun s => floats (map (weight_of f) (f1 s))) ss)).
Proof.
  intros t f ss Hr. eexists. split; [|split].
  - unfold add_weight, steps_eqb. destruct (list_eq_dec Z.eq_dec (wt_steps t) (wt_steps t)); [reflexivity|congruence].
  - intros cbk Hc H. unfold setup_weight_twobody. cbn [wo_weight wo_field wo_fluct].
    rewrite (proj2 (Nat.leb_le _ _) Hc). unfold setup_weight_onebody. cbn [wo_weight wo_field wo_fluct]. rewrite Hr. cbn [bind].
    rewrite <- (mapM_map _ _ _ (dump Rops f) (one_body cbk)), mapM_dump_floats.
    2: { apply Forall_forall. intros s Hin. apply in_map_iff in Hin. destruct Hin as [s' [<- Hin]]. apply H. exact Hin. }
    cbn [bind app wo_weight wo_weight0 wo_weight1]. eexists. split; [reflexivity|]. cbn [wo_weight0 wo_weight1].
    split; [rewrite map_map; reflexivity|reflexivity].
  - intros f0 f1 H. unfold setup_weight_twobody. cbn [wo_weight wo_field wo_fluct length Nat.leb]. rewrite Hr. cbn [bind].
    rewrite two_dump by exact H. cbn [bind]. eexists. split; [reflexivity|]. cbn [wo_weight0 wo_weight1].
    rewrite !map_map. split; reflexivity.
Qed.
Print Assumptions C85_own_field.

(** With a weight trajectory that has the same steps and in every frame at least as many
    particles, all with the field: every frame is read with the particles of the
    trajectory, each with the field of the particle at the same place of the same frame
    of the weight trajectory. *)
Theorem C85_other_field_partial :
  forall A (o : wobj A) t w f fluct, wt_steps w = wt_steps t ->
  exists o' t', add_weight A o t (Some w) (Some f) fluct = Ok (o', t') /\
    wo_field o' = f /\ wo_fluct o' = fluct /\ wo_weight o' = Some [] /\
    forall i s so, read_frame A t i = Ok s -> read_frame A w i = Ok so -> length s <= length so ->
      (forall p, In p so -> exists v, getattr p f = Ok v) ->
      exists s', read_frame A t' i = Ok s' /\ field_taken f s so s'.
Proof.
  intros A o t w f fluct H. eexists. eexists. split; [|split; [|split; [|split]]].
  - unfold add_weight, steps_eqb. destruct (list_eq_dec Z.eq_dec (wt_steps w) (wt_steps t)); [reflexivity|contradiction].
  - reflexivity.
  - reflexivity.
  - reflexivity.
  - intros i s so Hs Hso L Hf. rewrite (read_frame_added A t w f i s Hs), Hso. cbn [bind].
    destruct (copy_zip_spec A f s so Hf) as [s' [E [T _]]]. exists s'. split; [exact E|]. exact (field_taken_of A f s so s' L T).
Qed.
Print Assumptions C85_other_field_partial.

(** Fewer particles in the weight trajectory: no error, the remaining particles keep
    their own attribute. *)
Theorem C85_missing_particles_refuted :
  forall A (o : wobj A) t w f fluct, wt_steps w = wt_steps t ->
  exists o' t', add_weight A o t (Some w) (Some f) fluct = Ok (o', t') /\
    forall i s so, read_frame A t i = Ok s -> read_frame A w i = Ok so -> length so < length s ->
      (forall p, In p so -> exists v, getattr p f = Ok v) ->
      exists s', read_frame A t' i = Ok s' /\ forall j, length so <= j -> nth_error s' j = nth_error s j.
Proof.
  intros A o t w f fluct H. eexists. eexists. split.
  - unfold add_weight, steps_eqb. destruct (list_eq_dec Z.eq_dec (wt_steps w) (wt_steps t)); [reflexivity|contradiction].
  - intros i s so Hs Hso _ Hf. rewrite (read_frame_added A t w f i s Hs), Hso. cbn [bind].
    destruct (copy_zip_spec A f s so Hf) as [s' [E [_ K]]]. eauto.
Qed.
Print Assumptions C85_missing_particles_refuted.

(** The weight trajectory given to one correlation object changes the weights of another
    one that uses the same trajectory and its own field. *)
Definition ex_other : wtraj F64ops :=
  mkWT [0; 10]%Z [[ex_wpart "A" (ex_fnum 20); ex_wpart "B" (ex_fnum 30)]; [ex_wpart "A" (ex_fnum 40)]] [].
Definition ex_own : wobj F64ops := mkWO (Some []) None None "q" false.
Definition ex_shared : wtraj F64ops :=
  mkWT (wt_steps (ex_wtraj ex_fnum)) (wt_frames (ex_wtraj ex_fnum)) [copy_field F64ops "q" ex_other].
Definition ex_weights0 (t : wtraj F64ops) (o : wobj F64ops) :=
  o' <- setup_weight_twobody F64ops [] t o ;; Ok (wo_weight0 o').
Theorem C85_shared_trajectory_refuted :
  exists t w f c t',
    add_weight F64ops (wobj0 F64ops) t None (Some f) false = Ok (c, t) /\
    ex_weights0 t c = Ok (ex_arrays [[1; 3]; [5; 7]]%Z) /\
    add_weight F64ops (wobj0 F64ops) t (Some w) (Some f) false = Ok (c, t') /\
    ex_weights0 t' c = Ok (ex_arrays [[20; 30]; [40; 7]]%Z).
Proof.
  exists (ex_wtraj ex_fnum), ex_other, "q"%string, ex_own, ex_shared.
  split; [reflexivity|]. split; [vm_cast_no_check (eq_refl (Ok (ex_arrays [[1; 3]; [5; 7]]%Z)))|].
  split; [reflexivity|vm_cast_no_check (eq_refl (Ok (ex_arrays [[20; 30]; [40; 7]]%Z)))].
Qed.
Print Assumptions C85_shared_trajectory_refuted.

Example C85_nonvacuous :
  exists o t', add_weight F64ops (wobj0 F64ops) (ex_wtraj ex_fnum) (Some ex_other) (Some "q"%string) true = Ok (o, t') /\
  (s <- read_frame F64ops t' 0 ;; Ok (map (fun p => wp_species p) s)) = Ok ["A"; "B"]%string /\
  (s <- read_frame F64ops t' 0 ;; dump F64ops "q" s) = Ok (ANums (A:=F64ops) (map f64_ofZ [20; 30]%Z)) /\
  add_weight F64ops (wobj0 F64ops) (ex_wtraj ex_fnum) (Some (mkWT [0]%Z [] [])) (Some "q"%string) true = Err ValueError.
Proof.
  exists (mkWO (Some []) None None "q" true), ex_shared. split; [reflexivity|]. split; [vm_compute; reflexivity|].
  split; [vm_cast_no_check (eq_refl (Ok (ANums (A:=F64ops) (map f64_ofZ [20; 30]%Z))))|reflexivity].
Qed.
