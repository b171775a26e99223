(** Fluctuations of weights in double precision: C61. *)
From Coq Require Import List ZArith Bool Arith Reals Lia Lra Floats.SpecFloat.
From Verif Require Import PyBase PyBaseFacts Num NumFacts Spec_Stats P_Text F64Round F64Ops F64Facts P_F64Mean P_F64Time P_F64Order P_F64Dot P_F64Alpha M_Helpers M_Correlation Spec_Doubles P_Dynamics P_Filter P_Collective64.
Import ListNotations.
Local Open Scope R_scope.

(** The mean of an array of doubles, summed in any order. *)
Definition mean_in_some_order (l : list f64) (m : f64) : Prop :=
  exists s, sum_of l s /\ m = SFdiv fprec femax s (f64_ofZ (Z.of_nat (length l))).
(** The mean over frames of the means over particles. *)
Definition mean_of_means (w : list (list f64)) (m : f64) : Prop :=
  exists ms, Forall2 mean_in_some_order w ms /\ mean_in_some_order ms m.

Lemma mean_near64 : forall V (l : list V) (v : V -> f64) (y : V -> R) m E e, mean_in_some_order (map v l) m -> l <> [] -> (Z.of_nat (length l) <= 2 ^ 49)%Z -> (-1000 <= e <= 890)%Z ->
  (forall x, In x l -> ok (v x) /\ Rabs (fval (v x) - y x) <= E /\ Rabs (fval (v x)) <= p2 e) ->
  ok m /\ Rabs (fval m) <= p2 (e + 1) /\ Rabs (fval m - rmean (map y l)) <= E + 2 * INR (length l) * u * p2 e + 2 * u * p2 e + tiny.
Proof.
  intros V l v y m E e [s [Hs Em]] Hl HL He Hv. rewrite map_length in Em. pose proof u_small as U. pose proof (p2_pos e) as Pe.
  destruct (mean_near V l v y s E e (p2 e) Hs Hl HL ltac:(lia) (Rle_refl _) Hv) as [Ks [_ [Bs Ds]]].
  set (n := Z.of_nat (length l)) in *. assert (Pn : (1 <= n)%Z) by (unfold n; destruct l; [congruence|cbn [length]; lia]).
  destruct (ofZ_exact n) as [Kn En]; [lia|]. assert (P : 1 <= IZR n) by (apply IZR_le; exact Pn).
  assert (EI : INR (length l) = IZR n) by (unfold n; apply INR_IZR_INZ).
  assert (R1 : rounded (fval s / fval (f64_ofZ n)) (fdiv s (f64_ofZ n))) by (apply div_spec; try apply Ks; try apply Kn; rewrite En; lra).
  rewrite En, <- EI in R1. rewrite <- Em in R1.
  assert (E2 : p2 (e + 1) = 2 * p2 e) by (rewrite p2_add; unfold p2 at 2; simpl; ring).
  destruct (rounded_bounded _ _ (p2 (e + 1)) R1) as [Km Bm]; [replace (p2 (e + 1)) with (1 * p2 (e + 1)) by ring; apply format_scaled; lia|rewrite E2; exact Bs|apply p2_lt; lia|].
  split; [exact Km|]. split; [exact Bm|]. pose proof (rounded_error _ _ R1 Km) as Er.
  assert (u * Rabs (fval s / INR (length l)) <= u * (2 * p2 e)) by (apply Rmult_le_compat_l; lra).
  replace (fval m - rmean (map y l)) with ((fval m - fval s / INR (length l)) + (fval s / INR (length l) - rmean (map y l))) by ring.
  apply Rle_trans with (1 := Rabs_triang _ _). lra.
Qed.

(** The error of a weight: frames of at most [n] particles, [f] frames, values up to 2^e. *)
Definition weight_error (n f : nat) (e : Z) : R := (2 * INR n + 4 * INR f + 11) * u * p2 e + 3 * tiny.

Lemma rmean_close : forall X (f g : X -> R) l c, l <> [] -> (forall x, In x l -> Rabs (f x - g x) <= c) -> Rabs (rmean (map f l) - rmean (map g l)) <= c.
Proof.
  intros X f g l c Hl H. assert (0 < INR (length l)) by (change 0 with (INR 0); apply lt_INR; destruct l; [congruence|cbn; lia]).
  replace (rmean (map f l) - rmean (map g l)) with (rmean (map (fun x => f x - g x) l)).
  - assert (N : map (fun x => f x - g x) l <> []) by (destruct l; [congruence|discriminate]).
    apply Rabs_le. split; [apply rmean_ge; [exact N|]|apply rmean_le; [exact N|]]; intros v Hv; apply in_map_iff in Hv; destruct Hv as [x [<- Hx]]; specialize (H x Hx); apply Rabs_le_inv in H; lra.
  - unfold rmean. rewrite !map_length. rewrite rsum_minus. field. lra.
Qed.

(** ** C61 *)
(** In double precision and for any order of the sums: one number is subtracted from all the
    values; every weight is the value minus the exact mean, and the mean of the weights is
    zero, up to [weight_error]. *)
Theorem C61_rounding_partial : forall (w : list (list f64)) m n e,
  w <> [] -> (forall v, In v w -> v <> [] /\ (length v <= n)%nat) -> (Z.of_nat n <= 2 ^ 49)%Z -> (Z.of_nat (length w) <= 2 ^ 49)%Z -> (-1000 <= e <= 800)%Z ->
  (forall v x, In v w -> In x v -> ok x /\ Rabs (fval x) <= p2 e) -> mean_of_means w m ->
  let w' := map (map (fun x => SFsub fprec femax x m)) w in
  let exact_mean := rmean (map (fun v => rmean (map fval v)) w) in
  (forall v x, In v w -> In x v -> ok (SFsub fprec femax x m) /\
     Rabs (fval (SFsub fprec femax x m) - (fval x - exact_mean)) <= weight_error n (length w) e) /\
  Rabs (rmean (map (fun v => rmean (map fval v)) w')) <= weight_error n (length w) e.
Proof.
  intros w m n e Hw Hv Hn Hf He Hx [ms [Fm Mm]] w' M. pose proof u_small as U. pose proof tiny_pos as T. pose proof (p2_pos e) as Pe. pose proof (pos_INR n) as Pn. pose proof (pos_INR (length w)) as Pf.
  assert (UP : 0 <= u * p2 e) by (apply Rmult_le_pos; lra).
  set (e1 := 2 * INR n * u * p2 e + 2 * u * p2 e + tiny).
  assert (Frame : Forall2 (fun v mv => ok mv /\ Rabs (fval mv - rmean (map fval v)) <= e1 /\ Rabs (fval mv) <= p2 (e + 1)) w ms).
  { clear Mm M w' Hf Hw Pf. induction Fm as [|v mv w ms Hm Fm IH]; constructor; [|apply IH; intros; [apply Hv|apply Hx with v0]; try right; assumption].
    destruct (Hv v (or_introl eq_refl)) as [Nv Lv]. rewrite <- (map_id v) in Hm.
    destruct (mean_near64 f64 v (fun x => x) fval mv 0 e Hm Nv ltac:(lia) ltac:(lia)) as [K [B D]].
    { intros x Ix. destruct (Hx v x (or_introl eq_refl) Ix) as [Kx Bx]. split; [exact Kx|]. split; [rewrite Rminus_diag_eq, Rabs_R0 by reflexivity; lra|exact Bx]. }
    split; [exact K|]. split; [|exact B]. apply Rle_trans with (1 := D). unfold e1. apply le_INR in Lv.
    assert (2 * INR (length v) * u * p2 e <= 2 * INR n * u * p2 e) by (replace (2 * INR (length v) * u * p2 e) with (2 * (INR (length v) * (u * p2 e))) by ring; replace (2 * INR n * u * p2 e) with (2 * (INR n * (u * p2 e))) by ring; apply Rmult_le_compat_l; [lra|]; apply Rmult_le_compat_r; assumption). lra. }
  assert (Lm : length ms = length w) by (clear - Fm; induction Fm; cbn; congruence).
  assert (Em : ms = map snd (combine w ms)) by (clear - Lm; revert ms Lm; induction w as [|v w IH]; intros [|a ms] L; try discriminate; [reflexivity|]; cbn; f_equal; apply IH; cbn in L; lia).
  assert (Ew : w = map fst (combine w ms)) by (clear - Lm; revert ms Lm; induction w as [|v w IH]; intros [|a ms] L; try discriminate; [reflexivity|]; cbn; f_equal; apply IH; cbn in L; lia).
  assert (Lc : length (combine w ms) = length w) by (rewrite combine_length; lia).
  assert (E1 : p2 (e + 1) = 2 * p2 e) by (rewrite p2_add; unfold p2 at 2; simpl; ring).
  destruct (mean_near64 _ (combine w ms) snd (fun p => rmean (map fval (fst p))) m e1 (e + 1)) as [Km [Bm Dm]].
  { rewrite <- Em. exact Mm. } { intros Q. rewrite Q in Lc. destruct w; [congruence|discriminate]. } { lia. } { lia. }
  { intros p Hp. clear - Frame Hp. induction Frame as [|v mv w ms H F IH]; [destruct Hp|]. destruct Hp as [<-|Hp]; [exact H|apply IH; exact Hp]. }
  rewrite Lc, E1 in Dm. rewrite <- (map_map fst (fun v => rmean (map fval v))), <- Ew in Dm. fold M in Dm.
  assert (E2 : p2 (e + 1 + 1) = 4 * p2 e) by (rewrite (p2_add (e + 1)), E1; unfold p2 at 2; simpl; ring). rewrite E2 in Bm.
  assert (One : forall v x, In v w -> In x v -> ok (fsub x m) /\ Rabs (fval (fsub x m) - (fval x - M)) <= weight_error n (length w) e).
  { intros v x Iv Ix. destruct (Hx v x Iv Ix) as [Kx Bx].
    assert (R1 : rounded (fval x - fval m) (fsub x m)) by (apply sub_spec; try apply Kx; apply Km).
    assert (B : Rabs (fval x - fval m) <= 5 * p2 e) by (apply Rle_trans with (Rabs (fval x) + Rabs (fval m)); [replace (fval x - fval m) with (fval x + - fval m) by ring; rewrite <- (Rabs_Ropp (fval m)); apply Rabs_triang|lra]).
    destruct (rounded_bounded _ _ (IZR 5 * p2 e) R1) as [K _]; [apply format_scaled; lia|exact B| |].
    { apply Rle_lt_trans with (p2 (e + 3)); [rewrite p2_add; unfold p2 at 3; simpl; lra|apply p2_lt; lia]. }
    split; [exact K|]. pose proof (rounded_error _ _ R1 K) as Er. assert (u * Rabs (fval x - fval m) <= u * (5 * p2 e)) by (apply Rmult_le_compat_l; lra).
    replace (fval (fsub x m) - (fval x - M)) with ((fval (fsub x m) - (fval x - fval m)) + - (fval m - M)) by ring.
    apply Rle_trans with (1 := Rabs_triang _ _). rewrite Rabs_Ropp. unfold weight_error. unfold e1 in Dm. nra. }
  split; [exact One|].
  unfold w'. rewrite map_map.
  assert (Z0 : rmean (map (fun v => rmean (map (fun x => fval x - M) v)) w) = 0).
  { rewrite (map_ext_in _ (fun v => rmean (map fval v) - M)).
    - rewrite <- (map_map (fun v => rmean (map fval v)) (fun x => x - M)). rewrite rmean_shift; [fold M; ring|destruct w; [congruence|discriminate]].
    - intros v Iv. rewrite <- (map_map fval (fun x => x - M)). apply rmean_shift. destruct (Hv v Iv) as [Nv _]. destruct v; [congruence|discriminate]. }
  rewrite <- (Rminus_0_r (rmean _)), <- Z0. apply rmean_close; [exact Hw|]. intros v Iv. rewrite map_map. destruct (Hv v Iv) as [Nv _].
  apply rmean_close; [exact Nv|]. intros x Ix. apply (One v x Iv Ix).
Qed.
Print Assumptions C61_rounding_partial.

(** The model at double precision is one such order. *)
Theorem C61_in_doubles_partial : forall (w : list (list f64)), w <> [] ->
  exists m, mean_of_means w m /\ subtract_mean F64ops w = Ok (map (map (fun x => SFsub fprec femax x m)) w).
Proof.
  intros w Hw. exists (SFdiv fprec femax (nsum F64ops (map (nmean F64ops) w)) (f64_ofZ (Z.of_nat (length w)))). split.
  - exists (map (nmean F64ops) w). split.
    + clear Hw. induction w as [|v w IH]; cbn [map]; constructor; [|exact IH]. exists (nsum F64ops v). split; [apply nsum_sum_of|reflexivity].
    + exists (nsum F64ops (map (nmean F64ops) w)). split; [apply nsum_sum_of|]. rewrite map_length. reflexivity.
  - destruct w as [|v w]; [congruence|]. unfold subtract_mean. f_equal. apply map_ext. intros r. apply map_ext. intros x. cbn [nsub F64ops]. f_equal. unfold nofnat. cbn [ndiv nofZ F64ops]. f_equal.
    generalize (v :: w). clear. intros l. unfold nsum. generalize (n0 F64ops). induction l as [|a l IH]; intros z; cbn [map fold_left]; [reflexivity|]. apply IH.
Qed.
Print Assumptions C61_in_doubles_partial.

(** Two frames with the values 1, 2 and 4: the means 1.5 and 4 are exact and so is theirs. *)
Example C61_rounding_nonvacuous :
  let w := [map f64_ofZ [1; 2]%Z; map f64_ofZ [4]%Z] in
  (forall v x, In v w -> In x v -> ok x /\ Rabs (fval x) <= p2 2) /\
  exists m, mean_of_means w m /\ subtract_mean F64ops w = Ok (map (map (fun x => SFsub fprec femax x m)) w) /\ weight_error 2 2 2 < / 1000000000.
Proof.
  intros w. assert (G : forall z, (0 <= z <= 4)%Z -> ok (f64_ofZ z) /\ Rabs (fval (f64_ofZ z)) <= p2 2).
  { intros z Hz. destruct (ofZ_exact z) as [K E]; [lia|]. split; [exact K|]. rewrite E. rewrite Rabs_right; [|apply Rle_ge; apply IZR_le; lia]. replace (p2 2) with (IZR 4) by (unfold p2; simpl; lra). apply IZR_le. lia. }
  split.
  - intros v x Iv Ix. unfold w in Iv. destruct Iv as [<-|[<-|[]]]; apply in_map_iff in Ix; destruct Ix as [z [<- Iz]]; apply G; cbn in Iz; lia.
  - destruct (C61_in_doubles_partial w) as [m [Hm Em]]; [discriminate|]. exists m. split; [exact Hm|]. split; [exact Em|].
    unfold weight_error, tiny. assert (u <= p2 (-40)) by (apply p2_le; lia). assert (p2 (-1075) <= p2 (-40)) by (apply p2_le; lia). pose proof u_pos. cbn [INR].
    replace (p2 2) with 4 by (unfold p2; simpl; lra). assert (p2 (-40) = / 1099511627776) by (unfold p2; simpl; lra). lra.
Qed.
