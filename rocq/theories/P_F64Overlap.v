(** Overlap functions in double precision (C99). *)
From Coq Require Import List ZArith Bool Arith Reals Lia Lra Psatz Sorting.Sorted Floats.SpecFloat.
From Verif Require Import PyBase PyBaseFacts Num Spec_Stats P_Text F64Round F64Ops F64Facts P_F64Mean M_Helpers M_Correlation M_Dynamics
  Spec_Correlation P_Correlation Spec_Time P_Time P_Skip P_Dynamics Spec_Doubles P_F64Time.
Import ListNotations.
Local Open Scope R_scope.

(** ** Numbers of pairs of frames *)
Lemma filter_le : forall X (f : X -> bool) l, (length (filter f l) <= length l)%nat.
Proof. intros X f l. induction l as [|x l IH]; cbn; [lia|]. destruct (f x); cbn; lia. Qed.

Lemma origins_le : forall a s n, (length (origins a s n) <= n)%nat.
Proof. intros a s n. unfold origins. apply Nat.le_trans with (1 := filter_le _ _ _). rewrite seq_length. lia. Qed.

Lemma admitted_le : forall g skip n, (length (admitted g skip n) <= length g * n)%nat.
Proof.
  intros g skip n. unfold admitted. induction g as [|p g IH]; cbn [flat_map length]; [lia|]. rewrite app_length, map_length.
  pose proof (origins_le (fst p) skip (n - snd p)). lia.
Qed.

Lemma NoDup_of_sorted : forall l, StronglySorted Z.lt l -> NoDup l.
Proof.
  intros l H. induction H as [|a l H IH F]; constructor; [|exact IH]. intros C. rewrite Forall_forall in F. specialize (F _ C). lia.
Qed.

Lemma grid_le : forall (A : arith) steps bs dt grid offset g, setup_t_grid A steps bs dt grid offset = Ok g ->
  (length g <= Nat.max 1 bs * length steps)%nat.
Proof.
  intros A steps bs dt grid offset g H. destruct (setup_t_grid_correct steps A dt bs grid offset g H) as [_ [_ [S [U _]]]].
  apply NoDup_of_sorted in S. apply NoDup_map_inv in S.
  replace (Nat.max 1 bs * length steps)%nat with (length (list_prod (seq 0 (Nat.max 1 bs)) (seq 0 (length steps)))) by (rewrite prod_length, !seq_length; reflexivity).
  apply NoDup_incl_length; [exact S|]. intros [a b] Hp. destruct (U _ Hp) as [[U1 U2] _]. cbn [fst snd] in *.
  apply in_prod; apply in_seq; [|lia]. unfold the_offsets in U1. destruct offset; [apply in_seq in U1; lia|]. destruct U1 as [<-|[]]. lia.
Qed.

Lemma pairs_le : forall (A : arith) steps bs dt grid offset g skip d n, setup_t_grid A steps bs dt grid offset = Ok g ->
  (length (pairs_at steps d (admitted g skip n)) <= Nat.max 1 bs * length steps * n)%nat.
Proof.
  intros A steps bs dt grid offset g skip d n H. apply Nat.le_trans with (1 := filter_le _ _ _). apply Nat.le_trans with (1 := admitted_le _ _ _).
  apply Nat.mul_le_mono_r. eapply grid_le. exact H.
Qed.

(** ** Fractions *)
Lemma frac_spec : forall k N, (k <= N)%nat -> (1 <= N)%nat -> (Z.of_nat N <= 2 ^ 53)%Z ->
  let q := ndiv F64ops (nofnat F64ops k) (nofnat F64ops N) in ok q /\ rounded (INR k / INR N) q /\ 0 <= fval q <= p2 0.
Proof.
  intros k N H1 H2 H3 q. unfold nofnat in q. cbn [ndiv nofZ F64ops] in q.
  destruct (ofZ_exact (Z.of_nat k)) as [Kk Ek]; [lia|]. destruct (ofZ_exact (Z.of_nat N)) as [KN EN]; [lia|].
  rewrite <- INR_IZR_INZ in Ek, EN. assert (P : 1 <= INR N) by (apply (le_INR 1); exact H2). assert (Q : 0 <= INR k <= INR N) by (split; [apply pos_INR|apply le_INR; exact H1]).
  assert (R1 : rounded (INR k / INR N) q) by (unfold q; rewrite <- Ek, <- EN; apply div_spec; try apply Kk; try apply KN; rewrite EN; lra).
  assert (B : 0 <= INR k / INR N <= p2 0).
  { replace (p2 0) with 1 by reflexivity. split; [apply Rmult_le_pos; [lra|left; apply Rinv_0_lt_compat; lra]|]. apply Rmult_le_reg_r with (INR N); [lra|]. unfold Rdiv. rewrite Rmult_assoc, Rinv_l by lra. lra. }
  destruct (rounded_bounded _ _ (p2 0) R1) as [Kq Bq]; [apply format_p2; lia|rewrite Rabs_right; lra|apply p2_lt; lia|].
  split; [exact Kq|]. split; [exact R1|]. assert (G : 0 <= fval q) by (apply (rounded_ge _ _ 0 R1 Kq format_0); lra). rewrite Rabs_right in Bq by lra. lra.
Qed.

Lemma frac_one : forall N, (1 <= N)%nat -> (Z.of_nat N <= 2 ^ 53)%Z -> fval (ndiv F64ops (nofnat F64ops N) (nofnat F64ops N)) = 1.
Proof.
  intros N H1 H2. destruct (frac_spec N N (Nat.le_refl _) H1 H2) as [K [R1 _]]. assert (P : 1 <= INR N) by (apply (le_INR 1); exact H1).
  replace (INR N / INR N) with 1 in R1 by (field; lra). destruct (rounded_exact _ _ R1) as [_ E]; [apply (format_Z 1); lia|rewrite Rabs_right by lra; replace 1 with (p2 0) by reflexivity; apply p2_lt; lia|exact E].
Qed.

Lemma mean_one : forall l : list f64, l <> [] -> (Z.of_nat (length l) <= 2 ^ 53)%Z -> (forall v, In v l -> ok v /\ fval v = 1) -> fval (nmean F64ops l) = 1.
Proof.
  intros l Hl Hn H. destruct (fsum_exact l (repeat 1%Z (length l)) (S754_zero false) 0 (ok_zero _)) as [Ks Es]; [reflexivity|lia| | |].
  - clear - H. induction l as [|v l IH]; cbn; [constructor|]. constructor; [destruct (H v (or_introl eq_refl)); split; [assumption|split; [assumption|lia]]|]. apply IH. intros w Hw. apply H. right. exact Hw.
  - assert (E : forall n k, fold_left Z.add (repeat 1%Z n) k = (k + Z.of_nat n)%Z) by (induction n as [|n IH]; intros k; [cbn; lia|cbn [repeat fold_left]; rewrite IH; lia]).
    rewrite E. lia.
  - assert (E : forall n k, fold_left Z.add (repeat 1%Z n) k = (k + Z.of_nat n)%Z) by (induction n as [|n IH]; intros k; [cbn; lia|cbn [repeat fold_left]; rewrite IH; lia]).
    rewrite E, Z.add_0_l in Es. unfold nmean, nsum, nofnat. cbn [ndiv nofZ nadd n0 F64ops]. change (num F64ops) with f64 in *. fold (fsum l (S754_zero false)).
    assert (P : (1 <= Z.of_nat (length l))%Z) by (destruct l; [congruence|cbn [length]; lia]). assert (P' : 1 <= IZR (Z.of_nat (length l))) by (apply IZR_le; exact P).
    destruct (ofZ_exact (Z.of_nat (length l))) as [KN EN]; [lia|].
    assert (R1 : rounded (fval (fsum l (S754_zero false)) / fval (f64_ofZ (Z.of_nat (length l)))) (fdiv (fsum l (S754_zero false)) (f64_ofZ (Z.of_nat (length l)))))
      by (apply div_spec; try apply Ks; try apply KN; rewrite EN; lra).
    rewrite Es, EN in R1. replace (IZR (Z.of_nat (length l)) / IZR (Z.of_nat (length l))) with 1 in R1 by (field; lra).
    destruct (rounded_exact _ _ R1) as [_ E1]; [apply (format_Z 1); lia|rewrite Rabs_right by lra; replace 1 with (p2 0) by reflexivity; apply p2_lt; lia|exact E1].
Qed.

(** ** Counts *)
Lemma self_count_le : forall A a2 (x y : frame A), (self_count A a2 x y <= length x)%nat.
Proof. intros A a2 x y. unfold self_count. apply Nat.le_trans with (1 := filter_le _ _ _). rewrite combine_length. lia. Qed.

(** Displacement of a particle that did not move. *)
Lemma sub_self : forall x, ok x -> ok (fsub x x) /\ fval (fsub x x) = 0.
Proof.
  intros x K. assert (R1 : rounded (fval x - fval x) (fsub x x)) by (apply sub_spec; apply K). rewrite Rminus_diag_eq in R1 by reflexivity.
  apply rounded_exact; [exact R1|apply format_0|rewrite Rabs_R0; apply p2_pos].
Qed.

Lemma sum_zeros : forall (l : list f64) s, ok s -> fval s = 0 -> (forall v, In v l -> ok v /\ fval v = 0) -> ok (fsum l s) /\ fval (fsum l s) = 0.
Proof.
  induction l as [|v l IH]; intros s K E H; [split; assumption|]. destruct (H v (or_introl eq_refl)) as [Kv Ev].
  assert (R1 : rounded (fval s + fval v) (fadd s v)) by (apply add_spec; try apply K; apply Kv). rewrite E, Ev, Rplus_0_r in R1.
  destruct (rounded_exact _ _ R1 format_0) as [Kr Er]; [rewrite Rabs_R0; apply p2_pos|]. cbn [fsum fold_left]. fold (fsum l (fadd s v)).
  apply IH; [exact Kr|exact Er|]. intros w Hw. apply H. right. exact Hw.
Qed.

Lemma sqdist_self : forall r : list f64, (forall c, In c r -> ok c) -> ok (sqdist F64ops r r) /\ fval (sqdist F64ops r r) = 0.
Proof.
  intros r H. unfold sqdist, nsum. cbn [n0 nadd F64ops]. apply (sum_zeros _ (S754_zero false)); [apply ok_zero|reflexivity|].
  intros v Hv. unfold map2 in Hv. apply in_map_iff in Hv. destruct Hv as [[a b] [E Hab]]. cbn [fst snd] in E.
  assert (Hd : a = b /\ In a r).
  { clear - Hab. induction r as [|c r IH]; [destruct Hab|]. cbn in Hab. destruct Hab as [E|Hab]; [injection E as <- <-; split; [reflexivity|left; reflexivity]|].
    destruct (IH Hab). split; [assumption|right; assumption]. }
  destruct Hd as [<- Ha]. destruct (sub_self a (H a Ha)) as [Ks Es]. subst v. unfold nsq. cbn [nmul nsub F64ops].
  assert (R1 : rounded (fval (fsub a a) * fval (fsub a a)) (fmul (fsub a a) (fsub a a))) by (apply mul_spec; apply Ks).
  rewrite Es, Rmult_0_r in R1. apply rounded_exact; [exact R1|apply format_0|rewrite Rabs_R0; apply p2_pos].
Qed.

Lemma count_self : forall a2 (x : frame F64ops), ok a2 -> 0 < fval a2 -> (forall r c, In r x -> In c r -> ok c) -> self_count F64ops a2 x x = length x.
Proof.
  intros a2 x K P H. unfold self_count.
  assert (L : length (combine x x) = length x) by (rewrite combine_length; lia). rewrite <- L. f_equal.
  assert (G : forall p, In p (combine x x) -> nlt F64ops (sqdist F64ops (fst p) (snd p)) a2 = true).
  { intros [r r'] Hp. assert (Hd : r = r' /\ In r x).
    { clear - Hp. induction x as [|c x IH]; [destruct Hp|]. cbn in Hp. destruct Hp as [E|Hp]; [injection E as <- <-; split; [reflexivity|left; reflexivity]|].
      destruct (IH Hp). split; [assumption|right; assumption]. }
    destruct Hd as [<- Hr]. cbn [fst snd nlt F64ops]. destruct (sqdist_self r (fun c Hc => H r c Hr Hc)) as [Ks Es].
    apply ltb_spec; [exact Ks|exact K|]. rewrite Es. exact P. }
  clear - G. induction (combine x x) as [|p l IH]; [reflexivity|]. cbn [filter]. rewrite (G p (or_introl eq_refl)). f_equal. apply IH. intros q Hq. apply G. right. exact Hq.
Qed.

(** A threshold whose square is a positive number. *)
Lemma square_pos : forall a, ok a -> p2 (-500) <= Rabs (fval a) <= p2 500 -> ok (nsq F64ops a) /\ 0 < fval (nsq F64ops a).
Proof.
  intros a K [L U]. unfold nsq. cbn [nmul F64ops]. assert (R1 : rounded (fval a * fval a) (fmul a a)) by (apply mul_spec; apply K).
  assert (E : fval a * fval a = Rabs (fval a) * Rabs (fval a)) by (rewrite <- Rabs_mult, Rabs_right; [reflexivity|apply Rle_ge; apply Rle_0_sqr]).
  pose proof (p2_pos (-500)). assert (B : p2 (-1000) <= fval a * fval a <= p2 1000).
  { rewrite E. change (-1000)%Z with (-500 + -500)%Z. change 1000%Z with (500 + 500)%Z. rewrite !p2_add. split; apply Rmult_le_compat; lra. }
  destruct (rounded_bounded _ _ (p2 1000) R1) as [Kr _]; [apply format_p2; lia|rewrite Rabs_right; [lra|pose proof (p2_pos (-1000)); lra]|apply p2_lt; lia|].
  split; [exact Kr|]. apply Rlt_le_trans with (p2 (-1000)); [apply p2_pos|]. apply (rounded_ge _ _ _ R1 Kr); [apply format_p2; lia|lra].
Qed.

(** ** Larger thresholds *)
Lemma Forall2_same_length : forall X Y (Q : X -> Y -> Prop) l m, Forall2 Q l m -> length l = length m.
Proof. intros X Y Q l m F. induction F as [|x y l m _ _ IH]; [reflexivity|cbn; f_equal; exact IH]. Qed.

Lemma val_unique : forall x y, ok x -> ok y -> fval x = fval y -> x = y \/ (fval x = 0 /\ fval y = 0).
Proof.
  intros x y Kx Ky E. destruct (compare_spec x y Kx Ky) as [c [Ec O]]. destruct c; cbn [order] in O; [|lra|lra].
  destruct Kx as [_ Fx]. destruct Ky as [_ Fy].
  destruct x as [sx|sx| |sx mx ex]; try destruct Fx; destruct y as [sy|sy| |sy my ey]; try destruct Fy; cbn [SFcompare] in Ec.
  - right. split; reflexivity.
  - destruct sy; discriminate.
  - destruct sx; discriminate.
  - left. injection Ec as Ec. destruct sx, sy; try discriminate.
    + destruct (Z.compare_spec ex ey) as [C|C|C]; try discriminate. subst ey. change (Pos.compare_cont Eq mx my) with (Pos.compare mx my) in Ec.
      destruct (Pos.compare_spec mx my); try discriminate. subst. reflexivity.
    + destruct (Z.compare_spec ex ey) as [C|C|C]; try discriminate. subst ey. change (Pos.compare_cont Eq mx my) with (Pos.compare mx my) in Ec.
      destruct (Pos.compare_spec mx my); try discriminate. subst. reflexivity.
Qed.

Lemma add_mono : forall a b c d, ok a -> ok b -> ok c -> ok d -> ok (fadd a b) -> ok (fadd c d) -> fval a <= fval c -> fval b <= fval d ->
  fval (fadd a b) <= fval (fadd c d).
Proof.
  intros a b c d Ka Kb Kc Kd K1 K2 H1 H2.
  assert (R1 : rounded (fval a + fval b) (fadd a b)) by (apply add_spec; try apply Ka; apply Kb).
  assert (R2 : rounded (fval c + fval d) (fadd c d)) by (apply add_spec; try apply Kc; apply Kd).
  destruct (Rle_lt_or_eq_dec (fval a + fval b) (fval c + fval d)) as [L|E]; [lra|apply (rounded_lt_mono _ _ _ _ R1 R2 K1 K2 L)|].
  assert (Eac : fval a = fval c) by lra. assert (Ebd : fval b = fval d) by lra.
  destruct (val_unique a c Ka Kc Eac) as [Ua|[Za Zc]].
  - subst c. destruct (val_unique b d Kb Kd Ebd) as [Ub|[Zb Zd]]; [subst d; lra|].
    rewrite Zb, Rplus_0_r in R1. rewrite Zd, Rplus_0_r in R2.
    destruct (rounded_exact _ _ R1 (ok_format _ Ka) (ok_bound _ Ka)) as [_ ->]. destruct (rounded_exact _ _ R2 (ok_format _ Ka) (ok_bound _ Ka)) as [_ ->]. lra.
  - rewrite Za, Rplus_0_l in R1. rewrite Zc, Rplus_0_l in R2.
    destruct (rounded_exact _ _ R1 (ok_format _ Kb) (ok_bound _ Kb)) as [_ ->]. destruct (rounded_exact _ _ R2 (ok_format _ Kd) (ok_bound _ Kd)) as [_ ->]. lra.
Qed.

Lemma div_mono : forall a b n, ok a -> ok b -> ok n -> 0 < fval n -> ok (fdiv a n) -> ok (fdiv b n) -> fval a <= fval b -> fval (fdiv a n) <= fval (fdiv b n).
Proof.
  intros a b n Ka Kb Kn P K1 K2 H.
  assert (R1 : rounded (fval a / fval n) (fdiv a n)) by (apply div_spec; try apply Ka; try apply Kn; lra).
  assert (R2 : rounded (fval b / fval n) (fdiv b n)) by (apply div_spec; try apply Kb; try apply Kn; lra).
  destruct (Rle_lt_or_eq_dec _ _ H) as [L|E].
  - apply (rounded_lt_mono _ _ _ _ R1 R2 K1 K2). apply Rmult_lt_compat_r; [apply Rinv_0_lt_compat; exact P|exact L].
  - destruct (val_unique a b Ka Kb E) as [U|[Za Zb]]; [subst b; lra|]. rewrite Za in R1. rewrite Zb in R2. unfold Rdiv in R1, R2. rewrite Rmult_0_l in R1, R2.
    destruct (rounded_exact _ _ R1 format_0) as [_ ->]; [rewrite Rabs_R0; apply p2_pos|]. destruct (rounded_exact _ _ R2 format_0) as [_ ->]; [rewrite Rabs_R0; apply p2_pos|]. lra.
Qed.

Lemma fsum_mono : forall e (l l' : list f64), (-1074 <= e <= 900)%Z -> Forall2 (fun v v' => fval v <= fval v') l l' ->
  (forall v, In v l -> ok v /\ 0 <= fval v <= p2 e) -> (forall v, In v l' -> ok v /\ 0 <= fval v <= p2 e) ->
  forall s s' k, ok s -> ok s' -> 0 <= fval s <= IZR k * p2 e -> 0 <= fval s' <= IZR k * p2 e -> (0 <= k)%Z ->
  (k + Z.of_nat (length l) <= 2 ^ 53)%Z -> fval s <= fval s' -> fval (fsum l s) <= fval (fsum l' s').
Proof.
  intros e l l' He F. induction F as [|v v' l l' H F IH]; intros Hl Hl' s s' k Ks Ks' Bs Bs' Hk Hn Hs; cbn [fsum fold_left]; [exact Hs|].
  destruct (fsum_bounds e [v] s k He Ks Bs Hk) as [K1 B1]; [intros w [<-|[]]; apply Hl; left; reflexivity|cbn [length] in *; lia|].
  destruct (fsum_bounds e [v'] s' k He Ks' Bs' Hk) as [K2 B2]; [intros w [<-|[]]; apply Hl'; left; reflexivity|cbn [length] in *; lia|].
  cbn [fsum fold_left length] in K1, B1, K2, B2. change (Z.of_nat 1) with 1%Z in *. fold (fsum l (fadd s v)). fold (fsum l' (fadd s' v')).
  apply (IH (fun w Hw => Hl w (or_intror Hw)) (fun w Hw => Hl' w (or_intror Hw)) _ _ (k + 1)%Z); try assumption; [lia|cbn [length] in Hn; lia|].
  apply add_mono; try assumption; [apply Hl; left; reflexivity|apply Hl'; left; reflexivity].
Qed.

Lemma fmean_mono : forall e (l l' : list f64), (-1074 <= e <= 900)%Z -> l <> [] -> (Z.of_nat (length l) <= 2 ^ 53)%Z -> Forall2 (fun v v' => fval v <= fval v') l l' ->
  (forall v, In v l -> ok v /\ 0 <= fval v <= p2 e) -> (forall v, In v l' -> ok v /\ 0 <= fval v <= p2 e) ->
  fval (nmean F64ops l) <= fval (nmean F64ops l').
Proof.
  intros e l l' He Ne Hn F Hl Hl'. pose proof (Forall2_same_length _ _ _ _ _ F) as EL. assert (Ne' : l' <> []) by (destruct l'; [destruct l; [congruence|discriminate]|discriminate]).
  destruct (fmean_bounds e l He Ne Hn Hl) as [K1 _]. destruct (fmean_bounds e l' He Ne' ltac:(rewrite <- EL; exact Hn) Hl') as [K2 _].
  destruct (fsum_bounds e l (S754_zero false) 0 He (ok_zero _)) as [Ks _]; [cbn [fval]; lra|lia|exact Hl|lia|].
  destruct (fsum_bounds e l' (S754_zero false) 0 He (ok_zero _)) as [Ks' _]; [cbn [fval]; lra|lia|exact Hl'|rewrite <- EL; lia|].
  revert K1 K2. unfold nmean, nsum, nofnat. cbn [ndiv nofZ nadd n0 F64ops]. change (num F64ops) with f64 in *. rewrite <- EL.
  fold (fsum l (S754_zero false)). fold (fsum l' (S754_zero false)). intros K1 K2.
  destruct (ofZ_exact (Z.of_nat (length l))) as [KN EN]; [lia|]. assert (P : (1 <= Z.of_nat (length l))%Z) by (destruct l; [congruence|cbn [length]; lia]).
  apply div_mono; try assumption; [rewrite EN; apply IZR_lt; lia|].
  apply (fsum_mono e l l' He F Hl Hl' _ _ 0); try apply ok_zero; cbn [fval]; try lra; try lia.
Qed.

Lemma add_valid : forall x y, valid x -> valid y -> valid (fadd x y).
Proof.
  intros x y Vx Vy. destruct x as [sx|sx| |sx mx ex]; destruct y as [sy|sy| |sy my ey]; try reflexivity; try exact Vx; try exact Vy;
    try (cbn [SFadd]; destruct (Bool.eqb sx sy); reflexivity).
  assert (R1 : rounded (fval (S754_finite sx mx ex) + fval (S754_finite sy my ey)) (fadd (S754_finite sx mx ex) (S754_finite sy my ey))) by (apply add_spec; try assumption; exact I).
  exact (proj1 R1).
Qed.

Lemma sub_valid : forall x y, valid x -> valid y -> valid (fsub x y).
Proof.
  intros x y Vx Vy. destruct x as [sx|sx| |sx mx ex]; destruct y as [sy|sy| |sy my ey]; try reflexivity; try exact Vx; try exact Vy;
    try (cbn [SFsub]; destruct (Bool.eqb sx (negb sy)); reflexivity).
  assert (R1 : rounded (fval (S754_finite sx mx ex) - fval (S754_finite sy my ey)) (fsub (S754_finite sx mx ex) (S754_finite sy my ey))) by (apply sub_spec; try assumption; exact I).
  exact (proj1 R1).
Qed.

Lemma mul_valid : forall x y, valid x -> valid y -> valid (fmul x y).
Proof.
  intros x y Vx Vy. destruct x as [sx|sx| |sx mx ex]; destruct y as [sy|sy| |sy my ey]; try reflexivity.
  assert (R1 : rounded (fval (S754_finite sx mx ex) * fval (S754_finite sy my ey)) (fmul (S754_finite sx mx ex) (S754_finite sy my ey))) by (apply mul_spec; try assumption; exact I).
  exact (proj1 R1).
Qed.

Lemma sqdist_valid : forall r s : list f64, (forall c, In c r -> valid c) -> (forall c, In c s -> valid c) -> valid (sqdist F64ops r s).
Proof.
  intros r s Hr Hs. unfold sqdist, nsum. cbn [nadd n0 F64ops].
  assert (G : forall l b, valid b -> (forall c, In c l -> valid c) -> valid (fold_left fadd l b)).
  { induction l as [|c l IH]; intros b Hb Hl; [exact Hb|]. cbn [fold_left]. apply IH; [apply add_valid; [exact Hb|apply Hl; left; reflexivity]|intros; apply Hl; right; assumption]. }
  apply G; [reflexivity|]. intros c Hc. unfold map2 in Hc. apply in_map_iff in Hc. destruct Hc as [[a b] [<- Hab]]. cbn [fst snd].
  pose proof (Hr _ (in_combine_l _ _ _ _ Hab)). pose proof (Hs _ (in_combine_r _ _ _ _ Hab)). unfold nsq. cbn [nmul nsub F64ops].
  apply mul_valid; apply sub_valid; assumption.
Qed.

Lemma ltb_trans : forall x a b, valid x -> ok a -> ok b -> fval a <= fval b -> SFltb x a = true -> SFltb x b = true.
Proof.
  intros x a b Vx Ka Kb H L. destruct x as [s|s| |s m e].
  - apply ltb_spec in L; [|apply ok_zero|exact Ka]. apply ltb_spec; [apply ok_zero|exact Kb|lra].
  - destruct Ka as [_ Fa]. destruct Kb as [_ Fb]. unfold SFltb in *. destruct a; try destruct Fa; destruct b; try destruct Fb; cbn [SFcompare] in *; destruct s; congruence.
  - discriminate.
  - assert (K : ok (S754_finite s m e)) by (split; [exact Vx|exact I]). apply ltb_spec in L; [|exact K|exact Ka]. apply ltb_spec; [exact K|exact Kb|lra].
Qed.

Lemma filter_mono : forall X (f g : X -> bool) l, (forall x, In x l -> f x = true -> g x = true) -> (length (filter f l) <= length (filter g l))%nat.
Proof.
  intros X f g l H. induction l as [|x l IH]; [cbn; lia|]. specialize (IH (fun y Hy => H y (or_intror Hy))). specialize (H x (or_introl eq_refl)). cbn [filter].
  destruct (f x), (g x); cbn [length]; try lia; try (specialize (H eq_refl); discriminate).
Qed.

Lemma self_count_mono : forall a b (x y : frame F64ops), ok a -> ok b -> fval a <= fval b ->
  (forall r c, In r x -> In c r -> valid c) -> (forall r c, In r y -> In c r -> valid c) ->
  (self_count F64ops a x y <= self_count F64ops b x y)%nat.
Proof.
  intros a b x y Ka Kb H Hx Hy. unfold self_count. apply filter_mono. intros [r s] Hp. cbn [fst snd nlt F64ops].
  apply ltb_trans; try assumption. apply sqdist_valid; intros c Hc; [apply (Hx r)|apply (Hy s)]; try assumption; [eapply in_combine_l|eapply in_combine_r]; exact Hp.
Qed.

Lemma coll_count_mono : forall a b (x y : frame F64ops), ok a -> ok b -> fval a <= fval b ->
  (forall r c, In r x -> In c r -> valid c) -> (forall r c, In r y -> In c r -> valid c) ->
  (coll_count F64ops a x y <= coll_count F64ops b x y)%nat.
Proof.
  intros a b x y Ka Kb H Hx Hy. unfold coll_count. apply filter_mono. intros [r s] Hp. cbn [fst snd nlt F64ops].
  apply in_flat_map in Hp. destruct Hp as [yi [Hy1 Hp]]. apply in_map_iff in Hp. destruct Hp as [xj [E Hx1]]. injection E as <- <-.
  apply ltb_trans; try assumption. apply sqdist_valid; intros c Hc; [apply (Hx xj)|apply (Hy yi)]; assumption.
Qed.

Lemma sq_mono : forall a b, ok a -> ok b -> 0 <= fval a <= fval b -> fval b <= p2 500 ->
  ok (nsq F64ops a) /\ ok (nsq F64ops b) /\ fval (nsq F64ops a) <= fval (nsq F64ops b).
Proof.
  intros a b Ka Kb [H0 H] Hb. unfold nsq. cbn [nmul F64ops].
  assert (R1 : rounded (fval a * fval a) (fmul a a)) by (apply mul_spec; apply Ka).
  assert (R2 : rounded (fval b * fval b) (fmul b b)) by (apply mul_spec; apply Kb).
  assert (B : 0 <= fval a * fval a <= p2 1000 /\ 0 <= fval b * fval b <= p2 1000).
  { change 1000%Z with (500 + 500)%Z. rewrite p2_add. split; (split; [nra|apply Rmult_le_compat; lra]). }
  destruct (rounded_bounded _ _ (p2 1000) R1) as [K1 _]; [apply format_p2; lia|rewrite Rabs_right; lra|apply p2_lt; lia|].
  destruct (rounded_bounded _ _ (p2 1000) R2) as [K2 _]; [apply format_p2; lia|rewrite Rabs_right; lra|apply p2_lt; lia|].
  split; [exact K1|]. split; [exact K2|]. destruct (Rle_lt_or_eq_dec _ _ H) as [L|E].
  - apply (rounded_lt_mono _ _ _ _ R1 R2 K1 K2). nra.
  - destruct (val_unique a b Ka Kb E) as [U|[Za Zb]]; [subst b; lra|]. rewrite Za, Rmult_0_l in R1. rewrite Zb, Rmult_0_l in R2.
    destruct (rounded_exact _ _ R1 format_0) as [_ ->]; [rewrite Rabs_R0; apply p2_pos|]. destruct (rounded_exact _ _ R2 format_0) as [_ ->]; [rewrite Rabs_R0; apply p2_pos|]. lra.
Qed.

(** Counts up to 2^53 divided by the number of particles. *)
Lemma frac_gen : forall k N, (Z.of_nat k <= 2 ^ 53)%Z -> (1 <= N)%nat -> (Z.of_nat N <= 2 ^ 53)%Z ->
  let q := ndiv F64ops (nofnat F64ops k) (nofnat F64ops N) in ok q /\ rounded (INR k / INR N) q /\ 0 <= fval q <= p2 53.
Proof.
  intros k N H1 H2 H3 q. unfold nofnat in q. cbn [ndiv nofZ F64ops] in q.
  destruct (ofZ_exact (Z.of_nat k)) as [Kk Ek]; [lia|]. destruct (ofZ_exact (Z.of_nat N)) as [KN EN]; [lia|].
  assert (Q : 0 <= IZR (Z.of_nat k) <= p2 53) by (rewrite p2_Z by lia; split; apply IZR_le; lia).
  rewrite <- INR_IZR_INZ in Ek, EN, Q. assert (P : 1 <= INR N) by (apply (le_INR 1); exact H2).
  assert (R1 : rounded (INR k / INR N) q) by (unfold q; rewrite <- Ek, <- EN; apply div_spec; try apply Kk; try apply KN; rewrite EN; lra).
  assert (B : 0 <= INR k / INR N <= p2 53).
  { split; [apply Rmult_le_pos; [lra|left; apply Rinv_0_lt_compat; lra]|]. apply Rmult_le_reg_r with (INR N); [lra|]. unfold Rdiv. rewrite Rmult_assoc, Rinv_l by lra. nra. }
  destruct (rounded_bounded _ _ (p2 53) R1) as [Kq Bq]; [apply format_p2; lia|rewrite Rabs_right; lra|apply p2_lt; lia|].
  split; [exact Kq|]. split; [exact R1|]. assert (G : 0 <= fval q) by (apply (rounded_ge _ _ 0 R1 Kq format_0); lra). rewrite Rabs_right in Bq by lra. lra.
Qed.

Lemma frac_mono : forall k k' N, (k <= k')%nat -> (Z.of_nat k' <= 2 ^ 53)%Z -> (1 <= N)%nat -> (Z.of_nat N <= 2 ^ 53)%Z ->
  fval (ndiv F64ops (nofnat F64ops k) (nofnat F64ops N)) <= fval (ndiv F64ops (nofnat F64ops k') (nofnat F64ops N)).
Proof.
  intros k k' N H H1 H2 H3. destruct (Nat.eq_dec k k') as [-> |Ne]; [lra|].
  destruct (frac_gen k N ltac:(lia) H2 H3) as [K1 [R1 _]]. destruct (frac_gen k' N H1 H2 H3) as [K2 [R2 _]].
  apply (rounded_lt_mono _ _ _ _ R1 R2 K1 K2). assert (P : 1 <= INR N) by (apply (le_INR 1); exact H2).
  apply Rmult_lt_compat_r; [apply Rinv_0_lt_compat; lra|]. apply lt_INR. lia.
Qed.

(** Two averages over the same pairs. *)
Lemma grouped_same : forall A X (f f' : X -> X -> num A) t (x : list X) dflt ps dts v dts' v',
  grouped_mean f t x dflt ps dts v -> grouped_mean f' t x dflt ps dts' v' -> dts = dts'.
Proof.
  intros A X f f' t x dflt ps dts v dts' v' [S [I _]] [S' [I' _]]. apply sorted_ext; [exact S|exact S'|]. intros z. rewrite I, I'. reflexivity.
Qed.

Lemma grouped_values : forall A X (f : X -> X -> num A) t (x : list X) dflt ps dts v k e0,
  grouped_mean f t x dflt ps dts v -> (k < length v)%nat ->
  let qs := pairs_at t (nth k dts 0%Z) ps in
  length v = length dts /\ qs <> [] /\ nth k v e0 = nmean A (map (pair_val f x dflt) qs) /\ (forall p, In p qs -> In p ps /\ pair_dt t p = nth k dts 0%Z).
Proof.
  intros A X f t x dflt ps dts v k e0 [S [I E]] Hk qs. subst v. rewrite map_length in Hk. rewrite map_length.
  assert (F : forall p, In p qs <-> In p ps /\ pair_dt t p = nth k dts 0%Z) by (intros p; unfold qs, pairs_at; rewrite filter_In, Z.eqb_eq; reflexivity).
  split; [reflexivity|]. split; [|split].
  - assert (In (nth k dts 0%Z) dts) as H by (apply nth_In; exact Hk). apply I in H. destruct H as [p Hp]. intros C. apply F in Hp. rewrite C in Hp. destruct Hp.
  - rewrite (nth_indep _ _ (nmean A (map (pair_val f x dflt) (pairs_at t 0%Z ps)))) by (rewrite map_length; exact Hk).
    rewrite (map_nth (fun d => nmean A (map (pair_val f x dflt) (pairs_at t d ps)))). reflexivity.
  - intros p Hp. apply F. exact Hp.
Qed.
