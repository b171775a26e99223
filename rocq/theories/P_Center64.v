(** Proofs about fix_cm in double precision (C133). *)
From Coq Require Import List ZArith Bool Arith Reals Lia Lra Psatz Floats.SpecFloat.
From Verif Require Import PyBase PyBaseFacts Num Spec_Stats NumFacts P_Text F64Round F64Ops F64Facts P_F64Mean P_F64Time P_F64Dot P_F64Order M_Helpers M_Dynamics Spec_Doubles Spec_Fit64 P_Fit64 Spec_Center64.
Import ListNotations.
Local Open Scope R_scope.

Lemma nth_map2 : forall {X Y W} (f : X -> Y -> W) (l : list X) (m : list Y) k x y w, (k < length l)%nat -> (k < length m)%nat -> nth k (map2 f l m) w = f (nth k l x) (nth k m y).
Proof.
  intros X Y W f. unfold map2. induction l as [|a l IH]; intros [|b m] k x y w H1 H2; cbn [length] in *; try lia.
  destruct k as [|k]; cbn [combine map nth fst snd]; [reflexivity|]. apply IH; lia.
Qed.
Lemma map2_len : forall {X Y W} (f : X -> Y -> W) (l : list X) (m : list Y), length (map2 f l m) = Nat.min (length l) (length m).
Proof. intros. unfold map2. rewrite map_length, combine_length. reflexivity. Qed.

(** Each coordinate of the center of mass is a sum of products over the sum of the masses. *)
Lemma com_state : forall (A : arith) d (ps : list (num A * list (num A))) acc m, length acc = d -> (forall p, In p ps -> length (snd p) = d) ->
  let st := fold_left (fun st p => (vadd A (fst st) (vscale A (fst p) (snd p)), nadd A (snd st) (fst p))) ps (acc, m) in
  length (fst st) = d /\ snd st = fold_left (nadd A) (map fst ps) m /\
  forall k z, (k < d)%nat -> nth k (fst st) z = fold_left (nadd A) (map (fun p => nmul A (nth k (snd p) z) (fst p)) ps) (nth k acc z).
Proof.
  intros A d. induction ps as [|p ps IH]; intros acc m Ha Hp; cbn [fold_left map].
  - split; [exact Ha|]. split; [reflexivity|]. reflexivity.
  - assert (Lp : length (snd p) = d) by (apply Hp; left; reflexivity).
    destruct (IH (vadd A acc (vscale A (fst p) (snd p))) (nadd A m (fst p))) as [L [M C]].
    { unfold vadd, vscale. rewrite map2_len, map_length, Ha, Lp, Nat.min_id. reflexivity. } { intros q Hq. apply Hp. right. exact Hq. }
    split; [exact L|]. split; [exact M|]. intros k z Hk. cbn [fst snd] in *. rewrite (C k z Hk). f_equal. unfold vadd, vscale.
    rewrite (nth_map2 _ _ _ _ z z) by (rewrite ?map_length; lia). f_equal. rewrite (nth_indep _ z (nmul A z (fst p))) by (rewrite map_length; lia).
    exact (map_nth (fun v => nmul A v (fst p)) (snd p) z k).
Qed.

Section Center.
Variables (d : nat) (ps : list (f64 * list f64)) (k : nat).
Hypothesis Hps : massive d ps.
Hypothesis Hk : (k < d)%nat.
Notation zero := (S754_zero false).
Let xs := map (fun p : f64 * list f64 => nth k (snd p) zero) ps.
Let ms := map fst ps.
Let M := rsum (map (fun p => fval (fst p)) ps).
Let B := rsum (map (fun p => fval (fst p) * Rabs (coord k p)) ps).
Let T := rsum (map (fun p => fval (fst p) * coord k p) ps).
Let n := length ps.
Let c64 : f64 := fdiv (nsum F64ops (products_of xs ms)) (nsum F64ops ms).

Lemma xs_ok : forall v, In v xs -> ok v /\ Rabs (fval v) <= p2 60.
Proof.
  intros v Hv. unfold xs in Hv. apply in_map_iff in Hv. destruct Hv as [p [<- Hp]]. destruct Hps as [_ [_ H]]. destruct (H p Hp) as [L [_ [_ C]]]. apply C. apply nth_In. lia.
Qed.
Lemma ms_ok : forall v, In v ms -> ok v /\ Rabs (fval v) <= p2 60.
Proof.
  intros v Hv. unfold ms in Hv. apply in_map_iff in Hv. destruct Hv as [p [<- Hp]]. destruct Hps as [_ [_ H]]. destruct (H p Hp) as [_ [K [[B1 B2] _]]]. split; [exact K|].
  pose proof (p2_pos (-60)). rewrite Rabs_right by lra. exact B2.
Qed.

Lemma rsum_abs_le : forall {X} (f g : X -> R) l, (forall p, In p l -> Rabs (f p) <= g p) -> Rabs (rsum (map f l)) <= rsum (map g l).
Proof.
  intros X f g. induction l as [|a l IH]; intros H; cbn [map rsum fold_right]; [rewrite Rabs_R0; apply Rle_refl|]. eapply Rle_trans; [apply Rabs_triang|]. apply Rplus_le_compat; [apply H; left; reflexivity|apply IH; intros p Hp; apply H; right; exact Hp].
Qed.

Lemma center_error : 0 < M /\ 0 <= B /\ Rabs T <= B /\ ok c64 /\ Rabs (fval c64) <= p2 300 /\ Rabs (fval c64 - T / M) <= 5 * (INR n + 1) * u * (B / M) + p2 (-980).
Proof.
  pose proof xs_ok as Hx. pose proof ms_ok as Hm. destruct Hps as [N1 [N30 H]]. fold n in N1, N30.
  assert (Lx : length xs = n) by (unfold xs; apply map_length). assert (Lm : length ms = n) by (unfold ms; apply map_length).
  destruct (plain_sum ms _ Hm ltac:(rewrite Lm; exact N30) (nsum_sum_of ms)) as [K1 [B1 W1]].
  destruct (product_sum xs ms _ ltac:(congruence) Hx Hm ltac:(rewrite Lx; exact N30) (nsum_sum_of _)) as [K2 [B2 [_ W2]]].
  set (s := nsum F64ops (products_of xs ms)) in *. set (t := nsum F64ops ms) in *. rewrite Lm in W1. rewrite Lx in W2.
  assert (E1 : rsum (map fval ms) = M) by (unfold ms, M; rewrite map_map; reflexivity).
  assert (E1' : rsum (map Rabs (map fval ms)) = M).
  { unfold ms, M. rewrite !map_map. apply f_equal. apply map_ext_in. intros p Hp. destruct (H p Hp) as [_ [_ [[Q _] _]]]. pose proof (p2_pos (-60)). apply Rabs_right. lra. }
  assert (E2 : rsum (map (fun p => fst p * snd p) (combine (map fval xs) (map fval ms))) = T).
  { unfold xs, ms, T, coord. clear. induction ps as [|p l IH]; cbn [map combine rsum fold_right fst snd]; [reflexivity|]. rewrite <- IH. rewrite Rmult_comm. reflexivity. }
  assert (E2' : rsum (map (fun p => Rabs (fst p) * Rabs (snd p)) (combine (map fval xs) (map fval ms))) = B).
  { unfold xs, ms, B, coord. clear - H. induction ps as [|p l IH]; cbn [map combine rsum fold_right fst snd]; [reflexivity|]. rewrite <- IH by (intros q Hq; apply H; right; exact Hq).
    destruct (H p (or_introl eq_refl)) as [_ [_ [[Q _] _]]]. pose proof (p2_pos (-60)). rewrite (Rabs_right (fval (fst p))) by lra. rewrite Rmult_comm. reflexivity. }
  rewrite E1, E1' in W1. rewrite E2, E2' in W2. clear E1 E1' E2 E2'.
  assert (Mb : INR n * p2 (-60) <= M).
  { unfold M, n. rewrite <- (rsum_const _ (p2 (-60)) ps). clear - H. induction ps as [|p l IH]; cbn [map rsum fold_right]; [lra|].
    destruct (H p (or_introl eq_refl)) as [_ [_ [[Q _] _]]]. apply Rplus_le_compat; [exact Q|apply IH; intros q Hq; apply H; right; exact Hq]. }
  assert (In1 : 1 <= INR n) by (replace 1 with (INR 1) by reflexivity; apply le_INR; exact N1).
  assert (In30 : INR n <= p2 30) by (rewrite INR_IZR_INZ, (p2_Z 30) by lia; apply IZR_le; exact N30).
  pose proof (p2_pos (-60)) as P60. assert (M60 : p2 (-60) <= M) by nra.
  assert (TB : Rabs T <= B) by (destruct W2 as [W2 _]; exact W2). pose proof (Rabs_pos T) as PT.
  assert (U30 : p2 30 * u <= p2 (-23)) by (unfold u; rewrite <- p2_add; apply Rle_refl).
  assert (Q23 : p2 (-23) <= / 1000000) by (change (p2 (-23)) with (/ 2 ^ 23); apply Rinv_le_contravar; [lra|]; cbn [pow]; lra). pose proof u_small as U.
  assert (Nu : INR n * u <= / 1000000) by (pose proof (Rmult_le_compat_r u _ _ ltac:(lra) In30); lra).
  pose proof (nearby_error _ _ _ _ _ W1 ltac:(lra)) as F1. rewrite Rmult_0_r, Rplus_0_r in F1.
  pose proof (nearby_error _ _ _ _ _ W2 ltac:(rewrite plus_INR; cbn [INR]; lra)) as F2. rewrite plus_INR in F2. cbn [INR] in F2.
  set (N := INR n) in *.
  assert (G1 : (1 - 2 * (N * u)) * M <= fval t <= (1 + 2 * (N * u)) * M) by (apply Rabs_le_inv in F1; lra).
  assert (Mt : / 2 * M <= fval t) by nra.
  assert (P61 : p2 (-60) = 2 * p2 (-61)) by (change (-60)%Z with (-61 + 1)%Z; apply p2_succ).
  destruct (div_bound 150 (-61) s t K2 K1 B2 ltac:(rewrite Rabs_right; lra) ltac:(lia)) as [K3 [B3 [F3 _]]]. change (150 - -61)%Z with 211%Z in B3.
  split; [lra|]. split; [lra|]. split; [exact TB|]. split; [exact K3|]. split; [apply Rle_trans with (1 := B3); apply p2_le; lia|].
  fold c64 in F3, B3, K3. pose proof tiny_pos as Pt.
  (* divide by the total mass *)
  set (a := B / M). assert (Ea : a * M = B) by (unfold a; field; lra). assert (Pa : 0 <= a) by (unfold a, Rdiv; apply Rmult_le_pos; [lra|left; apply Rinv_0_lt_compat; lra]).
  set (q := fval s / fval t) in *. assert (Eq : q * fval t = fval s) by (unfold q; field; lra). set (X := T / M). assert (EX : X * M = T) by (unfold X; field; lra).
  assert (AX : Rabs X <= a).
  { apply Rmult_le_reg_r with M; [lra|]. rewrite Ea, <- (Rabs_right M) at 1 by lra. rewrite <- Rabs_mult, EX. exact TB. }
  set (e := 2 * (N + 1) * u + 2 * N * u).
  assert (D : Rabs (q - X) * fval t <= e * B + 2 * (N * tiny)).
  { rewrite <- (Rabs_right (fval t)) by lra. rewrite <- Rabs_mult. replace ((q - X) * fval t) with ((fval s - T) - X * (fval t - M)) by (rewrite <- Eq, <- EX; ring).
    unfold Rminus at 1. eapply Rle_trans; [apply Rabs_triang|]. rewrite Rabs_Ropp, Rabs_mult.
    assert (Rabs X * Rabs (fval t - M) <= a * (2 * N * u * M)) by (apply Rmult_le_compat; [apply Rabs_pos|apply Rabs_pos|exact AX|exact F1]).
    replace (a * (2 * N * u * M)) with (2 * N * u * B) in * by (rewrite <- Ea; ring). unfold e. lra. }
  assert (Pe : 0 <= e * a) by (unfold e; apply Rmult_le_pos; [assert (0 <= N * u) by (apply Rmult_le_pos; lra); lra|exact Pa]).
  assert (Nt : N * tiny <= p2 60 * tiny * M).
  { assert (One : p2 60 * p2 (-60) = 1) by (rewrite <- p2_add; reflexivity). pose proof (p2_pos 60).
    assert (N <= p2 60 * M) by (replace N with (p2 60 * (N * p2 (-60))) by (replace (p2 60 * (N * p2 (-60))) with (N * (p2 60 * p2 (-60))) by ring; rewrite One; ring); apply Rmult_le_compat_l; lra).
    replace (p2 60 * tiny * M) with (p2 60 * M * tiny) by ring. apply Rmult_le_compat_r; lra. }
  assert (T60 : p2 60 * tiny = p2 (-1015)) by (unfold tiny; rewrite <- p2_add; reflexivity). rewrite T60 in Nt. pose proof (p2_pos (-1015)) as P15.
  assert (D2 : Rabs (q - X) <= (1 + / 100000) * (e * a + 2 * p2 (-1015))).
  { apply Rmult_le_reg_r with (fval t); [lra|]. eapply Rle_trans; [exact D|]. apply Rle_trans with ((e * a + 2 * p2 (-1015)) * M); [rewrite Rmult_plus_distr_r, (Rmult_assoc e), Ea; lra|].
    assert (M <= (1 + / 100000) * fval t) by nra. replace ((1 + / 100000) * (e * a + 2 * p2 (-1015)) * fval t) with ((e * a + 2 * p2 (-1015)) * ((1 + / 100000) * fval t)) by ring.
    apply Rmult_le_compat_l; lra. }
  assert (Aq : Rabs q <= a + Rabs (q - X)) by (replace q with ((q - X) + X) at 1 by ring; eapply Rle_trans; [apply Rabs_triang|]; lra).
  replace (fval c64 - X) with ((fval c64 - q) + (q - X)) by ring. eapply Rle_trans; [apply Rabs_triang|].
  assert (F4 : u * Rabs q <= u * a + / 1000000 * Rabs (q - X)).
  { apply Rle_trans with (u * (a + Rabs (q - X))); [apply Rmult_le_compat_l; lra|]. rewrite Rmult_plus_distr_l. apply Rplus_le_compat_l. apply Rmult_le_compat_r; [apply Rabs_pos|lra]. }
  assert (P80 : 16 * p2 (-1015) <= p2 (-980)) by (replace (16 * p2 (-1015)) with (p2 (-1011)) by (change (-1011)%Z with (-1015 + 1 + 1 + 1 + 1)%Z; rewrite !p2_succ; ring); apply p2_le; lia).
  assert (Ptt : tiny <= p2 (-1015)) by (apply p2_le; lia).
  assert (Pna : 0 <= u * a) by (apply Rmult_le_pos; lra). assert (Pnb : u * a <= N * (u * a)) by nra.
  assert (Ee : e * a = 4 * (N * (u * a)) + 2 * (u * a)) by (unfold e; ring).
  replace (5 * (N + 1) * u * a) with (5 * (N * (u * a)) + 5 * (u * a)) by ring. lra.
Qed.

(** One coordinate after the subtraction *)
Lemma shifted_error : forall p, In p ps -> ok (fsub (nth k (snd p) zero) c64) /\
  Rabs (fval (fsub (nth k (snd p) zero) c64) - (coord k p - T / M)) <= 6 * (INR n + 1) * u * (Rabs (coord k p) + B / M) + p2 (-979).
Proof.
  intros p Hp. destruct center_error as [PM [PB [TB [Kc [Bc Ec]]]]]. destruct (xs_ok (nth k (snd p) zero)) as [Kx Bx].
  { unfold xs. apply in_map_iff. exists p. split; [reflexivity|exact Hp]. }
  assert (Bx' : Rabs (fval (nth k (snd p) zero)) <= p2 300) by (apply Rle_trans with (1 := Bx); apply p2_le; lia).
  destruct (sub_bound 300 _ _ Kx Kc Bx' Bc ltac:(lia)) as [K [_ E]]. split; [exact K|]. unfold coord. set (x := fval (nth k (snd p) zero)) in *. set (c := fval c64) in *. set (a := B / M) in *. set (X := T / M) in *.
  assert (Pa : 0 <= a) by (unfold a, Rdiv; apply Rmult_le_pos; [exact PB|left; apply Rinv_0_lt_compat; exact PM]).
  assert (AX : Rabs X <= a).
  { unfold X, a, Rdiv. rewrite Rabs_mult, (Rabs_right (/ M)) by (left; apply Rinv_0_lt_compat; exact PM). apply Rmult_le_compat_r; [left; apply Rinv_0_lt_compat; exact PM|exact TB]. }
  set (N := INR n) in *. assert (N0 : 0 <= N) by apply pos_INR. pose proof u_small as U. pose proof (Rabs_pos x) as Px.
  assert (N30 : N * u <= / 1000).
  { destruct Hps as [_ [N30 _]]. assert (In30 : N <= p2 30) by (unfold N, n; rewrite INR_IZR_INZ, (p2_Z 30) by lia; apply IZR_le; exact N30).
    assert (U30 : p2 30 * u <= p2 (-23)) by (unfold u; rewrite <- p2_add; apply Rle_refl).
    assert (Q23 : p2 (-23) <= / 1000) by (change (p2 (-23)) with (/ 2 ^ 23); apply Rinv_le_contravar; [lra|]; cbn [pow]; lra).
    pose proof (Rmult_le_compat_r u _ _ ltac:(lra) In30). lra. }
  set (h := 5 * (N + 1) * u * a + p2 (-980)) in *. pose proof (p2_pos (-980)) as P80.
  assert (P79 : p2 (-979) = 2 * p2 (-980)) by (change (-979)%Z with (-980 + 1)%Z; apply p2_succ).
  assert (A1 : Rabs (x - c) <= Rabs x + a + h).
  { replace (x - c) with (x + (- X + - (c - X))) by ring. eapply Rle_trans; [apply Rabs_triang|]. pose proof (Rabs_triang (- X) (- (c - X))). rewrite !Rabs_Ropp in *. lra. }
  assert (A2 : u * Rabs (x - c) <= u * (Rabs x + a + h)) by (apply Rmult_le_compat_l; lra).
  replace (fval (fsub (nth k (snd p) zero) c64) - (x - X)) with ((fval (fsub (nth k (snd p) zero) c64) - (x - c)) + (X - c)) by ring.
  eapply Rle_trans; [apply Rabs_triang|]. rewrite (Rabs_minus_sym X c).
  assert (Pua : 0 <= u * a) by (apply Rmult_le_pos; lra). assert (Pux : 0 <= u * Rabs x) by (apply Rmult_le_pos; lra).
  assert (Pna : 0 <= N * (u * a)) by (apply Rmult_le_pos; lra). assert (Pnx : 0 <= N * (u * Rabs x)) by (apply Rmult_le_pos; lra).
  assert (Eh : h = 5 * (N * (u * a)) + 5 * (u * a) + p2 (-980)) by (unfold h; ring).
  assert (H0 : u * h <= / 1000000 * h) by (apply Rmult_le_compat_r; lra).
  replace (6 * (N + 1) * u * (Rabs x + a)) with (6 * (N * (u * Rabs x)) + 6 * (u * Rabs x) + 6 * (N * (u * a)) + 6 * (u * a)) by ring.
  assert (N1 : 1 <= N) by (destruct Hps as [N1 _]; unfold N, n; replace 1 with (INR 1) by reflexivity; apply le_INR; exact N1).
  assert (Pnb : u * a <= N * (u * a)) by nra.
  clearbody h. rewrite Rmult_plus_distr_l in A2. lra.
Qed.
End Center.
