(** Bounds on the velocity and stress autocorrelations. *)
From Coq Require Import Ascii String List ZArith Bool Arith Reals Lia Lra Sorting.Sorted.
From Verif Require Import PyBase PyBaseFacts Num Spec_Stats NumFacts M_Helpers M_Correlation M_Dynamics
  Spec_Correlation P_Correlation Spec_Time P_Time P_Acf P_Helpers Spec_Dynamics P_Dynamics P_Dynamics2 P_Chi4 Spec_Velocity.
Import ListNotations.
Local Open Scope R_scope.

Lemma dotv_sq_nonneg : forall r, 0 <= dotv r r.
Proof. induction r as [|a r IH]; cbn; [lra|]. pose proof (Rle_0_sqr a). unfold Rsqr in *. lra. Qed.

Lemma dotv_amgm : forall r s, - ((dotv r r + dotv s s) / 2) <= dotv r s <= (dotv r r + dotv s s) / 2.
Proof.
  induction r as [|a r IH]; intros [|b s]; cbn [dotv].
  - lra.
  - pose proof (dotv_sq_nonneg (b :: s)) as P. cbn [dotv] in P. lra.
  - pose proof (dotv_sq_nonneg (a :: r)) as P. cbn [dotv] in P. lra.
  - specialize (IH s). pose proof (Rle_0_sqr (a - b)) as P. pose proof (Rle_0_sqr (a + b)) as Q. unfold Rsqr in *. nra.
Qed.

Lemma rsum_combine_bound : forall x y : list (list R), length x = length y ->
  - ((rsum (map (fun r => dotv r r) x) + rsum (map (fun r => dotv r r) y)) / 2) <=
  rsum (map (fun p => dotv (fst p) (snd p)) (combine x y)) <=
  (rsum (map (fun r => dotv r r) x) + rsum (map (fun r => dotv r r) y)) / 2.
Proof.
  induction x as [|r x IH]; intros [|s y] L; try discriminate; cbn [map combine rsum fst snd]; [lra|].
  specialize (IH y ltac:(cbn in L; lia)). pose proof (dotv_amgm r s). lra.
Qed.

Lemma overlap_bound : forall x y N, length x = N -> length y = N ->
  - ((mean_square x + mean_square y) / 2) <= velocity_overlap x y <= (mean_square x + mean_square y) / 2.
Proof.
  intros x y N Lx Ly. unfold velocity_overlap, mean_square, rmean. rewrite !map_length, combine_length, Lx, Ly, Nat.min_id.
  destruct (Nat.eq_dec N 0) as [->|HN].
  { destruct x; [|discriminate]. destruct y; [|discriminate]. cbn. unfold Rdiv. rewrite !Rmult_0_l. lra. }
  assert (P : 0 < / INR N) by (apply Rinv_0_lt_compat, lt_0_INR; lia).
  pose proof (rsum_combine_bound x y ltac:(congruence)) as [B1 B2].
  apply (Rmult_le_compat_r (/ INR N)) in B1; [|lra]. apply (Rmult_le_compat_r (/ INR N)) in B2; [|lra]. unfold Rdiv in *. lra.
Qed.

Lemma mean_square_nonneg : forall x, 0 <= mean_square x.
Proof.
  intros x. unfold mean_square. destruct x as [|r x]; [unfold rmean; cbn; unfold Rdiv; lra|].
  apply rmean_ge; [discriminate|]. intros e He. apply in_map_iff in He. destruct He as [s [<- _]]. apply dotv_sq_nonneg.
Qed.

Lemma overlap_self : forall x, velocity_overlap x x = mean_square x.
Proof. intros x. unfold velocity_overlap, mean_square. rewrite combine_self, map_map. reflexivity. Qed.

(** At time zero the pairs are made of a frame and itself. *)
Lemma value_at_zero : forall X (f : X -> X -> R) t (x : list X) dflt ps dts v h k,
  grouped_mean (A := Rops) f t x dflt ps dts v -> in_range (length x) ps -> StronglySorted Z.lt t -> length t = length x ->
  h <> 0 -> (k < length v)%nat -> nth k (map (fun ti => IZR ti * h) dts) 0 = 0 ->
  exists is, is <> [] /\ (forall i, In i is -> (i < length x)%nat /\ In (i, i) ps) /\
    nth k v 0 = rmean (map (fun i => f (nth i x dflt) (nth i x dflt)) is).
Proof.
  intros X f t x dflt ps dts v h k G Hr Ht Hl Hh Hk H0.
  destruct (grouped_mean_nth _ _ _ _ _ _ _ _ _ G Hk) as [Hlen [qs [Hq [Hp E]]]].
  assert (E0 : nth k dts 0%Z = 0%Z).
  { rewrite (nth_map_lt _ _ _ _ _ _ 0%Z) in H0 by (rewrite <- Hlen; exact Hk).
    apply Rmult_integral in H0. destruct H0 as [H0|H0]; [|contradiction]. apply eq_IZR. exact H0. }
  exists (map fst qs). split; [destruct qs; [congruence|discriminate]|].
  assert (D : forall p, In p qs -> In p ps /\ fst p = snd p).
  { intros p Hpq. destruct (Hp p Hpq) as [Hin Hd]. split; [exact Hin|]. rewrite E0 in Hd. pose proof (Hr p Hin).
    apply (pair_dt_zero t p Ht); [lia|exact Hd]. }
  split.
  - intros i Hi. apply in_map_iff in Hi. destruct Hi as [p [<- Hpq]]. destruct (D p Hpq) as [Hin Ed].
    split; [apply Hr in Hin; lia|]. destruct p as [a b]. cbn in *. subst b. exact Hin.
  - rewrite map_map. refine (eq_trans E _). f_equal. apply map_ext_in. intros p Hpq. destruct (D p Hpq) as [_ Ed].
    rewrite <- Ed. reflexivity.
Qed.

(** ** Stress *)
Lemma stress_frame_R : forall mass (s vel : list (list R)),
  (forall r, In r s -> length r = 3%nat) -> length s = 3%nat -> (forall r, In r vel -> length r = 3%nat) ->
  stress_frame Rops mass s vel = Ok (off_diagonal mass s vel).
Proof.
  intros mass s vel Hs Ls Hv. unfold stress_frame, off_diagonal.
  apply mapM_pure. intros [j k] Hjk. cbn [fst snd].
  assert (B : (j < 3 /\ k < 3)%nat) by (destruct Hjk as [E|[E|[E|[]]]]; injection E as <- <-; lia).
  unfold entry. change (num Rops) with R. rewrite (get_Ok _ s j []) by (rewrite Ls; lia). cbn [bind].
  rewrite (get_Ok _ (nth j s []) k 0) by (rewrite Hs; [lia|apply nth_In; lia]). cbn [bind].
  rewrite (mapM_pure _ _ _ (fun mv => fst mv * nth j (snd mv) 0 * nth k (snd mv) 0)).
  - cbn [bind]. f_equal. rewrite nsum_R. reflexivity.
  - intros [m r] Hmr. apply in_combine_r in Hmr. cbn [fst snd].
    rewrite (get_Ok _ r j 0) by (rewrite (Hv r Hmr); lia). cbn [bind].
    rewrite (get_Ok _ r k 0) by (rewrite (Hv r Hmr); lia). reflexivity.
Qed.

Lemma sacf_f_R : forall x y : list R, length x = length y -> sacf_f Rops x y = dotv x y / INR (length x).
Proof.
  intros x y L. unfold sacf_f. rewrite nsum_R, nofnat_R. cbn [ndiv Rops]. f_equal. flatR.
  revert y L. induction x as [|a x IH]; intros [|b y] L; try discriminate; [reflexivity|].
  cbn. specialize (IH y ltac:(cbn in L; lia)). apply (f_equal (Rplus (a * b))) in IH. exact IH.
Qed.

Lemma stress_2d : forall A mass (s : list (list (num A))) vel, length s = 2%nat ->
  (forall r, In r s -> length r = 2%nat) -> (forall r, In r vel -> length r = 2%nat) ->
  stress_frame A mass s vel = Err IndexError.
Proof.
  intros A mass s vel Ls Hs Hv. unfold stress_frame. cbn [mapM fst snd].
  destruct s as [|a [|b [|c s]]]; try discriminate.
  pose proof (Hs a (or_introl eq_refl)) as La. destruct a as [|a1 [|a2 [|a3 a]]]; try discriminate.
  unfold entry. cbn [get nth_error bind].
  match goal with |- context [mapM ?f (combine mass vel)] => destruct (mapM f (combine mass vel)) as [kin|e] eqn:E end.
  - cbn [bind]. reflexivity.
  - exfalso. revert E. assert (Q : forall p, In p (combine mass vel) -> exists y,
      (vj <- get (snd p) 0 ;; vk <- get (snd p) 1 ;; Ok (nmul A (nmul A (fst p) vj) vk)) = Ok y).
    { intros [m r] Hp. apply in_combine_r in Hp. specialize (Hv r Hp). cbn [snd fst].
      destruct r as [|r1 [|r2 r]]; try discriminate. cbn. eauto. }
    clear - Q. induction (combine mass vel) as [|p l IH]; [discriminate|]. cbn [mapM].
    destruct (Q p (or_introl eq_refl)) as [y Ey]. intros E.
    change (bind (vj <- get (snd p) 0 ;; vk <- get (snd p) 1 ;; Ok (nmul A (nmul A (fst p) vj) vk))
              (fun y => bind (mapM (fun mv => vj <- get (snd mv) 0 ;; vk <- get (snd mv) 1 ;; Ok (nmul A (nmul A (fst mv) vj) vk)) l)
                 (fun r => Ok (y :: r))) = Err e) in E.
    rewrite Ey in E. cbn [bind] in E.
    match type of E with bind ?m _ = _ => destruct m as [r|e'] eqn:Er end; [discriminate|].
    apply (IH (fun p' Hp' => Q p' (or_intror Hp'))). cbn in E. congruence.
Qed.
