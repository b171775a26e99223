(** Proofs on the widening of well separated shells (C141). *)
From Coq Require Import List ZArith Bool Arith Reals Lra Lia.
From Verif Require Import PyBase PyBaseFacts Num NumFacts M_Helpers M_KGrid Spec_Stats Spec_BondAngle
  P_BondAngle Spec_KGrid P_KGrid P_KGrid2 P_KGrid3 P_KGrid4.
Import ListNotations.
Local Open Scope R_scope.

(** A wave-vector along the axis of K. *)
Lemma dot_zeros : forall k0 : list R, dot (wave k0 (map (fun _ => 0%Z) k0)) (wave k0 (map (fun _ => 0%Z) k0)) = 0.
Proof. intros k0. induction k0 as [|k r IH]; [reflexivity|]. unfold wave in *. cbn [map combine fst snd dot]. rewrite IH. ring. Qed.
Lemma axis_wave : forall (k0 : list R) K z, In K k0 -> exists m, length m = length k0 /\ norm (wave k0 m) = Rabs (K * IZR z).
Proof.
  intros k0 K z H. assert (X : exists m, length m = length k0 /\ dot (wave k0 m) (wave k0 m) = Rsqr (K * IZR z)).
  { induction k0 as [|k r IH]; [destruct H|]. destruct H as [->|H].
    - exists (z :: map (fun _ => 0%Z) r). split; [cbn; f_equal; apply map_length|]. pose proof (dot_zeros r) as Z. unfold wave in *. cbn [map combine fst snd dot]. rewrite Z. unfold Rsqr. ring.
    - destruct (IH H) as [m [L E]]. exists (0%Z :: m). split; [cbn; congruence|]. unfold wave in *. cbn [map combine fst snd dot]. rewrite E. ring. }
  destruct X as [m [L E]]. exists m. split; [exact L|]. unfold norm. rewrite E. apply sqrt_Rsqr_abs.
Qed.

(** Every half-open interval of length K with a non-negative lower end has the norm of a wave-vector. *)
Lemma wave_from : forall (k0 : list R) K a, In K k0 -> 0 < K -> exists m, length m = length k0 /\ (0 <= a -> a <= norm (wave k0 m) < a + K) /\ (a < 0 -> 0 <= a + K -> 0 <= norm (wave k0 m) <= a + K /\ norm (wave k0 m) = 0).
Proof.
  intros k0 K a H P. destruct (Rle_or_lt 0 a) as [A|A].
  - pose proof (Rfloor_bounds (- a / K)) as F. set (z := (- Rfloor (- a / K))%Z). destruct (axis_wave k0 K z H) as [m [L E]]. exists m. split; [exact L|]. split; [|lra]. intros _.
    assert (E1 : IZR z = - IZR (Rfloor (- a / K))) by (unfold z; apply opp_IZR).
    assert (Q : a / K <= IZR z < a / K + 1) by (rewrite E1; replace (a / K) with (- (- a / K)) by (field; lra); lra).
    assert (Q2 : a <= K * IZR z < a + K).
    { split; [apply Rle_trans with (K * (a / K)); [right; field; lra|apply Rmult_le_compat_l; lra]|apply Rlt_le_trans with (K * (a / K + 1)); [apply Rmult_lt_compat_l; lra|right; field; lra]]. }
    rewrite E, Rabs_right by lra. exact Q2.
  - destruct (axis_wave k0 K 0 H) as [m [L E]]. exists m. rewrite Rmult_0_r, Rabs_R0 in E. split; [exact L|]. split; [lra|]. intros _ B. rewrite E. lra.
Qed.
Lemma wave_near : forall (k0 : list R) K k, In K k0 -> 0 < K -> 0 <= k -> exists m, length m = length k0 /\ Rabs (norm (wave k0 m) - k) <= K / 2.
Proof.
  intros k0 K k H P Hk. destruct (wave_from k0 K (k - K / 2) H P) as [m [L [A B]]]. exists m. split; [exact L|]. apply Rabs_le. destruct (Rle_or_lt 0 (k - K / 2)) as [Q|Q]; [specialize (A Q); lra|].
  destruct (B Q ltac:(lra)) as [_ B2]. rewrite B2. lra.
Qed.

Section Separated.
Variables (k0 kgrid : list R) (K : R).
Hypothesis Pk : posk k0.
Hypothesis Dk : (length k0 = 2 \/ length k0 = 3)%nat.
Hypothesis Hne : kgrid <> [].
Hypothesis IK : In K k0.
Hypothesis Pg : forall i, (i < length kgrid)%nat -> 0 <= nth i kgrid 0.
Hypothesis Sep : forall i j, (i < j)%nat -> (j < length kgrid)%nat -> nth i kgrid 0 + 12 / 10 * K <= nth j kgrid 0.

Definition narrow (dks : list R) : Prop := length dks = length kgrid /\ forall i, (i < length kgrid)%nat -> 0 < nth i dks 0 <= 6 / 10 * K.
Definition populated (dks : list R) (i : nat) : Prop := exists m, length m = length k0 /\ within (wave k0 m) (nth i kgrid 0) (nth i dks 0).

Lemma populated_nonempty : forall dks i, narrow dks -> (i < length kgrid)%nat -> populated dks i -> nth i (pass_vec k0 kgrid dks) [] <> [].
Proof.
  intros dks i [L N] Hi [m [Lm W]]. pose proof (Pk K IK) as PK. destruct (pass_vec_In k0 kgrid dks Pk Dk Hne L dks L i Hi) as [_ Q]. pose proof (N i Hi) as Ni. unfold within in W. apply Rabs_def2 in W.
  apply (Q m Lm).
  - rewrite L. destruct (Nat.eq_dec i (length kgrid - 1)) as [->|Ne]; [lra|]. pose proof (Sep i (length kgrid - 1) ltac:(lia) ltac:(lia)). pose proof (N (length kgrid - 1)%nat ltac:(lia)). lra.
  - split.
    + exists (nth i kgrid 0), (nth i dks 0). split; [apply nth_err; exact Hi|]. split; [apply nth_err; lia|]. unfold within. apply Rabs_def1; lra.
    + intros j k d Hj Hk Hd Wj. rewrite (nth_err kgrid j) in Hk by lia. rewrite (nth_err dks j) in Hd by lia. injection Hk as <-. injection Hd as <-. pose proof (Sep j i Hj Hi). pose proof (N j ltac:(lia)). unfold within in Wj. apply Rabs_def2 in Wj. lra.
Qed.
Lemma wide_populated : forall dks i, (i < length kgrid)%nat -> K / 2 < nth i dks 0 -> populated dks i.
Proof. intros dks i Hi H. destruct (wave_near k0 K (nth i kgrid 0) IK (Pk K IK) (Pg i Hi)) as [m [L W]]. exists m. split; [exact L|]. unfold within. lra. Qed.

(** After t passes each shell has a vector or its width is dk 1.2^t. *)
Definition progress (dk : R) (t : nat) (dks : list R) : Prop := narrow dks /\ forall i, (i < length kgrid)%nat -> nth i dks 0 = dk * (12 / 10) ^ t \/ populated dks i.

Lemma widening_bounded : forall dk rem t dks, progress dk t dks -> K / 2 < dk * (12 / 10) ^ (t + rem) ->
  exists dks' kvec kb, setup_grid_sphere Rops (S rem) dks kgrid k0 = Ok (kvec, kb) /\ grid_pass Rops dks' kgrid k0 = Ok (kvec, kb) /\ narrow dks' /\ forall i, (i < length kgrid)%nat -> nth i kvec [] <> [].
Proof.
  intros dk rem. pose proof (Pk K IK) as PK. induction rem as [|rem IH]; intros t dks [N Q] B; destruct (pass_ok k0 kgrid dks Pk Dk Hne (proj1 N) dks (proj1 N)) as [kvec [kb P]];
    assert (V : pass_vec k0 kgrid dks = kvec) by (unfold pass_vec; rewrite P; reflexivity); assert (Lv : length kvec = length kgrid) by (rewrite <- V; apply (pass_vec_length k0 kgrid dks Pk Dk Hne); apply N);
    destruct (existsb is_empty kvec) eqn:EX.
  - exfalso. apply existsb_empty_true in EX. destruct EX as [i [Hi E]]. rewrite Lv in Hi. apply (populated_nonempty dks i N Hi); [|rewrite V; exact E]. destruct (Q i Hi) as [W|W]; [|exact W]. apply wide_populated; [exact Hi|]. rewrite W. replace t with (t + 0)%nat by lia. exact B.
  - exists dks, kvec, kb. split; [cbn [setup_grid_sphere]; eapply bind_intro; [exact P|]; cbn [fst]; change (num Rops) with R in *; rewrite EX; reflexivity|]. split; [exact P|]. split; [exact N|]. rewrite <- Lv. apply existsb_empty_false. exact EX.
  - assert (Ld : length dks = length kvec) by (rewrite Lv; apply N).
    assert (DN : exists dn : list R, dn = widen Rops dks kvec) by (eexists; reflexivity). destruct DN as [dn Edn].
    destruct (IH (S t) dn) as [dks' [kv [b [E1 [E2 [E3 E4]]]]]]; [|replace (S t + rem)%nat with (t + S rem)%nat by lia; exact B|].
    + assert (W : forall i, (i < length kgrid)%nat -> nth i dn 0 = if is_empty (nth i kvec []) then nth i dks 0 * (12 / 10) else nth i dks 0) by (intros i Hi; rewrite Edn; apply widen_nth; [exact Ld|rewrite Ld, Lv; exact Hi]).
      assert (EM : forall i, (i < length kgrid)%nat -> is_empty (nth i kvec []) = true -> nth i dks 0 = dk * (12 / 10) ^ t /\ nth i dks 0 <= K / 2).
      { intros i Hi E. assert (NP : ~ populated dks i) by (intros C; apply (populated_nonempty dks i N Hi C); rewrite V; destruct (nth i kvec []); [reflexivity|discriminate]).
        split; [destruct (Q i Hi) as [X|X]; [exact X|contradiction]|]. apply Rnot_lt_le. intros C. apply NP, wide_populated; assumption. }
      split; [split|].
      * rewrite Edn. exact (eq_trans (widen_length dks kvec Ld) (proj1 N)).
      * intros i Hi. rewrite (W i Hi). pose proof (proj2 N i Hi). destruct (is_empty (nth i kvec [])) eqn:E; [|assumption]. destruct (EM i Hi E). lra.
      * intros i Hi. unfold populated. rewrite (W i Hi). destruct (is_empty (nth i kvec [])) eqn:E.
        -- left. destruct (EM i Hi E) as [X _]. rewrite X. cbn [pow]. ring.
        -- right. assert (It : exists s, In s (nth i kvec [])) by (destruct (nth i kvec []) as [|s r]; [discriminate|exists s; left; reflexivity]). destruct It as [s It].
           apply pass_In in P. destruct P as [kl [dl [km [_ [_ [_ [_ [_ [_ [_ IN]]]]]]]]]]. apply IN in It. destruct It as [[Ls _] [_ [[k [d [Hk [Hd Wt]]]] _]]]. exists (unshift kb s). split; [exact Ls|].
           rewrite (nth_err kgrid i) in Hk by exact Hi. rewrite (nth_err dks i) in Hd by (rewrite Ld, Lv; exact Hi). injection Hk as <-. injection Hd as <-. exact Wt.
    + exists dks', kv, b. split; [|split; [exact E2|split; [exact E3|exact E4]]]. change (S (S rem)) with (S (S rem)). cbn [setup_grid_sphere] in *. eapply bind_intro; [exact P|]. cbn [fst]. change (num Rops) with R in *. rewrite EX. rewrite Edn in E1. exact E1.
  - exists dks, kvec, kb. split; [cbn [setup_grid_sphere]; eapply bind_intro; [exact P|]; cbn [fst]; change (num Rops) with R in *; rewrite EX; reflexivity|]. split; [exact P|]. split; [exact N|]. rewrite <- Lv. apply existsb_empty_false. exact EX.
Qed.
End Separated.
