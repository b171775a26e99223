(** A trajectory in which nothing moves: scattering functions (C111). *)
From Coq Require Import List ZArith Bool Arith Reals Lra Lia Sorting.Sorted.
From Verif Require Import PyBase PyBaseFacts Num NumFacts M_Helpers M_KGrid M_Fourier M_Fkt Spec_Stats
  Spec_BondAngle P_BondAngle Spec_KGrid P_KGrid P_KGrid2 P_KGrid4 P_Expo Spec_Fourier Spec_Correlation Spec_Fkt
  P_Sk P_Sk2 P_Sk3 P_Tcf P_Fkt P_Fkt2 P_Fkt3 P_Dynamics P_Relations2 T_Fourier T_Fkt T_Frozen.
Import ListNotations.
Local Open Scope R_scope.

(** F_s(k,t) is 1 at all times and wave-numbers. *)
Theorem C111_self_scattering : forall nb K steps dgrid skip pos N dts vals,
  usable K -> ks_vectors K <> [] -> (1 <= skip)%nat -> length steps = length pos ->
  same_particles (length (ks_k0 K)) pos N -> frozen pos ->
  fskt_legacy K steps dgrid skip false pos = Ok (dts, vals) \/ fskt_fast nb K steps dgrid skip false pos = Ok (dts, vals) ->
  forall row x, In row vals -> In x row -> x = 1.
Proof.
  intros nb K steps dgrid skip pos N dts vals U Hv Hs Ls SP Fr E row x Hrow Hx.
  destruct (C46_value K steps dgrid skip pos N U Hv Hs Ls SP) as [d2 [[_ Rd] [_ [El Ef]]]]. specialize (Ef nb).
  assert (X : (dts, vals) = (d2, self_values pos steps (admitted dgrid skip (length pos)) (kvectors Rops K) d2)).
  { destruct E as [E|E]; [rewrite El in E|rewrite Ef in E]; apply Ok_inj in E; congruence. }
  injection X as -> ->. destruct SP as [HN [Hp Hf]].
  assert (Hvs : forall vs, In vs (kvectors Rops K) -> vs <> []).
  { intros vs Hvs. rewrite kvectors_wave in Hvs. apply in_map_iff in Hvs. destruct Hvs as [kl [<- Hkl]].
    pose proof (us_nonempty K U kl Hkl). destruct kl; [congruence|discriminate]. }
  assert (Hc : forall i, (i < length pos)%nat -> length (nth i pos []) = N) by (intros; apply Hf; apply nth_In; assumption).
  unfold self_values in Hrow. apply in_map_iff in Hrow. destruct Hrow as [vs [<- Hvv]].
  apply in_map_iff in Hx. destruct Hx as [d [<- Hd]].
  apply Rle_antisym; apply (pair_mean_bounds _ _ _ _ _ 1 1); try (apply Hvs; assumption); try (apply Rd; assumption).
  all: intros v p _ Hin _; apply admitted_lt in Hin; assert (E1 : nth (fst p) pos [] = nth (snd p) pos []) by (apply Fr; apply nth_In; apply Hin); rewrite E1.
  all: enough (Q : fs_pair v (nth (snd p) pos []) (nth (snd p) pos []) = 1) by lra; unfold fs_pair; apply rmean_const;
    [apply map_nonnil; intros C; apply (f_equal (@length _)) in C; rewrite combine_length, !Hc in C by apply Hin; cbn in C; lia|].
  all: intros y Hy; apply in_map_iff in Hy; destruct Hy as [[a b] [<- Hab]];
    assert (a = b) by (clear - Hab; induction (nth (snd p) pos []) as [|z l IH]; [destruct Hab|]; destruct Hab as [Hab|Hab]; [congruence|auto]);
    subst; cbn; rewrite Rminus_diag_eq by reflexivity; apply cos_0.
Qed.
Print Assumptions C111_self_scattering.

Lemma Some_eq : forall X (x y : X), Some x = Some y -> y = x.
Proof. intros X x y H. injection H as ->. reflexivity. Qed.

Lemma mean_repeat : forall X Y (c : X -> R) (g : X -> Y -> R) (l : list X) (m : list Y), m <> [] -> (forall x y, In y m -> g x y = c x) ->
  rmean (flat_map (fun x => map (g x) m) l) = rmean (map c l).
Proof.
  intros X Y c g l m Hm H. assert (P : 0 < INR (length m)) by (apply lt_0_INR; destruct m; [congruence|cbn; lia]).
  assert (S : rsum (flat_map (fun x => map (g x) m) l) = INR (length m) * rsum (map c l)).
  { induction l as [|x l IH]; [cbn; ring|]. cbn [flat_map map]. rewrite rsum_app, IH. change (rsum (c x :: map c l)) with (c x + rsum (map c l)).
    replace (rsum (map (g x) m)) with (INR (length m) * c x); [ring|]. rewrite <- (rsum_const _ (c x) m). apply rsum_ext. intros y Hy. symmetry. apply H; exact Hy. }
  assert (L : INR (length (flat_map (fun x => map (g x) m) l)) = INR (length m) * INR (length l)).
  { rewrite <- mult_INR. f_equal. clear. induction l as [|x l IH]; [cbn; lia|]. cbn [flat_map length]. rewrite app_length, map_length, IH. lia. }
  unfold rmean. rewrite S, L, map_length. destruct l as [|x l]; [cbn; lra|]. assert (0 < INR (length (x :: l))) by (apply lt_0_INR; cbn; lia). field. lra.
Qed.

(** The normalised F(k,t) is 1 at all times, at every wave-number at which the
    static structure factor does not vanish. *)
Theorem C111_scattering_partial : forall K steps bs dt total tsamples user single dgrid skip pos0 pos1 same,
  usable K -> ks_vectors K <> [] -> (length (ks_k0 K) = 2 \/ length (ks_k0 K) = 3)%nat -> (1 <= skip)%nat ->
  length steps = length pos0 -> length pos1 = length pos0 ->
  group_ok (length (ks_k0 K)) pos0 -> group_ok (length (ks_k0 K)) pos1 -> (same = true -> pos1 = pos0) ->
  StronglySorted Z.lt steps -> steps <> [] -> (1 <= bs)%nat -> 0 < dt -> frozen pos0 -> frozen pos1 ->
  scatter_grid steps bs dt total tsamples user true single = Ok dgrid ->
  exists dts v un, fkt_compute K steps dgrid skip true pos0 (second same pos1) = Ok (0%Z :: dts, v, un) /\
    length v = length un /\
    forall k row u u0, nth_error v k = Some row -> nth_error un k = Some u -> nth_error u 0 = Some u0 ->
      (forall x, In x u -> x = u0) /\ (u0 <> 0 -> forall x, In x row -> x = 1).
Proof.
  intros K steps bs dt total tsamples user single dgrid skip pos0 pos1 same U Hv Hnd Hs Ls L1 G0 G1 Hsame St Hne Hb Hdt S0 S1 Eg.
  destruct (C47_normalized_partial K steps bs dt total tsamples user single dgrid skip pos0 pos1 same U Hv Hnd Hs Ls L1 G0 G1 Hsame St Hne Hb Hdt Eg)
    as [ds [v [un [E [Ef [Lv Rw]]]]]].
  exists ds, v, un. split; [exact E|]. split; [exact Lv|]. intros k row u u0 Hrow Hu H0.
  destruct (C47_value_partial K steps dgrid skip pos0 pos1 same U Hv Hnd Hs Ls L1 G0 G1 Hsame) as [dts [[_ Rd] E2]]. cbv zeta in E2.
  rewrite Ef in E2. apply Ok_inj in E2.
  assert (Ed : dts = 0%Z :: ds) by congruence. assert (Eu : un = collective_values pos0 pos1 steps (admitted dgrid skip (length pos0)) (kvectors Rops K) dts) by congruence.
  assert (C : exists c, forall x, In x u -> x = c).
  { rewrite Eu in Hu. unfold collective_values in Hu. rewrite nth_error_map in Hu. match type of Hu with option_map _ ?m = _ => destruct m as [vs|]; [|discriminate Hu] end. cbn [option_map] in Hu. apply Some_eq in Hu. subst u.
    exists (rmean (map (fun w => density_cross w (nth 0 pos0 []) (nth 0 pos1 [])) vs)). intros x Hx. apply in_map_iff in Hx. destruct Hx as [d [<- Hd]].
    unfold pair_mean. apply Rd in Hd. destruct Hd as [p [Hp Ep]].
    apply mean_repeat with (g := fun w q => density_cross w (nth (fst q) pos0 []) (nth (snd q) pos1 [])).
    - intros Cn. assert (Hin : In p (pairs_at steps d (admitted dgrid skip (length pos0)))) by (apply filter_In; split; [exact Hp|apply Z.eqb_eq; exact Ep]). rewrite Cn in Hin. destruct Hin.
    - intros w q Hq. apply filter_In in Hq. destruct Hq as [Hq _]. apply admitted_lt in Hq. f_equal; [apply S0|apply S1]; apply nth_In; lia. }
  destruct C as [c Hc]. assert (c = u0) by (symmetry; apply Hc; eapply nth_error_In; exact H0). subst c. split; [exact Hc|].
  intros N0 x Hx. destruct (Rw k row u Hrow Hu) as [u1 [H1 [-> _]]]. assert (u1 = u0) by congruence. subst u1. apply in_map_iff in Hx. destruct Hx as [y [<- Hy]]. rewrite (Hc y Hy). apply Rinv_r. exact N0.
Qed.
Print Assumptions C111_scattering_partial.

(** Three frames of two particles that do not move. *)
Definition still46 : list (list (list R)) := repeat [[0; 0; 0]; [1; 2; 3]] 3.
Example C111_nonvacuous_scattering : usable K43 /\ same_particles (length (ks_k0 K43)) still46 2 /\ frozen still46 /\
  exists vals, fskt_legacy K43 [0; 10; 20]%Z [(0, 0); (0, 1)]%nat 1 false still46 = Ok ([0; 10]%Z, vals) /\ length vals = 1%nat /\ forall row, In row vals -> row = [1; 1].
Proof.
  assert (SP : same_particles 3 still46 2).
  { split; [lia|]. split; [discriminate|]. intros f Hf. apply repeat_spec in Hf. subst f. split; [reflexivity|]. intros x [<-|[<-|[]]]; reflexivity. }
  assert (Fr : frozen still46) by (intros x y Hx Hy; apply repeat_spec in Hx, Hy; congruence).
  split; [exact K43_usable|]. split; [exact SP|]. split; [exact Fr|].
  destruct (C46_value K43 [0; 10; 20]%Z [(0, 0); (0, 1)]%nat 1 still46 2) as [dts [Rd [_ [El _]]]];
    [exact K43_usable|discriminate|lia|reflexivity|exact SP|].
  assert (dts = [0; 10]%Z) as ->.
  { destruct Rd as [Sd Hd]. apply sorted_lt_irr_ext; [assumption|repeat constructor; lia|]. intros d. rewrite Hd.
    change (admitted [(0, 0); (0, 1)]%nat 1 (length still46)) with [(0, 0); (1, 1); (2, 2); (1, 0); (2, 1)]%nat. split.
    - intros [p [Hp <-]]. cbn in Hp. destruct Hp as [<-|[<-|[<-|[<-|[<-|[]]]]]]; cbn; auto.
    - intros [<-|[<-|[]]]; [exists (0, 0)%nat|exists (1, 0)%nat]; (split; [cbn; tauto|reflexivity]). }
  eexists. split; [exact El|]. split; [reflexivity|].
  intros row Hrow. pose proof (C111_self_scattering 1 K43 [0; 10; 20]%Z [(0, 0); (0, 1)]%nat 1 still46 2 _ _ K43_usable ltac:(discriminate) (le_n 1) eq_refl SP Fr (or_introl El) row) as One.
  unfold self_values in Hrow. apply in_map_iff in Hrow. destruct Hrow as [vs [Er Hvs]]. cbn [map] in Er. subst row.
  f_equal; [|f_equal]; apply One; try (left; reflexivity); try (right; left; reflexivity); apply in_map_iff; exists vs; split; [reflexivity|exact Hvs|reflexivity|exact Hvs].
Qed.
