(** The collective scattering function in dimensions other than two and three: C47. *)
From Coq Require Import List ZArith Bool Arith Reals Lra Lia Sorting.Sorted.
From Verif Require Import PyBase PyBaseFacts Num NumFacts M_Helpers M_KGrid M_Fourier M_Fkt Spec_Stats
  Spec_BondAngle P_BondAngle Spec_KGrid P_KGrid P_KGrid2 P_KGrid4 P_Expo Spec_Fourier Spec_Correlation Spec_Fkt Spec_FktDim
  P_Sk P_Sk2 P_Sk3 P_Tcf P_Fkt P_Fkt2 P_Fkt3 P_Dynamics P_FktDim T_Fourier T_Fkt.
Import ListNotations.
Local Open Scope R_scope.

(** In other dimensions the products of exponentials are written over the table they are
    read from, and imaginary parts are dropped. What is averaged, per shell and time
    difference, is the product of the real parts of the two densities, at wave-vectors whose
    components after the first one have piled up over the vectors treated before with the
    same first component. *)
Theorem C47_other_dimensions_partial : forall K steps dgrid skip pos0 pos1 same,
  usable K -> ks_vectors K <> [] -> (length (ks_k0 K) <> 0 /\ length (ks_k0 K) <> 2 /\ length (ks_k0 K) <> 3)%nat ->
  NoDup (concat (ks_vectors K)) -> (1 <= skip)%nat ->
  length steps = length pos0 -> length pos1 = length pos0 ->
  group_ok (length (ks_k0 K)) pos0 -> group_ok (length (ks_k0 K)) pos1 -> (same = true -> pos1 = pos0) ->
  exists dts, reported steps (admitted dgrid skip (length pos0)) dts /\
    let un := map (fun kl => map (pair_mean (fun v a b => re_product v (nth a pos0 []) (nth b pos1 [])) steps
                    (admitted dgrid skip (length pos0)) (map (piled_vector K) kl)) dts) (ks_vectors K) in
    fkt_compute K steps dgrid skip false pos0 (second same pos1) = Ok (dts, un, un).
Proof.
  intros K steps dgrid skip pos0 pos1 same U Hv Hnd ND Hs Ls L1 G0 G1 Hsame.
  destruct (fkt_other_dimensions K steps dgrid skip pos0 pos1 same U Hv Hnd ND Hs Ls L1 G0 G1 Hsame) as [dts [Rd E]].
  exists dts. split; [exact Rd|]. exact (E false).
Qed.
Print Assumptions C47_other_dimensions_partial.

(** In one dimension nothing piles up: the wave-vectors are the right ones, and the function
    is the mean product of the real parts of the densities. *)
Theorem C47_one_dimension_partial : forall K steps dgrid skip pos0 pos1 same,
  usable K -> ks_vectors K <> [] -> (length (ks_k0 K) = 1)%nat ->
  NoDup (concat (ks_vectors K)) -> (1 <= skip)%nat ->
  length steps = length pos0 -> length pos1 = length pos0 ->
  group_ok 1 pos0 -> group_ok 1 pos1 -> (same = true -> pos1 = pos0) ->
  exists dts, reported steps (admitted dgrid skip (length pos0)) dts /\
    let un := map (fun vs => map (pair_mean (fun v a b => re_product v (nth a pos0 []) (nth b pos1 [])) steps
                    (admitted dgrid skip (length pos0)) vs) dts) (kvectors Rops K) in
    fkt_compute K steps dgrid skip false pos0 (second same pos1) = Ok (dts, un, un).
Proof.
  intros K steps dgrid skip pos0 pos1 same U Hv H1 ND Hs Ls L1 G0 G1 Hsame.
  destruct (C47_other_dimensions_partial K steps dgrid skip pos0 pos1 same) as [dts [Rd E]]; try assumption; try (rewrite H1; assumption); [rewrite H1; repeat split; discriminate|].
  exists dts. split; [exact Rd|]. cbv zeta in E |- *. rewrite E.
  match goal with |- Ok (_, ?a, _) = Ok (_, ?b, _) => assert (Eq : a = b); [|rewrite Eq; reflexivity] end.
  rewrite kvectors_wave, map_map. apply map_ext_in. intros kl Hkl. apply map_ext. intros d.
  f_equal. apply map_ext_in. intros t Ht. unfold piled_vector. f_equal. pose proof (us_len K U kl t Hkl Ht) as Lt. rewrite H1 in Lt.
  destruct t as [|z [|]]; try discriminate. unfold piled, unshift. cbn [map hd tl]. f_equal.
  match goal with |- fold_right addz [] (map _ ?q) = [] => generalize q end.
  intros l. induction l as [|m l IH]; [reflexivity|]. cbn [map fold_right]. rewrite IH. destruct (tl m); reflexivity.
Qed.
Print Assumptions C47_one_dimension_partial.

(** In four dimensions: one particle moves by half a cell along the second axis. The
    wave-vector (1,0,0,0) does not see it, so that F(k,t) = F(k,0) = 1; but treated after
    the wave-vector (1,1,0,0) it is given the value -1. *)
Definition k47 : list R := cell_k0 Rops (2 * PI) [1; 1; 1; 1].
Definition pos47 : list (list (list R)) := [[[0; 0; 0; 0]]; [[0; / 2; 0; 0]]].

Theorem C47_four_dimensions_refuted : exists K,
  set_kvectors Rops (2 * PI) [1; 1; 1; 1] [[wave k47 [1; 1; 0; 0]%Z]; [wave k47 [1; 0; 0; 0]%Z]] = Ok K /\
  density_cross (wave k47 [1; 0; 0; 0]%Z) (nth 1 pos47 []) (nth 0 pos47 []) = 1 /\
  exists other, fkt_compute K [0; 1]%Z [(0, 1)]%nat 2 false pos47 None = Ok ([1%Z], [other; [-1]], [other; [-1]]).
Proof.
  assert (PP : 0 < 2 * PI / 1) by (pose proof PI_RGT_0; lra).
  assert (Pk : forall k, In k (cell_k0 Rops (2 * PI) [1; 1; 1; 1]) -> 0 < k).
  { intros k Hk. change (In k [2 * PI / 1; 2 * PI / 1; 2 * PI / 1; 2 * PI / 1]) in Hk. repeat (destruct Hk as [<-|Hk]; [exact PP|]). destruct Hk. }
  destruct (set_kvectors_R (2 * PI) [1; 1; 1; 1] [[[1; 1; 0; 0]%Z]; [[1; 0; 0; 0]%Z]] Pk) as [s [[S0 [S1 S2]] E]].
  { discriminate. }
  { intros l n [<-|[<-|[]]] [<-|[]]; reflexivity. }
  assert (s = 0%Z).
  { destruct S2 as [->|[l [m [Hl [Hm Hs]]]]]; [reflexivity|]. destruct Hl as [<-|[<-|[]]]; destruct Hm as [<-|[]]; cbn in Hs; lia. }
  subst s. cbn [Z.abs Z.add] in E.
  match type of E with _ = Ok ?q => set (K := q) in * end. exists K. split; [exact E|].
  assert (U : usable K).
  { split; cbn.
    - lia.
    - reflexivity.
    - intros l [<-|[<-|[]]]; discriminate.
    - intros l t [<-|[<-|[]]] [<-|[]]; reflexivity.
    - intros l t z [<-|[<-|[]]] [<-|[]]; cbn; intros Hz; lia. }
  split.
  - unfold density_cross, rho_re, rho_im, unit_weights, pos47, k47. cbn. rewrite ?Rmult_0_r, ?Rmult_0_l, ?Rplus_0_r, ?Rplus_0_l. rewrite ?cos_0, ?sin_0. ring.
  - destruct (C47_other_dimensions_partial K [0; 1]%Z [(0, 1)]%nat 2 pos47 pos47 true) as [dts [[Sd Hd] Ef]];
      [exact U|discriminate|repeat split; discriminate| |lia|reflexivity|reflexivity| | |reflexivity|].
    + change (concat (ks_vectors K)) with [[2; 2; 1; 1]%Z; [2; 1; 1; 1]%Z]. repeat constructor; cbn; intros Hx; repeat (destruct Hx as [Hx|Hx]; try discriminate); assumption.
    + intros f [<-|[<-|[]]]; (split; [discriminate|]); intros x [<-|[]]; reflexivity.
    + intros f [<-|[<-|[]]]; (split; [discriminate|]); intros x [<-|[]]; reflexivity.
    + change (admitted [(0, 1)]%nat 2 (length pos47)) with [(1, 0)]%nat in *.
      assert (Ed : dts = [1%Z]).
      { assert (A : forall d, In d dts -> d = 1%Z) by (intros d Hin; apply Hd in Hin; destruct Hin as [p [[<-|[]] <-]]; reflexivity).
        assert (B : In 1%Z dts) by (apply Hd; exists (1, 0)%nat; split; [left; reflexivity|reflexivity]).
        destruct dts as [|d1 [|d2 r]]; [destruct B|rewrite (A d1 (or_introl eq_refl)); reflexivity|].
        exfalso. inversion Sd as [|? ? _ F]; subst. inversion F; subst. rewrite (A d1 (or_introl eq_refl)), (A d2 (or_intror (or_introl eq_refl))) in *. lia. }
      subst dts. cbv zeta in Ef. change (second true pos47) with (@None (list (list (list R)))) in Ef.
      change (ks_vectors K) with [[[2; 2; 1; 1]%Z]; [[2; 1; 1; 1]%Z]] in Ef. cbn [map] in Ef.
      eexists. rewrite Ef.
      match goal with |- Ok (_, [_; [?x]], _) = _ => assert (Ex : x = -1); [|rewrite Ex; reflexivity] end.
      change (piled_vector K [2; 1; 1; 1]%Z) with (wave k47 [1; 1; 0; 0]%Z).
      unfold pair_mean. change (pairs_at [0; 1]%Z 1 [(1, 0)]%nat) with [(1, 0)]%nat. cbn [flat_map map app fst snd].
      unfold rmean, re_product, rho_re, unit_weights, pos47, k47. cbn.
      replace (2 * PI / 1 * 1 * 0 + (2 * PI / 1 * 1 * / 2 + (2 * PI / 1 * 0 * 0 + (2 * PI / 1 * 0 * 0 + 0)))) with PI by field.
      replace (2 * PI / 1 * 1 * 0 + (2 * PI / 1 * 1 * 0 + (2 * PI / 1 * 0 * 0 + (2 * PI / 1 * 0 * 0 + 0)))) with 0 by field.
      rewrite cos_PI, cos_0. field.
Qed.
Print Assumptions C47_four_dimensions_refuted.
