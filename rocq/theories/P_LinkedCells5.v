(** Linked cells: subcells, and the effect of earlier calls. *)
From Coq Require Import List ZArith Bool Arith Lia Reals Lra.
From Verif Require Import PyBase PyBaseFacts Num NumFacts M_Helpers M_Dynamics M_Realspace M_LinkedCells
  Spec_Dynamics Spec_Pairs Spec_LinkedCells P_LinkedCells P_LinkedCells2.
Import ListNotations.
Local Open Scope R_scope.

Lemma big_of : forall rc side, 0 < rc -> (forall L, In L side -> 3 * rc <= L) -> big rc side.
Proof.
  intros rc side Hrc H L HL. specialize (H L HL).
  assert (3 <= L / rc) as H3.
  { apply Rmult_le_reg_r with rc; [exact Hrc|]. unfold Rdiv. rewrite Rmult_assoc, Rinv_l by lra. lra. }
  destruct (Rtrunc_bounds_nonneg (L / rc)) as [_ B]; [lra|].
  assert (IZR 2 < IZR (Rtrunc (L / rc))) as Q by lra. apply lt_IZR in Q. lia.
Qed.

Lemma positive_of : forall rc side, 0 < rc -> (forall L, In L side -> 3 * rc <= L) -> positive side.
Proof. intros rc side Hrc H L HL. specialize (H L HL). cbn in *. lra. Qed.

Lemma subcell1 : forall L rc a c n, 0 < rc -> 0 < L -> n = Rtrunc (L / rc) -> (3 <= n)%Z -> - (L / 2) <= a < L / 2 ->
  (IZR c * (L / IZR n) <= a + L / 2 < IZR (c + 1) * (L / IZR n) <-> Rtrunc ((a + L / 2) / (L / IZR n)) = c).
Proof.
  intros L rc a c n Hrc HL Hn H3 Ha. destruct (index1 L rc a n Hrc HL Hn H3 Ha) as [B [F _]].
  assert (3 <= IZR n) as Hn3 by (apply IZR_le in H3; exact H3).
  assert (0 < L / IZR n) as Hw by (apply Rdiv_lt_0_compat; lra).
  set (w := L / IZR n) in *. set (X := (a + L / 2) / w) in *.
  assert (a + L / 2 = X * w) as EX by (unfold X; field; lra). rewrite EX, plus_IZR. split.
  - intros [A1 A2]. apply Rmult_le_reg_r in A1; [|exact Hw]. apply Rmult_lt_reg_r in A2; [|exact Hw].
    assert (IZR c < IZR (Rtrunc X + 1)) as Q1 by (rewrite plus_IZR; lra).
    assert (IZR (Rtrunc X) < IZR (c + 1)) as Q2 by (rewrite plus_IZR; lra).
    apply lt_IZR in Q1, Q2. lia.
  - intros <-. split; [apply Rmult_le_compat_r; lra|apply Rmult_lt_compat_r; lra].
Qed.

Lemma same_subcell_index : forall rc O, 0 < rc -> forall side per x y, positive side -> big rc side -> length per = length side ->
  folded x side -> folded y side ->
  (same_subcell rc x y side <-> lc_index Rops (rsetup rc side per O) x = lc_index Rops (rsetup rc side per O) y).
Proof.
  intros rc O Hrc. induction side as [|L side IH]; intros per x y Hp Hb Hl Hx Hy; destruct x as [|a x]; try contradiction;
    destruct y as [|b y]; try contradiction; destruct per as [|p per]; try discriminate.
  { split; [reflexivity|intros _; exact I]. }
  rewrite !lc_index_cons. cbn [same_subcell]. destruct Hx as [Ha Hx], Hy as [Hb' Hy].
  assert (0 < L) as HL by (apply Hp; left; reflexivity).
  assert (3 <= Rtrunc (L / rc))%Z as H3 by (apply Hb; left; reflexivity).
  set (n := Rtrunc (L / rc)) in *.
  assert (IZR n * rc <= L < IZR (n + 1) * rc) as Hn.
  { assert (0 <= L / rc) as Hq by (apply Rlt_le, Rdiv_lt_0_compat; assumption).
    destruct (Rtrunc_bounds_nonneg _ Hq) as [B1 B2]. fold n in B1, B2. rewrite plus_IZR.
    assert (L = L / rc * rc) as EL by (field; lra). split; [rewrite EL at 1; apply Rmult_le_compat_r; lra|].
    rewrite EL at 1. apply Rmult_lt_compat_r; lra. }
  assert (forall m, IZR m * rc <= L < IZR (m + 1) * rc -> m = n) as Hu.
  { intros m [M1 M2]. destruct Hn as [N1 N2].
    assert (IZR m * rc < IZR (n + 1) * rc) as Q1 by lra. assert (IZR n * rc < IZR (m + 1) * rc) as Q2 by lra.
    apply Rmult_lt_reg_r in Q1; [|exact Hrc]. apply Rmult_lt_reg_r in Q2; [|exact Hrc]. apply lt_IZR in Q1, Q2. lia. }
  rewrite (IH per x y); auto; [|intros l Hin; apply Hp; right; exact Hin|intros l Hin; apply Hb; right; exact Hin].
  split.
  - intros [[m [c [Hm [Ca Cb]]]] E]. apply Hu in Hm. subst m. f_equal; [|exact E].
    apply (subcell1 L rc a c n) in Ca; auto. apply (subcell1 L rc b c n) in Cb; auto. congruence.
  - intros E. assert (Rtrunc ((a + L / 2) / (L / IZR n)) = Rtrunc ((b + L / 2) / (L / IZR n)) /\
      lc_index Rops (rsetup rc side per O) x = lc_index Rops (rsetup rc side per O) y) as [E1 E2] by (split; congruence).
    split; [|exact E2]. exists n, (Rtrunc ((a + L / 2) / (L / IZR n))). split; [exact Hn|].
    split; [apply (subcell1 L rc a _ n); auto|]. apply (subcell1 L rc b _ n); auto.
Qed.

Lemma full_list_spec : forall rc side periodic pos,
  0 < rc -> dim23 (length side) -> positive side -> big rc side -> length (flags side periodic) = length side ->
  (forall x, In x pos -> folded x side) ->
  exists s ns, lc_compute Rops rc None (mkCall (A:=Rops) side pos None false periodic) = Ok (s, ns) /\
  forall i j, (i < length pos)%nat -> (j < length pos)%nat -> i <> j ->
    image_within (flags side periodic) side (nth i pos []) (nth j pos []) rc ->
    (same_subcell rc (nth i pos []) (nth j pos []) side -> (listed ns i j + listed ns j i = 1)%nat) /\
    (~ same_subcell rc (nth i pos []) (nth j pos []) side -> listed ns i j = 1%nat /\ listed ns j i = 1%nat).
Proof.
  intros rc side periodic pos Hrc Hd Hp Hb Hper Hpos.
  destruct (full_list rc side periodic pos Hrc Hd Hp Hb Hper Hpos) as [s [ns [E [L H]]]].
  exists s, ns. split; [exact E|]. intros i j Hi Hj Hij Him. specialize (H i j Hi Hj Hij Him). cbn zeta in H.
  destruct (adjust_R rc side false periodic Hd) as [O [_ EO]].
  assert (s = rsetup rc side (flags side periodic) O) as ->.
  { unfold lc_compute, lc_setup, call_newton in E. cbn [k_box k_other k_newton k_periodic k_pos] in E.
    match type of EO with _ = ?r => replace (adjust Rops rc side false periodic) with r in E by (symmetry; exact EO) end.
    cbn [bind] in E. apply bind_Ok_inv in E. destruct E as [ns' [_ E]]. apply Ok_inj in E. congruence. }
  rewrite (same_subcell_index rc O Hrc side (flags side periodic)) by (try assumption; apply Hpos, nth_In; assumption).
  exact H.
Qed.

(** Earlier calls *)
Section History.
Variable A : arith.

Lemma lc_after_some : forall rc (ks : list (call A)) s, lc_after A rc (Some s) ks = Some s.
Proof. intros rc. induction ks as [|k ks IH]; intros s; [reflexivity|]. apply (IH s). Qed.

Lemma history_first : forall rc (k0 : call A) ks k, dim23 (length (k_box k0)) ->
  k_box k0 = k_box k -> call_newton k0 = call_newton k -> k_periodic k0 = k_periodic k ->
  lc_compute A rc (lc_after A rc None (k0 :: ks)) k = lc_compute A rc None k.
Proof.
  intros rc k0 ks k Hd Eb En Ep.
  assert (exists s, adjust A rc (k_box k0) (call_newton k0) (k_periodic k0) = Ok s) as [s E].
  { unfold adjust. rewrite map_length. destruct Hd as [-> | ->]; cbn [offsets bind]; eexists; reflexivity. }
  unfold lc_after. cbn [fold_left]. unfold lc_setup at 2. rewrite E.
  change (fold_left _ ks (Some s)) with (lc_after A rc (Some s) ks). rewrite lc_after_some.
  unfold lc_compute, lc_setup. rewrite <- Eb, <- En, <- Ep, E. reflexivity.
Qed.

(** Whatever the later calls ask for, the geometry of the first one is used. *)
Lemma history_frozen : forall rc (k0 : call A) ks ks' k, dim23 (length (k_box k0)) ->
  lc_compute A rc (lc_after A rc None (k0 :: ks)) k = lc_compute A rc (lc_after A rc None (k0 :: ks')) k.
Proof.
  intros rc k0 ks ks' k Hd.
  assert (exists s, adjust A rc (k_box k0) (call_newton k0) (k_periodic k0) = Ok s) as [s E].
  { unfold adjust. rewrite map_length. destruct Hd as [-> | ->]; cbn [offsets bind]; eexists; reflexivity. }
  unfold lc_after. cbn [fold_left]. unfold lc_setup at 2 4. rewrite E.
  change (fold_left _ ks (Some s)) with (lc_after A rc (Some s) ks).
  change (fold_left _ ks' (Some s)) with (lc_after A rc (Some s) ks'). rewrite !lc_after_some. reflexivity.
Qed.
End History.
