(** Theorems about bond angles: C35. *)
From Coq Require Import Ascii String List ZArith Bool Arith Reals Lia Lra.
From Verif Require Import PyBase PyBaseFacts Num Spec_Stats NumFacts M_Helpers M_Dynamics M_Realspace M_BondAngle
  Spec_Correlation Spec_Pairs Spec_BondAngle P_Helpers P_Dynamics P_Count P_BondAngle.
Import ListNotations.
Local Open Scope R_scope.

(** ** C35 *)
(** The angles recorded are those between the bonds. *)
Theorem C35_angles : forall u v, dot u u <> 0 -> dot v v <> 0 ->
  is_angle u v (angle_deg u v) /\ forall t, is_angle u v t -> t = angle_deg u v.
Proof.
  intros u v Hu Hv. pose proof (angle_deg_spec u v Hu Hv) as H. split; [exact H|].
  intros t Ht. apply (is_angle_unique u v); assumption.
Qed.
Print Assumptions C35_angles.

Lemma grid_float : forall dtheta : R, 0 < dtheta <= 180 -> exists m, (1 <= m)%nat /\ INR m * dtheta <= 180 < INR (m + 1) * dtheta /\
  linear_grid Rops 0 180 (DFloat (dtheta : num Rops)) = Ok (map (fun i => INR i * dtheta) (seq 0 (m + 1))).
Proof.
  intros dt [H0 H1]. destruct (linear_grid_float 0 180 dt) as [g [E [L [Hn _]]]]; [lra|exact H0|].
  rewrite Rminus_0_r in L. assert (1 <= 180 / dt) as Hq.
  { apply Rmult_le_reg_r with dt; [exact H0|]. unfold Rdiv. rewrite Rmult_assoc, Rinv_l by lra. lra. }
  pose proof (Rfloor_bounds (180 / dt)) as [B1 B2].
  assert (0 <= Rfloor (180 / dt))%Z as Hz by (apply Rfloor_nonneg; lra).
  exists (Z.to_nat (Rfloor (180 / dt))). set (z := Rfloor (180 / dt)) in *.
  assert (180 = 180 / dt * dt) as E180 by (field; lra).
  assert (INR (Z.to_nat z) = IZR z) as Ez by (rewrite INR_IZR_INZ, Z2Nat.id by exact Hz; reflexivity).
  split; [|split; [|]].
  - assert (0 < z)%Z; [|lia]. apply lt_IZR. lra.
  - rewrite plus_INR, Ez. cbn [INR]. split; [rewrite E180; apply Rmult_le_compat_r; lra|].
    rewrite E180 at 1. apply Rmult_lt_compat_r; lra.
  - change (num Rops) with R in *. rewrite E. f_equal. rewrite Z2Nat.inj_add in L by lia. change (Z.to_nat 1) with 1%nat in L.
    apply nth_ext with (d := 0) (d' := 0); [rewrite map_length, seq_length; exact L|].
    intros k Hk. rewrite (Hn k Hk). rewrite nth_map_seq by lia. ring.
Qed.

(** Exact arithmetic: the value in bin k is the number of angles in the bin over the
    number of those below the last grid point m*dtheta and over dtheta; it integrates
    to 1 if there is one such angle.  Missing: angles from m*dtheta to 180. *)
Theorem C35_partial : forall rcut (dtheta : R) skip frames,
  0 < dtheta <= 180 -> (1 <= skip)%nat -> (forall f, In f frames -> frame_ok rcut f) ->
  (exists i, In i (origins 0 skip (length frames)) /\ f_pos0 (nth i frames no_frame) <> []) ->
  let T := all_angles rcut skip frames in
  exists m centers values, INR m * dtheta <= 180 < INR (m + 1) * dtheta /\
    ba_compute Rops (fun c => acos c * 180 / PI) rcut (DFloat (dtheta : num Rops)) skip frames = Ok (centers, values) /\
    length centers = m /\ length values = m /\
    (forall k, (k < m)%nat -> nth k centers 0 = (INR k + 1 / 2) * dtheta) /\
    (forall k, (k < m)%nat -> nth k values 0 * dtheta * INR (length (filter (fun t => Rltb t (INR m * dtheta)) T))
       = INR (length (filter (fun t => Rleb (INR k * dtheta) t && Rltb t (INR (k + 1) * dtheta))%bool T))) /\
    ((exists t, In t T /\ t < INR m * dtheta) -> rsum (map (fun v => v * dtheta) values) = 1).
Proof.
  intros rcut dt skip frames Hdt Hskip Hf He T. destruct (grid_float dt Hdt) as [m [Hm [Hb Hg]]].
  pose proof (ba_spec rcut (DFloat (dt : num Rops)) skip frames dt (m + 1) (proj1 Hdt) ltac:(lia) Hg Hskip Hf He) as E.
  cbn zeta in E. fold T in E. rewrite Nat.add_sub in E. exists m.
  do 2 eexists. split; [exact Hb|]. split; [exact E|].
  assert (forall t, In t T -> 0 <= t <= 180) as HT by apply angles_nonneg.
  split; [rewrite map_length, seq_length; reflexivity|]. split; [rewrite map_length, seq_length; reflexivity|].
  split; [intros k Hk; apply nth_map_seq; exact Hk|]. split.
  - intros k Hk. rewrite nth_map_seq by exact Hk.
    change (length (filter (fun t => Rltb t (INR m * dt)) T)) with (cnt (fun t => Rltb t (INR m * dt)) T).
    change (length (filter _ T)) with (cnt (slot dt k) T) at 1.
    assert (cnt (slot dt k) T <= cnt (fun t => Rltb t (INR m * dt)) T)%nat as Hle.
    { rewrite <- slots_total; [|lra|intros t Ht; apply HT; exact Ht].
      assert (forall l, In k l -> (cnt (slot dt k) T <= list_sum (map (fun k => cnt (slot dt k) T) l))%nat) as G.
      { induction l as [|a l IH]; intros H; [destruct H|]. cbn [map]. rewrite list_sum_cons. destruct H as [->|H]; [lia|].
        specialize (IH H). lia. }
      apply G. apply in_seq. lia. }
    set (N := cnt (fun t => Rltb t (INR m * dt)) T) in *. destruct N as [|N].
    + assert (cnt (slot dt k) T = 0)%nat as -> by lia. cbn [INR]. rewrite Rmult_0_r. reflexivity.
    + field. split; [lra|]. apply not_0_INR. lia.
  - intros Ht. apply ba_normalised; [lra|intros t H; apply HT; exact H|exact Ht].
Qed.
Print Assumptions C35_partial.

(** Refuted as stated: a straight chain of three particles.  The angle is 180
    degrees, the default grid ends there, and it does not contribute. *)
Definition chain : frame Rops :=
  mkFrame (A:=Rops) [10; 10] [[0; 0]; [1; 0]; [-1; 0]] [0; 0; 0]%nat [[0; 0]; [1; 0]; [-1; 0]] [0; 0; 0]%nat.

Ltac decide_dec := repeat match goal with |- context [Rlt_dec ?a ?b] => destruct (Rlt_dec a b); [try lra|try lra] end.
Ltac decide_R := repeat first
  [ match goal with |- context [Rlt_dec ?a ?b] => destruct (Rlt_dec a b); [try lra|try lra] end
  | match goal with |- context [Rltb ?a ?b] => destruct (Rltb_spec a b); [try lra|try lra] end
  | match goal with |- context [Req_EM_T ?a ?b] => destruct (Req_EM_T a b); [try lra|try lra] end ].

Lemma chain_neighbours :
  neighbours [10; 10] [0; 0] [[0; 0]; [1; 0]; [-1; 0]] [0; 0; 0]%nat [3 / 2] = [0; 1; 2]%nat /\
  neighbours [10; 10] [1; 0] [[0; 0]; [1; 0]; [-1; 0]] [0; 0; 0]%nat [3 / 2] = [0; 1]%nat /\
  neighbours [10; 10] [-1; 0] [[0; 0]; [1; 0]; [-1; 0]] [0; 0; 0]%nat [3 / 2] = [0; 2]%nat.
Proof.
  unfold neighbours, min_coord; repeat split; cbn [length seq filter nth min_vec]; unfold min_coord; decide_dec; cbn [dot]; decide_R; reflexivity.
Qed.

Lemma chain_angles : all_angles [[3 / 2]] 1 [chain] = [180; 180].
Proof.
  unfold all_angles, origins. cbn [length seq filter Nat.leb Nat.sub Nat.modulo Nat.divmod fst snd andb Nat.eqb flat_map nth app].
  unfold frame_angles, cutoffs, chain. cbn [f_pos0 f_pos1 f_ids0 f_ids1 f_side length seq flat_map nth].
  destruct chain_neighbours as [E0 [E1 E2]]. rewrite E0, E1, E2. clear.
  unfold bond_angles. cbn [flat_map nth min_vec Nat.eqb]. unfold min_coord. decide_dec.
  cbn [dot]. decide_R. cbn [app].
  assert (angle_deg [0 - 1; 0 - 0] [0 - -1; 0 - 0] = 180 /\ angle_deg [0 - -1; 0 - 0] [0 - 1; 0 - 0] = 180) as [-> ->]; [|reflexivity].
  assert (forall u v, dot u u = 1 -> dot v v = 1 -> dot u v = -1 -> angle_deg u v = 180) as G.
  { intros u v Hu Hv Huv. unfold angle_deg, norm. rewrite Hu, Hv, Huv, sqrt_1.
    replace (-1 / (1 * 1)) with (- (1)) by field. rewrite acos_opp, acos_1. field. apply PI_neq0. }
  split; apply G; cbn [dot]; lra.
Qed.

Lemma chain_ok : frame_ok [[3 / 2]] chain.
Proof.
  destruct chain_neighbours as [E0 [E1 E2]]. split; [cbn|cbn|cbn|cbn|cbn|].
  - intros L [<-|[<-|[]]]; lra.
  - reflexivity.
  - reflexivity.
  - intros i [<-|[<-|[<-|[]]]]; lia.
  - intros i row [<-|[<-|[<-|[]]]] [<-|[]]; cbn; lia.
  - unfold cutoffs, chain. cbn [f_pos0 f_pos1 f_ids0 f_ids1 f_side].
    intros [|[|[|idx]]] H; [| | |cbn in H; lia]; cbn [nth]; [rewrite E0|rewrite E1|rewrite E2]; cbn; lia.
Qed.

Theorem C35_refuted : exists rcut frames centers values,
  all_angles rcut 1 frames = [180; 180] /\ (forall f, In f frames -> frame_ok rcut f) /\
  ba_compute Rops (fun c => acos c * 180 / PI) rcut (DFloat (4 : num Rops)) 1 frames = Ok (centers, values) /\
  rsum (map (fun v => v * 4) values) = 0.
Proof.
  exists [[3 / 2]], [chain].
  assert (forall f, In f [chain] -> frame_ok [[3 / 2]] f) as Hf by (intros f [<-|[]]; exact chain_ok).
  assert (exists i, In i (origins 0 1 (length [chain])) /\ f_pos0 (nth i [chain] no_frame) <> []) as He.
  { exists 0%nat. split; [left; reflexivity|discriminate]. }
  assert (cnt (fun t => Rltb t (INR 45 * 4)) [180; 180] = 0%nat) as Hz.
  { unfold cnt. cbn [filter]. rewrite (INR_IZR_INZ 45). cbn [Z.of_nat Pos.of_succ_nat Pos.succ]. decide_R. reflexivity. }
  pose proof (ba_spec [[3 / 2]] (DFloat (4 : num Rops)) 1 [chain] 4 46) as S.
  destruct (grid_float 4 ltac:(lra)) as [m [_ [Hm' Hg]]].
  assert (m = 45)%nat as ->.
  { assert (m < 46)%nat by (apply INR_lt; rewrite (INR_IZR_INZ 46); cbn; lra).
    assert (45 < m + 1)%nat by (apply INR_lt; rewrite (INR_IZR_INZ 45); cbn; lra). lia. }
  specialize (S ltac:(lra) ltac:(lia) Hg ltac:(lia) Hf He). cbn zeta in S. rewrite chain_angles in S.
  change (46 - 1)%nat with 45%nat in S. rewrite Hz in S.
  do 2 eexists. split; [apply chain_angles|]. split; [exact Hf|]. split; [exact S|].
  rewrite map_map.
  rewrite (map_ext _ (fun _ => 0)).
  2:{ intros k. cbn [INR]. rewrite Rmult_0_l. unfold Rdiv. rewrite Rinv_0. ring. }
  assert (forall l : list nat, rsum (map (fun _ => 0) l) = 0) as G.
  { induction l as [|a l IH]; [reflexivity|]. cbn [map rsum fold_right] in *. rewrite IH. ring. }
  apply G.
Qed.
Print Assumptions C35_refuted.

(** Right angles in doubles; the arc cosine of 0 is given. *)
Example C35_nonvacuous : frame_ok [[3 / 2]] chain /\ In 180 (all_angles [[3 / 2]] 1 [chain]) /\
  exists out, ba_compute F64ops (fun c => if neq F64ops c (f64_ofZ 0) then f64_ofZ 90 else f64_ofZ 180) [[f64_frac 6 5]]
    (DFloat (f64_ofZ 60 : num F64ops)) 1
    [mkFrame (A:=F64ops) (map f64_ofZ [10; 10]%Z) (map (map f64_ofZ) [[0; 0]; [1; 0]; [0; 1]]%Z) [0; 0; 0]%nat
       (map (map f64_ofZ) [[0; 0]; [1; 0]; [0; 1]]%Z) [0; 0; 0]%nat] = Ok out /\
    fst out = map f64_ofZ [30; 90; 150]%Z /\ snd out = [f64_ofZ 0; f64_frac 1 60; f64_ofZ 0].
Proof.
  split; [exact chain_ok|]. split; [rewrite chain_angles; left; reflexivity|].
  eexists. split; [vm_compute; reflexivity|]. split; vm_compute; reflexivity.
Qed.
