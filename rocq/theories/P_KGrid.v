(** Selection of wave-vectors: one pass, the widening loop, termination. *)
From Coq Require Import List ZArith Bool Arith Reals Lra Lia Classical.
From Verif Require Import PyBase PyBaseFacts Num NumFacts M_Helpers M_KGrid Spec_Stats Spec_BondAngle
  P_BondAngle Spec_KGrid.
Import ListNotations.
Local Open Scope nat_scope.

(** ** Lattice points *)
Lemma zrange_In : forall a b z, In z (zrange a b) <-> (a <= z <= b)%Z.
Proof.
  intros a b z. unfold zrange. rewrite in_map_iff. split.
  - intros [i [<- Hi]]. apply in_seq in Hi. lia.
  - intros H. exists (Z.to_nat (z - a)). split; [lia|]. apply in_seq. lia.
Qed.

Lemma zrange_NoDup : forall a b, NoDup (zrange a b).
Proof.
  intros a b. unfold zrange. apply FinFun.Injective_map_NoDup; [|apply seq_NoDup].
  intros i j H. lia.
Qed.

Lemma NoDup_flat_map : forall X Y (f : X -> list Y) l, NoDup l -> (forall x, In x l -> NoDup (f x)) ->
  (forall x y z, In x l -> In y l -> In z (f x) -> In z (f y) -> x = y) -> NoDup (flat_map f l).
Proof.
  intros X Y f l. induction l as [|x r IH]; intros Hl Hf Hd; cbn; [constructor|].
  inversion Hl as [|? ? Hx Hr]; subst.
  assert (NoDup (flat_map f r)).
  { apply IH; [assumption|intros; apply Hf; right; assumption|].
    intros; eapply Hd; [right; eassumption|right; eassumption|eassumption|eassumption]. }
  assert (NoDup (f x)) by (apply Hf; left; reflexivity).
  assert (D : forall z, In z (f x) -> ~ In z (flat_map f r)).
  { intros z Hz H2. apply in_flat_map in H2. destruct H2 as [y [Hy Hz']].
    assert (x = y) by (eapply Hd; [left; reflexivity|right; eassumption|eassumption|eassumption]).
    subst y. contradiction. }
  clear - H H0 D. induction (f x) as [|a s IH]; cbn; [assumption|].
  inversion H0 as [|? ? Ha Hs]; subst. constructor.
  - rewrite in_app_iff. intros [C|C]; [contradiction|]. apply (D a); [left; reflexivity|assumption].
  - apply IH; [assumption|]. intros; apply D; right; assumption.
Qed.

Definition in_cube (nd : nat) (kb : Z) (n : list Z) : Prop :=
  length n = nd /\ Forall (fun z => (- kb <= z <= kb)%Z) n.

Lemma disk_In : forall kb n, In n (disk kb) <-> in_cube 2 kb n.
Proof.
  intros kb n. unfold disk, in_cube. rewrite in_flat_map. split.
  - intros [x [Hx H]]. apply in_map_iff in H. destruct H as [y [<- Hy]].
    apply zrange_In in Hx, Hy. split; [reflexivity|]. repeat constructor; lia.
  - intros [L F]. destruct n as [|x [|y [|]]]; try discriminate L.
    inversion F as [|? ? Hx F2]; subst. inversion F2 as [|? ? Hy F3]; subst.
    exists x. split; [apply zrange_In; assumption|]. apply in_map_iff. exists y.
    split; [reflexivity|]. apply zrange_In. assumption.
Qed.

Lemma sphere_In : forall kb n, In n (sphere kb) <-> in_cube 3 kb n.
Proof.
  intros kb n. unfold sphere, in_cube. rewrite in_flat_map. split.
  - intros [x [Hx H]]. apply in_flat_map in H. destruct H as [y [Hy H]].
    apply in_map_iff in H. destruct H as [z [<- Hz]].
    apply zrange_In in Hx, Hy, Hz. split; [reflexivity|]. repeat constructor; lia.
  - intros [L F]. destruct n as [|x [|y [|z [|]]]]; try discriminate L.
    inversion F as [|? ? Hx F2]; subst. inversion F2 as [|? ? Hy F3]; subst.
    inversion F3 as [|? ? Hz F4]; subst.
    exists x. split; [apply zrange_In; assumption|]. apply in_flat_map. exists y.
    split; [apply zrange_In; assumption|]. apply in_map_iff. exists z.
    split; [reflexivity|]. apply zrange_In. assumption.
Qed.

Lemma disk_NoDup : forall kb, NoDup (disk kb).
Proof.
  intros kb. unfold disk. apply NoDup_flat_map; [apply zrange_NoDup| |].
  - intros x _. apply FinFun.Injective_map_NoDup; [|apply zrange_NoDup]. intros i j H. congruence.
  - intros x y z _ _ Hx Hy. apply in_map_iff in Hx, Hy.
    destruct Hx as [? [<- _]], Hy as [? [E _]]. congruence.
Qed.

Lemma sphere_NoDup : forall kb, NoDup (sphere kb).
Proof.
  intros kb. unfold sphere. apply NoDup_flat_map; [apply zrange_NoDup| |].
  - intros x _. apply NoDup_flat_map; [apply zrange_NoDup| |].
    + intros y _. apply FinFun.Injective_map_NoDup; [|apply zrange_NoDup]. intros i j H. congruence.
    + intros y y' z _ _ Hx Hy. apply in_map_iff in Hx, Hy.
      destruct Hx as [? [<- _]], Hy as [? [E _]]. congruence.
  - intros x y z _ _ Hx Hy. apply in_flat_map in Hx, Hy.
    destruct Hx as [a [_ Hx]], Hy as [b [_ Hy]]. apply in_map_iff in Hx, Hy.
    destruct Hx as [? [<- _]], Hy as [? [E _]]. congruence.
Qed.

Lemma lattice_points_spec : forall nd kb pts, lattice_points nd kb = Ok pts ->
  (nd = 2 \/ nd = 3) /\ NoDup pts /\ forall n, In n pts <-> in_cube nd kb n.
Proof.
  intros nd kb pts H. unfold lattice_points in H.
  destruct (Nat.eqb_spec nd 3) as [->|].
  - injection H as <-. split; [auto|]. split; [apply sphere_NoDup|apply sphere_In].
  - destruct (Nat.eqb_spec nd 2) as [->|]; [|discriminate].
    injection H as <-. split; [auto|]. split; [apply disk_NoDup|apply disk_In].
Qed.

(** ** One pass *)
Lemma append_at_length : forall X (l : list (list X)) i t, length (append_at l i t) = length l.
Proof. intros X l. induction l as [|s r IH]; intros [|i] t; cbn; auto. Qed.

Lemma append_at_nth : forall X (l : list (list X)) i t j, i < length l ->
  nth j (append_at l i t) [] = if i =? j then nth j l [] ++ [t] else nth j l [].
Proof.
  intros X l. induction l as [|s r IH]; intros i t j H; cbn in H; [lia|].
  destruct i as [|i], j as [|j]; cbn; try reflexivity. apply IH. lia.
Qed.

Section Pass.
Variable A : arith.
Variables (k0 kgrid dk : list (num A)).

Lemma find_shell_bound : forall x kg d i, find_shell A x kg d = Some i ->
  i < length kg /\ i < length d.
Proof.
  intros x kg. induction kg as [|k kr IH]; intros d i H; cbn in H; [discriminate|].
  destruct d as [|d0 dr]; [discriminate|].
  destruct (nlt A _ _).
  - injection H as <-. cbn. lia.
  - destruct (find_shell A x kr dr) as [j|] eqn:E; [|discriminate]. cbn in H.
    injection H as <-. apply IH in E. cbn. lia.
Qed.

Definition assign (kmax_sq : num A) (ik : list Z) : option nat :=
  if nlt A kmax_sq (self_dot A (kscale A k0 ik)) then None
  else find_shell A (nsqrt A (self_dot A (kscale A k0 ik))) kgrid dk.

Definition assigned (kmax_sq : num A) (i : nat) (ik : list Z) : bool :=
  match assign kmax_sq ik with Some j => j =? i | None => false end.

Lemma place_fold : forall kmsq kb pts kvec, length kvec = length kgrid ->
  let r := fold_left (place A k0 kgrid dk kmsq kb) pts kvec in
  length r = length kgrid /\
  forall i, nth i r [] = nth i kvec [] ++ map (map (fun n => (n + kb)%Z)) (filter (assigned kmsq i) pts).
Proof.
  intros kmsq kb pts. induction pts as [|ik pr IH]; intros kvec L; cbn [fold_left filter].
  - split; [assumption|]. intros i. cbn. rewrite app_nil_r. reflexivity.
  - assert (L' : length (place A k0 kgrid dk kmsq kb kvec ik) = length kgrid).
    { unfold place. destruct (nlt A kmsq _); [assumption|].
      destruct (find_shell A _ kgrid dk); [rewrite append_at_length|]; assumption. }
    destruct (IH _ L') as [H1 H2]. split; [assumption|]. intros i. rewrite H2.
    unfold place, assigned at 2, assign. destruct (nlt A kmsq _); [reflexivity|].
    destruct (find_shell A _ kgrid dk) as [j|] eqn:E; [|reflexivity].
    apply find_shell_bound in E. rewrite append_at_nth by lia.
    destruct (j =? i); [|reflexivity]. rewrite <- app_assoc. reflexivity.
Qed.

Lemma grid_pass_spec : forall kvec kb, grid_pass A dk kgrid k0 = Ok (kvec, kb) ->
  exists kl dl km q pts, getZ kgrid (-1) = Ok kl /\ getZ dk (-1) = Ok dl /\ kmin0 A k0 = Ok km /\
    ntrunc A (ndiv A (nadd A kl dl) km) = Some q /\ kb = (1 + q)%Z /\
    lattice_points (length k0) kb = Ok pts /\ length kvec = length kgrid /\
    forall i, nth i kvec [] = map (map (fun n => (n + kb)%Z))
      (filter (assigned (nmul A (nadd A kl dl) (nadd A kl dl)) i) pts).
Proof.
  intros kvec kb H. unfold grid_pass in H.
  apply bind_Ok_inv in H. destruct H as [kl [E1 H]].
  apply bind_Ok_inv in H. destruct H as [dl [E2 H]].
  apply bind_Ok_inv in H. destruct H as [km [E3 H]].
  destruct (ntrunc A _) as [q|] eqn:E4; [|discriminate].
  apply bind_Ok_inv in H. destruct H as [pts [E5 H]].
  apply Ok_inj in H.
  exists kl, dl, km, q, pts.
  destruct (place_fold (nmul A (nadd A kl dl) (nadd A kl dl)) (1 + q)%Z pts
              (map (fun _ => []) kgrid)) as [L N]; [apply map_length|].
  pose proof (f_equal fst H) as Hk. pose proof (f_equal snd H) as Hb. cbn [fst snd] in Hk, Hb.
  subst kvec. subst kb.
  repeat split; try assumption. intros i. rewrite N.
  replace (nth i (map (fun _ : num A => @nil (list Z)) kgrid) []) with (@nil (list Z)); [reflexivity|].
  clear. revert i. induction kgrid as [|k r IH]; intros [|i]; cbn; auto.
Qed.

Lemma grid_pass_total : forall km q, kmin0 A k0 = Ok km ->
  forall kl dl, getZ kgrid (-1) = Ok kl -> getZ dk (-1) = Ok dl ->
  ntrunc A (ndiv A (nadd A kl dl) km) = Some q ->
  (length k0 = 2 \/ length k0 = 3) -> exists kvec, grid_pass A dk kgrid k0 = Ok (kvec, (1 + q)%Z).
Proof.
  intros km q E3 kl dl E1 E2 E4 D. unfold grid_pass. rewrite E1, E2, E3. cbn [bind]. rewrite E4.
  unfold lattice_points. destruct D as [-> | ->]; cbn; eauto.
Qed.
End Pass.
