(** The histogram of bond angles is that of the computed angles (C142). *)
From Coq Require Import List ZArith Bool Arith Lia.
From Verif Require Import PyBase PyBaseFacts Num M_Helpers M_Dynamics M_Realspace M_BondAngle Spec_Correlation Spec_BondAngle P_GrFast P_Count P_BondAngle P_Cache Spec_Angle64.
Import ListNotations.
Local Open Scope nat_scope.

Lemma get_inv : forall X (l : list X) i x d, get l i = Ok x -> i < length l /\ nth i l d = x.
Proof. intros X l i x d H. unfold get in H. destruct (nth_error l i) eqn:E; [|discriminate]. injection H as <-. split; [apply nth_error_Some; congruence|apply nth_error_nth; exact E]. Qed.

Section Counts.
Variable A : arith.
Variable acosd : num A -> num A.
Variable d : num A.
Notation bin := (in_bin A d).
Definition adds (h h' : list nat) (T : list (num A)) : Prop := length h' = length h /\ forall k, k < length h -> nth k h' 0 = nth k h 0 + cnt (bin k) T.

Lemma adds_nil : forall h, adds h h [].
Proof. intros h. split; [reflexivity|]. intros k _. cbn. lia. Qed.
Lemma foldM_adds : forall X (f : list nat -> X -> res (list nat)) (g : X -> list (num A)), (forall h x h', f h x = Ok h' -> adds h h' (g x)) ->
  forall l h h', foldM f h l = Ok h' -> adds h h' (flat_map g l).
Proof.
  intros X f g Hf l. induction l as [|x l IH]; intros h h' H; cbn [foldM] in H.
  - injection H as <-. apply adds_nil.
  - apply bind_Ok_inv in H. destruct H as [h1 [E H]]. destruct (Hf _ _ _ E) as [L1 C1]. destruct (IH _ _ H) as [L2 C2]. split; [congruence|]. intros k Hk. cbn [flat_map]. rewrite cnt_app, C2, C1 by congruence. lia.
Qed.
Lemma angle_add_adds : forall h t h', angle_add A d h t = Ok h' -> adds h h' [t].
Proof.
  intros h t h' H. unfold angle_add in H. destruct (nfloor A (ndiv A t d)) as [z|] eqn:E; [|discriminate].
  assert (C : forall k, cnt (bin k) [t] = if (z =? Z.of_nat k)%Z then 1 else 0) by (intros k; unfold cnt, in_bin; cbn [filter]; rewrite E; destruct (z =? Z.of_nat k)%Z; reflexivity).
  destruct (Z.ltb_spec z (Z.of_nat (length h))) as [Lt|Ge].
  - destruct (Z.leb_spec 0 z) as [P|P]; [|discriminate]. injection H as <-. split; [apply incr_length|]. intros k Hk. rewrite incr_nth by lia. rewrite C. destruct (Nat.eqb_spec k (Z.to_nat z)); destruct (Z.eqb_spec z (Z.of_nat k)); lia.
  - injection H as <-. split; [reflexivity|]. intros k Hk. rewrite C. destruct (Z.eqb_spec z (Z.of_nat k)); lia.
Qed.
Lemma bond_angle_adds : forall c pos ns side n h, bond_angle A acosd c pos ns side d n = Ok h -> adds (repeat 0 n) h (computed_angles A acosd side c pos ns).
Proof.
  intros c pos ns side n h H. unfold bond_angle in H. unfold computed_angles. revert H. apply foldM_adds. clear h n. intros h j h' H. apply bind_Ok_inv in H. destruct H as [pj [Ej H]].
  destruct (get_inv _ _ _ _ [] Ej) as [_ Nj]. rewrite Nj. revert H. apply foldM_adds. clear h h'. intros h k h' H.
  destruct (k =? j); [injection H as <-; apply adds_nil|]. apply bind_Ok_inv in H. destruct H as [pk [Ek H]]. destruct (get_inv _ _ _ _ [] Ek) as [_ Nk]. rewrite Nk.
  destruct (angle A acosd (wrapv A c pj side) (wrapv A c pk side)) as [t|]; [apply angle_add_adds; exact H|injection H as <-; apply adds_nil].
Qed.
Lemma neighbours_computed : forall side c pos ids rcut ns, ba_neighbors A side c pos ids rcut = Ok ns -> ns = computed_neighbours A side c pos ids rcut /\ length ns <= 50.
Proof.
  intros side c pos ids rcut ns H. unfold ba_neighbors in H. apply bind_Ok_inv in H. destruct H as [m [E H]]. destruct (Nat.leb_spec (length m) max_neighbors) as [L|L]; [|discriminate]. injection H as <-. split; [|exact L].
  unfold computed_neighbours. enough (G : forall l acc, foldM (fun ns j => x <- get pos j ;; jsp <- get ids j ;; rc <- get rcut jsp ;; let rij := wrapv A c x side in Ok (if nlt A (vdot A rij rij) (nsq A rc) then ns ++ [j] else ns)) acc l = Ok m ->
    m = acc ++ filter (fun j => let r := wrapv A c (nth j pos []) side in nlt A (vdot A r r) (nsq A (nth (nth j ids 0) rcut (n0 A)))) l) by exact (G _ _ E).
  clear. induction l as [|j l IH]; intros acc H; cbn [foldM] in H; [injection H as <-; cbn; rewrite app_nil_r; reflexivity|].
  apply bind_Ok_inv in H. destruct H as [acc' [E H]]. apply bind_Ok_inv in E. destruct E as [x [Ex E]]. apply bind_Ok_inv in E. destruct E as [jsp [Es E]]. apply bind_Ok_inv in E. destruct E as [rc [Er E]]. cbv zeta in E.
  destruct (get_inv _ _ _ _ [] Ex) as [_ Nx]. destruct (get_inv _ _ _ _ 0 Es) as [_ Ns]. destruct (get_inv _ _ _ _ (n0 A) Er) as [_ Nr]. cbn [filter]. rewrite Nx, Ns, Nr. rewrite (IH _ H). injection E as <-.
  destruct (nlt A (vdot A (wrapv A c x side) (wrapv A c x side)) (nsq A rc)); [rewrite <- app_assoc; reflexivity|reflexivity].
Qed.
Lemma angles_few : forall side c pos ns, length (computed_angles A acosd side c pos ns) <= length ns * length ns.
Proof.
  intros side c pos ns. unfold computed_angles. generalize ns at 2 4. intros l. induction l as [|j l IH]; cbn [flat_map length]; [lia|]. rewrite app_length.
  assert (X : forall m, length (flat_map (fun k => if k =? j then [] else match angle A acosd (wrapv A c (nth j pos []) side) (wrapv A c (nth k pos []) side) with Some t => [t] | None => [] end) m) <= length m).
  { clear. induction m as [|k m IH]; cbn [flat_map length]; [lia|]. rewrite app_length. destruct (k =? j); cbn [length]; [lia|]. destruct (angle A acosd _ _); cbn [length]; lia. }
  specialize (X ns). lia.
Qed.

Definition hist_of (n : nat) (h : list nat) (T : list (num A)) : Prop := length h = n /\ (forall k, k < n -> nth k h 0 = cnt (bin k) T) /\ length T <= 2500.
Lemma frame_hist : forall rcut n f hs, ba_frame A acosd rcut d n f = Ok hs -> Forall2 (hist_of n) hs (computed_frame A acosd rcut f).
Proof.
  intros rcut n f hs H. unfold ba_frame in H. unfold computed_frame. apply mapM_ok_Forall2 in H. induction H as [|idx h l hs E F IH]; cbn [map]; constructor; [|exact IH]. clear IH F.
  apply bind_Ok_inv in E. destruct E as [isp [E1 E]]. apply bind_Ok_inv in E. destruct E as [row [E2 E]]. apply bind_Ok_inv in E. destruct E as [c [E3 E]]. apply bind_Ok_inv in E. destruct E as [ns [E4 E]].
  destruct (get_inv _ _ _ _ 0 E1) as [_ N1]. destruct (get_inv _ _ _ _ [] E2) as [_ N2]. destruct (get_inv _ _ _ _ [] E3) as [_ N3]. cbv zeta. rewrite N1, N2, N3. destruct (neighbours_computed _ _ _ _ _ _ E4) as [<- L50].
  destruct (bond_angle_adds _ _ _ _ _ _ E) as [L C]. rewrite repeat_length in L, C. split; [exact L|]. split; [intros k Hk; rewrite C by exact Hk; rewrite nth_repeat; reflexivity|].
  pose proof (angles_few (f_side f) c (f_pos1 f) ns) as X. assert (length ns * length ns <= 50 * 50) by (apply Nat.mul_le_mono; exact L50). lia.
Qed.
Lemma fold_hist : forall n hs h0 Ts T0, hist_of n h0 T0 -> Forall2 (hist_of n) hs Ts ->
  length (fold_left hadd hs h0) = n /\ (forall k, k < n -> nth k (fold_left hadd hs h0) 0 = cnt (bin k) (concat (T0 :: Ts))) /\ length (concat (T0 :: Ts)) <= 2500 * length (T0 :: Ts).
Proof.
  intros n hs h0 Ts T0 [L0 [C0 B0]] F. destruct (hadd_fold n hs h0 L0) as [L C]; [intros h Hh; clear - F Hh; induction F as [|h' T' hs Ts [X _] F IH]; [destruct Hh|destruct Hh as [<-|Hh]; [exact X|apply IH; exact Hh]]|].
  split; [exact L|]. split.
  - intros k Hk. rewrite C by exact Hk. cbn [map concat]. rewrite list_sum_cons, cnt_app, C0 by exact Hk. f_equal. clear - F Hk. induction F as [|h T hs Ts [_ [X _]] F IH]; cbn [map concat]; [reflexivity|]. rewrite list_sum_cons, cnt_app, X, IH by exact Hk. reflexivity.
  - cbn [concat length]. rewrite app_length. enough (length (concat Ts) <= 2500 * length Ts) by lia. clear - F. induction F as [|h T hs Ts [_ [_ X]] F IH]; cbn [concat length]; [lia|]. rewrite app_length. lia.
Qed.
Lemma bins_total : forall T m, list_sum (map (fun k => cnt (bin k) T) (seq 0 m)) <= length T.
Proof.
  assert (Z0 : forall l : list nat, list_sum (map (fun _ => 0) l) = 0) by (induction l as [|a l IH]; [reflexivity|cbn [map]; rewrite list_sum_cons, IH; reflexivity]).
  intros T m. induction T as [|t T IH]; [rewrite (map_ext _ (fun _ => 0)) by reflexivity; rewrite Z0; apply Nat.le_refl|].
  rewrite (map_ext _ (fun k => (if bin k t then 1 else 0) + cnt (bin k) T)) by (intros k; unfold cnt; cbn [filter]; destruct (bin k t); reflexivity).
  assert (S2 : forall l, list_sum (map (fun k => (if bin k t then 1 else 0) + cnt (bin k) T) l) = list_sum (map (fun k => if bin k t then 1 else 0) l) + list_sum (map (fun k => cnt (bin k) T) l)) by (induction l; cbn [map]; rewrite ?list_sum_cons; [reflexivity|lia]).
  rewrite S2. cbn [length]. enough (list_sum (map (fun k => if bin k t then 1 else 0) (seq 0 m)) <= 1) by lia. clear - Z0. unfold in_bin. destruct (nfloor A (ndiv A t d)) as [z|]; [|rewrite Z0; lia].
  assert (G : forall l, NoDup l -> list_sum (map (fun k => if (z =? Z.of_nat k)%Z then 1 else 0) l) <= 1).
  { induction l as [|k l IH]; intros N; [cbn; lia|]. inversion N; subst. cbn [map]. rewrite list_sum_cons. destruct (Z.eqb_spec z (Z.of_nat k)) as [E|E]; [|specialize (IH H2); lia].
    enough (list_sum (map (fun k => if (z =? Z.of_nat k)%Z then 1 else 0) l) = 0) by lia. clear - H1 E. induction l as [|j l IH]; [reflexivity|]. cbn [map]. rewrite list_sum_cons. destruct (Z.eqb_spec z (Z.of_nat j)) as [E2|E2]; [exfalso; apply H1; left; lia|]. cbn [Nat.add]. apply IH. intros X. apply H1. right. exact X. }
  apply G. apply seq_NoDup.
Qed.
End Counts.
