(** The value of acf at zero time difference is the variance. *)
From Coq Require Import List ZArith Bool Arith Reals Lia Lra Sorting.Sorted.
From Verif Require Import PyBase PyBaseFacts Num Spec_Stats NumFacts M_Helpers M_Correlation
  Spec_Correlation P_Correlation.
Import ListNotations.
Local Open Scope nat_scope.

Lemma sorted_nth_lt : forall t i j, StronglySorted Z.lt t -> i < j < length t ->
  (nth i t 0 < nth j t 0)%Z.
Proof.
  intros t i j H. revert i j. induction H as [|a t Hs IH Hf]; intros i j Hij; cbn in *; [lia|].
  destruct j as [|j]; [lia|]. destruct i as [|i].
  - rewrite Forall_forall in Hf. apply Hf. apply nth_In. lia.
  - apply IH. lia.
Qed.

Lemma origins_all : forall n, origins 0 1 n = seq 0 n.
Proof.
  intros n. unfold origins. apply filter_all_true. intros i _.
  rewrite Nat.mod_1_r. reflexivity.
Qed.

Lemma flat_map_one : forall X Y (f : X -> list Y) l a, NoDup l -> In a l ->
  (forall b, In b l -> b <> a -> f b = []) -> flat_map f l = f a.
Proof.
  intros X Y f l a. induction l as [|b l IH]; intros Hn Ha Hz; [destruct Ha|].
  inversion Hn as [|? ? Hnb Hnl]; subst. cbn. destruct Ha as [->|Ha].
  - assert (flat_map f l = []) as ->; [|apply app_nil_r].
    assert (forall c, In c l -> f c = []) as H.
    { intros c Hc. apply Hz; [right; assumption|]. intros ->; tauto. }
    clear -H. induction l as [|c l IH]; [reflexivity|]. cbn. rewrite H by (left; reflexivity).
    apply IH. intros; apply H; right; assumption.
  - rewrite (Hz b) by (auto with datatypes; intros ->; tauto). cbn. apply IH; auto.
    intros; apply Hz; auto with datatypes.
Qed.

Lemma filter_flat_map : forall X Y (f : Y -> bool) (g : X -> list Y) l,
  filter f (flat_map g l) = flat_map (fun x => filter f (g x)) l.
Proof.
  intros. induction l as [|x l IH]; cbn; [reflexivity|]. rewrite filter_app, IH. reflexivity.
Qed.

Lemma filter_none : forall X (f : X -> bool) l, (forall x, In x l -> f x = false) -> filter f l = [].
Proof.
  intros X f l. induction l as [|a l IH]; intros H; cbn; [reflexivity|].
  rewrite (H a (or_introl eq_refl)). apply IH. intros; apply H; right; assumption.
Qed.

Lemma flat_map_map_l : forall X Y W (f : Y -> list W) (g : X -> Y) l,
  flat_map f (map g l) = flat_map (fun x => f (g x)) l.
Proof. intros. rewrite !flat_map_concat_map, map_map. reflexivity. Qed.

Lemma pairs_at_zero : forall t grid n,
  StronglySorted Z.lt t -> length t = n -> NoDup grid -> In 0 grid ->
  pairs_at t 0 (admitted (map (fun i => (0, i)) grid) 1 n) = map (fun i => (i, i)) (seq 0 n).
Proof.
  intros t grid n Ht Hn Hd H0. unfold pairs_at, admitted.
  rewrite filter_flat_map, flat_map_map_l.
  rewrite (flat_map_one _ _ _ grid 0 Hd H0); cbn [fst snd].
  - rewrite Nat.sub_0_r, origins_all. rewrite filter_all_true.
    + apply map_ext. intros i. f_equal. lia.
    + intros p Hp. apply in_map_iff in Hp. destruct Hp as [i [<- _]]. apply Z.eqb_eq.
      unfold pair_dt; cbn [fst snd]. rewrite Nat.add_0_r. lia.
  - intros b _ Hb. rewrite origins_all. apply filter_none. intros p Hp.
    apply in_map_iff in Hp. destruct Hp as [i [<- Hi]]. apply in_seq in Hi.
    apply Z.eqb_neq. unfold pair_dt; cbn [fst snd].
    pose proof (sorted_nth_lt t i (i + b) Ht ltac:(lia)). lia.
Qed.

Lemma map_nth_seq : forall X (l : list X) d, map (fun i => nth i l d) (seq 0 (length l)) = l.
Proof.
  intros X l d. apply nth_ext with d d; [rewrite map_length, seq_length; reflexivity|].
  intros i Hi. rewrite map_length, seq_length in Hi.
  rewrite (nth_indep _ d (nth (length l) l d)) by (rewrite map_length, seq_length; assumption).
  rewrite (map_nth (fun i => nth i l d)), seq_nth by assumption. reflexivity.
Qed.

Lemma acf_zero_variance : forall (t : list Z) (x : list R) grid,
  length t = length x -> x <> [] -> StronglySorted Z.lt t -> NoDup grid -> In 0 grid ->
  exists dt v c, acf Rops grid 1 t x = Ok (0%Z :: dt, (variance x : num Rops) :: v, length x :: c).
Proof.
  intros t x grid Hlen Hx Ht Hd H0.
  destruct (acf_correct Rops t x grid 1 Hlen ltac:(lia)) as [dt [v [E [Hs [Hin Hv]]]]].
  rewrite E. clear E. change (num Rops) with R in *. set (ps := admitted (map (fun i => (0, i)) grid) 1 (length x)) in *.
  pose proof (pairs_at_zero t grid (length x) Ht Hlen Hd H0) as Hz. fold ps in Hz.
  assert (exists dt', dt = 0%Z :: dt') as [dt' ->].
  { assert (In 0%Z dt) as Hin0.
    { apply Hin. exists (0, 0). split.
      - assert (In (0, 0) (pairs_at t 0 ps)) as Hp.
        { rewrite Hz. apply in_map_iff. exists 0. split; [reflexivity|]. apply in_seq.
          destruct x; [congruence|cbn; lia]. }
        apply filter_In in Hp. tauto.
      - unfold pair_dt; cbn; lia. }
    assert (forall d, In d dt -> (0 <= d)%Z) as Hnn.
    { intros d Hdd. apply Hin in Hdd. destruct Hdd as [p [Hp <-]].
      unfold ps, admitted in Hp. apply in_flat_map in Hp. destruct Hp as [q [Hq Hp]].
      apply in_map_iff in Hp. destruct Hp as [i [<- Hi]]. apply filter_In in Hi.
      destruct Hi as [Hi _]. apply in_seq in Hi. unfold pair_dt; cbn [fst snd].
      destruct (Nat.eq_dec (snd q) 0) as [->|Hq0]; [rewrite Nat.add_0_r; lia|].
      change (num Rops) with R in *.
      pose proof (sorted_nth_lt t i (i + snd q) Ht ltac:(lia)). lia. }
    destruct dt as [|d dt']; [destruct Hin0|]. exists dt'. f_equal.
    destruct Hin0 as [|Hin0]; [assumption|].
    inversion Hs as [|? ? _ Hf]; subst. rewrite Forall_forall in Hf. specialize (Hf _ Hin0).
    specialize (Hnn d (or_introl eq_refl)). lia. }
  change (num Rops) with R in *. cbn [map] in Hv |- *. rewrite Hz in Hv. rewrite Hz. fold ps in Hv. rewrite !map_length, seq_length.
  subst v. eexists _, _, _. do 3 f_equal. f_equal.
  rewrite nmean_R. rewrite !map_length, seq_length. unfold variance, rmean. rewrite map_map.
  f_equal.
  transitivity (rsum (map (fun v => (v - nmean Rops x) * (v - nmean Rops x))%R
     (map (fun i => nth i x (n0 Rops)) (seq 0 (length x))))).
  - rewrite map_map. reflexivity.
  - rewrite map_nth_seq. rewrite nmean_R. reflexivity.
Qed.
