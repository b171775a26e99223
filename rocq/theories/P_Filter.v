(** Proofs about filter_species and _subtract_mean. *)
From Coq Require Import Ascii String List ZArith Bool Arith Reals Lia Lra Sorting.Permutation.
From Verif Require Import PyBase PyBaseFacts Num Spec_Stats NumFacts M_Helpers M_Correlation Spec_Lists.
Import ListNotations.

Lemma filter_subseq : forall X (f : X -> bool) l, subseq (filter f l) l.
Proof. induction l as [|x l IH]; cbn; [constructor|]. destruct (f x); constructor; assumption. Qed.

(** Classes of a key: every entry lands in exactly one. *)
Lemma partition_by_key : forall X K (eqb : K -> K -> bool) (key : X -> K) (l : list X) (ks : list K),
  (forall a b, eqb a b = true <-> a = b) -> NoDup ks -> (forall x, In x l -> In (key x) ks) ->
  Permutation (flat_map (fun k => filter (fun x => eqb (key x) k) l) ks) l.
Proof.
  intros X K eqb key l ks Heq Hnd. induction l as [|x l IH]; intros Hin.
  - cbn. clear. induction ks; cbn; [constructor|assumption].
  - assert (Permutation (flat_map (fun k => filter (fun x0 => eqb (key x0) k) (x :: l)) ks)
              (x :: flat_map (fun k => filter (fun x0 => eqb (key x0) k) l) ks)) as P.
    { assert (In (key x) ks) as Hk by (apply Hin; left; reflexivity). clear IH Hin.
      induction ks as [|k ks IHk]; [destruct Hk|].
      inversion Hnd as [|? ? Hnk Hnd']; subst. cbn [flat_map].
      destruct (eqb (key x) k) eqn:E.
      - apply Heq in E. subst k.
        assert (flat_map (fun k => filter (fun x0 => eqb (key x0) k) (x :: l)) ks
                = flat_map (fun k => filter (fun x0 => eqb (key x0) k) l) ks) as ->.
        { rewrite !flat_map_concat_map. f_equal. apply map_ext_in. intros k Hk'. cbn [filter].
          destruct (eqb (key x) k) eqn:E; [|reflexivity]. apply Heq in E. subst k. contradiction. }
        cbn [filter]. rewrite (proj2 (Heq _ _) eq_refl). apply Permutation_refl.
      - destruct Hk as [->|Hk]; [rewrite (proj2 (Heq _ _) eq_refl) in E; discriminate|].
        specialize (IHk Hnd' Hk). cbn [filter] in *. rewrite E.
        eapply Permutation_trans; [apply Permutation_app_head, IHk|].
        apply Permutation_sym, Permutation_middle. }
    eapply Permutation_trans; [exact P|]. constructor. apply IH. intros y Hy. apply Hin. right. exact Hy.
Qed.

Lemma filter_species_partition : forall D (ps : list (particle D)) (sps : list string),
  NoDup sps -> (forall p, In p ps -> In (species p) sps) ->
  Permutation (flat_map (fun s => filter_species ps (Some s)) sps) ps.
Proof.
  intros D ps sps Hnd Hin.
  apply (partition_by_key _ _ String.eqb species ps sps); try assumption.
  intros a b. apply String.eqb_eq.
Qed.

Local Open Scope R_scope.

Lemma fold_left_means : forall (w : list (list R)) a,
  fold_left (fun m v => nadd Rops m (nmean Rops v)) w a = a + rsum (map rmean w).
Proof.
  induction w as [|v w IH]; intros a; cbn [fold_left map rsum].
  - lra.
  - rewrite IH, nmean_R. change (a + rmean v + rsum (map rmean w) = a + (rmean v + rsum (map rmean w))). lra.
Qed.

Lemma rmean_shift : forall (v : list R) c, v <> [] -> rmean (map (fun x => x - c) v) = rmean v - c.
Proof.
  intros v c Hv. unfold rmean. rewrite map_length, (rsum_minus R (fun x => x) (fun _ => c) v), rsum_const, map_id.
  pose proof (INR_pos_length R v Hv). field. lra.
Qed.

Lemma subtract_mean_spec : forall w : list (list R), w <> [] -> (forall v, In v w -> v <> []) ->
  exists w' c, subtract_mean Rops w = Ok w' /\ w' = map (map (fun x => x - c)) w /\
    rmean (map rmean w') = 0.
Proof.
  intros w Hw Hv. set (c := rsum (map rmean w) / INR (length w)).
  exists (map (map (fun x => x - c)) w), c. split; [|split; [reflexivity|]].
  - unfold subtract_mean. destruct w as [|v0 w0]; [congruence|]. f_equal.
    apply map_ext. intros v. apply map_ext. intros x. cbn [nsub Rops]. f_equal.
    rewrite fold_left_means, nofnat_R. unfold c. cbn [ndiv n0 Rops]. f_equal. lra.
  - unfold rmean at 1. rewrite !map_length, map_map.
    rewrite (rsum_ext _ (fun v => rmean (map (fun x => x - c) v)) (fun v => rmean v - c)).
    2: { intros v Hin. apply rmean_shift. apply Hv. exact Hin. }
    rewrite rsum_minus, rsum_const. pose proof (INR_pos_length _ w Hw). unfold c. field. lra.
Qed.
