(** g(r) with linked cells against g(r) without: whole calculation. *)
From Coq Require Import List ZArith Bool Arith Lia Reals Lra Permutation Psatz.
From Verif Require Import PyBase PyBaseFacts Num NumFacts Spec_Stats M_Helpers M_Dynamics M_Realspace M_LinkedCells
  Spec_Correlation Spec_Dynamics Spec_Pairs Spec_LinkedCells P_Helpers P_Dynamics P_Image P_Pairs P_Count P_Gr P_GrFast P_GrFast2
  P_Gr3 P_LinkedCells P_LinkedCells2 P_LinkedCells3.
Import ListNotations.
Local Open Scope R_scope.

Lemma img_sq_bound : forall (L : R) side x y, 0 <= L -> positive side -> (forall l, In l side -> l <= L) ->
  length x = length side -> length y = length side ->
  img_sq Rops x y side <= INR (length side) * (L / 2 * (L / 2)).
Proof.
  intros L. induction side as [|l side IH]; intros x y HL Hp Hl Hx Hy; destruct x as [|a x]; try discriminate;
    destruct y as [|b y]; try discriminate.
  - cbn. lra.
  - rewrite img_sq_cons. cbn [length]. rewrite S_INR.
    assert (img_sq Rops x y side <= INR (length side) * (L / 2 * (L / 2))) as H.
    { apply IH; auto; [intros z Hz; apply Hp; right; exact Hz|intros z Hz; apply Hl; right; exact Hz]. }
    assert (0 < l) as Hl0 by (apply Hp; left; reflexivity).
    assert (l <= L) as HlL by (apply Hl; left; reflexivity).
    pose proof (image_half (a - b) l Hl0) as Hi.
    set (v := image Rops (a - b) l) in *. change (num Rops) with R in *.
    assert (v * v <= L / 2 * (L / 2)).
    { assert (- (L/2) <= v <= L / 2) by (split; [pose proof (Rle_abs (- v)) as Q; rewrite Rabs_Ropp in Q|pose proof (Rle_abs v) as Q]; lra). nra. }
    lra.
Qed.

Lemma fdist_bound : forall L side x y, 0 <= L -> positive side -> (forall l, In l side -> l <= L) ->
  folded x side -> folded y side -> fdist Rops x y side <= L * sqrt (INR (length side)) / 2.
Proof.
  intros L side x y HL Hp Hl Hx Hy. rewrite fdist_folded by assumption.
  destruct (folded_inside _ _ Hx) as [_ Lx], (folded_inside _ _ Hy) as [_ Ly].
  pose proof (img_sq_bound L side x y HL Hp Hl Lx Ly) as H. unfold img_dist. cbn [nsqrt Rops].
  replace (L * sqrt (INR (length side)) / 2) with (sqrt (INR (length side) * (L / 2 * (L / 2)))).
  - apply sqrt_le_1_alt. exact H.
  - rewrite sqrt_mult_alt by apply pos_INR. rewrite sqrt_square by lra. field.
Qed.

Lemma foldM_state : forall (S X Y : Type) (step : option S * list Y -> X -> res (option S * list Y)) (g : X -> Y) (s : S) os,
  (forall st l i, In i os -> st = None \/ st = Some s -> step (st, l) i = Ok (Some s, l ++ [g i])) ->
  forall st l, st = None \/ st = Some s -> exists st', foldM step (st, l) os = Ok (st', l ++ map g os).
Proof.
  intros S X Y step g s os H. induction os as [|i os IH]; intros st l Hs.
  - exists st. cbn. rewrite app_nil_r. reflexivity.
  - cbn [foldM]. rewrite H by (auto; left; reflexivity). cbn [bind].
    destruct (IH (fun st l i Hi => H st l i (or_intror Hi)) (Some s) (l ++ [g i]) (or_intror eq_refl)) as [st' E].
    exists st'. rewrite E. cbn [map]. rewrite <- app_assoc. reflexivity.
Qed.

Definition agree (dr rmax : R) (a b : R * R) : Prop := fst a = fst b /\ (fst a + dr / 2 <= rmax -> snd a = snd b).

Lemma Forall2_filter : forall (c : R -> bool) (P : R * R -> R * R -> Prop) l m, (forall a b, P a b -> fst a = fst b) ->
  Forall2 P l m -> Forall2 P (filter (fun x => c (fst x)) l) (filter (fun x => c (fst x)) m).
Proof.
  intros c P l m Hf H. induction H as [|a b l m Hab H IH]; [constructor|]. cbn. rewrite <- (Hf a b Hab).
  destruct (c (fst a)); [constructor; assumption|exact IH].
Qed.

Lemma Forall2_map_seq : forall X Y (P : X -> Y -> Prop) (f : nat -> X) (g : nat -> Y) n,
  (forall k, (k < n)%nat -> P (f k) (g k)) -> Forall2 P (map f (seq 0 n)) (map g (seq 0 n)).
Proof.
  intros X Y P f g n H. assert (forall l, (forall k, In k l -> (k < n)%nat) -> Forall2 P (map f l) (map g l)) as G.
  { induction l as [|k l IH]; intros Hl; [constructor|]. constructor; [apply H, Hl; left; reflexivity|].
    apply IH. intros x Hx. apply Hl. right. exact Hx. }
  apply G. intros k Hk. apply in_seq in Hk. lia.
Qed.

Lemma finish_agree : forall pi ndims same (dr : R) n os (h h' : nat -> list nat) (N : nat -> nat * nat) V crop (rmax : R),
  0 < dr -> (2 <= n)%nat -> os <> [] ->
  (forall i k, In i os -> (k < n)%nat -> INR (k + 1) * dr <= rmax -> nth k (h i) 0%nat = nth k (h' i) 0%nat) ->
  exists o o', fast_finish Rops pi ndims same dr n (map (fun i : nat => (h i, N i)) os) V crop = Ok o /\
    fast_finish Rops pi ndims same dr n (map (fun i : nat => (h' i, N i)) os) V crop = Ok o' /\
    Forall2 (agree dr rmax) o o'.
Proof.
  intros pi ndims same dr n os h h' N V crop rmax Hdr Hn Hos Hh.
  unfold fast_finish. change (num Rops) with R in *.
  assert (forall hh : nat -> list nat, (match map (fun i : nat => (hh i, N i)) os with [] => Err UnboundLocalError | _ :: _ => Ok tt end) = Ok tt) as Eu
    by (intros hh; destruct os; [congruence|reflexivity]).
  rewrite !Eu. cbn [bind].
  assert (exists b0 b1, get (fbins Rops dr n) 0 = Ok b0 /\ get (fbins Rops dr n) 1 = Ok b1) as [b0 [b1 [G0 G1]]].
  { exists (nth 0 (fbins Rops dr n) 0), (nth 1 (fbins Rops dr n) 0).
    split; apply get_Ok; unfold fbins; rewrite map_length, seq_length; lia. }
  change (num Rops) with R in *. rewrite G0, G1. cbn [bind].
  eexists. eexists. split; [reflexivity|]. split; [reflexivity|].
  apply (Forall2_filter (fun g => nle Rops g crop)); [intros a b [E _]; exact E|].
  set (r := map (fun b : R => nsub Rops b (ndiv Rops (nsub Rops b1 b0) (nofZ Rops 2)) : R) (fbins Rops dr n)).
  change (num Rops) with R in *. set (pairs := combine r (tl r)).
  assert (length pairs = n - 1)%nat as Lp.
  { unfold pairs. rewrite combine_length. assert (length r = n) as Lr by (unfold r, fbins; rewrite !map_length, seq_length; reflexivity).
    assert (forall l : list R, length (tl l) = length l - 1)%nat as Ht by (intros l; destruct l; cbn; lia). rewrite Ht. change (num Rops) with R in *. lia. }
  rewrite !map_map. cbn [fst snd]. unfold map2, hist_average.
  set (q0 := (0, 0) : R * R).
  assert (pairs = map (fun k => nth k pairs q0) (seq 0 (n - 1))) as Ep by (rewrite <- Lp; symmetry; apply nth_seq_all).
  rewrite Lp. rewrite Ep at 1 2.
  assert (forall (X Y : Type) (f : nat -> X) (g : nat -> Y) (a b : nat),
     combine (map f (seq 0 a)) (map g (seq 0 b)) = map (fun k => (f k, g k)) (seq 0 (Nat.min a b))) as Hc.
  { intros X Y f g. assert (forall a b c, combine (map f (seq c a)) (map g (seq c b)) = map (fun k => (f k, g k)) (seq c (Nat.min a b))) as G.
    { induction a as [|a IH]; intros b c; [reflexivity|]. destruct b as [|b]; [reflexivity|].
      cbn [seq map combine Nat.min]. rewrite IH. reflexivity. }
    intros a b. apply G. }
  assert (fbins Rops dr n = map (fun k => dr * INR k + dr / 2) (seq 0 n)) as Ef.
  { unfold fbins. apply map_ext. intros k. rewrite nofnat_R. reflexivity. }
  rewrite Ef. change (num Rops) with R in *.
  rewrite !(Hc R (R * R)%type), !map_map, !(Hc R R). apply Forall2_map_seq. intros k Hk. split; cbn [fst snd]; [reflexivity|].
  intros Hkr. f_equal. rewrite !map_length. f_equal. f_equal. rewrite !map_map. apply map_ext_in. intros i Hi. cbn [fst].
  f_equal. apply Hh; [exact Hi|lia|]. rewrite plus_INR. cbn [INR]. lra.
Qed.

Lemma linked_agrees : forall pi V ndims same (dr rmax L : R) side skip pos0 pos1 sides,
  let sd := sqrt (INR (length side)) in
  0 < dr -> 3 / 2 * dr <= L * sd -> 0 < rmax -> dim23 (length side) -> positive side -> big rmax side ->
  (forall l, In l side -> l <= L) -> (forall s, In s sides -> s = side) ->
  gr_input same skip pos0 pos1 sides -> pos0 <> [] ->
  (forall i r, (i < length pos0)%nat -> In r (nth i pos0 []) \/ In r (nth i pos1 []) -> folded r side) ->
  exists grid o o', gr_grid Rops dr L sd = Ok grid /\
    gr_fast_linked Rops pi ndims same grid skip pos0 pos1 sides V rmax = Ok o /\
    gr_fast Rops pi ndims same grid skip pos0 pos1 sides V rmax = Ok o' /\
    Forall2 (agree dr rmax) o o'.
Proof.
  intros pi V ndims same dr rmax L side skip pos0 pos1 sides sd Hdr HL Hrm Hd Hp Hb Hmax Hsd Hin Hne Hf.
  destruct (gr_grid_uniform dr L sd Hdr HL) as [n [Hn [E B]]].
  destruct Hin as [Hskip Hlen1 Hlen2 Hsame Hpos Hfit].
  assert (0 <= L) as HL0.
  { destruct side as [|l side']; [destruct Hd as [C|C]; discriminate|].
    assert (0 < l) by (apply Hp; left; reflexivity). assert (l <= L) by (apply Hmax; left; reflexivity). lra. }
  assert (forall x y, folded x side -> folded y side -> fdist Rops x y side < dr * INR n) as Hfar.
  { intros x y Hx Hy. pose proof (fdist_bound L side x y HL0 Hp Hmax Hx Hy) as H. fold sd in H.
    rewrite minus_INR in B by lia. cbn [INR] in B. lra. }
  assert (length (ugrid dr n) = n) as Lg by (unfold ugrid; rewrite map_length, seq_length; reflexivity).
  assert (nsub Rops (nth 1 (ugrid dr n) 0) (nth 0 (ugrid dr n) 0) = dr) as Edr.
  { unfold ugrid. rewrite !nth_map_seq by lia. cbn [nsub Rops INR]. change (num Rops) with R. field. }
  set (os := filter (fun i => (0 <=? i) && ((i - 0) mod skip =? 0))%nat (seq 0 (length pos0))).
  assert (forall i, In i os -> (i < length pos0)%nat) as Hos.
  { intros i Hi. apply filter_In in Hi. destruct Hi as [Hi _]. apply in_seq in Hi. lia. }
  assert (os <> []) as Hose.
  { intros E'. assert (In 0%nat os) as C; [|rewrite E' in C; destruct C].
    apply filter_In. split; [apply in_seq; destruct pos0; [congruence|cbn; lia]|]. cbn [Nat.leb Nat.sub andb].
    rewrite Nat.mod_0_l by lia. reflexivity. }
  assert (forall i, (i < length pos0)%nat -> nth i sides [] = side) as Hside.
  { intros i Hi. apply Hsd, nth_In. lia. }
  (* the frames *)
  assert (exists s, forall i, (i < length pos0)%nat -> lc_setup Rops rmax None (mkCall (A:=Rops) side (nth i pos0 [])
      (if same then None else Some (nth i pos1 [])) true (Some (repeat true (length side)))) = Ok s) as [s Hs].
  { destruct (adjust_R rmax side same (Some (repeat true (length side))) Hd) as [O [_ EO]].
    exists (rsetup rmax side (flags side (Some (repeat true (length side)))) O).
    intros i Hi. unfold lc_setup, call_newton. cbn [k_box k_other k_newton k_periodic]. destruct same; exact EO. }
  assert (exists (h h' : nat -> list nat), forall i, (i < length pos0)%nat ->
     (forall st, st = None \/ st = Some s -> linked_frame Rops same rmax dr n st (nth i pos0 []) (nth i pos1 []) side = Ok (s, h i)) /\
     (if same then gr_self_c Rops (nth i pos0 []) side dr n else gr_distinct_c Rops (nth i pos0 []) (nth i pos1 []) side dr n) = Ok (h' i) /\
     forall k, (k < n)%nat -> INR (k + 1) * dr <= rmax -> nth k (h i) 0%nat = nth k (h' i) 0%nat) as [h [h' Hh]].
  { exists (fun i => match linked_frame Rops same rmax dr n None (nth i pos0 []) (nth i pos1 []) side with Ok (_, h) => h | Err _ => [] end),
      (fun i => match (if same then gr_self_c Rops (nth i pos0 []) side dr n else gr_distinct_c Rops (nth i pos0 []) (nth i pos1 []) side dr n) with Ok h => h | Err _ => [] end).
    intros i Hi. destruct (Hfit i Hi) as [[M0 _] [M1 _]].
    destruct (linked_frame_spec same rmax dr n side (nth i pos0 []) (nth i pos1 []) Hdr Hrm Hd Hp Hb M0) as [s' [hh [hh' [E1 [E2 [E3 [_ [_ E4]]]]]]]].
    { intros Es. rewrite (Hsame Es). reflexivity. } { intros x Hx. apply (Hf i); assumption. } { exact Hfar. }
    rewrite (Hs i Hi) in E1. apply Ok_inj in E1. subst s'.
    rewrite (E2 None) by (left; reflexivity). rewrite E3. split; [exact E2|]. split; [reflexivity|exact E4]. }
  assert (forall i, (i < length pos0)%nat -> ((length (nth i pos0 []) =? 0)%nat || (length (nth i pos1 []) =? 0)%nat)%bool = false) as Hlen.
  { intros i Hi. destruct (Hfit i Hi) as [[M0 _] [M1 _]].
    destruct (nth i pos0 []); [congruence|]. destruct (nth i pos1 []); [congruence|]. reflexivity. }
  set (N := fun i => (length (nth i pos0 []), length (nth i pos1 []))).
  destruct (finish_agree pi ndims same dr n os h h' N V rmax rmax Hdr Hn Hose) as [o [o' [F1 [F2 F3]]]].
  { intros i k Hi Hk Hkr. apply (Hh i); auto. }
  exists (ugrid dr n), o, o'. split; [exact E|].
  assert (py_range 0 (length pos0) skip = Ok os) as Eos by (apply py_range_spec; exact Hskip).
  split; [|split; [|exact F3]].
  - unfold gr_fast_linked. change (num Rops) with R in *.
    rewrite (get_Ok _ (ugrid dr n) 0 0), (get_Ok _ (ugrid dr n) 1 0) by lia. cbn [bind]. rewrite Edr, Lg.
    rewrite Eos. cbn [bind].
    match goal with |- context [foldM ?stp _ _] => destruct (foldM_state _ _ _ stp (fun i => (h i, N i)) s os) with (st := @None (setup Rops)) (l := @nil (list nat * (nat * nat))) as [st' Est] end.
    + intros st l i Hi Hst. specialize (Hos i Hi). change (num Rops) with R in *.
      rewrite (get_Ok _ pos0 i []) by exact Hos. cbn [bind].
      rewrite (get_Ok _ pos1 i []) by lia. cbn [bind].
      rewrite (get_Ok _ sides i []) by lia. cbn [bind]. rewrite Hlen, Hside by exact Hos.
      destruct (Hh i Hos) as [El _]. cbn [fst snd].
      match goal with |- context [linked_frame ?a ?b ?c ?d ?e ?f ?g ?u ?v] => replace (linked_frame a b c d e f g u v) with (Ok (s, h i)) by (symmetry; exact (El st Hst)) end.
      reflexivity.
    + left. reflexivity.
    + match goal with |- context [bind ?x _] => replace x with (Ok (st', map (fun i => (h i, N i)) os)) by (symmetry; exact Est) end.
      cbn [bind snd]. exact F1.
  - unfold gr_fast. change (num Rops) with R in *.
    rewrite (get_Ok _ (ugrid dr n) 0 0), (get_Ok _ (ugrid dr n) 1 0) by lia. cbn [bind]. rewrite Edr, Lg.
    rewrite Eos. cbn [bind].
    rewrite (foldM_acc_map _ _ _ (fun i => (h' i, N i))).
    2:{ intros a i Hi. specialize (Hos i Hi). change (num Rops) with R in *.
      rewrite (get_Ok _ pos0 i []) by exact Hos. cbn [bind].
      rewrite (get_Ok _ pos1 i []) by lia. cbn [bind].
      rewrite (get_Ok _ sides i []) by lia. cbn [bind]. rewrite Hlen, Hside by exact Hos.
      destruct (Hh i Hos) as [_ [E' _]].
      match goal with |- context [if same then ?u else ?v] => replace (if same then u else v) with (Ok (h' i)) by (symmetry; exact E') end.
      reflexivity. }
    cbn [bind app]. exact F2.
Qed.
