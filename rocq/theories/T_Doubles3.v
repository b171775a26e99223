(** chi4 in double precision: C101. *)
From Coq Require Import Ascii String List ZArith Bool Arith Reals Lia Lra Sorting.Sorted Floats.SpecFloat.
From Verif Require Import PyBase PyBaseFacts Num Spec_Stats NumFacts P_Text F64Round F64Ops F64Facts M_Helpers M_Correlation M_Dynamics
  Spec_Correlation Spec_Time P_Time P_Skip Spec_Dynamics P_Dynamics P_Chi4 Spec_Doubles P_F64Time P_F64Mean P_F64Overlap P_F64Msd P_F64Chi4 T_Dynamics T_Doubles T_Doubles2.
Import ListNotations.
Local Open Scope R_scope.

(** ** C101 *)
(** Up to 2^49 = frames * N^2: the k-th value is nonnegative, within N 2^-49 of the
    exact variance per particle of the numbers of slow particles, and exactly 0 if
    these numbers are all the same. *)
Theorem C101_chi4_accuracy :
  forall (tr : traj F64ops) grid n a (unf : list (frame F64ops)) N r,
  unf <> [] -> length (t_steps tr) = length unf -> (forall x, In x unf -> length x = N) -> (1 <= N)%nat ->
  (Z.of_nat (length unf) * (Z.of_nat N * Z.of_nat N) <= 2 ^ 49)%Z ->
  chi4_compute F64ops tr grid n a unf = Ok r ->
  exists skip dg,
    adjust_skip F64ops (length (t_steps tr)) (t_npart tr) (t_bs tr) n = Ok skip /\
    setup_t_grid F64ops (t_steps tr) (t_bs tr) (t_dt tr) grid (not_str_1 F64ops n) = Ok dg /\
    Forall2 (fun p tv =>
      fst tv = nmul F64ops (nofZ F64ops (lag_dt (t_steps tr) p)) (t_dt tr) /\
      let zs := close_counts (SFmul fprec femax a a) unf (snd p) (origins (fst p) skip (length unf - snd p - skip)) in
      ok (snd tv) /\ 0 <= fval (snd tv) /\
      Rabs (fval (snd tv) - variance (map IZR zs) / INR N) <= INR N * p2 (-49) /\
      (forall c, (forall z, In z zs -> z = c) -> fval (snd tv) = 0)) dg r.
Proof.
  intros tr grid n a unf N r Hne Hl HN N1 HB H. unfold chi4_compute in H.
  apply bind_Ok_inv in H. destruct H as [skip [E1 H]]. apply bind_Ok_inv in H. destruct H as [dg [E2 H]]. exists skip, dg. split; [exact E1|]. split; [exact E2|].
  destruct (setup_t_grid_correct _ _ _ _ _ _ _ E2) as [reqs [_ [_ [Hu _]]]].
  assert (1 <= length (t_steps tr))%nat as Hn by (rewrite Hl; destruct unf; [congruence|cbn; lia]).
  pose proof (adjust_skip_range _ _ _ _ _ _ Hn E1) as Hs.
  apply mapM_Ok_inv in H. clear - H Hu Hs Hl HN N1 HB. induction H as [|p tv dg r E F IH]; constructor.
  - destruct (Hu p (or_introl eq_refl)) as [U _]. apply usable_range in U.
    destruct (chi4_point_doubles (nsq F64ops a) tr skip unf N p) as [q [Eq Gq]]; try assumption; [lia|lia|].
    assert (Et : tv = (nmul F64ops (nofZ F64ops (lag_dt (t_steps tr) p)) (t_dt tr), q)) by (apply Ok_inj; rewrite <- E; exact Eq).
    rewrite Et. cbn [fst snd]. split; [reflexivity|exact Gq].
  - apply IH. intros p' Hp'. apply Hu. right. exact Hp'.
Qed.
Print Assumptions C101_chi4_accuracy.

(** At time zero chi4 is exactly 0. *)
Theorem C101_chi4_zero :
  forall (tr : traj F64ops) grid n a (unf : list (frame F64ops)) N r t v,
  unf <> [] -> length (t_steps tr) = length unf -> (forall x, In x unf -> length x = N) -> (1 <= N)%nat ->
  (Z.of_nat (length unf) * (Z.of_nat N * Z.of_nat N) <= 2 ^ 49)%Z ->
  StronglySorted Z.lt (t_steps tr) -> moderate_steps (t_steps tr) (t_dt tr) -> finite_frames unf ->
  ok a -> p2 (-500) <= Rabs (fval a) <= p2 500 ->
  chi4_compute F64ops tr grid n a unf = Ok r -> In (t, v) r -> fval t = 0 -> fval v = 0.
Proof.
  intros tr grid n a unf N r t v Hne Hl HN N1 HB So Mod Fin Ka Ba H Hin Ht.
  destruct (C101_chi4_accuracy tr grid n a unf N r Hne Hl HN N1 HB H) as [skip [dg [_ [E2 F]]]].
  destruct (Forall2_In_r _ _ _ _ _ _ F Hin) as [p [Hp [Et [_ [_ [_ G]]]]]]. cbn [fst snd] in Et, G.
  destruct (setup_t_grid_correct _ _ _ _ _ _ _ E2) as [reqs [_ [_ [Hu _]]]]. destruct (Hu p Hp) as [U _]. apply usable_range in U.
  assert (Zd : lag_dt (t_steps tr) p = 0%Z).
  { destruct Mod as [Kd [Nd Md]]. destruct (Md (fst p + snd p)%nat (fst p)) as [M1 M2]; [lia|lia|]. fold (lag_dt (t_steps tr) p) in M1, M2.
    destruct (time_near (t_dt tr) (lag_dt (t_steps tr) p) Kd M1 M2) as [_ E]. cbv zeta in E. set (dd := lag_dt (t_steps tr) p) in *.
    assert (Zt : fval (nmul F64ops (nofZ F64ops dd) (t_dt tr)) = 0) by (rewrite <- Et; exact Ht). rewrite Zt, Rminus_0_l, Rabs_Ropp in E.
    pose proof u_small. pose proof (Rabs_pos (IZR dd * fval (t_dt tr))) as Pp. assert (Z0 : Rabs (IZR dd * fval (t_dt tr)) = 0) by nra.
    destruct (Req_dec (IZR dd * fval (t_dt tr)) 0) as [Z1|Z1]; [|apply Rabs_pos_lt in Z1; lra]. apply Rmult_integral in Z1. destruct Z1 as [Z1|Z1]; [apply eq_IZR in Z1; exact Z1|contradiction]. }
  assert (Z2 : snd p = 0%nat).
  { pose proof (pair_dt_zero (t_steps tr) ((fst p + snd p)%nat, fst p) So) as X. cbn [fst snd] in X. unfold pair_dt in X. cbn [fst snd] in X. unfold lag_dt in Zd. apply X in Zd; lia. }
  apply (G (Z.of_nat N)). rewrite Z2. intros z Hz. rewrite close_counts_spec in Hz. apply in_map_iff in Hz. destruct Hz as [i [<- Hi]]. rewrite Nat.add_0_r.
  assert (Hi2 : (i < length unf)%nat) by (unfold origins in Hi; apply filter_In in Hi; destruct Hi as [Hi _]; apply in_seq in Hi; lia).
  assert (Hx : In (nth i unf []) unf) by (apply nth_In; exact Hi2). destruct (square_pos a Ka Ba) as [K2 P2].
  change (SFmul fprec femax a a) with (nsq F64ops a).
  rewrite count_self; [rewrite (HN _ Hx); reflexivity|exact K2|exact P2|]. intros rr c Hr Hc. exact (Fin _ rr c Hx Hr Hc).
Qed.
Print Assumptions C101_chi4_zero.

(** Five frames of three particles; over one frame, 2, 3 and 3 particles are slow:
    the variance per particle is 2/27, the result is three units in the last place away. *)
Definition fifth_tr : traj F64ops := mkTraj (A:=F64ops) [0; 1; 2; 3; 4]%Z 1 (f64_frac 1 10) (f64_frac 4 10) 3.
Definition fifth_frames : list (frame F64ops) :=
  map (map (map (fun z => f64_frac z 10))) [[[0]; [0]; [1]]; [[9]; [1]; [1]]; [[8]; [2]; [0]]; [[7]; [3]; [0]]; [[7]; [3]; [9]]]%Z.
Example C101_nonvacuous :
  (forall x, In x fifth_frames -> length x = 3%nat) /\ finite_frames fifth_frames /\
  close_counts (SFmul fprec femax (f64_frac 1 2) (f64_frac 1 2)) fifth_frames 1 (origins 0 1 3) = [2; 3; 3]%Z /\
  chi4_compute F64ops fifth_tr (map (fun z => f64_frac z 10) [0; 1]%Z) (NoInt (-1)) (f64_frac 1 2) fifth_frames
  = Ok [(f64_ofZ 0, f64_ofZ 0); (f64_frac 1 10, S754_finite false 5337599558365035 (-56))] /\ f64_frac 2 27 = S754_finite false 5337599558365032 (-56).
Proof.
  split; [intros x [<-|[<-|[<-|[<-|[<-|[]]]]]]; reflexivity|]. split; [apply finite_check; vm_compute; reflexivity|]. split; [vm_compute; reflexivity|].
  split; [vm_compute; reflexivity|vm_compute; reflexivity].
Qed.
