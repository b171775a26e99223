(** Theorems on the selection of wave-vectors in double precision: C138. *)
From Coq Require Import List ZArith Bool Arith Reals Lra Lia Psatz Floats.SpecFloat.
From Verif Require Import PyBase PyBaseFacts Num NumFacts P_Text F64Round F64Ops F64Facts P_F64Mean P_F64Time P_F64Dot P_F64Dist P_F64Order P_Fit64 P_Collective64 M_Helpers M_KGrid Spec_Stats Spec_BondAngle Spec_Doubles
  P_BondAngle Spec_KGrid Spec_KGrid64 P_KGrid P_KGrid2 P_KGrid3 P_KGrid64 P_KGrid64b.
Import ListNotations.
Local Open Scope R_scope.

Lemma repeated_nth : forall X Y (y : Y) (l : list X) i d, nth_error (map (fun _ => y) l) i = Some d -> d = y.
Proof. intros X Y y l. induction l as [|x l IH]; intros [|i] d H; cbn in H; try discriminate; [congruence|]. eapply IH. exact H. Qed.
Lemma last_nth_error : forall X (l : list X) x d, nth_error l (length l - 1) = Some x -> last l d = x.
Proof.
  intros X l x d H. assert (N : l <> []) by (intros ->; discriminate). destruct (exists_last N) as [l' [a ->]]. rewrite last_last. rewrite app_length in H. cbn [length] in H. rewrite nth_error_app2 in H by lia.
  replace (length l' + 1 - 1 - length l')%nat with 0%nat in H by lia. cbn in H. congruence.
Qed.

(** ** C138 *)
(** Whatever widening took place in at most 1000 nested calls (the default limit of the interpreter): the widths
    are dk times powers of 1.2; no shell is empty or has repetitions, no vector is in two shells, the indices fit
    the table; the vectors of shell i are possibly within the width of k_i and surely within no earlier shell; a
    lattice vector that is surely within the width of k_i, and surely below the last edge, is in shell i or in an earlier one. *)
Theorem C138_shells : forall fuel dk (kgrid k0 : list f64) kvec off, cell_waves k0 ->
  (forall k, In k kgrid -> ok k /\ 0 <= fval k <= p2 60) -> ok dk -> p2 (-60) <= fval dk <= p2 20 -> (fuel <= 1000)%nat ->
  setup_grid_sphere F64ops fuel (map (fun _ => dk) kgrid) kgrid k0 = Ok (kvec, off) -> (off <= 2 ^ 50)%Z ->
  let vec t := wave (map fval k0) (unshift off t) in
  exists dks : list f64, length dks = length kgrid /\ (forall d, In d dks -> ok d /\ exists w : nat, (w <= 1000)%nat /\ width_of (fval dk) (fval d) w) /\
    length kvec = length kgrid /\
    (forall i shell, nth_error kvec i = Some shell -> shell <> [] /\ NoDup shell) /\
    (forall i j si sj t, nth_error kvec i = Some si -> nth_error kvec j = Some sj -> In t si -> In t sj -> i = j) /\
    (forall i shell t, nth_error kvec i = Some shell -> In t shell ->
       length t = length k0 /\ (forall z, In z t -> (0 <= z <= 2 * off)%Z) /\
       norm (vec t) <= (fval (last kgrid S754_nan) + fval (last dks S754_nan)) * (1 + 16 * p2 (-53)) /\
       (exists k d, nth_error kgrid i = Some k /\ nth_error dks i = Some d /\ possibly_within (vec t) (fval k) (fval d)) /\
       forall j k d, (j < i)%nat -> nth_error kgrid j = Some k -> nth_error dks j = Some d -> ~ surely_within (vec t) (fval k) (fval d)) /\
    (forall n i k d, length n = length k0 -> nth_error kgrid i = Some k -> nth_error dks i = Some d -> surely_within (wave (map fval k0) n) (fval k) (fval d) ->
       norm (wave (map fval k0) n) <= (fval (last kgrid S754_nan) + fval (last dks S754_nan)) * (1 - 16 * p2 (-53)) ->
       exists j shell, (j <= i)%nat /\ nth_error kvec j = Some shell /\ In (map (fun z => (z + off)%Z) n) shell).
Proof.
  intros fuel dk kgrid k0 kvec off Hk Hg Kd Bd Hf H Ho vec. apply (setup_grid_gen F64ops) in H; [|apply map_length]. destruct H as [dks [[L W] [P N]]]. rewrite map_length in L. change (num F64ops) with f64 in *.
  assert (Wd : forall d, In d dks -> exists w, (w <= 1000)%nat /\ d = grown F64ops w dk).
  { intros d Hd. apply In_nth_error in Hd. destruct Hd as [i Hi]. destruct (W i d Hi) as [w [d0 [Hw [E ->]]]]. apply repeated_nth in E. subst d0. exists w. split; [lia|reflexivity]. }
  assert (Hd : forall d, In d dks -> ok d /\ p2 (-60) <= fval d <= p2 1020).
  { intros d Hd. destruct (Wd d Hd) as [w [Hw ->]]. destruct (grown_spec w dk Hw Kd Bd) as [K [B _]]. split; [exact K|]. split; [lra|]. apply Rle_trans with (1 := proj2 B). apply p2_le. lia. }
  destruct (pass64 dks kgrid k0 kvec off Hk Hg Hd P Ho) as [kl [dl [E1 [E2 [Lk [Po [ND [Sd [Dj Cp]]]]]]]]].
  exists dks. split; [exact L|]. split; [intros d Id; split; [apply Hd; exact Id|]; destruct (Wd d Id) as [w [Hw ->]]; exists w; split; [exact Hw|apply (grown_spec w dk Hw Kd Bd)]|]. split; [exact Lk|].
  assert (NTH : forall i shell, nth_error kvec i = Some shell -> nth i kvec [] = shell /\ (i < length kgrid)%nat) by (intros i shell Hi; split; [apply nth_error_nth; exact Hi|rewrite <- Lk; apply nth_error_Some; congruence]).
  assert (LK : last kgrid S754_nan = kl) by (apply last_nth_error; exact E1). assert (LD : last dks S754_nan = dl) by (apply last_nth_error; exact E2). rewrite LK, LD.
  split; [intros i shell Hi; destruct (NTH i shell Hi) as [<- Hb]; split; [apply N; exact Hb|apply ND]|].
  split; [intros i j si sj t Hi Hj; destruct (NTH i si Hi) as [<- _]; destruct (NTH j sj Hj) as [<- _]; apply Dj|]. split.
  - intros i shell t Hi Ht. destruct (NTH i shell Hi) as [<- _]. destruct (Sd i t Ht) as [[Lt F] [Nt St]]. split; [rewrite unshift_length in Lt; exact Lt|]. split; [|split; [exact Nt|exact St]].
    intros z Hz. rewrite Forall_forall in F. pose proof (F (z - off)%Z (in_map (fun i => (i - off)%Z) t z Hz)) as B. cbn in B. lia.
  - intros n i k d Ln Hki Hdi Hw Hn. destruct (Cp n i k d Ln Hki Hdi Hw Hn) as [j [Hj Ij]]. exists j, (nth j kvec []). split; [exact Hj|]. split; [|exact Ij]. apply nth_error_nth'. rewrite Lk. apply Nat.le_lt_trans with (1 := Hj). apply nth_error_Some. congruence.
Qed.
Print Assumptions C138_shells.

(** The wave-numbers of the grid are the mean norms of the vectors of the shells, whatever the order in which
    numpy adds them up. *)
Theorem C138_wave_numbers : forall (k0 : list f64) off shell s B, cell_waves k0 -> shell <> [] -> (Z.of_nat (length shell) <= 2 ^ 49)%Z -> (off <= 2 ^ 50)%Z ->
  (forall t, In t shell -> length t = length k0 /\ (forall z, In z t -> (0 <= z <= 2 * off)%Z) /\ norm (wave (map fval k0) (unshift off t)) <= B) ->
  sum_of (map (fun t => k_norm F64ops t k0 off) shell) s ->
  let k := SFdiv fprec femax s (f64_ofZ (Z.of_nat (length shell))) in
  ok k /\ Rabs (fval k - rmean (map (fun t => norm (wave (map fval k0) (unshift off t))) shell)) <= (2 * INR (length shell) + 14) * p2 (-53) * B + p2 (-1074).
Proof.
  intros k0 off shell s B Hk Ns HL Ho Ht Hs k. pose proof u_small as U. fold u.
  assert (B0 : 0 <= B) by (destruct shell as [|t r]; [congruence|]; destruct (Ht t (or_introl eq_refl)) as [_ [_ W]]; pose proof (norm_nonneg (wave (map fval k0) (unshift off t))); lra).
  assert (uB : 0 <= u * B <= / 1000000 * B) by (split; [apply Rmult_le_pos; lra|apply Rmult_le_compat_r; lra]).
  assert (B' : exists C, C <= B /\ C <= p2 113 /\ 0 <= C /\ forall t, In t shell -> norm (wave (map fval k0) (unshift off t)) <= C).
  { exists (Rmin B (p2 113)). split; [apply Rmin_l|]. split; [apply Rmin_r|]. split; [apply Rmin_glb; [exact B0|left; apply p2_pos]|]. intros t It. destruct (Ht t It) as [Lt [Zt Nt]]. apply Rmin_glb; [exact Nt|].
    apply (close_norm k0 (unshift off t) Hk); [rewrite unshift_length; exact Lt|]. apply Forall_forall. intros z Hz. apply in_map_iff in Hz. destruct Hz as [z' [<- Hz]]. specialize (Zt z' Hz). lia. }
  destruct B' as [C [CB [C113 [C0 HC]]]]. assert (uC : 0 <= u * C <= / 1000000 * C) by (split; [apply Rmult_le_pos; lra|apply Rmult_le_compat_r; lra]).
  assert (V : forall t, In t shell -> ok (k_norm F64ops t k0 off) /\ Rabs (fval (k_norm F64ops t k0 off) - norm (wave (map fval k0) (unshift off t))) <= 10 * (u * C) /\ Rabs (fval (k_norm F64ops t k0 off)) <= C + 10 * (u * C)).
  { intros t It. destruct (Ht t It) as [Lt [Zt _]]. pose proof (HC t It) as Nt. destruct (close_norm k0 (unshift off t) Hk) as [Kn [Bn [En _]]]; [rewrite unshift_length; exact Lt|apply Forall_forall; intros z Hz; apply in_map_iff in Hz; destruct Hz as [z' [<- Hz]]; specialize (Zt z' Hz); lia|].
    change (nsqrt F64ops (self_dot F64ops (kscale F64ops k0 (unshift off t)))) with (k_norm F64ops t k0 off) in *. set (N := norm (wave (map fval k0) (unshift off t))) in *. assert (0 <= N) by apply norm_nonneg. assert (u * N <= u * C) by (apply Rmult_le_compat_l; lra).
    split; [exact Kn|]. split; [lra|]. apply Rabs_le_inv in En. rewrite Rabs_right by lra. lra. }
  assert (P : p2 114 = 2 * p2 113) by (change 114%Z with (113 + 1)%Z; apply p2_succ).
  destruct (mean_near _ shell (fun t => k_norm F64ops t k0 off) (fun t => norm (wave (map fval k0) (unshift off t))) s (10 * (u * C)) 114 (C + 10 * (u * C)) Hs Ns HL ltac:(lia) ltac:(lra) V) as [Ks [Bs [Bq Eq]]].
  destruct (ofZ_exact (Z.of_nat (length shell)) ltac:(lia)) as [Kn En]. rewrite <- INR_IZR_INZ in En. set (n := INR (length shell)) in *.
  assert (n1 : 1 <= n) by (unfold n; change 1 with (INR 1); apply le_INR; destruct shell; [congruence|cbn; lia]).
  assert (n49 : n <= p2 49) by (unfold n; rewrite INR_IZR_INZ, (p2_Z 49) by lia; apply IZR_le; exact HL).
  destruct (div_bound 165 0 s (f64_ofZ (Z.of_nat (length shell))) Ks Kn) as [Kd [_ [Ed _]]]; [|rewrite En; change (p2 0) with 1; rewrite Rabs_right; lra|lia|].
  { apply Rle_trans with (1 := Bs). apply Rle_trans with (p2 1 * (p2 49 * p2 114)); [|rewrite <- !p2_add; apply p2_le; lia]. replace (p2 1) with 2 by (rewrite (p2_Z 1) by lia; reflexivity). apply Rmult_le_compat_l; [lra|]. apply Rmult_le_compat; lra. }
  rewrite En in Ed. split; [exact Kd|]. fold k in Ed. set (x := fval k) in *. set (y := fval s / n) in *. set (M := rmean _) in *.
  assert (T : tiny <= p2 (-1074)) by (unfold tiny; apply p2_le; lia).
  assert (U1 : u * Rabs y <= u * (2 * (C + 10 * (u * C)))) by (apply Rmult_le_compat_l; lra). assert (uuC : u * (u * C) <= / 1000000 * (u * C)) by (apply Rmult_le_compat_r; lra).
  assert (nuC : 0 <= n * (u * C)) by (apply Rmult_le_pos; lra). assert (nun : n * u <= / 16).
  { apply Rle_trans with (p2 49 * u); [apply Rmult_le_compat_r; lra|]. unfold u. rewrite <- p2_add. right. change (49 + -53)%Z with (-4)%Z. change (p2 (-4)) with (/ (2 * (2 * (2 * (2 * 1))))). lra. }
  assert (nuuC : n * u * (u * C) <= / 16 * (u * C)) by (apply Rmult_le_compat_r; lra).
  assert (F : (2 * n + 14) * (u * C) <= (2 * n + 14) * u * B) by (rewrite Rmult_assoc; apply Rmult_le_compat_l; [lra|]; apply Rmult_le_compat_l; lra).
  replace (2 * n * u * (C + 10 * (u * C))) with (2 * (n * (u * C)) + 20 * (n * u * (u * C))) in Eq by ring.
  apply Rabs_le_inv in Eq. apply Rabs_le_inv in Ed. apply Rabs_le. lra.
Qed.
Print Assumptions C138_wave_numbers.

(** The smallest wave-vectors of the cell, with a double within 2^-52 of 2 pi. *)
Theorem C138_cell : forall tp (side : list f64), ok tp -> Rabs (fval tp - 2 * PI) <= p2 (-52) * (2 * PI) -> (forall L, In L side -> ok L /\ p2 (-50) <= fval L <= p2 50) -> (length side = 2 \/ length side = 3)%nat ->
  cell_waves (cell_k0 F64ops tp side) /\
  Forall2 (fun k L => Rabs (fval k - 2 * PI / fval L) <= 4 * p2 (-53) * (2 * PI / fval L)) (cell_k0 F64ops tp side) side.
Proof.
  intros tp side Kt Et Hs Hl. pose proof u_small as U. pose proof (p2_pos (-50)) as P50. pose proof PI_4 as Pi4. pose proof PI2_3_2 as Pi3.
  assert (E52 : p2 (-52) = 2 * u) by (change (-52)%Z with (-53 + 1)%Z; apply p2_succ). rewrite E52 in Et. fold u.
  assert (one : forall L, In L side -> ok (fdiv tp L) /\ p2 (-60) <= fval (fdiv tp L) <= p2 60 /\ Rabs (fval (fdiv tp L) - 2 * PI / fval L) <= 4 * u * (2 * PI / fval L)).
  { intros L HL. destruct (Hs L HL) as [KL BL]. set (T := 2 * PI) in *. assert (T6 : 6 <= T <= 8) by (unfold T; lra). assert (uT : 0 <= u * T <= / 1000000 * T) by (split; [apply Rmult_le_pos; lra|apply Rmult_le_compat_r; lra]).
    apply Rabs_le_inv in Et. assert (P4 : p2 4 = 16) by (rewrite (p2_Z 4) by lia; reflexivity).
    destruct (div_bound 4 (-50) tp L Kt KL) as [K [_ [E _]]]; [rewrite Rabs_right; lra|rewrite Rabs_right; lra|lia|]. set (v := T / fval L).
    assert (v0 : 0 < v) by (apply Rdiv_lt_0_compat; lra). assert (i0 : 0 < / fval L) by (apply Rinv_0_lt_compat; lra).
    assert (Dv : Rabs (fval tp / fval L - v) <= 2 * (u * v)).
    { unfold v, Rdiv. rewrite <- Rmult_minus_distr_r, Rabs_mult, (Rabs_right (/ fval L)) by lra. replace (2 * (u * (T * / fval L))) with (2 * (u * T) * / fval L) by ring. apply Rmult_le_compat_r; [lra|]. apply Rabs_le. lra. }
    assert (uv : 0 <= u * v <= / 1000000 * v) by (split; [apply Rmult_le_pos; lra|apply Rmult_le_compat_r; lra]). apply Rabs_le_inv in Dv.
    assert (vB : p2 (-50) <= v <= p2 53).
    { unfold v. split.
      - apply Rmult_le_reg_r with (fval L); [lra|]. unfold Rdiv. rewrite Rmult_assoc, Rinv_l, Rmult_1_r by lra. apply Rle_trans with (p2 (-50) * p2 50); [apply Rmult_le_compat_l; lra|]. rewrite <- p2_add. change (p2 (-50 + 50)) with 1. lra.
      - apply Rmult_le_reg_r with (fval L); [lra|]. unfold Rdiv. rewrite Rmult_assoc, Rinv_l, Rmult_1_r by lra. apply Rle_trans with (p2 53 * p2 (-50)); [rewrite <- p2_add; change (p2 (53 + -50)) with (p2 3); rewrite (p2_Z 3) by lia; change (IZR (2 ^ 3)) with 8; lra|apply Rmult_le_compat_l; [left; apply p2_pos|lra]]. }
    assert (tiny <= / 1000 * (u * v)).
    { apply Rle_trans with (/ 1000 * (u * p2 (-50))); [|apply Rmult_le_compat_l; [lra|]; apply Rmult_le_compat_l; lra]. unfold tiny, u. rewrite <- p2_add. assert (p2 (-1075) * 1024 <= p2 (-53 + -50)) by (replace 1024 with (p2 10) by (rewrite (p2_Z 10) by lia; reflexivity); rewrite <- p2_add; apply p2_le; lia). pose proof (p2_pos (-1075)). lra. }
    rewrite (Rabs_right (fval tp / fval L)) in E by lra. assert (u * (fval tp / fval L) <= 2 * (u * v)) by (apply Rle_trans with (u * (2 * v)); [apply Rmult_le_compat_l; lra|lra]).
    assert (D : Rabs (fval (fdiv tp L) - v) <= 4 * u * v).
    { assert (W : u * (fval tp / fval L) <= u * v + 2 * (u * (u * v))) by (apply Rle_trans with (u * (v + 2 * (u * v))); [apply Rmult_le_compat_l; lra|lra]). assert (u * (u * v) <= / 1000000 * (u * v)) by (apply Rmult_le_compat_r; lra). apply Rabs_le_inv in E. apply Rabs_le. lra. }
    split; [exact K|]. split; [|exact D]. apply Rabs_le_inv in D. assert (p2 (-50) = 1024 * p2 (-60)) by (replace 1024 with (p2 10) by (rewrite (p2_Z 10) by lia; reflexivity); rewrite <- p2_add; reflexivity). assert (p2 60 = 128 * p2 53) by (replace 128 with (p2 7) by (rewrite (p2_Z 7) by lia; reflexivity); rewrite <- p2_add; reflexivity). pose proof (p2_pos (-60)). lra. }
  split.
  - split; [unfold cell_k0; rewrite map_length; exact Hl|]. intros k Hk. apply in_map_iff in Hk. destruct Hk as [L [<- HL]]. destruct (one L HL) as [K [B _]]. split; [exact K|exact B].
  - clear Hl. unfold cell_k0. induction side as [|L side IH]; [constructor|]. cbn [map]. constructor; [apply (one L); left; reflexivity|]. apply IH; intros; [apply Hs|apply one]; right; assumption.
Qed.
Print Assumptions C138_cell.

(** A square cell of side 2 pi, one wave-number, width 1/2: the shell has eight vectors (four of norm 1, four of norm sqrt 2). *)
Example C138_nonvacuous : let one := f64_ofZ 1 in let half := f64_frac 1 2 in
  cell_waves [one; one] /\ (forall k, In k [one] -> ok k /\ 0 <= fval k <= p2 60) /\ ok half /\ p2 (-60) <= fval half <= p2 20 /\
  exists shell, setup_grid_sphere F64ops 1 (map (fun _ => half) [one]) [one] [one; one] = Ok ([shell], 2%Z) /\ (length shell = 8)%nat.
Proof.
  intros one half. destruct (ofZ_exact 1 ltac:(cbn; lia)) as [K1 E1]. fold one in K1, E1.
  assert (B : p2 (-60) <= 1 <= p2 60) by (split; [change 1 with (p2 0); apply p2_le; lia|change 1 with (p2 0); apply p2_le; lia]).
  split; [split; [left; reflexivity|]; intros k [<-|[<-|[]]]; (split; [exact K1|rewrite E1; exact B])|].
  split; [intros k [<-|[]]; split; [exact K1|rewrite E1; lra]|].
  assert (Eh : half = S754_finite false 4503599627370496 (-53)) by (vm_compute; reflexivity).
  split; [split; vm_compute; reflexivity|].
  assert (Fh : fval half = p2 (-1)).
  { rewrite Eh. unfold fval, sgn. fold (p2 (-53)). replace (IZR 4503599627370496) with (p2 52) by (rewrite (p2_Z 52) by lia; reflexivity). rewrite Rmult_1_l, <- p2_add. reflexivity. }
  split; [rewrite Fh; split; apply p2_le; lia|].
  eexists. split; [vm_compute; reflexivity|reflexivity].
Qed.
