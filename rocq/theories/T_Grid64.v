(** Grids of evenly spaced points in double precision (C132). *)
From Coq Require Import List ZArith Bool Arith Reals Lia Lra Psatz Floats.SpecFloat.
From Verif Require Import PyBase PyBaseFacts Num NumFacts P_Text F64Round F64Ops F64Facts P_F64Mean P_F64Time P_F64Dot M_Helpers Spec_Grid64 P_Grid64.
Import ListNotations.
Local Open Scope R_scope.

(** With a number of points: as many points, the first one exactly, all of them close to the
    evenly spaced ones (the last one therefore to b), never decreasing. *)
Theorem C132_count : forall (a b : f64) n, grid_end a -> grid_end b -> (2 <= n <= 2 ^ 53)%Z ->
  exists g, linear_grid F64ops a b (DInt n) = Ok g /\ length g = Z.to_nat n /\ all_finite g /\
    (forall x, nth_error g 0 = Some x -> fval x = fval a) /\
    (forall i x, nth_error g i = Some x -> Rabs (fval x - even_point (fval a) (fval b) n i) <= 8 * u * ends a b + 2 * IZR n * p2 (-1075)) /\
    (forall x, nth_error g (length g - 1) = Some x -> Rabs (fval x - fval b) <= 8 * u * ends a b + 2 * IZR n * p2 (-1075)) /\
    (fval a <= fval b -> nondecreasing g).
Proof.
  intros a b n Ha Hb Hn. exists (map (point a (fdiv (fsub b a) (f64_ofZ (n - 1)))) (seq 0 (Z.to_nat n))). set (d := fdiv (fsub b a) (f64_ofZ (n - 1))).
  destruct (spacing_spec a b n Ha Hb Hn) as [Kd [_ Pd]]. fold d in Kd, Pd.
  assert (Pt : forall i, (i < Z.to_nat n)%nat -> INR i * Rabs (fval d) <= p2 1002 /\ Rabs (fval (point a d i) - even_point (fval a) (fval b) n i) <= 8 * u * ends a b + 2 * IZR n * p2 (-1075)).
  { intros i Hi. exact (count_points a b n i Ha Hb Hn ltac:(lia)). }
  split; [|split; [rewrite map_length, seq_length; reflexivity|]].
  { unfold linear_grid. destruct (Z.ltb_spec 1 n); [|lia]. rewrite <- grid_points64. reflexivity. }
  rewrite map_length, seq_length. split; [|split; [|split; [|split]]].
  - intros x Hx. apply in_map_iff in Hx. destruct Hx as [i [<- Hi]]. apply in_seq in Hi. destruct (Pt i ltac:(lia)) as [B _].
    exact (proj1 (point_spec a d i Ha Kd ltac:(lia) B)).
  - intros x E. destruct (nth_points _ _ _ _ _ E) as [_ ->]. apply point_0; assumption.
  - intros i x E. destruct (nth_points _ _ _ _ _ E) as [Hi ->]. exact (proj2 (Pt i Hi)).
  - intros x E. destruct (nth_points _ _ _ _ _ E) as [Hi ->]. pose proof (proj2 (Pt _ Hi)) as Q.
    replace (even_point (fval a) (fval b) n (Z.to_nat n - 1)) with (fval b) in Q; [exact Q|].
    unfold even_point. replace (INR (Z.to_nat n - 1)) with (IZR (n - 1)) by (rewrite INR_IZR_INZ; f_equal; lia).
    field. apply (IZR_neq (n - 1) 0). lia.
  - intros L i j x y Hij Ei Ej. destruct (nth_points _ _ _ _ _ Ei) as [_ ->], (nth_points _ _ _ _ _ Ej) as [Hj ->].
    destruct (Pt j Hj) as [B _]. apply point_mono; try assumption; [exact (Pd L)|lia].
Qed.
Print Assumptions C132_count.

(** Points further apart than the rounding errors are distinct. *)
Theorem C132_distinct : forall (a b : f64) n, grid_end a -> grid_end b -> (2 <= n <= 2 ^ 53)%Z ->
  16 * u * ends a b + 4 * IZR n * p2 (-1075) < (fval b - fval a) / IZR (n - 1) ->
  exists g, linear_grid F64ops a b (DInt n) = Ok g /\
    forall i j x y, (i < j)%nat -> nth_error g i = Some x -> nth_error g j = Some y -> fval x < fval y.
Proof.
  intros a b n Ha Hb Hn H. destruct (C132_count a b n Ha Hb Hn) as [g [Eg [_ [_ [_ [Pt _]]]]]]. exists g. split; [exact Eg|].
  intros i j x y Hij Ei Ej. pose proof (Pt i x Ei) as Qi. pose proof (Pt j y Ej) as Qj. apply Rabs_le_inv in Qi, Qj. unfold even_point in Qi, Qj.
  set (h := (fval b - fval a) / IZR (n - 1)) in *. assert (S : INR i + 1 <= INR j) by (rewrite <- S_INR; apply le_INR; lia).
  assert (P : 0 < h) by (pose proof u_pos; pose proof (p2_pos (-1075)); assert (0 <= ends a b) by (unfold ends; pose proof (Rabs_pos (fval a)); pose proof (Rabs_pos (fval b)); lra);
    assert (0 <= 16 * u * ends a b) by (apply Rmult_le_pos; lra); assert (0 < IZR n) by (apply IZR_lt; lia); assert (0 <= 4 * IZR n * p2 (-1075)) by (apply Rmult_le_pos; lra); lra).
  assert (INR i * h + h <= INR j * h) by nra. lra.
Qed.
Print Assumptions C132_distinct.

(** With a spacing: the points start at a, do not decrease, are close to a + i*d, go past b by no more
    than rounding errors, and the last one is within d of b up to rounding errors. *)
Theorem C132_spacing : forall a b d : f64, grid_end a -> grid_end b -> ok d -> fval a <= fval b -> 0 < fval d -> (fval b - fval a) / fval d <= p2 52 ->
  exists g, linear_grid F64ops a b (DFloat (d : num F64ops)) = Ok g /\ g <> [] /\ all_finite g /\ nondecreasing g /\
    (forall x, nth_error g 0 = Some x -> fval x = fval a) /\
    (forall i x, nth_error g i = Some x -> Rabs (fval x - (fval a + INR i * fval d)) <= u * (Rabs (fval a) + 3 * (INR i * fval d))) /\
    (forall x, In x g -> fval a <= fval x <= fval b + 8 * u * ends a b) /\
    (forall x, nth_error g (length g - 1) = Some x -> fval b - fval x < fval d + 8 * u * ends a b).
Proof.
  intros a b d Ha Hb Kd L Pd Q. destruct (steps_spec a b d Ha Hb Kd L Pd Q) as [k [Ek [Hk [B1 B2]]]]. pose proof u_small as U.
  assert (Pt : forall i, (i < Z.to_nat (k + 1))%nat -> INR i * Rabs (fval d) <= p2 1002 /\ INR i * fval d <= (1 + 3 * u) * (fval b - fval a)).
  { intros i Hi. apply (step_points a b d k i Ha Hb Kd L Pd Hk B1). lia. }
  assert (Cl : forall i, (i < Z.to_nat (k + 1))%nat -> ok (point a d i) /\ Rabs (fval (point a d i) - (fval a + INR i * fval d)) <= u * (Rabs (fval a) + 3 * (INR i * fval d))).
  { intros i Hi. destruct (Pt i Hi) as [B _]. destruct (point_spec a d i Ha Kd ltac:(lia) B) as [K [_ E]]. rewrite (Rabs_right (fval d)) in E by lra. split; assumption. }
  assert (Mono : forall i j, (i <= j)%nat -> (j < Z.to_nat (k + 1))%nat -> fval (point a d i) <= fval (point a d j)).
  { intros i j Hij Hj. destruct (Pt j Hj) as [B _]. apply point_mono; try assumption; [lra|lia]. }
  destruct (width_spec a b Ha Hb) as [_ [_ [_ Bw]]]. rewrite Rabs_right in Bw by lra.
  assert (Pa : 0 <= Rabs (fval a) <= ends a b) by (unfold ends; pose proof (Rabs_pos (fval a)); pose proof (Rabs_pos (fval b)); lra).
  assert (Erb : forall i, (i < Z.to_nat (k + 1))%nat -> u * (Rabs (fval a) + 3 * (INR i * fval d)) <= 5 * u * ends a b).
  { intros i Hi. destruct (Pt i Hi) as [_ S]. assert (u * (Rabs (fval a) + 3 * (INR i * fval d)) <= u * (5 * ends a b)) by (apply Rmult_le_compat_l; [lra|nra]). lra. }
  assert (Uw : u * (fval b - fval a) <= u * ends a b) by (apply Rmult_le_compat_l; lra).
  exists (map (point a d) (seq 0 (Z.to_nat (k + 1)))). split; [|split; [|split; [|split; [|split; [|split; [|split]]]]]].
  - unfold linear_grid. assert (N : neq F64ops d (n0 F64ops) = false).
    { destruct (neq F64ops d (n0 F64ops)) eqn:En; [|reflexivity]. apply (proj1 (eqb_spec d (S754_zero false) Kd (ok_zero false))) in En. cbn [fval] in En. lra. }
    rewrite N. refine (eq_trans (f_equal (fun o => match o with Some k => Ok (grid_points F64ops a d (k + 1)) | None => Err ValueError end) Ek) _). rewrite <- grid_points64. reflexivity.
  - intros E. apply (f_equal (@length f64)) in E. rewrite map_length, seq_length in E. cbn [length] in E. lia.
  - intros x Hx. apply in_map_iff in Hx. destruct Hx as [i [<- Hi]]. apply in_seq in Hi. exact (proj1 (Cl i ltac:(lia))).
  - intros i j x y Hij Ei Ej. destruct (nth_points _ _ _ _ _ Ei) as [_ ->], (nth_points _ _ _ _ _ Ej) as [Hj ->]. exact (Mono i j Hij Hj).
  - intros x E. destruct (nth_points _ _ _ _ _ E) as [_ ->]. apply point_0; assumption.
  - intros i x E. destruct (nth_points _ _ _ _ _ E) as [Hi ->]. exact (proj2 (Cl i Hi)).
  - intros x Hx. apply in_map_iff in Hx. destruct Hx as [i [<- Hi]]. apply in_seq in Hi. split.
    + rewrite <- (point_0 a d Ha Kd) at 1. apply Mono; lia.
    + destruct (Cl i ltac:(lia)) as [_ E]. apply Rabs_le_inv in E. pose proof (Erb i ltac:(lia)). destruct (Pt i ltac:(lia)) as [_ S]. lra.
  - intros x E. rewrite map_length, seq_length in E. destruct (nth_points _ _ _ _ _ E) as [Hi ->]. destruct (Cl _ Hi) as [_ E']. apply Rabs_le_inv in E'. pose proof (Erb _ Hi) as Er.
    assert (Ik : INR (Z.to_nat (k + 1) - 1) = IZR k) by (rewrite INR_IZR_INZ; f_equal; lia). rewrite Ik in *. lra.
Qed.
Print Assumptions C132_spacing.

(** The ends 0 and 0.3 with 4 points, or with steps of 0.1: the former reaches 0.3, the latter stops at 0.2. *)
Example C132_nonvacuous :
  let a := f64_ofZ 0 in let b := f64_frac 3 10 in let d := f64_frac 1 10 in
  grid_end a /\ grid_end b /\ ok d /\ 0 < fval d /\ fval a <= fval b /\ (fval b - fval a) / fval d <= p2 52 /\
  16 * u * ends a b + 4 * IZR 4 * p2 (-1075) < (fval b - fval a) / IZR (4 - 1) /\
  (exists g, linear_grid F64ops a b (DInt 4) = Ok g /\ length g = 4%nat) /\ (exists g, linear_grid F64ops a b (DFloat (d : num F64ops)) = Ok g /\ length g = 3%nat).
Proof.
  intros a b d.
  assert (Va : fval a = 0) by (cbn; lra).
  assert (Vb : fval b = IZR 5404319552844595 * p2 (-54)) by (replace b with (S754_finite false 5404319552844595 (-54)) by (vm_compute; reflexivity); unfold fval, sgn, p2; rewrite Rmult_1_l; reflexivity).
  assert (Vd : fval d = IZR 7205759403792794 * p2 (-56)) by (replace d with (S754_finite false 7205759403792794 (-56)) by (vm_compute; reflexivity); unfold fval, sgn, p2; rewrite Rmult_1_l; reflexivity).
  assert (P54 : p2 (-54) = 4 * p2 (-56)) by (change (-54)%Z with (-56 + 1 + 1)%Z; rewrite !p2_succ; ring).
  assert (P56 : p2 56 * p2 (-56) = 1) by (rewrite <- p2_add; reflexivity). rewrite (p2_Z 56) in P56 by lia. change (2 ^ 56)%Z with 72057594037927936%Z in P56.
  assert (U : u = 8 * p2 (-56)) by (unfold u; change (-53)%Z with (-56 + 1 + 1 + 1)%Z; rewrite !p2_succ; ring).
  pose proof (p2_pos (-56)) as P0. pose proof (p2_le (-1075) (-56) ltac:(lia)) as Pt.
  assert (B1 : 1 <= p2 1000) by (rewrite <- (p2_Z 0) at 1 by lia; apply p2_le; lia).
  assert (B2 : 4 <= p2 52) by (rewrite (p2_Z 52) by lia; apply IZR_le; lia).
  assert (Ka : ok a) by (split; [vm_compute; reflexivity|exact I]). assert (Kb : ok b) by (split; [vm_compute; reflexivity|exact I]).
  split; [split; [exact Ka|rewrite Va, Rabs_R0; lra]|]. split; [split; [exact Kb|rewrite Rabs_right; lra]|]. split; [split; [vm_compute; reflexivity|exact I]|].
  split; [lra|]. split; [lra|]. split.
  { apply Rmult_le_reg_r with (fval d); [lra|]. unfold Rdiv. rewrite Rmult_assoc, Rinv_l by lra. nra. }
  split.
  { unfold ends. rewrite Va, Rabs_R0, (Rabs_right (fval b)) by lra. change (4 - 1)%Z with 3%Z. nra. }
  split; eexists; (split; [vm_compute; reflexivity|reflexivity]).
Qed.
