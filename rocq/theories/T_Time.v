(** Theorems about time grids, time origins and averages over origins:
    C01 - C08, C65. *)
From Coq Require Import Ascii String List ZArith Bool Arith Reals Lia Lra Sorting.Sorted.
From Coq Require Import Floats.SpecFloat.
From Verif Require Import PyBase PyBaseFacts Num Spec_Stats NumFacts M_Helpers M_Correlation Spec_Decimal
  Spec_Correlation P_Correlation Spec_Time P_Time P_Skip P_Acf.
Import ListNotations.
Local Open Scope nat_scope.

(** ** C01 *)
Theorem C01_gcf_offset_mean :
  forall (A : arith) (X : Type) (f : X -> X -> num A) (grid : list (nat * nat)) (skip : nat)
         (t : list Z) (x : list X) (dflt : X),
  1 <= skip -> length t = length x ->
  exists dt v, gcf_offset A f grid skip t x = Ok (dt, v) /\
    grouped_mean f t x dflt (admitted grid skip (length x)) dt v.
Proof. intros A X f grid skip t x dflt Hs Hl. exact (gcf_offset_correct A X f t x dflt Hl grid skip Hs). Qed.
Print Assumptions C01_gcf_offset_mean.

Example C01_nonvacuous :
  gcf_offset F64ops (fun a b => nsub F64ops a b) [(0, 0); (0, 1); (1, 2)] 2 [0; 1; 10; 11]%Z
    (map f64_ofZ [1; 2; 4; 8]%Z)
  = Ok ([0; 1; 10]%Z, [n0 F64ops; f64_frac 5 2; f64_ofZ 6]).
Proof. vm_compute. reflexivity. Qed.

(** ** C02 *)
Theorem C02_acf_mean :
  forall (A : arith) (grid : list nat) (skip : nat) (t : list Z) (x : list (num A)),
  length t = length x -> 1 <= skip ->
  let m := nmean A x in
  let ps := admitted (map (fun i => (0, i)) grid) skip (length x) in
  exists dt v, acf A grid skip t x = Ok (dt, v, map (fun d => length (pairs_at t d ps)) dt) /\
    grouped_mean (fun a b => nmul A (nsub A a m) (nsub A b m)) t x (n0 A) ps dt v.
Proof. intros A grid skip t x Hl Hs. exact (acf_correct A t x grid skip Hl Hs). Qed.
Print Assumptions C02_acf_mean.

Theorem C02_acf_variance :
  forall (t : list Z) (x : list R) (grid : list nat),
  length t = length x -> x <> [] -> StronglySorted Z.lt t -> NoDup grid -> In 0 grid ->
  exists dt v c, acf Rops grid 1 t x = Ok (0%Z :: dt, (variance x : num Rops) :: v, length x :: c).
Proof. exact acf_zero_variance. Qed.
Print Assumptions C02_acf_variance.

Example C02_nonvacuous :
  acf F64ops [0; 1] 1 [0; 5; 10; 15]%Z (map f64_ofZ [1; 3; 1; 3]%Z)
  = Ok ([0; 5]%Z, [f64_ofZ 1; f64_ofZ (-1)], [4; 3]).
Proof. vm_compute. reflexivity. Qed.

(** ** C03 *)
(** gcf averages over the pairs that do not touch the last frame. *)
Theorem C03_gcf_mean_partial :
  forall (A : arith) (X : Type) (f : X -> X -> num A) (grid : list nat) (skip : nat)
         (t : list Z) (x : list X) (dflt : X),
  1 <= skip -> length t = length x ->
  let ps := admitted (map (fun i => (0, i)) grid) skip (length x - 1) in
  exists dt v, gcf A f grid skip t x = Ok (dt, v, map (fun d => length (pairs_at t d ps)) dt) /\
    grouped_mean f t x dflt ps dt v.
Proof. intros A X f grid skip t x dflt Hs Hl. exact (gcf_correct A X f t x dflt Hl grid skip Hs). Qed.
Print Assumptions C03_gcf_mean_partial.

(** The documented average over all pairs is not what gcf returns: the pair of
    frames (2, 1) is missing below. *)
Theorem C03_gcf_all_pairs_refuted :
  exists (f : f64 -> f64 -> f64) grid skip t x dt v c,
    length t = length x /\ 1 <= skip /\
    gcf F64ops f grid skip t x = Ok (dt, v, c) /\
    ~ grouped_mean (A := F64ops) f t x (f64_ofZ 0)
        (admitted (map (fun i => (0, i)) grid) skip (length x)) dt v.
Proof.
  exists (nsub F64ops), [1], 1, [0; 1; 2]%Z, (map f64_ofZ [1; 2; 4]%Z), [1%Z], [f64_ofZ 1], [1].
  split; [reflexivity|]. split; [lia|]. split; [vm_compute; reflexivity|].
  intros [_ [_ H]]. vm_compute in H. discriminate.
Qed.
Print Assumptions C03_gcf_all_pairs_refuted.

(** ** C04 *)
Theorem C04_setup_t_grid :
  forall (A : arith) (steps : list Z) (bs : nat) (timestep : num A) (t_grid : list (num A))
         (offset : bool) (g : list (nat * nat)),
  setup_t_grid A steps bs timestep t_grid offset = Ok g ->
  let offs := if offset then seq 0 bs else [0] in
  exists reqs,
    mapM (to_step A timestep) t_grid = Ok reqs /\
    StronglySorted Z.lt (map (lag_dt steps) g) /\
    (forall p, In p g -> usable steps offs p /\ earliest steps offs p) /\
    (forall r, In r reqs -> exists p, In p g /\ nearest steps offs r (lag_dt steps p)) /\
    (forall p, In p g -> exists r, In r reqs /\ nearest steps offs r (lag_dt steps p)).
Proof. intros A steps bs timestep t_grid offset g H. exact (setup_t_grid_correct steps A timestep bs t_grid offset g H). Qed.
Print Assumptions C04_setup_t_grid.

Theorem C04_setup_t_grid_total :
  forall (A : arith) (steps : list Z) (bs : nat) (timestep : num A) (t_grid : list (num A))
         (offset : bool) (reqs : list Z),
  steps <> [] -> 1 <= bs -> mapM (to_step A timestep) t_grid = Ok reqs ->
  exists g, setup_t_grid A steps bs timestep t_grid offset = Ok g.
Proof. intros A steps bs timestep t_grid offset reqs. exact (setup_t_grid_total steps A timestep bs t_grid offset reqs). Qed.
Print Assumptions C04_setup_t_grid_total.

(** Over the reals the requested steps are the integers closest to t/timestep. *)
Theorem C04_requested_steps :
  forall timestep t, (timestep <> 0)%R ->
  exists r, to_step Rops timestep t = Ok r /\ (Rabs (t / timestep - IZR r) <= / 2)%R.
Proof. exact to_step_R. Qed.
Print Assumptions C04_requested_steps.

Example C04_nonvacuous :
  setup_t_grid F64ops [0; 1; 2; 4; 8; 9; 10; 12; 16]%Z 4 (f64_frac 1 2)
    (map f64_ofZ [0; 1; 2; 5]%Z) true = Ok [(0, 0); (0, 2); (0, 3); (0, 6)].
Proof. vm_compute. reflexivity. Qed.

(** ** C05 *)
Theorem C05_periodic_grid_partial :
  forall (A : arith) (X : Type) (f : X -> X -> num A) steps bs period timestep t_grid offset g
         npart (n : norigins A) skip (x : list X) (dflt : X),
  1 <= bs -> steps <> [] -> block_periodic steps bs period -> length steps = length x ->
  setup_t_grid A steps bs timestep t_grid offset = Ok g ->
  adjust_skip A (length steps) npart bs n = Ok skip ->
  bs = 1 \/ skip <> 1 ->
  exists v, gcf_offset A f g skip steps x = Ok (map (lag_dt steps) g, v) /\ length v = length g /\
    grouped_mean f steps x dflt (admitted g skip (length x)) (map (lag_dt steps) g) v.
Proof.
  intros A X f steps bs period timestep t_grid offset g npart n skip x dflt Hbs Hne Hper Hlen Hg Hskip H1.
  destruct (periodic_pipeline A X f steps bs period timestep t_grid offset g npart n skip x Hbs Hne Hper Hlen Hg Hskip H1)
    as [v [E L]].
  exists v. split; [exact E|]. split; [exact L|].
  assert (1 <= length steps) as Hn by (destruct steps; [congruence|cbn [length]; lia]).
  destruct (adjust_skip_range A _ _ _ _ _ Hn Hskip) as [Hs _].
  destruct (gcf_offset_correct A X f steps x dflt Hlen g skip Hs) as [dt [v' [E' G]]].
  rewrite E in E'. injection E' as <- <-. exact G.
Qed.
Print Assumptions C05_periodic_grid_partial.

(** Requesting more origins than blocks turns the interval into 1, and then time
    differences nobody asked for are reported. *)
Theorem C05_periodic_grid_refuted :
  exists steps bs period timestep t_grid g npart n skip x dt v,
    1 <= bs /\ block_periodic steps bs period /\ length steps = length x /\
    setup_t_grid F64ops steps bs timestep t_grid true = Ok g /\
    adjust_skip F64ops (length steps) npart bs n = Ok skip /\
    gcf_offset F64ops (nsub F64ops) g skip steps x = Ok (dt, v) /\
    dt <> map (lag_dt steps) g.
Proof.
  exists [0; 1; 10; 11; 20; 21]%Z, 2, 10%Z, (f64_ofZ 1), [f64_ofZ 1], [(0, 1)], 1, (NoInt 4), 1,
    (map f64_ofZ [0; 1; 2; 3; 4; 5]%Z), [1; 9]%Z, [f64_ofZ 1; f64_ofZ 1].
  split; [lia|]. split.
  { intros i Hi. cbn in Hi. do 4 (destruct i as [|i]; [reflexivity|]). lia. }
  split; [reflexivity|]. split; [vm_compute; reflexivity|]. split; [vm_compute; reflexivity|].
  split; [vm_compute; reflexivity|]. vm_compute. discriminate.
Qed.
Print Assumptions C05_periodic_grid_refuted.

Example C05_nonvacuous :
  let steps := [0; 1; 10; 11; 20; 21]%Z in
  block_periodic steps 2 10 /\
  setup_t_grid F64ops steps 2 (f64_ofZ 1) (map f64_ofZ [1; 10]%Z) true = Ok [(0, 1); (0, 2)] /\
  adjust_skip F64ops 6 100 2 (NoInt (-1)) = Ok 2 /\
  gcf_offset F64ops (nsub F64ops) [(0, 1); (0, 2)] 2 steps (map f64_ofZ [0; 1; 2; 3; 4; 5]%Z)
  = Ok ([1; 10]%Z, [f64_ofZ 1; f64_ofZ 2]).
Proof.
  split.
  { intros i Hi. cbn in Hi. do 4 (destruct i as [|i]; [reflexivity|]). lia. }
  split; [|split]; vm_compute; reflexivity.
Qed.

(** ** C06 *)
Theorem C06_skip_range :
  forall (A : arith) nsteps npart bs (n : norigins A) s,
  1 <= nsteps -> adjust_skip A nsteps npart bs n = Ok s -> 1 <= s <= nsteps.
Proof. exact adjust_skip_range. Qed.
Print Assumptions C06_skip_range.

Theorem C06_skip_multiple_partial :
  forall (A : arith) nsteps npart bs (n : norigins A) s,
  1 <= bs -> 1 <= nsteps -> adjust_skip A nsteps npart bs n = Ok s ->
  (exists m, s = m * bs) \/ s = nsteps \/ s = 1.
Proof. exact adjust_skip_form. Qed.
Print Assumptions C06_skip_multiple_partial.

(** norigins = 10 with five blocks of two frames: the interval is one frame. *)
Theorem C06_skip_multiple_refuted :
  exists nsteps npart bs n s,
    1 <= bs /\ 1 <= nsteps /\ adjust_skip F64ops nsteps npart bs n = Ok s /\
    2 <= length (origins 0 s nsteps) /\ s mod bs <> 0.
Proof.
  exists 10, 1, 2, (NoInt 10), 1. split; [lia|]. split; [lia|].
  split; [vm_compute; reflexivity|]. vm_compute. split; [lia|discriminate].
Qed.
Print Assumptions C06_skip_multiple_refuted.

Theorem C06_all_origins :
  forall nsteps npart bs z, (z < 0)%Z -> 1 <= bs ->
  adjust_skip Rops nsteps npart bs (NoInt z) = Ok (Nat.min nsteps bs).
Proof. exact adjust_skip_neg. Qed.
Print Assumptions C06_all_origins.

Theorem C06_single_origin :
  forall nsteps npart bs, 1 <= nsteps ->
  exists s, adjust_skip Rops nsteps npart bs (NoInt 1) = Ok s /\ origins 0 s nsteps = [0].
Proof. exact adjust_skip_one_origin. Qed.
Print Assumptions C06_single_origin.

(** norigins = 0 is not accepted. *)
Theorem C06_zero_rejected :
  forall nsteps npart bs, adjust_skip Rops nsteps npart bs (NoInt 0) = Err ZeroDivisionError.
Proof. exact adjust_skip_zero. Qed.
Print Assumptions C06_zero_rejected.

Example C06_nonvacuous :
  adjust_skip F64ops 100 1000 5 (NoFloat (f64_frac 1 10 : num F64ops)) = Ok 50 /\
  adjust_skip F64ops 100 1000 1 NoNone = Ok 2 /\
  adjust_skip F64ops 100 1000 1 (NoStr "-1") = Ok 1 /\
  adjust_skip F64ops 100 1000 1 (NoStr "1") = Ok 100 /\
  adjust_skip F64ops 100 1000 1 (NoStr "10") = Ok 10.
Proof. vm_compute. repeat split; reflexivity. Qed.

(** ** C07 *)
Theorem C07_origins_bounds_partial :
  forall nsteps npart n s, 2 <= n -> n <= nsteps ->
  adjust_skip Rops nsteps npart 1 (NoInt (Z.of_nat n)) = Ok s ->
  n <= length (origins 0 s nsteps) <= 2 * n - 1.
Proof. exact origins_int_bounds. Qed.
Print Assumptions C07_origins_bounds_partial.

Theorem C07_origins_exact_partial :
  forall k npart n s, 2 <= n -> 1 <= k ->
  adjust_skip Rops (k * n) npart 1 (NoInt (Z.of_nat n)) = Ok s ->
  length (origins 0 s (k * n)) = n.
Proof. exact origins_int_exact. Qed.
Print Assumptions C07_origins_exact_partial.

(** Six origins requested out of eleven frames: all eleven are used. *)
Theorem C07_origins_refuted :
  exists nsteps npart n s,
    adjust_skip F64ops nsteps npart 1 (NoInt (Z.of_nat n)) = Ok s /\ 2 <= n <= nsteps /\
    length (origins 0 s nsteps) = 2 * n - 1 /\ 2 * n - 1 <> n.
Proof. exists 11, 1, 6, 1. vm_compute. repeat split; lia. Qed.
Print Assumptions C07_origins_refuted.

(** ** C08 *)
Theorem C08_fraction_strings_rejected_refuted :
  forall nsteps npart bs ds, all_digits ds = true -> ds <> EmptyString ->
  adjust_skip Rops nsteps npart bs (NoStr ("0." ++ ds)) = Err ValueError.
Proof. exact adjust_skip_str_frac. Qed.
Print Assumptions C08_fraction_strings_rejected_refuted.

Theorem C08_fraction_refuted :
  exists nsteps npart bs,
    str_float F64ops "0.2" = Ok (f64_frac 2 10) /\
    adjust_skip F64ops nsteps npart bs (NoStr "0.2") = Err ValueError /\
    adjust_skip F64ops nsteps npart bs (NoFloat (f64_frac 2 10 : num F64ops)) = Ok 5.
Proof. exists 100, 10, 1. vm_compute. repeat split; reflexivity. Qed.
Print Assumptions C08_fraction_refuted.

(** Integers given as strings are equivalent to integers. *)
Theorem C08_integer_strings_partial :
  forall nsteps npart bs ds, all_digits ds = true -> ds <> EmptyString ->
  adjust_skip Rops nsteps npart bs (NoStr ds) = adjust_skip Rops nsteps npart bs (NoInt (digval ds 0)).
Proof. exact adjust_skip_str_int. Qed.
Print Assumptions C08_integer_strings_partial.

(** ** C65 *)
Theorem C65_fraction_bounds_partial :
  forall nsteps npart x s, (0 < x < 1)%R -> 1 <= nsteps ->
  adjust_skip Rops nsteps npart 1 (NoFloat (x : num Rops)) = Ok s ->
  (x * INR nsteps <= INR (length (origins 0 s nsteps)) < 2 * x * INR nsteps + 1)%R.
Proof. exact origins_frac_bounds. Qed.
Print Assumptions C65_fraction_bounds_partial.

(** 51% of the frames requested: all the frames are used, whatever their number. *)
Theorem C65_fraction_refuted :
  forall nsteps npart x, (/ 2 < x < 1)%R -> 1 <= nsteps ->
  exists s, adjust_skip Rops nsteps npart 1 (NoFloat (x : num Rops)) = Ok s /\
            length (origins 0 s nsteps) = nsteps.
Proof. exact frac_above_half. Qed.
Print Assumptions C65_fraction_refuted.
