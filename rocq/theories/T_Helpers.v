(** Theorems about grids, roots, extrema, fits and species filters:
    C09 - C16, C50, C61. *)
From Coq Require Import Ascii String List ZArith Bool Arith Reals Lia Lra Psatz Sorting.Sorted Sorting.Permutation.
From Coq Require Import Floats.SpecFloat.
From Verif Require Import PyBase PyBaseFacts Num Spec_Stats NumFacts M_Helpers M_Correlation
  Spec_Fit Spec_Lists P_Skip P_Helpers P_Fit P_Filter.
Import ListNotations.
Local Open Scope R_scope.

(** ** C09 *)
Theorem C09_linear_grid_count :
  forall (a b : R) (n : Z), (2 <= n)%Z ->
  exists g, linear_grid Rops a b (DInt n) = Ok g /\ length g = Z.to_nat n /\
    (forall i, (i < length g)%nat -> nth i g 0 = a + INR i * ((b - a) / IZR (n - 1))) /\
    nth 0 g 0 = a /\ nth (length g - 1) g 0 = b.
Proof. exact linear_grid_int. Qed.
Print Assumptions C09_linear_grid_count.

Theorem C09_linear_grid_spacing_partial :
  forall a b d : R, a <= b -> 0 < d ->
  exists g, linear_grid Rops a b (DFloat (d : num Rops)) = Ok g /\
    length g = Z.to_nat (Rfloor ((b - a) / d) + 1) /\
    (forall i, (i < length g)%nat -> nth i g 0 = a + INR i * d) /\
    (forall v, In v g -> a <= v <= b) /\
    g <> [] /\ b - nth (length g - 1) g 0 < d.
Proof. exact linear_grid_float. Qed.
Print Assumptions C09_linear_grid_spacing_partial.

(** In double precision the grid can run past its upper end: 0 to 0.7 in steps of 0.01. *)
Theorem C09_overshoot_refuted :
  exists a b d g, linear_grid F64ops a b (DFloat (d : num F64ops)) = Ok g /\
    nlt F64ops (n0 F64ops) d = true /\ nlt F64ops a b = true /\
    exists v, In v g /\ nlt F64ops b v = true.
Proof.
  exists (f64_ofZ 0), (f64_frac 7 10), (f64_frac 1 100).
  eexists. split; [vm_compute; reflexivity|]. split; [vm_compute; reflexivity|].
  split; [vm_compute; reflexivity|].
  exists (nmul F64ops (f64_ofZ 70) (f64_frac 1 100)).
  split; [|vm_compute; reflexivity].
  match goal with |- In _ ?l => apply (nth_In l (n0 F64ops) (n := 70)) end.
  vm_compute. lia.
Qed.
Print Assumptions C09_overshoot_refuted.

(** ... and it can stop a whole step short of it: 0 to 0.3 in steps of 0.1. *)
Theorem C09_undershoot_refuted :
  linear_grid F64ops (f64_ofZ 0) (f64_frac 3 10) (DFloat (f64_frac 1 10 : num F64ops))
  = Ok [f64_ofZ 0; f64_frac 1 10; f64_frac 2 10].
Proof. vm_compute. reflexivity. Qed.
Print Assumptions C09_undershoot_refuted.

(** ** C10 *)
Theorem C10_logx_grid_positive :
  forall x1 x2 n, 0 < x1 -> x1 <= x2 -> (2 <= n)%nat ->
  exists g, logx_grid x1 x2 n = Ok g /\ length g = n /\
    nth 0 g 0 = x1 /\ nth (n - 1) g 0 = x2 /\
    (forall i j, (i <= j < n)%nat -> nth i g 0 <= nth j g 0) /\
    (exists q, 1 <= q /\ q ^ n = x2 / x1 /\ nth 1 g 0 = q * q * x1 /\
       forall i, (1 <= i)%nat -> (S i < n)%nat -> nth (S i) g 0 = q * nth i g 0).
Proof. exact logx_grid_pos. Qed.
Print Assumptions C10_logx_grid_positive.

(** The grid of three points from 1 to 8: the ratios are 4 and 2. *)
Example C10_nonvacuous : logx_grid 1 8 3 = Ok [1; 4; 8].
Proof.
  destruct (C10_logx_grid_positive 1 8 3) as [g [E [L [H0 [H2 [_ [q [Hq [Hn [H1 _]]]]]]]]]]; [lra|lra|lia|].
  rewrite E. f_equal. assert (q = 2) as -> by (cbn [pow] in Hn; nra).
  destruct g as [|a [|b [|c [|d g]]]]; try discriminate L. cbn [nth Nat.sub] in *. subst a c. f_equal. f_equal. lra.
Qed.

(** ** C11 *)
(** The last entry is x2 - 1 for every x2 >= 1, never x2. *)
Theorem C11_logx_grid_zero_partial :
  forall x2 n, 1 <= x2 -> (2 <= n)%nat ->
  exists g, logx_grid 0 x2 n = Ok g /\ length g = n /\ nth 0 g 0 = 0 /\
    nth (n - 1) g 0 = x2 - 1 /\
    (forall i j, (i <= j < n)%nat -> nth i g 0 <= nth j g 0).
Proof. exact logx_grid_zero_ge1. Qed.
Print Assumptions C11_logx_grid_zero_partial.

(** For x2 < 1 every entry but the first is negative, whatever n. *)
Theorem C11_logx_grid_zero_refuted :
  forall x2 n, 0 < x2 < 1 -> (2 <= n)%nat ->
  exists g, logx_grid 0 x2 n = Ok g /\ length g = n /\
    (forall i, (1 <= i < n)%nat -> nth i g 0 < 0).
Proof. exact logx_grid_zero_lt1. Qed.
Print Assumptions C11_logx_grid_zero_refuted.

(** ** C12 *)
Theorem C12_feqc_root :
  forall (x f : list R) (fstar : R) (xs : R) (k : nat),
  increasing x -> feqc Rops x f fstar = Ok (Some (xs, k)) ->
  (1 <= k < Nat.min (length x) (length f))%nat /\
  crossing f fstar k /\ (forall j, (j < k)%nat -> ~ crossing f fstar j) /\
  nth (k - 1) x 0 <= xs < nth k x 0 /\
  line_through (nth (k - 1) x 0) (nth (k - 1) f 0) (nth k x 0) (nth k f 0) xs = fstar.
Proof.
  intros x f fstar xs k Hx E.
  destruct f as [|f0 f']; [discriminate E|]. destruct x as [|x0 x']; [discriminate E|].
  destruct (feqc_spec (x0 :: x') (f0 :: f') fstar Hx) as [r [E' H]]; try discriminate.
  toR. rewrite E in E'. apply Ok_inj in E'. rewrite <- E' in H. exact H.
Qed.
Print Assumptions C12_feqc_root.

Theorem C12_feqc_no_exception :
  forall (x f : list R) (fstar : R), increasing x -> x <> [] -> f <> [] ->
  exists r, feqc Rops x f fstar = Ok r.
Proof.
  intros x f fstar Hx Hx0 Hf. destruct (feqc_spec x f fstar Hx Hf Hx0) as [r [E _]]. eauto.
Qed.
Print Assumptions C12_feqc_no_exception.

(** ** C13 *)
(** A root is reported exactly when the data cross the target strictly. *)
Theorem C13_feqc_complete_partial :
  forall (x f : list R) (fstar : R), increasing x -> x <> [] -> f <> [] ->
  feqc Rops x f fstar = Ok None <->
  forall j, (j < Nat.min (length x) (length f))%nat -> ~ crossing f fstar j.
Proof.
  intros x f fstar Hx Hx0 Hf. destruct (feqc_spec x f fstar Hx Hf Hx0) as [r [E H]].
  rewrite E. split.
  - intros E'. apply Ok_inj in E'. subst r. exact H.
  - intros Hno. destruct r as [[xs k]|]; [|reflexivity].
    destruct H as [[H1 H2] [H3 _]]. exfalso. apply (Hno k); assumption.
Qed.
Print Assumptions C13_feqc_complete_partial.

(** Data starting at the target or touching it without crossing: no root, no exception. *)
Theorem C13_feqc_start_refuted :
  forall (x f : list R) (fstar : R), increasing x -> x <> [] -> f <> [] ->
  nth 0 f 0 = fstar -> feqc Rops x f fstar = Ok None.
Proof.
  intros x f fstar Hx Hx0 Hf H0. apply C13_feqc_complete_partial; try assumption.
  intros j _. unfold crossing. rewrite H0. lra.
Qed.
Print Assumptions C13_feqc_start_refuted.

Theorem C13_feqc_touch_refuted :
  exists x f fstar, increasing x /\ In fstar f /\ length x = length f /\
    feqc Rops x f fstar = Ok None.
Proof.
  exists [0; 1], [1; 0], 0. repeat split.
  - repeat constructor; lra.
  - right. left. reflexivity.
  - apply C13_feqc_complete_partial; try discriminate.
    + repeat constructor; lra.
    + intros [|[|j]] Hj; unfold crossing; cbn in *; [lra|lra|lia].
Qed.
Print Assumptions C13_feqc_touch_refuted.

Example C12_nonvacuous :
  feqc F64ops (map f64_ofZ [0; 1; 2; 4]%Z) (map f64_ofZ [4; 3; 1; 0]%Z) (f64_ofZ 2)
  = Ok (Some (f64_frac 3 2, 2%nat)).
Proof. vm_compute. reflexivity. Qed.

(** ** C14 *)
Theorem C14_ifabsmm :
  forall x f : list R, increasing x -> length x = length f -> f <> [] ->
  exists imin imax pmin pmax, ifabsmm Rops x f = Ok (pmin, pmax) /\
    first_min f imin /\ first_max f imax /\
    extremum_at 1 x f imin pmin /\ extremum_at (-1) x f imax pmax.
Proof. exact ifabsmm_spec. Qed.
Print Assumptions C14_ifabsmm.

Example C14_nonvacuous :
  ifabsmm F64ops (map f64_ofZ [0; 1; 2; 3]%Z) (map f64_ofZ [0; 6; 6; 0]%Z)
  = Ok ((f64_ofZ 0, f64_ofZ 0), (f64_frac 3 2, f64_frac 27 4)).
Proof. vm_compute. reflexivity. Qed.

(** ** C15 *)
Theorem C15_linear_fit_optimal :
  forall x y : list R, length x = length y -> (exists u v, In u x /\ In v x /\ u <> v) ->
  exists a b ea eb, linear_fit Rops x y = Ok (a, b, ea, eb) /\
    (forall a' b', residuals x y a b <= residuals x y a' b') /\
    (forall a' b', residuals x y a' b' <= residuals x y a b -> a' = a /\ b' = b) /\
    ea = sqrt (resid_var x y a b / rsum (map (fun u => (u - rmean x) * (u - rmean x)) x)) /\
    eb = sqrt (ea * ea * rmean (map (fun u => u * u) x)).
Proof. exact linear_fit_spec. Qed.
Print Assumptions C15_linear_fit_optimal.

Theorem C15_linear_fit_exact :
  forall (x : list R) a0 b0, (exists u v, In u x /\ In v x /\ u <> v) ->
  linear_fit Rops x (map (fun u => a0 * u + b0) x) = Ok (a0, b0, 0, 0).
Proof. exact linear_fit_exact. Qed.
Print Assumptions C15_linear_fit_exact.

Example C15_nonvacuous : exists u v, In u [1; 2; 4] /\ In v [1; 2; 4] /\ u <> v.
Proof. exists 1, 2. cbn. repeat split; auto; lra. Qed.

(** ** C16 *)
Theorem C16_linear_fit_total_partial :
  forall x y : list R, length x = length y -> (exists u v, In u x /\ In v x /\ u <> v) ->
  exists r, linear_fit Rops x y = Ok r.
Proof.
  intros x y Hl Hx. destruct (linear_fit_spec x y Hl Hx) as [a [b [ea [eb [E _]]]]]. eauto.
Qed.
Print Assumptions C16_linear_fit_total_partial.

(** In double precision three points on a line make it raise ValueError (square
    root of a negative number). *)
Theorem C16_linear_fit_raises_refuted :
  exists x y : list f64, length x = 3%nat /\ length y = 3%nat /\ NoDup x /\
    linear_fit F64ops x y = Err ValueError.
Proof.
  exists (map f64_ofZ [1; 2; 4]%Z), [f64_frac 1 10; f64_frac 2 10; f64_frac 4 10].
  split; [reflexivity|]. split; [reflexivity|]. split.
  - vm_compute. repeat constructor; cbn; intuition congruence.
  - vm_compute. reflexivity.
Qed.
Print Assumptions C16_linear_fit_raises_refuted.

(** ** C50 *)
(** The filtered system holds, in order, exactly the particles of that species. *)
Theorem C50_filter_species :
  forall (D : Type) (ps : list (particle D)) (s : string),
  subseq (filter_species ps (Some s)) ps /\
  (forall p, In p (filter_species ps (Some s)) <-> In p ps /\ species p = s) /\
  filter_species ps None = ps.
Proof.
  intros D ps s. split; [apply filter_subseq|]. split; [|reflexivity].
  intros p. cbn. rewrite filter_In, String.eqb_eq. reflexivity.
Qed.
Print Assumptions C50_filter_species.

(** Filtering over distinct species that cover the system yields every particle
    exactly once. *)
Theorem C50_filter_partition :
  forall (D : Type) (ps : list (particle D)) (sps : list string),
  NoDup sps -> (forall p, In p ps -> In (species p) sps) ->
  Permutation (flat_map (fun s => filter_species ps (Some s)) sps) ps.
Proof. exact filter_species_partition. Qed.
Print Assumptions C50_filter_partition.

Example C50_nonvacuous :
  flat_map (fun s => filter_species [mkParticle "A" 1; mkParticle "B" 2; mkParticle "A" 3]%string (Some s))
    ["B"; "A"]%string
  = [mkParticle "B" 2; mkParticle "A" 1; mkParticle "A" 3]%string.
Proof. reflexivity. Qed.

(** ** C61 *)
Theorem C61_subtract_mean :
  forall w : list (list R), w <> [] -> (forall v, In v w -> v <> []) ->
  exists w' c, subtract_mean Rops w = Ok w' /\ w' = map (map (fun x => x - c)) w /\
    rmean (map rmean w') = 0.
Proof. exact subtract_mean_spec. Qed.
Print Assumptions C61_subtract_mean.

Example C61_nonvacuous :
  subtract_mean F64ops [map f64_ofZ [1; 3]%Z; map f64_ofZ [4]%Z]
  = Ok [map f64_ofZ [-2; 0]%Z; map f64_ofZ [1]%Z].
Proof. vm_compute. reflexivity. Qed.
