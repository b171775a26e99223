(** Theorems about several correlations computed on one trajectory object: C86. *)
From Coq Require Import Ascii String List ZArith Bool Arith Lia Reals Lra.
From Verif Require Import PyBase PyBaseFacts Num NumFacts M_Helpers M_Correlation M_Dynamics M_Realspace M_Groups M_Arrays M_Cache.
From Verif Require Import Spec_Stats Spec_Correlation Spec_Dynamics P_FixCM P_Cache.
Import ListNotations.
Local Open Scope nat_scope.

(** Without fix_cm the arrays of every correlation are the same whether the trajectory
    keeps its frames or reads them again, for every arithmetic, phasespace and filters. *)
Theorem C86_plain_partial :
  forall A (D : decor A) jobs (frames : list (system A)),
  (forall j, In j jobs -> j_fix j = false) ->
  run_jobs A D true frames jobs = run_jobs A D false frames jobs.
Proof. exact run_cached_plain. Qed.
Print Assumptions C86_plain_partial.

(** With fix_cm for all of the correlations too, over the real numbers, for trajectories
    with unfolded positions. *)
Theorem C86_all_fixed_partial :
  forall d (D : decor Rops) (frames : list (system Rops)) jobs,
  frames <> [] ->
  (forall s, In s frames -> s <> [] /\
     (forall p, In p s -> exists u : list R, p_unf p = Some u /\ length u = d) /\
     rsum (map (fun p : part Rops => p_mass p : R) s) <> 0%R) ->
  (forall j, In j jobs -> j_fix j = true /\ j_ps j = mkPS false true false false) ->
  run_jobs Rops D true frames jobs = run_jobs Rops D false frames jobs.
Proof.
  intros d D frames jobs Hne Hs Hj. apply (run_cached_all_fixed d); [exact Hne| |exact Hj].
  apply Forall_forall. exact Hs.
Qed.
Print Assumptions C86_all_fixed_partial.

(** A correlation with fix_cm on a trajectory with unfolded positions that keeps its
    frames: the next correlation, without fix_cm, has the arrays it would have with it. *)
Theorem C86_next_is_fixed_refuted :
  forall A (D : decor A) c c' (frames : list (system A)),
  has_unfolded A frames = Ok true ->
  let ps := mkPS false true false false in
  run_jobs A D true frames [mkCJ ps true c; mkCJ ps false c'] =
  run_jobs A D false frames [mkCJ ps true c; mkCJ ps true c'].
Proof. exact run_cached_fixed. Qed.
Print Assumptions C86_next_is_fixed_refuted.

(** One particle moving by one per frame. *)
Definition ex_upart (x : Z) : part F64ops :=
  mkPart (A:=F64ops) "A"%string (f64_ofZ 1) [f64_ofZ x] [f64_ofZ 0] (Some [f64_ofZ x]).
Definition ex_ujobs (fix2 : bool) : list (cjob F64ops) :=
  [mkCJ (mkPS false true false false) true []; mkCJ (mkPS false true false false) fix2 []].
Definition ex_run (cache fix2 : bool) : res (list (list (list (list f64)))) :=
  l <- run_jobs F64ops (mkDecor (A:=F64ops) (fun _ fr => fr) (fun s => s)) cache (map (fun x => [ex_upart x]) [5; 6]%Z) (ex_ujobs fix2) ;;
  Ok (map a_unf l).
Theorem C86_cache_refuted :
  exists (D : decor F64ops) frames jobs,
    (l <- run_jobs F64ops D true frames jobs ;; Ok (map a_unf l)) <>
    (l <- run_jobs F64ops D false frames jobs ;; Ok (map a_unf l)).
Proof.
  exists (mkDecor (A:=F64ops) (fun _ fr => fr) (fun s => s)), (map (fun x => [ex_upart x]) [5; 6]%Z), (ex_ujobs false).
  change (ex_run true false <> ex_run false false).
  assert (ex_run true false = Ok (map (map (map (map f64_ofZ))) [[[[0]]; [[0]]]; [[[0]]; [[0]]]]%Z)) as -> by (vm_compute; reflexivity).
  assert (ex_run false false = Ok (map (map (map (map f64_ofZ))) [[[[0]]; [[0]]]; [[[5]]; [[6]]]]%Z)) as -> by (vm_compute; reflexivity).
  intros H. apply Ok_inj in H. vm_compute in H. discriminate.
Qed.
Print Assumptions C86_cache_refuted.

Example C86_nonvacuous :
  ex_run true true = ex_run false true /\
  ex_run false true = Ok (map (map (map (map f64_ofZ))) [[[[0]]; [[0]]]; [[[0]]; [[0]]]]%Z) /\
  has_unfolded F64ops (map (fun x => [ex_upart x]) [5; 6]%Z) = Ok true.
Proof. repeat split; vm_compute; reflexivity. Qed.
