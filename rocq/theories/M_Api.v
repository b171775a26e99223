(** Model of the functions of api.py: which correlation functions are computed for
    which files with which arguments.  A call of .do() is recorded as a job; that the
    job itself works is the subject of the other modules, here every job returns.
    Numbers are reals. *)
From Coq Require Import Ascii String List ZArith Bool Arith Reals.
From Verif Require Import PyBase Num M_Helpers.
Import ListNotations.
Local Open Scope string_scope.

(** ** Trajectories, arguments, jobs *)
(** A trajectory as opened by _get_trajectories (api.py:17-40): file name, timestep,
    total_time and the number of distinct species of its first frame.  The callbacks and
    the slice are part of it. *)
Record th : Type := mkTh { th_file : string; th_dt : R; th_total : R; th_species : nat }.

Inductive arg : Type := ANone | ABool (b : bool) | AInt (z : Z) | ANum (x : R) | AStr (s : string) | AList (l : list R).

(** One call of do(): file, class, whether through Partial, the filter condition, the
    value of update, and the other arguments under the names the constructor gives
    them. *)
Record job : Type := mkJob {
  j_file : string; j_class : string; j_partial : bool; j_filter : option string; j_update : bool; j_args : list (string * arg) }.

(** api.py:42-68 _compat: the global arguments used below *)
Record globals : Type := mkGlobals {
  g_norigins : arg; g_fast : bool; g_legacy : bool; g_update : bool; g_filter : option string; g_no_partial : bool }.
Definition given {X} (o : option X) : bool := match o with Some _ => true | None => false end.
Definition compat (g : globals) : globals :=
  mkGlobals (g_norigins g) (g_fast g) (g_legacy g) (g_update g) (g_filter g) (g_no_partial g || given (g_filter g)).

(** if len(ids) > 1 and not global_args['no_partial'] *)
Definition with_partial (g : globals) (t : th) : bool := Nat.ltb 1 (th_species t) && negb (g_no_partial g).

(** api.py:12-15 _func_db, applied to floats and an integer number of points *)
Definition time_func (func : string) : res (R -> R -> Z -> res (list R)) :=
  if (String.eqb func "linear" || String.eqb func "linear_grid")%bool then Ok (fun a b n => linear_grid Rops a b (DInt n))
  else if (String.eqb func "logx" || String.eqb func "logx_grid")%bool then Ok (fun a b n => logx_grid a b (Z.to_nat n))
  else Err KeyError.

(** The time grid of the dynamical functions; [clip] is min(th.total_time, tmax). *)
Definition time_grid (clip : bool) (f : R -> R -> Z -> res (list R)) (tmax tmax_fraction : R) (tsamples : Z) (t : th) : res arg :=
  if Rltb 0 tmax then g <- f (th_dt t) (if clip then Rmin (th_total t) tmax else tmax) tsamples ;; Ok (AList (0%R :: g))
  else if Rltb 0 tmax_fraction then g <- f (th_dt t) (tmax_fraction * th_total t)%R tsamples ;; Ok (AList (0%R :: g))
  else Ok ANone.

(** Jobs of a list of trajectories, one after the other. *)
Definition for_each (body : th -> res (list job)) (ths : list th) : res (list job) :=
  jss <- mapM body ths ;; Ok (concat jss).

(** ** The functions *)
(** api.py:70-91 gr *)
Definition api_gr (g0 : globals) (dr : arg) (ndim : Z) (rmax : R) (ths : list th) : res (list job) :=
  let g := compat g0 in
  let backend := if g_legacy g then "RadialDistributionFunctionLegacy" else "RadialDistributionFunction" in
  let args := [("dr", dr); ("rmax", ANum rmax); ("norigins", g_norigins g); ("ndim", AInt ndim)] in
  for_each (fun t =>
    Ok (mkJob (th_file t) backend false (g_filter g) (g_update g) args ::
        (if with_partial g t then [mkJob (th_file t) backend true None (g_update g) args] else []))) ths.

(** kgrid.split(',') and float(): [kgrid] is the list of numbers, or None *)
Definition kgrid_arg (kgrid : option (list R)) : arg := match kgrid with None => ANone | Some l => AList l end.

(** api.py:93-129 sk.  weight_trajectory is rebound to an open trajectory by the first
    file; opening that again for the second raises TypeError. *)
Definition api_sk (g0 : globals) (nk : Z) (dk kmin kmax : R) (ksamples : Z) (kgrid : option (list R)) (weight : option string)
  (weight_trajectory : option string) (weight_fluctuations : bool) (ths : list th) : res (list job) :=
  let g := compat g0 in
  let backend := if g_fast g then "StructureFactorFast" else "StructureFactorLegacy" in
  let str o := match o with None => ANone | Some s => AStr s end in
  let args := [("kgrid", kgrid_arg kgrid); ("norigins", g_norigins g); ("kmin", ANum kmin); ("kmax", ANum kmax); ("nk", AInt nk);
               ("dk", ANum dk); ("ksamples", AInt ksamples); ("weight_trajectory", str weight_trajectory); ("weight", str weight);
               ("weight_fluctuations", ABool weight_fluctuations)] in
  if given weight_trajectory && (Nat.ltb 1 (length ths)) then Err TypeError else
  for_each (fun t =>
    Ok (mkJob (th_file t) backend false (g_filter g) (g_update g) args ::
        (if with_partial g t then [mkJob (th_file t) backend true None (g_update g) args] else []))) ths.

(** api.py:131-144 ik: the calculation is inside the test on trajectory_radius, which
    the first file makes false. *)
Definition api_ik (g0 : globals) (trajectory_radius : option string) (nk : Z) (dk kmin kmax : R) (ksamples : Z) (kgrid : option (list R))
  (ths : list th) : res (list job) :=
  let g := compat g0 in
  match ths with
  | [] => Ok []
  | t0 :: _ =>
      Ok (snd (fold_left (fun st t =>
        match fst st with
        | Some r => st
        | None => (Some (th_file t0), snd st ++ (mkJob (th_file t) "SpectralDensity" false None (g_update g)
            [("trajectory_radius", AStr (th_file t0)); ("kgrid", kgrid_arg kgrid); ("norigins", g_norigins g); ("kmin", ANum kmin);
             ("kmax", ANum kmax); ("nk", AInt nk); ("dk", ANum dk); ("ksamples", AInt ksamples)] :: nil))%list
        end) ths (trajectory_radius, [])))
  end.

(** api.py:146-168 msd *)
Definition api_msd (g0 : globals) (tmax tmax_fraction : R) (tsamples : Z) (sigma : R) (func : string) (rmsd_max : R)
  (fix_cm no_offset : bool) (ths : list th) : res (list job) :=
  f <- time_func func ;;
  let g := compat g0 in
  for_each (fun t =>
    tg <- time_grid true f tmax tmax_fraction tsamples t ;;
    let common := [("tgrid", tg); ("norigins", g_norigins g); ("sigma", ANum sigma); ("rmax", ANum rmsd_max); ("no_offset", ABool no_offset)] in
    Ok (mkJob (th_file t) "MeanSquareDisplacement" false None (g_update g) (common ++ [("fix_cm", ABool fix_cm)])%list ::
        (if with_partial g t then [mkJob (th_file t) "MeanSquareDisplacement" true None (g_update g) common] else []))) ths.

(** api.py:170-186 vacf, 277-293 alpha2, 295-311 qst, 313-329 qt: total, then partial *)
Definition api_simple (class : string) (clip : bool) (g0 : globals) (tmax tmax_fraction : R) (tsamples : Z) (func : string)
  (ths : list th) : res (list job) :=
  f <- time_func func ;;
  let g := compat g0 in
  for_each (fun t =>
    tg <- time_grid clip f tmax tmax_fraction tsamples t ;;
    let args := [("tgrid", tg); ("norigins", g_norigins g)] in
    Ok (mkJob (th_file t) class false None (g_update g) args ::
        (if with_partial g t then [mkJob (th_file t) class true None (g_update g) args] else []))) ths.
Definition api_vacf := api_simple "VelocityAutocorrelation" true.
Definition api_alpha2 := api_simple "NonGaussianParameter" false.
Definition api_qst := api_simple "SelfOverlap" false.
Definition api_qt := api_simple "CollectiveOverlap" false.

(** api.py:188-218 fkt, 220-250 fskt ([extra]: lookup_mb of fskt) *)
Definition api_scattering (class : string) (extra : list (string * arg)) (g0 : globals) (tmax tmax_fraction : R) (tsamples : Z)
  (kmin kmax : R) (ksamples : Z) (dk : R) (nk : Z) (kgrid : option (list R)) (func : string) (fix_cm total : bool)
  (ths : list th) : res (list job) :=
  f <- time_func func ;;
  let g := compat g0 in
  for_each (fun t =>
    tg <- time_grid false f tmax tmax_fraction tsamples t ;;
    kg <- match kgrid with Some l => Ok l | None => linear_grid Rops kmin kmax (DInt ksamples) end ;;
    let args := ([("kgrid", AList kg); ("tgrid", tg); ("norigins", g_norigins g); ("nk", AInt nk); ("dk", ANum dk); ("fix_cm", ABool fix_cm)] ++ extra)%list in
    Ok (((if (total || Nat.eqb (th_species t) 1)%bool then [mkJob (th_file t) class false None (g_update g) args] else []) ++
        (if with_partial g t then [mkJob (th_file t) class true None (g_update g) args] else []))%list)) ths.
Definition api_fkt := api_scattering "IntermediateScattering" [].
Definition api_fskt (lookup_mb : R) (g0 : globals) := 
  api_scattering (if g_legacy g0 then "SelfIntermediateScatteringLegacy" else "SelfIntermediateScattering") [("lookup_mb", ANum lookup_mb)] g0.

(** api.py:252-275 chi4qs.  There is no Chi4SelfOverlapOpti in the package. *)
Definition api_chi4qs (g0 : globals) (tsamples : Z) (a tmax : R) (func : string) (tmax_fraction : R) (total : bool) (ths : list th) : res (list job) :=
  f <- time_func func ;;
  let g := compat g0 in
  if g_fast g then Err AttributeError else
  for_each (fun t =>
    tg <- time_grid true f tmax tmax_fraction tsamples t ;;
    let args := [("tgrid", tg); ("a", ANum a); ("norigins", g_norigins g)] in
    Ok (((if total then [mkJob (th_file t) "Chi4SelfOverlap" false None (g_update g) args] else []) ++
        (if (negb total && Nat.ltb 1 (th_species t))%bool then [mkJob (th_file t) "Chi4SelfOverlap" true None (g_update g) args] else []))%list)) ths.

(** api.py:331-345 ba *)
Definition api_ba (g0 : globals) (dtheta : R) (ths : list th) : res (list job) :=
  let g := compat g0 in
  let args := [("dtheta", ANum dtheta); ("norigins", g_norigins g)] in
  for_each (fun t =>
    Ok (mkJob (th_file t) "BondAngleDistribution" false (g_filter g) (g_update g) args ::
        (if with_partial g t then [mkJob (th_file t) "BondAngleDistribution" true None (g_update g) args] else []))) ths.
