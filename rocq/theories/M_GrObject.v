(** Model of the objects RadialDistributionFunctionLegacy and
    RadialDistributionFunctionFast: deferred grid, systems with and without a cell,
    cells that are not periodic, choice of linked cells, volume and final crop.
    The computations for given bin centers, cells, volume and crop are in
    M_Realspace and M_LinkedCells.
    Simplified: every cell has the attribute [periodic] (gr.py:267 tests for it,
    line 292 requires it); [Cell.volume] is the product of the sides; dr is a float. *)
From Coq Require Import Ascii String List ZArith Bool Arith.
From Verif Require Import PyBase Num M_Helpers M_Correlation M_Dynamics M_Realspace M_LinkedCells.
Import ListNotations.
Local Open Scope nat_scope.

Section Object.
Variable A : arith.
Notation vec := (list (num A)).

(** system.cell: side and periodic *)
Record gcell : Type := mkCell { c_side : vec; c_periodic : list bool }.

(** One frame as the calculation sees it: self._pos_0[i], self._pos_1[i],
    system.cell, len(system.particle), system.density *)
Record gframe : Type := mkFrame {
  f_0 : list vec; f_1 : list vec; f_cell : option gcell; f_npart : nat; f_density : num A }.

(** gr.py:91-98 __init__: rgrid, dr, rmax ([ndim] is not used) *)
Record gparams : Type := mkGr { g_grid : option (list (num A)); g_dr : num A; g_rmax : num A }.

(** max(side), min(side) *)
Definition side_max (l : vec) : res (num A) :=
  match l with [] => Err ValueError | x :: r => Ok (list_best A (fun a b => nlt A b a) x r) end.
Definition side_min (l : vec) : res (num A) :=
  match l with [] => Err ValueError | x :: r => Ok (list_best A (nlt A) x r) end.
Definition cell_volume (c : gcell) : num A := fold_left (nmul A) (c_side c) (n1 A).

(** system.cell.<attribute> *)
Definition need_cell (c : option gcell) : res gcell :=
  match c with Some c => Ok c | None => Err AttributeError end.

Definition rmax_given (p : gparams) : bool := nlt A (n0 A) (g_rmax p).

(** gr.py:100-123 _setup_grid; [sqrt_d] is ndims**0.5 *)
Definition gr_setup_grid (p : gparams) (sqrt_d : num A) (cell : option gcell) : res (list (num A)) :=
  grid <- (match g_grid p with
           | Some g => Ok g
           | None =>
             match cell with
             | Some c => m <- side_max (c_side c) ;; gr_grid A (g_dr p) m sqrt_d
             | None => linear_grid A (ndiv A (g_dr p) (nofZ A 2))
                 (if rmax_given p then g_rmax p else nmul A (g_dr p) (nofZ A 1000)) (DFloat (g_dr p))
             end
           end) ;;
  _ <- getZ grid (-1) ;; Ok grid.

(** gr.py:178-184 and 364-370: upper limit of the reported distances, from the
    cell of the last system read *)
Definition gr_crop (p : gparams) (cell : option gcell) : res (num A) :=
  if rmax_given p then Ok (g_rmax p)
  else c <- need_cell cell ;; m <- side_min (c_side c) ;; Ok (ndiv A m (nofZ A 2)).

(** gr.py:125-185 RadialDistributionFunctionLegacy._compute.  [system] is the last
    frame read. *)
Definition gr_object_legacy (pi sqrt_d : num A) (ndims : nat) (same : bool) (p : gparams) (skip : nat)
  (frames : list gframe) : res (list (num A * num A)) :=
  system <- get frames 0 ;;
  grid <- gr_setup_grid p sqrt_d (f_cell system) ;;
  edges <- edges_of_grid A grid ;;
  _ <- np_histogram A [] edges ;;
  origins <- py_range 0 (length frames) skip ;;
  '(system, hs) <- foldM (fun acc i =>
      system <- get frames i ;;
      c <- need_cell (f_cell system) ;;
      let side := c_side c in
      if (length (f_0 system) =? 0) || (length (f_1 system) =? 0) then Ok (system, snd acc)
      else
        let f := fun x y => img_dist A x y side in
        h <- (if same then pairs_newton_hist A f (f_0 system) (f_1 system) edges
              else pairs_hist A f (f_0 system) (f_1 system) edges) ;;
        Ok (system, snd acc ++ [h])) (system, []) origins ;;
  let N0 := nmean A (map (fun f => nofnat A (length (f_0 f))) frames) in
  let N1 := nmean A (map (fun f => nofnat A (length (f_1 f))) frames) in
  c <- need_cell (f_cell system) ;;
  let rho := ndiv A N1 (cell_volume c) in
  let pairs := combine edges (tl edges) in
  let vals := map2 (fun g e =>
      let norm := nmul A (nmul A rho (shell A pi ndims (fst e) (snd e))) N0 in
      ndiv A g (if same then nmul A norm (ndiv A (n1 A) (nofZ A 2)) else norm))
    (hist_average A (length pairs) hs) pairs in
  let centers := map (fun e => ndiv A (nadd A (fst e) (snd e)) (nofZ A 2)) pairs in
  crop <- gr_crop p (f_cell system) ;;
  Ok (filter (fun gv => nle A (fst gv) crop) (combine centers vals)).

(** realspace.f90:62-72 on_surface_c, one particle *)
Definition on_surface (side : vec) (delta : num A) (x : vec) : bool :=
  existsb (fun b => b) (map2 (fun a L => nlt A (nsub A (ndiv A L (nofZ A 2)) delta) (nabs A a)) x side).

(** gr.py:226-244: whether linked cells are used, from the first frame *)
Definition use_linked (p : gparams) (ndims : nat) (system : gframe) : res bool :=
  match f_cell system with
  | Some c =>
    if rmax_given p then
      let rho := ndiv A (nofnat A (length (f_1 system))) (cell_volume c) in
      let nmax := nmul A (npow A (g_rmax p) ndims) rho in
      m <- side_min (map (fun L => ndiv A L (g_rmax p)) (c_side c)) ;;
      k <- pyint A m ;;
      Ok ((3 <? k)%Z && nlt A (nmul A nmax (nofnat A (length (f_0 system)))) (nofZ A 1000000))
    else Ok false
  | None => Ok false
  end.

(** sum(system.cell.periodic) *)
Definition n_periodic (c : gcell) : nat := length (filter (fun b => b) (c_periodic c)).

(** gr.py:288-302 sides handed to the kernels; [big] is sys.float_info.max *)
Definition kernel_side (big : num A) (ndims : nat) (cell : option gcell) : res vec :=
  match cell with
  | Some c =>
    if (n_periodic c =? 0) || (n_periodic c =? ndims)
    then mapM (fun i => L <- get (c_side c) i ;; b <- get (c_periodic c) i ;; Ok (if b : bool then L else big))
           (seq 0 (length (c_side c)))
    else Err AssertionError
  | None => Ok (repeat big ndims)
  end.

(** State of the loop at gr.py:251-321: linked cells, (system, distinct,
    remove_self_term) of the last frame with particles, histograms and numbers. *)
Definition gstate : Type := option (setup A) * option (gframe * (bool * bool)) * list (list nat * (nat * nat)).

(** gr.py:251-321, one frame *)
Definition fast_object_step (big : num A) (ndims : nat) (same : bool) (p : gparams) (linked : bool) (dr : num A) (n : nat)
  (st : gstate) (system : gframe) : res gstate :=
  if (length (f_0 system) =? 0) || (length (f_1 system) =? 0) then Ok st
  else
    let open := match f_cell system with Some c => (n_periodic c =? 0) && rmax_given p | None => false end in
    let p0 := match f_cell system with
              | Some c => if open then filter (fun x => negb (on_surface (c_side c) (g_rmax p) x)) (f_0 system) else f_0 system
              | None => f_0 system end in
    let distinct := negb same || open in
    let p1 := if distinct then f_1 system else p0 in
    let '(ls, _, acc) := st in
    '(ls', ns) <- (if linked
       then c <- need_cell (f_cell system) ;;
            '(s, ns) <- lc_compute A (g_rmax p) ls
               (mkCall (c_side c) p0 (if distinct then Some p1 else None) true (Some (c_periodic c))) ;;
            _ <- lc_as_array ns ;; Ok (Some s, ns)
       else Ok (ls, [])) ;;
    side <- kernel_side big ndims (f_cell system) ;;
    h <- (if linked then gr_neighbors_c A p0 p1 ns side dr n
          else if distinct then gr_distinct_c A p0 p1 side dr n else gr_self_c A p0 side dr n) ;;
    Ok (ls', Some (system, (distinct, open)), acc ++ [(h, (length p0, length p1))]).

(** gr.py:328-362: normalized histogram and grid, before the crop *)
Definition fast_values (pi : num A) (ndims : nat) (distinct remove : bool) (dr : num A) (n : nat)
  (acc : list (list nat * (nat * nat))) (volume : num A) : res (list (num A) * list (num A)) :=
  let bins := fbins A dr n in
  b0 <- get bins 0 ;; b1 <- get bins 1 ;;
  let half := ndiv A (nsub A b1 b0) (nofZ A 2) in
  let r := map (fun b => nsub A b half) bins in
  let N0 := nmean A (map (fun s => nofnat A (fst (snd s))) acc) in
  let N1 := nmean A (map (fun s => nofnat A (snd (snd s))) acc) in
  let rho := ndiv A N1 volume in
  let pairs := combine r (tl r) in
  let vals := map2 (fun g e =>
      let norm := nmul A (nmul A rho (shell A pi ndims (fst e) (snd e))) N0 in
      ndiv A g (if distinct then norm else ndiv A norm (nofZ A 2)))
    (hist_average A (length pairs) (map fst acc)) pairs in
  vals <- (if remove then match vals with _ :: b :: r => Ok (b :: b :: r) | _ => Err IndexError end else Ok vals) ;;
  Ok (bins, vals).

(** gr.py:211-371 RadialDistributionFunctionFast._compute *)
Definition gr_object_fast (pi sqrt_d big : num A) (ndims : nat) (same : bool) (p : gparams) (skip : nat)
  (frames : list gframe) : res (list (num A * num A)) :=
  system <- get frames 0 ;;
  grid <- gr_setup_grid p sqrt_d (f_cell system) ;;
  g0 <- get grid 0 ;; g1 <- get grid 1 ;;
  let dr := nsub A g1 g0 in
  let n := length grid in
  linked <- use_linked p ndims system ;;
  origins <- py_range 0 (length frames) skip ;;
  st <- foldM (fun st i => f <- get frames i ;; fast_object_step big ndims same p linked dr n st f) (None, None, []) origins ;;
  let '(_, last, acc) := st in
  match last with
  | None => Err UnboundLocalError
  | Some (system, (distinct, remove)) =>
    volume <- (match f_cell system with
               | Some c => Ok (cell_volume c)
               | None => pydiv A (nofnat A (f_npart system)) (f_density system) end) ;;
    '(bins, vals) <- fast_values pi ndims distinct remove dr n acc volume ;;
    crop <- gr_crop p (f_cell system) ;;
    Ok (filter (fun gv => nle A (fst gv) crop) (combine bins vals))
  end.
End Object.
Arguments mkCell {A}.
Arguments c_side {A}.
Arguments c_periodic {A}.
Arguments mkFrame {A}.
Arguments f_0 {A}.
Arguments f_1 {A}.
Arguments f_cell {A}.
Arguments f_npart {A}.
Arguments f_density {A}.
Arguments mkGr {A}.
Arguments g_grid {A}.
Arguments g_dr {A}.
Arguments g_rmax {A}.
Arguments n_periodic {A}.
