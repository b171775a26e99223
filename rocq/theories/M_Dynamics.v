(** Model of the one-body dynamic correlation functions: msd.py, qt.py,
    alpha2.py, chi4t.py, vacf.py, sacf.py, and of the center-of-mass correction
    of correlation.py.  A frame is the list of particle coordinates (a 2d numpy
    array).  Arrays of different shapes (a broadcasting error) are not modelled:
    the shorter one wins.  numpy sums are modelled left to right. *)
From Coq Require Import Ascii String List ZArith Bool Arith.
From Verif Require Import PyBase Num M_Helpers M_Correlation.
Import ListNotations.
Local Open Scope nat_scope.

(** What the classes read from a trajectory (atooms, external): steps,
    block_size, timestep, total_time, number of particles of frame 0. *)
Record traj (A : arith) : Type := mkTraj {
  t_steps : list Z;
  t_bs : nat;
  t_dt : num A;
  t_total : num A;
  t_npart : nat
}.
Arguments mkTraj {A}.
Arguments t_steps {A}.
Arguments t_bs {A}.
Arguments t_dt {A}.
Arguments t_total {A}.
Arguments t_npart {A}.

Section Dyn.
Variable A : arith.

Definition frame : Type := list (list (num A)).

(** [norigins != '1'] *)
Definition not_str_1 (n : norigins A) : bool := negb (no_is_str A n "1"%string).

(** The pattern of every [_compute] below: gcf_offset on the discrete grid, then
    times in real units ([ti * self.trajectory.timestep for ti in self.grid]). *)
Definition offset_compute {X} (f : X -> X -> num A) (tr : traj A) (dgrid : list (nat * nat))
  (skip : nat) (x : list X) : res (list (num A) * list (num A)) :=
  r <- gcf_offset A f dgrid skip (t_steps tr) x ;;
  Ok (map (fun ti => nmul A (nofZ A ti) (t_dt tr)) (fst r), snd r).

(** numpy.sum((x-y)**2) over the coordinates of one particle *)
Definition sqdist (r s : list (num A)) : num A :=
  nsum A (map2 (fun a b => nsq A (nsub A a b)) r s).

(** msd.py:57-58 msd *)
Definition msd (x y : frame) : num A :=
  ndiv A (nsum A (flat_map (fun p => map2 (fun a b => nsq A (nsub A a b)) (fst p) (snd p)) (combine x y)))
         (nofnat A (length x)).

(** msd.py:60-68, the time grid.  [min(t_max, t_target)] keeps the first argument
    unless the second is smaller.  numpy scalar division: no exception. *)
Definition msd_grid (tr : traj A) (grid : option (list (num A))) (rmax : num A) (tsamples : Z)
  (frames : list frame) : res (list (num A)) :=
  match grid with
  | Some g => Ok g
  | None =>
      let t_max := t_total tr in
      if nlt A (n0 A) rmax then
        last <- getZ frames (-1) ;; first <- get frames 0 ;;
        let frac := ndiv A (nsq A rmax) (msd last first) in
        let t_target := nmul A frac t_max in
        linear_grid A (n0 A) (if nlt A t_target t_max then t_target else t_max) (DInt tsamples)
      else linear_grid A (n0 A) t_max (DInt tsamples)
  end.

(** msd.py:43-79 MeanSquareDisplacement.__init__ and _compute; correlation.py:208
    for [skip]. *)
Definition msd_compute (tr : traj A) (grid : option (list (num A))) (rmax : num A) (tsamples : Z)
  (n : norigins A) (no_offset : bool) (frames : list frame)
  : res (list (num A) * list (num A)) :=
  skip <- adjust_skip A (length (t_steps tr)) (t_npart tr) (t_bs tr) n ;;
  g <- msd_grid tr grid rmax tsamples frames ;;
  dg <- setup_t_grid A (t_steps tr) (t_bs tr) (t_dt tr) g (not_str_1 n && negb no_offset) ;;
  offset_compute msd tr dg skip frames.

(** Common shape of qt.py, alpha2.py: the grid is the list held by [self.grid]
    after __init__. *)
Definition grid_compute {X} (f : X -> X -> num A) (tr : traj A) (grid : list (num A))
  (n : norigins A) (frames : list X) : res (list (num A) * list (num A)) :=
  skip <- adjust_skip A (length (t_steps tr)) (t_npart tr) (t_bs tr) n ;;
  dg <- setup_t_grid A (t_steps tr) (t_bs tr) (t_dt tr) grid (not_str_1 n) ;;
  offset_compute f tr dg skip frames.

(** qt.py:34-36 self_overlap(x, y, a_square).sum() *)
Definition self_count (a2 : num A) (x y : frame) : nat :=
  length (filter (fun p => nlt A (sqdist (fst p) (snd p)) a2) (combine x y)).

(** qt.py:16-32 collective_overlap: every x[j] against every y[i] *)
Definition coll_count (a2 : num A) (x y : frame) : nat :=
  length (filter (fun p => nlt A (sqdist (fst p) (snd p)) a2)
            (flat_map (fun yi => map (fun xj => (xj, yi)) x) y)).

(** qt.py:77-79 and 55-57 *)
Definition self_overlap_f (a2 : num A) (x y : frame) : num A :=
  ndiv A (nofnat A (self_count a2 x y)) (nofnat A (length x)).
Definition coll_overlap_f (a2 : num A) (x y : frame) : num A :=
  ndiv A (nofnat A (coll_count a2 x y)) (nofnat A (length x)).

(** qt.py:69-82 SelfOverlap; [a_square = a**2]; unfolded positions. *)
Definition self_overlap_compute (tr : traj A) (grid : list (num A)) (n : norigins A) (a : num A)
  (unf : list frame) := grid_compute (self_overlap_f (nsq A a)) tr grid n unf.

(** qt.py:47-60 CollectiveOverlap; folded positions. *)
Definition coll_overlap_compute (tr : traj A) (grid : list (num A)) (n : norigins A) (a : num A)
  (pos : list frame) := grid_compute (coll_overlap_f (nsq A a)) tr grid n pos.

(** alpha2.py:32-39 alpha_2.  Frames carry their identity (position in the list)
    because the code tests [x is y]. *)
Definition alpha_2 (x y : nat * frame) : num A :=
  if fst x =? fst y then n0 A
  else
    let rows := map (fun p => sqdist (fst p) (snd p)) (combine (snd x) (snd y)) in
    let n := nofnat A (length (snd x)) in
    let dr2 := msd (snd x) (snd y) in
    let dr4 := ndiv A (nsum A (map (nsq A) rows)) n in
    nsub A (ndiv A (nmul A (nofZ A 3) dr4) (nmul A (nofZ A 5) (nsq A dr2))) (n1 A).

Definition with_id (frames : list frame) : list (nat * frame) :=
  combine (seq 0 (length frames)) frames.

(** alpha2.py:25-44 NonGaussianParameter *)
Definition alpha2_compute (tr : traj A) (grid : list (num A)) (n : norigins A) (unf : list frame) :=
  grid_compute alpha_2 tr grid n (with_id unf).

(** chi4t.py:62-77, the inner loop for one (off, i): (A, A2, cnt) as sums over
    origins range(off, len-i-skip, skip). *)
Definition chi4_sums (a2 : num A) (skip : nat) (unf : list frame) (p : nat * nat)
  : res (num A * num A * nat) :=
  rng <- py_range (fst p) (length unf - snd p - skip) skip ;;
  foldM (fun st i0 =>
    x <- get unf i0 ;; y <- get unf (i0 + snd p) ;;
    let w := nofnat A (self_count a2 x y) in
    Ok (nadd A (fst (fst st)) w, nadd A (snd (fst st)) (nsq A w), S (snd st)))
    (n0 A, n0 A, 0) rng.

(** chi4t.py:61-77: dt, (A2_av - A_av**2)/N for one (off, i). *)
Definition chi4_point (a2 : num A) (tr : traj A) (skip : nat) (unf : list frame) (p : nat * nat)
  : res (num A * num A) :=
  s <- chi4_sums a2 skip unf p ;;
  ta <- get (t_steps tr) (fst p + snd p) ;; tb <- get (t_steps tr) (fst p) ;;
  x0 <- get unf 0 ;;
  let cnt := snd s in
  let av v := if 0 <? cnt then ndiv A v (nofnat A cnt) else n0 A in
  let a_av := av (fst (fst s)) in
  let a2_av := av (snd (fst s)) in
  Ok (nmul A (nofZ A (ta - tb)) (t_dt tr),
      ndiv A (nsub A a2_av (nsq A a_av)) (nofnat A (length x0))).

(** chi4t.py:40-77 Chi4SelfOverlap, one call of compute. *)
Definition chi4_compute (tr : traj A) (grid : list (num A)) (n : norigins A) (a : num A)
  (unf : list frame) : res (list (num A * num A)) :=
  skip <- adjust_skip A (length (t_steps tr)) (t_npart tr) (t_bs tr) n ;;
  dg <- setup_t_grid A (t_steps tr) (t_bs tr) (t_dt tr) grid (not_str_1 n) ;;
  mapM (chi4_point (nsq A a) tr skip unf) dg.

(** chi4t.py:100-125 Chi4SelfOverlapOptimized: same loop (realspace.f90:9-18
    counts the same particles), but [A/cnt] with [cnt = 0] raises. *)
Definition chi4_opt_point (a2 : num A) (tr : traj A) (skip : nat) (unf : list frame) (p : nat * nat)
  : res (num A * num A) :=
  s <- chi4_sums a2 skip unf p ;;
  ta <- get (t_steps tr) (fst p + snd p) ;; tb <- get (t_steps tr) (fst p) ;;
  if snd s =? 0 then Err ZeroDivisionError
  else
    x0 <- get unf 0 ;;
    let av v := ndiv A v (nofnat A (snd s)) in
    Ok (nmul A (nofZ A (ta - tb)) (t_dt tr),
        ndiv A (nsub A (av (snd (fst s))) (nsq A (av (fst (fst s))))) (nofnat A (length x0))).

Definition chi4_opt_compute (tr : traj A) (grid : list (num A)) (n : norigins A) (a : num A)
  (unf : list frame) : res (list (num A * num A)) :=
  skip <- adjust_skip A (length (t_steps tr)) (t_npart tr) (t_bs tr) n ;;
  dg <- setup_t_grid A (t_steps tr) (t_bs tr) (t_dt tr) grid (not_str_1 n) ;;
  mapM (chi4_opt_point (nsq A a) tr skip unf) dg.

(** vacf.py:29-30 f *)
Definition vacf_f (x y : frame) : num A :=
  ndiv A (nsum A (flat_map (fun p => map2 (nmul A) (fst p) (snd p)) (combine x y)))
         (nofnat A (length x)).

(** vacf.py:22-35 VelocityAutocorrelation.  __init__ passes [tgrid], not
    [self.grid], to setup_t_grid: iterating over None is a TypeError.  The origins
    are [block_size] frames apart; [self.skip] is computed but unused. *)
Definition vacf_compute (tr : traj A) (tgrid : option (list (num A))) (n : norigins A)
  (vel : list frame) : res (list (num A) * list (num A)) :=
  _ <- adjust_skip A (length (t_steps tr)) (t_npart tr) (t_bs tr) n ;;
  match tgrid with
  | None => Err TypeError
  | Some g =>
      dg <- setup_t_grid A (t_steps tr) (t_bs tr) (t_dt tr) g (not_str_1 n) ;;
      offset_compute vacf_f tr dg (t_bs tr) vel
  end.

(** sacf.py:31-43 _get_stress for one frame: off-diagonal entries xy, xz, yz of
    the virial plus sum of mass * v_j * v_k.  [s] is a 3x3 array. *)
Definition entry (m : list (list (num A))) (j k : nat) : res (num A) :=
  r <- get m j ;; get r k.
Definition stress_frame (mass : list (num A)) (s : list (list (num A))) (vel : frame)
  : res (list (num A)) :=
  mapM (fun jk =>
    sjk <- entry s (fst jk) (snd jk) ;;
    kin <- mapM (fun mv => vj <- get (snd mv) (fst jk) ;; vk <- get (snd mv) (snd jk) ;;
                           Ok (nmul A (nmul A (fst mv) vj) vk)) (combine mass vel) ;;
    Ok (nadd A sjk (nsum A kin)))
    [(0, 1); (0, 2); (1, 2)].

(** sacf.py:46-47 f: [x.shape[0]] is 3, the number of stress components. *)
Definition sacf_f (x y : list (num A)) : num A :=
  ndiv A (nsum A (map2 (nmul A) x y)) (nofnat A (length x)).

(** sacf.py:27-54 StressAutocorrelation.  [volume] of frame 0; the grid is a
    required argument. *)
Definition sacf_compute (tr : traj A) (tgrid : list (num A)) (n : norigins A) (volume : num A)
  (mass : list (num A)) (virial : list (list (list (num A)))) (vel : list frame)
  : res (list (num A) * list (num A)) :=
  _ <- adjust_skip A (length (t_steps tr)) (t_npart tr) (t_bs tr) n ;;
  dg <- setup_t_grid A (t_steps tr) (t_bs tr) (t_dt tr) tgrid (not_str_1 n) ;;
  stress <- mapM (fun sv => stress_frame mass (fst sv) (snd sv)) (combine virial vel) ;;
  r <- offset_compute sacf_f tr dg (t_bs tr) stress ;;
  Ok (fst r, map (fun v => ndiv A v volume) (snd r)).

(** correlation.py:376-387: center of mass of unfolded positions, subtracted from
    every particle.  A particle is (mass, position); [s.particle[0]] of an empty
    system raises IndexError. *)
Definition vadd (r s : list (num A)) := map2 (nadd A) r s.
Definition vsub (r s : list (num A)) := map2 (nsub A) r s.
Definition vscale (c : num A) (r : list (num A)) := map (fun v => nmul A v c) r.

Definition center_of_mass (ps : list (num A * list (num A))) (d : nat) : list (num A) :=
  let st := fold_left (fun st p => (vadd (fst st) (vscale (fst p) (snd p)), nadd A (snd st) (fst p)))
              ps (repeat (n0 A) d, n0 A) in
  map (fun c => ndiv A c (snd st)) (fst st).

Definition fix_cm_frame (ps : list (num A * list (num A))) : res (list (num A * list (num A))) :=
  p0 <- get ps 0 ;;
  let cm := center_of_mass ps (length (snd p0)) in
  Ok (map (fun p => (fst p, vsub (snd p) cm)) ps).
End Dyn.
