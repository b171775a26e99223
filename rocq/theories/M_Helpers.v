(** Model of atooms/postprocessing/helpers.py. *)
From Coq Require Import Ascii String List ZArith Bool Arith Reals.
From Verif Require Import PyBase Num.
Import ListNotations.
Local Open Scope nat_scope.

(** The third argument of [linear_grid]: a Python int or a Python float. *)
Inductive grid_delta (A : arith) : Type :=
| DInt (n : Z)
| DFloat (d : num A).
Arguments DInt {A} n.
Arguments DFloat {A} d.

(** [min_val + i*delta for i in range(n)] *)
Definition grid_points (A : arith) (a d : num A) (n : Z) : list (num A) :=
  map (fun i => nadd A a (nmul A (nofnat A i) d)) (seq 0 (Z.to_nat n)).

(** helpers.py:4-14 linear_grid.  [min_val], [max_val] are floats.  A zero float
    [delta] raises ZeroDivisionError; int() of inf or nan raises. *)
Definition linear_grid (A : arith) (min_val max_val : num A) (delta : grid_delta A)
  : res (list (num A)) :=
  match delta with
  | DInt n =>
      if (1 <? n)%Z
      then Ok (grid_points A min_val (ndiv A (nsub A max_val min_val) (nofZ A (n - 1))) n)
      else Ok (grid_points A min_val (n0 A) n)
  | DFloat d =>
      if neq A d (n0 A) then Err ZeroDivisionError
      else match ntrunc A (ndiv A (nsub A max_val min_val) d) with
           | Some k => Ok (grid_points A min_val d (k + 1))
           | None => Err ValueError
           end
  end.

(** helpers.py:17-25 logx_grid, over the reals.  Python's [b**e] for a
    non-negative base is [rpow]: [0**e] is 0 for e > 0.  A negative base gives a
    complex number in Python 3 and is not modelled ([x1 <= 0] and [x2 < 0], or
    [x1 > 0] and [x2 < 0]).  [n = 0] raises ZeroDivisionError. *)
Definition rpow (b e : R) : R :=
  if Req_EM_T b 0 then (if Req_EM_T e 0 then 1%R else 0%R) else Rpower b e.

Definition logx_grid (x1 x2 : R) (n : nat) : res (list R) :=
  if n =? 0 then Err ZeroDivisionError
  else if Rltb 0 x1 then
    let xx := rpow (x2 / x1) (1 / INR n) in
    Ok (x1 :: map (fun i => x1 * xx ^ (i + 1))%R (seq 1 (n - 1)))
  else
    let xx := rpow x2 (1 / INR n) in
    Ok (x1 :: map (fun i => xx ^ (i + 1) - 1)%R (seq 1 (n - 1))).

(** [min(f)], [max(f)] on a list of floats: the running best is replaced only by
    a strictly smaller (greater) entry. *)
Fixpoint list_best (A : arith) (better : num A -> num A -> bool) (best : num A)
  (l : list (num A)) : num A :=
  match l with
  | [] => best
  | x :: r => list_best A better (if better x best then x else best) r
  end.

(** [l.index(v)] *)
Fixpoint list_index (A : arith) (l : list (num A)) (v : num A) : res nat :=
  match l with
  | [] => Err ValueError
  | x :: r => if neq A x v then Ok 0 else i <- list_index A r v ;; Ok (S i)
  end.

Definition index_best (A : arith) (better : num A -> num A -> bool) (f : list (num A))
  : res nat :=
  match f with
  | [] => Err ValueError
  | x :: r => list_index A f (list_best A better x r)
  end.

(** Literals 2, 4. *)
Definition n2 (A : arith) := nofZ A 2.
Definition n4 (A : arith) := nofZ A 4.
Definition nsq (A : arith) (x : num A) := nmul A x x.

(** helpers.py:40-42 _vertex_parabola.  Division by zero raises (Python floats). *)
Definition vertex_parabola (A : arith) (a b c : num A) : res (num A * num A) :=
  if neq A (nmul A (n2 A) a) (n0 A) then Err ZeroDivisionError
  else if neq A (nmul A (n4 A) a) (n0 A) then Err ZeroDivisionError
  else Ok (ndiv A (nopp A b) (nmul A (n2 A) a),
           ndiv A (nopp A (nsub A (nsq A b) (nmul A (nmul A (n4 A) a) c))) (nmul A (n4 A) a)).

(** helpers.py:44-50 _parabola_3points. *)
Definition parabola_3points (A : arith) (x1 y1 x2 y2 x3 y3 : num A)
  : res (num A * num A * num A) :=
  let add := nadd A in let sub := nsub A in let mul := nmul A in
  let delta := mul (mul (sub x1 x2) (sub x1 x3)) (sub x2 x3) in
  if neq A delta (n0 A) then Err ZeroDivisionError
  else
    let a := ndiv A (add (add (mul x3 (sub y2 y1)) (mul x2 (sub y1 y3))) (mul x1 (sub y3 y2))) delta in
    let b := ndiv A (add (add (mul (nsq A x3) (sub y1 y2)) (mul (nsq A x2) (sub y3 y1)))
                         (mul (nsq A x1) (sub y2 y3))) delta in
    let c := ndiv A (add (add (mul (mul (mul x2 x3) (sub x2 x3)) y1)
                              (mul (mul (mul x3 x1) (sub x3 x1)) y2))
                         (mul (mul (mul x1 x2) (sub x1 x2)) y3)) delta in
    Ok (a, b, c).

(** helpers.py:57-65, one turn of the loop over [imin, imax]. *)
Definition ifabsmm_at (A : arith) (x f : list (num A)) (i : nat) : res (num A * num A) :=
  if (i =? length f - 1) || (i =? 0)
  then xi <- get x i ;; fi <- get f i ;; Ok (xi, fi)
  else
    x1 <- get x (i - 1) ;; f1 <- get f (i - 1) ;;
    x2 <- get x i ;; f2 <- get f i ;;
    x3 <- get x (i + 1) ;; f3 <- get f (i + 1) ;;
    abc <- parabola_3points A x1 f1 x2 f2 x3 f3 ;;
    vertex_parabola A (fst (fst abc)) (snd (fst abc)) (snd abc).

(** helpers.py:28-66 ifabsmm.  Data are Python floats (the API passes lists). *)
Definition ifabsmm (A : arith) (x f : list (num A))
  : res ((num A * num A) * (num A * num A)) :=
  imin <- index_best A (fun a b => nlt A a b) f ;;
  imax <- index_best A (fun a b => nlt A b a) f ;;
  mn <- ifabsmm_at A x f imin ;;
  mx <- ifabsmm_at A x f imax ;;
  Ok (mn, mx).

(** math.sqrt: ValueError on a negative number. *)
Definition msqrt (A : arith) (x : num A) : res (num A) :=
  if nlt A x (n0 A) then Err ValueError else Ok (nsqrt A x).

Definition map2 {X Y Z} (f : X -> Y -> Z) (l : list X) (m : list Y) : list Z :=
  map (fun p => f (fst p) (snd p)) (combine l m).

(** helpers.py:69-94 linear_fit.  numpy.sum is modelled as a left-to-right sum
    (numpy sums pairwise from 8 entries on); arrays of different lengths (a
    broadcasting error) are not modelled; numpy scalar division by zero does not
    raise. *)
Definition linear_fit (A : arith) (xdata ydata : list (num A))
  : res (num A * num A * num A * num A) :=
  let add := nadd A in let sub := nsub A in let mul := nmul A in let div := ndiv A in
  let n := nofnat A (length ydata) in
  let dof := (Z.of_nat (length ydata) - 2)%Z in
  let sx := nsum A xdata in
  let sy := nsum A ydata in
  let sxy := nsum A (map2 mul xdata ydata) in
  let sxx := nsum A (map (nsq A) xdata) in
  let syy := nsum A (map (nsq A) ydata) in
  let a := div (sub (mul n sxy) (mul sx sy)) (sub (mul n sxx) (nsq A sx)) in
  let b := sub (div sy n) (div (mul a sx) n) in
  let s := if (0 <? dof)%Z
           then div (sub (sub (mul n syy) (nsq A sy))
                         (mul (nsq A a) (sub (mul n sxx) (nsq A sx))))
                    (nofZ A (Z.of_nat (length ydata) * dof))
           else n0 A in
  let sa := div (mul n s) (sub (mul n sxx) (nsq A sx)) in
  let sb := div (mul sa sxx) n in
  ra <- msqrt A sa ;; rb <- msqrt A sb ;;
  Ok (a, b, ra, rb).

(** helpers.py:104-114: loop of feqc from index [i] on.  Python floats: a zero
    denominator raises.  [x[i-1]] with [i = 0] is Python's last entry. *)
Fixpoint feqc_loop (A : arith) (x f : list (num A)) (fstar s : num A) (i left : nat)
  : res (option (num A * nat)) :=
  match left with
  | 0 => Ok None
  | S left' =>
      fi <- get f i ;;
      if nlt A (nmul A (nsub A fi fstar) s) (n0 A)
      then
        fp <- getZ f (Z.of_nat i - 1) ;;
        xi <- get x i ;;
        xp <- getZ x (Z.of_nat i - 1) ;;
        if neq A (nsub A xi xp) (n0 A) then Err ZeroDivisionError
        else
          let dxf := ndiv A (nsub A fi fp) (nsub A xi xp) in
          if neq A dxf (n0 A) then Err ZeroDivisionError
          else Ok (Some (nadd A xp (ndiv A (nsub A fstar fp) dxf), i))
      else feqc_loop A x f fstar s (S i) left'
  end.

(** helpers.py:97-114 feqc; [None] stands for the pair (None, None). *)
Definition feqc (A : arith) (x f : list (num A)) (fstar : num A)
  : res (option (num A * nat)) :=
  f0 <- get f 0 ;;
  feqc_loop A x f fstar (nsub A f0 fstar) 0 (Nat.min (length x) (length f)).

(** Particles as seen by the filters: a species name and the remaining
    properties, which the filters never look at. *)
Record particle (D : Type) : Type := mkParticle { species : string; pdata : D }.
Arguments mkParticle {D}.
Arguments species {D}.
Arguments pdata {D}.

(** helpers.py:117-127 filter_species on the list of particles of a system.
    copy.copy makes a shallow copy whose particle list is rebound, so the
    argument is untouched: the function returns a new list. *)
Definition filter_species {D} (particles : list (particle D)) (sp : option string)
  : list (particle D) :=
  match sp with
  | None => particles
  | Some s => filter (fun p => String.eqb (species p) s) particles
  end.

(** Values accepted for [n_origins]. *)
Inductive norigins (A : arith) : Type :=
| NoNone
| NoInt (z : Z)
| NoFloat (x : num A)
| NoStr (s : string).
Arguments NoNone {A}.
Arguments NoInt {A} z.
Arguments NoFloat {A} x.
Arguments NoStr {A} s.

(** int() and float() of a string, for optionally signed decimal numbers; other
    spellings (exponents, blanks, underscores, inf, nan) are treated as invalid,
    which is a simplification. *)
Definition digit (c : ascii) : option Z :=
  let n := Z.of_nat (nat_of_ascii c) in
  if ((48 <=? n) && (n <=? 57))%Z then Some (n - 48)%Z else None.

Fixpoint digits (s : string) (acc : Z) (len : nat) : option (Z * nat * string) :=
  match s with
  | EmptyString => Some (acc, len, EmptyString)
  | String c r =>
      match digit c with
      | Some d => digits r (acc * 10 + d)%Z (S len)
      | None => Some (acc, len, s)
      end
  end.

Definition parse_sign (s : string) : bool * string :=
  match s with
  | String c r =>
      if Ascii.eqb c "-"%char then (true, r)
      else if Ascii.eqb c "+"%char then (false, r) else (false, s)
  | EmptyString => (false, s)
  end.

Definition str_int (s : string) : res Z :=
  let (neg, r) := parse_sign s in
  match digits r 0 0 with
  | Some (v, S _, EmptyString) => Ok (if neg then (- v)%Z else v)
  | _ => Err ValueError
  end.

Definition str_float (A : arith) (s : string) : res (num A) :=
  let (neg, r) := parse_sign s in
  let sg (v : num A) := if neg then nopp A v else v in
  match digits r 0 0 with
  | Some (v, S _, EmptyString) => Ok (sg (nofZ A v))
  | Some (v, k, String c r') =>
      if Ascii.eqb c "."%char then
        match digits r' v 0 with
        | Some (w, k', EmptyString) =>
            if (k + k' =? 0) then Err ValueError
            else Ok (sg (ndiv A (nofZ A w) (nofZ A (10 ^ Z.of_nat k'))))
        | _ => Err ValueError
        end
      else Err ValueError
  | _ => Err ValueError
  end.

(** float(n_origins), int(n_origins) *)
Definition no_float (A : arith) (n : norigins A) : res (num A) :=
  match n with
  | NoNone => Err TypeError
  | NoInt z => Ok (nofZ A z)
  | NoFloat x => Ok x
  | NoStr s => str_float A s
  end.

Definition pyint (A : arith) (x : num A) : res Z :=
  match ntrunc A x with Some z => Ok z | None => Err ValueError end.

Definition no_int (A : arith) (n : norigins A) : res Z :=
  match n with
  | NoNone => Err TypeError
  | NoInt z => Ok z
  | NoFloat x => pyint A x
  | NoStr s => str_int s
  end.

Definition no_is_str (A : arith) (n : norigins A) (s : string) : bool :=
  match n with NoStr s' => String.eqb s' s | _ => false end.

(** Python float division. *)
Definition pydiv (A : arith) (x y : num A) : res (num A) :=
  if neq A y (n0 A) then Err ZeroDivisionError else Ok (ndiv A x y).

(** helpers.py:145-177, the choice of skip.  [nsteps] = len(trajectory.steps),
    [bs] = trajectory.block_size, [npart] = number of particles of frame 0. *)
Definition skip_choice (A : arith) (nsteps npart bs : nat) (n : norigins A) : res Z :=
  match n with
  | NoNone =>
      if bs =? 1
      then q <- pydiv A (nofZ A (Z.of_nat nsteps * Z.of_nat npart)) (nofZ A 40000) ;; pyint A q
      else Ok (Z.of_nat bs)
  | _ =>
      x <- no_float A n ;;
      if nlt A x (n0 A) || no_is_str A n "1.0"%string then Ok (Z.of_nat bs)
      else if nlt A (n1 A) x then
        q <- pydiv A (nofnat A (nsteps / bs)) x ;;
        k <- pyint A q ;; Ok (k * Z.of_nat bs)%Z
      else
        i <- no_int A n ;;
        if (i =? 1)%Z then Ok (Z.of_nat nsteps)
        else q <- pydiv A (n1 A) x ;; k <- pyint A q ;; Ok (k * Z.of_nat bs)%Z
  end.

(** helpers.py:145-186 adjust_skip. *)
Definition adjust_skip (A : arith) (nsteps npart bs : nat) (n : norigins A) : res nat :=
  skip <- skip_choice A nsteps npart bs n ;;
  ok <- (if (skip mod Z.of_nat bs =? 0)%Z then Ok true
         else i <- no_int A n ;; Ok (i =? 1)%Z) ;;
  if (ok : bool)
  then Ok (Z.to_nat (Z.min (Z.of_nat nsteps) (Z.max 1 skip)))
  else Err ValueError.

(** helpers.py:189-207 _templated (keep_multiple=False) on integers. *)
Definition templated (entry template : list Z) : res (list Z) :=
  match_ <- mapM (fun t => min_by (fun x => Z.abs (x - t)) entry) template ;;
  Ok (sortZ (setZ match_)).

(** helpers.py:213-221: the dictionary from time differences to the first
    (offset, lag) realising them. *)
Definition off_samp (steps : list Z) (offsets : list nat) : res (dict (nat * nat)) :=
  foldM (fun d off =>
    rng <- py_range off (length steps - off) 1 ;;
    foldM (fun d i =>
      si <- get steps i ;; so <- get steps off ;;
      match dget d (si - so)%Z with
      | Some _ => Ok d
      | None => Ok (dset d (si - so)%Z (off, i - off))
      end) d rng) [] offsets.

(** int(round(t/timestep)) *)
Definition to_step (A : arith) (timestep t : num A) : res Z :=
  q <- pydiv A t timestep ;;
  match nrint A q with Some z => Ok z | None => Err ValueError end.

(** helpers.py:210-228 setup_t_grid.  [bs] = trajectory.block_size. *)
Definition setup_t_grid (A : arith) (steps : list Z) (bs : nat) (timestep : num A)
  (t_grid : list (num A)) (offset : bool) : res (list (nat * nat)) :=
  d <- off_samp steps (if offset then seq 0 bs else [0]) ;;
  ts <- mapM (to_step A timestep) t_grid ;;
  ks <- templated (sortZ (keys d)) (sortZ (setZ ts)) ;;
  mapM (dgetE d) ks.
