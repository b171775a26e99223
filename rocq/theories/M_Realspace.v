(** Model of the real-space pair code: gr.py kernels and histograms, the classes
    RadialDistributionFunctionLegacy and Fast, and the Fortran kernels of
    realspace.f90.  A position is the list of its coordinates, a cell the list of
    its sides.  An out-of-bounds write of the Fortran code (undefined behaviour)
    is modelled as [Err IndexError]. *)
From Coq Require Import Ascii String List ZArith Bool Arith.
From Verif Require Import PyBase Num M_Helpers M_Correlation M_Dynamics.
Import ListNotations.
Local Open Scope nat_scope.

Section Real.
Variable A : arith.
Notation vec := (list (num A)).

(** numpy.rint on a float: nan and infinities are left alone *)
Definition rint (x : num A) : num A :=
  match nrint A x with Some z => nofZ A z | None => x end.

(** gr.py:25-26, one coordinate: r - rint(r/L)*L *)
Definition image (r L : num A) : num A := nsub A r (nmul A (rint (ndiv A r L)) L).

(** gr.py:22-27 gr_kernel for one row of x *)
Definition img_sq (x y side : vec) : num A :=
  nsum A (map2 (fun r L => nsq A (image r L)) (map2 (nsub A) x y) side).
Definition img_dist (x y side : vec) : num A := nsqrt A (img_sq x y side).

(** realspace.f90:28-34 and 511-513, one coordinate:
    where (abs(dist) > hbox) dist = dist - sign(box, dist) *)
Definition fsign (a b : num A) : num A :=
  if nlt A b (n0 A) then nopp A (nabs A a) else nabs A a.
Definition wrap (r L : num A) : num A :=
  if nlt A (ndiv A L (nofZ A 2)) (nabs A r) then nsub A r (fsign L r) else r.

(** realspace.f90:510-514 dist, rdist *)
Definition fdist (x y side : vec) : num A :=
  nsqrt A (nsum A (map2 (fun r L => nsq A (wrap r L)) (map2 (nsub A) y x) side)).

(** numpy.histogram(values, bins) for an explicit list of bin edges: ValueError
    unless the edges are monotonic; bins [e_k, e_k+1), the last one closed.
    (numpy computes differences of searchsorted indices of the sorted values;
    for values without nan these are the counts below.) *)
Fixpoint edges_ok (edges : list (num A)) : bool :=
  match edges with
  | a :: (b :: _) as r => negb (nlt A b a) && edges_ok r
  | _ => true
  end.
Fixpoint hist_counts (values : list (num A)) (edges : list (num A)) : list nat :=
  match edges with
  | a :: ((b :: rest) as r) =>
      length (filter (fun v => nle A a v && (match rest with [] => nle A v b | _ => nlt A v b end)) values)
      :: hist_counts values r
  | _ => []
  end.
Definition np_histogram (values edges : list (num A)) : res (list nat) :=
  if edges_ok edges then Ok (hist_counts values edges) else Err ValueError.

(** hist += hist_tmp *)
Definition hadd (h1 h2 : list nat) : list nat := map2 Nat.add h1 h2.

(** gr.py:37-53 pairs_newton_hist with batch size [bl]; x and y are the same list.
    [range(0, len(y)-1, bl)] is empty for fewer than two particles. *)
Definition newton_hist_batch (bl : nat) (f : vec -> vec -> num A) (x y : list vec) (edges : list (num A))
  : res (list nat) :=
  h0 <- np_histogram [] edges ;;
  batches <- py_range 0 (length y - 1) bl ;;
  foldM (fun hist ib =>
    let rows := seq ib (Nat.min (ib + bl) (length y - 1) - ib) in
    fxy <- mapM (fun i => yi <- get y i ;; Ok (map (fun xj => f xj yi) (skipn (i + 1) x))) rows ;;
    h <- np_histogram (concat fxy) edges ;;
    Ok (hadd hist h)) h0 batches.

(** gr.py:44: bl = max(1, int(1e5 / len(y))); division by zero for no particles. *)
Definition pairs_newton_hist (f : vec -> vec -> num A) (x y : list vec) (edges : list (num A)) : res (list nat) :=
  h0 <- np_histogram [] edges ;;
  if length y =? 0 then Err ZeroDivisionError
  else newton_hist_batch (Nat.max 1 (Z.to_nat (100000 / Z.of_nat (length y)))) f x y edges.

(** gr.py:56-66 pairs_hist *)
Definition pairs_hist (f : vec -> vec -> num A) (x y : list vec) (edges : list (num A)) : res (list nat) :=
  h0 <- np_histogram [] edges ;;
  foldM (fun hist yi =>
    h <- np_histogram (map (fun xj => f xj yi) x) edges ;; Ok (hadd hist h)) h0 y.

(** gr.py:132-136: bin edges from the grid of bin centers *)
Definition edges_of_grid (grid : list (num A)) : res (list (num A)) :=
  g0 <- get grid 0 ;; g1 <- get grid 1 ;; gl <- getZ grid (-1) ;;
  let half := ndiv A (nsub A g1 g0) (nofZ A 2) in
  Ok (map (fun g => nsub A g half) grid ++ [nadd A gl half]).

(** gr.py:160-169 and 341-348 shell volumes; [pi] given, gamma(n+1) = n! *)
Fixpoint npow (x : num A) (n : nat) : num A :=
  match n with 0 => n1 A | S n => nmul A x (npow x n) end.
Definition shell (pi : num A) (ndims : nat) (r0 r1 : num A) : num A :=
  match ndims with
  | 2 => nmul A pi (nsub A (npow r1 2) (npow r0 2))
  | 3 => nmul A (ndiv A (nmul A (nofZ A 4) pi) (nofZ A 3)) (nsub A (npow r1 3) (npow r0 3))
  | _ => let n2 := Nat.div2 ndims in
         ndiv A (nmul A (npow pi n2) (nsub A (npow r1 ndims) (npow r0 ndims))) (nofnat A (fact n2))
  end.

(** numpy.average(list of histograms, axis=0) *)
Definition hist_average (nbins : nat) (hs : list (list nat)) : list (num A) :=
  map (fun k => ndiv A (nsum A (map (fun h => nofnat A (nth k h 0)) hs)) (nofnat A (length hs))) (seq 0 nbins).

(** gr.py:131-185 RadialDistributionFunctionLegacy._compute, from the grid of bin
    centers.  [same] is [self._pos_0 is self._pos_1]; [sides] are the cells of all
    frames, [volume] that of the last frame read, [crop] the upper limit applied to
    the grid at the end (rmax, or half the smallest side). *)
Definition gr_legacy (pi : num A) (ndims : nat) (same : bool) (grid : list (num A)) (skip : nat)
  (pos0 pos1 : list (list vec)) (sides : list vec) (volume crop : num A)
  : res (list (num A * num A)) :=
  edges <- edges_of_grid grid ;;
  _ <- np_histogram [] edges ;;
  origins <- py_range 0 (length pos0) skip ;;
  hs <- foldM (fun acc i =>
      p0 <- get pos0 i ;; p1 <- get pos1 i ;; side <- get sides i ;;
      if (length p0 =? 0) || (length p1 =? 0) then Ok acc
      else
        let f := fun x y => img_dist x y side in
        h <- (if same then pairs_newton_hist f p0 p1 edges else pairs_hist f p0 p1 edges) ;;
        Ok (acc ++ [h])) [] origins ;;
  let N0 := nmean A (map (fun p => nofnat A (length p)) pos0) in
  let N1 := nmean A (map (fun p => nofnat A (length p)) pos1) in
  let rho := ndiv A N1 volume in
  let pairs := combine edges (tl edges) in
  let vals := map2 (fun g e =>
      let norm := nmul A (nmul A rho (shell pi ndims (fst e) (snd e))) N0 in
      ndiv A g (if same then nmul A norm (ndiv A (n1 A) (nofZ A 2)) else norm))
    (hist_average (length pairs) hs) pairs in
  let centers := map (fun e => ndiv A (nadd A (fst e) (snd e)) (nofZ A 2)) pairs in
  Ok (filter (fun gv => nle A (fst gv) crop) (combine centers vals)).

(** ** Fortran kernels *)

(** hist(bin) = hist(bin) + 1 with bin = floor(d/dr) + 1 *)
Fixpoint incr (h : list nat) (k : nat) : list nat :=
  match h, k with
  | [], _ => []
  | a :: r, 0 => S a :: r
  | a :: r, S k => a :: incr r k
  end.
Definition bin_add (dr : num A) (h : list nat) (d : num A) : res (list nat) :=
  match nfloor A (ndiv A d dr) with
  | Some z => if (0 <=? z)%Z && (z <? Z.of_nat (length h))%Z then Ok (incr h (Z.to_nat z)) else Err IndexError
  | None => Err IndexError
  end.

(** realspace.f90:492-530 gr_self_C: hist after the call, for a histogram of size n. *)
Definition gr_self_c (pos : list vec) (side : vec) (dr : num A) (n : nat) : res (list nat) :=
  let rmax := nmul A dr (nofnat A n) in
  foldM (fun h i =>
    pi <- get pos i ;;
    foldM (bin_add dr) h
      (filter (fun d => nlt A d rmax) (map (fun pj => fdist pi pj side) (skipn (i + 1) pos))))
    (repeat 0 n) (seq 0 (length pos)).

(** realspace.f90:579-617 gr_distinct_c *)
Definition gr_distinct_c (pos1 pos2 : list vec) (side : vec) (dr : num A) (n : nat) : res (list nat) :=
  let rmax := nmul A dr (nofnat A n) in
  foldM (fun h pi =>
    foldM (bin_add dr) h
      (filter (fun d => nlt A d rmax) (map (fun pj => fdist pi pj side) pos2)))
    (repeat 0 n) pos1.

(** realspace.f90:299-342 gr_neighbors_self_c and 400-443 gr_neighbors_distinct_c:
    the listed neighbours only, no range check. *)
Definition gr_neighbors_c (pos1 pos2 : list vec) (neigh : list (list nat)) (side : vec) (dr : num A) (n : nat)
  : res (list nat) :=
  foldM (fun h pn =>
    ds <- mapM (fun j => pj <- get pos2 j ;; Ok (fdist (fst pn) pj side)) (snd pn) ;;
    foldM (bin_add dr) h ds)
    (repeat 0 n) (combine pos1 neigh).

(** realspace.f90:526-529: bins overwritten by the kernels *)
Definition fbins (dr : num A) (n : nat) : list (num A) :=
  map (fun j => nadd A (nmul A dr (nofnat A j)) (ndiv A dr (nofZ A 2))) (seq 0 n).

(** gr.py:327-370 RadialDistributionFunctionFast: normalization of the collected
    (histogram, (number of particles 0, 1)), for a periodic cell.  If no frame has
    particles, [distinct] is unbound at line 353. *)
Definition fast_finish (pi : num A) (ndims : nat) (same : bool) (dr : num A) (n : nat)
  (st : list (list nat * (nat * nat))) (volume crop : num A) : res (list (num A * num A)) :=
  _ <- (match st with [] => Err UnboundLocalError | _ => Ok tt end) ;;
  let bins := fbins dr n in
  b0 <- get bins 0 ;; b1 <- get bins 1 ;;
  let half := ndiv A (nsub A b1 b0) (nofZ A 2) in
  let r := map (fun b => nsub A b half) bins in
  let N0 := nmean A (map (fun s => nofnat A (fst (snd s))) st) in
  let N1 := nmean A (map (fun s => nofnat A (snd (snd s))) st) in
  let rho := ndiv A N1 volume in
  let pairs := combine r (tl r) in
  let vals := map2 (fun g e =>
      let norm := nmul A (nmul A rho (shell pi ndims (fst e) (snd e))) N0 in
      ndiv A g (if same then ndiv A norm (nofZ A 2) else norm))
    (hist_average (length pairs) (map fst st)) pairs in
  Ok (filter (fun gv => nle A (fst gv) crop) (combine bins vals)).

(** gr.py:211-371 RadialDistributionFunctionFast._compute for a periodic cell and
    without linked cells. *)
Definition gr_fast (pi : num A) (ndims : nat) (same : bool) (grid : list (num A)) (skip : nat)
  (pos0 pos1 : list (list vec)) (sides : list vec) (volume crop : num A)
  : res (list (num A * num A)) :=
  g0 <- get grid 0 ;; g1 <- get grid 1 ;;
  let dr := nsub A g1 g0 in
  let n := length grid in
  origins <- py_range 0 (length pos0) skip ;;
  st <- foldM (fun acc i =>
      p0 <- get pos0 i ;; p1 <- get pos1 i ;; side <- get sides i ;;
      if (length p0 =? 0) || (length p1 =? 0) then Ok acc
      else
        h <- (if same then gr_self_c p0 side dr n else gr_distinct_c p0 p1 side dr n) ;;
        Ok (acc ++ [(h, (length p0, length p1))])) [] origins ;;
  fast_finish pi ndims same dr n st volume crop.

(** gr.py:100-123 _setup_grid with a cell: [sqrt_d] is ndims**0.5 *)
Definition gr_grid (dr maxside sqrt_d : num A) : res (list (num A)) :=
  linear_grid A (ndiv A dr (nofZ A 2)) (nmul A maxside sqrt_d) (DFloat dr).

End Real.
