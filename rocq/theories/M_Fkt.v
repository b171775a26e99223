(** Model of the intermediate scattering functions
    (atooms/postprocessing/fkt.py, fourierspace.f90:26-64), over the real numbers. *)
From Coq Require Import List ZArith Bool Arith Reals.
From Verif Require Import PyBase Num M_Helpers M_KGrid M_Fourier.
Import ListNotations.
Local Open Scope R_scope.

(** ** Time correlations per shell *)
(** fkt.py:127-128, 334-335: [acf[ik]] and [cnt[ik]], two defaultdict(float). *)
Definition tcf_state : Type := (dict R * dict R)%type.
Definition tcf_state0 : tcf_state := ([], []).

(** fkt.py:135-158, 337-344: the loops over the discrete time grid and over the
    time origins for one wave-vector.  [val later earlier] is the number added to
    acf and [w] the number added to cnt; [n] is the number of frames. *)
Definition tcf_vector (val : nat -> nat -> res R) (w : R) (steps : list Z) (n : nat)
  (dgrid : list (nat * nat)) (skip : nat) (st : tcf_state) : res tcf_state :=
  foldM (fun st p =>
    rng <- py_range (fst p) (n - snd p) skip ;;
    foldM (fun (st : tcf_state) i0 =>
      ta <- get steps (i0 + snd p) ;; tb <- get steps i0 ;;
      v <- val (i0 + snd p)%nat i0 ;;
      Ok (dupd (fst st) (ta - tb)%Z (fun u => u + v) 0,
          dupd (snd st) (ta - tb)%Z (fun u => u + w) 0)) st rng) st dgrid.

(** fkt.py:133-134, 336-337: [for ik, klist in enumerate(self._kvectors): for kvec
    in klist].  More (non-empty) shells than accumulators raise IndexError. *)
Fixpoint over_shells {S K} (step : S -> K -> res S) (sts : list S) (shells : list (list K))
  : res (list S) :=
  match shells, sts with
  | [], _ => Ok sts
  | [] :: sr, s :: r => rest <- over_shells step r sr ;; Ok (s :: rest)
  | [] :: sr, [] => over_shells step [] sr
  | _ :: _, [] => Err IndexError
  | klist :: sr, s :: r =>
      s' <- foldM step s klist ;;
      rest <- over_shells step r sr ;; Ok (s' :: rest)
  end.

(** fkt.py:164, 358: [acf[k][t] / cnt[k][t]]; a time missing from a shell divides
    0.0 by 0.0. *)
Definition tcf_ratio (st : tcf_state) (t : Z) : res R :=
  let a := match dget (fst st) t with Some x => x | None => 0 end in
  let c := match dget (snd st) t with Some x => x | None => 0 end in
  if Req_EM_T c 0 then Err ZeroDivisionError else Ok (a / c).

(** fkt.py:161-164, 347-358: times and values; [acf[0]] raises without shells. *)
Definition tcf_values (sts : list tcf_state) : res (list Z * list (list R)) :=
  s0 <- get sts 0 ;;
  let times := sortZ (keys (fst s0)) in
  v <- mapM (fun st => mapM (tcf_ratio st) times) sts ;;
  Ok (times, v).

(** ** Self part *)
(** fkt.py:137-157: [prod_d x[i0+i, p, d, kvec[d]] * conj(x[i0, p, d, kvec[d]])]
    for one particle, whose tables at the two times are [ra] and [rb]. *)
Definition pair_wave (nd : nat) (ra rb : list (list C)) (kvec : list Z) : res C :=
  foldM (fun acc d =>
    a <- get ra d ;; b <- get rb d ;; k <- get kvec d ;;
    ea <- getZ a k ;; eb <- getZ b k ;;
    Ok (cmul acc (cmul ea (cconj eb)))) c1 (seq 0 nd).

(** The number of factors: 3, 2, or [len(kvec)]. *)
Definition nfactors (ndims : nat) (kvec : list Z) : nat :=
  if ((ndims =? 3) || (ndims =? 2))%nat%bool then ndims else length kvec.

(** [numpy.sum(...).real] *)
Definition self_sum (ndims : nat) (x : list (list (list (list C)))) (kvec : list Z)
  (later earlier : nat) : res R :=
  xa <- get x later ;; xb <- get x earlier ;;
  l <- mapM (fun p => pair_wave (nfactors ndims kvec) (fst p) (snd p) kvec) (combine xa xb) ;;
  Ok (fst (csum l)).

(** fourierspace.f90:26-64: the kernels take indices from 1, and the arguments are
    (earlier, later); the n-dimensional one loops over the dimensions of the
    table. *)
Definition pair_wave_f (nd : nat) (ra rb : list (list C)) (ik : list Z) : res C :=
  foldM (fun acc d =>
    a <- get ra d ;; b <- get rb d ;; k <- get ik d ;;
    ea <- fget a k ;; eb <- fget b k ;;
    Ok (cmul acc (cmul ea (cconj eb)))) c1 (seq 0 nd).
Definition fskt_kernel (nd : nat) (xf : list (list (list (list C)))) (t1 t2 : Z) (ik : list Z) : res C :=
  xa <- fget xf t1 ;; xb <- fget xf t2 ;;
  l <- mapM (fun p => pair_wave_f nd (fst p) (snd p) ik) (combine xa xb) ;;
  Ok (csum l).
(** fkt.py:233-234 *)
Definition self_sum_fast (ndims : nat) (x : list (list (list (list C)))) (kvec : list Z)
  (later earlier : nat) : res R :=
  r <- fskt_kernel ndims x (Z.of_nat earlier + 1)%Z (Z.of_nat later + 1)%Z (map (fun z => (z + 1)%Z) kvec) ;;
  Ok (fst r).

(** fkt.py:122-125: min(200, max(20, int(N / 10.))) *)
Definition legacy_block (n : nat) : nat := Nat.min 200 (Nat.max 20 (n / 10)).
(** fkt.py:213-219.  [nb] is int(pos_size * kvec_size / target_size), an integer
    that depends on the memory the user allows (lookup_mb). *)
Definition fast_block (nb : Z) (n : nat) : nat :=
  Nat.min n (Nat.max 1 (n / Z.to_nat (Z.max 1 nb))).

(** [numpy.array(self._pos)]: frames with different numbers of particles do not
    make an array. *)
Definition stacked (pos : list (list (list R))) : bool :=
  forallb (fun f => length f =? length (nth 0 pos []))%nat pos.

(** fkt.py:129-158, 222-236: the loop over blocks of particles. *)
Definition self_loop (sum : nat -> list (list (list (list C))) -> list Z -> nat -> nat -> res R)
  (block : nat -> nat) (K : kstate Rops) (steps : list Z) (dgrid : list (nat * nat)) (skip : nat)
  (pos : list (list (list R))) : res (list tcf_state) :=
  p0 <- get pos 0 ;;
  if stacked pos then
    js <- py_range 0 (length p0) (block (length p0)) ;;
    foldM (fun sts j =>
      let part := map (fun f => firstn (block (length p0)) (skipn j f)) pos in
      x <- expo_frames (ks_k0 K) (ks_offset K) part ;;
      let w := INR (length (firstn (block (length p0)) (skipn j p0))) in
      over_shells (fun st kvec =>
        tcf_vector (sum (length (ks_k0 K)) x kvec) w steps (length pos) dgrid skip st)
        sts (ks_vectors K))
      (map (fun _ => tcf_state0) (ks_grid K)) js
  else Err ValueError.

(** fkt.py:166-170: [self.value[k][i] /= self.value[k][0]], in place. *)
Definition normalize_inplace (row : list R) : res (list R) :=
  foldM (fun row i => v <- get row i ;; v0 <- get row 0 ;; setidx row (Z.of_nat i) (v / v0))
        row (seq 0 (length row)).

(** fkt.py:109-170 SelfIntermediateScatteringLegacy._compute and 191-246
    SelfIntermediateScatteringFast._compute.  [dgrid] is [_discrete_tgrid].  The
    result lists the time differences in steps and, per shell, the values. *)
Definition self_compute sum block (K : kstate Rops) steps dgrid skip (normalize : bool) pos
  : res (list Z * list (list R)) :=
  sts <- self_loop sum block K steps dgrid skip pos ;;
  tv <- tcf_values sts ;;
  if normalize
  then v <- mapM normalize_inplace (snd tv) ;; Ok (fst tv, v)
  else Ok tv.
Definition fskt_legacy := self_compute self_sum legacy_block.
Definition fskt_fast (nb : Z) := self_compute self_sum_fast (fast_block nb).

(** ** Collective part *)
(** Dictionaries keyed by wave-vectors, with default 0 (defaultdict(complex)). *)
Definition kdict : Type := list (list Z * C).
Definition same_key (a b : list Z) : bool := if list_eq_dec Z.eq_dec a b then true else false.
Fixpoint kget (d : kdict) (k : list Z) : C :=
  match d with
  | [] => c0
  | (k', v) :: r => if same_key k k' then v else kget r k
  end.
Fixpoint kset (d : kdict) (k : list Z) (v : C) : kdict :=
  match d with
  | [] => [(k, v)]
  | (k', v') :: r => if same_key k k' then (k', v) :: r else (k', v') :: kset r k v
  end.

(** fkt.py:307-311, 325-329: in other dimensions [tmp] is a view on the table, so
    the product is stored in the table itself; only the real part is kept. *)
Definition view_product (rows : list (list C)) (kvec : list Z) : res (list (list C) * C) :=
  r0 <- get rows 0 ;; k <- get kvec 0 ;; e0 <- getZ r0 k ;;
  e <- foldM (fun acc d => r <- get rows d ;; k <- get kvec d ;; e <- getZ r k ;; Ok (cmul acc e))
             e0 (seq 1 (length kvec - 1)) ;;
  r0' <- setidx r0 k e ;;
  Ok (r0' :: skipn 1 rows, e).

(** fkt.py:297-329: the densities of one frame and one group. *)
Definition tabulate (ndims : nat) (tab : list (list (list C))) (kvecs : list (list Z)) : res kdict :=
  if ((ndims =? 3) || (ndims =? 2))%nat%bool then
    foldM (fun d kvec => r <- density ndims tab None kvec ;; Ok (kset d kvec r)) [] kvecs
  else
    st <- foldM (fun (st : list (list (list C)) * kdict) kvec =>
            l <- mapM (fun rows => view_product rows kvec) (fst st) ;;
            Ok (map fst l,
                kset (snd st) kvec (cadd (kget (snd st) kvec) (fst (csum (map snd l)), 0))))
          (tab, []) kvecs ;;
    Ok (snd st).

(** fkt.py:284-331: rho_0 or rho_1, one dictionary per frame. *)
Definition densities (K : kstate Rops) (pos : list (list (list R))) : res (list kdict) :=
  mapM (fun f =>
    tab <- expo_sphere (ks_k0 K) (ks_offset K) f ;;
    tabulate (length (ks_k0 K)) tab (concat (ks_vectors K))) pos.

(** fkt.py:344 *)
Definition collective_sum (rho0 rho1 : list kdict) (kvec : list Z) (later earlier : nat) : res R :=
  a <- get rho0 later ;; b <- get rho1 earlier ;;
  Ok (fst (cmul (kget a kvec) (cconj (kget b kvec)))).

(** fkt.py:360-364 *)
Definition normalize_first (row : list R) : res (list R) :=
  mapM (fun v => v0 <- get row 0 ;; Ok (v / v0)) row.

(** fkt.py:278-364 IntermediateScattering._compute: times, value, value_nonorm.
    [pos1 = None] stands for [self._pos_1 is self._pos_0]; otherwise both lists
    have one array per frame. *)
Definition fkt_compute (K : kstate Rops) (steps : list Z) (dgrid : list (nat * nat)) (skip : nat)
  (normalize : bool) (pos0 : list (list (list R))) (pos1 : option (list (list (list R))))
  : res (list Z * list (list R) * list (list R)) :=
  rho0 <- densities K pos0 ;;
  rho1 <- match pos1 with
          | None => Ok rho0
          | Some q => densities K q
          end ;;
  sts <- over_shells (fun st kvec =>
           tcf_vector (collective_sum rho0 rho1 kvec) 1 steps (length rho0) dgrid skip st)
           (map (fun _ => tcf_state0) (ks_grid K)) (ks_vectors K) ;;
  tv <- tcf_values sts ;;
  v <- (if normalize then mapM normalize_first (snd tv) else Ok (snd tv)) ;;
  Ok (fst tv, v, snd tv).

(** ** Time grid *)
(** fkt.py:64-80 IntermediateScatteringBase.__init__: the requested times and
    [_discrete_tgrid].  [user] is the tgrid argument, [single] tells whether
    norigins is 1 or '1'. *)
Definition scatter_times (total : R) (tsamples : nat) (user : option (list R)) (normalize : bool)
  : res (list R) :=
  match user with
  | None => logx_grid 0 (total * (3 / 4)) tsamples
  | Some g => if normalize then t0 <- get g 0 ;; Ok (if Rlt_dec 0 t0 then 0 :: g else g)
              else Ok g
  end.
Definition scatter_grid (steps : list Z) (bs : nat) (dt total : R) (tsamples : nat)
  (user : option (list R)) (normalize single : bool) : res (list (nat * nat)) :=
  g <- scatter_times total tsamples user normalize ;;
  setup_t_grid Rops steps bs dt g (negb single).
