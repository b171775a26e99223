(** Model of the tabulated exponentials (atooms/postprocessing/fourierspace.py)
    and of the structure factor (sk.py), over the real numbers.  complex128 is
    modelled by pairs of reals. *)
From Coq Require Import List ZArith Bool Arith Reals.
From Verif Require Import PyBase Num M_Helpers M_KGrid.
Import ListNotations.
Local Open Scope R_scope.

(** ** Complex numbers *)
Definition C : Type := (R * R)%type.
Definition c0 : C := (0, 0).
Definition c1 : C := (1, 0).
Definition cadd (a b : C) : C := (fst a + fst b, snd a + snd b).
Definition csub (a b : C) : C := (fst a - fst b, snd a - snd b).
Definition cmul (a b : C) : C := (fst a * fst b - snd a * snd b, fst a * snd b + snd a * fst b).
Definition cconj (a : C) : C := (fst a, - snd a).
(** exp(1j * x) *)
Definition cis (x : R) : C := (cos x, sin x).
(** division by a real number *)
Definition cdivr (a : C) (x : R) : C := (fst a / x, snd a / x).
(** numpy.sum *)
Definition csum (l : list C) : C := fold_left cadd l c0.

(** [a[i] = v] *)
Definition setidx {X} (l : list X) (i : Z) (v : X) : res (list X) :=
  let j := if (i <? 0)%Z then (i + Z.of_nat (length l))%Z else i in
  if ((0 <=? j) && (j <? Z.of_nat (length l)))%Z%bool
  then Ok (firstn (Z.to_nat j) l ++ v :: skipn (S (Z.to_nat j)) l)
  else Err IndexError.

(** ** Tables *)
(** fourierspace.py:21-51 expo_sphere for one particle and one dimension: [kj] is
    k0[j], [x] the coordinate, [junk] the content of the uninitialised array (of
    2*nk_max+1 entries).  numpy carries out each assignment for all particles
    (and frames) at once; the entries do not interact. *)
Definition expo_row (junk : list C) (kj : R) (nk : Z) (x : R) : res (list C) :=
  t <- setidx junk nk c1 ;;
  t <- setidx t (nk + 1) (cis (kj * x)) ;;
  e <- getZ t (nk + 1) ;;
  t <- setidx t (nk - 1) (cconj e) ;;
  t <- foldM (fun t i => a <- getZ t (nk + i - 1) ;; b <- getZ t (nk + 1) ;;
                         setidx t (nk + i) (cmul a b)) t (zrange 2 (nk - 1)) ;;
  foldM (fun t i => a <- getZ t (nk + i - 1) ;; b <- getZ t (nk + 1) ;;
                    t <- setidx t (nk + i) (cmul a b) ;;
                    c <- getZ t (nk + i) ;;
                    setidx t (nk - i) (cconj c)) t (zrange 2 nk).

(** One particle: [for j in range(pos[0].shape[-1])], [k0[j]] *)
Definition expo_particle (k0 : list R) (nk : Z) (x : list R) : res (list (list C)) :=
  mapM (fun j => kj <- get k0 j ;; xj <- get x j ;;
                 expo_row (repeat c0 (Z.to_nat (2 * nk + 1))) kj nk xj)
       (seq 0 (length x)).

(** A frame: an array (particle, dimension); [pos[0]] raises on an empty array. *)
Definition expo_sphere (k0 : list R) (nk : Z) (pos : list (list R)) : res (list (list (list C))) :=
  match pos with
  | [] => Err IndexError
  | _ => mapM (expo_particle k0 nk) pos
  end.

(** Several frames: an array (frame, particle, dimension). *)
Definition expo_frames (k0 : list R) (nk : Z) (pos : list (list (list R)))
  : res (list (list (list (list C)))) :=
  match pos with
  | [] => Err IndexError
  | _ => mapM (mapM (expo_particle k0 nk)) pos
  end.

(** fourierspace.py:54-75 expo_sphere_safe: same recursion, the size of the table
    being computed from kmax. *)
Definition expo_frames_safe (k0 : list R) (kmax : R) (pos : list (list (list R)))
  : res (list (list (list (list C)))) :=
  km <- kmin0 Rops k0 ;;
  mapM (mapM (expo_particle k0 (1 + Rtrunc (kmax / km)))) pos.

(** ** Structure factor *)
(** [w * expo[p, 0, kvec[0]] * expo[p, 1, kvec[1]] * ...] for one particle *)
Definition plane_wave (nd : nat) (rows : list (list C)) (kvec : list Z) (w : C) : res C :=
  foldM (fun acc d => r <- get rows d ;; k <- get kvec d ;; e <- getZ r k ;; Ok (cmul acc e))
        w (seq 0 nd).

(** Sum over particles; [w] is the array of weights, or None for 1.0. *)
Definition weights (w : option (list R)) (n : nat) : list C :=
  match w with
  | None => repeat c1 n
  | Some l => map (fun x => (x, 0)) l
  end.
Definition density (nd : nat) (tab : list (list (list C))) (w : option (list R)) (kvec : list Z)
  : res C :=
  if (length (weights w (length tab)) =? length tab)%nat then
    l <- mapM (fun p => plane_wave nd (fst p) kvec (snd p)) (combine tab (weights w (length tab))) ;;
    Ok (csum l)
  else Err ValueError.

(** sk.py:128-137: the cross branch for other dimensions starts from dimension 0
    and multiplies by it again. *)
Definition density_cross_nd (nd : nat) (tab : list (list (list C))) (w : option (list R)) (kvec : list Z)
  : res C :=
  if (length (weights w (length tab)) =? length tab)%nat then
    l <- mapM (fun p => r <- get (fst p) 0 ;; k <- get kvec 0 ;; e <- getZ r k ;;
                        plane_wave nd (fst p) kvec (cmul (snd p) e))
              (combine tab (weights w (length tab))) ;;
    Ok (csum l)
  else Err ValueError.

(** sk.py:91-137: rho_0 and rho_1 of one frame and one wave-vector.  [same] is
    [expo_0 is expo_1]. *)
Definition rho_pair (same : bool) (nd : nat) (tab0 tab1 : list (list (list C)))
  (w0 w1 : option (list R)) (kvec : list Z) : res (C * C) :=
  if same then r <- density nd tab0 w0 kvec ;; Ok (r, r)
  else if ((nd =? 3) || (nd =? 2))%nat%bool then
    r0 <- density nd tab0 w0 kvec ;; r1 <- density nd tab1 w1 kvec ;; Ok (r0, r1)
  else
    r0 <- density_cross_nd nd tab0 w0 kvec ;; r1 <- density_cross_nd nd tab1 w0 kvec ;; Ok (r0, r1).

(** The accumulators (cnt, rho_0_av, rho_1_av, rho2_av) of one shell. *)
Definition sk_acc : Type := (nat * C * C * C)%type.
Definition sk_acc0 : sk_acc := (0%nat, c0, c0, c0).
(** sk.py:139-143 *)
Definition sk_add (a : sk_acc) (r : C * C) : sk_acc :=
  let '(n, a0, a1, a2) := a in
  (S n, cadd a0 (fst r), cadd a1 (snd r), cadd a2 (cmul (fst r) (cconj (snd r)))).

(** sk.py:89-143: all shells of one frame.  More shells than accumulators raise
    IndexError; accumulators without a shell are left alone. *)
Fixpoint sk_shells (rho : list Z -> res (C * C)) (accs : list sk_acc) (shells : list (list (list Z)))
  : res (list sk_acc) :=
  match shells, accs with
  | [], _ => Ok accs
  | [] :: sr, a :: ar => rest <- sk_shells rho ar sr ;; Ok (a :: rest)
  | [] :: sr, [] => sk_shells rho [] sr
  | _ :: _, [] => Err IndexError
  | klist :: sr, a :: ar =>
      a' <- foldM (fun a kvec => r <- rho kvec ;; Ok (sk_add a r)) a klist ;;
      rest <- sk_shells rho ar sr ;; Ok (a' :: rest)
  end.

(** One frame: positions of the two groups, and the two weight arrays. *)
Record sk_frame : Type := mkSkFrame {
  sf_pos0 : list (list R);
  sf_pos1 : list (list R);
  sf_w0 : option (list R);
  sf_w1 : option (list R)
}.

(** sk.py:71-143 for frame [i], whose wave-vectors are [kst i] (see below). *)
Definition sk_step (same : bool) (nd : nat) (kst : nat -> kstate Rops) (frames : list sk_frame)
  (accs : list sk_acc) (i : nat) : res (list sk_acc) :=
  f <- get frames i ;;
  tab0 <- expo_sphere (ks_k0 (kst i)) (ks_offset (kst i)) (sf_pos0 f) ;;
  tab1 <- (if same then Ok tab0
           else expo_sphere (ks_k0 (kst i)) (ks_offset (kst i)) (sf_pos1 f)) ;;
  sk_shells (rho_pair same nd tab0 tab1 (sf_w0 f) (sf_w1 f)) accs (ks_vectors (kst i)).

(** sk.py:145-161: the value of one shell.  [weighted] is [_weight_0 is not None].
    A shell without vectors divides a Python complex by the int 0. *)
Definition sk_value (weighted : bool) (a : sk_acc) : res R :=
  let '(n, a0, a1, a2) := a in
  let b0 := if weighted then a0 else c0 in
  let b1 := if weighted then a1 else c0 in
  if (n =? 0)%nat then Err ZeroDivisionError
  else Ok (fst (csub (cdivr a2 (INR n)) (cdivr (cmul b0 (cconj b1)) (INR n * INR n)))).

(** [sum([p.shape[0] for p in pos]) / float(len(pos))] *)
Definition mean_number (pos : list (list (list R))) : R :=
  nmean Rops (map (fun q => INR (length q)) pos).

(** sk.py:58-163 StructureFactorLegacy._compute.  [kst i] are the wave-vectors in
    force at frame [i]: always those of compute() for a constant cell, and those
    of [_setup(i)] for a variable one (for frame 0 [_setup] returns at once).
    [same] is [_pos_0[i] is _pos_1[i]], the same for all frames.  The number of
    dimensions and of shells are read before the loop.  The result lists, per
    shell, the value and the value without normalisation. *)
Definition structure_factor (same weighted : bool) (kst : nat -> kstate Rops) (skip : nat)
  (frames : list sk_frame) : res (list (R * R)) :=
  let nsteps := length frames in
  let nd := length (ks_k0 (kst 0%nat)) in
  rng <- py_range 0 nsteps skip ;;
  accs <- foldM (sk_step same nd kst frames) (map (fun _ => sk_acc0) (ks_grid (kst 0%nat))) rng ;;
  let n0 := mean_number (map sf_pos0 frames) in
  let n1 := mean_number (map sf_pos1 frames) in
  mapM (fun a => v <- sk_value weighted a ;; Ok (v / sqrt (n0 * n1), v)) accs.

(** ** The Fortran version *)
(** fourierspace.f90:8-19 sk_bare for one particle: indices start from 1; index 0
    is outside the array (the code is compiled without bounds checking; the model
    raises). *)
Definition fget {X} (l : list X) (i : Z) : res X :=
  if (i <=? 0)%Z then Err IndexError else get l (Z.to_nat (i - 1)).
Definition sk_bare (tab : list (list (list C))) (ikvec : list Z) : res C :=
  l <- mapM (fun rows =>
         i1 <- get ikvec 0 ;; i2 <- get ikvec 1 ;; i3 <- get ikvec 2 ;;
         ra <- get rows 0 ;; rb <- get rows 1 ;; rc <- get rows 2 ;;
         a <- fget ra i1 ;; b <- fget rb i2 ;; c <- fget rc i3 ;;
         Ok (cmul (cmul a b) c)) tab ;;
  Ok (csum l).

(** sk.py:166-237 StructureFactorFast._compute: the array ikvec has three rows,
    so only 3-tuples can be stored; the second group and the weights are not used
    except for the normalisation. *)
Definition fast_step (kst : nat -> kstate Rops) (frames : list sk_frame)
  (accs : list sk_acc) (i : nat) : res (list sk_acc) :=
  f <- get frames i ;;
  tab0 <- expo_sphere (ks_k0 (kst i)) (ks_offset (kst i)) (sf_pos0 f) ;;
  sk_shells (fun kvec => if (length kvec =? 3)%nat
                         then r <- sk_bare tab0 kvec ;; Ok (r, r)
                         else Err ValueError) accs (ks_vectors (kst i)).

Definition structure_factor_fast (kst : nat -> kstate Rops) (skip : nat)
  (frames : list sk_frame) : res (list (R * R)) :=
  let nsteps := length frames in
  rng <- py_range 0 nsteps skip ;;
  accs <- foldM (fast_step kst frames) (map (fun _ => sk_acc0) (ks_grid (kst 0%nat))) rng ;;
  let n0 := mean_number (map sf_pos0 frames) in
  let n1 := mean_number (map sf_pos1 frames) in
  mapM (fun a => v <- sk_value false a ;; Ok (v / sqrt (n0 * n1), v)) accs.

(** ** Variable cells *)
(** [numpy.any(L0 != L1)] on two arrays of the same length *)
Definition sides_differ (A : arith) (a b : list (num A)) : bool :=
  existsb (fun p => negb (neq A (fst p) (snd p))) (combine a b).

(** sk.py:17-37 is_cell_variable.  int(frames / float(tests)) is computed on
    integers (exact for all representable sizes).  The loop visits frames-1,
    frames-1-skip, ... down to a positive index. *)
Definition is_cell_variable (A : arith) (sides : list (list (num A))) (tests : Z) : res bool :=
  let frames := length sides in
  let skip := if (0 <? tests)%Z then Nat.max 1 (Z.to_nat (Z.of_nat frames / tests)) else 1%nat in
  L0 <- get sides 0 ;;
  foldM (fun var j =>
           if (var : bool) then Ok true
           else L1 <- get sides (frames - 1 - j * skip) ;; Ok (sides_differ A L0 L1))
        false
        (filter (fun j => 0 <? (frames - 1 - j * skip))%nat (seq 0 frames)).
