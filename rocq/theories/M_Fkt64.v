(** The self part of the intermediate scattering function (atooms/postprocessing/fkt.py,
    fourierspace.f90:26-64) for any arithmetic: complex numbers [D] in the tables, real
    numbers [A] in the accumulators.  The products of the factors of a particle are left
    to a function [prod], since Python and Fortran do not associate them in the same way. *)
From Coq Require Import List ZArith Bool Arith Reals Floats.SpecFloat.
From Verif Require Import PyBase Num M_Helpers M_KGrid M_Fourier M_Fkt M_Expo64.
Import ListNotations.

(** fkt.py:127-128: acf[ik] and cnt[ik].  The counts are Python ints converted by the
    division; here they are numbers, which is the same up to 2^53. *)
Definition tcf_in (A : arith) : Type := (dict (num A) * dict (num A))%type.
Definition tcf_in0 (A : arith) : tcf_in A := ([], []).

(** fkt.py:135-158: see [tcf_vector] *)
Definition tcf_vector_in (A : arith) (val : nat -> nat -> res (num A)) (w : num A) (steps : list Z) (n : nat)
  (dgrid : list (nat * nat)) (skip : nat) (st : tcf_in A) : res (tcf_in A) :=
  foldM (fun st p =>
    rng <- py_range (fst p) (n - snd p) skip ;;
    foldM (fun (st : tcf_in A) i0 =>
      ta <- get steps (i0 + snd p) ;; tb <- get steps i0 ;;
      v <- val (i0 + snd p)%nat i0 ;;
      Ok (dupd (fst st) (ta - tb)%Z (fun u => nadd A u v) (n0 A),
          dupd (snd st) (ta - tb)%Z (fun u => nadd A u w) (n0 A))) st rng) st dgrid.

(** fkt.py:164: [acf[k][t] / cnt[k][t]] *)
Definition tcf_ratio_in (A : arith) (st : tcf_in A) (t : Z) : res (num A) :=
  let a := match dget (fst st) t with Some x => x | None => n0 A end in
  let c := match dget (snd st) t with Some x => x | None => n0 A end in
  if neq A c (n0 A) then Err ZeroDivisionError else Ok (ndiv A a c).

(** fkt.py:161-164 *)
Definition tcf_values_in (A : arith) (sts : list (tcf_in A)) : res (list Z * list (list (num A))) :=
  s0 <- get sts 0 ;;
  let times := sortZ (keys (fst s0)) in
  v <- mapM (fun st => mapM (tcf_ratio_in A st) times) sts ;;
  Ok (times, v).

(** fkt.py:137-157, fourierspace.f90:33-61: the factors [x[a, p, d, kvec[d]]] and
    [x[b, p, d, kvec[d]].conjugate()] of one particle, in that order. *)
Definition pair_factors (D : carith) (nd : nat) (ra rb : list (list (cx D))) (kvec : list Z) : res (list (cx D)) :=
  l <- mapM (fun d => a <- get ra d ;; b <- get rb d ;; k <- get kvec d ;;
                      ea <- getZ a k ;; eb <- getZ b k ;; Ok [ea; cxconj D eb]) (seq 0 nd) ;;
  Ok (concat l).
(** Three and two dimensions, and the Fortran code: from left to right. *)
Definition flat_product (D : carith) (l : list (cx D)) : cx D :=
  match l with
  | [] => cx1 D
  | a :: r => fold_left (cxmul D) r a
  end.
(** fkt.py:152-156, other dimensions: [tmp *= x * x.conjugate()] *)
Fixpoint times_pairs (D : carith) (acc : cx D) (l : list (cx D)) : cx D :=
  match l with
  | a :: b :: r => times_pairs D (cxmul D acc (cxmul D a b)) r
  | _ => acc
  end.
Definition paired_product (D : carith) (l : list (cx D)) : cx D :=
  match l with
  | a :: b :: r => times_pairs D (cxmul D a b) r
  | _ => cx1 D
  end.

(** [numpy.sum(...).real] *)
Definition self_sum_in (D : carith) (A : arith) (re : cx D -> num A) (prod : list (cx D) -> cx D) (nd : nat)
  (x : list (list (list (list (cx D))))) (kvec : list Z) (later earlier : nat) : res (num A) :=
  xa <- get x later ;; xb <- get x earlier ;;
  l <- mapM (fun p => f <- pair_factors D nd (fst p) (snd p) kvec ;; Ok (prod f)) (combine xa xb) ;;
  Ok (re (cxsum D l)).
(** fkt.py:233-234, fourierspace.f90:26-64: the kernel takes the earlier frame first. *)
Definition self_sum_fast_in (D : carith) (A : arith) (re : cx D -> num A) (nd : nat)
  (x : list (list (list (list (cx D))))) (kvec : list Z) (later earlier : nat) : res (num A) :=
  self_sum_in D A re (flat_product D) nd x kvec earlier later.

Definition expo_frames_in (D : carith) (k0 : list (cph D)) (nk : Z) (pos : list (list (list (cph D))))
  : res (list (list (list (list (cx D))))) :=
  match pos with
  | [] => Err IndexError
  | _ => mapM (mapM (expo_particle_in D k0 nk)) pos
  end.

(** fkt.py:129-158, 222-236: see [self_loop]; [nk] is _koffset, [shells] the table indices
    of the vectors and [ngrid] the number of entries of kgrid. *)
Definition self_loop_in (D : carith) (A : arith)
  (sum : nat -> list (list (list (list (cx D)))) -> list Z -> nat -> nat -> res (num A))
  (block : nat -> nat) (k0 : list (cph D)) (nk : Z) (shells : list (list (list Z))) (ngrid : nat)
  (steps : list Z) (dgrid : list (nat * nat)) (skip : nat) (pos : list (list (list (cph D)))) : res (list (tcf_in A)) :=
  p0 <- get pos 0 ;;
  if forallb (fun f => length f =? length (nth 0 pos []))%nat pos then
    js <- py_range 0 (length p0) (block (length p0)) ;;
    foldM (fun sts j =>
      let part := map (fun f => firstn (block (length p0)) (skipn j f)) pos in
      x <- expo_frames_in D k0 nk part ;;
      let w := nofZ A (Z.of_nat (length (firstn (block (length p0)) (skipn j p0)))) in
      over_shells (fun st kvec => tcf_vector_in A (sum (length k0) x kvec) w steps (length pos) dgrid skip st)
        sts shells)
      (repeat (tcf_in0 A) ngrid) js
  else Err ValueError.

(** fkt.py:109-164 and 191-240: times and values before normalisation. *)
Definition self_values_in (D : carith) (A : arith) sum block k0 nk shells ngrid steps dgrid skip pos
  : res (list Z * list (list (num A))) :=
  sts <- self_loop_in D A sum block k0 nk shells ngrid steps dgrid skip pos ;;
  tcf_values_in A sts.

(** fkt.py:166-170, 242-246: [self.value[k][i] /= self.value[k][0]], in place. *)
Definition normalize_in (A : arith) (row : list (num A)) : res (list (num A)) :=
  foldM (fun row i => v <- get row i ;; v0 <- get row 0 ;; setidx row (Z.of_nat i) (ndiv A v v0))
        row (seq 0 (length row)).
