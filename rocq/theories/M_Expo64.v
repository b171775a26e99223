(** Tables of exponentials and plane waves for any complex arithmetic
    (atooms/postprocessing/fourierspace.py, sk.py, fkt.py), and in double precision.
    Instantiated with the exact complex numbers it is the model of M_Fourier. *)
From Coq Require Import List ZArith Bool Arith Reals Floats.SpecFloat.
From Verif Require Import PyBase Num M_Helpers M_KGrid M_Fourier.
Import ListNotations.

(** Complex numbers: 1, product, conjugate, sum of an array, and exp(1j * phase)
    where the phase is a number of another kind. *)
Record carith : Type := mkCarith {
  cx : Type;
  cph : Type;
  cx0 : cx;
  cx1 : cx;
  cxmul : cx -> cx -> cx;
  cxconj : cx -> cx;
  cxsum : list cx -> cx;
  cxexp : cph -> cx;
  (** [im * k0[j] * pos]: the phase *)
  cphmul : cph -> cph -> cph
}.

(** The exact complex numbers. *)
Definition Cops : carith := mkCarith C R c0 c1 cmul cconj csum cis Rmult.

(** fourierspace.py:21-51 expo_sphere for one particle and one dimension; see
    [expo_row]: [junk] is the content of the uninitialised array. *)
Definition expo_row_in (D : carith) (junk : list (cx D)) (kj : cph D) (nk : Z) (x : cph D) : res (list (cx D)) :=
  t <- setidx junk nk (cx1 D) ;;
  t <- setidx t (nk + 1) (cxexp D (cphmul D kj x)) ;;
  e <- getZ t (nk + 1) ;;
  t <- setidx t (nk - 1) (cxconj D e) ;;
  t <- foldM (fun t i => a <- getZ t (nk + i - 1) ;; b <- getZ t (nk + 1) ;;
                         setidx t (nk + i) (cxmul D a b)) t (zrange 2 (nk - 1)) ;;
  foldM (fun t i => a <- getZ t (nk + i - 1) ;; b <- getZ t (nk + 1) ;;
                    t <- setidx t (nk + i) (cxmul D a b) ;;
                    c <- getZ t (nk + i) ;;
                    setidx t (nk - i) (cxconj D c)) t (zrange 2 nk).

(** [for j in range(pos[0].shape[-1])], [k0[j]] *)
Definition expo_particle_in (D : carith) (k0 : list (cph D)) (nk : Z) (x : list (cph D)) : res (list (list (cx D))) :=
  mapM (fun j => kj <- get k0 j ;; xj <- get x j ;;
                 expo_row_in D (repeat (cx0 D) (Z.to_nat (2 * nk + 1))) kj nk xj)
       (seq 0 (length x)).

Definition expo_sphere_in (D : carith) (k0 : list (cph D)) (nk : Z) (pos : list (list (cph D)))
  : res (list (list (list (cx D)))) :=
  match pos with
  | [] => Err IndexError
  | _ => mapM (expo_particle_in D k0 nk) pos
  end.

(** sk.py:91-120, without weights: [numpy.sum(expo[:, 0, kvec[0]] * expo[:, 1, kvec[1]] * ...)].
    The leading factor is the weight 1.0. *)
Definition plane_wave_in (D : carith) (nd : nat) (rows : list (list (cx D))) (kvec : list Z) (w : cx D) : res (cx D) :=
  foldM (fun acc d => r <- get rows d ;; k <- get kvec d ;; e <- getZ r k ;; Ok (cxmul D acc e))
        w (seq 0 nd).
Definition density_in (D : carith) (nd : nat) (tab : list (list (list (cx D)))) (kvec : list Z) : res (cx D) :=
  l <- mapM (fun rows => plane_wave_in D nd rows kvec (cx1 D)) tab ;;
  Ok (cxsum D l).

(** ** Double precision *)
(** complex128: [mul], [sum] and [ex] are numpy's product, sum and exponential of
    1j times a number, which are not specified to the last bit. *)
Definition Fops (mul : f64 * f64 -> f64 * f64 -> f64 * f64) (sum : list (f64 * f64) -> f64 * f64)
  (ex : f64 -> f64 * f64) : carith :=
  mkCarith (f64 * f64) f64 (S754_zero false, S754_zero false) (f64_ofZ 1, S754_zero false)
    mul (fun z => (fst z, SFopp (snd z))) sum ex (SFmul fprec femax).
