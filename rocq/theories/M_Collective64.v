(** Densities in Fourier space, the collective intermediate scattering function
    (atooms/postprocessing/fkt.py) and the structure factor (StructureFactorLegacy of sk.py) in
    two and three dimensions for any arithmetic: complex numbers [D], real numbers [A].
    The products of the factors of a particle are left to a function [prod]. *)
From Coq Require Import List ZArith Bool Arith Reals Floats.SpecFloat.
From Verif Require Import PyBase Num M_Helpers M_KGrid M_Fourier M_Fkt M_Expo64 M_Fkt64.
Import ListNotations.

(** fkt.py:300-306, sk.py:99-106: the factors [expo[p, d, kvec[d]]] of
    one particle, in that order. *)
Definition plane_factors (D : carith) (nd : nat) (rows : list (list (cx D))) (kvec : list Z) : res (list (cx D)) :=
  mapM (fun d => r <- get rows d ;; k <- get kvec d ;; getZ r k) (seq 0 nd).

(** [numpy.sum(expo[..., 0, kvec[0]] * expo[..., 1, kvec[1]] * ...)] *)
Definition density_by (D : carith) (prod : list (cx D) -> cx D) (nd : nat) (tab : list (list (list (cx D)))) (kvec : list Z) : res (cx D) :=
  l <- mapM (fun rows => f <- plane_factors D nd rows kvec ;; Ok (prod f)) tab ;;
  Ok (cxsum D l).

(** fkt.py:300-306 multiplies the factors from left to right
    ([flat_product]); sk.py:99-106 starts from the weight, which is 1.0. *)
Definition weight_product (D : carith) (l : list (cx D)) : cx D := fold_left (cxmul D) l (cx1 D).

(** Dictionaries keyed by wave-vectors, with default 0; see [kdict]. *)
Definition kdict_in (D : carith) : Type := list (list Z * cx D).
Fixpoint kget_in (D : carith) (d : kdict_in D) (k : list Z) : cx D :=
  match d with
  | [] => cx0 D
  | (k', v) :: r => if same_key k k' then v else kget_in D r k
  end.
Fixpoint kset_in (D : carith) (d : kdict_in D) (k : list Z) (v : cx D) : kdict_in D :=
  match d with
  | [] => [(k, v)]
  | (k', v') :: r => if same_key k k' then (k', v) :: r else (k', v') :: kset_in D r k v
  end.

(** fkt.py:297-306, 314-322: the densities of one frame and one group, in two and three
    dimensions; for the other dimensions see [tabulate]. *)
Definition tabulate_in (D : carith) (prod : list (cx D) -> cx D) (nd : nat) (tab : list (list (list (cx D)))) (kvecs : list (list Z)) : res (kdict_in D) :=
  foldM (fun d kvec => r <- density_by D prod nd tab kvec ;; Ok (kset_in D d kvec r)) [] kvecs.

(** fkt.py:284-331: rho_0 or rho_1, one dictionary per frame. *)
Definition densities_in (D : carith) prod (k0 : list (cph D)) (nk : Z) (shells : list (list (list Z))) (pos : list (list (list (cph D)))) : res (list (kdict_in D)) :=
  mapM (fun f => tab <- expo_sphere_in D k0 nk f ;; tabulate_in D prod (length k0) tab (concat shells)) pos.

(** fkt.py:344: [(rho_0[i0+i][kvec] * rho_1[i0][kvec].conjugate()).real] *)
Definition collective_sum_in (D : carith) (A : arith) (re : cx D -> num A) (rho0 rho1 : list (kdict_in D)) (kvec : list Z) (later earlier : nat) : res (num A) :=
  a <- get rho0 later ;; b <- get rho1 earlier ;;
  Ok (re (cxmul D (kget_in D a kvec) (cxconj D (kget_in D b kvec)))).

(** fkt.py:278-360: times and value_nonorm.  [pos1 = None] stands for
    [self._pos_1 is self._pos_0]; [ngrid] is the number of entries of kgrid. *)
Definition fkt_values_in (D : carith) (A : arith) (re : cx D -> num A) prod (k0 : list (cph D)) (nk : Z) (shells : list (list (list Z))) (ngrid : nat)
  (steps : list Z) (dgrid : list (nat * nat)) (skip : nat) (pos0 : list (list (list (cph D)))) (pos1 : option (list (list (list (cph D)))))
  : res (list Z * list (list (num A))) :=
  rho0 <- densities_in D prod k0 nk shells pos0 ;;
  rho1 <- match pos1 with
          | None => Ok rho0
          | Some q => densities_in D prod k0 nk shells q
          end ;;
  sts <- over_shells (fun st kvec => tcf_vector_in A (collective_sum_in D A re rho0 rho1 kvec) (nofZ A 1) steps (length rho0) dgrid skip st)
           (repeat (tcf_in0 A) ngrid) shells ;;
  tcf_values_in A sts.

(** fkt.py:363: [v / self.value_nonorm[k][0]] *)
Definition normalize_first_in (A : arith) (row : list (num A)) : res (list (num A)) :=
  mapM (fun v => v0 <- get row 0 ;; Ok (ndiv A v v0)) row.

(** ** Structure factor, without weights and for a constant cell *)
(** cnt[k] and the real part of rho2_av[k]; the other averages are reset to zero
    (sk.py:150-152) and the imaginary part is dropped (sk.py:161). *)
Definition sk_acc_in (A : arith) : Type := (nat * num A)%type.

(** sk.py:96-146 for one frame: [rho kvec] are rho_0 and rho_1. *)
Fixpoint sk_shells_in (D : carith) (A : arith) (re : cx D -> num A) (rho : list Z -> res (cx D * cx D)) (accs : list (sk_acc_in A)) (shells : list (list (list Z)))
  : res (list (sk_acc_in A)) :=
  match shells, accs with
  | [], _ => Ok accs
  | [] :: sr, a :: ar => rest <- sk_shells_in D A re rho ar sr ;; Ok (a :: rest)
  | [] :: sr, [] => sk_shells_in D A re rho [] sr
  | _ :: _, [] => Err IndexError
  | klist :: sr, a :: ar =>
      a' <- foldM (fun (a : sk_acc_in A) kvec => r <- rho kvec ;;
                     Ok (S (fst a), nadd A (snd a) (re (cxmul D (fst r) (cxconj D (snd r)))))) a klist ;;
      rest <- sk_shells_in D A re rho ar sr ;; Ok (a' :: rest)
  end.

(** sk.py:77-146 for frame [i]; [pos1 = None] stands for [_pos_0[i] is _pos_1[i]]. *)
Definition sk_step_in (D : carith) (A : arith) (re : cx D -> num A) prod (k0 : list (cph D)) (nk : Z) (shells : list (list (list Z)))
  (pos0 : list (list (list (cph D)))) (pos1 : option (list (list (list (cph D))))) (accs : list (sk_acc_in A)) (i : nat) : res (list (sk_acc_in A)) :=
  f0 <- get pos0 i ;;
  tab0 <- expo_sphere_in D k0 nk f0 ;;
  tab1 <- match pos1 with
          | None => Ok tab0
          | Some q => f1 <- get q i ;; expo_sphere_in D k0 nk f1
          end ;;
  sk_shells_in D A re (fun kvec => a <- density_by D prod (length k0) tab0 kvec ;;
                                   b <- density_by D prod (length k0) tab1 kvec ;; Ok (a, b)) accs shells.

(** sk.py:155-156: [sum([p.shape[0] for p in pos]) / float(len(pos))] *)
Definition mean_number_in (A : arith) {X} (pos : list (list X)) : num A :=
  ndiv A (nofZ A (Z.of_nat (list_sum (map (@length X) pos)))) (nofZ A (Z.of_nat (length pos))).

(** sk.py:60-163: per shell the value and the value without normalisation.  [quot] is the real
    part of the division of a complex number by an int (less a zero, sk.py:161), [root] is [**0.5].  A shell without
    vectors divides a Python complex by 0. *)
Definition sk_values_in (D : carith) (A : arith) (re : cx D -> num A) prod (quot : num A -> nat -> num A) (root : num A -> num A)
  (k0 : list (cph D)) (nk : Z) (shells : list (list (list Z))) (ngrid skip : nat)
  (pos0 : list (list (list (cph D)))) (pos1 : option (list (list (list (cph D))))) : res (list (num A * num A)) :=
  rng <- py_range 0 (length pos0) skip ;;
  accs <- foldM (sk_step_in D A re prod k0 nk shells pos0 pos1) (repeat (0%nat, n0 A) ngrid) rng ;;
  let np0 := mean_number_in A pos0 in
  let np1 := match pos1 with None => np0 | Some q => mean_number_in A q end in
  let norm := root (nmul A np0 np1) in
  mapM (fun a : sk_acc_in A => if (fst a =? 0)%nat then Err ZeroDivisionError
                 else let v := quot (snd a) (fst a) in Ok (ndiv A v norm, v)) accs.
