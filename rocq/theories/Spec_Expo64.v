(** Complex numbers made of doubles and their distance to exact complex numbers: C120. *)
From Coq Require Import List ZArith Reals Floats.SpecFloat Sorting.Permutation.
From Verif Require Import PyBase Num P_Text F64Round F64Facts M_Fourier Spec_Doubles.
Import ListNotations.
Local Open Scope R_scope.

(** The exact value of a complex number made of two doubles; both are finite. *)
Definition cval (z : f64 * f64) : C := (fval (fst z), fval (snd z)).
Definition okc (z : f64 * f64) : Prop := ok (fst z) /\ ok (snd z).

(** Modulus, and distance in the complex plane. *)
Definition cnorm (z : C) : R := sqrt (fst z * fst z + snd z * snd z).
Definition cdist (a b : C) : R := cnorm (csub a b).

(** A product of complex doubles that is right to a few roundings of the product of
    the moduli, for factors of modulus at most 2^400 (no overflow). *)
Definition faithful_product (mul : f64 * f64 -> f64 * f64 -> f64 * f64) : Prop :=
  forall a b, okc a -> okc b -> cnorm (cval a) <= p2 400 -> cnorm (cval b) <= p2 400 ->
    okc (mul a b) /\ cdist (cval (mul a b)) (cmul (cval a) (cval b)) <= 6 * p2 (-53) * (cnorm (cval a) * cnorm (cval b)) + p2 (-1070).

(** The textbook evaluation (a + ib) (c + id) = (ac - bd) + i (ad + bc). *)
Definition plain_product (a b : f64 * f64) : f64 * f64 :=
  let mul := SFmul fprec femax in
  (SFsub fprec femax (mul (fst a) (fst b)) (mul (snd a) (snd b)), SFadd fprec femax (mul (fst a) (snd b)) (mul (snd a) (fst b))).

(** Error of exp(i k x) when the phase is rounded, with a library error eps, plus a few roundings. *)
Definition phase_error (eps k x : R) : R := eps + p2 (-53) * (Rabs (k * x) + 8).
(** The same added up over the directions of a wave-vector n k0. *)
Fixpoint wave_error (eps : R) (k0 : list R) (n : list Z) (x : list R) : R :=
  match k0, n, x with
  | k :: k0', m :: n', c :: x' => 2 * Rabs (IZR m) * phase_error eps k c + 8 * p2 (-53) + wave_error eps k0' n' x'
  | _, _, _ => 0
  end.

(** A table of exponentials can be computed: finite numbers, phases of moderate size,
    and an exponential that is right up to eps at every phase. *)
Definition fine_phases (ex : f64 -> f64 * f64) (eps : R) (k0 x : list f64) : Prop :=
  0 <= eps /\
  forall j, (j < length x)%nat -> let k := nth j k0 (S754_zero false) in let c := nth j x (S754_zero false) in
    ok k /\ ok c /\ phase_error eps (fval k) (fval c) <= / 8 /\
    let t := SFmul fprec femax k c in okc (ex t) /\ cdist (cval (ex t)) (cis (fval t)) <= eps.

(** Complex numbers added up in some order. *)
Definition sum_in_some_order (sum : list (f64 * f64) -> f64 * f64) : Prop :=
  forall l, sum_of (map fst l) (fst (sum l)) /\ sum_of (map snd l) (snd (sum l)).
(** From left to right. *)
Definition plain_sum (l : list (f64 * f64)) : f64 * f64 :=
  (fold_left (SFadd fprec femax) (map fst l) (S754_zero false), fold_left (SFadd fprec femax) (map snd l) (S754_zero false)).

(** [z] is the product of the numbers [l], multiplied in some order. *)
Inductive product_of (mul : f64 * f64 -> f64 * f64 -> f64 * f64) : list (f64 * f64) -> f64 * f64 -> Prop :=
| product_one : forall x, product_of mul [x] x
| product_mul : forall l1 l2 z1 z2, product_of mul l1 z1 -> product_of mul l2 z2 -> product_of mul (l1 ++ l2) (mul z1 z2)
| product_perm : forall l l' z, Permutation l l' -> product_of mul l z -> product_of mul l' z.
(** A way of multiplying together an even number of factors, in an order that is not specified. *)
Definition product_in_some_order (mul : f64 * f64 -> f64 * f64 -> f64 * f64) (prod : list (f64 * f64) -> f64 * f64) : Prop :=
  forall l, l <> [] -> Nat.Even (length l) -> product_of mul l (prod l).
