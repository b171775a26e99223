(** Arithmetics.  The numeric code is modelled for an arbitrary record of
    operations, without any law, and instantiated with the exact real numbers
    [Rops] and with IEEE double precision [F64ops] (from Coq's [SpecFloat]). *)
From Coq Require Import ZArith Bool Reals List.
From Coq Require Import Floats.SpecFloat.
Import ListNotations.

Record arith : Type := mkArith {
  num : Type;
  n0 : num;
  n1 : num;
  nadd : num -> num -> num;
  nsub : num -> num -> num;
  nmul : num -> num -> num;
  ndiv : num -> num -> num;
  nopp : num -> num;
  nabs : num -> num;
  nsqrt : num -> num;
  nlt : num -> num -> bool;
  nle : num -> num -> bool;
  neq : num -> num -> bool;
  nofZ : Z -> num;
  (** int(x): truncation towards zero; None where Python raises (nan, inf) *)
  ntrunc : num -> option Z;
  (** floor(x) *)
  nfloor : num -> option Z;
  (** round(x) / rint(x): nearest integer, ties to even *)
  nrint : num -> option Z
}.

Definition nofnat (A : arith) (n : nat) : num A := nofZ A (Z.of_nat n).

(** Python's sum(l) starting from zero, left to right. *)
Definition nsum (A : arith) (l : list (num A)) : num A := fold_left (nadd A) l (n0 A).

(** sum(l)/len(l) *)
Definition nmean (A : arith) (l : list (num A)) : num A :=
  ndiv A (nsum A l) (nofnat A (length l)).

(** ** Exact real numbers *)
Definition Rltb (x y : R) : bool := if Rlt_dec x y then true else false.
Definition Rleb (x y : R) : bool := if Rle_dec x y then true else false.
Definition Reqb (x y : R) : bool := if Req_EM_T x y then true else false.

Definition Rfloor (x : R) : Z := Int_part x.
Definition Rtrunc (x : R) : Z :=
  if Rle_dec 0 x then Int_part x else Z.opp (Int_part (- x)).
Definition Rrint (x : R) : Z :=
  let f := Int_part x in
  let r := (x - IZR f)%R in
  if Rlt_dec r (/ 2) then f
  else if Rlt_dec (/ 2) r then (f + 1)%Z
  else if Z.even f then f else (f + 1)%Z.

Definition Rops : arith :=
  mkArith R 0%R 1%R Rplus Rminus Rmult Rdiv Ropp Rabs sqrt Rltb Rleb Reqb IZR
    (fun x => Some (Rtrunc x)) (fun x => Some (Rfloor x)) (fun x => Some (Rrint x)).

(** ** IEEE double precision, round to nearest even *)
Definition f64 := spec_float.
Definition fprec : Z := 53.
Definition femax : Z := 1024.

Definition f64_ofZ (z : Z) : f64 := binary_normalize fprec femax z 0 false.

(** The exact value of a finite double times a power of two, then rounded by
    [div]: [up m d] rounds m/d. *)
Definition f64_toint (rnd : bool -> Z -> Z -> Z) (x : f64) : option Z :=
  match x with
  | S754_zero _ => Some 0%Z
  | S754_finite s m e =>
      if (0 <=? e)%Z then Some (cond_Zopp s (Z.pos m * 2 ^ e))%Z
      else Some (rnd s (Z.pos m) (2 ^ (- e))%Z)
  | _ => None
  end.

Definition rnd_trunc (s : bool) (m d : Z) : Z := cond_Zopp s (m / d)%Z.
Definition rnd_floor (s : bool) (m d : Z) : Z := (cond_Zopp s m / d)%Z.
Definition rnd_even (s : bool) (m d : Z) : Z :=
  let q := (m / d)%Z in
  let r := (2 * (m mod d))%Z in
  cond_Zopp s
    (if (r <? d)%Z then q
     else if (d <? r)%Z then (q + 1)%Z
     else if Z.even q then q else (q + 1)%Z).

Definition F64ops : arith :=
  mkArith f64 (S754_zero false) (f64_ofZ 1)
    (SFadd fprec femax) (SFsub fprec femax) (SFmul fprec femax) (SFdiv fprec femax)
    SFopp SFabs (SFsqrt fprec femax) SFltb SFleb SFeqb f64_ofZ
    (f64_toint rnd_trunc) (f64_toint rnd_floor) (f64_toint rnd_even).

(** The double closest to p/q, for integers p, q below 2^53 (a decimal literal). *)
Definition f64_frac (p q : Z) : f64 := SFdiv fprec femax (f64_ofZ p) (f64_ofZ q).
