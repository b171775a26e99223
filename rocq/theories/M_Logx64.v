(** Model of logx_grid (helpers.py:17-25) in double precision; [pow] is the power of floats of the
    platform (C's pow), a parameter. *)
From Coq Require Import List ZArith Bool Arith Floats.SpecFloat.
From Verif Require Import PyBase Num.
Import ListNotations.
Local Open Scope nat_scope.

Section Logx.
Variable pow : f64 -> f64 -> f64.

(** helpers.py:17-25: [1.0 / n] raises for n = 0; [i+1] is converted to a float by [**].  x1 and x2 are
    floats; a negative x2 (a complex number in Python 3) is not modelled. *)
Definition logx_grid64 (x1 x2 : f64) (n : nat) : res (list f64) :=
  let one := n1 F64ops in
  if n =? 0 then Err ZeroDivisionError
  else
    let e := ndiv F64ops one (nofnat F64ops n) in
    if nlt F64ops (n0 F64ops) x1 then
      let xx := pow (ndiv F64ops x2 x1) e in
      Ok (x1 :: map (fun i => nmul F64ops x1 (pow xx (nofnat F64ops (i + 1)))) (seq 1 (n - 1)))
    else
      let xx := pow x2 e in
      Ok (x1 :: map (fun i => nsub F64ops (pow xx (nofnat F64ops (i + 1))) one) (seq 1 (n - 1))).
End Logx.
