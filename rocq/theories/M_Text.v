(** Model of the text of the output files: the format %g of numpy.savetxt and the
    conversions of numpy.loadtxt (external), used at correlation.py:556-566 and 641. *)
From Coq Require Import Ascii String List ZArith Bool Arith Floats.SpecFloat.
From Verif Require Import PyBase Num.
Import ListNotations.
Local Open Scope Z_scope.

(** ** Decimal digits *)
(** Digits of z > 0, most significant first; at most [n]. *)
Fixpoint dec_fuel (n : nat) (z : Z) (acc : list Z) : list Z :=
  match n with
  | O => acc
  | S n => if z =? 0 then acc else dec_fuel n (z / 10) (z mod 10 :: acc)
  end.
Definition dec_digits (z : Z) : list Z := dec_fuel (Z.to_nat (Z.log2 z) + 1) z [].
Definition num_digits (z : Z) : Z := Z.of_nat (length (dec_digits z)).

(** Does 10^k not exceed p/q? *)
Definition pow10_le (k p q : Z) : bool :=
  if 0 <=? k then 10 ^ k * q <=? p else q <=? p * 10 ^ (- k).

(** The exponent X with 10^X <= p/q < 10^(X+1). *)
Definition exp10 (p q : Z) : Z :=
  let k := num_digits p - num_digits q in if pow10_le k p q then k else k - 1.

(** Six significant digits of p/q > 0, correctly rounded (half to even):
    the pair (M, X) stands for M 10^(X-5), 10^5 <= M < 10^6. *)
Definition six_digits (p q : Z) : Z * Z :=
  let X := exp10 p q in
  let M := if 0 <=? 5 - X then rnd_even false (p * 10 ^ (5 - X)) q
           else rnd_even false p (q * 10 ^ (X - 5)) in
  if M =? 10 ^ 6 then (10 ^ 5, X + 1) else (M, X).

(** ** %g *)
Definition digit_char (d : Z) : ascii := ascii_of_nat (48 + Z.to_nat d).
Fixpoint show_digits (l : list Z) : string :=
  match l with [] => EmptyString | d :: r => String (digit_char d) (show_digits r) end.

(** Trailing zeros removed. *)
Fixpoint strip_zeros (l : list Z) : list Z :=
  match l with
  | [] => []
  | d :: r => match strip_zeros r with [] => if d =? 0 then [] else [d] | r' => d :: r' end
  end.

(** The exponent: a sign and at least two digits. *)
Definition show_exp (X : Z) : string :=
  let a := dec_digits (Z.abs X) in
  String (if X <? 0 then "-"%char else "+"%char) (show_digits (repeat 0 (2 - length a) ++ a)).

Definition show_frac (l : list Z) : string :=
  match l with [] => EmptyString | _ => String "."%char (show_digits l) end.

Definition show_six (M X : Z) : string :=
  let D := strip_zeros (dec_digits M) in
  if (X <? -4) || (6 <=? X) then
    (show_digits (firstn 1 D) ++ show_frac (skipn 1 D) ++ String "e"%char (show_exp X))%string
  else if 0 <=? X then
    let n := Z.to_nat (X + 1) in
    (show_digits (firstn n D ++ repeat 0%Z (n - length D)) ++ show_frac (skipn n D))%string
  else (show_digits [0%Z] ++ show_frac (repeat 0%Z (Z.to_nat (- X - 1)) ++ D))%string.

(** A finite double is m 2^e. *)
Definition ratio (m : positive) (e : Z) : Z * Z :=
  if 0 <=? e then (Zpos m * 2 ^ e, 1) else (Zpos m, 2 ^ (- e)).

Definition sign_str (s : bool) : string := if s then "-"%string else EmptyString.
Definition show_g (x : f64) : string :=
  match x with
  | S754_nan => "nan"
  | S754_infinity s => sign_str s ++ "inf"
  | S754_zero s => sign_str s ++ "0"
  | S754_finite s m e =>
      let '(p, q) := ratio m e in let '(M, X) := six_digits p q in sign_str s ++ show_six M X
  end%string.

(** ** float() *)
(** What is read: not a number, infinite, or the decimal (-1)^s m 10^e. *)
Inductive number : Type := NNan | NInf (s : bool) | NDec (s : bool) (m e : Z).

Definition char_digit (c : ascii) : option Z :=
  let n := Z.of_nat (nat_of_ascii c) in
  if (48 <=? n) && (n <=? 57) then Some (n - 48) else None.

(** The digits at the start of the string, and the rest. *)
Fixpoint span_digits (s : string) : list Z * string :=
  match s with
  | EmptyString => ([], EmptyString)
  | String c r => match char_digit c with
                  | Some d => let '(l, t) := span_digits r in (d :: l, t)
                  | None => ([], s)
                  end
  end.
Definition value_of (l : list Z) : Z := fold_left (fun a d => a * 10 + d) l 0.

Definition parse_sign (s : string) : bool * string :=
  match s with
  | String "-"%char r => (true, r)
  | String "+"%char r => (false, r)
  | _ => (false, s)
  end.

(** The exponent part: nothing, or e[sign]digits. *)
Definition parse_exp (s : string) : option Z :=
  match s with
  | EmptyString => Some 0
  | String "e"%char r =>
      let '(neg, r1) := parse_sign r in
      match span_digits r1 with
      | (d :: l, EmptyString) => Some (cond_Zopp neg (value_of (d :: l)))
      | _ => None
      end
  | _ => None
  end.

Definition parse_unsigned (neg : bool) (s : string) : option number :=
  let '(ip, r) := span_digits s in
  let '(fp, t) := match r with String "."%char r' => span_digits r' | _ => ([], r) end in
  match ip ++ fp with
  | [] => None
  | _ => match parse_exp t with
         | Some e => Some (NDec neg (value_of (ip ++ fp)) (e - Z.of_nat (length fp)))
         | None => None
         end
  end.

Definition parse_float (s : string) : option number :=
  let '(neg, r) := parse_sign s in
  if String.eqb r "nan" then Some NNan
  else if String.eqb r "inf" then Some (NInf neg)
  else parse_unsigned neg r.

(** ** Lines *)
(** numpy.savetxt: the columns separated by one blank *)
Definition show_row (r : list f64) : string := String.concat " " (map show_g r).

(** numpy.loadtxt: the text before '#', split at blanks *)
Fixpoint uncomment (s : string) : string :=
  match s with
  | EmptyString => EmptyString
  | String c r => if Ascii.eqb c "#" then EmptyString else String c (uncomment r)
  end.
(** blank, tabulator, newline, vertical tabulator, form feed, carriage return *)
Definition is_blank (c : ascii) : bool :=
  Ascii.eqb c " " || Ascii.eqb c "009" || Ascii.eqb c "010" || Ascii.eqb c "011" || Ascii.eqb c "012" || Ascii.eqb c "013".
Fixpoint words_from (cur s : string) : list string :=
  match s with
  | EmptyString => if String.eqb cur "" then [] else [cur]
  | String c r => if is_blank c then (if String.eqb cur "" then [] else [cur]) ++ words_from "" r
                  else words_from (cur ++ String c EmptyString) r
  end.
Definition words (s : string) : list string := words_from "" s.

(** The rows of the file: a line without words is skipped, the number of columns
    must not change. *)
Definition parse_word (w : string) : res number :=
  match parse_float w with Some x => Ok x | None => Err ValueError end.
Definition load_row (rows : list (list number)) (line : string) : res (list (list number)) :=
  match words (uncomment line) with
  | [] => Ok rows
  | ws => r <- mapM parse_word ws ;;
          match rows with
          | [] => Ok [r]
          | r0 :: _ => if Nat.eqb (length r) (length r0) then Ok (rows ++ [r]) else Err ValueError
          end
  end.
Definition loadtxt (lines : list string) : res (list (list number)) := foldM load_row [] lines.
