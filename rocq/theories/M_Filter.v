(** Model of the decorator Filter (filter.py:23-67) on the text of the condition. *)
From Coq Require Import Ascii String List ZArith Bool Arith.
From Verif Require Import PyBase.
Import ListNotations.
Local Open Scope string_scope.

(** ** Strings *)
(** s.replace(old, new) for [old] not empty: the occurrences of [old] from the left,
    without overlap.  [skip] is the number of characters of the current occurrence still
    to be dropped. *)
Fixpoint replace_from (old new s : string) (skip : nat) : string :=
  match s with
  | EmptyString => EmptyString
  | String c r =>
      match skip with
      | S k => replace_from old new r k
      | O => if String.prefix old s then new ++ replace_from old new r (String.length old - 1)
             else String c (replace_from old new r 0)
      end
  end.
Definition replace (s old new : string) : string := replace_from old new s 0.

(** condition.split(',') *)
Fixpoint split_comma (s : string) : list string :=
  match s with
  | EmptyString => [""]
  | String c r => if Ascii.eqb c "," then "" :: split_comma r
                  else match split_comma r with
                       | w :: ws => String c w :: ws
                       | [] => [String c ""]
                       end
  end.

(** filter.py:35-42 the tag *)
Definition dquote : string := String """" "".
Definition squote : string := String "'" "".
Definition tag_of (condition : string) : string :=
  let t := replace condition " " "" in
  let t := replace t "and" "_" in
  let t := replace t "or" "+" in
  let t := replace t dquote "" in
  let t := replace t squote "" in
  let t := replace t "==" "" in
  let t := replace t "!=" ".not" in
  replace t "," "-".

(** ** The decorator *)
Section Filter.
Variable P : Type.
(** eval(condition, particle.__dict__) as a truth value *)
Variable eval : string -> P -> res bool.

(** A callback maps the particles of a system to those kept, and may raise. *)
Definition rcallback : Type := list P -> res (list P).

(** filter.py:25-32 _filter_generic *)
Fixpoint filter_eval (condition : string) (ps : list P) : res (list P) :=
  match ps with
  | [] => Ok []
  | p :: r => b <- eval condition p ;; k <- filter_eval condition r ;; Ok (if b then p :: k else k)
  end.

(** The part of a correlation object that Filter changes. *)
Record fobj : Type := mkFO { fo_nbodies : nat; fo_cbk : list rcallback; fo_tag : string; fo_description : string }.

(** correlation.py:291-297 add_filter *)
Definition add_rfilter (o : fobj) (f : rcallback) : res fobj :=
  if (fo_nbodies o <? List.length (fo_cbk o))%nat then Err ValueError
  else Ok (mkFO (fo_nbodies o) (fo_cbk o ++ [f])%list (fo_tag o) (fo_description o)).

(** filter.py:23-67 Filter *)
Definition filter_text (o : fobj) (condition : string) : res fobj :=
  let o := mkFO (fo_nbodies o) (fo_cbk o) (tag_of condition) condition in
  match fo_nbodies o with
  | 1 => add_rfilter o (filter_eval condition)
  | 2 => match split_comma condition with
         | [c] => o <- add_rfilter o (filter_eval c) ;; add_rfilter o (fun ps => Ok ps)
         | [c0; c1] => o <- add_rfilter o (filter_eval c0) ;; add_rfilter o (filter_eval c1)
         | _ => Err ValueError
         end
  | _ => Ok o
  end.

(** The particles a correlation uses: correlation.py:331-332, 366-367 and 460-474 *)
Definition group_one (o : fobj) (ps : list P) : res (list P) :=
  match fo_cbk o with [] => Ok ps | f :: _ => f ps end.
Definition groups_two (o : fobj) (ps : list P) : res (list P * list P) :=
  match fo_cbk o with
  | f :: g :: _ => a <- f ps ;; b <- g ps ;; Ok (a, b)
  | _ => a <- group_one o ps ;; Ok (a, a)
  end.
End Filter.
Arguments filter_eval {P}.
Arguments mkFO {P}.
Arguments fo_nbodies {P}.
Arguments fo_cbk {P}.
Arguments fo_tag {P}.
Arguments fo_description {P}.
Arguments add_rfilter {P}.
Arguments filter_text {P}.
Arguments group_one {P}.
Arguments groups_two {P}.

(** ** Python's eval on a fragment of the expressions *)
(** Names, integers and strings joined by + and -, compared with == and != (once), joined
    by and, or and commas; no parentheses.  Other texts raise SyntaxError here, which
    Python does not always do; only the examples use this fragment. *)
Inductive token : Type :=
| TName (s : string) | TInt (z : Z) | TStr (s : string) | TEq | TNe | TAnd | TOr | TComma | TPlus | TMinus.

Definition is_digit (c : ascii) : bool := (48 <=? nat_of_ascii c)%nat && (nat_of_ascii c <=? 57)%nat.
Definition is_letter (c : ascii) : bool :=
  let n := nat_of_ascii c in
  (65 <=? n)%nat && (n <=? 90)%nat || (97 <=? n)%nat && (n <=? 122)%nat || (n =? 95)%nat.

(** What has been read of the current token. *)
Inductive lexing : Type := LNone | LWord (s : string) | LInt (z : Z) | LStr (q : ascii) (s : string) | LOp (c : ascii).

Definition word (s : string) : token :=
  if String.eqb s "and" then TAnd else if String.eqb s "or" then TOr else TName s.

(** The token a state stands for when the next character does not continue it. *)
Definition flush (st : lexing) : option (list token) :=
  match st with
  | LNone => Some []
  | LWord s => Some [word s]
  | LInt z => Some [TInt z]
  | LStr _ _ | LOp _ => None
  end.

Definition start (c : ascii) : option (list token * lexing) :=
  if Ascii.eqb c " " then Some ([], LNone)
  else if is_letter c then Some ([], LWord (String c ""))
  else if is_digit c then Some ([], LInt (Z.of_nat (nat_of_ascii c - 48)))
  else if Ascii.eqb c """" || Ascii.eqb c "'" then Some ([], LStr c "")
  else if Ascii.eqb c "=" || Ascii.eqb c "!" then Some ([], LOp c)
  else if Ascii.eqb c "," then Some ([TComma], LNone)
  else if Ascii.eqb c "+" then Some ([TPlus], LNone)
  else if Ascii.eqb c "-" then Some ([TMinus], LNone)
  else None.

Definition lex_step (st : lexing) (c : ascii) : option (list token * lexing) :=
  let fresh := match flush st, start c with
               | Some l, Some (l', st') => Some ((l ++ l')%list, st')
               | _, _ => None
               end in
  match st with
  | LWord s => if is_letter c || is_digit c then Some ([], LWord (s ++ String c "")) else fresh
  | LInt z => if is_digit c then Some ([], LInt (10 * z + Z.of_nat (nat_of_ascii c - 48))%Z) else fresh
  | LStr q s => if Ascii.eqb c q then Some ([TStr s], LNone) else Some ([], LStr q (s ++ String c ""))
  | LOp d => if Ascii.eqb c "=" then Some ([if Ascii.eqb d "=" then TEq else TNe], LNone) else None
  | LNone => fresh
  end.

Fixpoint lex (st : lexing) (s : string) : option (list token) :=
  match s with
  | EmptyString => flush st
  | String c r => match lex_step st c with
                  | Some (l, st') => option_map (app l) (lex st' r)
                  | None => None
                  end
  end.

(** The token lists between the tokens for which [f] holds. *)
Fixpoint split_tokens (f : token -> bool) (l : list token) : list (list token) :=
  match l with
  | [] => [[]]
  | t :: r => if f t then [] :: split_tokens f r
              else match split_tokens f r with
                   | w :: ws => (t :: w) :: ws
                   | [] => [[t]]
                   end
  end.

(** The attributes of a particle. *)
Inductive pyval : Type := PInt (z : Z) | PStr (s : string).
Definition pyenv : Type := list (string * pyval).
Fixpoint lookup (e : pyenv) (k : string) : res pyval :=
  match e with
  | [] => Err NameError
  | (k', v) :: r => if String.eqb k' k then Ok v else lookup r k
  end.

Definition truth (v : pyval) : bool :=
  match v with PInt z => negb (Z.eqb z 0) | PStr s => negb (String.eqb s "") end.

Definition eval_atom (e : pyenv) (t : token) : res pyval :=
  match t with
  | TName s => lookup e s
  | TInt z => Ok (PInt z)
  | TStr s => Ok (PStr s)
  | _ => Err SyntaxError
  end.

(** a + b - c ... *)
Fixpoint eval_sum_from (e : pyenv) (v : pyval) (l : list token) : res pyval :=
  match l with
  | [] => Ok v
  | op :: t :: r =>
      w <- eval_atom e t ;;
      match op, v, w with
      | TPlus, PInt a, PInt b => eval_sum_from e (PInt (a + b)) r
      | TMinus, PInt a, PInt b => eval_sum_from e (PInt (a - b)) r
      | TPlus, PStr a, PStr b => eval_sum_from e (PStr (a ++ b)) r
      | TPlus, _, _ | TMinus, _, _ => Err TypeError
      | _, _, _ => Err SyntaxError
      end
  | [_] => Err SyntaxError
  end.
Definition eval_sum (e : pyenv) (l : list token) : res pyval :=
  match l with [] => Err SyntaxError | t :: r => v <- eval_atom e t ;; eval_sum_from e v r end.

Definition pyval_eqb (a b : pyval) : bool :=
  match a, b with
  | PInt x, PInt y => Z.eqb x y
  | PStr x, PStr y => String.eqb x y
  | _, _ => false
  end.

Definition is_cmp (t : token) : bool := match t with TEq | TNe => true | _ => false end.
Definition eval_cmp (e : pyenv) (l : list token) : res bool :=
  match split_tokens is_cmp l with
  | [a] => v <- eval_sum e a ;; Ok (truth v)
  | [a; b] => v <- eval_sum e a ;; w <- eval_sum e b ;;
              Ok (if existsb (fun t => match t with TEq => true | _ => false end) l then pyval_eqb v w
                  else negb (pyval_eqb v w))
  | _ => Err SyntaxError
  end.

Fixpoint eval_and (e : pyenv) (l : list (list token)) : res bool :=
  match l with
  | [] => Ok true
  | c :: r => b <- eval_cmp e c ;; if b then eval_and e r else Ok false
  end.
Definition is_and (t : token) : bool := match t with TAnd => true | _ => false end.
Fixpoint eval_or (e : pyenv) (l : list (list token)) : res bool :=
  match l with
  | [] => Ok false
  | c :: r => b <- eval_and e (split_tokens is_and c) ;; if b then Ok true else eval_or e r
  end.
Definition is_or (t : token) : bool := match t with TOr => true | _ => false end.
Definition is_comma (t : token) : bool := match t with TComma => true | _ => false end.

(** A text with commas is a tuple; a tuple is true, its members are evaluated. *)
Definition py_eval (condition : string) (e : pyenv) : res bool :=
  match lex LNone condition with
  | None => Err SyntaxError
  | Some l =>
      bs <- mapM (fun c => eval_or e (split_tokens is_or c)) (split_tokens is_comma l) ;;
      match bs with [b] => Ok b | _ => Ok true end
  end.
