(** Model of Correlation._output_file (correlation.py:537-554) and of the default
    template (core.py: pp_output_path). *)
From Coq Require Import Ascii String List Bool.
Import ListNotations.
Local Open Scope string_scope.

(** ** str.format with the six names of the call (correlation.py:544-549) *)
Inductive piece : Type :=
| Lit (s : string) | FTrajectory | FSymbol | FShort | FLong | FTag | FTagDescription.

(** [trajectory.filename], symbol, short_name, long_name, tag, tag_description *)
Record names : Type := mkNames {
  n_trajectory : string; n_symbol : string; n_short : string; n_long : string; n_tag : string; n_description : string }.

(** s.replace(' ', '_') *)
Fixpoint underscore (s : string) : string :=
  match s with
  | EmptyString => EmptyString
  | String c r => String (if Ascii.eqb c " " then "_"%char else c) (underscore r)
  end.

Definition fill (n : names) (p : piece) : string :=
  match p with
  | Lit s => s
  | FTrajectory => n_trajectory n
  | FSymbol => n_symbol n
  | FShort => n_short n
  | FLong => underscore (n_long n)
  | FTag => n_tag n
  | FTagDescription => underscore (n_description n)
  end.

Definition format (n : names) (template : list piece) : string := fold_right append "" (map (fill n) template).

(** core.py: '{trajectory.filename}.pp.{symbol}.{tag}' *)
Definition default_template : list piece := [FTrajectory; Lit ".pp."; FSymbol; Lit "."; FTag].

(** ** Punctuation (correlation.py:550-554) *)
(** s.replace(p + p, p): left to right, not overlapping *)
Fixpoint squeeze (p : ascii) (s : string) : string :=
  match s with
  | EmptyString => EmptyString
  | String a r =>
      match r with
      | EmptyString => String a EmptyString
      | String b r' => if (Ascii.eqb a p && Ascii.eqb b p)%bool then String p (squeeze p r') else String a (squeeze p r)
      end
  end.

(** s.lstrip(p), s.rstrip(p) *)
Fixpoint lstrip (p : ascii) (s : string) : string :=
  match s with
  | EmptyString => EmptyString
  | String a r => if Ascii.eqb a p then lstrip p r else s
  end.
Fixpoint rstrip (p : ascii) (s : string) : string :=
  match s with
  | EmptyString => EmptyString
  | String a r => match rstrip p r with
                  | EmptyString => if Ascii.eqb a p then EmptyString else String a EmptyString
                  | r' => String a r'
                  end
  end.

(** one iteration on the last component *)
Definition tidy (p : ascii) (s : string) : string := rstrip p (lstrip p (squeeze p s)).

(** filename.split('/'): what precedes the last component, with the slash, and the last
    component *)
Fixpoint split_last (s : string) : string * string :=
  match s with
  | EmptyString => ("", "")
  | String c r => let (d, b) := split_last r in
                  if Ascii.eqb c "/" then (String c d, b)
                  else match d with
                       | EmptyString => ("", String c b)
                       | _ => (String c d, b)
                       end
  end.

Definition tidy_base (p : ascii) (s : string) : string := let (d, b) := split_last s in d ++ tidy p b.

(** correlation.py:537-554; [None] is output_path = None *)
Definition output_file (template : option (list piece)) (n : names) : option string :=
  match template with
  | None => None
  | Some t => Some (fold_left (fun s p => tidy_base p s) ["."; "_"; "-"]%char (format n t))
  end.
