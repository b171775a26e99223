(** Model of the text that Correlation.write puts into a file (correlation.py:607-642):
    the comments of _dump (helpers.py:234-265), the names of the columns, the lines of
    the analysis and the table; and of the lines seen by a reader of the file. *)
From Coq Require Import Ascii String List ZArith Bool Arith.
From Verif Require Import PyBase Num M_Text M_Output M_Path.
Import ListNotations.
Local Open Scope string_scope.

Definition newline : ascii := "010".
Definition nl : string := String newline "".

(** The lines of a text: the last one may lack the newline.  Carriage returns are taken
    for ordinary characters. *)
Fixpoint text_lines (s : string) : list string :=
  match s with
  | EmptyString => []
  | String a r => if Ascii.eqb a newline then "" :: text_lines r
                  else match text_lines r with
                       | w :: ws => String a w :: ws
                       | [] => [String a ""]
                       end
  end.

(** s.split(c) *)
Fixpoint split_on (c : ascii) (s : string) : list string :=
  match s with
  | EmptyString => [""]
  | String a r => if Ascii.eqb a c then "" :: split_on c r
                  else match split_on c r with w :: ws => String a w :: ws | [] => [String a ""] end
  end.

(** s[:-1] *)
Fixpoint drop_last (s : string) : string :=
  match s with
  | EmptyString => ""
  | String a EmptyString => ""
  | String a r => String a (drop_last r)
  end.

(** correlation.py:571-580 grid_name and 609-610: the names of the variables.  Without an opening
    parenthesis, [1] raises. *)
Definition grid_name (short : string) : res (list string) :=
  v <- get (split_on "(" short) 1 ;; Ok (split_on "," (drop_last v)).

Definition join (ss : list string) : string := fold_right append "" ss.

(** helpers.py:251-264 with comment = '# ' and inline = False; correlation.py:627-629 *)
Definition key_lines (kvs : list (string * option string)) : string :=
  join (map (fun kv => match snd kv with Some v => "# " ++ fst kv ++ ": " ++ v ++ nl | None => "" end) kvs).

(** What _dump and write take from outside: the date, core.__version__, trajectory.filename *)
Record origin : Type := mkOrigin { o_date : string; o_version : string; o_parents : option string }.

(** helpers.py:234-265 *)
Definition dump (title : string) (columns : list string) (o : origin) : string :=
  key_lines [("title", Some title); ("columns", Some (String.concat ", " columns)); ("date", Some (o_date o));
             ("command", Some "atooms-pp"); ("version", Some (o_version o)); ("parents", o_parents o);
             ("description", None); ("note", None)].

(** correlation.py:612-616 *)
Definition title (n : names) : string :=
  n_long n ++ " " ++ n_short n ++ " " ++ (if String.eqb (n_description n) "" then "" else "of") ++ " " ++ n_description n.

(** correlation.py:598-642: the text of the file.  [user] is self.comments, [analysis] the
    items of self.analysis, printed. *)
Definition file_text (n : names) (o : origin) (user : option string) (analysis : list (string * option string))
  (d : data) : res string :=
  rows <- table d ;;
  variables <- grid_name (n_short n) ;;
  Ok (dump (title n) (variables ++ [n_short n])%list o ++ match user with Some c => c | None => "" end ++
      key_lines analysis ++ join (map (fun r => show_row r ++ nl) rows)).

(** correlation.py:631-642 *)
Definition write_text (s : fs) (now : Z) (path : option string) (n : names) (o : origin) (user : option string)
  (analysis : list (string * option string)) (d : data) : res fs :=
  t <- file_text n o user analysis d ;;
  match path with None => Ok s | Some p => Ok (fs_set s p (mkFile now (text_lines t))) end.

(** The class variables: symbol, short_name, long_name and the grids, in the order of
    self.grid (alpha2.py:19-21, ba.py:54-56, chi4t.py:32-34, fkt.py:91-93 and 266-268, gr.py:86-88,
    ik.py:26-28, msd.py:38-40, qt.py:42-44 and 67-69, s4kt.py:24-26 and 35, sacf.py:19-21,
    sk.py:49-51 and 174-176, vacf.py:18-20). *)
Definition classes : list (string * string * string * list string) :=
  [("alpha2", "alpha_2(t)", "non-Gaussian parameter", ["t"]);
   ("ba", "D(theta)", "bond angle distribution", ["theta"]);
   ("chi4qs", "chi_4(t)", "dynamic susceptibility of self overlap", ["t"]);
   ("fskt", "F_s(k,t)", "self intermediate scattering function", ["k"; "t"]);
   ("fkt", "F(k,t)", "intermediate scattering function", ["k"; "t"]);
   ("gr", "g(r)", "radial distribution function", ["r"]);
   ("ik", "I(k)", "spectral density", ["k"]);
   ("msd", "dr^2(t)", "mean square displacement", ["t"]);
   ("qt", "Q(t)", "collective overlap", ["t"]);
   ("qst", "Q_s(t)", "self overlap", ["t"]);
   ("s4kt", "S_4(t,k)", "4-point dynamic structure factor from self overlap", ["t"; "k"]);
   ("sacf", "S(t)", "stress autocorrelation", ["t"]);
   ("sk", "S(k)", "structure factor", ["k"]);
   ("vacf", "Z(t)", "velocity autocorrelation", ["t"])].

(** susceptibility.py:14-24: Susceptibility inherits the empty names of Correlation
    (correlation.py:177-181). *)
Definition susceptibility_short : string := "".
