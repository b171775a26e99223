(** Model of the three functions kept by Chi4SelfOverlap and of the three files written
    by its write() (chi4t.py:36-89). *)
From Coq Require Import Ascii String List ZArith Bool Arith.
From Verif Require Import PyBase Num M_Helpers M_Correlation M_Dynamics M_Text M_Output M_Path M_Header.
Import ListNotations.
Local Open Scope nat_scope.

Section Chi4Object.
Context (A : arith).

(** What one (off, i) appends to grid, value, average.value and variance.value. *)
Record chi4_row : Type := mkChi4 { c_time : num A; c_value : num A; c_average : num A; c_second : num A }.

(** chi4t.py:61-79 *)
Definition chi4_row_of (a2 : num A) (tr : traj A) (skip : nat) (unf : list (frame A)) (p : nat * nat) : res chi4_row :=
  s <- chi4_sums A a2 skip unf p ;;
  ta <- get (t_steps tr) (fst p + snd p) ;; tb <- get (t_steps tr) (fst p) ;;
  x0 <- get unf 0 ;;
  let cnt := snd s in
  let av v := if 0 <? cnt then ndiv A v (nofnat A cnt) else n0 A in
  let a_av := av (fst (fst s)) in
  let a2_av := av (snd (fst s)) in
  Ok (mkChi4 (nmul A (nofZ A (ta - tb)) (t_dt tr)) (ndiv A (nsub A a2_av (nsq A a_av)) (nofnat A (length x0))) a_av a2_av).

(** chi4t.py:36-80 after construction and one compute() *)
Definition chi4_rows (tr : traj A) (grid : list (num A)) (n : norigins A) (a : num A) (unf : list (frame A))
  : res (list chi4_row) :=
  skip <- adjust_skip A (length (t_steps tr)) (t_npart tr) (t_bs tr) n ;;
  dg <- setup_t_grid A (t_steps tr) (t_bs tr) (t_dt tr) grid (not_str_1 A n) ;;
  mapM (chi4_row_of (nsq A a) tr skip unf) dg.

End Chi4Object.
Arguments mkChi4 {A} _ _ _ _.
Arguments c_time {A} _.
Arguments c_value {A} _.
Arguments c_average {A} _.
Arguments c_second {A} _.

(** chi4t.py:44-51 and 60: two more Correlation objects; only the tag is copied, so that the
    description is the one set by Correlation.__init__ (correlation.py:209) *)
Definition companion (n : names) (symbol short long : string) : names :=
  mkNames (n_trajectory n) symbol short long (n_tag n) "the whole system".
Definition qsu (n : names) : names := companion n "qsu" "Q^u(t)" "Average of self overlap, not normalized".
Definition q2su (n : names) : names := companion n "q2su" "Q_2^u(t)" "Variance of self overlap, not normalized".

(** chi4t.py:82-86.  [template] is self.output_path; the companions have [core_path], that is
    core.pp_output_path at the time of construction, or None if the trajectory has no file
    (correlation.py:210-213).  Their comments are None, their analysis is empty. *)
Definition chi4_write (s : fs) (now : Z) (core_path template : option (list piece)) (n : names) (o : origin)
  (user : option string) (analysis : list (string * option string)) (g v av m2 : list f64) : res fs :=
  s1 <- write_text s now (output_file template n) n o user analysis (Data1 g v) ;;
  s2 <- write_text s1 now (output_file core_path (qsu n)) (qsu n) o None [] (Data1 g av) ;;
  write_text s2 now (output_file core_path (q2su n)) (q2su n) o None [] (Data1 g m2).
