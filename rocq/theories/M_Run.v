(** Model of one calculation from the call of do() to the output file: the path from the
    names of the class (correlation.py:210-213, 536-555), the decision to compute
    (correlation.py:646-653), analyze() and the text written (correlation.py:655-661,
    598-642); and of several calculations one after the other (api.py:70-329). *)
From Coq Require Import Ascii String List ZArith Bool Arith.
From Verif Require Import PyBase Num M_Text M_Output M_Path M_Header M_Memory M_Helpers M_Correlation M_Dynamics.
Import ListNotations.
Local Open Scope string_scope.

Definition curve : Type := list f64 * list f64.

(** One object: trajectory.filename, the names of the class and of the filters, the date and
    version, self.comments, compute() and the items that analyze() leaves in self.analysis,
    printed.  ImportError raised by analyze() counts as no items. *)
Record calc : Type := mkCalc {
  c_filename : option string; c_output : option (list piece);
  c_symbol : string; c_short : string; c_long : string; c_tag : string; c_description : string;
  c_date : string; c_version : string; c_comments : option string;
  c_compute : res curve; c_analyze : curve -> res (list (string * option string)) }.

Definition c_names (c : calc) : names :=
  mkNames (printed_name (c_filename c)) (c_symbol c) (c_short c) (c_long c) (c_tag c) (c_description c).

(** correlation.py:210-213, 536-555: [core] is core.pp_output_path *)
Definition c_path (core : list piece) (c : calc) : option string :=
  output_file (initial_path (c_filename c) (c_output c) core) (c_names c).

(** correlation.py:646-664 do, with the text of the file *)
Definition do_calc (update : bool) (core : list piece) (now : Z) (s : fs) (c : calc) : bool * res (loaded + curve * fs) :=
  do_for update s (c_filename c) (c_path core c) (c_compute c)
    (fun s r => an <- c_analyze c r ;;
       write_text s now (c_path core c) (c_names c) (mkOrigin (c_date c) (c_version c) (c_filename c)) (c_comments c) an
         (Data1 (fst r) (snd r))).

(** The files after a call. *)
Definition files_after (s : fs) (r : bool * res (loaded + curve * fs)) : res fs :=
  match snd r with
  | Ok (inl _) => Ok s
  | Ok (inr (_, s')) => Ok s'
  | Err e => Err e
  end.

(** Calls one after the other, with the time of the clock. *)
Definition do_all (update : bool) (core : list piece) (s : fs) (cs : list (Z * calc)) : res fs :=
  foldM (fun s c => files_after s (do_calc update core (fst c) s (snd c))) s cs.

(** msd.py:38-77: MeanSquareDisplacement of a stored trajectory.  [x] are the unfolded
    positions, after fix_cm and the filters. *)
Definition msd_calc (filename tag description date version : string) (comments : option string)
  (analyze : curve -> res (list (string * option string)))
  (tr : traj F64ops) (grid : option (list f64)) (rmax : f64) (tsamples : Z) (n : norigins F64ops) (no_offset : bool)
  (x : list (frame F64ops)) : calc :=
  mkCalc (Some filename) None "msd" "dr^2(t)" "mean square displacement" tag description date version comments
    (msd_compute F64ops tr grid rmax tsamples n no_offset x) analyze.
