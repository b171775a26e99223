(** Histories of runs of a scattering function, to say which calculation the two output
    files belong to (C143). *)
From Coq Require Import Ascii String List ZArith Bool.
From Verif Require Import PyBase Num M_Text M_Output M_Analysis M_Memory.
Import ListNotations.

(** What a calculation returns: the function, the lines of the analysis, k and tau(k). *)
Definition result : Type := (data * list string * list (f64 * option f64))%type.

(** A complete call of do(), with or without update, at a given time; a change
    of another file (for instance a longer trajectory) by somebody else. *)
Inductive event : Type :=
| Run (update : bool) (now : Z) (comments : list string) (compute : res result)
| Change (q : string) (f : option file).

(** The files after a call: a call that reuses its output or raises writes nothing. *)
Definition files_after (s : fs) (r : bool * res (loaded + result * fs)) : fs :=
  match snd r with Ok (inr (_, s')) => s' | _ => s end.
Definition step (traj p : string) (s : fs) (e : event) : fs :=
  match e with
  | Run u now cs c => files_after s (do_scattering u s now (Some traj) (Some p) cs c)
  | Change q f => fun q' => if String.eqb q' q then f else s q'
  end.
Definition history (traj p : string) (s : fs) (es : list event) : fs := fold_left (step traj p) es s.

(** Nobody else touches the output files. *)
Definition tau_file (p : string) : string := (p ++ ".tau")%string.
Definition private (p : string) (e : event) : Prop :=
  match e with Run _ _ _ _ => True | Change q _ => q <> p /\ q <> tau_file p end.

(** Both files were written by one of the calls. *)
Definition pair_of (p : string) (s : fs) (es : list event) : Prop :=
  exists u now cs d an taus lines, In (Run u now cs (Ok (d, an, taus))) es /\ file_lines cs an d = Ok lines /\
    s p = Some (mkFile now lines) /\ s (tau_file p) = Some (mkFile now (write_tau taus)).
