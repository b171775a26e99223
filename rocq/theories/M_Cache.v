(** Model of several correlations computed one after the other on one trajectory object,
    which keeps the frames it has read or reads them again each time
    (api.py:25-28 th.cache; the loops of correlation.py:327-400 over self.trajectory). *)
From Coq Require Import Ascii String List ZArith Bool Arith.
From Verif Require Import PyBase Num M_Helpers M_Correlation M_Dynamics M_Realspace M_Groups M_Arrays.
Import ListNotations.

Section Cache.
Variable A : arith.

(** One correlation object: phasespace, fix_cm, filters. *)
Record cjob : Type := mkCJ { j_ps : phasespace; j_fix : bool; j_cbk : list (callback (part A)) }.

(** The frames of the trajectory after _setup_arrays_onebody.  correlation.py:386-387
    [p.position_unfolded -= cm] changes the particles of the frame that was read; the
    frames given by the decorator Unfolded are taken to be other objects. *)
Definition left_behind (ps : phasespace) (fix_cm : bool) (frames : list (system A)) : res (list (system A)) :=
  if w_unf ps then
    h <- has_unfolded A frames ;;
    if h && negb (w_pos ps) && fix_cm then mapM (fix_unfolded A) frames else Ok frames
  else Ok frames.

(** The arrays of each of the correlations.  A trajectory that keeps its frames hands
    out the same particles again. *)
Fixpoint run_jobs (D : decor A) (cache : bool) (frames : list (system A)) (jobs : list cjob)
  : res (list (arrays A)) :=
  match jobs with
  | [] => Ok []
  | j :: r =>
      a <- setup_onebody A D (j_ps j) (j_fix j) (j_cbk j) frames arrays0 ;;
      fr <- (if cache then left_behind (j_ps j) (j_fix j) frames else Ok frames) ;;
      l <- run_jobs D cache fr r ;;
      Ok (a :: l)
  end.
End Cache.
Arguments mkCJ {A}.
Arguments j_ps {A}.
Arguments j_fix {A}.
Arguments j_cbk {A}.
