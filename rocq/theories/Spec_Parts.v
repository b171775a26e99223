(** Which states of the files can be reached by calls of Partial.do(), those with update=True
    possibly stopped between two files, while the trajectory changes (C144). *)
From Coq Require Import Ascii String List ZArith Bool Arith.
From Verif Require Import PyBase Num M_Text M_Output.
Import ListNotations.

(** The writes of the members, one after the other. *)
Definition write_members (now : Z) (s : fs) (l : list (member * (data * list string))) : res fs :=
  foldM (fun s mx => write s now (m_path (fst mx)) (m_comments (fst mx)) (snd (snd mx)) (fst (snd mx))) s l.

(** [reached traj ps T h s]: at time T, after the complete calls h, with output files ps.
    The clock never goes back.  A call that computes writes the first k members; it is
    complete if k is their number, otherwise it was stopped (killed, or by an exception of
    write) between two files.  Only calls that found the need of an update are stopped;
    calls without update are complete.  The last constructor is a call stopped within the
    file of the member k, of which any part is there, k not being the last one.  Calls that reuse the output or stop earlier write nothing. *)
Inductive reached (traj : string) (ps : list string) : Z -> list (Z * list member) -> fs -> Prop :=
| reached_start : forall s T t, s traj = Some t -> (f_time t <= T)%Z -> (forall p, In p ps -> s p = None) -> reached traj ps T [] s
| reached_change : forall T h s T' f, reached traj ps T h s -> (T <= f_time f)%Z -> (f_time f <= T')%Z -> reached traj ps T' h (fs_set s traj f)
| reached_call : forall T h s now ms xs k s', reached traj ps T h s -> (T <= now)%Z -> map m_path ms = map Some ps ->
    (fst (partial_do true s now traj ms) = true \/ k = length ms) -> mapM m_compute ms = Ok xs -> (k <= length ms)%nat ->
    write_members now s (firstn k (combine ms xs)) = Ok s' ->
    reached traj ps now (if (k =? length ms)%nat then (now, ms) :: h else h) s'
| reached_cut : forall T h s now ms xs k s' p ls, reached traj ps T h s -> (T <= now)%Z -> map m_path ms = map Some ps ->
    fst (partial_do true s now traj ms) = true -> mapM m_compute ms = Ok xs -> write_members now s (firstn k (combine ms xs)) = Ok s' ->
    nth_error ps k = Some p -> (S k < length ps)%nat -> reached traj ps now h (fs_set s' p (mkFile now ls)).

(** The file p holds the result of the member m of a call at time now. *)
Definition holds (s : fs) (now : Z) (m : member) (p : string) : Prop :=
  exists d an lines, m_compute m = Ok (d, an) /\ file_lines (m_comments m) an d = Ok lines /\ s p = Some (mkFile now lines).
