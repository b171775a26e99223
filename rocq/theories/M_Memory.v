(** Model of the choice of the output path when a correlation function is constructed
    (correlation.py:210-213), of need_update for trajectories without a file, and of
    write() and do() of the scattering functions, which also write the relaxation times
    (fkt.py:166-173, 369-376). *)
From Coq Require Import Ascii String List ZArith Bool Arith.
From Verif Require Import PyBase Num M_Text M_Output M_Path M_Analysis.
Import ListNotations.
Local Open Scope nat_scope.

(** correlation.py:210-213.  [filename] is trajectory.filename, None for a trajectory kept
    in memory; [arg] the argument output_path; [core] is core.pp_output_path. *)
Definition initial_path (filename : option string) (arg : option (list piece)) (core : list piece)
  : option (list piece) :=
  match filename with
  | None => None
  | Some _ => Some (match arg with Some t => t | None => core end)
  end.

(** '{trajectory.filename}' *)
Definition printed_name (filename : option string) : string :=
  match filename with None => "None" | Some f => f end.

(** correlation.py:299-306, for any file name: getmtime(None) raises. *)
Definition need_update_of (s : fs) (filename path : option string) : res bool :=
  match filename with
  | Some t => need_update s t path
  | None => match path with
            | None => Err TypeError
            | Some p => match s p with
                        | None => Ok true
                        | Some _ => if String.eqb p "/dev/stdout" then Ok true else Err TypeError
                        end
            end
  end.

(** correlation.py:646-664 do for any file name and any write *)
Definition do_for {X} (update : bool) (s : fs) (filename path : option string) (compute : res X)
  (wr : fs -> X -> res fs) : bool * res (loaded + X * fs) :=
  let go := (true, x <- compute ;; s' <- wr s x ;; Ok (inr (x, s'))) in
  if update then
    match need_update_of s filename path with
    | Err e => (false, Err e)
    | Ok true => go
    | Ok false => (false, l <- read s path ;; Ok (inl l))
    end
  else go.

(** All the classes but the scattering functions: grid and values, lines of the analysis. *)
Definition do_plain (update : bool) (s : fs) (now : Z) (filename path : option string) (comments : list string)
  (compute : res (data * list string)) :=
  do_for update s filename path compute (fun s x => write s now path comments (snd x) (fst x)).

(** fkt.py:169-173, 372-376: [self._output_file + '.tau'] *)
Definition write_scattering (s : fs) (now : Z) (path : option string) (comments analysis : list string) (d : data)
  (taus : list (f64 * option f64)) : res fs :=
  s1 <- write s now path comments analysis d ;;
  match path with
  | None => Err TypeError
  | Some p => if String.eqb p "/dev/stdout" then Ok s1
              else Ok (fs_set s1 (p ++ ".tau") (mkFile now (write_tau taus)))
  end.
Definition do_scattering (update : bool) (s : fs) (now : Z) (filename path : option string) (comments : list string)
  (compute : res (data * list string * list (f64 * option f64))) :=
  do_for update s filename path compute (fun s x => write_scattering s now path comments (snd (fst x)) (fst (fst x)) (snd x)).
