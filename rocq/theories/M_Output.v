(** Model of Correlation.write, read, need_update and do (correlation.py:299-306,
    556-664) and of Partial.do (partial.py:66-114).  A file is a list of lines with a
    modification time.  Computing is a parameter: the grid, the values and the lines
    of the analysis, or an exception. *)
From Coq Require Import Ascii String List ZArith Bool Arith.
From Verif Require Import PyBase Num M_Text.
Import ListNotations.
Local Open Scope nat_scope.

(** ** Tables *)
(** self.grid and self.value: of one variable, or of two (a list of two grids and
    one row of values per point of the first). *)
Inductive data : Type :=
| Data1 (g v : list f64)
| Data2 (g0 g1 : list f64) (v : list (list f64)).

(** numpy.array([columns]).T: ValueError if the lengths differ *)
Definition columns2 (x y : list f64) : res (list (list f64)) :=
  if length x =? length y then Ok (map (fun p => [fst p; snd p]) (combine x y)) else Err ValueError.
Definition columns3 (x y z : list f64) : res (list (list f64)) :=
  if (length x =? length y) && (length y =? length z)
  then Ok (map (fun p => [fst (fst p); snd (fst p); snd p]) (combine (combine x y) z)) else Err ValueError.

(** numpy.array(value).flatten(): ValueError if the rows have different lengths *)
Definition flatten (v : list (list f64)) : res (list f64) :=
  match v with
  | [] => Ok []
  | r0 :: _ => if forallb (fun r => length r =? length r0) v then Ok (concat v) else Err ValueError
  end.

(** correlation.py:598-605.  [self.grid[0]] raises on an empty grid.  grid[1] is a
    list, so that [grid[1] * n] repeats it. *)
Definition table (d : data) : res (list (list f64)) :=
  match d with
  | Data1 g v => _ <- get g 0 ;; columns2 g v
  | Data2 g0 g1 v =>
      r0 <- get v 0 ;;
      let x := flat_map (fun a => repeat a (length r0)) g0 in
      let y := concat (repeat g1 (length g0)) in
      z <- flatten v ;;
      columns3 x y z
  end.

(** The lines of the file (correlation.py:607-642): comments and analysis first. *)
Definition file_lines (comments analysis : list string) (d : data) : res (list string) :=
  rows <- table d ;; Ok (comments ++ analysis ++ map show_row rows).

(** ** Files *)
Record file : Type := mkFile { f_time : Z; f_lines : list string }.
Definition fs : Type := string -> option file.
Definition fs_set (s : fs) (p : string) (f : file) : fs := fun q => if String.eqb q p then Some f else s q.

(** [None] is output_path = None: write does nothing then. *)
Definition write (s : fs) (now : Z) (path : option string) (comments analysis : list string) (d : data) : res fs :=
  lines <- file_lines comments analysis d ;;
  match path with
  | None => Ok s
  | Some p => Ok (fs_set s p (mkFile now lines))
  end.

(** correlation.py:556-566 read.  numpy.loadtxt drops the dimensions of length one. *)
Inductive loaded : Type :=
| LNothing                                    (* a warning; grid and value unchanged *)
| LScalars (x y : number)                     (* grid, value = two numbers *)
| LColumns (g v : list number).

Definition unpack (rows : list (list number)) : res loaded :=
  match rows with
  | [] => Err ValueError
  | [r] => match r with
           | [_; _; _] => Ok LNothing
           | x :: y :: _ => Ok (LScalars x y)
           | _ => Err TypeError
           end
  | (_ :: _ :: _ :: []) :: _ => Ok LNothing
  | (_ :: _ :: _) :: _ => Ok (LColumns (map (fun r => nth 0 r NNan) rows) (map (fun r => nth 1 r NNan) rows))
  | _ => (* one column *)
      match map (fun r => nth 0 r NNan) rows with
      | [_; _; _] => Ok LNothing
      | x :: y :: _ => Ok (LScalars x y)
      | _ => Err TypeError
      end
  end.

Definition read (s : fs) (path : option string) : res loaded :=
  match path with
  | None => Err TypeError
  | Some p => match s p with
              | None => Err FileNotFoundError
              | Some f => rows <- loadtxt (f_lines f) ;; unpack rows
              end
  end.

(** correlation.py:299-306 need_update; [traj] is the file of the trajectory *)
Definition need_update (s : fs) (traj : string) (path : option string) : res bool :=
  match path with
  | None => Err TypeError
  | Some p => match s p with
              | None => Ok true
              | Some f => if String.eqb p "/dev/stdout" then Ok true
                          else match s traj with
                               | None => Err FileNotFoundError
                               | Some t => Ok (negb (f_time t <? f_time f)%Z)
                               end
              end
  end.

(** ** do *)
(** What one call of do() did: whether it computed, and how it ended. *)
Inductive outcome : Type := Reused (l : loaded) | Computed (d : data) (s : fs).

(** correlation.py:646-664 do *)
Definition do_ (update : bool) (s : fs) (now : Z) (traj : string) (path : option string) (comments : list string)
  (compute : res (data * list string)) : bool * res outcome :=
  let go := (true, x <- compute ;; s' <- write s now path comments (snd x) (fst x) ;; Ok (Computed (fst x) s')) in
  if update then
    match need_update s traj path with
    | Err e => (false, Err e)
    | Ok true => go
    | Ok false => (false, l <- read s path ;; Ok (Reused l))
    end
  else go.

(** One member of a Partial: output file, comments, calculation. *)
Record member : Type := mkMember {
  m_path : option string; m_comments : list string; m_compute : res (data * list string) }.

(** partial.py:66-72: any member, stopping at the first *)
Fixpoint partial_need (s : fs) (traj : string) (ms : list member) : res bool :=
  match ms with
  | [] => Ok false
  | m :: r => n <- need_update s traj (m_path m) ;; if (n : bool) then Ok true else partial_need s traj r
  end.

(** partial.py:98-114 do: all are computed before any is written *)
Definition partial_do (update : bool) (s : fs) (now : Z) (traj : string) (ms : list member)
  : bool * res (list loaded + list data * fs) :=
  let go := (true,
    xs <- mapM m_compute ms ;;
    s' <- foldM (fun s mx => write s now (m_path (fst mx)) (m_comments (fst mx)) (snd (snd mx)) (fst (snd mx))) s (combine ms xs) ;;
    Ok (inr (map fst xs, s'))) in
  if update then
    match partial_need s traj ms with
    | Err e => (false, Err e)
    | Ok true => go
    | Ok false => (false, ls <- mapM (fun m => read s (m_path m)) ms ;; Ok (inl ls))
    end
  else go.

(** ** Interruptions *)
(** A process killed while it writes leaves the file as it was, or truncated to some
    prefix of the text: whole lines and a piece of the next. *)
Inductive cut (lines : list string) : list string -> Prop :=
| cut_at : forall k, cut lines (firstn k lines)
| cut_in : forall k j l, nth_error lines k = Some l -> cut lines (firstn k lines ++ [substring 0 j l]).
Inductive killed (s : fs) (now : Z) (p : string) (lines : list string) : fs -> Prop :=
| killed_before : killed s now p lines s
| killed_during : forall ls, cut lines ls -> killed s now p lines (fs_set s p (mkFile now ls)).
