(** Model of the arrays filled by Correlation._setup_arrays (correlation.py:308-491)
    and of the life of a correlation object: add_filter, repeated compute().
    The decorators of atooms (Unfolded, fold) are external functions. *)
From Coq Require Import Ascii String List ZArith Bool Arith.
From Verif Require Import PyBase Num M_Helpers M_Correlation M_Dynamics M_Realspace M_Groups.
Import ListNotations.
Local Open Scope nat_scope.

Section Arrays.
Variable A : arith.
Notation vec := (list (num A)).

(** A particle.  [p_unf] is the attribute position_unfolded, if there is one. *)
Record part : Type := mkPart {
  p_species : string; p_mass : num A; p_pos : vec; p_vel : vec; p_unf : option vec }.
Definition system : Type := list part.

(** Unfolded(trajectory, fixed_cm) on all the frames, and the callback fold on one. *)
Record decor : Type := mkDecor {
  d_unfold : bool -> list system -> list system;
  d_fold : system -> system }.

(** The strings in [phasespace]. *)
Record phasespace : Type := mkPS { w_pos : bool; w_unf : bool; w_vel : bool; w_ids : bool }.

(** The lists _pos, _vel, _ids, _pos_unf. *)
Record arrays : Type := mkArr {
  a_pos : list (list vec); a_vel : list (list vec); a_ids : list (list nat); a_unf : list (list vec) }.
Definition arrays0 : arrays := mkArr [] [] [] [].

(** distinct_species (atooms): the sorted list of the different species. *)
Fixpoint insert_species (x : string) (l : list string) : list string :=
  match l with
  | [] => [x]
  | y :: r => if String.eqb x y then l
              else if String.ltb x y then x :: l else y :: insert_species x r
  end.
Definition distinct_species (s : system) : list string :=
  fold_right (fun p l => insert_species (p_species p) l) [] s.

(** [ids.index(sp)] *)
Fixpoint species_index (ids : list string) (sp : string) : res nat :=
  match ids with
  | [] => Err ValueError
  | x :: r => if String.eqb x sp then Ok 0 else i <- species_index r sp ;; Ok (S i)
  end.

(** [hasattr(th[0].particle[0], 'position_unfolded')] *)
Definition has_unfolded (frames : list system) : res bool :=
  s <- get frames 0 ;; p <- get s 0 ;;
  Ok (match p_unf p with Some _ => true | None => false end).

(** correlation.py:337-350: the trajectory read by the loops ([th]). *)
Definition source (D : decor) (ps : phasespace) (fix_cm : bool) (frames : list system) : res (list system) :=
  h <- (if w_unf ps then has_unfolded frames else Ok true) ;;
  if (w_unf ps && negb h) || (w_pos ps && fix_cm) then
    let u := d_unfold D fix_cm frames in
    Ok (if w_pos ps then map (d_fold D) u else u)
  else Ok frames.

(** correlation.py:353-368: one frame of the first loop, after filtering. *)
Definition ids_of (ids : list string) (s : system) : res (list nat) :=
  mapM (fun p => species_index ids (p_species p)) s.

Definition when {X} (b : bool) (x : res (list X)) : res (list X) := if b then x else Ok [].

(** correlation.py:352-368 *)
Definition dump_first (ps : phasespace) (th : list system) (flt : system -> system)
  : res (list (list vec) * list (list vec) * list (list nat)) :=
  if w_pos ps || w_vel ps || w_ids ps then
    s0 <- get th 0 ;;
    let ids := distinct_species s0 in
    ii <- when (w_ids ps) (mapM (fun s => ids_of ids (flt s)) th) ;;
    Ok (if w_pos ps then map (fun s => map p_pos (flt s)) th else [],
        if w_vel ps then map (fun s => map p_vel (flt s)) th else [], ii)
  else Ok ([], [], []).

(** [s.dump('particle.position_unfolded')]: AttributeError if one lacks it *)
Definition dump_unf (s : system) : res (list vec) :=
  mapM (fun p => match p_unf p with Some u => Ok u | None => Err AttributeError end) s.

(** correlation.py:376-387: the center of mass of the unfolded positions removed *)
Definition fix_unfolded (s : system) : res system :=
  us <- dump_unf s ;;
  fixed <- fix_cm_frame A (combine (map p_mass s) us) ;;
  Ok (map2 (fun p mu => mkPart (p_species p) (p_mass p) (p_pos p) (p_vel p) (Some (snd mu))) s fixed).

(** correlation.py:370-400 *)
Definition dump_second (ps : phasespace) (fix_cm : bool) (th : list system) (flt : system -> system)
  : res (list (list vec)) :=
  if w_unf ps then
    h <- has_unfolded th ;;
    if (h : bool)
    then mapM (fun s => s' <- (if fix_cm then fix_unfolded s else Ok s) ;; dump_unf (flt s')) th
    else Ok (map (fun s => map p_pos (flt s)) th)
  else Ok [].

Definition arr_app (a b : arrays) : arrays :=
  mkArr (a_pos a ++ a_pos b) (a_vel a ++ a_vel b) (a_ids a ++ a_ids b) (a_unf a ++ a_unf b).

(** correlation.py:327-400 _setup_arrays_onebody: the lists are appended to those
    already present. *)
Definition setup_onebody (D : decor) (ps : phasespace) (fix_cm : bool) (cbk : list (callback part))
  (frames : list system) (old : arrays) : res arrays :=
  th <- source D ps fix_cm frames ;;
  f <- dump_first ps th (one_body cbk) ;;
  u <- dump_second ps fix_cm th (one_body cbk) ;;
  Ok (arr_app old (mkArr (fst (fst f)) (snd (fst f)) (snd f) u)).

(** correlation.py:447-491 _setup_arrays_twobody: the two sets of arrays.  [old0] and
    [old1] are _pos_0 etc. before; for at most one filter the lists of the one-body
    arrays [old] are appended and then shared (except _pos_unf). *)
Definition setup_twobody (D : decor) (ps : phasespace) (fix_cm : bool) (cbk : list (callback part))
  (frames : list system) (old old0 old1 : arrays) : res (arrays * arrays) :=
  match cbk with
  | f0 :: f1 :: _ =>
      a <- dump_first ps frames f0 ;;
      b <- dump_first ps frames f1 ;;
      let un := if w_unf ps then d_unfold D false frames else [] in
      Ok (arr_app old0 (mkArr (fst (fst a)) (snd (fst a)) (snd a) (map (fun s => map p_pos (f0 s)) un)),
          arr_app old1 (mkArr (fst (fst b)) (snd (fst b)) (snd b) (map (fun s => map p_pos (f1 s)) un)))
  | _ => a <- setup_onebody D ps fix_cm cbk frames old ;;
         Ok (mkArr (a_pos a) (a_vel a) (a_ids a) (a_unf old0), mkArr (a_pos a) (a_vel a) (a_ids a) (a_unf old1))
  end.

(** A MeanSquareDisplacement object: its arrays and its attribute grid.  One call of
    compute() (correlation.py:493-523, msd.py:53-79). *)
Definition msd_object : Type := (arrays * option (list (num A)))%type.
Definition msd_call (D : decor) (tr : traj A) (rmax : num A) (tsamples : Z) (n : norigins A)
  (no_offset fix_cm : bool) (cbk : list (callback part)) (frames : list system) (o : msd_object)
  : res (msd_object * (list (num A) * list (num A))) :=
  a <- setup_onebody D (mkPS false true false false) fix_cm cbk frames (fst o) ;;
  r <- msd_compute A tr (snd o) rmax tsamples n no_offset (a_unf a) ;;
  Ok ((a, Some (fst r)), r).

(** The classes whose discrete time grid is fixed by __init__ (qt.py, alpha2.py):
    arrays of the object and one call of compute().  [get] selects the array. *)
Definition grid_call (f : list vec -> list vec -> num A) (ps : phasespace) (get : arrays -> list (list vec))
  (D : decor) (tr : traj A) (dgrid : list (nat * nat)) (skip : nat) (fix_cm : bool)
  (cbk : list (callback part)) (frames : list system) (old : arrays)
  : res (arrays * (list (num A) * list (num A))) :=
  a <- setup_onebody D ps fix_cm cbk frames old ;;
  r <- offset_compute A f tr dgrid skip (get a) ;;
  Ok (a, r).
End Arrays.
Arguments arrays0 {A}.
Arguments mkPart {A}.
Arguments p_species {A}.
Arguments p_mass {A}.
Arguments p_pos {A}.
Arguments p_vel {A}.
Arguments p_unf {A}.
Arguments mkDecor {A}.
Arguments d_unfold {A}.
Arguments d_fold {A}.
Arguments mkArr {A}.
Arguments a_pos {A}.
Arguments a_vel {A}.
Arguments a_ids {A}.
Arguments a_unf {A}.
