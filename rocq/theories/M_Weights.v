(** Model of the weights of correlation functions: add_weight (correlation.py:243-289),
    copy_field (helpers.py:130-142), _setup_weight_onebody and _setup_weight_twobody
    (correlation.py:400-452), _subtract_mean (correlation.py:102-109) on numpy arrays. *)
From Coq Require Import Ascii String List ZArith Bool Arith.
From Verif Require Import PyBase Num M_Helpers M_Correlation M_Groups.
Import ListNotations.
Local Open Scope nat_scope.

Section Weights.
Variable A : arith.

(** The value of an attribute: a Python int or a float. *)
Inductive attr : Type := VInt (z : Z) | VNum (x : num A).
Definition attr_num (v : attr) : num A := match v with VInt z => nofZ A z | VNum x => x end.

(** A particle: species and the other scalar attributes (a dictionary). *)
Record wpart : Type := mkWP { wp_species : string; wp_attrs : list (string * attr) }.

(** getattr, setattr *)
Fixpoint attr_find (d : list (string * attr)) (k : string) : option attr :=
  match d with
  | [] => None
  | (k', v) :: r => if String.eqb k' k then Some v else attr_find r k
  end.
Fixpoint attr_put (d : list (string * attr)) (k : string) (v : attr) : list (string * attr) :=
  match d with
  | [] => [(k, v)]
  | (k', v') :: r => if String.eqb k' k then (k', v) :: r else (k', v') :: attr_put r k v
  end.
Definition getattr (p : wpart) (k : string) : res attr :=
  match attr_find (wp_attrs p) k with Some v => Ok v | None => Err AttributeError end.
Definition setattr (p : wpart) (k : string) (v : attr) : wpart := mkWP (wp_species p) (attr_put (wp_attrs p) k v).

(** ** Trajectories *)
(** The frames in the file, their steps, and the callbacks added so far.  A callback is
    called with the index of the frame (system.frame) and the particles. *)
Definition frame_callback : Type := nat -> list wpart -> res (list wpart).
Record wtraj : Type := mkWT { wt_steps : list Z; wt_frames : list (list wpart); wt_cbk : list frame_callback }.

(** trajectory[i] *)
Definition read_frame (t : wtraj) (i : nat) : res (list wpart) :=
  s <- get (wt_frames t) i ;; foldM (fun s cb => cb i s) s (wt_cbk t).

(** for s in trajectory *)
Definition read_all (t : wtraj) : res (list (list wpart)) := mapM (read_frame t) (seq 0 (length (wt_frames t))).

(** helpers.py:130-142 copy_field: zip stops at the shorter list of particles *)
Fixpoint copy_zip (field : string) (s so : list wpart) : res (list wpart) :=
  match s, so with
  | p :: r, po :: ro =>
      x <- getattr po field ;; r' <- copy_zip field r ro ;; Ok (setattr p field x :: r')
  | _, _ => Ok s
  end.
Definition copy_field (field : string) (w : wtraj) : frame_callback :=
  fun i s => so <- read_frame w i ;; copy_zip field s so.

(** ** The object *)
(** _weight, _weight_0, _weight_1 ([None] is Python's None), _weight_field,
    _weight_fluctuations.  An array of numpy is of integers or of floats. *)
Inductive array : Type := AInts (l : list Z) | ANums (l : list (num A)).
Record wobj : Type := mkWO {
  wo_weight : option (list array); wo_weight0 : option (list array); wo_weight1 : option (list array);
  wo_field : string; wo_fluct : bool }.
Definition wobj0 : wobj := mkWO None None None "" false.

(** correlation.py:243-289 add_weight, without the tags.  It returns the object and the
    trajectory [t] of the object, to which the callback is added before the steps are
    compared; an exception leaves both changed, which is not modelled. *)
Definition steps_eqb (a b : list Z) : bool := if list_eq_dec Z.eq_dec a b then true else false.
Definition add_weight (o : wobj) (t : wtraj) (trajectory : option wtraj) (field : option string) (fluct : bool)
  : res (wobj * wtraj) :=
  match trajectory, field with
  | None, None => Ok (o, t)
  | _, None => Err ValueError
  | w, Some f =>
      let t' := match w with None => t | Some w => mkWT (wt_steps t) (wt_frames t) (wt_cbk t ++ [copy_field f w]) end in
      let wt := match w with None => t | Some w => w end in
      if steps_eqb (wt_steps wt) (wt_steps t)
      then Ok (mkWO (Some []) (wo_weight0 o) (wo_weight1 o) f fluct, t')
      else Err ValueError
  end.

(** ** Arrays *)
(** s.dump('particle.field'): numpy.array of the attributes *)
Definition is_int (v : attr) : bool := match v with VInt _ => true | VNum _ => false end.
Definition to_array (l : list attr) : array :=
  match l with
  | [] => ANums []
  | _ => if forallb is_int l then AInts (map (fun v => match v with VInt z => z | VNum _ => 0%Z end) l)
         else ANums (map attr_num l)
  end.
Definition dump (field : string) (s : list wpart) : res array :=
  l <- mapM (fun p => getattr p field) s ;; Ok (to_array l).

Definition array_nums (a : array) : list (num A) :=
  match a with AInts l => map (nofZ A) l | ANums l => l end.

(** correlation.py:102-109 _subtract_mean: [current_field -= mean] on an array of
    integers raises numpy's UFuncTypeError, a TypeError. *)
Definition subtract_arrays (ws : list array) : res (list array) :=
  l <- subtract_mean A (map array_nums ws) ;;
  if existsb (fun a => match a with AInts _ => true | ANums _ => false end) ws then Err TypeError
  else Ok (map ANums l).

(** correlation.py:400-421 _setup_weight_onebody *)
Definition setup_weight_onebody (cbk : list (callback wpart)) (t : wtraj) (o : wobj) : res wobj :=
  match wo_weight o with
  | None => Ok o
  | Some old =>
      ss <- read_all t ;;
      ws <- mapM (fun s => dump (wo_field o) (one_body cbk s)) ss ;;
      l <- (if wo_fluct o then subtract_arrays (old ++ ws) else Ok (old ++ ws)) ;;
      Ok (mkWO (Some l) (wo_weight0 o) (wo_weight1 o) (wo_field o) (wo_fluct o))
  end.

(** correlation.py:423-452 _setup_weight_twobody.  With three filters (add_filter accepts
    them) s0 is not defined. *)
Definition setup_weight_twobody (cbk : list (callback wpart)) (t : wtraj) (o : wobj) : res wobj :=
  match wo_weight o with
  | None => Ok o
  | Some _ =>
      if length cbk <=? 1 then
        o' <- setup_weight_onebody cbk t (mkWO (Some []) (Some []) (Some []) (wo_field o) (wo_fluct o)) ;;
        Ok (mkWO (wo_weight o') (wo_weight o') (wo_weight o') (wo_field o') (wo_fluct o'))
      else
        ss <- read_all t ;;
        ws <- mapM (fun s =>
          match cbk with
          | [f0; f1] => a <- dump (wo_field o) (f0 s) ;; b <- dump (wo_field o) (f1 s) ;; Ok (a, b)
          | _ => Err UnboundLocalError
          end) ss ;;
        w0 <- (if wo_fluct o then subtract_arrays (map fst ws) else Ok (map fst ws)) ;;
        w1 <- (if wo_fluct o then subtract_arrays (map snd ws) else Ok (map snd ws)) ;;
        Ok (mkWO (Some []) (Some w0) (Some w1) (wo_field o) (wo_fluct o))
  end.
End Weights.
Arguments VInt {A}.
Arguments VNum {A}.
Arguments attr_num {A}.
Arguments mkWP {A}.
Arguments wp_species {A}.
Arguments wp_attrs {A}.
Arguments getattr {A}.
Arguments setattr {A}.
Arguments mkWT {A}.
Arguments wt_steps {A}.
Arguments wt_frames {A}.
Arguments wt_cbk {A}.
Arguments AInts {A}.
Arguments ANums {A}.
Arguments wo_weight {A}.
Arguments wo_weight0 {A}.
Arguments wo_weight1 {A}.
Arguments wo_field {A}.
Arguments wo_fluct {A}.
Arguments mkWO {A}.
Arguments array_nums {A}.
Arguments is_int {A}.
