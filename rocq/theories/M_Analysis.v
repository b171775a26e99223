(** Model of Susceptibility.compute (susceptibility.py:29-47) and of the relaxation
    times (fkt.py:26-49). *)
From Coq Require Import Ascii String List ZArith Bool Arith Reals.
From Verif Require Import PyBase Num M_Helpers M_Partial M_Text.
Import ListNotations.
Local Open Scope nat_scope.

(** ** Relaxation times *)
(** fkt.py:37-49 _extract_tau.  Only ValueError is caught; feqc returns (None, None)
    when there is no root, whose first entry is None. *)
Definition extract_tau (A : arith) (ks t : list (num A)) (f : list (list (num A))) (factor : num A)
  : res (list (num A * option (num A))) :=
  t0 <- get t 0 ;;
  if nlt A (n0 A) t0 then Err ValueError else
  foldM (fun d ik =>
    fi <- get f (fst ik) ;;
    f0 <- get fi 0 ;;
    match feqc A t fi (nmul A f0 factor) with
    | Ok (Some p) => Ok (dict_set (neq A) d (snd ik) (Some (fst p)))
    | Ok None => Ok (dict_set (neq A) d (snd ik) None)
    | Err ValueError => Ok (dict_set (neq A) d (snd ik) None)
    | Err e => Err e
    end) [] (combine (seq 0 (length ks)) ks).

(** fkt.py:26-35 _write_tau: the lines of the file *)
Definition write_tau (d : list (f64 * option f64)) : list string :=
  ["# title: relaxation times tau(k) as a function of k";
   "# columns: k, tau(k)";
   "# note: tau is the time at which the correlation function has decayed to 1/e"]%string ++
  map (fun p => match snd p with None => show_row [fst p] | Some tau => show_row [fst p; tau] end) d.

(** ** Susceptibility *)
(** defaultdict(list) keyed by the times, in order of insertion: db[x].append(y) *)
Fixpoint db_add {K V} (eqk : K -> K -> bool) (db : list (K * list V)) (x : K) (y : V) : list (K * list V) :=
  match db with
  | [] => [(x, [y])]
  | (x', l) :: r => if eqk x' x then (x', l ++ [y]) :: r else (x', l) :: db_add eqk r x y
  end.

(** sorted(db) *)
Fixpoint insert_key {K V} (le : K -> K -> bool) (p : K * list V) (l : list (K * list V)) : list (K * list V) :=
  match l with
  | [] => [p]
  | q :: r => if le (fst p) (fst q) then p :: l else q :: insert_key le p r
  end.
Definition sort_keys {K V} (le : K -> K -> bool) (db : list (K * list V)) : list (K * list V) := fold_right (insert_key le) [] db.

Section Susceptibility.
Variable A : arith.

(** numpy.array(l).var(): the sums from left to right (numpy sums in pairs) *)
Definition np_var (l : list (num A)) : num A :=
  let m := nmean A l in nmean A (map (fun y => let d := nsub A y m in nmul A d d) l).

(** range(0, int(nsteps * frac) - skip, skip) with frac = tgrid[-1] / total_time *)
Definition suscept_origins (nsteps skip : nat) (frac : num A) : res (list Z) :=
  n <- pyint A (nmul A (nofnat A nsteps) frac) ;;
  if skip =? 0 then Err ValueError else
  Ok (filter (fun i => (i <? n - Z.of_nat skip)%Z) (map (fun j => Z.of_nat (j * skip)) (seq 0 (Z.to_nat n)))).

(** susceptibility.py:29-47 compute.  [corr i] is the grid and the values of the
    correlation function computed with the single origin [i] (the trajectory sliced
    from frame i). *)
Definition susceptibility (N nsteps skip : nat) (tgrid : list (num A)) (total_time : num A)
  (corr : Z -> res (list (num A) * list (num A))) : res (list (num A) * list (num A)) :=
  tlast <- getZ tgrid (-1) ;;
  frac <- pydiv A tlast total_time ;;
  origins <- suscept_origins nsteps skip frac ;;
  xys <- mapM corr origins ;;
  let db := fold_left (fun db xy =>
              fold_left (fun db p => db_add (neq A) db (fst p) (nmul A (snd p) (nofnat A N))) (combine (fst xy) (snd xy)) db) xys [] in
  let s := sort_keys (nle A) db in
  Ok (map fst s, map (fun p => ndiv A (np_var (snd p)) (nofnat A N)) s).
End Susceptibility.
