(** Model of the free functions of atooms/postprocessing/correlation.py. *)
From Coq Require Import List ZArith Bool Arith.
From Verif Require Import PyBase Num M_Helpers.
Import ListNotations.
Local Open Scope nat_scope.

Section Corr.
Variable A : arith.

(** The pair of dictionaries (cf, cnt). *)
Definition cf_state : Type := (dict (num A) * dict nat)%type.

(** correlation.py:43-45, 68-70, 93-95 (same body three times):
    dt = t[i0+i] - t[i0]; cf[dt] += f(x[i0+i], x[i0]); cnt[dt] += 1 *)
Definition cf_body {X} (f : X -> X -> num A) (t : list Z) (x : list X) (i : nat)
  (st : cf_state) (i0 : nat) : res cf_state :=
  ta <- get t (i0 + i) ;; tb <- get t i0 ;;
  xa <- get x (i0 + i) ;; xb <- get x i0 ;;
  let dt := (ta - tb)%Z in
  Ok (dupd (fst st) dt (fun v => nadd A v (f xa xb)) (n0 A),
      dupd (snd st) dt S 0).

(** [cf[ti] / cnt[ti] for ti in dt]; an int 0 denominator raises. *)
Definition cf_ratio (st : cf_state) (ti : Z) : res (num A) :=
  c <- dgetE (fst st) ti ;; n <- dgetE (snd st) ti ;;
  if n =? 0 then Err ZeroDivisionError else Ok (ndiv A c (nofnat A n)).

(** correlation.py:77-99 gcf_offset *)
Definition gcf_offset {X} (f : X -> X -> num A) (grid : list (nat * nat)) (skip : nat)
  (t : list Z) (x : list X) : res (list Z * list (num A)) :=
  st <- foldM (fun st p =>
          rng <- py_range (fst p) (length x - snd p) skip ;;
          foldM (cf_body f t x (snd p)) st rng) ([], []) grid ;;
  let dt := sortZ (keys (fst st)) in
  v <- mapM (cf_ratio st) dt ;;
  Ok (dt, v).

(** correlation.py:52-74 gcf *)
Definition gcf {X} (f : X -> X -> num A) (grid : list nat) (skip : nat)
  (t : list Z) (x : list X) : res (list Z * list (num A) * list nat) :=
  st <- foldM (fun st i =>
          rng <- py_range 0 (length x - i - 1) skip ;;
          foldM (cf_body f t x i) st rng) ([], []) grid ;;
  let dt := sortZ (keys (fst st)) in
  v <- mapM (cf_ratio st) dt ;;
  c <- mapM (dgetE (snd st)) dt ;;
  Ok (dt, v, c).

(** correlation.py:30-49 acf.  numpy.average is modelled by a left-to-right sum;
    the returned dictionary [cnt] is modelled by its entries at the sorted keys. *)
Definition acf (grid : list nat) (skip : nat) (t : list Z) (x : list (num A))
  : res (list Z * list (num A) * list nat) :=
  let xave := nmean A x in
  let f a b := nmul A (nsub A a xave) (nsub A b xave) in
  st <- foldM (fun st i =>
          rng <- py_range 0 (length x - i) skip ;;
          foldM (cf_body f t x i) st rng) ([], []) grid ;;
  let dt := sortZ (keys (fst st)) in
  v <- mapM (cf_ratio st) dt ;;
  c <- mapM (dgetE (snd st)) dt ;;
  Ok (dt, v, c).

(** correlation.py:102-109 _subtract_mean.  [weight] is one array per frame; an
    empty list of frames raises ZeroDivisionError (mean is the int 0 there).  The
    arrays are modified in place; the model returns their new contents. *)
Definition subtract_mean (weight : list (list (num A))) : res (list (list (num A))) :=
  match weight with
  | [] => Err ZeroDivisionError
  | _ =>
      let mean := ndiv A (fold_left (fun m w => nadd A m (nmean A w)) weight (n0 A))
                         (nofnat A (length weight)) in
      Ok (map (map (fun v => nsub A v mean)) weight)
  end.
End Corr.
