(** Model of FourierSpaceCorrelation.report (fourierspace.py:338-366): the numbers of its
    rows.  Simplified: rows are tuples instead of formatted lines. *)
From Coq Require Import List ZArith Bool Arith.
From Verif Require Import PyBase Num M_Helpers M_KGrid.
Import ListNotations.

Section Report.
Variable A : arith.

(** numpy's std: sqrt(mean((x - mean)**2)) *)
Definition nstd (l : list (num A)) : num A :=
  nsqrt A (nmean A (map (fun x => nsq A (nsub A x (nmean A l))) l)).

(** One line: k-point, average, std, vectors in shell. *)
Record shell_row : Type := mkRow { r_k : num A; r_mean : num A; r_std : num A; r_count : nat }.

(** fourierspace.py:347-355 *)
Definition report (st : kstate A) : res (list shell_row) :=
  mapM (fun ivs =>
    let knorms := map (fun v => nsqrt A (self_dot A v)) (snd ivs) in
    k <- get (ks_grid st) (fst ivs) ;;
    Ok (mkRow k (nmean A knorms) (nstd knorms) (length (snd ivs))))
    (combine (seq 0 (length (kvectors A st))) (kvectors A st)).

(** fourierspace.py:357-365: verbose, one line per vector *)
Definition report_vectors (st : kstate A) : res (list (num A * list (num A))) :=
  l <- mapM (fun ivs => mapM (fun v => k <- get (ks_grid st) (fst ivs) ;; Ok (k, v)) (snd ivs))
         (combine (seq 0 (length (kvectors A st))) (kvectors A st)) ;;
  Ok (concat l).
End Report.
Arguments r_k {A}.
Arguments r_mean {A}.
Arguments r_std {A}.
Arguments r_count {A}.
