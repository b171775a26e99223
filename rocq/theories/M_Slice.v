(** Model of the choice of frames by the functions of api.py: first, last and skip.
    fractional_slice of atooms turns the three arguments into a slice; the model starts
    from that slice. *)
From Coq Require Import List ZArith Bool Arith.
From Verif Require Import PyBase.
Import ListNotations.
Local Open Scope nat_scope.

(** slice(start, stop, step); negative steps are not modelled. *)
Record pyslice : Type := mkSlice { sl_start : option Z; sl_stop : option Z; sl_step : option nat }.

(** One end of a slice on n items (slice.indices of Python, positive step). *)
Definition slice_end (n : nat) (dflt : nat) (o : option Z) : nat :=
  match o with
  | None => dflt
  | Some z => if (z <? 0)%Z then Z.to_nat (z + Z.of_nat n) else Nat.min (Z.to_nat z) n
  end.

(** range(n)[sl]: the frames of Sliced (atooms). *)
Definition slice_frames (n : nat) (sl : pyslice) : res (list nat) :=
  py_range (slice_end n 0 (sl_start sl)) (slice_end n n (sl_stop sl)) (match sl_step sl with None => 1 | Some k => k end).

(** (z // block_size) * block_size *)
Definition block_floor (bs : nat) (z : Z) : Z := (z / Z.of_nat bs * Z.of_nat bs)%Z.

(** api.py:31-34 *)
Definition on_blocks (bs : nat) (sl : pyslice) : pyslice :=
  if 1 <? bs then mkSlice (option_map (block_floor bs) (sl_start sl)) (option_map (block_floor bs) (sl_stop sl)) (sl_step sl)
  else sl.

(** sl != slice(None, None, 1) *)
Definition trivial (sl : pyslice) : bool :=
  match sl_start sl, sl_stop sl, sl_step sl with None, None, Some 1 => true | _, _, _ => false end.

(** api.py:30-39: the frames of the trajectory handed to the correlation functions, of
    the n frames of the file. *)
Definition used_frames (n bs : nat) (sl : pyslice) : res (list nat) :=
  let sl := on_blocks bs sl in if trivial sl then Ok (seq 0 n) else slice_frames n sl.

(** The steps, or any data, of these frames. *)
Definition sliced {X} (frames : list nat) (x : list X) (d : X) : list X := map (fun i => nth i x d) frames.
