(** Model of linkedcells.py.  A subcell is the list of its indices.  The dictionary
    [_neigh_cell] is modelled by its key set (all subcells) and the function giving
    the entry of a key; a missing key raises KeyError. *)
From Coq Require Import List ZArith Bool Arith.
From Verif Require Import PyBase Num M_Helpers M_Dynamics M_Realspace.
Import ListNotations.

(** linkedcells.py:52-57 and 65-66: neighbouring subcells obeying the third law *)
Definition newton_3d : list (list Z) :=
  [[1; 0; 0]; [1; 1; 0]; [0; 1; 0];
   [-1; 1; 0]; [1; 0; -1]; [1; 1; -1];
   [0; 1; -1]; [-1; 1; -1]; [1; 0; 1];
   [1; 1; 1]; [0; 1; 1]; [-1; 1; 1];
   [0; 0; 1]]%Z.
Definition newton_2d : list (list Z) := [[1; 0]; [1; 1]; [0; 1]; [-1; 1]]%Z.

(** linkedcells.py:75-80 and 88-92: all neighbouring subcells *)
Definition deltas : list Z := [-1; 0; 1]%Z.
Definition full_3d : list (list Z) :=
  flat_map (fun x => flat_map (fun y => flat_map (fun z =>
    if (x =? 0)%Z && (y =? 0)%Z && (z =? 0)%Z then [] else [[x; y; z]]) deltas) deltas) deltas.
Definition full_2d : list (list Z) :=
  flat_map (fun x => flat_map (fun y =>
    if (x =? 0)%Z && (y =? 0)%Z then [] else [[x; y]]) deltas) deltas.

(** linkedcells.py:95-106 *)
Definition offsets (ndims : nat) (newton : bool) : res (list (list Z)) :=
  match ndims with
  | 3 => Ok (if newton then newton_3d else full_3d)
  | 2 => Ok (if newton then newton_2d else full_2d)
  | _ => Err ValueError
  end.

(** linkedcells.py:28-37 _pbc, one direction: (periodic, number of subcells) *)
Definition pbc1 (pn : bool * Z) (t : Z) : Z :=
  let '(p, n) := pn in
  if p then (if (n <=? t)%Z then (t - n)%Z else if (t <? 0)%Z then (t + n)%Z else t) else t.

(** linkedcells.py:39-44 negation of _outside *)
Definition inside1 (pn : bool * Z) (t : Z) : bool := (0 <=? t)%Z && (t <? snd pn)%Z.
Fixpoint cell_inside (pns : list (bool * Z)) (c : list Z) : bool :=
  match pns, c with
  | pn :: pns', t :: c' => inside1 pn t && cell_inside pns' c'
  | [], [] => true
  | _, _ => false
  end.

(** linkedcells.py:109-122: entry of the map for the subcell [c] *)
Definition neigh_cells (offs : list (list Z)) (pns : list (bool * Z)) (c : list Z) : res (list (list Z)) :=
  if cell_inside pns c
  then Ok (filter (cell_inside pns) (map (fun o => map2 pbc1 pns (map2 Z.add c o)) offs))
  else Err KeyError.

Fixpoint cell_eqb (a b : list Z) : bool :=
  match a, b with
  | [], [] => true
  | x :: a', y :: b' => (x =? y)%Z && cell_eqb a' b'
  | _, _ => false
  end.

Section Cells.
Variable A : arith.
Notation vec := (list (num A)).

(** Attributes set by adjust (linkedcells.py:18-25) *)
Record setup : Type := mkSetup {
  s_hbox : vec; s_cell : vec; s_pns : list (bool * Z); s_offs : list (list Z) }.

(** astype(int): truncation; nan and infinities give an arbitrary integer in numpy,
    modelled as a subcell that is never in the map *)
Definition to_int (x : num A) : Z := match ntrunc A x with Some z => z | None => (-1)%Z end.

(** linkedcells.py:18-25 adjust *)
Definition adjust (rcut : num A) (box : vec) (newton : bool) (periodic : option (list bool)) : res setup :=
  let n_cell := map (fun L => to_int (ndiv A L rcut)) box in
  let per := match periodic with Some p => p | None => repeat true (length box) end in
  offs <- offsets (length n_cell) newton ;;
  Ok (mkSetup (map (fun L => ndiv A L (nofZ A 2)) box) (map2 (fun L n => ndiv A L (nofZ A n)) box n_cell)
        (combine per n_cell) offs).

(** linkedcells.py:124-126 _index *)
Definition lc_index (s : setup) (pos : vec) : list Z :=
  map2 (fun x c => to_int (ndiv A x c)) (map2 (nadd A) pos (s_hbox s)) (s_cell s).

(** linkedcells.py:156-158 particle_in_cell[c] *)
Definition in_cell (index : list (list Z)) (c : list Z) : list nat :=
  filter (fun i => cell_eqb (nth i index []) c) (seq 0 (length index)).

(** linkedcells.py:148-177 neighbours of each particle, with the current setup *)
Definition lc_neighbors (s : setup) (pos : list vec) (other : option (list vec)) : res (list (list nat)) :=
  let index := map (lc_index s) pos in
  let index_other := match other with None => index | Some o => map (lc_index s) o end in
  mapM (fun ipart =>
    icell <- get index ipart ;;
    let same := match other with
                | None => filter (fun j => (ipart <? j)%nat) (in_cell index_other icell)
                | Some _ => in_cell index_other icell
                end in
    ncells <- neigh_cells (s_offs s) (s_pns s) icell ;;
    Ok (same ++ flat_map (in_cell index_other) ncells)) (seq 0 (length pos)).

(** One call of compute (linkedcells.py:137-189, as_array=False): arguments, and the
    effect on the object, whose state is [None] until adjusted. *)
Record call : Type := mkCall {
  k_box : vec; k_pos : list vec; k_other : option (list vec); k_newton : bool; k_periodic : option (list bool) }.

Definition call_newton (k : call) : bool :=
  match k_other k with None => k_newton k | Some _ => false end.

Definition lc_setup (rcut : num A) (st : option setup) (k : call) : res setup :=
  match st with
  | Some s => Ok s
  | None => adjust rcut (k_box k) (call_newton k) (k_periodic k)
  end.

Definition lc_compute (rcut : num A) (st : option setup) (k : call) : res (setup * list (list nat)) :=
  s <- lc_setup rcut st k ;;
  ns <- lc_neighbors s (k_pos k) (k_other k) ;;
  Ok (s, ns).

(** linkedcells.py:189: what compute returns *)
Definition lc_result (rcut : num A) (st : option setup) (k : call) : res (list (list nat)) :=
  '(_, ns) <- lc_compute rcut st k ;; Ok ns.

(** State of the object after a sequence of calls; a call that raises after adjust
    leaves the object adjusted, one that raises within adjust does not. *)
Definition lc_after (rcut : num A) (st : option setup) (ks : list call) : option setup :=
  fold_left (fun st k => match lc_setup rcut st k with Ok s => Some s | Err _ => st end) ks st.

(** linkedcells.py:128-135 on_border, for the object in state [st]; the attributes it needs are
    set by the first call of compute (also, in the code, by one that raises because the cell does not
    have two or three dimensions, which is not modelled) *)
Definition lc_on_border (st : option setup) (pos : vec) : res bool :=
  match st with
  | None => Err AttributeError
  | Some s => Ok (existsb (fun tn => (fst tn =? snd (snd tn) - 1)%Z || (fst tn =? 0)%Z) (combine (lc_index s pos) (s_pns s)))
  end.

(** linkedcells.py:179-187 as_array=True: max() of no particles raises *)
Definition lc_as_array (ns : list (list nat)) : res nat :=
  match ns with [] => Err ValueError | _ => Ok (fold_left Nat.max (map (@length nat) ns) 0%nat) end.

(** gr.py:211-371 RadialDistributionFunctionFast._compute with linked cells
    (chosen at gr.py:232-244) for a periodic cell: one LinkedCells object of cutoff
    [rmax] serves all frames. *)
Definition linked_frame (same : bool) (rmax dr : num A) (n : nat) (st : option setup) (p0 p1 : list vec) (side : vec)
  : res (setup * list nat) :=
  '(s, ns) <- lc_compute rmax st (mkCall side p0 (if same then None else Some p1) true (Some (repeat true (length side)))) ;;
  _ <- lc_as_array ns ;;
  h <- gr_neighbors_c A p0 (if same then p0 else p1) ns side dr n ;;
  Ok (s, h).
Definition gr_fast_linked (pi : num A) (ndims : nat) (same : bool) (grid : list (num A)) (skip : nat)
  (pos0 pos1 : list (list vec)) (sides : list vec) (volume rmax : num A)
  : res (list (num A * num A)) :=
  g0 <- get grid 0 ;; g1 <- get grid 1 ;;
  let dr := nsub A g1 g0 in
  let n := length grid in
  origins <- py_range 0 (length pos0) skip ;;
  st <- foldM (fun acc i =>
      p0 <- get pos0 i ;; p1 <- get pos1 i ;; side <- get sides i ;;
      if (length p0 =? 0)%nat || (length p1 =? 0)%nat then Ok acc
      else
        '(s, h) <- linked_frame same rmax dr n (fst acc) p0 p1 side ;;
        Ok (Some s, snd acc ++ [(h, (length p0, length p1))])) (None, []) origins ;;
  fast_finish A pi ndims same dr n (snd st) volume rmax.
End Cells.
Arguments mkSetup {A}.
Arguments mkCall {A}.
Arguments s_hbox {A}.
Arguments s_cell {A}.
Arguments s_pns {A}.
Arguments s_offs {A}.
Arguments k_box {A}.
Arguments k_pos {A}.
Arguments k_other {A}.
Arguments k_newton {A}.
Arguments k_periodic {A}.
Arguments call_newton {A}.
