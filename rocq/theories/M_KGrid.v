(** Model of the selection of wave-vectors in
    atooms/postprocessing/fourierspace.py, for an arbitrary arithmetic. *)
From Coq Require Import List ZArith Bool Arith.
From Verif Require Import PyBase Num M_Helpers.
Import ListNotations.
Local Open Scope nat_scope.

(** [range(a, b+1)] on integers *)
Definition zrange (a b : Z) : list Z :=
  map (fun i => (a + Z.of_nat i)%Z) (seq 0 (Z.to_nat (b + 1 - a))).

(** fourierspace.py:83-92 _sphere (each yielded vector is used at once, so the
    reuse of one buffer is not modelled) *)
Definition sphere (kmax : Z) : list (list Z) :=
  flat_map (fun ix => flat_map (fun iy => map (fun iz => [ix; iy; iz])
    (zrange (- kmax) kmax)) (zrange (- kmax) kmax)) (zrange (- kmax) kmax).

(** fourierspace.py:94-100 _disk *)
Definition disk (kmax : Z) : list (list Z) :=
  flat_map (fun ix => map (fun iy => [ix; iy]) (zrange (- kmax) kmax))
    (zrange (- kmax) kmax).

(** fourierspace.py:264-270: the iterator chosen from the number of dimensions *)
Definition lattice_points (ndims : nat) (kmax : Z) : res (list (list Z)) :=
  if ndims =? 3 then Ok (sphere kmax)
  else if ndims =? 2 then Ok (disk kmax)
  else Err ValueError.

(** [kvec[i].append(t)] *)
Fixpoint append_at {X} (l : list (list X)) (i : nat) (t : X) : list (list X) :=
  match l, i with
  | [], _ => []
  | s :: r, O => (s ++ [t]) :: r
  | s :: r, S i' => s :: append_at r i' t
  end.

Definition is_empty {X} (l : list X) : bool :=
  match l with [] => true | _ => false end.

Section KGrid.
Variable A : arith.

(** [k0 * ik] *)
Definition kscale (k0 : list (num A)) (ik : list Z) : list (num A) :=
  map (fun p => nmul A (fst p) (nofZ A (snd p))) (combine k0 ik).

(** [numpy.dot(v, v)] *)
Definition self_dot (v : list (num A)) : num A := nsum A (map (fun x => nmul A x x) v).

(** fourierspace.py:78-81 _k_norm *)
Definition k_norm (ik : list Z) (k0 : list (num A)) (offset : Z) : num A :=
  nsqrt A (self_dot (kscale k0 (map (fun n => (n - offset)%Z) ik))).

(** [min(k0)] *)
Definition kmin0 (k0 : list (num A)) : res (num A) :=
  match k0 with
  | [] => Err ValueError
  | x :: r => Ok (list_best A (nlt A) x r)
  end.

(** fourierspace.py:283-286: the first shell in which the vector fits *)
Fixpoint find_shell (knorm : num A) (kgrid dk : list (num A)) : option nat :=
  match kgrid, dk with
  | k :: kr, d :: dr =>
      if nlt A (nabs A (nsub A knorm k)) d then Some 0
      else option_map S (find_shell knorm kr dr)
  | _, _ => None
  end.

(** fourierspace.py:273-286: the body of the loop over lattice points *)
Definition place (k0 kgrid dk : list (num A)) (kmax_sq : num A) (kbin_max : Z)
  (kvec : list (list (list Z))) (ik : list Z) : list (list (list Z)) :=
  let ksq := self_dot (kscale k0 ik) in
  if nlt A kmax_sq ksq then kvec
  else match find_shell (nsqrt A ksq) kgrid dk with
       | Some i => append_at kvec i (map (fun n => (n + kbin_max)%Z) ik)
       | None => kvec
       end.

(** fourierspace.py:253-286: one pass over the lattice points.  int() of a
    non-finite number raises. *)
Definition grid_pass (dk kgrid k0 : list (num A)) : res (list (list (list Z)) * Z) :=
  let kvec := map (fun _ => []) kgrid in
  kl <- getZ kgrid (-1) ;; dl <- getZ dk (-1) ;;
  let kmax := nadd A kl dl in
  km <- kmin0 k0 ;;
  match ntrunc A (ndiv A kmax km) with
  | None => Err OverflowError
  | Some q =>
      let kbin_max := (1 + q)%Z in
      let kmax_sq := nmul A kmax kmax in
      pts <- lattice_points (length k0) kbin_max ;;
      Ok (fold_left (place k0 kgrid dk kmax_sq kbin_max) pts kvec, kbin_max)
  end.

(** The float literal 1.2 *)
Definition n12 : num A := ndiv A (nofZ A 12) (nofZ A 10).

(** fourierspace.py:289-293: widen the empty shells *)
Definition widen (dk : list (num A)) (kvec : list (list (list Z))) : list (num A) :=
  map (fun p => if is_empty (snd p) then nmul A (fst p) n12 else fst p) (combine dk kvec).

(** fourierspace.py:243-297 _setup_grid_sphere.  [fuel] is the number of nested
    calls the interpreter allows. *)
Fixpoint setup_grid_sphere (fuel : nat) (dk kgrid k0 : list (num A))
  : res (list (list (list Z)) * Z) :=
  match fuel with
  | O => Err RecursionError
  | S f =>
      r <- grid_pass dk kgrid k0 ;;
      if existsb is_empty (fst r)
      then setup_grid_sphere f (widen dk (fst r)) kgrid k0
      else Ok r
  end.

(** [l.sort()] on floats *)
Fixpoint insert_num (x : num A) (l : list (num A)) : list (num A) :=
  match l with
  | [] => [x]
  | y :: r => if nle A x y then x :: y :: r else y :: insert_num x r
  end.
Definition sort_num (l : list (num A)) : list (num A) := fold_right insert_num [] l.

(** Python's random module: [seed] and [sample(population, n)], the latter
    returning the new state of the generator.  Nothing is assumed about them in
    the model. *)
Record rng : Type := mkRng {
  rng_state : Type;
  rng_seed : Z -> rng_state;
  rng_sample : rng_state -> list (list Z) -> nat -> list (list Z) * rng_state
}.

(** fourierspace.py:229-231: decimation; a negative size raises ValueError. *)
Definition decimate (g : rng) (nk : Z) (s : rng_state g) (kvec : list (list (list Z)))
  : res (list (list (list Z)) * rng_state g) :=
  foldM (fun st klist =>
           let n := Z.min nk (Z.of_nat (length klist)) in
           if (n <? 0)%Z then Err ValueError
           else let r := rng_sample g (snd st) klist (Z.to_nat n) in
                Ok (fst st ++ [fst r], snd r))
        ([], s) kvec.

(** [numpy.mean([_k_norm(kvec, k0, koffset) for kvec in klist])] *)
Definition mean_norm (k0 : list (num A)) (off : Z) (klist : list (list Z)) : num A :=
  nmean A (map (fun kvec => k_norm kvec k0 off) klist).

(** The attributes k0, _kvectors, _koffset and kgrid. *)
Record kstate : Type := mkK {
  ks_k0 : list (num A);
  ks_vectors : list (list (list Z));
  ks_offset : Z;
  ks_grid : list (num A)
}.

(** The parameters dk, nk, kmin, kmax, ksamples. *)
Record kparams : Type := mkP {
  kp_dk : num A;
  kp_nk : Z;
  kp_kmin : num A;
  kp_kmax : num A;
  kp_ksamples : Z
}.

(** fourierspace.py:204: 2*math.pi / side *)
Definition cell_k0 (two_pi : num A) (side : list (num A)) : list (num A) :=
  map (fun l => ndiv A two_pi l) side.

(** fourierspace.py:208-218: the list of k values before the selection.  [grid]
    is the list given by the user, or None. *)
Definition initial_kgrid (p : kparams) (k0 : list (num A)) (grid : option (list (num A)))
  : res (list (num A)) :=
  km <- kmin0 k0 ;;
  match grid with
  | None =>
      if nlt A (n0 A) (kp_kmin p)
      then linear_grid A (kp_kmin p) (kp_kmax p) (DInt (kp_ksamples p))
      else linear_grid A km (kp_kmax p) (DInt (kp_ksamples p))
  | Some g =>
      match sort_num g with
      | [] => Err IndexError
      | k :: r => Ok ((if nlt A k (n0 A) then km else k) :: r)
      end
  end.

(** fourierspace.py:189-240 _setup (sample 0, no kgrid yet, or sample > 0).
    [self.kgrid] is the caller's list itself (lines 199 and 201 do not copy), and
    it is sorted and overwritten in place: the second component of the result is
    the content of the caller's list afterwards.  [s] is the state of the random
    module before the call. *)
Definition setup (fuel : nat) (two_pi : num A) (g : rng) (p : kparams)
  (side : list (num A)) (s : rng_state g) (grid : option (list (num A)))
  : res (kstate * option (list (num A)) * rng_state g) :=
  let k0 := cell_k0 two_pi side in
  kgrid <- initial_kgrid p k0 grid ;;
  r <- setup_grid_sphere fuel (map (fun _ => kp_dk p) kgrid) kgrid k0 ;;
  d <- decimate g (kp_nk p) (rng_seed g 1) (fst r) ;;
  let kvec := fst d in
  let kgrid' := map (mean_norm k0 (snd r)) kvec in
  Ok (mkK k0 kvec (snd r) kgrid',
      match grid with None => None | Some _ => Some kgrid' end,
      snd d).

(** fourierspace.py:299-308: the kvectors property *)
Definition kvectors (st : kstate) : list (list (list (num A))) :=
  map (map (fun kvec => kscale (ks_k0 st) (map (fun n => (n - ks_offset st)%Z) kvec)))
      (ks_vectors st).

(** fourierspace.py:322-323: numpy.rint(kvec / k0) as integers.  The vectors and
    the cell must have the same number of dimensions (numpy's broadcasting of
    length-one arrays is not modelled). *)
Definition round_kvec (k0 kvec : list (num A)) : res (list Z) :=
  if length kvec =? length k0 then
    mapM (fun p => match nrint A (ndiv A (fst p) (snd p)) with
                   | Some z => Ok z
                   | None => Err ValueError
                   end) (combine kvec k0)
  else Err ValueError.

(** [min(rounded)] *)
Definition min_list (l : list Z) : res Z :=
  match l with
  | [] => Err ValueError
  | x :: r => Ok (fold_left Z.min r x)
  end.

(** fourierspace.py:310-336: assignment to the kvectors property *)
Definition set_kvectors (two_pi : num A) (side : list (num A))
  (kv : list (list (list (num A)))) : res kstate :=
  let k0 := cell_k0 two_pi side in
  rounded <- mapM (mapM (round_kvec k0)) kv ;;
  shift <- foldM (fun s v => m <- min_list v ;; Ok (Z.min s m)) 0%Z (concat rounded) ;;
  let off := (Z.abs shift + 1)%Z in
  let vecs := map (map (map (fun n => (n + off)%Z))) rounded in
  Ok (mkK k0 vecs off (map (mean_norm k0 off) vecs)).
End KGrid.

Arguments mkK {A}.
Arguments mkP {A}.
Arguments ks_k0 {A}.
Arguments ks_vectors {A}.
Arguments ks_offset {A}.
Arguments ks_grid {A}.
