(** Model of do() for Chi4SelfOverlap (correlation.py:646-664, chi4t.py:36-89): what the
    object and its two companions hold afterwards. *)
From Coq Require Import Ascii String List ZArith Bool Arith.
From Verif Require Import PyBase Num M_Text M_Output M_Path M_Header M_Memory M_Chi4Object.
Import ListNotations.

(** What compute() and analyze() give: grid, value, average.value, variance.value, analysis. *)
Record chi4_result : Type := mkResult {
  r_grid : list f64; r_value : list f64; r_average : list f64; r_second : list f64; r_analysis : list (string * option string) }.

(** The values of the object (read from its file or computed), of average and of variance. *)
Record chi4_held : Type := mkHeld { h_own : loaded + (list f64 * list f64); h_average : list f64; h_second : list f64 }.

(** correlation.py:646-664 for a new object: read() (556-566) restores the grid and the values
    of the object itself only; the lists of the companions are empty as constructed
    (chi4t.py:44-51) until _compute() fills them (77-80). *)
Definition chi4_do (update : bool) (s : fs) (now : Z) (traj : string) (core_path template : option (list piece)) (n : names) (o : origin)
  (user : option string) (compute : res chi4_result) : bool * res (chi4_held * fs) :=
  let r := do_for update s (Some traj) (output_file template n) compute
    (fun s x => chi4_write s now core_path template n o user (r_analysis x) (r_grid x) (r_value x) (r_average x) (r_second x)) in
  (fst r, y <- snd r ;;
    Ok (match y with
        | inl l => (mkHeld (inl l) [] [], s)
        | inr (x, s') => (mkHeld (inr (r_grid x, r_value x)) (r_average x) (r_second x), s')
        end)).
