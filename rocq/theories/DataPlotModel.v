(** Figures of strain paths and of a data set of material responses (C142):
    data_generation/strain_paths/interface.py 241-313 (plot_strain_path with
    is_plot_strain_path) and user_scripts/synthetic_data/gen_response_dataset.py
    1722-1853 (generate_dataset_plots).
    A path is its discrete times and the rows of its components.
    Simplifications: times and paths are given as lists, as generate_dataset_plots
    does; box plots (C136), figures of the stress space (C130), limits of axes
    and drawing are not modelled; the data loader gives the samples in the order
    of the data set (is_shuffle is False). *)
From Coq Require Import String Reals List Bool Arith.
From Verif Require Import Lib PyDict PyStr MatrixModel ResponseModel StressSpaceModel EqPathModel.
Import ListNotations.
Local Open Scope string_scope.
Local Open Scope list_scope.

(** data[:, j] = v for an array of m rows: numpy repeats a single entry *)
Definition assign_column (m : nat) (v : list R) : res (list R) :=
  if Nat.eqb (length v) m then Ok v else match v with [x] => Ok (repeat x m) | _ => Err ValueError end.
(** path[:, j] *)
Definition path_column (rows : list (list R)) (j : nat) : res (list R) :=
  rmap (fun r => match nth_error r j with Some x => Ok x | None => Err IndexError end) rows.
Definition curve := (string * list (R * R))%type.
(** interface.py 276-285: the array of one path and its labels *)
Definition path_curves (what : string) (m : nat) (comps : list comp) (times : list R) (rows : list (list R)) : res (list curve) :=
  rmap (fun jc : nat * comp =>
    rbind (assign_column m times) (fun t =>
    rbind (path_column rows (fst jc)) (fun c =>
    rbind (assign_column m c) (fun c =>
    Ok ((what ++ " " ++ comp_name (snd jc))%string, combine t c)))))
    (combine (seq 0 (length comps)) comps).
(** interface.py 293-297 *)
Definition figure_name (filename : string) (n_path k : nat) : string :=
  if Nat.ltb 1 n_path then (filename ++ "_sample_" ++ nat_str k)%string else filename.
(** interface.py 241-313: names and curves of the figures *)
Definition plot_strain_path (what filename : string) (comps : list comp) (times : list (list R)) (paths : list (list (list R)))
    : res (list (string * list curve)) :=
  if negb (Nat.eqb (length times) (length paths)) then Err RuntimeError
  else rbind (check_times times) (fun times =>
    let n_path := length paths in
    let m := n_time_max times in
    rmap (fun k => match nth_error times k, nth_error paths k with
                   | Some t, Some p => rbind (path_curves what m comps t p) (fun cs => Ok (figure_name filename n_path k, cs))
                   | _, _ => Err IndexError
                   end) (seq 0 (Nat.min n_path 5))).

(** ** Data set *)
Record dsample := mkSample { d_path : rpath; d_state : option spath; d_strain_order : list comp; d_stress_order : list comp }.
Record dplots := mkPlots { g_strain : list (string * list curve); g_stress : list (string * list curve);
  g_state : option (list (list (option (R * R))) * list R) }.
(** gen_response_dataset.py 1832-1853 *)
Definition state_plots (times : list (list R)) (data : list dsample) : res (option (list (list (option (R * R))) * list R)) :=
  let states := flat_map (fun s => match d_state s with Some x => [x] | None => [] end) data in
  match states with
  | [] => Ok None
  | _ => rbind (plot_state (Many times) (Many states)) (fun r => Ok (Some r))
  end.
(** gen_response_dataset.py 1749-1853: both figures use strain_comps_order *)
Definition generate_dataset_plots (data : list dsample) : res dplots :=
  let times := map (fun s => p_time (d_path s)) data in
  match data with
  | [] => Err IndexError
  | s0 :: _ =>
    let strain_comps_order := d_strain_order s0 in
    rbind (plot_strain_path "Strain" "strain_path" strain_comps_order times (map (fun s => p_strain (d_path s)) data)) (fun f1 =>
    rbind (plot_strain_path "Stress" "stress_path" strain_comps_order times (map (fun s => p_stress (d_path s)) data)) (fun f2 =>
    rbind (state_plots times data) (fun f3 => Ok (mkPlots f1 f2 f3))))
  end.
