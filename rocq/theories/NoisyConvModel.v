(** Convergence plots of models trained on noisy data (C123):
    user_scripts/convergence_analyses/plot_noisy_convergence_analysis.py 46-95
    (generate_convergence_plots), 97-262 (plot_prediction_loss_convergence_uq),
    263-510 (scatter_xy_data_noise_cases, the error bars) and 588-604 (the model
    directories).
    The sizes of the training data sets and the losses of the realisations read
    from the directories are given as lists (UqModel, FileFindModel); their table
    is that of ConvPlotModel. A figure is its curves with their labels: abscissa,
    mean and error bar. Drawing is not modelled. *)
From Coq Require Import String Reals List Bool Arith.
From Verif Require Import Lib PyDict ConvPlotModel.
Import ListNotations.
Local Open Scope list_scope.

(** 588-604: the models by noise case, then by size *)
Definition model_dirs {A B} (noise_cases : list A) (training_sizes : list B) : list (A * B) :=
  flat_map (fun c => map (fun s => (c, s)) training_sizes) noise_cases.
(** 213-221: size and loss in alternate columns *)
Definition data_row (e : nat * list R) : list R := flat_map (fun l => [INR (fst e); l]) (snd e).
Definition data_rows (sizes : list nat) (losses : list (list R)) : res (list (list R)) :=
  rbind (uq_loss_table sizes losses) (fun t => Ok (map data_row t)).
(** 223: np.split into equal parts, np.hstack *)
Definition np_split {A} (k : nat) (rows : list A) : res (list (list A)) :=
  if Nat.eqb k 0 then Err ZeroDivisionError
  else if negb (Nat.eqb (Nat.modulo (length rows) k) 0) then Err ValueError
  else let m := Nat.div (length rows) k in Ok (map (fun i => firstn m (skipn (i * m) rows)) (seq 0 k)).
Definition hstack (parts : list (list (list R))) : list (list R) :=
  map (fun t => concat (map (fun p => nth t p []) parts)) (seq 0 (length (nth 0 parts []))).
(** row[j_init:j_end:2] *)
Fixpoint every2 (l : list R) : list R := match l with a :: _ :: t => a :: every2 t | [a] => [a] | [] => [] end.
Definition case_values (n i : nat) (row : list R) : list R := every2 (firstn (2 * n) (skipn (1 + 2 * n * i) row)).
Definition point := (R * (R * option (R * R)))%type.
(** 97-262 and 263-510 *)
Definition noise_figure (rt : range_type) (n_noise_case : nat) (labels : list string) (sizes : list nat) (losses : list (list R))
  : res (list (string * list point)) :=
  rbind (data_rows sizes losses) (fun rows =>
  rbind (np_split n_noise_case rows) (fun parts =>
  let data := hstack parts in
  let n := length (last losses []) in
  if negb (Nat.eqb (length labels) n_noise_case) then Err RuntimeError
  else if Nat.eqb n 0 then Err IndexError
  else Ok (map (fun i => (nth i labels ""%string, map (fun r => (nth 0 r 0%R, error_bar rt (case_values n i r))) data)) (seq 0 n_noise_case)))).
(** 46-95 *)
Definition generate_convergence_plots (n_noise_case : nat) (labels : list string) (sizes : list nat) (losses : list (list R)) (is_uq : bool)
  : res (list (string * list point)) :=
  if is_uq then noise_figure MinMax n_noise_case labels sizes losses else Err RuntimeError.
