(** Record of the iterations of a data set pruning, its summary and its plots
    (C129): miscellaneous/pruning/pruning_dataset.py 174-281 (iteration data of
    prune_time_series_dataset), 914-950 (rows of the summary file), 1126-1308
    (plot_pruning_iterative_data).  The losses and errors of the trained models
    are arguments.  A table is a list of rows; None is an entry without value.
    Simplifications: exact percentages; plots are their file name, table and
    threshold; text formatting is not modelled. *)
From Coq Require Import String List Arith Bool QArith Reals.
From Verif Require Import Lib PyDict PyStr DatasetModel PruningModel.
Import ListNotations.
Local Open Scope nat_scope.
Local Open Scope list_scope.

Record iter_data := mkIter { i_dev : nat; i_train : nat; i_valid : nat; i_unused : nat; i_loss : dict (option R); i_nrmse : dict (option R) }.
Section Record_.
  Context {A : Type}.
  (** 178-183, 262-269: split of the development data set and iteration data *)
  Definition iteration_record (perm : nat -> list nat) (iter_sizes : dict Q) (loss nrmse : dict (option R)) (du : list A * list A) : res iter_data :=
    rbind (split_dataset perm (length (fst du)) iter_sizes) (fun subs =>
    rbind (dlookup subs "training") (fun t =>
    rbind (dlookup subs "validation") (fun v =>
    Ok (mkIter (length (fst du)) (length t) (length v) (length (snd du)) loss nrmse)))).
  (** 203-247: values of the testing types; no testing without unused data *)
  Definition testing_values (value : nat -> string -> option R) (types : list string) (k : nat) (unused : list A) : dict (option R) :=
    fold_left (fun d t => dset d t (if String.eqb t "unused_data" && Nat.eqb (length unused) 0 then None else value k t)) types [].
  (** 144-281: the dictionary of the iterations, keys '0', '1', ... *)
  Fixpoint record_from (perm : nat -> nat -> list nat) (iter_sizes : dict Q) (types : list string) (loss nrmse : nat -> string -> option R)
      (k : nat) (hist : list (list A * list A)) (d : dict iter_data) : res (dict iter_data) :=
    match hist with
    | [] => Ok d
    | du :: t =>
      rbind (iteration_record (perm k) iter_sizes (testing_values loss types k (snd du)) (testing_values nrmse types k (snd du)) du) (fun r =>
      record_from perm iter_sizes types loss nrmse (S k) t (dset d (nat_str k) r))
    end.
End Record_.

Local Open Scope R_scope.
(** (n/n_full)*100 *)
Definition percent (n_full n : nat) : res R := if Nat.eqb n_full 0 then Err ZeroDivisionError else Ok (INR n / INR n_full * 100).
(** 914-950: numbers of a row of the summary file *)
Definition summary_row (n_full k : nat) (r : iter_data) : res (list R * list (option R)) :=
  rbind (percent n_full (i_dev r)) (fun a => rbind (percent n_full (i_train r)) (fun b =>
  rbind (percent n_full (i_valid r)) (fun c => rbind (percent n_full (i_unused r)) (fun d =>
  Ok ([INR k; INR (i_dev r); a; INR (i_train r); b; INR (i_valid r); c; INR (i_unused r); d],
      map (fun t => match dget (i_loss r) t with Some v => v | None => None end) ["in_distribution"; "out_distribution"; "unused_data"]%string))))).
(** 1135-1157: table of the data set sizes *)
Definition size_table (n_full : nat) (data : dict iter_data) : res (list (list R)) :=
  rmap (fun k => rbind (dlookup data (nat_str k)) (fun r =>
    rbind (percent n_full (i_dev r)) (fun a => rbind (percent n_full (i_train r)) (fun b =>
    rbind (percent n_full (i_valid r)) (fun c => rbind (percent n_full (i_unused r)) (fun d =>
    Ok [INR k; a; INR k; b; INR k; c; INR k; d])))))) (seq 0 (length data)).
(** 1195-1214: table of a testing type *)
Definition test_table (n_full : nat) (data : dict iter_data) (t : string) : res (list (list (option R))) :=
  rmap (fun k => rbind (dlookup data (nat_str k)) (fun r =>
    rbind (percent n_full (i_dev r)) (fun a => rbind (dlookup (i_nrmse r) t) (fun v => Ok [Some a; v])))) (seq 0 (length data)).
(** 1237-1247: (1.0 + ratio)*data_xy[0, 1] *)
Definition threshold (plotted : bool) (ratio : R) (t : string) (table : list (list (option R))) : res (option R) :=
  if plotted && negb (String.eqb t "unused_data") then
    match table with
    | [] => Err IndexError
    | row :: _ => match nth 1 row None with Some v => Ok (Some ((1 + ratio) * v)) | None => Err TypeError end
    end
  else Ok None.
Record plot := mkPlot { pl_file : string; pl_table : list (list (option R)); pl_threshold : option R }.
Definition hconcat (a b : list (list (option R))) : list (list (option R)) := map (fun p => fst p ++ snd p) (combine a b).
Definition labels_map : dict string := [("in_distribution", "In-distribution"); ("out_distribution", "Out-of-distribution"); ("unused_data", "Unused")]%string.
(** 1185-1276: one plot for each testing type, and all the tables side by side *)
Definition plot_type (n_full : nat) (data : dict iter_data) (plotted : bool) (ratio : R) (s : list plot * list (list (option R))) (t : string) : res (list plot * list (list (option R))) :=
  rbind (test_table n_full data t) (fun table =>
  rbind (threshold plotted ratio t table) (fun th =>
  Ok (fst s ++ [mkPlot ("pruning_testing_convergence_" ++ t) table th], hconcat (snd s) table))).
(** 1126-1308: the table of the sizes, the plots of the testing types, and the
    labels and table of the last plot; its axes labels are those of the loop *)
Definition plot_pruning (n_full : nat) (data : dict iter_data) (types : list string) (plotted : bool) (ratio : R)
  : res (list (list R) * list plot * (list string * list (list (option R)))) :=
  rbind (size_table n_full data) (fun sizes =>
  rbind (rfold (plot_type n_full data plotted ratio) types ([], repeat [] (length data))) (fun s =>
  rbind (rmap (dlookup labels_map) types) (fun labels =>
  match types with [] => Err NameError | _ => Ok (sizes, fst s, (labels, snd s)) end))).
