(** Convergence plots and the comparison of predictions with the ground truth.

    src/hookeai/model_architectures/procedures/convergence_plots.py 49-165
      (plot_prediction_loss_convergence), 187-290 (plot_best_parameters_convergence),
      292-470 (plot_time_series_convergence), 480-640
      (plot_prediction_loss_convergence_uq), 680-800 (plot_best_parameters_convergence_uq);
    src/hookeai/model_architectures/procedures/model_prediction.py 336-470
      (plot_truth_vs_prediction);
    src/hookeai/ioput/plots.py 1104-1120, 1214-1304 (scatter_xy_data: error bars,
      identity bounds, coefficient of determination).

    The sizes of the data sets and the losses read from the summary files are
    given as lists (the files are those of FileFindModel and UqModel); the drawing
    is not modelled. Arrays filled with None are tables of options; NaN is [None]. *)
From Coq Require Import String Reals List Bool Arith.
From Verif Require Import Lib PyDict PyStr.
Import ListNotations.
Local Open Scope string_scope.
Local Open Scope list_scope.
Local Open Scope R_scope.

Definition nth_idx {A} (l : list A) (i : nat) : res A :=
  match nth_error l i with Some x => Ok x | None => Err IndexError end.
(** convergence_plots.py 133-141: one row per model *)
Definition loss_table (n_models : nat) (sizes : list nat) (losses : list R) : res (list (nat * R)) :=
  rmap (fun i => rbind (nth_idx sizes i) (fun s => rbind (nth_idx losses i) (fun l => Ok (s, l)))) (seq 0 n_models).
(** 229-275: the parameters of the first model, for the models with a training set *)
Definition parameter_tables (sizes : list nat) (params : list (list (string * R))) : res (list (string * list (nat * R))) :=
  rbind (nth_idx params 0) (fun p0 =>
  rmap (fun name =>
    rbind (rmap (fun i => rbind (nth_idx sizes i) (fun s => rbind (nth_idx params i) (fun p =>
      match gget String.eqb p name with Some v => Ok (s, v) | None => Err KeyError end))) (seq 0 (length sizes)))
      (fun rows => Ok (name, rows))) (map fst p0)).
(** Assignment of a list to a slice of n entries: equal length, or a single value
    that is repeated *)
Definition assign_slice {A} (n : nat) (l : list A) : res (list A) :=
  match l with
  | [x] => Ok (repeat x n)
  | _ => if Nat.eqb (length l) n then Ok l else Err ValueError
  end.
(** 586-600: the number of realisations of the last model *)
Definition uq_loss_table (sizes : list nat) (losses : list (list R)) : res (list (nat * list R)) :=
  match losses with
  | [] => Err NameError
  | _ =>
    let n := length (last losses []) in
    rmap (fun i => rbind (nth_idx sizes i) (fun s => rbind (nth_idx losses i) (fun l => rbind (assign_slice n l) (fun v => Ok (s, v)))))
         (seq 0 (length losses))
  end.
(** 753-775: column of every model, the number of realisations of the first one *)
Definition boxplot_columns (n_models : nat) (data : list (list R)) : res (list (list R)) :=
  match data with
  | [] => Err NameError
  | d0 :: _ => rmap (fun k => rbind (nth_idx data k) (assign_slice (length d0))) (seq 0 n_models)
  end.
(** 392-420: one curve per label *)
Definition size_label (n : nat) : string := "N = " ++ nat_str n.
Definition prediction_sets {A} (sizes : list nat) (curves : list A) : list (string * A) :=
  fold_left (fun d e => gset String.eqb d (size_label (fst e)) (snd e)) (combine sizes curves) [].
(** 384-388 *)
Definition same_testing_size (sizes : list nat) : res nat :=
  match sizes with
  | [] => Err RuntimeError
  | n :: t => if forallb (Nat.eqb n) t then Ok n else Err RuntimeError
  end.
(** 292-470 with process_predictions.py 300-305: the samples asked for become a
    range once the first type is done, and the next one refuses it *)
Inductive sample_ids := AllSamples | SampleList (l : list nat) | SampleRange (n : nat).
Definition check_ids (testing_size : nat) (ids : sample_ids) : res unit :=
  match ids with
  | AllSamples => Ok tt
  | SampleRange _ => Err RuntimeError
  | SampleList l => match l with [] => Err ValueError | _ => if forallb (fun i => Nat.ltb i testing_size) l then Ok tt else Err RuntimeError end
  end.
Definition ids_list (testing_size : nat) (ids : sample_ids) : list nat :=
  match ids with AllSamples => seq 0 testing_size | SampleList l => l | SampleRange n => seq 0 n end.
(** the samples plotted for every prediction type with its components *)
Fixpoint path_plots (testing_size : nat) (types : list (string * list string)) (ids : sample_ids) : res (list (string * nat)) :=
  match types with
  | [] => Ok []
  | (_, comps) :: t =>
    rbind (check_ids testing_size ids) (fun _ =>
    let ids' := match ids, comps with AllSamples, _ :: _ => SampleRange testing_size | _, _ => ids end in
    rbind (path_plots testing_size t ids') (fun rest =>
    Ok (flat_map (fun c => map (fun i => (c, i)) (ids_list testing_size ids)) comps ++ rest)))
  end.

(** plots.py 1215-1240: mean and errors of one row *)
Definition lmin (l : list R) : R := match l with [] => 0 | a :: t => fold_left Rmin t a end.
Definition lmax (l : list R) : R := match l with [] => 0 | a :: t => fold_left Rmax t a end.
Definition lmean (l : list R) : R := lsum l / INR (length l).
Inductive range_type := MinMax | MeanStd | OtherRange.
Definition pop_std (l : list R) : R := sqrt (lsum (map (fun x => (x - lmean l) ^ 2) l) / INR (length l)).
Definition error_bar (rt : range_type) (l : list R) : R * option (R * R) :=
  let m := lmean l in
  (m, match rt with
      | MinMax => Some (Rabs (m - lmin l), Rabs (m - lmax l))
      | MeanStd => Some (196/100 * pop_std l, 196/100 * pop_std l)
      | OtherRange => None
      end).
(** plots.py 1274-1278: the band of relative error e *)
Definition in_band (e x y : R) : Prop := (1 - e) * x <= y <= (1 + e) * x \/ (1 + e) * x <= y <= (1 - e) * x.
(** plots.py 1281-1296: (reference, prediction) pairs; NaN when both sums vanish *)
Definition ssres (d : list (R * R)) : R := lsum (map (fun p => (fst p - snd p) ^ 2) d).
Definition sstot (d : list (R * R)) : R := let m := lmean (map fst d) in lsum (map (fun p => (fst p - m) ^ 2) d).
Definition r2 (d : list (R * R)) : option R :=
  let t := if Rlt_dec (sstot d) (1 / 10 ^ 8 * ssres d) then 1 else sstot d in
  if Req_EM_T t 0 then None else Some (1 - ssres d / t).
(** model_prediction.py 398-416 *)
Definition set_min (d : list (R * R)) : R := lmin (map fst d ++ map snd d).
Definition set_max (d : list (R * R)) : R := lmax (map fst d ++ map snd d).
Definition normalize (d : list (R * R)) : option (list (R * R)) :=
  if Req_EM_T (set_max d) (set_min d) then None
  else Some (map (fun p => ((fst p - set_min d) / (set_max d - set_min d), (snd p - set_min d) / (set_max d - set_min d))) d).
(** columns of the array of all processes, filled up to the longest one *)
Definition truth_array (sets : list (string * list (R * R))) : res (list (list (option (R * R))) * list string) :=
  match sets with
  | [] => Err ValueError
  | _ =>
    let n := fold_right Nat.max 0%nat (map (fun s => length (snd s)) sets) in
    Ok (map (fun s => map Some (snd s) ++ repeat None (n - length (snd s))) sets, map fst sets)
  end.
