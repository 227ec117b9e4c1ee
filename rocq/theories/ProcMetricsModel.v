(** Model of the mean prediction metrics of several prediction processes: the
    results, the file they are appended to and what is displayed.
    Source: src/hookeai/utilities/output_prediction_metrics.py 24-90.
    Simplifications: the metrics of one directory are the argument [compute],
    instantiated below with compute_directory_prediction_metrics of
    MeanMetricsModel; [show] gives the digits of a printed number; files as in
    MeanMetricsModel. *)
From Coq Require Import Reals String List Bool.
From Verif Require Import Lib ScalerModel PyDict PyStr MetricsModel HybridModel MeanMetricsModel.
Import ListNotations.
Local Open Scope string_scope.

(** the argument save_dir: the default None, or a path that exists or not *)
Inductive saving_dir := NoDir | Missing | Existing.
Section processes.
  Variables X D : Type.
  Variable show : X -> shown.
  Variable compute : D -> res (nat * dict (list X)).
  (** what a call leaves behind, also when it raises: the file in the saving
      directory and the standard output *)
  Record outside := mkOutside { o_file : option string; o_out : string }.
  Definition print_text (s : outside) (t : string) : outside := mkOutside (o_file s) (o_out s ++ t).
  (** 75-81 and 296-299: os.path.exists(None) raises a TypeError *)
  Definition save_process (save_dir : saving_dir) (s : outside) (n : nat) (results : dict (list X)) (label : string) : res outside :=
    match save_dir with
    | NoDir => Err TypeError
    | Missing => rbind (write_mean_metrics_results_file show false (o_file s) n results label false) (fun t => Ok (mkOutside (Some t) (o_out s)))
    | Existing => rbind (write_mean_metrics_results_file show true (o_file s) n results label false) (fun t => Ok (mkOutside (Some t) (o_out s)))
    end.
  (** 64-88: the loop over the processes *)
  Fixpoint process_loop (dirs : dict D) (save_dir : saving_dir) (is_save is_display : bool)
      (acc : dict (nat * dict (list X))) (s : outside) : res (dict (nat * dict (list X))) * outside :=
    match dirs with
    | [] => (Ok acc, s)
    | (label, d) :: rest =>
      match compute d with
      | Err e => (Err e, s)
      | Ok (n, results) =>
        match (if is_save then save_process save_dir s n results label else Ok s) with
        | Err e => (Err e, s)
        | Ok s1 =>
          let s2 := if is_display then print_text s1 (write_lines (format_mean_metrics_results show n results label)) else s1 in
          process_loop rest save_dir is_save is_display (dset acc label (n, results)) s2
        end
      end
    end.
  (** 24-90: compute_processes_prediction_metrics; print adds a newline *)
  Definition compute_processes (dirs : dict D) (save_dir : saving_dir) (is_save is_display : bool) (s : outside)
      : res (dict (nat * dict (list X))) * outside :=
    let s1 := if is_display then print_text s (nl ("Mean prediction metrics" ++ nl ("-----------------------" ++ nl ""))) else s in
    process_loop dirs save_dir is_save is_display [] s1.
End processes.
Arguments save_process {X}. Arguments process_loop {X D}. Arguments compute_processes {X D}.
(** 66-68: with the metrics of the prediction directories *)
Definition compute_processes_prediction_metrics (show : num -> shown) (dirs : dict directory) (metrics : list string) :=
  compute_processes show (fun d => compute_directory_prediction_metrics d metrics) dirs.
