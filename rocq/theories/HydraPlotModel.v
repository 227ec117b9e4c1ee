(** Hyperparameter optimization: the objective of a job and the history of the jobs.

    src/hookeai/model_architectures/rnn_base_model/optimization/hydra_optimization.py
      71-285 (hydra_optimize_gru_model: the objective and the job summary);
    src/hookeai/model_architectures/rnn_base_model/optimization/hydra_optimization_plots.py
      35-255 (plot_optimization_history; is_log_metric is False, drawing not modelled);
    src/hookeai/ioput/iostandard.py 100-151 (write_summary_file).

    Training and prediction are arguments (their losses); an optimization
    directory is its listing and the job summaries by the name of the directory
    in which they are. Printing a value is [fmt], float() is [pf]. Names with a
    trailing line break are not modelled. *)
From Coq Require Import Reals String Ascii List Bool Arith ZArith.
Import ListNotations.
From Verif Require Import Lib PyStr PyDict TextLines HybridModel UqModel ConvPlotModel.
Local Open Scope list_scope.

(** ** Objective of a job *)
(** hydra_optimization.py 116-158: early_stopping_kwargs exists with early stopping
    only (its use at 196 is then an UnboundLocalError); 202-237: the objective;
    251: a missing loss cannot be printed with :.8e *)
Definition job_objective (process : string) (is_early_stopping : bool) (best_training_loss : R) (avg_predict_loss : option R) : res R :=
  if (String.eqb process "training" || String.eqb process "training-testing")%bool then
    if is_early_stopping then
      if String.eqb process "training" then Ok best_training_loss
      else match avg_predict_loss with Some x => Ok x | None => Err TypeError end
    else Err NameError
  else Err RuntimeError.
(** 254-266: the summary data, a dictionary *)
Definition job_summary_data (sweeper optimizer : string) (cfg : list (string * sval)) (objective : string) : list (string * sval) :=
  gset String.eqb (fold_left (fun d e => gset String.eqb d (fst e) (snd e)) cfg
    (gset String.eqb (gset String.eqb [] "sweeper"%string (SText sweeper)) "sweeper_optimizer"%string (SText optimizer)))
    "objective"%string (SText objective).
Definition job_title : string := "Hydra - Hyperparameter Optimization Job"%string.
Definition job_summary (sweeper optimizer : string) (cfg : list (string * sval)) (objective : string) : list string :=
  summary_lines job_title (job_summary_data sweeper optimizer cfg objective).

(** ** History of the jobs *)
Section History.
  Variable pf : string -> res R.
  (** hydra_optimization_plots.py 157-171: the first line with the text of the metric *)
  Fixpoint read_metric (metric : string) (lines : list string) : res R :=
    match lines with
    | [] => Err RuntimeError
    | l :: t => if has_text metric l then
                  match words l with [] => Err IndexError | _ => pf (last (words l) EmptyString) end
                else read_metric metric t
    end.
  Record optim_dir := Optim { listing : list string; summaries : string -> option (list string) }.
  (** 112-118 *)
  Definition is_job (name : string) : bool := negb (String.eqb name EmptyString) && all_digits name.
  Definition job_key (name : string) : Z := match int_of name with Ok n => Z.of_nat n | Err _ => 0%Z end.
  Definition job_dirs (d : optim_dir) : list string := isort job_key (filter is_job (listing d)).
  (** 129-181 *)
  Fixpoint jobs_loop (metric : string) (d : optim_dir) (names : list string) (hist : list R) : res (list R) :=
    match names with
    | [] => Ok hist
    | name :: t =>
      rbind (int_of name) (fun job_id =>
      if Nat.eqb job_id (length hist) then
        match summaries d (nat_str job_id) with
        | None => Err RuntimeError
        | Some lines => rbind (read_metric metric lines) (fun m => jobs_loop metric d t (hist ++ [m]))
        end
      else Err RuntimeError)
    end.
  Definition history (metric : string) (d : option optim_dir) : res (list R) :=
    match d with
    | None => Err RuntimeError
    | Some d => match job_dirs d with [] => Err RuntimeError | l => jobs_loop metric d l [] end
    end.
  (** 193-201: the job with the best metric, first in a stable sort *)
  Definition best_of (hist : list R) : option (nat * R) :=
    match hist with
    | [] => None
    | x :: t => Some (fst (fold_left (fun b y => let '((j, v), i) := b in
                        (if Rlt_dec y v then (i, y) else (j, v), S i)) t ((0%nat, x), 1%nat)))
    end.

  (** 207-218: the columns of jobs and metrics; the values are those of
      metric_hist, the history of the last process *)
  Definition column (n max_n : nat) (v : list R) : list (option R) := map Some v ++ repeat None (max_n - n).
  Definition data_columns (metric : string) (procs : list (string * option optim_dir)) : res (list (list (option nat) * list (option R))) :=
    rbind (rmap (fun p => history metric (snd p)) procs) (fun hists =>
    let max_n := fold_right Nat.max 0%nat (map (@length R) hists) in
    let metric_hist := last hists [] in
    rmap (fun h => rbind (assign_slice (length h) metric_hist) (fun v =>
      Ok (map Some (seq 0 (length h)) ++ repeat None (max_n - length h), column (length h) max_n v))) hists).
  (** 245-251: best-so-far of the first process; None cannot be compared *)
  Fixpoint best_so_far (best : R) (col : list (option R)) : res (list R) :=
    match col with
    | [] => Ok []
    | None :: _ => Err TypeError
    | Some x :: t => let b := if Rlt_dec x best then x else best in rbind (best_so_far b t) (fun r => Ok (b :: r))
    end.
  Definition history_plot (metric : string) (procs : list (string * option optim_dir))
    : res (list (list (option nat) * list (option R)) * list R) :=
    rbind (data_columns metric procs) (fun cols =>
    match cols with
    | (_, Some x :: t) :: _ => rbind (best_so_far x (Some x :: t)) (fun b => Ok (cols, b))
    | _ => Err IndexError
    end).
End History.
