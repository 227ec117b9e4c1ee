(** Model of the prediction procedure.
    Source (src/hookeai/model_architectures):
      rnn_base_model/predict/prediction.py 42-318 (predict), 320-371
      (compute_sample_prediction_loss); the copies for the recurrent
      constitutive and hybrid models differ in the loaded class and in the
      absence of an initial hidden state;
      procedures/model_prediction.py 70-93 (save_sample_predictions), 119-181
      (write_prediction_summary_file).
    The network, the loss function and the scaling of tensors are arguments.
    Simplifications: real arithmetic; sequences are not empty (shape[1] is read
    from the first time); files written before an exception are dropped with
    it; loading the model, devices, seeds, timing and printing are not
    modelled, except that the average time per sample of an empty data set is
    NaN and int(NaN) raises ValueError in the summary; fresh names of the
    prediction directory are the subject of C41. *)
From Coq Require Import Reals String List Arith Bool.
From Verif Require Import Lib PyDict PyStr ScalerModel BatchFitModel.
Import ListNotations.
Local Open Scope R_scope.
Local Open Scope string_scope.
Local Open Scope list_scope.

Notation seq2 := (list (list R)).
Notation seq3 := (list (list (list R))).
(** sample_results: predictions, targets, loss *)
Record results := { r_out : seq2; r_targets : option seq2; r_loss : option R }.

Section Predict.
  (** model(features_in, hidden_features_in)[0] *)
  Variable net : seq3 -> option seq3 -> seq3.
  Variable loss_function : seq2 -> seq2 -> R.
  (** data_scaler_transform of 'features_in' (normalize), 'features_out'
      (denormalize, 3d) and 'features_out' (normalize, 2d) *)
  Variable norm_in denorm_out : seq3 -> res seq3.
  Variable norm_out : seq2 -> res seq2.
  Variable is_model_in_normalized is_model_out_normalized is_normalized_loss : bool.

  (** 320-371 *)
  Definition compute_sample_prediction_loss (features_out : seq2) (targets : option seq2) : res (option R) :=
    match targets with
    | None => Ok None
    | Some targets =>
      if is_normalized_loss then
        rbind (norm_out features_out) (fun features_out =>
        rbind (norm_out targets) (fun targets => Ok (Some (loss_function features_out targets))))
      else Ok (Some (loss_function features_out targets))
    end.
  (** tensor[:, j, :] *)
  Definition member (j : nat) (t : seq3) : seq2 := map (fun sl => nth j sl []) t.
  (** 196-247: the results of the samples of a batch *)
  Definition batch_results (loss_nature : string) (batch : dict seq3) : res (list (seq2 * option seq2)) :=
    match dget batch "features_in" with
    | None => Err KeyError
    | Some x =>
      rbind (if is_model_in_normalized then norm_in x else Ok x) (fun features_in =>
      match dget batch "features_out" with
      | None => Err KeyError
      | Some targets =>
        if String.eqb loss_nature "features_out" then
          let out := net features_in (dget batch "hidden_features_in") in
          rbind (if is_model_out_normalized then denorm_out out else Ok out) (fun features_out =>
          Ok (map (fun j => (member j features_out, Some (member j targets))) (seq 0 (n_rows x))))
        else Err RuntimeError
      end)
    end.
  (** model_prediction.py:89-90 *)
  Definition sample_file (sample_id : nat) : string := "prediction_sample_" ++ nat_str sample_id ++ ".pkl".
  (** 253-274: the losses, the files and the next sample index *)
  Record state := { st_losses : list R; st_files : dict results; st_id : nat }.
  Fixpoint store_results (l : list (seq2 * option seq2)) (st : state) : res state :=
    match l with
    | [] => Ok st
    | (out, targets) :: rest =>
      rbind (compute_sample_prediction_loss out targets) (fun loss =>
      store_results rest
        {| st_losses := match loss with Some v => st_losses st ++ [v] | None => st_losses st end;
           st_files := dset (st_files st) (sample_file (st_id st)) {| r_out := out; r_targets := targets; r_loss := loss |};
           st_id := S (st_id st) |})
    end.
  (** 190-274 *)
  Fixpoint predict_loop (loss_nature : string) (batches : list (res (dict seq3))) (st : state) : res state :=
    match batches with
    | [] => Ok st
    | b :: rest =>
      rbind b (fun batch => rbind (batch_results loss_nature batch) (fun l =>
      rbind (store_results l st) (fun st' => predict_loop loss_nature rest st')))
    end.
  (** 280-282: np.mean of an empty list is NaN *)
  Definition average_loss (n : nat) (losses : list R) : option num :=
    if Nat.eqb (length losses) n then Some (match losses with [] => None | _ => Some (lsum losses / INR (length losses)) end) else None.
  (** model_prediction.py:170-171: the reported average; NaN counts as true *)
  Definition summary_loss (avg : option num) : option num :=
    match avg with
    | Some (Some v) => if Req_EM_T v 0 then None else Some (Some v)
    | x => x
    end.
  (** 42-318 with a prediction directory or none: files, average loss, summary *)
  Definition predict (has_directory : bool) (loss_nature : string) (batch_size : nat) (dataset : list sample)
    : res (dict results * option num * option num) :=
    rbind (predict_loop loss_nature (loader batch_size (seq 0 (length dataset)) dataset) {| st_losses := []; st_files := []; st_id := 0 |}) (fun st =>
    let avg := average_loss (length dataset) (st_losses st) in
    if has_directory then
      match dataset with
      | [] => Err ValueError
      | _ => Ok (st_files st, avg, summary_loss avg)
      end
    else Ok ([], avg, None)).
End Predict.
