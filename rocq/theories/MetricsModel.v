(** Model of the loss functions and of the prediction metrics.
    Source: src/hookeai/utilities/loss_functions.py and
    src/hookeai/utilities/prediction_metrics.py.
    A value is [Some x] or [None] (NaN or infinity), as in ScalerModel.
    Simplifications: real arithmetic; the two arguments of a loss have the same
    shape and are given as the list of their (input, target) entries; keyword
    arguments of torch.nn.MSELoss are not modelled; of the stored results only
    2d tensors (as the list of their columns) are distinguished from other
    values; pickle contents are abstract values. *)
From Coq Require Import Reals String List Arith Bool.
From Verif Require Import Lib HardeningModel ScalerModel PyDict.
Import ListNotations.
Local Open Scope R_scope.
Local Open Scope list_scope.

(** ** Losses *)
Inductive zero_handling := Absolute | Clip | Regularizer.
Inductive loss := MSE | MRE (mode : zero_handling) (small : R).

(** loss_functions.py:73-103: MeanRelativeErrorLoss.__init__ *)
Definition zero_handling_of (s : string) : res zero_handling :=
  if String.eqb s "clip" then Ok Clip
  else if String.eqb s "absolute" then Ok Absolute
  else if String.eqb s "regularizer" then Ok Regularizer
  else Err RuntimeError.
(** 22-56: get_pytorch_loss; [zero] and [small] are the keyword arguments of
    the mean relative error. *)
Definition get_pytorch_loss (loss_type : string) (zero : string) (small : R) : res loss :=
  if String.eqb loss_type "mse" then Ok MSE
  else if String.eqb loss_type "mre" then rbind (zero_handling_of zero) (fun m => Ok (MRE m small))
  else Err RuntimeError.

(** 124-150: the relative error of one entry *)
Definition mre_entry (mode : zero_handling) (small : R) (p : R * R) : num :=
  let absolute_error := Rabs (fst p - snd p) in
  match mode with
  | Absolute =>
    let relative_error := fdiv absolute_error (Rabs (snd p)) in
    if rltb (Rabs (snd p)) small then Some absolute_error else relative_error
  | Clip => fdiv absolute_error (Rmax (Rabs (snd p)) small)
  | Regularizer => fdiv absolute_error (Rabs (snd p) + small)
  end.
Definition nadd (a b : num) : num := match a, b with Some x, Some y => Some (x + y) | _, _ => None end.
Definition nsum (l : list num) : num := fold_right nadd (Some 0) l.
(** torch.mean; the mean of no value is NaN *)
Definition nmean (l : list num) : num :=
  match l with [] => None | _ => fmap (fun s => s / INR (length l)) (nsum l) end.
(** 105-155: forward *)
Definition mre (mode : zero_handling) (small : R) (l : list (R * R)) : num := nmean (map (mre_entry mode small) l).
(** torch.nn.MSELoss *)
Definition mse_loss (l : list (R * R)) : num :=
  nmean (map (fun p => Some ((fst p - snd p) * (fst p - snd p))) l).
Definition loss_value (f : loss) (l : list (R * R)) : num :=
  match f with MSE => mse_loss l | MRE m s => mre m s l end.

(** The gradient of the loss with respect to entry [j] of the input, as
    torch.Tensor.backward computes it from the recorded operations: mean
    (1/numel), where (the incoming gradient on the selected branch, zero on the
    other), division (gradient over denominator) and abs (times the sign). *)
Definition sgn (x : R) : R := if rltb 0 x then 1 else if rltb x 0 then -1 else 0.
Definition mre_backward (mode : zero_handling) (small : R) (l : list (R * R)) (j : nat) : num :=
  let p := nth j l (0, 0) in
  let g := 1 / INR (length l) in
  let through_abs (x : num) := fmap (fun y => y * sgn (fst p - snd p)) x in
  match mode with
  | Absolute =>
    let masked := rltb (Rabs (snd p)) small in
    let g_absolute := if masked then g else 0 in
    let g_relative := if masked then 0 else g in
    through_abs (nadd (Some g_absolute) (fdiv g_relative (Rabs (snd p))))
  | Clip => through_abs (fdiv g (Rmax (Rabs (snd p)) small))
  | Regularizer => through_abs (fdiv g (Rabs (snd p) + small))
  end.

(** ** Prediction metrics *)
Inductive stored := Tensor2 (cols : list (list R)) | NoneValue | OtherValue.
Inductive pickled := Results (d : list (string * stored)) | NotADict.
Definition rget (d : list (string * stored)) (k : string) : option stored := dget d k.

(** prediction_metrics.py:107-140 *)
Definition get_sample_n_features (r : pickled) : res nat :=
  match r with
  | NotADict => Err RuntimeError
  | Results d =>
    match rget d "features_out" with
    | Some (Tensor2 cols) => Ok (length cols)
    | _ => Err RuntimeError
    end
  end.
(** tensor[:, idx] *)
Definition get_column (v : option stored) (idx : nat) : res (list R) :=
  match v with
  | Some (Tensor2 cols) => match nth_error cols idx with Some c => Ok c | None => Err IndexError end
  | Some _ => Err TypeError
  | None => Err KeyError
  end.
(** 142-182: with is_ground_truth=True *)
Definition get_feature_data (d : list (string * stored)) (idx : nat) : res (list R * list R) :=
  rbind (get_column (rget d "features_out") idx) (fun out =>
  match rget d "targets" with
  | None | Some NoneValue => Err RuntimeError
  | v => rbind (get_column v idx) (fun t => Ok (out, t))
  end).
(** a - b of 1d tensors: a tensor with one entry is broadcast *)
Definition bsub (a b : list R) : res (list R) :=
  if Nat.eqb (length a) (length b) then Ok (map (fun p => fst p - snd p) (combine a b))
  else match a, b with
       | [x], _ => Ok (map (fun y => x - y) b)
       | _, [y] => Ok (map (fun x => x - y) a)
       | _, _ => Err RuntimeError
       end.
Definition rmean (l : list R) : num := nmean (map Some l).
(** 65-98: one metric of one feature *)
Definition metric_value (label : string) (out target : list R) : res num :=
  if String.eqb label "mse" || String.eqb label "rmse" then
    rbind (bsub out target) (fun d =>
    let v := rmean (map (fun x => x ^ 2) d) in
    Ok (if String.eqb label "rmse" then fmap sqrt v else v))
  else Ok (if String.eqb label "mav_gt" then rmean (map Rabs target) else rmean (map Rabs out)).
Fixpoint features_loop (d : list (string * stored)) (label : string) (idxs : list nat) : res (list num) :=
  match idxs with
  | [] => Ok []
  | i :: rest =>
    rbind (get_feature_data d i) (fun p =>
    rbind (metric_value label (fst p) (snd p)) (fun v =>
    rbind (features_loop d label rest) (fun vs => Ok (v :: vs))))
  end.
Definition known_metric (label : string) : bool :=
  String.eqb label "mse" || String.eqb label "rmse" || String.eqb label "mav" || String.eqb label "mav_gt".
(** 61-104: the loop over the metrics *)
Fixpoint metrics_loop (d : list (string * stored)) (n : nat) (labels : list string) (acc : list (string * list num)) : res (list (string * list num)) :=
  match labels with
  | [] => Ok acc
  | label :: rest =>
    if known_metric label then
      rbind (features_loop d label (seq 0 n)) (fun vs => metrics_loop d n rest (dset acc label vs))
    else Err RuntimeError
  end.
(** 29-105: compute_prediction_metrics; [file] is [None] if there is no file. *)
Definition compute_prediction_metrics (file : option pickled) (labels : list string) : res (list (string * list num)) :=
  match file with
  | None => Err RuntimeError
  | Some r =>
    rbind (get_sample_n_features r) (fun n =>
    match r with
    | Results d => metrics_loop d n labels []
    | NotADict => Err RuntimeError
    end)
  end.
