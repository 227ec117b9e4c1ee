(** Plots of training histories (C131):
    model_architectures/procedures/model_training.py 490-539
    (plot_training_loss_history), 590-634 (plot_training_loss_and_lr_history),
    683-721 (plot_model_parameters_history) and
    user_scripts/local_model_update/rnn_material_model/train_model.py 308-345
    (generate_standard_training_plots), with the record of FinderTrainModel.
    An array is the list of its columns; None is an entry without a value or a
    NaN, which is not drawn.  The logarithm has no value unless its argument is
    positive.
    Simplifications: labels of the axes, LaTeX and display are not modelled; the
    logarithm of a history with missing entries (an error of numpy) is not
    modelled, the scripts do not use it. *)
From Coq Require Import String Reals List Arith Bool ZArith.
From Verif Require Import Lib PyDict FinderTrainModel.
Import ListNotations.
Local Open Scope string_scope.
Local Open Scope list_scope.
Local Open Scope R_scope.

Definition history := list (option R).
Definition log_value (x : option R) : option R :=
  match x with Some v => if Rlt_dec 0 v then Some (ln v) else None | None => None end.
Definition padded (m : nat) (l : history) : history := l ++ repeat None (m - length l).
Definition epochs (n : nat) : history := map (fun k => Some (INR k)) (seq 0 n).
Definition max_epochs (hs : dict history) : nat := list_max (map (fun kv => length (snd kv)) hs).
Record figure := mkFig { f_labels : list string; f_columns : list history; f_xmax : nat }.
(** 490-539 *)
Definition loss_figure (is_log : bool) (hs : dict history) : res figure :=
  match hs with
  | [] => Err ValueError
  | _ =>
    let m := max_epochs hs in
    Ok (mkFig (map fst hs)
      (flat_map (fun kv => [padded m (epochs (length (snd kv))); padded m (if is_log then map log_value (snd kv) else snd kv)]) hs) m)
  end.
(** np.column_stack with the tuple of the learning rates: one number for each
    epoch, or a list of one number for each epoch *)
Definition rate_value (e : lr_entry) : R := match e with Rate r => r | RateList r => r end.
Definition is_rate (e : lr_entry) : bool := match e with Rate _ => true | RateList _ => false end.
Definition rate_column (lrs : list lr_entry) : res history :=
  if forallb is_rate lrs || forallb (fun e => negb (is_rate e)) lrs then Ok (map (fun e => Some (rate_value e)) lrs) else Err ValueError.
(** 590-634 *)
Definition loss_lr_figure (is_log : bool) (losses : history) (lrs : list lr_entry) : res (figure * figure) :=
  if negb (Nat.eqb (length lrs) (length losses)) then Err RuntimeError
  else rbind (rate_column lrs) (fun r =>
    let n := length losses in
    Ok (mkFig [] [epochs n; if is_log then map log_value losses else losses] n, mkFig [] [epochs n; r] n)).
(** 683-721: file name, figure and bounds of every parameter *)
Definition parameter_figures (filename : string) (hist : dict history) (bounds : dict (R * R)) : res (list (string * (figure * (R * R)))) :=
  rmap (fun kv =>
    let n := length (snd kv) in
    rbind (dlookup bounds (fst kv)) (fun b =>
    Ok ((filename ++ "_" ++ fst kv)%string, (mkFig [] [epochs n; snd kv] n, b)))) hist.
(** 308-345 *)
Definition item_value (x : item) : option R := match x with Num v => v | Tensor v => v end.
Definition standard_plots (f : option record) : res (figure * (figure * figure)) :=
  rbind (read_loss_history f) (fun r =>
  let '(_, _, tr, va) := r in
  let tr := map item_value tr in
  let hs := ("Training", tr) :: match va with Some v => [("Validation", map item_value v)] | None => [] end in
  rbind (read_lr_history f) (fun l =>
  rbind (loss_figure false hs) (fun a =>
  rbind (loss_lr_figure false tr (snd l)) (fun b => Ok (a, b))))).
