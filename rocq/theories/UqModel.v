(** Uncertainty quantification of the recurrent material models
    (src/hookeai/user_scripts/local_model_update/rnn_material_model/uncertainty_quantification.py
      55-150 (perform_model_uq), 152-261 (gen_model_uq_plots), 263-349
      (plot_prediction_loss_uq, the losses), 350-470 (plot_time_series_uq, the data);
    the scripts of the other two model types read the same files in the same way),
    and the summary of a prediction
    (src/hookeai/model_architectures/procedures/model_prediction.py 119-179,
     src/hookeai/ioput/iostandard.py 100-151).

    A file is the list of its lines. The printed loss is the argument [fmt] and
    float() the argument [pf]. Summary values with line breaks are not modelled.
    Training and prediction are arguments. Figures are not modelled. *)
From Coq Require Import Reals String Ascii List Bool Arith ZArith.
Import ListNotations.
From Verif Require Import Lib PyStr PyDict TextLines HistoryModel.
Local Open Scope list_scope.

(** ** Summary files *)
Inductive sval := SText (s : string) | SDict (d : list (string * string)).
Definition quote : string := String (ascii_of_nat 34) EmptyString.
(** iostandard.py 132-148 *)
Definition summary_entry (kv : string * sval) : list string :=
  match snd kv with
  | SText s => [EmptyString; (quote ++ fst kv ++ quote ++ ":  " ++ s)%string]
  | SDict d => EmptyString :: (quote ++ fst kv ++ quote ++ ":")%string
               :: map (fun p => ("  " ++ quote ++ fst p ++ quote ++ ": " ++ snd p)%string) d
  end.
Fixpoint dashes (n : nat) : string := match n with O => EmptyString | S n => String "-"%char (dashes n) end.
Definition summary_lines (title : string) (entries : list (string * sval)) : list string :=
  title :: dashes (String.length title) :: flat_map summary_entry entries.
Definition loss_key : string := "Avg. prediction loss per sample"%string.
Section Loss.
  Variable fmt : R -> string.
  Variable pf : string -> res R.
  (** model_prediction.py 170-171: a loss of zero is not a true value *)
  Definition loss_text (loss : option R) : string :=
    match loss with Some x => if Req_EM_T x 0 then "None"%string else fmt x | None => "None"%string end.
  (** 157-179: [before] and [after_] the entries around the loss *)
  Definition prediction_summary (before after_ : list (string * sval)) (loss : option R) : list string :=
    summary_lines "Summary: Model prediction" (before ++ (loss_key, SText (loss_text loss)) :: after_).
  Definition has_text (pat s : string) : bool := match index 0 pat s with Some _ => true | None => false end.
  (** uncertainty_quantification.py 306-327 *)
  Fixpoint read_loss (lines : list string) : res R :=
    match lines with
    | [] => Err RuntimeError
    | l :: t => if has_text loss_key l then pf (last (words l) EmptyString) else read_loss t
    end.
End Loss.

(** ** Realisations *)
(** 213-221: names that start as model_ and a digit *)
Definition is_realisation (name : string) : bool :=
  match after "model_" name with Some (String c _) => is_digit c | _ => false end.
Section Plots.
  Context {S : Type}.
  (** the loss of a realisation, read from its summary *)
  Variable loss_of : S -> res R.
  (** 207-233 *)
  Definition realisations (dir : string) (listing : list (string * S)) : res (list S) :=
    let l := map (fun f => (in_dir dir (fst f), snd f)) (filter (fun f => is_realisation (fst f)) listing) in
    match l with
    | [] => Err RuntimeError
    | _ => rbind (sort_paths l) (fun l => Ok (map snd l))
    end.
  Definition at_index {A} (l : list A) (i : nat) : res A := match nth_error l i with Some x => Ok x | None => Err IndexError end.
  (** 239-256 and 292-327: the prediction directories of the first [n]
      realisations; the losses of all of them. *)
  Definition uq_losses (dir : string) (listing : list (string * S)) (n : nat) : res (list R) :=
    rbind (realisations dir listing) (fun dirs =>
    rbind (rmap (at_index dirs) (seq 0 n)) (fun preds =>
    rmap (fun j => rbind (at_index preds j) loss_of) (seq 0 (length dirs)))).
End Plots.

(** ** Time series *)
(** rows of time, ground truth and prediction *)
Definition series := list (R * R * R).
Definition times (s : series) : list R := map (fun r => fst (fst r)) s.
Section Series.
  Variable close : list R -> list R -> bool.
  (** 427-455: the ground truth of the first model and the table with the time
      and one column for each model; arrays of other lengths do not broadcast
      (nor compare), except those of one row, which are not modelled. *)
  Definition add_column (tab : list (list R)) (c : list R) : list (list R) := map (fun p => fst p ++ [snd p]) (combine tab c).
  Fixpoint columns (time : list R) (tab : list (list R)) (models : list series) : res (list (list R)) :=
    match models with
    | [] => Ok tab
    | m :: t => if negb (Nat.eqb (length m) (length time)) then Err ValueError
                else if negb (close (times m) time) then Err RuntimeError
                else columns time (add_column tab (map snd m)) t
    end.
  Definition realisation_table (models : list series) : res (list (R * R) * list (list R)) :=
    match models with
    | [] => Err IndexError
    | m :: _ => rbind (columns (times m) (map (fun t => [t]) (times m)) models) (fun tab => Ok (map fst m, tab))
    end.
End Series.
(** 380-425: what becomes of samples_ids over the prediction types. 'all' is
    replaced by a range, which build_time_series_predictions_data (300-302)
    refuses. *)
Inductive ids := AllIds | IdList (l : list nat) | IdRange (n : nat).
Fixpoint plot_types (n_test : nat) (types : list (string * list string)) (a : ids) : res (list (string * list nat)) :=
  match types with
  | [] => Ok []
  | (ty, labels) :: t =>
    match a with
    | IdRange _ => Err RuntimeError
    | _ =>
      let a' := match a, labels with AllIds, _ :: _ => IdRange n_test | _, _ => a end in
      let l := match a' with IdRange n => seq 0 n | IdList l => l | AllIds => [] end in
      rbind (plot_types n_test t a') (fun r => Ok ((ty, match labels with [] => [] | _ => l end) :: r))
    end
  end.

(** ** Training and prediction of the realisations *)
Section Perform.
  Context {M Q : Type}.
  (** the model of the i-th training, and the prediction of a model *)
  Variable trained : nat -> M.
  Variable predicted : M -> Q.
  (** A realisation: its model and its predictions by the name of the prediction
      directory. *)
  Definition realisation := (option M * list (string * Q))%type.
  Definition store := nat -> option realisation.
  (** 95-150: one realisation; [ty] is the base name of the prediction directory *)
  Definition uq_step (training : bool) (ty : string) (st : store) (i : nat) : store :=
    let st := if training then (fun k => if Nat.eqb k i then Some (Some (trained i), []) else st k) else st in
    match st i with
    | Some (Some m, preds) => fun k => if Nat.eqb k i then Some (Some m, gset String.eqb preds ty (predicted m)) else st k
    | _ => st
    end.
  (** 87-150: the directory is emptied before training *)
  Definition perform_uq (training : bool) (ty : string) (n : nat) (st : store) : store :=
    fold_left (uq_step training ty) (seq 0 n) (if training then fun _ => None else st).
End Perform.
