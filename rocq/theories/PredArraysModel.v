(** Model of the data arrays built from prediction files for the plots of
    predictions against ground truth and of time series.
    Source: src/hookeai/model_architectures/materials/process_predictions.py.
    Simplifications: real numbers; a prediction file is its output features and
    targets as lists of columns and the length of its entry
    'stress_comps_order', if there is one; a directory is the list of its
    entries in the order of os.listdir; an array is the list of its columns (or
    of its rows of two entries); of the testing data set only the time
    histories are kept; paths are not modelled, the prediction directory of
    every model sample exists. *)
From Coq Require Import Reals String Ascii List Arith Bool ZArith.
From Verif Require Import Lib PyDict PyStr TextLines HybridModel MeanMetricsModel.
Import ListNotations.
Local Open Scope list_scope.

Record pfile := { f_out : list (list R); f_targets : option (list (list R)); f_order : option nat }.
Definition pdir := list (string * pfile).
Inductive ids := All | Ids (l : list nat) | OtherIds.
(** tensor[:, j] *)
Definition col (cols : list (list R)) (j : nat) : res (list R) :=
  match nth_error cols j with Some c => Ok c | None => Err IndexError end.
(** tensor[:, slice(0, n)] *)
Definition cols_slice (cols : list (list R)) (n : nat) : list (list R) := firstn n cols.
(** process_predictions.py:81-93, 309-321 *)
Definition files_ids (d : pdir) : list nat :=
  flat_map (fun e => match sample_number (fst e) with Some n => [n] | None => [] end) d.
Definition pred_file (id : nat) : string := ("prediction_sample_" ++ nat_str id ++ ".pkl")%string.
(** model_prediction.py:95-117: load_sample_predictions *)
Definition load_sample (d : pdir) (id : nat) : res pfile :=
  match find (fun e => String.eqb (pred_file id) (fst e)) d with Some e => Ok (snd e) | None => Err RuntimeError end.
(** 97-115: the number of components *)
Definition n_components (prediction_type : string) (labels : list string) : res nat :=
  if String.eqb prediction_type "stress_comps" then Ok (length labels)
  else if String.eqb prediction_type "acc_p_strain" then Ok 1%nat
  else if String.eqb prediction_type "p_strain_comps" then Ok (length labels)
  else Err RuntimeError.
(** 134-198: target and prediction of component [i]. A missing ground truth is
    indexed before it is checked. *)
Definition component (prediction_type : string) (n i : nat) (f : pfile) : res (list R * list R) :=
  if String.eqb prediction_type "acc_p_strain" then
    match f_order f with
    | None => Err KeyError
    | Some k =>
      rbind (col (f_out f) k) (fun out =>
      match f_targets f with None => Err TypeError | Some t => rbind (col t k) (fun target => Ok (target, out)) end)
    end
  else
    match f_targets f with
    | None => Err TypeError
    | Some t =>
      rbind (col (cols_slice t n) i) (fun target =>
      rbind (col (cols_slice (f_out f) n) i) (fun out => Ok (target, out)))
    end.
(** np.concatenate of two columns *)
Definition paired (p : list R * list R) : res (list (R * R)) :=
  if Nat.eqb (length (fst p)) (length (snd p)) then Ok (combine (fst p) (snd p)) else Err ValueError.
(** 131-202: the loop over the components of one sample *)
Definition sample_rows (prediction_type : string) (n : nat) (f : pfile) : res (list (list (R * R))) :=
  rmap (fun i => rbind (component prediction_type n i f) paired) (seq 0 n).
Definition append_rows (acc rows : list (list (R * R))) : list (list (R * R)) :=
  map (fun p => fst p ++ snd p) (combine acc rows).
Definition in_ids (k : nat) (l : list nat) : bool := existsb (Nat.eqb k) l.
(** 119-202: the loop over the samples *)
Definition add_sample (d : pdir) (prediction_type : string) (n : nat) (acc : list (list (R * R))) (id : nat) : res (list (list (R * R))) :=
  if in_ids id (files_ids d) then
    rbind (load_sample d id) (fun f => rbind (sample_rows prediction_type n f) (fun rows => Ok (append_rows acc rows)))
  else Err RuntimeError.
(** 31-206: build_prediction_data_arrays; [None] if there is no directory *)
Definition build_prediction_data_arrays (dir : option pdir) (prediction_type : string) (labels : list string) (samples_ids : ids) : res (list (list (R * R))) :=
  match dir, samples_ids with
  | None, _ => Err RuntimeError
  | Some _, OtherIds => Err RuntimeError
  | Some d, _ =>
    if Nat.eqb (length d) 0 || Nat.eqb (length (files_ids d)) 0 then Err RuntimeError
    else
      let todo := match samples_ids with Ids l => l | _ => files_ids d end in
      rbind (n_components prediction_type labels) (fun n =>
      rfold (add_sample d prediction_type n) todo (repeat [] n))
  end.

(** ** Time series *)
Section Sampled.
  (** the prediction files of the model samples, in the order used, or of the
      only model *)
  Variable models : list pdir.
  (** time_hist of each sample of the testing data set *)
  Variable times : list (list R).
  (** np.concatenate of a further column *)
  Definition add_column (a : list (list R)) (c : list R) : res (list (list R)) :=
    match a with
    | [] => Ok [c]
    | b :: _ => if Nat.eqb (length b) (length c) then Ok (a ++ [c]) else Err ValueError
    end.
  (** 396-480: the columns of one component: time, ground truth of the first
      model, prediction of every model *)
  Fixpoint series_columns (prediction_type : string) (n i : nat) (first : bool) (fs : list pfile) (a : list (list R)) : res (list (list R)) :=
    match fs with
    | [] => Ok a
    | f :: rest =>
      rbind (component prediction_type n i f) (fun p =>
      rbind (if first then add_column a (fst p) else Ok a) (fun a =>
      rbind (add_column a (snd p)) (fun a =>
      series_columns prediction_type n i false rest a)))
    end.
  (** 425-426: the feature of the accumulated plastic strain is read once, in
      the results loaded last *)
  Definition with_order (o : option nat) (f : pfile) : pfile := {| f_out := f_out f; f_targets := f_targets f; f_order := o |}.
  Definition same_order (fs : list pfile) : list pfile :=
    match rev fs with [] => fs | f :: _ => map (with_order (f_order f)) fs end.
  (** 337-484: one sample *)
  Definition add_series (prediction_type : string) (n : nat) (acc : list (dict (list (list R)))) (id : nat) : res (list (dict (list (list R)))) :=
    match nth_error times id with
    | None => Err IndexError
    | Some time =>
      if in_ids id (files_ids (hd [] models)) then
        rbind (rmap (fun d => load_sample d id) models) (fun fs =>
        rbind (rmap (fun i => series_columns prediction_type n i true (same_order fs) [time]) (seq 0 n)) (fun arrays =>
        Ok (map (fun p => dset (fst p) (nat_str id) (snd p)) (combine acc arrays))))
      else Err RuntimeError
    end.
  (** 283-486, after the model samples have been found *)
  Definition time_series_data (prediction_type : string) (labels : list string) (samples_ids : ids) : res (list (dict (list (list R)))) :=
    rbind (match samples_ids with
           | All => Ok tt
           | OtherIds => Err RuntimeError
           | Ids [] => Err ValueError
           | Ids (k :: l) => if Nat.leb (length times) (fold_left Nat.max l k) then Err RuntimeError else Ok tt
           end) (fun _ =>
    match models with
    | [] => Err IndexError
    | d :: _ =>
      if Nat.eqb (length d) 0 || Nat.eqb (length (files_ids d)) 0 then Err RuntimeError
      else
        let todo := match samples_ids with Ids l => l | _ => files_ids d end in
        rbind (n_components prediction_type labels) (fun n =>
        rfold (add_series prediction_type n) todo (repeat [] n))
    end).
End Sampled.
(** 263-266: '^model_[0-9]+' *)
Definition is_model_dir (name : string) : bool :=
  match drop_prefix "model_" name with Some t => negb (String.eqb (take_digits t) "") | None => false end.
(** 272-276: the last run of digits of the name, '(\d+)\D*$' *)
Fixpoint last_digits (s cur found : string) : string :=
  match s with
  | EmptyString => if String.eqb cur "" then found else cur
  | String c t => if is_digit c then last_digits t (cur ++ String c "") found
                  else last_digits t "" (if String.eqb cur "" then found else cur)
  end.
Definition model_number (name : string) : nat := match int_of (last_digits name "" "") with Ok n => n | Err _ => 0 end.
(** 252-278: the model samples of the uncertainty quantification directory,
    each with its prediction directory of the testing type *)
Definition model_samples (uq : list (string * pdir)) : list (string * pdir) :=
  isort (fun e => Z.of_nat (model_number (fst e))) (filter (fun e => is_model_dir (fst e)) uq).
(** 208-486: build_time_series_predictions_data *)
Definition build_time_series (uq : option (list (string * pdir))) (dir : option pdir) (times : list (list R))
    (prediction_type : string) (labels : list string) (samples_ids : ids) : res (list (dict (list (list R)))) :=
  match uq, dir with
  | Some l, _ => time_series_data (map snd (model_samples l)) times prediction_type labels samples_ids
  | None, None => Err RuntimeError
  | None, Some d => time_series_data [d] times prediction_type labels samples_ids
  end.
