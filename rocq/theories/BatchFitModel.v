(** Model of batch collation, of the data loader and of the batch fitting of
    data scalers.
    Source: src/hookeai/time_series_data/time_dataset.py 57-122 (time_collator,
    get_time_series_data_loader) and
    src/hookeai/utilities/fit_data_scalers.py 31-98
    (fit_data_scaler_from_dataset), 100-188 (mean_std_batch_fit), 190-269
    (min_max_batch_fit).
    A sample is a dictionary of values: a 2d tensor (the list of its rows; all
    rows have the same length) or another object.
    Simplifications: real arithmetic (no NaN entries in the data); the shape of
    a 2d tensor without rows has no columns; tqdm, device and dtype are
    dropped.  torch.utils.data.DataLoader visits the samples in the order given
    as an argument (0, 1, ... if not shuffled) in batches of batch_size, the
    last one possibly smaller (drop_last=False).  The incremental statistics of
    sklearn.preprocessing (StandardScaler.partial_fit through
    _incremental_mean_and_var, MinMaxScaler.partial_fit) are modelled by their
    published update formulas. *)
From Coq Require Import Reals String List Arith Bool.
From Verif Require Import Lib PyDict ScalerModel.
Import ListNotations.
Local Open Scope R_scope.
Local Open Scope list_scope.

Inductive value := Tens (rows : list (list R)) | NotTens.
Definition sample := dict value.

Definition ncols (rows : list (list R)) : nat := match rows with [] => O | r :: _ => length r end.
(** [x[feature] for x in batch_data], with the requirements of torch.stack *)
Fixpoint gather (feature : string) (nr nc : nat) (batch : list sample) : res (list (list (list R))) :=
  match batch with
  | [] => Ok []
  | x :: rest =>
    match dget x feature with
    | None => Err KeyError
    | Some NotTens => Err TypeError
    | Some (Tens rows) =>
      rbind (gather feature nr nc rest) (fun l =>
      if Nat.eqb (length rows) nr && Nat.eqb (ncols rows) nc then Ok (rows :: l) else Err RuntimeError)
    end
  end.
(** torch.stack(tensors, 1) of nr x nc tensors: out[t][b] = tensors[b][t] *)
Definition stack1 (nr : nat) (tensors : list (list (list R))) : list (list (list R)) :=
  map (fun t => map (fun rows => nth t rows []) tensors) (seq 0 nr).
(** 80-91 *)
Fixpoint collate_features (features : list (string * value)) (batch : list sample) (acc : dict (list (list (list R)))) : res (dict (list (list (list R)))) :=
  match features with
  | [] => Ok acc
  | (feature, Tens rows) :: rest =>
    rbind (gather feature (length rows) (ncols rows) batch) (fun l =>
    collate_features rest batch (dset acc feature (stack1 (length rows) l)))
  | (_, NotTens) :: rest => collate_features rest batch acc
  end.
(** 57-91: time_collator *)
Definition time_collator (batch : list sample) : res (dict (list (list (list R)))) :=
  match batch with
  | [] => Err IndexError
  | x :: _ => collate_features x batch []
  end.

(** 93-122: get_time_series_data_loader: the batches of one epoch, for the
    order of visit [order] (a list of sample indices). *)
Fixpoint batches {A} (fuel k : nat) (l : list A) : list (list A) :=
  match fuel with
  | O => []
  | S f => match l with [] => [] | _ => firstn k l :: batches f k (skipn k l) end
  end.
Definition loader (k : nat) (order : list nat) (dataset : list sample) : list (res (dict (list (list (list R))))) :=
  map (fun idxs => time_collator (map (fun i => nth i dataset []) idxs)) (batches (length order) k order).

(** ** Incremental statistics *)
(** sklearn.utils.extmath._incremental_mean_and_var for one feature *)
Definition incremental_mean_and_var (x : list R) (st : R * R * nat) : R * R * nat :=
  let '(last_mean, last_var, last_count) := st in
  let last_sum := last_mean * INR last_count in
  let new_sum := lsum x in
  let new_count := length x in
  let updated_count := (last_count + new_count)%nat in
  let updated_mean := (last_sum + new_sum) / INR updated_count in
  let shift := new_sum / INR new_count in
  let correction := lsum (map (fun v => v - shift) x) in
  let new_unnormalized := lsum (map (fun v => (v - shift) * (v - shift)) x) - correction * correction / INR new_count in
  let last_unnormalized := last_var * INR last_count in
  let updated_unnormalized :=
    if Nat.eqb last_count 0 then new_unnormalized
    else let last_over_new := INR last_count / INR new_count in
         last_unnormalized + new_unnormalized
         + last_over_new / INR updated_count * ((last_sum / last_over_new - new_sum) * (last_sum / last_over_new - new_sum)) in
  (updated_mean, updated_unnormalized / INR updated_count, updated_count).
(** StandardScaler.partial_fit, one (mean, var, count) for each feature; a
    batch without samples is refused *)
Definition standard_partial_fit (n : nat) (rows : list (list R)) (st : option (list (R * R * nat))) : res (list (R * R * nat)) :=
  match rows with
  | [] => Err ValueError
  | _ => Ok (map (fun j => incremental_mean_and_var (column j rows)
                             (match st with None => (0, 0, O) | Some l => nth j l (0, 0, O) end)) (seq 0 n))
  end.
(** MinMaxScaler.partial_fit: (data_min_, data_max_) for each feature *)
Definition minmax_partial_fit (n : nat) (rows : list (list R)) (st : option (list (R * R))) : res (list (R * R)) :=
  match rows with
  | [] => Err ValueError
  | _ => Ok (map (fun j => let c := column j rows in
                           match st with
                           | None => (col_min c, col_max c)
                           | Some l => (Rmin (fst (nth j l (0, 0))) (col_min c), Rmax (snd (nth j l (0, 0))) (col_max c))
                           end) (seq 0 n))
  end.

(** 138-166 and 223-251: the loop over the loader (batch_size=1, not shuffled),
    for either partial fit. *)
Section Loop.
  Context {S : Type} (partial_fit : list (list R) -> option S -> res S).
  Fixpoint fit_loop (features_type : string) (n : nat) (l : list (res (dict (list (list (list R)))))) (st : option S) : res (option S) :=
    match l with
    | [] => Ok st
    | b :: rest =>
      rbind b (fun smp =>
      match dget smp features_type with
      | None => Err RuntimeError
      | Some t =>
        (** features_tensor.shape[-1] and features_tensor[:, 0, :] *)
        if Nat.eqb (ncols (concat t)) n then
          rbind (partial_fit (map (fun sl => nth 0 sl []) t) st) (fun st' => fit_loop features_type n rest (Some st'))
        else Err RuntimeError
      end)
    end.
End Loop.
Definition epoch (dataset : list sample) := loader 1 (seq 0 (length dataset)) dataset.

(** 100-188: mean_std_batch_fit; an unfitted scaler has no attribute mean_ *)
Definition mean_std_batch_fit (dataset : list sample) (features_type : string) (n : nat) : res (list R * list R) :=
  rbind (fit_loop (standard_partial_fit n) features_type n (epoch dataset) None) (fun st =>
  match st with
  | None => Err AttributeError
  | Some l => Ok (map (fun s => fst (fst s)) l, map (fun s => sqrt (snd (fst s))) l)
  end).
(** 190-269: min_max_batch_fit *)
Definition min_max_batch_fit (dataset : list sample) (features_type : string) (n : nat) : res (list R * list R) :=
  rbind (fit_loop (minmax_partial_fit n) features_type n (epoch dataset) None) (fun st =>
  match st with
  | None => Err AttributeError
  | Some l => Ok (map fst l, map snd l)
  end).

(** data_scalers.py:446-474: TorchStandardScaler.__init__ with parameters *)
Definition standard_init_with (n : nat) (m d : option (list R)) : res standard :=
  if Nat.eqb n 0 then Err RuntimeError else
  rbind (match m with None => Ok None | Some v => rbind (check_param n v) (fun v => Ok (Some v)) end) (fun a =>
  rbind (match d with None => Ok None | Some v => rbind (check_param n v) (fun v => Ok (Some v)) end) (fun b =>
  Ok {| st_n := n; st_mean := a; st_std := b |})).
Inductive scaler := Std (s : standard) | Mm (s : minmax).
(** The parameters of the constructors. *)
Record params := { p_mean : option (list R); p_std : option (list R); p_min : option (list R); p_max : option (list R); p_nmin : R; p_nmax : R }.
(** 31-98: fit_data_scaler_from_dataset *)
Definition fit_data_scaler_from_dataset (dataset : list sample) (features_type : string) (n : nat)
    (scaling_type : string) (p : params) : res scaler :=
  if String.eqb scaling_type "mean-std" then
    rbind (standard_init_with n (p_mean p) (p_std p)) (fun s =>
    rbind (mean_std_batch_fit dataset features_type n) (fun ms =>
    rbind (set_mean_and_std s (fst ms) (snd ms)) (fun s' => Ok (Std s'))))
  else if String.eqb scaling_type "min-max" then
    rbind (minmax_init n (p_min p) (p_max p) (p_nmin p) (p_nmax p)) (fun s =>
    rbind (min_max_batch_fit dataset features_type n) (fun mm =>
    rbind (set_minimum_and_maximum s (fst mm) (snd mm)) (fun s' => Ok (Mm s'))))
  else Err RuntimeError.
