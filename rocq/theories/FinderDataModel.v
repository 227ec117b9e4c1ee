(** Specimen data of the material model finder and its exported reactions:
    check_dirichlet_bc_mesh_hist of
    src/hookeai/material_model_finder/data/specimen_data.py (318-371),
    set_specimen_data, set_fitted_force_data_scalers,
    compute_dirichlet_sets_reaction_hist and the csv table of
    store_dirichlet_sets_reaction_hist of
    src/hookeai/material_model_finder/model/material_discovery.py (451-520,
    3151-3300, 3451-3477).

    A specimen is its sizes and Dirichlet codes (node, dimension, time); the
    material state and the creation of directories are not modelled.  Methods
    return the finder they leave behind with their result, so that a refused
    call shows what it has already changed. *)
From Coq Require Import Reals String List Arith ZArith Bool.
From Verif Require Import Lib PyStr ScalerModel LossModel.
Import ListNotations.
Local Open Scope list_scope.
Local Open Scope R_scope.

Definition codes := nat -> nat -> nat -> Z.
Record specimen := Specimen {
  sp_node : nat; sp_dim : nat; sp_time : nat;
  sp_bc : option codes }.

(** Entries of the array, node by node. *)
Definition entries (n_node n_dim n_time : nat) (bc : codes) : list Z :=
  flat_map (fun i => flat_map (fun j => map (bc i j) (seq 0 n_time)) (seq 0 n_dim)) (seq 0 n_node).

(** specimen_data.py 356-359: the dimensions in which a label appears. *)
Definition dims_with_label (n_node n_dim n_time : nat) (bc : codes) (l : Z) : list nat :=
  filter (fun j => existsb (fun i => existsb (fun t => Z.eqb (bc i j t) l) (seq 0 n_time)) (seq 0 n_node))
         (seq 0 n_dim).

(** specimen_data.py 318-371: check_dirichlet_bc_mesh_hist. *)
Definition check_dirichlet_bc_mesh_hist (sp : specimen) (lt : loss_type) : res unit :=
  match sp_bc sp with
  | None => Ok tt
  | Some bc =>
      let all := entries (sp_node sp) (sp_dim sp) (sp_time sp) bc in
      match lt with
      | Pointwise => if forallb (fun z => (z =? 0) || (z =? 1))%Z all then Ok tt else Err RuntimeError
      | DirichletSets =>
          if negb (forallb (fun z => (0 <=? z)%Z) all) then Err RuntimeError
          else if existsb (fun l => Nat.ltb 1 (length (dims_with_label (sp_node sp) (sp_dim sp) (sp_time sp) bc l)))
                          (filter (fun z => (0 <? z)%Z) (unique all))
          then Err RuntimeError else Ok tt
      | UnknownLoss => Err RuntimeError
      end
  end.

Record finder := Finder {
  fd_loss_type : loss_type;
  fd_normalised : bool;
  fd_specimen : option specimen;
  fd_scaler : option minmax;
  fd_scaling : option R;
  fd_weights : option (list R) }.

(** The argument loss_time_weights: a one-dimensional tensor, a tensor of
    another number of dimensions, or anything that is not a tensor (None, a
    list, a numpy array, ...). *)
Inductive weights_arg := WTensor (w : list R) | WTensorND | WOther.

(** 3451-3477: set_fitted_force_data_scalers; the scalers are reset first. *)
Definition set_fitted_force_data_scalers (f : finder) (n_dim : nat) (mn mx : list R) : finder * res unit :=
  let f0 := Finder (fd_loss_type f) (fd_normalised f) (fd_specimen f) None (fd_scaling f) (fd_weights f) in
  match rbind (minmax_init n_dim None None (-1) 1) (fun s => set_minimum_and_maximum s mn mx) with
  | Err e => (f0, Err e)
  | Ok s => (Finder (fd_loss_type f) (fd_normalised f) (fd_specimen f) (Some s) (fd_scaling f) (fd_weights f), Ok tt)
  end.

(** 451-520: set_specimen_data. *)
Definition set_weights (f : finder) (n_time : nat) (scaling : option R) (w : weights_arg) : finder * res unit :=
  let f1 := Finder (fd_loss_type f) (fd_normalised f) (fd_specimen f) (fd_scaler f) scaling (fd_weights f) in
  let with_w l := Finder (fd_loss_type f) (fd_normalised f) (fd_specimen f) (fd_scaler f) scaling (Some l) in
  match w with
  | WTensorND => (f1, Err RuntimeError)
  | WTensor l => if negb (Nat.eqb (length l) n_time) then (f1, Err RuntimeError) else (with_w l, Ok tt)
  | WOther => (with_w (repeat 1 n_time), Ok tt)
  end.
Definition set_specimen_data (f : finder) (sp : specimen) (mn mx : option (list R)) (scaling : option R)
  (w : weights_arg) : finder * res unit :=
  match check_dirichlet_bc_mesh_hist sp (fd_loss_type f) with
  | Err e => (f, Err e)
  | Ok _ =>
      let f1 := Finder (fd_loss_type f) (fd_normalised f) (Some sp) (fd_scaler f) (fd_scaling f) (fd_weights f) in
      let '(f2, r) :=
        if fd_normalised f then
          match mn, mx with
          | Some mn, Some mx => set_fitted_force_data_scalers f1 (sp_dim sp) mn mx
          | _, _ => (f1, Err RuntimeError)
          end
        else (f1, Ok tt) in
      match r with
      | Err e => (f2, Err e)
      | Ok _ => set_weights f2 (sp_time sp) scaling w
      end
  end.

(** 3151-3200: compute_dirichlet_sets_reaction_hist: only the boundary codes of
    the first time step are used; per time the reactions of the sets. *)
Definition compute_dirichlet_sets_reaction_hist (n_node n_dim n_time : nat) (int ext : nat -> T2)
  (bc : nat -> labels) : res (list (list R)) :=
  match n_time with
  | O => Err IndexError
  | _ => Ok (map (fun t => compute_dirichlet_sets_reaction n_node n_dim (int t) (ext t) (bc O)) (seq 0 n_time))
  end.

(** 3283-3300: the table of the csv file: headers and one row per time. *)
Definition reaction_table (hist : list (list R)) : list string * list (list R) :=
  (map (fun i => ("SET " ++ nat_str i)%string) (seq 0 (match hist with [] => O | r :: _ => length r end)), hist).
