(** Runs of the local model update (C124):
    - user_scripts/complete_pipelines/local_model_update.py
      533-625 (perform_material_model_updating);
    - rnn_material_model/noisy_uncertainty_quantification.py 38-210 (the loop over
      noise cases and training sizes).
    A case is its directory: the files of the training, validation and testing
    data sets ([None] is a missing directory), the model directory (with the model
    left in it), the prediction directory (names of its subdirectories) and the
    realisations of the uncertainty quantification (UqModel). Training and
    prediction are given functions of the data set files; the plots are a given
    function of the realisations that may fail. Only the testing type is a
    parameter of the second script; its data set directory is [c_test]. *)
From Coq Require Import String List Bool Arith.
From Verif Require Import Lib PyDict FileFindModel UqModel.
Import ListNotations.
Local Open Scope string_scope.
Local Open Scope list_scope.

Definition base_name := "ss_paths_dataset".
Section Run.
  Context {M Q : Type}.
  (** model of the i-th training with these files; prediction of a model on a file *)
  Variable train : string -> option string -> nat -> M.
  Variable predict : string -> M -> Q.
  Variable plots : @store M Q -> nat -> res unit.
  Record case := mkCase { c_train : option (list string); c_val : option (list string); c_test : option (list string);
    c_model : option (option M); c_pred : option (list string); c_uq : option (@store M Q) }.
  Definition no_realisation : @store M Q := fun _ => None.
  (** model left in the model directory by the trainings *)
  Definition left_model (training : bool) (tr : string) (va : option string) (n : nat) (before : option (option M)) : option (option M) :=
    if training then match n with O => before | S k => Some (Some (train tr va k)) end else before.
  (** uncertainty_quantification.py 87-150 *)
  Definition model_uq (training : bool) (ty : string) (n : nat) (tr : string) (va : option string) (te : string) (c : case) : case :=
    mkCase (c_train c) (c_val c) (c_test c) (left_model training tr va n (c_model c)) (c_pred c)
      (Some (perform_uq (train tr va) (predict te) training ty n (match c_uq c with Some s => s | None => no_realisation end))).
  (** 574-586: the model and prediction directories are emptied *)
  Definition emptied (c : case) : case := mkCase (c_train c) (c_val c) (c_test c) (Some None) (Some ["in_distribution"]) (c_uq c).
  (** 614-619 *)
  Definition cleaned (c : case) : case := mkCase (c_train c) (c_val c) (c_test c) None None (c_uq c).
  (** 533-625 *)
  Definition lmu_run (n : nat) (training with_plots : bool) (c : case) : case * res unit :=
    let c := emptied c in
    match find_dataset base_name (c_train c) with
    | Err e => (c, Err e)
    | Ok tr =>
      match find_dataset base_name (c_val c) with
      | Err e => (c, Err e)
      | Ok va =>
        match find_dataset base_name (c_test c) with
        | Err e => (c, Err e)
        | Ok te =>
          let c := model_uq training "in_distribution" n tr (Some va) te c in
          match (if with_plots then plots (match c_uq c with Some s => s | None => no_realisation end) n else Ok tt) with
          | Err e => (c, Err e)
          | Ok _ => (cleaned c, Ok tt)
          end
        end
      end
    end.

  (** noisy script: ^ss_paths_dataset_n[0-9]+.pkl$ *)
  Definition find_script (listing : option (list string)) : res string :=
    rbind (find_file (Patterns [script_pattern base_name]) listing) (fun f => match f with Some f => Ok f | None => Err RuntimeError end).
  Definition add_name (name : string) (l : list string) : list string := if existsb (String.eqb name) l then l else l ++ [name].
  (** 82-200: one case *)
  Definition noisy_case (ty : string) (training : bool) (n : nat) (with_plots : bool) (d : option case) : option case * res unit :=
    match d with
    | None => (None, Err RuntimeError)
    | Some c =>
      match find_script (c_train c) with
      | Err e => (Some c, Err e)
      | Ok tr =>
        let c := mkCase (c_train c) (c_val c) (c_test c) (Some None) (c_pred c) (c_uq c) in
        match (match c_val c with None => Ok None | Some l => rbind (find_script (Some l)) (fun f => Ok (Some f)) end) with
        | Err e => (Some c, Err e)
        | Ok va =>
          match find_script (c_test c) with
          | Err e => (Some c, Err e)
          | Ok te =>
            let c := mkCase (c_train c) (c_val c) (c_test c) (c_model c) (Some (add_name ty (match c_pred c with Some l => l | None => [] end))) (c_uq c) in
            let c := model_uq training ty n tr va te c in
            match (if with_plots then plots (match c_uq c with Some s => s | None => no_realisation end) n else Ok tt) with
            | Err e => (Some c, Err e)
            | Ok _ => (Some c, Ok tt)
            end
          end
        end
      end
    end.
  (** 69-210: the cases in turn; the first error ends the script *)
  Fixpoint noisy_grid (ty : string) (training : bool) (n : nat) (with_plots : bool) (ds : list (option case)) : list (option case) * res unit :=
    match ds with
    | [] => ([], Ok tt)
    | d :: t =>
      let (d', r) := noisy_case ty training n with_plots d in
      match r with
      | Err e => (d' :: t, Err e)
      | Ok _ => let (t', r') := noisy_grid ty training n with_plots t in (d' :: t', r')
      end
    end.
End Run.
Arguments case : clear implicits.
