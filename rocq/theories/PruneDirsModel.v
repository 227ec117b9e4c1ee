(** Directories of dataset pruning (C138):
    miscellaneous/pruning/pruning_dataset.py 312-396 (setup_pruning_dirs).
    The file system and make_directory are those of NamesModel (its
    simplifications apply); the pruning directory is a normalised path. *)
From Coq Require Import String List Bool.
From Verif Require Import Lib PyStr PyDict NamesModel.
Import ListNotations.
Local Open Scope string_scope.
Local Open Scope list_scope.

Definition join (d name : string) : string := (d ++ "/" ++ name)%string.
Record setup := mkSetup { s_base : string; s_pruned : string; s_full : string; s_tests : dict (option string) }.
(** 358-384: one testing type *)
Definition test_dir (f : fs) (base t : string) : res (option string) :=
  rbind (if String.eqb t "in_distribution" then Ok (Some (join base "5_testing_id_dataset"))
         else if String.eqb t "out_distribution" then Ok (Some (join base "6_testing_od_dataset"))
         else if String.eqb t "unused_data" then Ok None
         else Err RuntimeError) (fun p =>
  match p with
  | Some q => if isdir f q then Ok p else Err RuntimeError
  | None => Ok p
  end).
Fixpoint test_dirs (f : fs) (base : string) (types : list string) (acc : dict (option string)) : res (dict (option string)) :=
  match types with
  | [] => Ok acc
  | t :: ts => rbind (test_dir f base t) (fun p => test_dirs f base ts (dset acc t p))
  end.
(** 335-396 *)
Definition setup_pruning_dirs (f : fs) (d : string) (types : list string) : fs * res setup :=
  if negb (isdir f d) then (f, Err RuntimeError) else
  let base := join d "base_datasets" in
  if negb (isdir f base) then (f, Err RuntimeError) else
  let full := join base "1_training_dataset" in
  if negb (isdir f full) then (f, Err RuntimeError) else
  match test_dirs f base types [] with
  | Err e => (f, Err e)
  | Ok tests =>
    let pruned := join d "pruned_datasets" in
    match make_directory f pruned true with
    | (f1, Err e) => (f1, Err e)
    | (f1, Ok _) =>
      match make_directory f1 (join d "plots") true with
      | (f2, Err e) => (f2, Err e)
      | (f2, Ok _) => (f2, Ok (mkSetup base pruned full tests))
      end
    end
  end.
