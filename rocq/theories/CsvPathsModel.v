(** Strain paths written to tables and data sets read from tables (C122):
    miscellaneous/other/export_strain_paths.py 94-135 and
    miscellaneous/dataset_processing/read_csv_response_dataset.py 50-92, with
    gen_response_dataset_from_csv of ResponseModel.
    A path is its times and its rows of strain components. The directory is the
    list of its entries in the order of os.listdir, each with its table. The base
    name of the response files is a literal (it is not escaped in the pattern).
    pandas: a column or a set of columns is assigned when the number of rows and
    of columns fits. The text of the numbers is not modelled. *)
From Coq Require Import String Ascii Reals List Arith Bool ZArith.
From Verif Require Import Lib PyStr PyDict MatrixModel HybridModel NoiseModel ResponseModel FileFindModel.
From Verif Require HistoryModel.
Import ListNotations.
Local Open Scope list_scope.

(** export_strain_paths.py 112-128 *)
Definition export_row (n_dim : nat) (t : R) (e : list R) : list R :=
  if Nat.eqb n_dim 2 then t :: [nth 0 e 0; nth 1 e 0; 0; nth 2 e 0; 0; 0]%R ++ repeat 0%R 6
  else t :: e ++ repeat 0%R 6.
Definition n_strain (n_dim : nat) : nat := if Nat.eqb n_dim 2 then 3 else 6.
Definition export_frame (n_dim n_time : nat) (p : list R * list (list R)) : res frame :=
  if negb (Nat.eqb (length (fst p)) n_time) then Err ValueError
  else if negb (Nat.eqb (length (snd p)) n_time && forallb (fun e => Nat.eqb (length e) (n_strain n_dim)) (snd p)) then Err ValueError
  else Ok (Frame 13 (map (fun te => export_row n_dim (fst te) (snd te)) (combine (fst p) (snd p)))).
(** 130-135 *)
Definition csv_name (base : string) (i : nat) : string := (base ++ "_path_" ++ nat_str i ++ ".csv")%string.
(** 97-135: the files written for the paths i, i+1, ... *)
Fixpoint export_paths (n_dim n_time : nat) (base : string) (i : nat) (paths : list (list R * list (list R))) (files : dict frame)
  : res (dict frame) :=
  match paths with
  | [] => Ok files
  | p :: paths => rbind (export_frame n_dim n_time p) (fun d => export_paths n_dim n_time base (S i) paths (dset files (csv_name base i) d))
  end.

(** re.search(r'(\d+)\D*$', x), as in HistoryModel *)
Definition last_int (s : string) : option nat :=
  match HistoryModel.last_number s with Some d => match int_of d with Ok n => Some n | Err _ => None end | None => None end.

(** read_csv_response_dataset.py 63-72: ^base_[0-9]+\.csv, without $ *)
Definition response_pattern (base : string) : pattern :=
  mkPattern true (RCat (rlit (base ++ "_")) (RCat rdigits (rlit ".csv"))) false.
(** 56-79 *)
Definition response_files (dir base : string) (listing : list (string * frame)) : list (string * frame) :=
  map (fun f => ((dir ++ "/" ++ fst f)%string, snd f)) (filter (fun f => search (response_pattern base) (fst f)) listing).
(** 50-92: the data set and the name of its file *)
Definition read_csv (n_dim : nat) (cos : list comp) (dir base : string) (listing : option (list (string * frame))) : res (list sample * string) :=
  match listing with
  | None => Err RuntimeError
  | Some listing =>
    rbind (gen_from_csv n_dim cos last_int (isort (file_key last_int) (response_files dir base listing)) true None) (fun ds =>
    Ok (ds, dataset_name "ss_paths_dataset" (length ds) true))
  end.
