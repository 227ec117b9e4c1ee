(** Conversion of data set files between formats (C120):
    miscellaneous/dataset_processing/convert_dataset.py 30-97,
    miscellaneous/dataset_processing/convert_to_tsdataset.py 29-70, and the
    data set classes time_series_data/time_dataset.py 124-195 (saving, loading),
    502-545 (in memory), 651-740 (file backed) and 786-867 (moved data sets).
    A file is a pair (directory, name) of normalized paths, and the file system
    maps files to contents: a list of samples, an in-memory data set, a subset of
    an in-memory data set (torch Subset), a file backed data set (its directory
    and sample files), one sample, or anything else. Samples have an arbitrary
    type. Not modelled: pickle and torch serialization, data sets whose pickled
    class cannot be imported, directories that are not normalized. *)
From Coq Require Import String Ascii List Bool Arith.
From Verif Require Import Lib PyStr PyDict FileFindModel.
Import ListNotations.
Local Open Scope string_scope.
Local Open Scope list_scope.

Definition path := (string * string)%type.
Definition path_eqb (a b : path) : bool := String.eqb (fst a) (fst b) && String.eqb (snd a) (snd b).

Section Conv.
Context {S : Type}.
Inductive content :=
| CList (l : list S)
| CMem (l : list S)
| CSubset (parent : list S) (idx : list nat)
| CFiles (dir : string) (ps : list path)
| CSample (s : S)
| COther.
Definition fsys := path -> option content.
Definition write (fs : fsys) (p : path) (c : content) : fsys := fun q => if path_eqb q p then Some c else fs q.

(** len(data set) and data set[i] for all i, convert_dataset.py 66-71;
    time_dataset.py 518-545 and 698-726. *)
Definition sample_at (parent : list S) (i : nat) : res S := match nth_error parent i with Some s => Ok s | None => Err IndexError end.
Definition sample_in (fs : fsys) (p : path) : res S := match fs p with Some (CSample s) => Ok s | _ => Err RuntimeError end.
Definition samples_of (fs : fsys) (c : content) : res (list S) :=
  match c with
  | CList l | CMem l => Ok l
  | CSubset parent idx => rmap (sample_at parent) idx
  | CFiles _ ps => rmap (sample_in fs) ps
  | CSample _ => Err KeyError
  | COther => Err TypeError
  end.

(** time_dataset.py 151-166: the directory is the one of an existing file. *)
Definition basename : string := "ss_paths_dataset".
Definition save (fs : fsys) (dir base : string) (n : nat) (c : content) : fsys := write fs (dir, dataset_name base n true) c.

(** convert_dataset.py 44-53: ^ss_paths_dataset_n\d+\.pkl$ *)
Definition conv_pattern : pattern := mkPattern true (RCat (rlit (basename ++ "_n")) (RCat rdigits (rlit ".pkl"))) true.
Inductive format := ToList | ToMemory | OtherFormat.
(** 55-97 *)
Definition convert_one (f : format) (fs : fsys) (p : path) : res fsys :=
  match fs p with
  | None => Err RuntimeError
  | Some c =>
    rbind (samples_of fs c) (fun l =>
    match f with
    | ToList => Ok (write fs (fst p, dataset_name "ss_paths_list" (length l) true) (CList l))
    | ToMemory => Ok (save fs (fst p) basename (length l) (CMem l))
    | OtherFormat => Err RuntimeError
    end)
  end.
Fixpoint convert_all (f : format) (fs : fsys) (srcs : list path) : res fsys :=
  match srcs with
  | [] => Ok fs
  | p :: srcs => rbind (convert_one f fs p) (fun fs => convert_all f fs srcs)
  end.
(** [walk]: the files found beneath the base directories, in the order of os.walk *)
Definition sources (walk : list path) : list path := filter (fun p => search conv_pattern (snd p)) walk.
Definition convert_dataset (f : format) (fs : fsys) (walk : list path) : res fsys := convert_all f fs (sources walk).

(** convert_to_tsdataset.py 45-64 *)
Definition sample_name (i : nat) : string := "ss_response_path_" ++ nat_str i ++ ".pt".
Fixpoint write_samples (fs : fsys) (dir : string) (i : nat) (l : list S) : fsys :=
  match l with
  | [] => fs
  | s :: l => write_samples (write fs (dir, sample_name i) (CSample s)) dir (1 + i) l
  end.
(** time_dataset.py 675-690: every sample file must exist in the directory *)
Definition file_dataset (fs : fsys) (dir : string) (ps : list path) : res content :=
  if forallb (fun p => match fs p with Some _ => String.eqb (fst p) dir | None => false end) ps then Ok (CFiles dir ps) else Err RuntimeError.
(** convert_to_tsdataset.py 29-70, with load_dataset (time_dataset.py 181-195) *)
Definition to_tsdataset (fs : fsys) (p : path) : res fsys :=
  match fs p with
  | Some (CMem l) =>
      let fs := write_samples fs (fst p) 0 l in
      let ps := map (fun i => (fst p, sample_name i)) (seq 0 (length l)) in
      rbind (file_dataset fs (fst p) ps) (fun c =>
      Ok (save fs (fst p) basename (length ps) c))
  | _ => Err RuntimeError
  end.

(** time_dataset.py 852-867: the new paths of the sample files *)
Fixpoint rebase (fs : fsys) (dir : string) (ps : list path) : res (list path) :=
  match ps with
  | [] => Ok []
  | p :: ps =>
    match fs (dir, snd p) with
    | None => Err RuntimeError
    | Some _ => rbind (rebase fs dir ps) (fun qs => Ok ((dir, snd p) :: qs))
    end
  end.
(** 787-836: _update_dataset_directory is called with the argument
    is_reload_data, which it does not have. [isdir]: the new directory exists.
    A subset has an in-memory parent here, which has no directory. *)
Definition update_internal_directory (isdir : bool) (fs : fsys) (p : path) (dir : string) : res fsys :=
  if negb isdir then Err RuntimeError else
  match fs p with
  | Some (CFiles stored ps) => if String.eqb stored dir then Ok fs else Err TypeError
  | Some (CSubset _ _) => Err AttributeError
  | _ => Err RuntimeError
  end.
End Conv.
Arguments content : clear implicits.
Arguments fsys : clear implicits.
