(** Scripts that process directories of case studies.

    src/hookeai/miscellaneous/file_processing/process_case_study_dirs.py 23-138;
    src/hookeai/miscellaneous/noisy_data/build_noise_directory.py 24-110;
    src/hookeai/miscellaneous/dataset_processing/tsdataset_splitter.py 24-45 with
      src/hookeai/time_series_data/time_dataset.py 945-965;
    src/hookeai/miscellaneous/other/element_paths_indices.py 17-38.

    A file system is the list of its files, with the names on their path from the
    root; a directory is there when a file lies beneath it (empty directories are
    not represented). [None] is an exception: an OSError, or the IndexError of the
    first of no data sets. The names of the regular expressions are those of
    FileFindModel. *)
From Coq Require Import String Ascii List Bool Arith.
From Verif Require Import Lib PyStr PyDict FileFindModel.
Import ListNotations.
Local Open Scope string_scope.
Local Open Scope list_scope.

Definition fpath := list string.
Section Fs.
  Context {C : Type}.
  Definition files := list (fpath * C).
  (** The rest of a path beneath a directory. *)
  Fixpoint strip (p q : fpath) : option fpath :=
    match p, q with
    | [], _ => Some q
    | a :: p, b :: q => if String.eqb a b then strip p q else None
    | _ :: _, [] => None
    end.
  Definition beneath (p q : fpath) : bool := match strip p q with Some (_ :: _) => true | _ => false end.
  Definition isdir (p : fpath) (fs : files) : bool := existsb (fun f => beneath p (fst f)) fs.
  Definition listdir (p : fpath) (fs : files) : option (list string) :=
    if isdir p fs then
      Some (nodup string_dec (flat_map (fun f => match strip p (fst f) with Some (h :: _) => [h] | _ => [] end) fs))
    else None.
  Definition rmtree (p : fpath) (fs : files) : option files :=
    if isdir p fs then Some (filter (fun f => negb (beneath p (fst f))) fs) else None.
  Definition copytree (src dst : fpath) (fs : files) : option files :=
    if isdir dst fs then None
    else if isdir src fs then
      Some (fs ++ flat_map (fun f => match strip src (fst f) with Some (h :: t) => [(dst ++ h :: t, snd f)] | _ => [] end) fs)
    else None.
  Fixpoint for_all_of {X} (f : X -> files -> option files) (l : list X) (fs : files) : option files :=
    match l with [] => Some fs | x :: t => match f x fs with Some fs => for_all_of f t fs | None => None end end.

  (** process_case_study_dirs.py 60-75 *)
  Definition dataset_types : list string := ["1_training_dataset"; "2_validation_dataset"; "5_testing_id_dataset"; "6_testing_od_dataset"].
  Definition remove_plots (case : fpath) (fs : files) : option files :=
    match listdir case fs with
    | None => None
    | Some names =>
      for_all_of (fun name fs =>
        if existsb (String.eqb name) dataset_types then
          if isdir (case ++ [name; "plots"]) fs then rmtree (case ++ [name; "plots"]) fs else Some fs
        else Some fs) names fs
    end.
  (** 77-96: ^prediction_sample_\d+\.pkl$ *)
  Definition sample_pattern : pattern := mkPattern true (RCat (rlit "prediction_sample_") (RCat rdigits (rlit ".pkl"))) true.
  Definition prediction_dirname (is_uq : bool) : string := if is_uq then "uncertainty_quantification" else "7_prediction".
  Definition is_sample (case : fpath) (is_uq : bool) (q : fpath) : bool :=
    match strip (case ++ [prediction_dirname is_uq]) q with
    | Some (h :: t) => search sample_pattern (last (h :: t) "")
    | _ => false
    end.
  Definition remove_samples (is_uq : bool) (case : fpath) (fs : files) : option files :=
    match listdir case fs with
    | None => None
    | Some names => if existsb (String.eqb (prediction_dirname is_uq)) names
                    then Some (filter (fun f => negb (is_sample case is_uq (fst f))) fs) else Some fs
    end.
  (** 98-104 *)
  Definition remove_dirnames : list string := ["3_model"; "7_prediction"].
  Definition remove_models (case : fpath) (fs : files) : option files :=
    match listdir case fs with
    | None => None
    | Some names => for_all_of (fun name fs => if existsb (String.eqb name) remove_dirnames then rmtree (case ++ [name]) fs else Some fs) names fs
    end.
  (** 106-134 *)
  Definition redump_samples (is_uq : bool) (to_cpu : C -> C) (case : fpath) (fs : files) : option files :=
    match listdir case fs with
    | None => None
    | Some names => if existsb (String.eqb (prediction_dirname is_uq)) names
                    then Some (map (fun f => if is_sample case is_uq (fst f) then (fst f, to_cpu (snd f)) else f) fs) else Some fs
    end.

  (** build_noise_directory.py 40-64: ^n[0-9]+$ and noise *)
  Definition size_pattern : pattern := mkPattern true (RCat (rlit "n") rdigits) true.
  Definition noise_pattern : pattern := mkPattern false (rlit "noise") false.
  Definition dataset_names (src : fpath) (fs : files) : option (list string) := option_map (filter (search size_pattern)) (listdir src fs).
  Definition noise_names (src : fpath) (fs : files) : option (list string) :=
    match dataset_names src fs with
    | Some (first :: _) => option_map (filter (search noise_pattern)) (listdir (src ++ [first]) fs)
    | _ => None
    end.
  Definition replace_tree (src dst : fpath) (fs : files) : option files :=
    match (if isdir dst fs then rmtree dst fs else Some fs) with Some fs => copytree src dst fs | None => None end.
  (** 66-85 *)
  Definition build_noise (src dest : fpath) (fs : files) : option files :=
    match dataset_names src fs, noise_names src fs with
    | Some datasets, Some noises =>
      for_all_of (fun '(noise, ds) => replace_tree (src ++ [ds; noise]) (dest ++ [noise; ds])) (list_prod noises datasets) fs
    | _, _ => None
    end.
  (** 87-110 *)
  Definition share_testing (src dest test : fpath) (basename : string) (fs : files) : option files :=
    match dataset_names src fs, noise_names src fs with
    | Some datasets, Some noises =>
      for_all_of (fun '(noise, ds) => replace_tree test (dest ++ [noise; ds; basename])) (list_prod noises datasets) fs
    | _, _ => None
    end.
End Fs.
Arguments files : clear implicits.

(** os.path.join of two strings *)
Definition ends_slash (s : string) : bool := match String.get (String.length s - 1) s with Some c => Ascii.eqb c "/"%char | None => false end.
Definition join (a b : string) : string :=
  if starts_with "/" b then b else if (String.eqb a "" || ends_slash a)%bool then (a ++ b)%string else (a ++ "/" ++ b)%string.
(** tsdataset_splitter.py 36-45, time_dataset.py 955-961: the basename is the whole
    path of the data set without its extension and number of samples *)
Definition subset_path (directory root key : string) (n : nat) : string :=
  join directory ((root ++ "_" ++ key ++ "_n" ++ nat_str n) ++ ".pkl")%string.

(** element_paths_indices.py 17-38 *)
Definition element_path_indices (element_id n_gauss : nat) : list nat := seq ((element_id - 1) * n_gauss) (element_id * n_gauss - (element_id - 1) * n_gauss).
