(** Links simulations: input data file path and parameters, outcome of a run,
    and reading of the results.

    src/hookeai/simulators/links/links.py
      118-242 (generate_input_data_file: path, parameters and phases),
      244-305 (run_links_simulation), 307-471 (read_links_simulation_results),
      632-690 (_get_links_default_input_params).

    The output directory of a simulation is an option (it may be missing), its
    ".screen" file is a list of lines. The execution of the binary, which is not
    checked, is any function of the output directory. A results file is its table
    of numbers; np.genfromtxt drops dimensions of size one. Time steps of the
    files are distinct (np.argsort is not stable). The name of the simulation is
    taken literally in the regular expressions. *)
From Coq Require Import String Ascii List Bool Arith ZArith.
From Verif Require Import Lib PyStr PyDict HybridModel TextLines HistoryModel NamesModel.
Import ListNotations.
Local Open Scope string_scope.
Local Open Scope list_scope.

(** 162-171: path of the input data file; the directory exists *)
Definition input_file_path (f : fs) (directory filename : string) (is_overwrite : bool) : option string :=
  let p := (NamesModel.join directory filename ++ ".dat")%string in
  if isfile f p && negb is_overwrite then new_file_path_with_int f p else Some p.

Section Params.
  Context {V : Type} (of_text : string -> V) (one : V).
  (** 632-690; an unknown analysis type leaves a variable unbound *)
  Definition analysis_code (analysis : string) : res string :=
    if String.eqb analysis "plane_stress" then Ok "1"
    else if String.eqb analysis "plane_strain" then Ok "2"
    else if String.eqb analysis "axisymmetric" then Ok "3"
    else if String.eqb analysis "tridimensional" then Ok "6"
    else Err NameError.
  Definition default_params (strain analysis : string) : res (dict V) :=
    rbind (analysis_code analysis) (fun a =>
    Ok [("title", of_text "Links input data file generated automatically.");
        ("large_strain_formulation", of_text (if String.eqb strain "infinitesimal" then "OFF" else "ON"));
        ("analysis_type", of_text a);
        ("solution_algorithm", of_text "2");
        ("solver", of_text "PARDISO");
        ("parallel_solver", one);
        ("vtk_output", of_text "None");
        ("Node_Data_Output", of_text "Node_Data_Output");
        ("Global_Data_Output", of_text "Global_Data_Output")]).
  (** 176-182 *)
  Definition input_params (strain analysis : string) (given : option (dict V)) : res (dict V) :=
    rbind (default_params strain analysis) (fun d =>
    Ok (match given with
        | None => d
        | Some g => fold_left (fun d kv => match dget d (fst kv) with Some _ => dset d (fst kv) (snd kv) | None => d end) g d
        end)).
End Params.
(** 216-224: phases in the mesh against phases with descriptors *)
Definition check_phases (mesh phases : list Z) : res unit :=
  if forallb (fun p => existsb (Z.eqb p) phases) mesh then Ok tt else Err RuntimeError.

(** 244-305 *)
Fixpoint contains (p s : string) : bool :=
  starts_with p s || match s with String _ t => contains p t | EmptyString => false end.
Definition success_message : string := "Program L I N K S successfully completed.".
(** the output directory, and the screen file in it *)
Definition out_dir := option (option (list string)).
Definition run_links (exec : out_dir -> out_dir) (w : out_dir) : res bool :=
  match exec w with
  | None => Err RuntimeError
  | Some None => Err RuntimeError
  | Some (Some lines) => Ok (existsb (contains success_message) lines)
  end.

(** 307-471 *)
Section Results.
  Context {V : Type}.
  Inductive arr := A0 (v : V) | A1 (l : list V) | A2 (rows : list (list V)).
  (** np.genfromtxt: rows of the same number of columns, squeezed *)
  Definition genfromtxt (rows : list (list V)) : res arr :=
    match rows with
    | [] => Ok (A1 [])
    | r :: _ =>
      if negb (forallb (fun x => Nat.eqb (List.length x) (List.length r)) rows) then Err ValueError
      else match rows, r with
           | [_], [v] => Ok (A0 v)
           | [_], _ => Ok (A1 r)
           | _, [_] => Ok (A1 (concat rows))
           | _, _ => Ok (A2 rows)
           end
    end.
  (** data[:, :, i] = array, with broadcasting to shape (n, m) *)
  Definition broadcast (n m : nat) (a : arr) : res (list (list V)) :=
    match a with
    | A0 v => Ok (repeat (repeat v m) n)
    | A1 l =>
      if Nat.eqb (List.length l) m then Ok (repeat l n)
      else match l with [v] => Ok (repeat (repeat v m) n) | _ => Err ValueError end
    | A2 rows =>
      if negb (Nat.eqb (List.length rows) n) then Err ValueError
      else if forallb (fun r => Nat.eqb (List.length r) m) rows then Ok rows else Err ValueError
    end.
  (** the files of the results, by time step; int of the last field of the name *)
  Definition is_result (sim ext name : string) : bool :=
    match after sim name with Some rest => ends_with ext rest | None => false end.
  Definition result_key (name : string) : res Z := py_int (last (split_on "_" (splitext_root name)) "").
  Definition sorted_files {A} (sim ext : string) (listing : list (string * A)) : res (list A) :=
    rbind (rmap (fun f => rbind (result_key (fst f)) (fun k => Ok (k, snd f))) (filter (fun f => is_result sim ext (fst f)) listing))
      (fun l => Ok (map snd (isort fst l))).
  (** 366-411; the data are, for each time step, the matrix of nodes and features *)
  Definition node_results (sim : string) (listing : list (string * list (list V))) : res (option (list (list (list V)))) :=
    rbind (sorted_files sim ".nodedata" listing) (fun files =>
    match files with
    | [] => Ok None
    | f0 :: _ =>
      rbind (genfromtxt f0) (fun a0 =>
      match a0 with
      | A2 rows0 =>
        rbind (rmap (fun f => rbind (genfromtxt f) (broadcast (List.length rows0) (List.length (hd [] rows0)))) files)
          (fun data => Ok (Some data))
      | _ => Err IndexError
      end)
    end).
  (** 413-464; the data are, for each time step, the row of features *)
  Definition atleast_1d (a : arr) : arr := match a with A0 v => A1 [v] | _ => a end.
  Definition arr_len (a : arr) : nat := match a with A0 _ => 0 | A1 l => List.length l | A2 rows => List.length rows end.
  Definition global_results (sim : string) (listing : list (string * list (list V))) : res (option (list (list (list V)))) :=
    rbind (sorted_files sim ".globaldata" listing) (fun files =>
    match files with
    | [] => Ok None
    | f0 :: _ =>
      rbind (genfromtxt f0) (fun a0 =>
      rbind (rmap (fun f => rbind (genfromtxt f) (fun a => broadcast 1 (arr_len (atleast_1d a0)) (atleast_1d a))) files)
        (fun data => Ok (Some data)))
    end).
End Results.
Arguments arr : clear implicits.
(** 349-350: the name of the simulation, from its output directory *)
Fixpoint basename (s : string) : string :=
  match s with
  | EmptyString => EmptyString
  | String c t => if has_char "/" s then basename t else s
  end.
Definition simulation_name (dir : string) : string := splitext_root (basename dir).
