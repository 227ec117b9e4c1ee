(** Specimen history files: collection of the node data of a Links simulation,
    writing of the history files (one csv file per time step) and their reading.

    src/hookeai/simulators/links/utilities/links_data_to_adimu.py
      394-440 (collect_node_data_files_from_links_data),
      501-579 (write_adimu_mesh_hist_data_files),
      580-617 (generate_pointwise_sets), 618-700 (generate_dirichlet_sets),
      701-750 (update_adimu_mesh_hist_data_files_dirichlet);
    src/hookeai/user_scripts/global_model_update/material_finder/gen_specimen_data.py
      344-393 (get_specimen_history_paths), 394-465 (get_specimen_numerical_data).

    A directory is the list of its files in the order of os.listdir. A file is
    its number of columns and its rows; reading a csv file gives what was
    written. Names of simulations are taken literally in the regular
    expressions (they are, without regular expression characters). [to32] is the
    conversion to single precision, [to_int] the truncation to integers. The
    histories, tensors of shape (node, dimension, time) in the code, are lists
    over the time steps of lists over the nodes. *)
From Coq Require Import String Ascii List Bool Arith ZArith.
From Verif Require Import Lib PyStr PyDict HybridModel SpecimenModel.
Import ListNotations.
Local Open Scope string_scope.
Local Open Scope list_scope.

(** re.search(r'(\d+)\D*$', x).groups()[-1] *)
Fixpoint take_digits (s : string) : string :=
  match s with String c t => if is_digit c then String c (take_digits t) else EmptyString | EmptyString => s end.
Fixpoint no_digit (s : string) : bool :=
  match s with String c t => negb (is_digit c) && no_digit t | EmptyString => true end.
Fixpoint last_number (s : string) : option string :=
  if negb (String.eqb (take_digits s) "") && no_digit (skip_digits s) then Some (take_digits s)
  else match s with String _ t => last_number t | EmptyString => None end.
(** the sorting key; the attribute of None is an AttributeError *)
Definition path_key (x : string) : res Z :=
  match last_number x with Some d => rbind (int_of d) (fun n => Ok (Z.of_nat n)) | None => Err AttributeError end.

(** sorted(paths, key=...) *)
Definition sort_paths {A} (files : list (string * A)) : res (list (string * A)) :=
  rbind (rmap (fun f => rbind (path_key (fst f)) (fun k => Ok (k, f))) files) (fun l =>
  Ok (map snd (isort fst l))).

(** What follows a prefix *)
Fixpoint after (p s : string) : option string :=
  match p, s with
  | EmptyString, _ => Some s
  | String a p', String b s' => if Ascii.eqb a b then after p' s' else None
  | _, EmptyString => None
  end.
Fixpoint ends_with (p s : string) : bool :=
  String.eqb s p || match s with String _ t => ends_with p t | EmptyString => false end.

(** os.path.join(dir, name) of a normalised directory *)
Definition in_dir (dir name : string) : string := (dir ++ "/" ++ name)%string.

Section Files.
  Context {A : Type}.
  (** links_data_to_adimu.py 424-426: the name, anything, and .nodedata at the end *)
  Definition is_node_data (sim name : string) : bool :=
    match after sim name with Some rest => ends_with ".nodedata" rest | None => false end.
  (** 394-440 *)
  Definition collect (sim dir : string) (listing : list (string * A)) : res (list A) :=
    rbind (sort_paths (map (fun f => (in_dir dir (fst f), snd f)) (filter (fun f => is_node_data sim (fst f)) listing)))
      (fun l => Ok (map snd l)).
  (** gen_specimen_data.py 373-375: ^name_tstep_[0-9]+\.csv, not anchored at the
      end *)
  Definition is_time_step (name f : string) : bool :=
    match after (name ++ "_tstep_")%string f with
    | Some rest => negb (String.eqb (take_digits rest) "")
                   && match after ".csv" (skip_digits rest) with Some _ => true | None => false end
    | None => false
    end.
  (** 344-393; [None] is a missing directory *)
  Definition history_paths (name dir : string) (listing : option (list (string * A))) : res (list A) :=
    match listing with
    | None => Err RuntimeError
    | Some l =>
      let paths := map (fun f => (in_dir dir (fst f), snd f)) (filter (fun f => is_time_step name (fst f)) l) in
      if Nat.eqb (List.length paths) 0 then Err RuntimeError
      else rbind (sort_paths paths) (fun l => Ok (map snd l))
    end.
End Files.

Record frame (V : Type) := mkFrame { f_cols : nat; f_rows : list (list V) }.
Arguments mkFrame {V}. Arguments f_cols {V}. Arguments f_rows {V}.

(** Dirichlet boundary conditions *)
Definition zero_sets (n_node : nat) : list (list Z) := repeat [0; 0; 0]%Z n_node.
(** links_data_to_adimu.py 580-617: node labels and degrees of freedom *)
Definition pointwise_sets (n_node : nat) (bcs : list (Z * list Z)) : res (list (list Z)) :=
  rfold (fun m nb =>
    rfold (fun m dof =>
      rbind (py_index n_node (fst nb - 1)) (fun i =>
      rbind (py_index 3 (dof - 1)) (fun j =>
      Ok (upd m i (upd (nth i m []) j 1%Z))))) (snd nb) m) bcs (zero_sets n_node).
(** 663-676: labels of a set, and the next label *)
Definition set_labels (code : list bool) (label : Z) : list Z * Z :=
  fold_left (fun a (v : bool) => if v then (fst a ++ [snd a], (snd a + 1)%Z) else (fst a ++ [0%Z], snd a)) code ([], label).
(** 660-685: sets of nodes (labels and code) *)
Definition node_sets := list (list Z * list bool).
Definition assign_set (a : list (Z * list Z) * Z) (s : list Z * list bool) : res (list (Z * list Z) * Z) :=
  let labels := set_labels (snd s) (snd a) in
  rbind (rfold (fun d node =>
    match gget Z.eqb d node with Some _ => Err RuntimeError | None => Ok (gset Z.eqb d node (fst labels)) end)
    (fst s) (fst a)) (fun d => Ok (d, snd labels)).
(** 618-700, for given sets with codes of three values *)
Definition dirichlet_sets (n_node : nat) (sets : node_sets) : res (list (list Z)) :=
  rbind (rfold assign_set sets ([], 1%Z)) (fun a =>
  rfold (fun m e => rbind (py_index n_node (fst e - 1)) (fun i => Ok (upd m i (snd e)))) (fst a) (zero_sets n_node)).
(** 636-658 *)
Definition zseq (a b : nat) : list Z := map Z.of_nat (seq a (b + 1 - a)).
Definition default_sets : node_sets :=
  [(zseq 21 24 ++ zseq 317 344 ++ zseq 1673 1712, [true; true; true]);
   ([2; 3; 5; 6]%Z ++ zseq 41 44 ++ zseq 81 84 ++ zseq 125 144 ++ zseq 577 616, [true; true; true])].

Inductive loss_type := Pointwise | DirichletSets | OtherLoss.

Section Histories.
  Context {V : Type} (of_int : Z -> V) (to_int : V -> Z) (to32 : V -> V) (d0 : V).

  (** 544-578: one file per time step *)
  Definition hist_columns : list nat := [0; 3; 4; 5; 6; 7; 8; 15; 16; 17].
  Definition hist_name (sim : string) (t : nat) : string := (sim ++ "_tstep_" ++ nat_str t ++ ".csv")%string.
  Definition hist_frame (sets : list (list Z)) (f : frame V) : res (frame V) :=
    if negb (Nat.eqb (f_cols f) 18) then Err RuntimeError
    else if negb (Nat.eqb (List.length (f_rows f)) (List.length sets)) then Err ValueError
    else Ok (mkFrame 13 (map (fun p => map (fun c => nth c (fst p) d0) hist_columns ++ map of_int (snd p))
                             (combine (f_rows f) sets))).
  (** 501-579, with the sets of the specimen as argument *)
  Definition write_history (sim : string) (files : list (frame V)) (bcs : option (list (Z * list Z))) (loss : loss_type)
    (sets : node_sets) : res (list (string * frame V)) :=
    match files with
    | [] => Err IndexError
    | f0 :: _ =>
      let n_node := List.length (f_rows f0) in
      rbind (match loss, bcs with
             | Pointwise, Some b => pointwise_sets n_node b
             | DirichletSets, _ => dirichlet_sets n_node sets
             | _, _ => Ok (zero_sets n_node)
             end) (fun m =>
      rmap (fun tf => rbind (hist_frame m (snd tf)) (fun f => Ok (hist_name sim (fst tf), f)))
           (combine (seq 0 (List.length files)) files))
    end.

  (** 701-750: the last three columns are replaced in every file *)
  Definition update_frame (n_node : nat) (sets : list (list Z)) (f : frame V) : res (frame V) :=
    if negb (Nat.eqb (List.length (f_rows f)) n_node) then Err RuntimeError
    else if negb (Nat.eqb (List.length (f_rows f)) (List.length sets)) then Err ValueError
    else if negb (Nat.eqb (f_cols f) 13) then Err RuntimeError
    else Ok (mkFrame 13 (map (fun p => firstn 10 (fst p) ++ map of_int (snd p)) (combine (f_rows f) sets))).
  Definition update_history (sets : list (list Z)) (files : list (string * frame V)) : res (list (string * frame V)) :=
    match files with
    | [] => Err IndexError
    | (_, f0) :: _ =>
      rmap (fun nf => rbind (update_frame (List.length (f_rows f0)) sets (snd nf)) (fun f => Ok (fst nf, f))) files
    end.

  (** gen_specimen_data.py 394-465 *)
  Definition slice (a n : nat) (r : list V) : list V := firstn n (skipn a r).
  Definition load_frame (n_node : nat) (f : frame V) : res (list (list V)) :=
    if negb (Nat.eqb (List.length (f_rows f)) n_node) then Err RuntimeError
    else if negb (Nat.eqb (f_cols f) 13) then Err RuntimeError
    else Ok (map (map to32) (f_rows f)).
  Record history := mkHistory
    { h_disps : list (list (list V)); h_forces : list (list (list V)); h_dirichlet : list (list (list Z)); h_time : list nat }.
  Definition numerical_data (n_dim n_node : nat) (files : list (frame V)) : res history :=
    rbind (rmap (load_frame n_node) files) (fun data =>
    Ok (mkHistory (map (map (slice 4 n_dim)) data) (map (map (slice 7 n_dim)) data)
                  (map (map (fun r => map to_int (slice 10 n_dim r))) data) (seq 0 (List.length files)))).
End Histories.
