(** Generation of random material patches and the data set of their local
    strain-stress paths.

    src/hookeai/user_scripts/synthetic_data/gen_random_specimen.py
      59-221 (generate_random_patches), 223-276 (set_material_patch_dir),
      569-660 (perform_links_simulation: the name of the simulation);
    src/hookeai/user_scripts/synthetic_data/build_local_paths_dataset.py
      62-112 (build_local_paths_dataset), 114-164 (compute_patch_local_paths),
      166-217 (get_patch_analysis_dirs), 218-256 (gen_patch_formatted_data),
      344-410 (gen_patch_data);
    src/hookeai/simulators/links/utilities/links_nodedata_to_csv.py 25-106
      (links_node_output_to_csv).

    A directory of patches is a dictionary from names to patch directories; a
    patch directory holds the stored patch (material_patch.pkl), if any, and its
    directory 'simulations', if any: a dictionary from the names of simulations
    to the input file and the files of NODE_DATA. The generation of a patch, the
    simulation and the computation of the local paths of a specimen from its
    input file and history are arguments. Names are taken literally in the
    regular expressions. Plots and the copies of files between directories are
    not modelled. *)
From Coq Require Import String Ascii List Bool Arith ZArith.
From Verif Require Import Lib PyStr PyDict HistoryModel.
Import ListNotations.
Local Open Scope string_scope.
Local Open Scope list_scope.

Section Patches.
  Context {P D V A : Type}.
  Definition sim_out : Type := D * list (string * frame V).
  Record patch_dir := mkPatchDir { pd_patch : option P; pd_sims : option (list (string * sim_out)) }.
  Definition patches : Type := list (string * patch_dir).

  (** ** Generation *)
  (** gen_random_specimen.py 108-111 *)
  Definition patch_dir_name (name : string) (n i : nat) : string :=
    if Nat.ltb 1 n then (name ++ "_" ++ nat_str i)%string else name.
  (** 638-642: the name of the simulation is a literal *)
  Definition written_name : string := "random_specimen".
  Variable make : nat -> P.
  Variable simulate : P -> res sim_out.
  (** 101-210, one patch. Loading keeps the directory and its stored patch, a
      missing one is refused; otherwise the directory starts empty. The
      directory of simulations always starts empty (263-267). *)
  Definition gen_patch (name : string) (n : nat) (load save : bool) (i : nat) (dirs : patches) : res (patches * sim_out) :=
    let dir := patch_dir_name name n i in
    let stored := if load then match gget String.eqb dirs dir with Some e => pd_patch e | None => None end else None in
    rbind (if load then match stored with Some p => Ok p | None => Err RuntimeError end else Ok (make i)) (fun p =>
    rbind (simulate p) (fun out =>
    Ok (gset String.eqb dirs dir (mkPatchDir (if save then Some p else stored) (Some [(written_name, out)])), out))).
  Fixpoint gen_loop (name : string) (n : nat) (load save : bool) (is : list nat) (dirs : patches) : res (patches * list sim_out) :=
    match is with
    | [] => Ok (dirs, [])
    | i :: t =>
      rbind (gen_patch name n load save i dirs) (fun r =>
      rbind (gen_loop name n load save t (fst r)) (fun r2 => Ok (fst r2, snd r :: snd r2)))
    end.
  (** 59-221; [None] is a missing base directory (246-249) *)
  Definition generate (name : string) (n : nat) (load save : bool) (dirs : option patches) : res (patches * list sim_out) :=
    match dirs with
    | None => match n with O => Ok ([], []) | S _ => Err RuntimeError end
    | Some dirs => gen_loop name n load save (seq 0 n) dirs
    end.

  (** ** Node data files *)
  Variable d0 : V.
  (** links_nodedata_to_csv.py 77-97. [extra] are the columns added to the ten of
      the simulation: none in the code. *)
  Definition csv_columns : list nat := [0; 3; 4; 5; 6; 7; 8; 15; 16; 17].
  Definition csv_frame (extra : list V) (f : frame V) : res (frame V) :=
    if negb (Nat.eqb (f_cols f) 18) then Err RuntimeError
    else Ok (mkFrame (10 + List.length extra) (map (fun r => map (fun c => nth c r d0) csv_columns ++ extra) (f_rows f))).
  (** 25-106: the steps are numbered again from zero; the name is that of the
      output directory without extension (42) *)
  Definition node_csv (extra : list V) (dir_name dir : string) (listing : list (string * frame V)) : res (list (string * frame V)) :=
    let sim := splitext_root dir_name in
    rbind (collect sim dir listing) (fun files =>
    rmap (fun tf => rbind (csv_frame extra (snd tf)) (fun f => Ok (hist_name sim (fst tf), f)))
         (combine (seq 0 (List.length files)) files)).

  (** ** Data set *)
  (** build_local_paths_dataset.py 199-200: ^name_([0-9]+)$ *)
  Definition is_patch_dir (name d : string) : bool :=
    match after (name ++ "_")%string d with
    | Some rest => negb (String.eqb rest "") && all_digits rest
    | None => false
    end.
  (** 166-217 *)
  Definition analysis_dirs (name dir : string) (dirs : option patches) : res (list patch_dir) :=
    match dirs with
    | None | Some [] => Err RuntimeError
    | Some l =>
      let found := map (fun f => (in_dir dir (fst f), snd f)) (filter (fun f => is_patch_dir name (fst f)) l) in
      if Nat.eqb (List.length found) 0 then Err RuntimeError
      else rbind (sort_paths found) (fun l => Ok (map snd l))
    end.
  Variable to_int : V -> Z.
  Variable to32 : V -> V.
  Variable n_dim : nat.
  Variable n_node : D -> nat.
  Variable local_paths : D -> history (V := V) -> res (list A).
  (** 218-256, 344-410 and the reader of the histories (gen_specimen_data.py
      344-465); a missing input file or output directory is refused *)
  Definition patch_samples (extra : list V) (name dir : string) (e : patch_dir) : res (list A) :=
    match pd_sims e with
    | None => Err RuntimeError
    | Some sims =>
      match gget String.eqb sims name with
      | None => Err RuntimeError
      | Some (d, nodes) =>
        rbind (node_csv extra name dir nodes) (fun files =>
        rbind (history_paths name dir (Some files)) (fun frames =>
        rbind (numerical_data to_int to32 n_dim (n_node d) frames) (local_paths d)))
      end
    end.
  (** 62-112 *)
  Definition build (extra : list V) (name dir : string) (dirs : option patches) : res (list A) :=
    rbind (analysis_dirs name dir dirs) (fun l =>
    rbind (rmap (patch_samples extra name dir) l) (fun s => Ok (concat s))).
End Patches.
Arguments patch_dir : clear implicits.
Arguments sim_out : clear implicits.
Arguments patches : clear implicits.
Arguments mkPatchDir {P D V}.
