(** Denoising of the displacements stored in the files of a specimen history.

    src/hookeai/miscellaneous/noisy_data/denoise_disp_noise_csv.py 39-178.

    The data directory is that of NoiseModel (files by name; columns 4 to 6 of a
    frame are the displacements), the number of a time step file is an argument,
    and the denoiser is that of DenoiseModel (moving averages and Savitzky-Golay
    filters). Of the figure only the node that it shows is modelled. *)
From Coq Require Import String Reals List Bool Arith ZArith.
From Verif Require Import Lib PyDict HybridModel NoiseModel DenoiseModel.
Import ListNotations.
Local Open Scope list_scope.

(** Times by features to features by times, and back *)
Definition columns (hist : list (list R)) : list (list R) := map (fun c => map (fun r => nth c r 0%R) hist) (seq 0 3).
Definition rows (n_time : nat) (cols : list (list R)) : list (list R) := map (fun t => map (fun c => nth t c 0%R) cols) (seq 0 n_time).
(** 141: null initial displacement *)
Definition null_first (hist : list (list R)) : list (list R) := match hist with [] => [] | r :: t => map (fun _ => 0%R) r :: t end.
(** 130-144 for one node *)
Definition denoise_node (m : method) (n_cycle : nat) (hist : list (list R)) : res (list (list R)) :=
  rbind (denoise m n_cycle (columns hist)) (fun cols => Ok (null_first (rows (length hist) cols))).

(** 101-121: the frames of the time steps, ten columns each *)
Definition load_frame (files : dict frame) (x : string) : res frame :=
  match dget files x with
  | None => Err RuntimeError
  | Some d => if negb (Nat.eqb (fr_cols d) 10) then Err RuntimeError else Ok d
  end.
(** 123: np.stack *)
Definition stackable (frames : list frame) : bool :=
  match frames with [] => false | d :: rest => forallb (fun e => Nat.eqb (length (fr_rows e)) (length (fr_rows d))) rest end.
Definition node_hist (frames : list frame) (j : nat) : list (list R) := map (fun d => disps (nth j (fr_rows d) [])) frames.
(** 128-168 *)
Definition denoised_frame (d : frame) (t : nat) (hists : list (list (list R))) : frame :=
  Frame (fr_cols d) (map (fun p => set_disps (fst p) (nth t (snd p) [])) (combine (fr_rows d) hists)).
Definition denoised_files (m : method) (n_cycle : nat) (files : dict frame) (names : list string) : res (dict frame) :=
  rbind (rmap (load_frame files) names) (fun frames =>
  if negb (stackable frames) then Err ValueError
  else
    let n_node := match frames with [] => 0 | d :: _ => length (fr_rows d) end in
    rbind (rmap (fun j => denoise_node m n_cycle (node_hist frames j)) (seq 0 n_node)) (fun hists =>
    Ok (map (fun p => (fst p, denoised_frame (snd (snd p)) (fst (snd p)) hists)) (combine names (combine (seq 0 (length frames)) frames))))).

(** The parameters: denoise_method with denoiser_parameters, n_denoise_cycle and denoise_dirname *)
Record denoise_params := DenoiseParams { dp_method : option method; dp_cycles : option nat; dp_dirname : option string }.
(** 39-168: the files left in the data directory, and those of the new directory
    or the error (make_directory as in NoiseModel.inject) *)
Definition denoise_csv (tstep : string -> option nat) (dir : directory) (p : denoise_params) : directory * res (dict frame) :=
  match dir with
  | None => (dir, Err RuntimeError)
  | Some files =>
    match dp_method p, dp_cycles p, dp_dirname p with
    | Some m, Some n, Some name =>
      let files' := if (String.eqb name "" || String.eqb name ".")%bool then [] else files in
      (Some files', denoised_files m n files' (step_files tstep (dkeys files')))
    | _, _, _ => (dir, Err KeyError)
    end
  end.
(** 170-182: the node of the figure *)
Definition plotted_node (n_node : nat) (node_id : Z) : res nat :=
  let i := (node_id - 1)%Z in
  if ((0 <=? i) && (i <? Z.of_nat n_node))%Z then Ok (Z.to_nat i)
  else if ((i <? 0) && (- Z.of_nat n_node <=? i))%Z then Ok (Z.to_nat (i + Z.of_nat n_node)) else Err IndexError.
