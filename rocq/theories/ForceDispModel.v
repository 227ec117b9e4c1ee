(** Post-processing of Links simulations: force-displacement curves and
    strain-stress paths of Gauss points.

    src/hookeai/simulators/links/utilities/links_plot_force_disp.py 31-186 (the
      script, with its settings as arguments; the written text and the figure are
      not modelled);
    src/hookeai/simulators/links/utilities/links_out_to_dataset.py 42-70
      (build_dataset), 72-149 (extract_sample_path).

    A file is its number of columns and its rows ([None] if it is missing);
    numbers are real numbers. *)
From Coq Require Import Reals String List Bool Arith ZArith.
From Verif Require Import Lib PyDict HistoryModel.
Import ListNotations.
Local Open Scope string_scope.
Local Open Scope list_scope.

(** ** Force-displacement curve *)
(** 84-90: the reactions of a node group in a direction *)
Definition group_reactions (group : R) (dir : nat) (reac : list (list R)) : list R :=
  map (fun r => nth (2 + (dir - 1)) r 0%R) (filter (fun r => if Req_EM_T (nth 0 r 0%R) group then true else false) reac).
(** iloc[i, _] *)
Definition row_at (rows : list (list R)) (i : Z) : res (list R) :=
  let n := Z.of_nat (List.length rows) in
  if ((0 <=? i) && (i <? n))%Z then Ok (nth (Z.to_nat i) rows [])
  else if ((- n <=? i) && (i <? 0))%Z then Ok (nth (Z.to_nat (n + i)) rows [])
  else Err IndexError.
(** 120-141: the displacement of the reference node in a step *)
Definition node_disp (label : Z) (dir : nat) (f : frame R) : res R :=
  let i := (label - 1)%Z in
  if negb (Nat.eqb (f_cols f) 18) then Err RuntimeError
  else if (Z.of_nat (List.length (f_rows f)) <? i)%Z then Err RuntimeError
  else rbind (row_at (f_rows f) i) (fun r => Ok (nth (6 + (dir - 1)) r 0%R)).
(** data_array[:, j] = values: one value per row, or a single value for all *)
Definition set_column (n : nat) (values : list R) : res (list R) :=
  if Nat.eqb (List.length values) n then Ok values
  else match values with [v] => Ok (repeat v n) | _ => Err ValueError end.
(** 31-157; the reactions and the node data directory, if found *)
Definition force_disp (sim dir_path : string) (disp_mult reac_mult group : R) (dir : nat) (label : Z)
  (reac : option (list (list R))) (nodes : option (list (string * frame R))) : res (list (R * R)) :=
  match reac, nodes with
  | None, _ | _, None => Err RuntimeError
  | Some reac, Some listing =>
    let forces := group_reactions group dir reac in
    rbind (collect sim dir_path listing) (fun files =>
    match files with
    | [] => Err RuntimeError
    | _ =>
      rbind (rmap (node_disp label dir) files) (fun disps =>
      rbind (set_column (List.length files) forces) (fun forces =>
      Ok (combine (map (fun u => (u * disp_mult)%R) disps) (map (fun f => (f * reac_mult)%R) forces))))
    end)
  end.

(** ** Gauss point paths *)
(** 96-106; None in two dimensions *)
Definition out_comps (n_dim : nat) : option (list (nat * nat)) :=
  if Nat.eqb n_dim 2 then None else Some [(1, 1); (2, 2); (3, 3); (1, 2); (2, 3); (1, 3)].
Definition out_strain_index (n_dim : nat) : nat := if Nat.eqb n_dim 2 then 49 else 53.
Record out_path := mkOutPath { op_comps : list (nat * nat); op_strain : list (list R); op_stress : list (list R); op_time : list R }.
(** a column of the array *)
Definition column (f : frame R) (j : nat) : res (list R) :=
  if Nat.ltb j (f_cols f) then Ok (map (fun r => nth j r 0%R) (f_rows f)) else Err IndexError.
Definition voigt_factor (c : nat * nat) : R := if Nat.eqb (fst c) (snd c) then 1%R else (/ 2)%R.
(** the array whose columns are given *)
Definition of_columns (n : nat) (cols : list (list R)) : list (list R) :=
  map (fun t => map (fun c => nth t c 0%R) cols) (seq 0 n).
(** 72-149 *)
Definition extract_path (n_dim : nat) (file : option (frame R)) : res out_path :=
  match file with
  | None => Err RuntimeError
  | Some f =>
    match out_comps n_dim with
    | None => Err TypeError
    | Some comps =>
      rbind (column f 0) (fun time =>
      rbind (rmap (fun ic => rbind (column f (out_strain_index n_dim + fst ic)) (fun c =>
                             Ok (map (fun x => (voigt_factor (snd ic) * x)%R) c)))
                  (combine (seq 0 (List.length comps)) comps)) (fun strain =>
      rbind (rmap (fun ic => column f (11 + fst ic)) (combine (seq 0 (List.length comps)) comps)) (fun stress =>
      Ok (mkOutPath comps (of_columns (List.length time) strain) (of_columns (List.length time) stress) time))))
    end
  end.
(** 42-70 *)
Definition build_out_dataset (n_dim : nat) (files : list (option (frame R))) : res (list out_path) := rmap (extract_path n_dim) files.
