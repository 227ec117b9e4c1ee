(** Local strain-stress paths of the material model finder:
    build_element_local_samples and build_elements_local_samples of
    src/hookeai/material_model_finder/model/material_discovery.py (1513-1610,
    3077-3149) and the selection of elements in both forward modes (1043-1050,
    1125-1131, 1790-1799).

    A path is its arrays of rows; the components order is that of the problem
    type.  A sequence of states is a list over times of the Gauss points'
    states in the order of their labels '1', '2', ...; a missing label is a
    KeyError.  Element labels of the selection are integers (both modes accept
    them; [None] is a selection that is not a list: all elements).  Devices and
    the data set file are not modelled here. *)
From Coq Require Import Reals List Arith ZArith Bool.
From Verif Require Import Lib MatrixModel TensorModel ElementModel QuadratureModel GradientModel MeshModel
  ScalerModel LossModel ForwardModel VForwardModel.
Import ListNotations.
Local Open Scope R_scope.

Record path := Path {
  strain_comps_order : list comp;
  strain_path : list (list R);
  stress_comps_order : list comp;
  stress_path : list (list R);
  path_times : list (list R) }.

(** 1561-1588: the rows of one Gauss point at one time; [st] is (strain_mf,
    stress_mf). *)
Definition local_row (n_dim : nat) (order : list comp) (st : list R * list R) : res (list R * list R) :=
  rbind (vget_tensor_from_mf2 (fst st) n_dim order true) (fun strain =>
  rbind (vget_tensor_from_mf2 (snd st) n_dim order true) (fun stress =>
  Ok (vstore_tensor_comps order strain, vstore_tensor_comps order stress))).
Definition local_row_at (n_dim : nat) (order : list comp) (hist : list (list (list R * list R)))
  (i time_idx : nat) : res (list R * list R) :=
  match nth_error hist time_idx with
  | None => Err IndexError
  | Some states => match nth_error states i with
                   | None => Err KeyError
                   | Some st => local_row n_dim order st
                   end
  end.

(** 1513-1610: build_element_local_samples. *)
Definition build_element_local_samples (sf : strain_formulation) (problem_type n_gauss : nat)
  (time_hist : list R) (hist : list (list (list R * list R))) : res (list path) :=
  rbind (get_problem_type_parameters problem_type) (fun p =>
  let '(n_dim, order, _) := p in
  match sf with
  | Finite => Err RuntimeError
  | Infinitesimal =>
      mapM (fun i => rbind (mapM (local_row_at n_dim order hist i) (seq 0 (length time_hist))) (fun rows =>
        Ok (Path order (map fst rows) order (map snd rows) (map (fun t => [t]) time_hist))))
        (seq 0 n_gauss)
  end).

(** 1043-1050, 1125-1131: the loop over elements of the sequential mode. *)
Definition selected (sel : option (list Z)) (elem_id : nat) : bool :=
  match sel with None => true | Some l => existsb (Z.eqb (Z.of_nat elem_id)) l end.
Definition sequential_local_samples (sf : strain_formulation) (problem_type : nat) (sel : option (list Z))
  (time_hist : list R) (elements : list (nat * list (list (list R * list R)))) : res (list path) :=
  rbind (mapM (fun ie =>
    if selected sel (S (fst ie))
    then build_element_local_samples sf problem_type (fst (snd ie)) time_hist (snd (snd ie))
    else Ok []) (combine (seq 0 (length elements)) elements)) (fun l => Ok (concat l)).

(** Indexing with an integer: negative indices count from the end. *)
Definition py_index {A} (l : list A) (z : Z) : res A :=
  let z := (if z <? 0 then z + Z.of_nat (length l) else z)%Z in
  if (z <? 0)%Z then Err IndexError
  else match nth_error l (Z.to_nat z) with Some x => Ok x | None => Err IndexError end.

(** 3077-3149: build_elements_local_samples; [hist] is the tensor of shape
    (n_elem, n_gauss, n_time, components). *)
Definition build_elements_local_samples (sf : strain_formulation) (problem_type : nat) (sel : option (list Z))
  (time_hist : list R) (hist : list (list (list (list R)))) : res (list path) :=
  rbind (get_problem_type_parameters problem_type) (fun p =>
  let '(_, order, _) := p in
  match sf with
  | Finite => Err RuntimeError
  | Infinitesimal =>
      let k := length order in
      let idxs := match sel with
                  | Some l => map (fun x => x - 1)%Z l
                  | None => map Z.of_nat (seq 0 (length hist))
                  end in
      rbind (mapM (py_index hist) idxs) (fun els =>
      Ok (flat_map (fun gauss => map (fun rows =>
            Path order (map (firstn k) rows) order (map (fun r => firstn k (skipn k r)) rows)
                 (map (fun t => [t]) time_hist)) gauss) els))
  end).
