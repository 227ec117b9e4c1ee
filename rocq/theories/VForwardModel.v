(** Vectorised forward propagation of the material model finder:
    src/hookeai/material_model_finder/model/material_discovery.py 1674-2632 and
    3344-3572, get_batched_mesh_configuration_hist of
    src/hookeai/material_model_finder/data/specimen_data.py.

    torch.vmap over elements, Gauss points and times is a map over lists.  A
    constitutive model is any function of the rows of input features (tuple
    outputs: the first entry, features_out_extractor 3415-3444).  Data scalers
    act on rows and are any functions; [None] is a model that is not
    normalised.  Gradients, devices, plots and the files of local paths are not
    modelled; NaNs do not exist here (a singular Jacobian is an error). *)
From Coq Require Import Reals List Arith ZArith Bool.
From Verif Require Import Lib MatrixModel TensorModel ElementModel QuadratureModel GradientModel
  MeshModel ScalerModel LossModel ForwardModel.
Import ListNotations.
Local Open Scope R_scope.

(** 3383-3411, 1645-1672: vstore_tensor_comps, store_tensor_comps. *)
Definition vstore_tensor_comps (order : list comp) (t : T2) : list R :=
  map (fun c => t (row c) (col c)) order.

(** 3344-3380: vbuild_tensor_from_comps; a component that is not listed is a
    ValueError, an array that is too short an IndexError. *)
Definition vbuild_tensor_from_comps (n : nat) (order : list comp) (arr : list R) : res T2 :=
  if negb (sym_index_total n order) then Err ValueError
  else if Nat.ltb (length arr) (length order) then Err IndexError
  else Ok (fun i j => match sym_index i j order with Some m => nth m arr 0 | None => 0 end).

(** 1362-1445: recurrent_material_state_update of the sequential mode: strain
    and stress in matricial form per time. *)
Definition recurrent_row (n_dim : nat) (order : list comp) (ab : list R * list R)
  : res (list R * list R) :=
  rbind (vbuild_tensor_from_comps n_dim order (firstn (length order) (fst ab))) (fun strain =>
  rbind (vget_tensor_mf2 strain n_dim order true) (fun strain_mf =>
  rbind (vbuild_tensor_from_comps n_dim order (firstn (length order) (snd ab))) (fun stress =>
  rbind (vget_tensor_mf2 stress n_dim order true) (fun stress_mf => Ok (strain_mf, stress_mf))))).
Definition recurrent_material_state_update (cm : list (list R) -> list (list R)) (n_dim : nat)
  (order : list comp) (strains : list T2) : res (list (list R * list R)) :=
  let features_in := map (vstore_tensor_comps order) strains in
  let features_out := cm features_in in
  if Nat.ltb (length features_out) (length features_in) then Err IndexError
  else mapM (recurrent_row n_dim order) (combine features_in features_out).

(** The material of the sequential mode; an error of the update leaves no
    states. *)
Definition recurrent_material (cm : list (list R) -> list (list R)) (n_dim : nat) (order : list comp)
  : material (list R * list R) :=
  Recurrent (list R * list R) (fun strains =>
    match recurrent_material_state_update cm n_dim order strains with Ok l => l | Err _ => [] end).

Definition apply_rows (f : option (list R -> list R)) (rows : list (list R)) : list (list R) :=
  match f with None => rows | Some f => map f rows end.

(** 2460-2528: vrecurrent_material_state_update. *)
Definition vrecurrent_material_state_update (cm : list (list R) -> list (list R))
  (norm_in denorm_out : option (list R -> list R)) (order : list comp) (strains : list T2)
  : res (list (list R)) :=
  match strains with
  | [] => Err RuntimeError
  | _ =>
      let features_in := apply_rows norm_in (map (vstore_tensor_comps order) strains) in
      let features_out := apply_rows denorm_out (cm features_in) in
      if negb (Nat.eqb (length features_out) (length features_in)) then Err RuntimeError
      else Ok (map (fun ab => firstn (length order) (fst ab) ++ firstn (length order) (snd ab))
                   (combine features_in features_out))
  end.

(** Product of a projection and an operator of [cols] columns. *)
Definition proj_mul (P : list (list R)) (B : T2) : T2 :=
  fun i k => rsum (length P) (fun j => nth j (nth i P []) 0 * B j k).

(** 2136-2175: vcompute_local_vol_sym_gradient (projection with n_dim=3). *)
Definition vcompute_local_vol_sym_gradient (B : T2) (n_dim : nat) : T2 :=
  if Nat.eqb n_dim 2 then vreduce_grad_operator (proj_mul (vol_proj_vmf 3 order_sym_3d) (vexpand_grad_operator B))
  else proj_mul (vol_proj_vmf 3 order_sym_3d) B.
(** 2419-2458: vcompute_local_dev_sym_gradient (projection with n_dim). *)
Definition vcompute_local_dev_sym_gradient (B : T2) (n_dim : nat) : T2 :=
  if Nat.eqb n_dim 2 then vreduce_grad_operator (proj_mul (dev_proj_vmf n_dim order_sym_3d) (vexpand_grad_operator B))
  else proj_mul (dev_proj_vmf n_dim order_sym_3d) B.

(** 2092-2134: vcompute_local_gradient (symmetric). *)
Definition vcompute_local_gradient (el : element) (X : T2) (c : list R) (order : list comp)
  : res (R * T2) :=
  rbind (eval_shapefun_deriv el X c) (fun r =>
  rbind (vbuild_discrete_sym_gradient (fst (fst r)) (el_n_node el) (el_n_dim el) order) (fun B =>
  Ok (snd r, B))).

(** 2015-2090: one Gauss point's share of the volumetric operator and of the
    volume, per time. *)
Definition vcompute_local_vol_grad_operator_hist (sf : strain_formulation) (n_dim : nat)
  (order : list comp) (el : element) (cw : list R * R) (coords_hist : list T2) : res (list (T2 * R)) :=
  match sf with
  | Finite => Err RuntimeError
  | Infinitesimal =>
      rbind (mapM (fun X => vcompute_local_gradient el X (fst cw) order) coords_hist) (fun g =>
      Ok (map (fun dB => ((fun i k => snd cw * (vcompute_local_vol_sym_gradient (snd dB) n_dim i k * fst dB)),
                          snd cw * fst dB)) g))
  end.

(** 1952-2013: vcompute_element_vol_grad_hist: sums over the Gauss points. *)
Definition vcompute_element_vol_grad_hist (sf : strain_formulation) (problem_type : nat)
  (el : element) (gps : rule) (coords_hist : list T2) : res (list T2) :=
  rbind (get_problem_type_parameters problem_type) (fun p =>
  let '(n_dim, order, _) := p in
  rbind (mapM (fun cw => vcompute_local_vol_grad_operator_hist sf n_dim order el cw coords_hist) gps) (fun g =>
  Ok (map (fun t i k => 1 / lsum (map (fun l => snd (nth t l (zero2, 0))) g)
                        * lsum (map (fun l => fst (nth t l (zero2, 0)) i k) g))
          (seq 0 (length coords_hist))))).

(** 2298-2351: vcompute_local_strain: strain, Jacobian determinant, operator. *)
Definition vcompute_local_strain (n_dim : nat) (order : list comp) (el : element) (c : list R)
  (X u : T2) : res (T2 * R * T2) :=
  rbind (vcompute_local_gradient el X c order) (fun g =>
  rbind (vget_strain_from_vmf
      (compute_infinitesimal_strain (snd g) (length order) (el_n_node el) (el_n_dim el) u) n_dim order)
    (fun e => Ok (e, fst g, snd g))).

(** 2353-2417: vcompute_local_strain_vbar. *)
Definition vbar_operator (avg B : T2) (n_dim : nat) : T2 :=
  fun i k => avg i k + vcompute_local_dev_sym_gradient B n_dim i k.
Definition vcompute_local_strain_vbar (n_dim : nat) (order : list comp) (el : element) (c : list R)
  (X u avg : T2) : res (T2 * T2) :=
  rbind (vcompute_local_gradient el X c order) (fun g =>
  let B := vbar_operator avg (snd g) n_dim in
  rbind (vget_strain_from_vmf
      (compute_infinitesimal_strain B (length order) (el_n_node el) (el_n_dim el) u) n_dim order)
    (fun e => Ok (e, B))).

(** 2556-2563: vcompute_local_internal_forces. *)
Definition vcompute_local_internal_forces (n_comps : nat) (stress_vmf : list R) (B : T2) (detJ w : R)
  : nat -> R :=
  fun k => w * rsum n_comps (fun c => B c k * nth c stress_vmf 0) * detJ.

(** 2267-2279: columns n, ..., 2n - 1 of the state history. *)
Definition stress_columns (n : nat) (row : list R) : res (list R) :=
  if Nat.ltb (length row) (2 * n) then Err IndexError else Ok (firstn n (skipn n row)).

Section Mesh.
  Variable cm : list (list R) -> list (list R).
  Variables norm_in denorm_out : option (list R -> list R).

  (** 2177-2296: vcompute_local_internal_forces_hist: forces per time and state
      history of one Gauss point; [avg] is the averaged volumetric operator. *)
  Definition vcompute_local_internal_forces_hist (sf : strain_formulation) (n_dim : nat)
    (order : list comp) (el : element) (cw : list R * R) (hist : list (T2 * T2))
    (is_volumetric_bar : bool) (avg : option (list T2)) : res (list (nat -> R) * list (list R)) :=
    match sf with
    | Finite => Err RuntimeError
    | Infinitesimal =>
    rbind (mapM (fun h => vcompute_local_strain n_dim order el (fst cw) (fst h) (snd h)) hist) (fun g =>
    rbind (if is_volumetric_bar then
             match avg with
             | None => Err RuntimeError
             | Some avg => mapM (fun ha => vcompute_local_strain_vbar n_dim order el (fst cw)
                             (fst (fst ha)) (snd (fst ha)) (snd ha)) (combine hist avg)
             end
           else Ok (map (fun r => (fst (fst r), snd r)) g)) (fun strains =>
    rbind (vrecurrent_material_state_update cm norm_in denorm_out order (map fst strains)) (fun states =>
    rbind (mapM (stress_columns (length order)) states) (fun stresses =>
    Ok (map (fun q => vcompute_local_internal_forces (length order) (fst q) (snd (fst (snd q)))
                        (snd (snd q)) (snd cw))
            (combine stresses (combine strains (map (fun r => snd (fst r)) g))), states)))))
    end.

  (** 1876-1950: vcompute_element_internal_forces_hist; the code sets
      is_volumetric_bar to False (1917-1919). *)
  Definition vcompute_element_internal_forces_hist (is_volumetric_bar : bool)
    (sf : strain_formulation) (problem_type : nat) (el : element) (gps : rule) (hist : list (T2 * T2))
    : res (list (nat -> R) * list (list (list R))) :=
    rbind (get_problem_type_parameters problem_type) (fun p =>
    let '(n_dim, order, _) := p in
    rbind (match sf, is_volumetric_bar with
           | Infinitesimal, true =>
               rbind (vcompute_element_vol_grad_hist sf problem_type el gps (map fst hist)) (fun a => Ok (Some a))
           | _, _ => Ok None
           end) (fun avg =>
    rbind (mapM (fun cw => vcompute_local_internal_forces_hist sf n_dim order el cw hist
                             is_volumetric_bar avg) gps) (fun g =>
    Ok (map (fun t k => lsum (map (fun r => nth t (fst r) (fun _ => 0) k) g)) (seq 0 (length hist)),
        map snd g)))).

  Variable conn : list (list Z).
  Variable n_node : nat.
  Variable coords_init : list (list R).
  Variable disps : nat -> list (list R).
  Variable reaction : nat -> T2.
  Variable bc : nat -> labels.
  Variable norm : option (list R * list R).
  Variable weights : nat -> R.

  (** specimen_data.py 224-302: coordinates and displacements of an element at
      time [t]. *)
  Definition batched_config (sf : strain_formulation) (nodes : list Z) (t : nat) : res (T2 * T2) :=
    rbind (gather_rows (disps t) nodes) (fun u =>
    rbind (gather_rows (match sf with Infinitesimal => coords_init | Finite => add_rows coords_init (disps t) end) nodes)
      (fun X => Ok (rows_fun X, rows_fun u))).

  (** 1814-1874: vcompute_elements_internal_forces_hist over the elements. *)
  Definition vcompute_elements_internal_forces_hist (sf : strain_formulation) (problem_type n_time : nat)
    (el : element) (gps : rule) : res (list (list (nat -> R) * list (list (list R)))) :=
    mapM (fun nodes =>
      rbind (mapM (batched_config sf nodes) (seq 0 n_time)) (fun hist =>
      vcompute_element_internal_forces_hist false sf problem_type el gps hist)) conn.

  (** 1674-1812: vforward_sequential_element: the loss and the state history of
      every Gauss point of every element. [n_types] and [n_mats] count the
      element types and the materials of the mesh. *)
  Definition vforward_sequential_element (lt : loss_type) (n_types n_mats : nat)
    (sf : strain_formulation) (problem_type n_time : nat) (el : element) (gps : rule)
    : res (R * list (list (list (list R)))) :=
    if Nat.ltb 1 n_types then Err RuntimeError
    else rbind (build_elements_mesh_indexing conn (el_n_dim el)) (fun idx =>
    if Nat.ltb 1 n_mats then Err RuntimeError
    else rbind (get_problem_type_parameters problem_type) (fun p =>
    let n_dim := fst (fst p) in
    rbind (vcompute_elements_internal_forces_hist sf problem_type n_time el gps) (fun g =>
    let forces t := map (fun r => map (nth t (fst r) (fun _ => 0))
                                      (seq 0 (el_n_node el * el_n_dim el))) g in
    let mesh t := vassemble_internal_forces (forces t) idx n_node n_dim in
    rbind (vforce_equilibrium_hist_loss lt norm n_node n_dim n_time weights
             (fun t => mesh_fun n_dim (mesh t)) (fun _ _ _ => 0) reaction bc) (fun v =>
    Ok (v, map snd g))))).
End Mesh.
