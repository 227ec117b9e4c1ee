(** Sequential forward modes of the material model finder:
    src/hookeai/material_model_finder/model/material_discovery.py and
    update_specimen_mesh_configuration of
    src/hookeai/material_model_finder/data/specimen_data.py.

    Nodal arrays are lists of rows.  A material is a standard constitutive model
    (state update per time step, any function) or a recurrent one (any function
    of the whole strain history); the Gauss point states of a recurrent element
    are None (structure_state.py:373-374).  Deep copies of states make them
    plain values.  Storage of local paths, devices and dtype not modelled. *)
From Coq Require Import Reals List Arith ZArith Bool.
From Verif Require Import Lib MatrixModel TensorModel ElementModel QuadratureModel GradientModel
  MeshModel ScalerModel LossModel.
Import ListNotations.
Local Open Scope R_scope.

Fixpoint mapM {A B} (f : A -> res B) (l : list A) : res (list B) :=
  match l with
  | [] => Ok []
  | x :: t => rbind (f x) (fun y => rbind (mapM f t) (fun ys => Ok (y :: ys)))
  end.

(** A nodal array of an element as an index function. *)
Definition rows_fun (rows : list (list R)) : T2 := fun a d => nth d (nth a rows []) 0.

Definition sub_rows (a b : list (list R)) : list (list R) :=
  map (fun p => map (fun q => fst q - snd q) (combine (fst p) (snd p))) (combine a b).
Definition add_rows (a b : list (list R)) : list (list R) :=
  map (fun p => map (fun q => fst q + snd q) (combine (fst p) (snd p))) (combine a b).

(** specimen_data.py:186-222 with structure_mesh.py:346-381: the displacements
    stored as last converged and current, and the current coordinates. *)
Definition time_idx_old (t : nat) : nat := Nat.max 0 (t - 1).
Definition config_coords (sf : strain_formulation) (coords_init coords : list (list R))
  (disps : nat -> list (list R)) (t : nat) : list (list R) :=
  match sf with Infinitesimal => coords | Finite => add_rows coords_init (disps t) end.

Section Forward.
  Variable state : Type.
  Variable stress_mf : state -> list R.

  Inductive material :=
  | Standard (su : T2 -> state -> state)
  | Recurrent (rsu : list T2 -> list state).

  (** An element: type, quadrature rule, material. *)
  Record felem := { fe_el : element; fe_rule : rule; fe_mat : material }.

  (** 1276-1302: operator and (incremental) strain at one Gauss point and time. *)
  Definition gp_strain (n_dim : nat) (order : list comp) (el : element) (c : list R)
    (X u : T2) : res T2 :=
    rbind (eval_shapefun_deriv el X c) (fun r =>
    rbind (vbuild_discrete_sym_gradient (fst (fst r)) (el_n_node el) (el_n_dim el) order) (fun B =>
    vget_strain_from_vmf
      (compute_infinitesimal_strain B (length order) (el_n_node el) (el_n_dim el) u) n_dim order)).

  (** 1319-1331: state update loop of a standard model. *)
  Fixpoint su_loop (su : T2 -> state -> state) (st : state) (strains : list T2) : list state :=
    match strains with
    | [] => []
    | e :: t => let st' := su e st in st' :: su_loop su st' t
    end.

  (** 1336-1358: contribution of one Gauss point at one time. *)
  Definition gp_force (n_dim : nat) (order : list comp) (el : element) (cw : list R * R)
    (Xst : T2 * state) : res (nat -> R) :=
    rbind (vget_tensor_from_mf2 (stress_mf (snd Xst)) n_dim order true) (fun stress =>
    rbind (vget_stress_vmf stress n_dim order) (fun stress_vmf =>
    rbind (eval_shapefun_deriv el (fst Xst) (fst cw)) (fun r =>
    rbind (vbuild_discrete_sym_gradient (fst (fst r)) (el_n_node el) (el_n_dim el) order) (fun B =>
    Ok (fun k => snd cw * rsum (length order) (fun c => B c k * nth c stress_vmf 0) * snd r))))).

  (** 1251-1358: one Gauss point over the whole history; [hist] lists
      (coordinates, displacements, incremental displacements) per time. *)
  Definition gp_hist (sf : strain_formulation) (n_dim : nat) (order : list comp) (fe : felem)
    (cw : list R * R) (st0 : option state) (hist : list (T2 * T2 * T2))
    : res (list (nat -> R) * list state) :=
    match sf with
    | Finite => Err RuntimeError
    | Infinitesimal =>
    rbind (match fe_mat fe with
           | Standard su =>
               match st0 with
               | None => Err KeyError
               | Some st =>
                   rbind (mapM (fun h => gp_strain n_dim order (fe_el fe) (fst cw) (fst (fst h)) (snd h)) hist)
                         (fun strains => Ok (su_loop su st strains))
               end
           | Recurrent rsu =>
               rbind (mapM (fun h => gp_strain n_dim order (fe_el fe) (fst cw) (fst (fst h)) (snd (fst h))) hist)
                     (fun strains => Ok (rsu strains))
           end) (fun states =>
    rbind (mapM (gp_force n_dim order (fe_el fe) cw) (combine (map (fun h => fst (fst h)) hist) states))
          (fun contribs => Ok (contribs, states)))
    end.

  Definition add_forces (accs contribs : list (nat -> R)) : list (nat -> R) :=
    map (fun p k => fst p k + snd p k) (combine accs contribs).

  (** 1251: loop over the Gauss points. *)
  Fixpoint gp_hist_loop (sf : strain_formulation) (n_dim : nat) (order : list comp) (fe : felem)
    (gps : list (nat * (list R * R))) (states_old : option (list state))
    (hist : list (T2 * T2 * T2)) (accs : list (nat -> R)) (sth : list (list state))
    : res (list (nat -> R) * list (list state)) :=
    match gps with
    | [] => Ok (accs, sth)
    | g :: t =>
        let st0 := match states_old with None => None | Some l => nth_error l (fst g) end in
        rbind (gp_hist sf n_dim order fe (snd g) st0 hist) (fun r =>
        gp_hist_loop sf n_dim order fe t states_old hist (add_forces accs (fst r)) (sth ++ [snd r]))
    end.

  (** 1180-1360: compute_element_internal_forces_hist: internal forces per time
      and state history per Gauss point. *)
  Definition compute_element_internal_forces_hist (sf : strain_formulation) (problem_type : nat)
    (fe : felem) (states_old : option (list state)) (hist : list (T2 * T2 * T2))
    : res (list (nat -> R) * list (list state)) :=
    rbind (get_problem_type_parameters problem_type) (fun p =>
    let '(n_dim, order, _) := p in
    gp_hist_loop sf n_dim order fe (combine (seq 0 (length (fe_rule fe))) (fe_rule fe)) states_old hist
      (map (fun _ _ => 0) hist) []).

  (** Mesh data shared by both modes. *)
  Variable conn : list (list Z).
  Variable n_node : nat.
  Variables coords_init coords : list (list R).
  Variable disps : nat -> list (list R).
  Variable reaction : nat -> T2.
  Variable bc : labels.
  Variable norm : option (list R * list R).
  Variable weights : nat -> R.

  (** 944-952 and 1085-1097: element coordinates, displacements and increments
      after update_specimen_mesh_configuration(t). *)
  Definition element_config (sf : strain_formulation) (t key : nat) : res (T2 * T2 * T2) :=
    rbind (get_element_configuration conn (config_coords sf coords_init coords disps t) key) (fun X =>
    rbind (get_element_configuration conn (disps t) key) (fun u =>
    rbind (get_element_configuration conn (disps (time_idx_old t)) key) (fun uo =>
    Ok (rows_fun X, rows_fun u, rows_fun (sub_rows u uo))))).

  Definition force_list (fe : felem) (f : nat -> R) : list R :=
    map f (seq 0 (el_n_node (fe_el fe) * el_n_dim (fe_el fe))).

  (** 936-973: loop over the elements at time [t]; [key] is the element label. *)
  Fixpoint time_elements (sf : strain_formulation) (problem_type t key : nat) (fes : list felem)
    (sts : list (option (list state)))
    : res (list (nat * list R) * list (option (list state))) :=
    match fes, sts with
    | fe :: fes', st :: sts' =>
        rbind (element_config sf t key) (fun cfg =>
        rbind (match fe_mat fe, st with
               | Standard su, Some l =>
                   compute_element_internal_forces state su stress_mf sf problem_type (fe_el fe)
                     (fe_rule fe) l (fst (fst cfg)) (snd cfg)
               | _, None => Err AttributeError
               | Recurrent _, Some _ => Err AttributeError
               end) (fun r =>
        rbind (time_elements sf problem_type t (S key) fes' sts') (fun rest =>
        Ok ((key, force_list fe (fst r)) :: fst rest, Some (snd r) :: snd rest))))
    | _, _ => Ok ([], [])
    end.

  Definition mesh_fun (n_dim : nat) (a : list R) : T2 := fun i j => nth (i * n_dim + j) a 0.

  (** 887-1000: forward_sequential_time; returns the loss and the converged
      states. *)
  Fixpoint time_loop (sf : strain_formulation) (problem_type n_dim : nat) (fes : list felem)
    (times : list nat) (sts : list (option (list state))) (loss : R)
    : res (R * list (option (list state))) :=
    match times with
    | [] => Ok (loss, sts)
    | t :: times' =>
        rbind (time_elements sf problem_type t 1 fes sts) (fun r =>
        rbind (element_assembler conn n_node (fst r)) (fun mesh =>
        time_loop sf problem_type n_dim fes times' (snd r)
          (loss + weights t * force_equilibrium_loss norm n_node n_dim (mesh_fun n_dim mesh)
                               (fun _ _ => 0) (reaction t) bc)))
    end.
  Definition forward_sequential_time (sf : strain_formulation) (problem_type n_time : nat)
    (fes : list felem) (sts : list (option (list state))) : res (R * list (option (list state))) :=
    rbind (get_problem_type_parameters problem_type) (fun p =>
    time_loop sf problem_type (fst (fst p)) fes (seq 0 n_time) sts 0).

  Definition add_lists (a b : list R) : res (list R) :=
    if Nat.eqb (length a) (length b) then Ok (map (fun p => fst p + snd p) (combine a b))
    else Err RuntimeError.

  (** 1116-1122: add the assembled element forces at every time. *)
  Fixpoint add_element_forces (key : nat) (fe : felem) (meshes : list (list R)) (fs : list (nat -> R))
    : res (list (list R)) :=
    match meshes, fs with
    | m :: ms, f :: fs' =>
        rbind (element_assembler conn n_node [(key, force_list fe f)]) (fun a =>
        rbind (add_lists m a) (fun m' =>
        rbind (add_element_forces key fe ms fs') (fun r => Ok (m' :: r))))
    | _, _ => Ok []
    end.

  (** element_state_hist[-1]; None entries of a recurrent history are kept as
      the stored state list. *)
  Definition last_states (n_time : nat) (sth : list (list state)) : res (list state) :=
    match n_time with
    | O => Err IndexError
    | S m => mapM (fun l => match nth_error l m with Some s => Ok s | None => Err KeyError end) sth
    end.

  (** 1057-1122: loop over the elements; returns the internal forces of the mesh
      per time and the current states. *)
  Fixpoint element_loop (sf : strain_formulation) (problem_type n_time key : nat) (fes : list felem)
    (sts : list (option (list state))) (meshes : list (list R))
    : res (list (list R) * list (option (list state))) :=
    match fes, sts with
    | fe :: fes', st :: sts' =>
        rbind (mapM (fun t => element_config sf t key) (seq 0 n_time)) (fun hist =>
        rbind (compute_element_internal_forces_hist sf problem_type fe st hist) (fun r =>
        rbind (last_states n_time (snd r)) (fun lst =>
        rbind (add_element_forces key fe meshes (fst r)) (fun meshes' =>
        rbind (element_loop sf problem_type n_time (S key) fes' sts' meshes') (fun rest =>
        Ok (fst rest, Some lst :: snd rest))))))
    | _, _ => Ok (meshes, [])
    end.

  (** 1002-1178: forward_sequential_element. *)
  Definition forward_sequential_element (sf : strain_formulation) (problem_type n_time : nat)
    (fes : list felem) (sts : list (option (list state))) : res (R * list (option (list state))) :=
    rbind (get_problem_type_parameters problem_type) (fun p =>
    let n_dim := fst (fst p) in
    rbind (element_loop sf problem_type n_time 1 fes sts
             (map (fun _ => repeat 0 (n_node * n_dim)) (seq 0 n_time))) (fun r =>
    Ok (hist_loss norm n_node n_dim n_time weights
          (fun t => mesh_fun n_dim (nth t (fst r) [])) (fun _ _ _ => 0) reaction bc, snd r))).
End Forward.
