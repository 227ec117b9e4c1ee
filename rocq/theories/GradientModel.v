(** Element kinematics and internal forces:
    src/hookeai/simulators/fetorch/element/derivatives/jacobian.py,
    .../derivatives/gradients.py and
    .../element/integrations/internal_forces.py.

    Matrices are index functions with explicit sizes (only in-range indices are
    meaningful).  dtype/device not modelled; arithmetic over R. *)
From Coq Require Import Reals List Arith.
From Verif Require Import Lib MatrixModel TensorModel ElementModel QuadratureModel.
Import ListNotations.
Local Open Scope R_scope.

(** torch.det and torch.inverse for the sizes used by the element library
    (cofactor formulas; torch.inverse raises RuntimeError on a singular
    matrix). *)
Definition det (n : nat) (m : T2) : R :=
  match n with
  | 1%nat => m 0%nat 0%nat
  | 2%nat => m 0%nat 0%nat * m 1%nat 1%nat - m 0%nat 1%nat * m 1%nat 0%nat
  | 3%nat => m 0%nat 0%nat * (m 1%nat 1%nat * m 2%nat 2%nat - m 1%nat 2%nat * m 2%nat 1%nat)
     - m 0%nat 1%nat * (m 1%nat 0%nat * m 2%nat 2%nat - m 1%nat 2%nat * m 2%nat 0%nat)
     + m 0%nat 2%nat * (m 1%nat 0%nat * m 2%nat 1%nat - m 1%nat 1%nat * m 2%nat 0%nat)
  | _ => 0
  end.

Definition adj (n : nat) (m : T2) : T2 := fun i j =>
  match n with
  | 1%nat => 1
  | 2%nat => match i, j with
         | 0%nat, 0%nat => m 1%nat 1%nat
         | 0%nat, _ => - m 0%nat 1%nat
         | _, 0%nat => - m 1%nat 0%nat
         | _, _ => m 0%nat 0%nat
         end
  | _ => let i1 := ((i + 1) mod 3)%nat in let i2 := ((i + 2) mod 3)%nat in
         let j1 := ((j + 1) mod 3)%nat in let j2 := ((j + 2) mod 3)%nat in
         m j1 i1 * m j2 i2 - m j1 i2 * m j2 i1
  end.

Definition inverse (n : nat) (m : T2) : res T2 :=
  if Req_EM_T (det n m) 0 then Err RuntimeError
  else Ok (fun i j => adj n m i j / det n m).

(** Entry (j, d) of eval_shapefun_local_deriv(local_coords). *)
Definition local_deriv (el : element) (c : list R) : T2 :=
  fun j d => nth d (nth j (el_deriv el c) []) 0.

(** jacobian.py:22-66: eval_jacobian (is_check_det False, the only use). *)
Definition eval_jacobian (el : element) (X : T2) (c : list R) : T2 * R * T2 :=
  let dN := local_deriv el c in
  let J : T2 := fun d e => rsum (el_n_node el) (fun j => dN j d * X j e) in
  (J, det (el_n_dim el) J, dN).

(** jacobian.py:61-64: the check of the determinant sign. *)
Definition eval_jacobian_checked (el : element) (X : T2) (c : list R) : res (T2 * R * T2) :=
  let r := eval_jacobian el X c in
  if Rle_dec (snd (fst r)) 0 then Err RuntimeError else Ok r.

(** gradients.py:37-71: eval_shapefun_deriv. *)
Definition eval_shapefun_deriv (el : element) (X : T2) (c : list R) : res (T2 * T2 * R) :=
  let '(J, detJ, dN) := eval_jacobian el X c in
  rbind (inverse (el_n_dim el) J) (fun Jinv =>
    Ok ((fun j e => rsum (el_n_dim el) (fun d => Jinv e d * dN j d)), J, detJ)).

(** gradients.py:92-100, 149-157: number of components check
    n_comps != 0.5*n*(n + 1).  Component digits outside 1..n (IndexError, or
    wrap-around for digit 0) are rejected up front in the model. *)
Definition sym_comps_ok (n_dof : nat) (order : list comp) : bool :=
  Nat.eqb (2 * length order) (n_dof * (n_dof + 1)).

(** gradients.py:111-124: one (node, component) step of the loop. *)
Definition sym_grad_step (sfd : T2) (n_dof : nat) (order : list comp) (m : T2) (ji : nat * nat) : T2 :=
  let j := fst ji in let i := snd ji in
  let c := nth i order (0, 0)%nat in
  let k := (j * n_dof)%nat in
  if Nat.eqb (row c) (col c) then set2 m i (k + row c) (sfd j (row c))
  else set2 (set2 m i (k + col c) (sfd j (row c))) i (k + row c) (sfd j (col c)).

(** gradients.py:73-126: build_discrete_sym_gradient. *)
Definition build_discrete_sym_gradient (sfd : T2) (n_node n_dof : nat) (order : list comp) : res T2 :=
  if negb (sym_comps_ok n_dof order) then Err RuntimeError
  else if negb (forallb (digits_ok n_dof) order) then Err IndexError
  else Ok (fold_left (sym_grad_step sfd n_dof order)
             (list_prod (seq 0 n_node) (seq 0 (length order))) zero2).

(** gradients.py:166-174: mapping index of dimension i (from 1) and component. *)
Definition sym_map_index (i : nat) (c : comp) : nat :=
  if orb (Nat.eqb i (fst c)) (Nat.eqb i (snd c)) then
    if Nat.eqb (fst c) (snd c) then i
    else hd O (filter (fun x => negb (Nat.eqb x i)) [fst c; snd c])
  else O.

(** gradients.py:160-176: index_mapping. *)
Definition sym_index_mapping (n_dof : nat) (order : list comp) : list nat :=
  flat_map (fun i => map (sym_map_index i) order) (seq 1 n_dof).

(** gradients.py:179-181: row j of mapping_values. *)
Definition mapping_value (sfd : T2) (j m : nat) : R :=
  match m with O => 0 | S d => sfd j d end.

(** gradients.py:183-185: reshape(-1, n_comps).t() of the gathered values, nodes
    concatenated along columns. *)
Definition gather_operator (sfd : T2) (n_dof n_comps : nat) (mapping : list nat) : T2 :=
  fun c col => let j := (col / n_dof)%nat in let i := (col mod n_dof)%nat in
    mapping_value sfd j (nth (i * n_comps + c) mapping O).

(** gradients.py:128-187: vbuild_discrete_sym_gradient. *)
Definition vbuild_discrete_sym_gradient (sfd : T2) (n_node n_dof : nat) (order : list comp) : res T2 :=
  if negb (sym_comps_ok n_dof order) then Err RuntimeError
  else if negb (forallb (digits_ok n_dof) order) then Err IndexError
  else Ok (gather_operator sfd n_dof (length order) (sym_index_mapping n_dof order)).

(** gradients.py:211-217, 266-272: default component order. *)
Definition default_nsym_order (n_dof : nat) (order : option (list comp)) : list comp :=
  match order with
  | Some o => o
  | None => if Nat.eqb n_dof 2 then order_nsym_2d else order_nsym_3d
  end.

(** gradients.py:189-240: build_discrete_gradient. *)
Definition build_discrete_gradient (sfd : T2) (n_node n_dof : nat) (o : option (list comp)) : res T2 :=
  let order := default_nsym_order n_dof o in
  if negb (Nat.eqb (length order) (n_dof * n_dof)) then Err RuntimeError
  else if negb (forallb (digits_ok n_dof) order) then Err IndexError
  else Ok (fold_left (fun m ji =>
      let c := nth (snd ji) order (0, 0)%nat in
      set2 m (snd ji) (fst ji * n_dof + row c) (sfd (fst ji) (col c)))
    (list_prod (seq 0 n_node) (seq 0 (length order))) zero2).

(** gradients.py:279-293: index_mapping of the full gradient. *)
Definition nsym_index_mapping (n_dof : nat) (order : list comp) : list nat :=
  flat_map (fun i => map (fun c : comp => if Nat.eqb i (fst c) then snd c else O) order)
    (seq 1 n_dof).

(** gradients.py:242-304: vbuild_discrete_gradient. *)
Definition vbuild_discrete_gradient (sfd : T2) (n_node n_dof : nat) (o : option (list comp)) : res T2 :=
  let order := default_nsym_order n_dof o in
  if negb (Nat.eqb (length order) (n_dof * n_dof)) then Err RuntimeError
  else if negb (forallb (digits_ok n_dof) order) then Err IndexError
  else Ok (gather_operator sfd n_dof (length order) (nsym_index_mapping n_dof order)).

(** gradients.py:306-354: vexpand_grad_operator_sym_2d_to_3d. *)
Definition vexpand_grad_operator (B : T2) : T2 :=
  fun c col =>
    let comp3 := nth c order_sym_3d (0, 0)%nat in
    match index_of comp3 order_sym_2d with
    | Some r => if Nat.ltb (col mod 3) 2 then B r (2 * (col / 3) + col mod 3)%nat else 0
    | None => 0
    end.

(** gradients.py:356-401: vreduce_grad_operator_sym_3d_to_2d. *)
Definition vreduce_grad_operator (B : T2) : T2 :=
  fun c col =>
    let comp2 := nth c order_sym_2d (0, 0)%nat in
    match index_of comp2 order_sym_3d with
    | Some r => B r (3 * (col / 2) + col mod 2)%nat
    | None => 0
    end.

(** Row-major flatten of an n_node x n_dof array. *)
Definition flatten (n_dof : nat) (u : T2) : nat -> R :=
  fun k => u (k / n_dof)%nat (k mod n_dof)%nat.

(** internal_forces.py:148-170 and 172-194: compute_infinitesimal_inc_strain
    and compute_infinitesimal_strain (same formula). *)
Definition compute_infinitesimal_strain (B : T2) (n_comps n_node n_dof : nat) (u : T2) : list R :=
  map (fun c => rsum (n_node * n_dof) (fun k => B c k * flatten n_dof u k)) (seq 0 n_comps).

Inductive strain_formulation : Type := Infinitesimal | Finite.

Section InternalForces.
  (** [material_state_update] with infinitesimal strains and a given problem
      type and material: any function of the incremental strain tensor and of
      the old state variables (a deep copy in the code, hence no aliasing). *)
  Variable state : Type.
  Variable su : T2 -> state -> state.
  (** state_variables['stress_mf']. *)
  Variable stress_mf : state -> list R.

  (** internal_forces.py:95-144: one Gauss point. *)
  Definition gauss_point_step (sf : strain_formulation) (n_dim : nat) (order : list comp)
    (el : element) (X u_inc : T2) (states_old : list state)
    (acc : (nat -> R) * list state) (iw : nat * (list R * R))
    : res ((nat -> R) * list state) :=
    rbind (eval_shapefun_deriv el X (fst (snd iw))) (fun r =>
    let '(sfd, _, detJ) := r in
    rbind (vbuild_discrete_sym_gradient sfd (el_n_node el) (el_n_dim el) order) (fun B =>
    match sf with
    | Finite => Err RuntimeError
    | Infinitesimal =>
    let inc_vmf := compute_infinitesimal_strain B (length order) (el_n_node el) (el_n_dim el) u_inc in
    rbind (vget_strain_from_vmf inc_vmf n_dim order) (fun inc_strain =>
    match nth_error states_old (fst iw) with
    | None => Err KeyError
    | Some st =>
    let st' := su inc_strain st in
    rbind (vget_tensor_from_mf2 (stress_mf st') n_dim order true) (fun stress =>
    rbind (vget_stress_vmf stress n_dim order) (fun stress_vmf =>
    Ok ((fun k => fst acc k +
           snd (snd iw) * rsum (length order) (fun c => B c k * nth c stress_vmf 0) * detJ),
        snd acc ++ [st'])))
    end)
    end)).

  Fixpoint gauss_loop (sf : strain_formulation) (n_dim : nat) (order : list comp)
    (el : element) (X u_inc : T2) (states_old : list state)
    (gps : list (nat * (list R * R))) (acc : (nat -> R) * list state)
    : res ((nat -> R) * list state) :=
    match gps with
    | [] => Ok acc
    | g :: t => rbind (gauss_point_step sf n_dim order el X u_inc states_old acc g)
                      (gauss_loop sf n_dim order el X u_inc states_old t)
    end.

  (** internal_forces.py:36-146: compute_element_internal_forces.  States are
      listed in Gauss point order '1', '2', .... *)
  Definition compute_element_internal_forces (sf : strain_formulation) (problem_type : nat)
    (el : element) (gp_rule : rule) (states_old : list state) (X u_inc : T2)
    : res ((nat -> R) * list state) :=
    rbind (get_problem_type_parameters problem_type) (fun p =>
    let '(n_dim, order, _) := p in
    gauss_loop sf n_dim order el X u_inc states_old
      (combine (seq 0 (length gp_rule)) gp_rule) ((fun _ => 0), [])).
End InternalForces.
