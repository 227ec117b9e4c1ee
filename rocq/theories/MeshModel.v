(** Finite element mesh assembly and configuration:
    src/hookeai/simulators/fetorch/structure/structure_mesh.py and
    vassemble_internal_forces of
    src/hookeai/material_model_finder/model/material_discovery.py.

    Node labels are integers (Z): the code never checks their range.  Element
    keys '1', '2', ... are numbers; connectivities are listed in key order
    (structure_mesh.py:617-635 checks that the keys are exactly 1..n_elem).
    A dictionary of element arrays is an association list in insertion order.
    dtype/device not modelled. *)
From Coq Require Import Reals List Arith ZArith Bool.
From Verif Require Import Lib.
Import ListNotations.
Local Open Scope R_scope.

(** Python slice bound normalisation for a sequence of length [len]. *)
Definition norm_bound (len i : Z) : Z :=
  (if i <? 0 then Z.max 0 (i + len) else Z.min i len)%Z.

Definition slice_lo (n : nat) (start : Z) : nat := Z.to_nat (norm_bound (Z.of_nat n) start).
Definition slice_hi (n : nat) (stop : Z) : nat := Z.to_nat (norm_bound (Z.of_nat n) stop).

(** [arr[start:stop]] *)
Definition slice (arr : list R) (start stop : Z) : list R :=
  let lo := slice_lo (length arr) start in
  let hi := slice_hi (length arr) stop in
  firstn (hi - lo) (skipn lo arr).

(** In-place update of [arr[start:stop]] with [op old new]; the right-hand side
    must have the size of the slice or be broadcast from a single entry. *)
Definition slice_update (op : R -> R -> R) (arr : list R) (start stop : Z) (vals : list R)
  : res (list R) :=
  let lo := slice_lo (length arr) start in
  let hi := slice_hi (length arr) stop in
  if Nat.eqb (length vals) (hi - lo) then
    Ok (map (fun k => if (Nat.leb lo k && Nat.ltb k hi)%bool
                      then op (nth k arr 0) (nth (k - lo) vals 0) else nth k arr 0)
            (seq 0 (length arr)))
  else if Nat.eqb (length vals) 1 then
    Ok (map (fun k => if (Nat.leb lo k && Nat.ltb k hi)%bool
                      then op (nth k arr 0) (nth 0 vals 0) else nth k arr 0)
            (seq 0 (length arr)))
  else Err RuntimeError.

Definition conn_of (conn : list (list Z)) (key : nat) : option (list Z) :=
  match key with O => None | S k => nth_error conn k end.

(** structure_mesh.py:453-460: loop over the nodes of one element. *)
Fixpoint assemble_nodes (nd : nat) (a : list R) (i : nat) (nodes : list Z) (mesh : list R)
  : res (list R) :=
  match nodes with
  | [] => Ok mesh
  | node :: t =>
      let mi := ((node - 1) * Z.of_nat nd)%Z in
      let ei := Z.of_nat (i * nd) in
      rbind (slice_update Rplus mesh mi (mi + Z.of_nat nd)
               (slice a ei (ei + Z.of_nat nd)))
            (assemble_nodes nd a (S i) t)
  end.

(** structure_mesh.py:449-460: loop over the element arrays. *)
Fixpoint assemble_elements (conn : list (list Z)) (nd : nat) (arrs : list (nat * list R))
  (mesh : list R) : res (list R) :=
  match arrs with
  | [] => Ok mesh
  | (key, a) :: t =>
      match conn_of conn key with
      | None => Err KeyError
      | Some nodes => rbind (assemble_nodes nd a 0 nodes mesh) (assemble_elements conn nd t)
      end
  end.

(** structure_mesh.py:383-462: element_assembler for one-dimensional element
    arrays (_element_assembler_1d). *)
Definition element_assembler (conn : list (list Z)) (n_node : nat) (arrs : list (nat * list R))
  : res (list R) :=
  match arrs with
  | [] => Err IndexError
  | (k0, a0) :: _ =>
      match conn_of conn k0 with
      | None => Err KeyError
      | Some [] => Err ZeroDivisionError
      | Some nodes0 =>
          let nd := (length a0 / length nodes0)%nat in
          assemble_elements conn nd arrs (repeat 0 (n_node * nd))
      end
  end.

(** structure_mesh.py:529-536: loop of the extractor. *)
Fixpoint extract_nodes (nd : nat) (mesh : list R) (i : nat) (nodes : list Z) (arr : list R)
  : res (list R) :=
  match nodes with
  | [] => Ok arr
  | node :: t =>
      let mi := ((node - 1) * Z.of_nat nd)%Z in
      let ei := Z.of_nat (i * nd) in
      rbind (slice_update (fun _ x => x) arr ei (ei + Z.of_nat nd)
               (slice mesh mi (mi + Z.of_nat nd)))
            (extract_nodes nd mesh (S i) t)
  end.

(** structure_mesh.py:464-538: element_extractor. *)
Definition element_extractor (conn : list (list Z)) (n_node : nat) (mesh : list R) (key : nat)
  : res (list R) :=
  match n_node with
  | O => Err ZeroDivisionError
  | _ =>
      let nd := (length mesh / n_node)%nat in
      match conn_of conn key with
      | None => Err KeyError
      | Some nodes => extract_nodes nd mesh 0 nodes (repeat 0 (length nodes * nd))
      end
  end.

(** structure_mesh.py:566-590: build_element_mesh_indexing
    (repeat_interleave plus repeated arange). *)
Definition build_element_mesh_indexing (nodes : list Z) (nd : nat) : list Z :=
  let base := flat_map (fun node => repeat ((node - 1) * Z.of_nat nd)%Z nd) nodes in
  let offs := flat_map (fun _ : Z => map Z.of_nat (seq 0 nd)) nodes in
  map (fun p => (fst p + snd p)%Z) (combine base offs).

(** structure_mesh.py:540-564: build_elements_mesh_indexing; the stacking in
    get_connectivities_tensor (219-245) needs equal numbers of nodes, otherwise
    the variable is unbound (UnboundLocalError, a NameError). *)
Definition same_sizes (conn : list (list Z)) : bool :=
  match conn with
  | [] => false
  | c :: t => forallb (fun x => Nat.eqb (length x) (length c)) t
  end.
Definition build_elements_mesh_indexing (conn : list (list Z)) (nd : nat) : res (list (list Z)) :=
  if same_sizes conn then Ok (map (fun c => build_element_mesh_indexing c nd) conn)
  else Err NameError.

(** material_discovery.py:2627-2630: vassemble_internal_forces, flattened
    (boolean mask selection keeps the element-major order). *)
Definition vassemble_internal_forces (forces : list (list R)) (idx : list (list Z))
  (n_node nd : nat) : list R :=
  map (fun k => lsum (map snd (filter (fun p => Z.eqb (fst p) (Z.of_nat k))
                     (combine (concat idx) (concat forces)))))
      (seq 0 (n_node * nd)).

(** structure_mesh.py:271-310: rows selected by get_element_configuration from
    a nodal array (tensor indexing: negative indices wrap, out-of-range raises
    IndexError). *)
Definition wrap_index (n : nat) (i : Z) : option nat :=
  (if (0 <=? i) && (i <? Z.of_nat n) then Some (Z.to_nat i)
   else if (- Z.of_nat n <=? i) && (i <? 0) then Some (Z.to_nat (i + Z.of_nat n))
   else None)%Z%bool.
Fixpoint gather_rows {A} (rows : list A) (nodes : list Z) : res (list A) :=
  match nodes with
  | [] => Ok []
  | node :: t =>
      match wrap_index (length rows) (node - 1) with
      | None => Err IndexError
      | Some i => match nth_error rows i with
                  | None => Err IndexError
                  | Some r => rbind (gather_rows rows t) (fun l => Ok (r :: l))
                  end
      end
  end.
Definition get_element_configuration {A} (conn : list (list Z)) (rows : list A) (key : nat)
  : res (list A) :=
  match conn_of conn key with None => Err KeyError | Some nodes => gather_rows rows nodes end.
