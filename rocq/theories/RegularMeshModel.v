(** Model of the regular finite element mesh of a material patch, of its
    connectivities and of the removal of elements.
    Sources: src/hookeai/data_generation/spdg/patch_generator.py 856-882,
    1716-1842 (_generate_finite_element_mesh, _get_elem_node_index);
    src/hookeai/data_generation/spdg/patch.py 293-319;
    src/hookeai/simulators/links/discretization/finite_element.py 114-321;
    src/hookeai/simulators/links/links.py 692-824 (_get_links_mesh_data),
    1075-1216 (remove_mesh_elements).
    Positions are lists of indices, one for each dimension, so that two and three
    dimensions share one definition; loops run with the first index fastest as
    in the code.  Dictionary keys '1', '2', ... are the numbers themselves (str
    and int are inverse to each other).
    Simplifications: exact arithmetic (ceil of an exact quotient); numpy arrays
    of labels are association lists with default 0. *)
From Coq Require Import Reals List Arith Bool.
From Verif Require Import Lib PyDict.
Import ListNotations.
Local Open Scope list_scope.

(** finite_element.py 114-254: number of dimensions, nodes on an edge, and the
    local index of every node label 1, 2, ... *)
Record elem_type := { et_dim : nat; et_edge : nat; et_table : list (list nat) }.
Definition squad4 := Build_elem_type 2 2 [[0;0];[1;0];[1;1];[0;1]].
Definition squad8 := Build_elem_type 2 3 [[0;0];[1;0];[2;0];[2;1];[2;2];[1;2];[0;2];[0;1]].
Definition squad12 := Build_elem_type 2 4 [[0;0];[1;0];[2;0];[3;0];[3;1];[3;2];[3;3];[2;3];[1;3];[0;3];[0;2];[0;1]].
Definition lquad4 := Build_elem_type 2 2 [[0;0];[1;0];[0;1];[1;1]].
Definition lquad9 := Build_elem_type 2 3 [[0;0];[1;0];[2;0];[0;1];[1;1];[2;1];[0;2];[1;2];[2;2]].
Definition lquad16 := Build_elem_type 2 4
  [[0;0];[1;0];[2;0];[3;0];[0;1];[1;1];[2;1];[3;1];[0;2];[1;2];[2;2];[3;2];[0;3];[1;3];[2;3];[3;3]].
Definition shexa8 := Build_elem_type 3 2 [[0;0;0];[1;0;0];[1;1;0];[0;1;0];[0;0;1];[1;0;1];[1;1;1];[0;1;1]].
Definition shexa20 := Build_elem_type 3 3
  [[0;0;0];[2;0;0];[2;2;0];[0;2;0];[0;0;2];[2;0;2];[2;2;2];[0;2;2];[1;0;0];[2;1;0];[1;2;0];[0;1;0];
   [0;0;1];[2;0;1];[2;2;1];[0;2;1];[1;0;2];[2;1;2];[1;2;2];[0;1;2]].
Definition elem_types : list elem_type := [squad4; squad8; squad12; lquad4; lquad9; lquad16; shexa8; shexa20].

Fixpoint pos_eqb (a b : list nat) : bool :=
  match a, b with
  | [], [] => true
  | x :: a', y :: b' => Nat.eqb x y && pos_eqb a' b'
  | _, _ => false
  end.
(** nodes_matrix[index] != 0 *)
Definition has_node (el : elem_type) (idx : list nat) : bool := existsb (pos_eqb idx) (et_table el).

(** nested loops, first index fastest *)
Fixpoint grid (dims : list nat) : list (list nat) :=
  match dims with
  | [] => [[]]
  | d :: ds => flat_map (fun t => map (fun i => i :: t) (seq 0 d)) (grid ds)
  end.

(** patch_generator.py 874-880, 1748-1754 *)
Definition edge_nodes (ne n : nat) : nat := n * ne - (n - 1).
Definition ceil_div (a b : nat) : nat := (a + (b - 1)) / b.
(** patch_generator.py 1833-1840, one dimension *)
Definition local_index1 (ne n g : nat) : nat :=
  let e := Nat.max 1 (ceil_div (g * n) (edge_nodes ne n - 1)) in
  g - ((e - 1) * ne - (e - 1)).
Fixpoint local_index (ne : nat) (ns gs : list nat) : list nat :=
  match ns, gs with n :: ns', g :: gs' => local_index1 ne n g :: local_index ne ns' gs' | _, _ => [] end.

(** patch_generator.py 1755-1758 *)
Definition coord_step (ne n : nat) (dim : R) : R := (dim / INR (n * (ne - 1)))%R.
Fixpoint coords_of (ne : nat) (ns : list nat) (dims : list R) (idx : list nat) : list R :=
  match ns, dims, idx with
  | n :: ns', d :: dims', i :: idx' => (INR i * coord_step ne n d)%R :: coords_of ne ns' dims' idx'
  | _, _, _ => []
  end.

Record mesh := { m_matrix : list (list nat * nat); m_coords : list (nat * list R); m_next : nat }.
(** patch_generator.py 1765-1803: one position of the nested loops *)
Definition mesh_step (el : elem_type) (ns : list nat) (dims : list R) (m : mesh) (idx : list nat) : mesh :=
  if has_node el (local_index (et_edge el) ns idx) then
    {| m_matrix := m_matrix m ++ [(idx, m_next m)];
       m_coords := gset Nat.eqb (m_coords m) (m_next m) (coords_of (et_edge el) ns dims idx);
       m_next := S (m_next m) |}
  else m.
Definition gen_mesh (el : elem_type) (ns : list nat) (dims : list R) : mesh :=
  fold_left (mesh_step el ns dims) (grid (map (edge_nodes (et_edge el)) ns)) {| m_matrix := []; m_coords := []; m_next := 1 |}.
(** mesh_nodes_matrix[index] *)
Definition label_at (m : mesh) (idx : list nat) : nat :=
  match gget pos_eqb (m_matrix m) idx with Some l => l | None => 0 end.

(** patch.py 293-319: labels found at the boundary positions *)
Fixpoint on_boundary (dims idx : list nat) : bool :=
  match dims, idx with
  | d :: ds, i :: is => Nat.eqb i 0 || Nat.eqb i (d - 1) || on_boundary ds is
  | _, _ => false
  end.
Definition boundary_labels (el : elem_type) (ns : list nat) (m : mesh) : list nat :=
  let dims := map (edge_nodes (et_edge el)) ns in
  let ls := map (label_at m) (filter (on_boundary dims) (grid dims)) in
  if Nat.eqb (et_dim el) 2 then ls else filter (fun l => negb (Nat.eqb l 0)) ls.

(** range(0, stop, step) *)
Definition py_range (stop step : nat) : list nat := map (fun i => i * step) (seq 0 (ceil_div stop step)).
(** positions of the nested loops over ranges, first index fastest *)
Fixpoint grid_of (ranges : list (list nat)) : list (list nat) :=
  match ranges with
  | [] => [[]]
  | r :: rs => flat_map (fun t => map (fun i => i :: t) r) (grid_of rs)
  end.
Fixpoint add_idx (a b : list nat) : list nat :=
  match a, b with x :: a', y :: b' => (x + y) :: add_idx a' b' | _, _ => [] end.
(** links.py 742-809: connectivities, keys 1, 2, ... *)
Fixpoint number_from {A} (k : nat) (l : list A) (d : list (nat * A)) : list (nat * A) :=
  match l with [] => d | x :: t => number_from (S k) t (gset Nat.eqb d k x) end.
Definition origins (el : elem_type) (ns : list nat) : list (list nat) :=
  grid_of (map (fun n => py_range (edge_nodes (et_edge el) n - et_edge el + 1) (et_edge el - 1)) ns).
Definition elements (el : elem_type) (ns : list nat) (m : mesh) : list (nat * list nat) :=
  number_from 1 (map (fun o => map (fun l => label_at m (add_idx o l)) (et_table el)) (origins el ns)) [].
(** links.py 768-778, 810-822: material phases in the same order *)
Definition phases {P} (ns : list nat) (mat : list nat -> P) : list (nat * P) := number_from 1 (map mat (grid ns)) [].

(** ** links.py 1075-1216: remove_mesh_elements *)
Section Remove.
  Variables (C D P : Type).
  Definition memb (x : nat) (l : list nat) : bool := existsb (Nat.eqb x) l.
  (** 1122-1137: (elements, elem_label_map, elem_label) *)
  Definition keep_elem (removed : list nat) (s : list (nat * list nat) * list (nat * nat) * nat) (e : nat * list nat) :=
    let '(els, emap, k) := s in
    if memb (fst e) removed then s
    else (gset Nat.eqb els k (snd e), gset Nat.eqb emap (fst e) k, S k).
  (** 1164-1179: (node_coords, node_label_map, node_label) *)
  Definition keep_node (gone : list nat) (s : list (nat * C) * list (nat * nat) * nat) (nd : nat * C) :=
    let '(cs, nmap, k) := s in
    if memb (fst nd) gone then s
    else (gset Nat.eqb cs k (snd nd), gset Nat.eqb nmap (fst nd) k, S k).
  Definition glookup {V} (d : list (nat * V)) (k : nat) : res V :=
    match gget Nat.eqb d k with Some v => Ok v | None => Err KeyError end.
  (** 1181-1189 *)
  Definition relabel (nmap : list (nat * nat)) (els : list (nat * list nat)) : res (list (nat * list nat)) :=
    rmap (fun e => rbind (rmap (glookup nmap) (snd e)) (fun ns => Ok (fst e, ns))) els.
  (** 1191-1199 *)
  Definition keep_phase (emap : list (nat * nat)) (d : list (nat * P)) (e : nat * P) : list (nat * P) :=
    match gget Nat.eqb emap (fst e) with Some k => gset Nat.eqb d k (snd e) | None => d end.
  (** 1201-1214 *)
  Definition map_disp (nmap : list (nat * nat)) (d : list (nat * D)) (e : nat * D) : res (list (nat * D)) :=
    rbind (glookup nmap (fst e)) (fun k => Ok (gset Nat.eqb d k (snd e))).

  Definition remove_elements (removed : list nat) (coords : list (nat * C)) (els : list (nat * list nat))
      (phs : list (nat * P)) (disps : option (list (nat * D))) (boundary : option (list nat))
    : res (list (nat * C) * list (nat * list nat) * list (nat * P) * option (list (nat * D))) :=
    let old_nodes := concat (map snd els) in
    let '(els1, emap, _) := fold_left (keep_elem removed) els ([], [], 1) in
    let nodes := concat (map snd els1) in
    let gone := filter (fun x => negb (memb x nodes)) old_nodes in
    if existsb (fun x => match boundary with Some b => memb x b | None => false end) gone then
      (* 1148-1153: the message looks every removed element up *)
      if forallb (fun e => memb e (map fst els)) removed then Err RuntimeError else Err KeyError
    else
      let '(coords1, nmap, _) := fold_left (keep_node gone) coords ([], [], 1) in
      rbind (relabel nmap els1) (fun els2 =>
      let phs1 := fold_left (keep_phase emap) phs [] in
      match disps with
      | None => Ok (coords1, els2, phs1, None)
      | Some ds => rbind (rfold (map_disp nmap) ds []) (fun ds1 => Ok (coords1, els2, phs1, Some ds1))
      end).
End Remove.
