(** Specimen mesh files: the reader of finite element meshes from .inp files
    and the writer that creates them from simulation data.

    src/hookeai/user_scripts/global_model_update/material_finder/
      gen_specimen_data.py 163-311 (get_specimen_mesh_from_inp_file),
      312-346 (elem_type_abaqus_to_fetorch);
    src/hookeai/simulators/links/utilities/links_data_to_adimu.py
      441-504 (write_adimu_mesh_data_file).

    A file is the list of its lines. The coordinates are of an abstract type C:
    float() and the format '16.8e' of Python are the arguments pf and fmt of the
    model, the text of a prescribed value is the argument vstr. Tensors are
    lists; element and node labels are integers; dictionary keys str(i) are the
    integer i. The values of node labels stored by the reader have passed its
    check, so that they are natural numbers. *)
From Coq Require Import String Ascii List Bool Arith ZArith.
From Verif Require Import Lib PyStr PyDict TextLines.
Import ListNotations.
Local Open Scope string_scope.
Local Open Scope list_scope.

(** elem_type_abaqus_to_fetorch 312-346: element and number of Gauss points *)
Inductive fe_kind := Tri3 | Quad4 | Tetra4 | Hexa8 | Hexa20.
Definition fetorch_type (t : string) : res (fe_kind * nat) :=
  if String.eqb t "CPE3" then Ok (Tri3, 1)
  else if String.eqb t "CPE4" then Ok (Quad4, 4)
  else if String.eqb t "C3D4" then Ok (Tetra4, 4)
  else if String.eqb t "C3D8" then Ok (Hexa8, 8)
  else if String.eqb t "C3D8R" then Ok (Hexa8, 1)
  else if String.eqb t "C3D20R" then Ok (Hexa20, 8)
  else Err RuntimeError.

(** 239-240: re.search(r'type=([A-Z0-9]+)', line, re.IGNORECASE) *)
Fixpoint take_alnum (s : string) : string :=
  match s with String c t => if is_alnum c then String c (take_alnum t) else EmptyString | EmptyString => s end.
Fixpoint type_value (s : string) : option string :=
  match match drop_ci "type=" s with
        | Some (String c t) => if is_alnum c then Some (take_alnum (String c t)) else None
        | _ => None
        end with
  | Some v => Some v
  | None => match s with String _ t => type_value t | EmptyString => None end
  end.

(** Python's sequence index: negative indices count from the end. *)
Definition py_index (n : nat) (i : Z) : res nat :=
  if ((0 <=? i) && (i <? Z.of_nat n))%Z then Ok (Z.to_nat i)
  else if ((- Z.of_nat n <=? i) && (i <? 0))%Z then Ok (Z.to_nat (i + Z.of_nat n))
  else Err IndexError.

Definition zrange (a b : Z) : list Z := map (fun k => (a + Z.of_nat k)%Z) (seq 0 (Z.to_nat (b - a))).

Section Reader.
  Context {C : Type} (pf : string -> res C).

  (** 205-217: the *NODE section; the row label (first field) is not read *)
  Definition node_row (n_dim : nat) (line : string) : res (list C) :=
    rmap pf (firstn n_dim (tl (split_on "," line))).
  Fixpoint nodes_pass (n_dim : nat) (on : bool) (lines : list string) : res (list (list C)) :=
    match lines with
    | [] => Ok []
    | l :: ls =>
      if search_kw "*node" l then nodes_pass n_dim true ls
      else if on && (section_end l || blank l) then Ok []
      else if on then rbind (node_row n_dim l) (fun r => rbind (nodes_pass n_dim on ls) (fun rs => Ok (r :: rs)))
      else nodes_pass n_dim on ls
    end.
  (** 219-223: torch.tensor of the rows, which must have the same length *)
  Definition rectangular (rows : list (list C)) : bool :=
    match rows with [] => true | r :: rs => forallb (fun x => Nat.eqb (List.length x) (List.length r)) rs end.

  (** 232-268: the *ELEMENT sections *)
  Definition elem_row (n_node : nat) (line : string) : res (Z * list nat) :=
    rbind (py_int (hd "" (split_on "," line))) (fun id =>
    rbind (rmap py_int (tl (split_on "," line))) (fun nodes =>
    if forallb (fun z => (1 <=? z) && (z <=? Z.of_nat n_node))%Z nodes
    then Ok (id, map Z.to_nat nodes) else Err RuntimeError)).
  Definition elem_type_line (line : string) : res (fe_kind * nat) :=
    match type_value line with Some t => fetorch_type t | None => Err AttributeError end.
  Definition edict := list (Z * ((fe_kind * nat) * list nat)).
  Fixpoint elems_pass (n_node : nat) (on : option (fe_kind * nat)) (lines : list string)
    (acc : edict * list nat) : res (edict * list nat) :=
    match lines with
    | [] => Ok acc
    | l :: ls =>
      if search_kw "*element, type" l then rbind (elem_type_line l) (fun t => elems_pass n_node (Some t) ls acc)
      else match on with
           | None => elems_pass n_node None ls acc
           | Some t =>
             if section_end l || blank l then elems_pass n_node None ls acc
             else rbind (elem_row n_node l) (fun r =>
                    elems_pass n_node (Some t) ls
                      (gset Z.eqb (fst acc) (fst r) (t, snd r), snd acc ++ snd r))
           end
    end.

  (** 269-275: every node belongs to an element *)
  Definition nodes_covered (n_node : nat) (l : list nat) : bool :=
    forallb (fun i => existsb (Nat.eqb i) l) (seq 1 n_node).

  (** 276-308: the *BOUNDARY sections *)
  Definition flag_row (n_node n_dim : nat) (line : string) (m : list (list bool)) : res (list (list bool)) :=
    rbind (py_int (hd "" (split_on "," line))) (fun id =>
    rbind (rmap py_int (firstn 2 (tl (split_on "," line)))) (fun dofs =>
    match dofs with
    | [a; b] =>
      rfold (fun m dim =>
        if ((0 <=? dim) && (dim <? Z.of_nat n_dim))%Z
        then rbind (py_index n_node (id - 1)) (fun i =>
               Ok (upd m i (upd (nth i m []) (Z.to_nat dim) true)))
        else Ok m) (zrange (a - 1) b) m
    | _ => Err IndexError
    end)).
  Fixpoint bounds_pass (n_node n_dim : nat) (on : bool) (lines : list string) (m : list (list bool))
    : res (list (list bool)) :=
    match lines with
    | [] => Ok m
    | l :: ls =>
      if search_kw "*boundary" l then bounds_pass n_node n_dim true ls m
      else if on && (section_end l || blank l) then bounds_pass n_node n_dim false ls m
      else if on then rbind (flag_row n_node n_dim l m) (bounds_pass n_node n_dim on ls)
      else bounds_pass n_node n_dim on ls m
    end.

  (** 163-311: coordinates, elements (type and nodes) and Dirichlet flags *)
  Definition read_mesh (n_dim : nat) (lines : list string)
    : res (list (list C) * edict * list (list bool)) :=
    rbind (nodes_pass n_dim false lines) (fun coords =>
    if Nat.eqb (List.length coords) 0 then Err RuntimeError
    else if negb (rectangular coords) then Err ValueError
    else
      let n_node := List.length coords in
      rbind (elems_pass n_node None lines ([], [])) (fun e =>
      if negb (nodes_covered n_node (snd e)) then Err RuntimeError
      else rbind (bounds_pass n_node n_dim false lines (repeat (repeat false n_dim) n_node)) (fun flags =>
           Ok (coords, fst e, flags)))).
End Reader.

Section Writer.
  Context {C V : Type} (fmt : C -> string) (vstr : V -> string).
  Definition number {A} (l : list A) : list (nat * A) := combine (seq 1 (List.length l)) l.
  (** 477-484 *)
  Definition node_line (r : nat * list C) : string :=
    (pad_left 3 (nat_str (fst r)) ++ ", " ++ join ", " (map fmt (snd r)))%string.
  (** 485-491 *)
  Definition elem_line (r : nat * list nat) : string :=
    (pad_left 3 (nat_str (fst r)) ++ ", " ++ join ", " (map nat_str (snd r)))%string.
  (** 496-499 *)
  Definition bound_line (i j : nat) (v : V) : string :=
    (pad_left 3 (nat_str i) ++ ", " ++ nat_str j ++ ", " ++ nat_str j ++ ", " ++ vstr v)%string.
  Definition dirichlet := list (nat * list (nat * V)).
  (** 441-504 *)
  Definition write_mesh (coords : list (list C)) (conn : list (list nat)) (etype : string)
    (bcs : option dirichlet) : list string :=
    ["ADiMU mesh data file (generated from Links data)"; ""; "*Node"]
    ++ map node_line (number coords)
    ++ [""; ("*Element, type=" ++ etype)%string] ++ map elem_line (number conn)
    ++ match bcs with
       | None => []
       | Some d => [""; "*Boundary"] ++ flat_map (fun n => map (fun b => bound_line (fst n) (fst b) (snd b)) (snd n)) d
       end.
End Writer.
