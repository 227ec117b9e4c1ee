(** Conversion of meshes between Links and Abaqus input files:
    src/hookeai/simulators/links/utilities/links_dat_to_inp.py.

    Files, numbers and labels are those of SpecimenModel and LinksFileModel: a
    file is the list of its lines, float() and the format '16.8e' are the
    arguments pf and fmt, dictionary keys str(i) are the integer i.  The file
    system (41-58, 206-214, 356-360) is not modelled. *)
From Coq Require Import String Ascii List Bool Arith ZArith.
From Verif Require Import Lib PyStr PyDict TextLines HybridModel SpecimenModel LinksFileModel.
Import ListNotations.
Local Open Scope string_scope.
Local Open Scope list_scope.

(** str(i) *)
Definition z_str (z : Z) : string := if (z <? 0)%Z then String "-" (nat_str (Z.abs_nat z)) else nat_str (Z.abs_nat z).

(** 27-216: links_dat_to_abaqus_inp extracts and writes as the conversion of
    links_data_to_adimu.py (the same keywords, rows and formats, 60-205), below
    another title (190). *)
Definition inp_title : string := "Automatically generated ABAQUS format input file".
Definition dat_to_inp {C} (pf : string -> res C) (fmt vstr : C -> string) (lines : list string) : res (list string) :=
  rbind (adimu_mesh pf fmt vstr lines) (fun out => Ok (inp_title :: tl out)).

Section InpToDat.
  Context {C : Type} (pf : string -> res C) (fmt : C -> string) (zero : C).

  (** 268-309: the *ELEMENT sections; a header without the type is None.groups() *)
  Fixpoint conn_pass (n_node : nat) (on : bool) (lines : list string) (acc : list (Z * list nat) * list nat)
    : res (list (Z * list nat) * list nat) :=
    match lines with
    | [] => Ok acc
    | l :: ls =>
      if search_kw "*element, type" l
      then match type_value l with Some _ => conn_pass n_node true ls acc | None => Err AttributeError end
      else if on && (section_end l || blank l) then conn_pass n_node false ls acc
      else if on then rbind (elem_row n_node l) (fun r =>
             conn_pass n_node on ls (gset Z.eqb (fst acc) (fst r) (snd r), snd acc ++ snd r))
      else conn_pass n_node on ls acc
    end.

  (** 337-350: a row of the *BOUNDARY sections *)
  Definition nodal := list (Z * list (Z * C)).
  Definition node_bcs (d : nodal) (id : Z) : list (Z * C) := match gget Z.eqb d id with Some e => e | None => [] end.
  Definition bc_row (line : string) (d : nodal) : res nodal :=
    let fields := split_on "," line in
    rbind (py_int (hd "" fields)) (fun id =>
    rbind (rmap py_int (firstn 2 (tl fields))) (fun dofs =>
    match nth_error fields 3 with
    | None => Err IndexError
    | Some w =>
      rbind (pf w) (fun v =>
      match dofs with
      | [a; b] => Ok (gset Z.eqb d id (fold_left (fun e dim => gset Z.eqb e dim v) (zrange (a - 1) b) (node_bcs d id)))
      | _ => Err IndexError
      end)
    end)).
  (** 320-350 *)
  Fixpoint bcs_pass (on : bool) (lines : list string) (d : nodal) : res nodal :=
    match lines with
    | [] => Ok d
    | l :: ls =>
      if search_kw "*boundary" l then bcs_pass true ls d
      else if on && (section_end l || blank l) then bcs_pass false ls d
      else if on then rbind (bc_row l d) (bcs_pass on ls)
      else bcs_pass on ls d
    end.

  (** 363-369: element rows in the order of the labels 1 to n *)
  Definition elem_lines (conn : list (Z * list nat)) : res (list string) :=
    rmap (fun e => match gget Z.eqb conn (Z.of_nat e) with
                   | Some nodes => Ok (links_elem_line (e, (1, nodes)))
                   | None => Err KeyError
                   end) (seq 1 (List.length conn)).
  (** 382-399: code and values of the three components, and the angle in two
      dimensions *)
  Definition dim_code (e : list (Z * C)) (k : nat) : string := match gget Z.eqb e (Z.of_nat k) with Some _ => "1" | None => "0" end.
  Definition dim_value (e : list (Z * C)) (k : nat) : C := match gget Z.eqb e (Z.of_nat k) with Some v => v | None => zero end.
  Definition nodal_line (n_dim : nat) (d : nodal) (id : Z) : string :=
    let e := node_bcs d id in
    (" " ++ pad_left 3 (z_str id) ++ " " ++ join "" (map (dim_code e) [0; 1; 2])
     ++ join " " (map fmt (map (dim_value e) [0; 1; 2] ++ (if Nat.eqb n_dim 2 then [zero] else []))))%string.

  (** 218-404: abaqus_inp_to_links_dat *)
  Definition inp_to_dat (n_dim : nat) (lines : list string) : res (list string) :=
    rbind (nodes_pass pf n_dim false lines) (fun coords =>
    if Nat.eqb (List.length coords) 0 then Err RuntimeError
    else
      let n_node := List.length coords in
      rbind (conn_pass n_node false lines ([], [])) (fun e =>
      if negb (nodes_covered n_node (snd e)) then Err RuntimeError
      else rbind (bcs_pass false lines []) (fun d =>
           rbind (elem_lines (fst e)) (fun elems =>
           Ok ([""; ("ELEMENTS " ++ nat_str (List.length (fst e)))%string] ++ elems
               ++ [""; ("NODE_COORDINATES " ++ nat_str n_node ++ " CARTESIAN")%string]
               ++ map (links_node_line fmt) (number coords)
               ++ [""; ("NODES_WITH_PRESCRIBED_DISPLACEMENTS " ++ nat_str (List.length d))%string]
               ++ map (nodal_line n_dim d) (isort (fun z => z) (map fst d))))))).
End InpToDat.
