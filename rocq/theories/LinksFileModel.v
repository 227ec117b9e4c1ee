(** Links input data files: the writer of the simulations and the readers used
    to convert them to specimen meshes.

    src/hookeai/simulators/links/links.py
      473-631 (_write_links_input_data_file),
      826-868 (_get_links_elem_type_data);
    src/hookeai/simulators/links/utilities/links_data_to_adimu.py
      59-141 (gen_adimu_data_from_links, mesh file only),
      142-194 (extract_element_type_from_links_data),
      195-231 (links_to_abaqus_elem_type),
      232-281 (extract_mesh_coordinates_from_links_data),
      282-330 (extract_mesh_connectivities_from_links_data),
      331-392 (extract_mesh_dirichlet_from_links_data).

    A file is the list of its lines. The loading incrementation and the
    materials are arbitrary lines. The formats '16.8e' and float() are the
    arguments fmt and pf; the mesh dictionaries, whose keys are read as 1 to n,
    are lists in that order. Variables never assigned are NameError (Python's
    UnboundLocalError). The counts after the keywords, which the readers convert
    to integers and ignore, are converted as well. numpy's errors on rows of
    different lengths are not modelled. *)
From Coq Require Import String Ascii List Bool Arith ZArith.
From Verif Require Import Lib PyStr PyDict TextLines SpecimenModel.
Import ListNotations.
Local Open Scope string_scope.
Local Open Scope list_scope.

(** links.py 826-868: patch element, Links element and Gauss points *)
Definition links_elem_type (n_dim : nat) (t : string) : res (string * nat) :=
  if Nat.eqb n_dim 2 then
    if String.eqb t "SQUAD4" then Ok ("QUAD4", 4)
    else if String.eqb t "SQUAD8" then Ok ("QUAD8", 4) else Err RuntimeError
  else if String.eqb t "SHEXA8" then Ok ("HEXA8", 8)
  else if String.eqb t "SHEXA20" then Ok ("HEXA20", 8) else Err RuntimeError.

(** links_data_to_adimu.py 195-231 *)
Definition elem_type_table : dict string :=
  [("TRI_3_1", "CPE3"); ("TRI3_1", "CPE3"); ("QUAD_4_4", "CPE4"); ("QUAD4_4", "CPE4");
   ("TETRA_4_4", "C3D4"); ("TETRA4_4", "C3D4"); ("HEXA_8_8", "C3D8"); ("HEXA8_8", "C3D8");
   ("HEXA_20_8", "C3D20R"); ("HEXA20_8", "C3D20R")].
Definition links_to_abaqus (t : string) (n_gauss : Z) : res string :=
  match dget elem_type_table (t ++ "_" ++ (if (n_gauss <? 0)%Z then "-" else "") ++ nat_str (Z.abs_nat n_gauss))%string with
  | Some a => Ok a
  | None => Err RuntimeError
  end.

Section Write.
  Context {C : Type} (fmt : C -> string) (zero : C).
  Record params := mkParams { p_title : string; p_analysis : string; p_large : string; p_algorithm : string;
    p_solver : string; p_parallel : string; p_vtk : string; p_node_out : string; p_global_out : string }.
  (** 588-592 *)
  Definition links_elem_line (r : nat * (nat * list nat)) : string :=
    (pad_left 3 (nat_str (fst r)) ++ pad_center 5 (nat_str (fst (snd r))) ++ join " " (map nat_str (snd (snd r))))%string.
  (** 594-599 *)
  Definition links_node_line (r : nat * list C) : string :=
    (pad_left 3 (nat_str (fst r)) ++ " " ++ join " " (map fmt (snd r)))%string.
  (** 606-622: '{:16.8e}'.format(None) raises TypeError *)
  Definition fmt_opt (v : option C) : res string := match v with Some c => Ok (fmt c) | None => Err TypeError end.
  Definition links_disp_line (n_dim : nat) (r : nat * list (option C)) : res string :=
    let disp := if Nat.eqb n_dim 2 then snd r ++ [Some zero] else snd r in
    let code := map (fun v : option C => match v with Some _ => "1" | None => "0" end) disp in
    rbind (rmap fmt_opt disp) (fun vals =>
    Ok (" " ++ pad_left 3 (nat_str (fst r)) ++ " " ++ join "" code ++ join " " vals)%string).
  (** 473-631: [disps] is sorted by node label (604-605) *)
  Definition links_lines (ip : params) (increm mats : list string) (phases : list nat) (n_dim : nat)
    (elem_type : string) (n_gauss : nat) (coords : list (list C)) (conn : list (nat * list nat))
    (disps : list (nat * list (option C))) : res (list string) :=
    rbind (rmap (links_disp_line n_dim) disps) (fun disp_lines =>
    Ok ([""; "TITLE "; p_title ip; ""; ("ANALYSIS_TYPE " ++ p_analysis ip)%string; "";
         ("LARGE_STRAIN_FORMULATION " ++ p_large ip)%string; ""; ("SOLUTION_ALGORITHM " ++ p_algorithm ip)%string]
        ++ increm
        ++ [""; ""; ("SOLVER " ++ p_solver ip)%string; ""; ("PARALLEL_SOLVER " ++ p_parallel ip)%string; "";
            ("VTK_OUTPUT " ++ p_vtk ip)%string; ""; p_node_out ip; ""; p_global_out ip; "";
            ("VTK_OUTPUT " ++ p_vtk ip)%string; ""; ("ELEMENT_GROUPS " ++ nat_str (List.length phases))%string]
        ++ map (fun m => (nat_str m ++ " 1 " ++ nat_str m)%string) phases
        ++ [""; "ELEMENT_TYPES 1"; ("1 " ++ elem_type)%string; ("  " ++ nat_str n_gauss ++ " GP")%string; "";
            ("MATERIALS " ++ nat_str (List.length phases))%string]
        ++ mats
        ++ [""; ("ELEMENTS " ++ nat_str (List.length conn))%string]
        ++ map links_elem_line (number conn)
        ++ [""; ("NODE_COORDINATES " ++ nat_str (List.length coords) ++ " CARTESIAN")%string]
        ++ map links_node_line (number coords)
        ++ [""; ("NODES_WITH_PRESCRIBED_DISPLACEMENTS " ++ nat_str (List.length disps))%string]
        ++ disp_lines)).
End Write.

Section Extract.
  Context {C : Type} (pf : string -> res C).
  Definition nth_word (k : nat) (l : string) : res string :=
    match nth_error (words l) k with Some w => Ok w | None => Err IndexError end.
  Definition count_of (l : string) : res Z := rbind (nth_word 1 l) py_int.
  (** re.search(r'\bGP\b', line, re.IGNORECASE) *)
  Fixpoint search_gp (prev : bool) (s : string) : bool :=
    (negb prev && match drop_ci "GP" s with Some rest => at_boundary rest | None => false end)
    || match s with String c t => search_gp (is_word c) t | EmptyString => false end.
  Fixpoint upper_str (s : string) : string :=
    match s with
    | EmptyString => EmptyString
    | String c t =>
      let n := nat_of_ascii c in
      String (if Nat.leb 97 n && Nat.leb n 122 then ascii_of_nat (n - 32) else c) (upper_str t)
    end.
  (** 142-194: type and Gauss points, if assigned *)
  Fixpoint type_pass (on : bool) (lines : list string) (acc : option string * option Z) : res (option string * option Z) :=
    match lines with
    | [] => Ok acc
    | l :: ls =>
      if search_kw "ELEMENT_TYPES" l
      then rbind (count_of l) (fun n => if (1 <? n)%Z then Err RuntimeError else type_pass true ls acc)
      else if on && (section_end l || blank l) then Ok acc
      else if on then
        if search_gp false l
        then rbind (nth_word 0 l) (fun w => rbind (py_int w) (fun n => type_pass on ls (fst acc, Some n)))
        else rbind (nth_word 1 l) (fun w => type_pass on ls (Some (upper_str w), snd acc))
      else type_pass on ls acc
    end.
  Definition extract_type (lines : list string) : res (string * Z) :=
    rbind (type_pass false lines (None, None)) (fun a =>
    match a with (Some t, Some n) => Ok (t, n) | _ => Err NameError end).
  (** a section of rows, re-initialised by each occurrence of its keyword *)
  Fixpoint rows_pass {A} (kw : string) (head : string -> res unit) (row : string -> res A)
    (acc : option (list A)) (lines : list string) : res (option (list A)) :=
    match lines with
    | [] => Ok acc
    | l :: ls =>
      if search_kw kw l then rbind (head l) (fun _ => rows_pass kw head row (Some []) ls)
      else match acc with
           | None => rows_pass kw head row None ls
           | Some rows =>
             if section_end l || blank l then Ok acc
             else rbind (row l) (fun r => rows_pass kw head row (Some (rows ++ [r])) ls)
           end
    end.
  Definition bound {A} (o : option A) : res A := match o with Some a => Ok a | None => Err NameError end.
  Definition count_head (l : string) : res unit := rbind (count_of l) (fun _ => Ok tt).
  (** 232-281 *)
  Definition extract_coords (lines : list string) : res (list (list C)) :=
    rbind (rows_pass "NODE_COORDINATES" count_head (fun l => rmap pf (skipn 1 (words l))) None lines) bound.
  (** 282-330 *)
  Definition extract_conn (lines : list string) : res (list (list Z)) :=
    rbind (rows_pass "ELEMENTS" count_head (fun l => rmap py_int (skipn 2 (words l))) None lines) bound.
  (** 369-384: node label, code and values of a line *)
  Fixpoint chars (s : string) : list string :=
    match s with EmptyString => [] | String c t => String c EmptyString :: chars t end.
  Definition disp_row (l : string) : res (Z * list (nat * C)) :=
    rbind (rbind (nth_word 0 l) py_int) (fun label =>
    rbind (rbind (nth_word 1 l) (fun w => rmap py_int (chars w))) (fun code =>
    rbind (rmap pf (firstn 3 (skipn 2 (words l)))) (fun vals =>
    rbind (rfold (fun acc i =>
             match nth_error code i with
             | None => Err IndexError
             | Some 1%Z => match nth_error vals i with Some v => Ok (acc ++ [(S i, v)]) | None => Err IndexError end
             | Some _ => Ok acc
             end) [0; 1; 2] []) (fun b => Ok (label, b))))).
  (** 331-392: a later line of the same node replaces the earlier one *)
  Definition extract_bcs (lines : list string) : res (list (Z * list (nat * C))) :=
    rbind (rows_pass "NODES_WITH_PRESCRIBED_DISPLACEMENTS" (fun _ => Ok tt) disp_row None lines) (fun o =>
    rbind (bound o) (fun rows => Ok (fold_left (fun d r => gset Z.eqb d (fst r) (snd r)) rows []))).
End Extract.

Section Convert.
  Context {C : Type} (pf : string -> res C) (fmt vstr : C -> string).
  (** 59-141 (mesh): negative labels, which cannot be written as such by the
      simulations, are errors of this model *)
  Definition to_label (z : Z) : res nat := if (0 <=? z)%Z then Ok (Z.to_nat z) else Err ValueError.
  Definition adimu_mesh (lines : list string) : res (list string) :=
    rbind (extract_type lines) (fun tg =>
    rbind (links_to_abaqus (fst tg) (snd tg)) (fun t =>
    rbind (extract_coords pf lines) (fun coords =>
    rbind (extract_conn lines) (fun zconn =>
    rbind (rmap (rmap to_label) zconn) (fun conn =>
    rbind (extract_bcs pf lines) (fun zbcs =>
    rbind (rmap (fun r => rbind (to_label (fst r)) (fun i => Ok (i, snd r))) zbcs) (fun bcs =>
    Ok (write_mesh fmt vstr coords conn t (Some bcs))))))))).
End Convert.
