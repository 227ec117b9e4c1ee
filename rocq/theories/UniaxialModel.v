(** Boundary conditions of uniaxial specimens:
    src/hookeai/simulators/links/utilities/links_specimen_dirichlet.py.

    Numbers are of any type C with subtraction, the test |x| < 1e-8 (near), the
    test x > 1e-8 (above), float() (pf) and the format '11.4e' (fmt).  A file is
    the list of its lines.  Rows of coordinates hold three numbers: others,
    which the code refuses unless all of them are null, are IndexError.  The
    file system (225-229, 267-276, 293-301) is not modelled. *)
From Coq Require Import String Ascii List Bool Arith ZArith.
From Verif Require Import Lib PyStr PyDict TextLines SpecimenModel LinksFileModel.
Import ListNotations.
Local Open Scope string_scope.
Local Open Scope list_scope.

Section Uniaxial.
  Context {C : Type} (zero : C) (sub : C -> C -> C) (near above : C -> bool) (pf : string -> res C) (fmt : C -> string).

  (** 181-203: build_node_disps with loading_dim = 1 *)
  Definition node_disps (value : option C) : list C :=
    match value with None => [zero; zero; zero] | Some v => [zero; v; zero] end.
  (** 89-179: get_specimen_node_dbc *)
  Definition known_specimen (label : string) : bool :=
    String.eqb label "3d_tensile_double_notched" || String.eqb label "3d_tensile_dogbone".
  Definition node_dbc (label : string) (top disp : C) (x y z : C) : res (list nat * list C) :=
    if negb (known_specimen label) then Err RuntimeError
    else if near x && near y && near z then Ok ([1; 1; 1], node_disps None)
    else if near x && near (sub y top) && near z then Ok ([1; 1; 1], node_disps (Some disp))
    else if near x && near y then Ok ([1; 1; 0], node_disps None)
    else if near y && near z then Ok ([0; 1; 1], node_disps None)
    else if near x && near z then Ok ([1; 0; 1], node_disps None)
    else if near x && near (sub y top) then Ok ([1; 1; 0], node_disps (Some disp))
    else if near (sub y top) && near z then Ok ([0; 1; 1], node_disps (Some disp))
    else if near y then Ok ([0; 1; 0], node_disps None)
    else if near x then Ok ([1; 0; 0], node_disps None)
    else if near z then Ok ([0; 0; 1], node_disps None)
    else if near (sub y top) then Ok ([0; 1; 0], node_disps (Some disp))
    else Ok ([0; 0; 0], node_disps None).
  (** 33-87: build_specimen_dbc; a row holds label, code and displacements *)
  Definition dbc_row := (nat * (list nat * list C))%type.
  Fixpoint specimen_rows (label : string) (top disp : C) (i : nat) (coords : list (list C)) : res (list dbc_row) :=
    match coords with
    | [] => Ok []
    | [x; y; z] :: rest =>
      rbind (node_dbc label top disp x y z) (fun d =>
      rbind (specimen_rows label top disp (S i) rest) (fun rows =>
      Ok (if forallb (Nat.eqb 0) (fst d) then rows else (S i, d) :: rows)))
    | _ => Err IndexError
    end.
  Definition specimen_dbc (label : string) (top disp : C) (coords : list (list C)) : res (list dbc_row) :=
    specimen_rows label top disp 0 coords.

  (** 230-246: a line of the section *)
  Definition dbc_line (r : dbc_row) : string :=
    ("  " ++ pad_left 4 (nat_str (fst r)) ++ " " ++ join "" (map nat_str (fst (snd r))) ++ " "
     ++ join "" (map fmt (snd (snd r))))%string.
  (** 249-260: the nodes of the reaction group *)
  Definition reaction_nodes (rows : list dbc_row) : list nat :=
    map fst (filter (fun r => existsb above (snd (snd r))) rows).
  (** 205-276: write_links_dirichlet_bc_file *)
  Definition dbc_lines (group : bool) (rows : list dbc_row) : list string :=
    ("NODES_WITH_PRESCRIBED_DISPLACEMENTS " ++ nat_str (List.length rows))%string :: map dbc_line rows
    ++ (if group then
          [""; "NODE_GROUPS 1"; ("1 " ++ nat_str (List.length (reaction_nodes rows)))%string]
          ++ map nat_str (reaction_nodes rows)
        else []).
  (** 278-324: read_links_nodes_coords_mesh *)
  Definition read_nodes (lines : list string) : res (list (list C)) :=
    rbind (rows_pass "NODE_COORDINATES" (fun _ => Ok tt) (fun l => rmap pf (skipn 1 (words l))) None lines) bound.
End Uniaxial.
