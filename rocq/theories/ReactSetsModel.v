(** Specimen data processing:
    src/hookeai/user_scripts/global_model_update/utilities/process_specimen_data.py
    plot_nodes_displacement_history 58-139 (data of the plots),
    build_dirichlet_sets_reaction_history 226-319,
    compare_reaction_forces_history 321-384 (data array),
    copy_dbc_labels 386-440, extract_dirichlet_sets_node_lists 684-752.

    Histories are functions of node, dimension and time (numbered from 0); the
    codes are integers (gen_specimen_data.py 454).  Data frames are lists of named
    columns, NaN being [None]; writing a frame and reading it back is the
    identity.  Figures are not modelled. *)
From Coq Require Import String ZArith Reals List Bool Arith.
From Verif Require Import Lib PyDict PyStr SpecimenModel InpLinksModel.
Import ListNotations.
Local Open Scope string_scope.
Local Open Scope list_scope.

(** torch.unique: sorted without repetitions *)
Fixpoint zins (x : Z) (l : list Z) : list Z :=
  match l with
  | [] => [x]
  | y :: t => if (x <? y)%Z then x :: l else if (x =? y)%Z then l else y :: zins x t
  end.
Definition unique (l : list Z) : list Z := fold_right zins [] l.

Section Build.
Variables (n_node n_dim n_time : nat).
Variable bc : nat -> nat -> nat -> Z.          (* dirichlet_bc_mesh_hist *)
Variable force : nat -> nat -> nat -> R.       (* reaction_forces_mesh_hist *)
(** 269 *)
Definition init_codes (i : nat) : list Z := map (fun a => bc a i 0%nat) (seq 0 n_node).
(** 297 *)
Definition label_mask (i : nat) (l : Z) : list nat := filter (fun a => (bc a i 0%nat =? l)%Z) (seq 0 n_node).
Definition rlsum (l : list R) : R := fold_right Rplus 0%R l.
Definition set_label (i : nat) (l : Z) : string := "dim_" ++ nat_str (i + 1) ++ "_label_" ++ z_str l.
(** 291-311: label, node list and history of each set *)
Definition build_sets : list (string * list nat * list R) :=
  flat_map (fun i => map (fun l =>
    (set_label i l, map (fun a => (a + 1)%nat) (label_mask i l),
     map (fun t => rlsum (map (fun a => force a i t) (label_mask i l))) (seq 0 n_time)))
    (unique (init_codes i))) (seq 0 n_dim).
End Build.
Definition set_name (s : string * list nat * list R) := fst (fst s).
Definition set_nodes (s : string * list nat * list R) := snd (fst s).
Definition set_hist (s : string * list nat * list R) := snd s.

(** 341-361: the columns of the comparison, in order *)
Definition compare_columns (labels : option (list string)) (hists : list (list R)) (n_time : nat) : res (list (list R)) :=
  if (match labels with Some l => negb (Nat.eqb (length l) (length hists)) | None => false end) then Err RuntimeError
  else Ok (flat_map (fun h => [map INR (seq 0 n_time); h]) hists).

(** 92-127: nodes whose displacements are plotted, each as the index of its row *)
Inductive labels_arg := LNone | LInt (k : Z) | LList (ks : list Z) | LStr (s : string).
Definition plotted_rows (n_node : nat) (a : labels_arg) : res (list (Z * nat)) :=
  rbind (match a with
         | LInt k => Ok [k]
         | LList ks => Ok ks
         | LStr s => if (s =? "all")%string then Ok (map (fun k => Z.of_nat k + 1)%Z (seq 0 n_node)) else Err ValueError
         | LNone => Err ValueError
         end) (fun ks =>
  rmap (fun k => rbind (py_index n_node (k - 1)) (fun r => Ok (k, r))) ks).

(** 417-440 *)
Definition column := list (option R).
Definition frame := list (string * column).
Definition dbc_columns : list string := ["DBC1"; "DBC2"; "DBC3"].
Definition n_rows (f : frame) : nat := match f with (_, c) :: _ => length c | [] => 0 end.
(** column assignment aligns the rows by their index *)
Definition align (n : nat) (c : column) : column := map (fun r => nth r c None) (seq 0 n).
Definition copy_columns (src tgt : frame) : frame :=
  fold_left (fun f k => match gget String.eqb src k with Some c => gset String.eqb f k (align (n_rows tgt) c) | None => f end)
            dbc_columns tgt.
Definition gmem (f : frame) (k : string) : bool := match gget String.eqb f k with Some _ => true | None => false end.
(** the file of each time step is overwritten in turn *)
Fixpoint copy_loop (src tgt : list frame) : list frame * res unit :=
  match src, tgt with
  | s :: src', t :: tgt' =>
    if forallb (fun k => gmem s k) dbc_columns then
      let '(out, r) := copy_loop src' tgt' in (copy_columns s t :: out, r)
    else (tgt, Err RuntimeError)
  | _, _ => (tgt, Ok tt)
  end.
Definition copy_dbc_labels (src tgt : list frame) : list frame * res unit :=
  if negb (Nat.eqb (length src) (length tgt)) then (tgt, Err RuntimeError) else copy_loop src tgt.

(** 715-727 *)
Definition set_elements (conn : list (Z * list nat)) (nodes : list nat) : list Z :=
  map fst (filter (fun e => existsb (fun a => existsb (Nat.eqb a) nodes) (snd e)) conn).
(** 731-745: sets displayed *)
Definition contains (pat s : string) : bool := match index 0 pat s with Some _ => true | None => false end.
Definition displayed (sets : list (string * list nat * list R)) : list (string * list nat * list R) :=
  filter (fun s => negb (contains "label_0" (set_name s))) sets.
