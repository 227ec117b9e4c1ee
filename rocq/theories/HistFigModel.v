(** Figures of reaction forces and of the components of the force equilibrium
    loss (C133):
    user_scripts/global_model_update/utilities/process_specimen_data.py 171-224
    (plot_reaction_forces_history, with the sets of ReactSetsModel) and
    material_model_finder/model/material_discovery.py 3018-3066
    (store_force_equilibrium_loss_components_hist).
    A figure is the name of its file and the points of its curves; the
    displacements are a function of node, dimension and time (from 0), with
    negative indices of numpy counted from the end.
    Simplifications: scales, limits and labels of the axes are not modelled. *)
From Coq Require Import String ZArith Reals List Bool Arith.
From Verif Require Import Lib PyDict PyStr SpecimenModel ReactSetsModel.
Import ListNotations.
Local Open Scope string_scope.
Local Open Scope list_scope.

Section Reactions.
  Variables (n_node n_dim n_time : nat).
  Variable disp : nat -> nat -> nat -> R.
  (** 183-203: abscissae *)
  Definition abscissae (ref : option (Z * Z)) : res (list R) :=
    match ref with
    | Some (label, dim) =>
      rbind (py_index n_node (label - 1)) (fun a => rbind (py_index n_dim dim) (fun i => Ok (map (disp a i) (seq 0 n_time))))
    | None => Ok (map INR (seq 0 n_time))
    end.
  (** 171-224 *)
  Definition reaction_figures (ref : option (Z * Z)) (sets : list (string * list nat * list R)) : res (list (string * list (R * R))) :=
    rmap (fun s => rbind (abscissae ref) (fun x => Ok (("dirichlet_reaction_hist_" ++ set_name s)%string, combine x (set_hist s)))) sets.
End Reactions.

(** 3034-3055: data file and the curves with their labels; the first row is the
    total loss *)
Definition component_label (i : nat) : string := match i with 0%nat => "Total" | _ => ("Component " ++ nat_str i)%string end.
Definition loss_components (hist : list (list R)) : list (list R) * list (string * list (R * R)) :=
  (hist, map (fun ir => (component_label (fst ir), combine (map INR (seq 0 (length (snd ir)))) (snd ir))) (combine (seq 0 (length hist)) hist)).
