(** Comparison of material models and of predictions of models on one path (C121):
    miscellaneous/materials/compare_material_models.py 52-205
    (compare_material_model_response) and
    miscellaneous/file_processing/plot_prediction_files.py 34-105
    (plot_models_stress_prediction).
    The response of a constitutive model is compute_stress_path of ResponseModel
    (no state features). A figure is its component, its labels and its columns.
    Drawing, messages and the figures in the space of principal stresses are not
    modelled, except that the latter read the component order. *)
From Coq Require Import String Reals List Arith Bool.
From Verif Require Import Lib PyDict MatrixModel RcModel ResponseModel.
Import ListNotations.
Local Open Scope list_scope.

Definition comp_eqb (a b : comp) : bool := Nat.eqb (fst a) (fst b) && Nat.eqb (snd a) (snd b).
(** tuple.index *)
Fixpoint comp_index (order : list comp) (c : comp) : res nat :=
  match order with
  | [] => Err ValueError
  | d :: order => if comp_eqb d c then Ok 0%nat else rbind (comp_index order c) (fun k => Ok (S k))
  end.
(** m[:, k]: all rows of an array have one width *)
Definition column (m : list (list R)) (k : nat) : res (list R) :=
  rmap (fun r => match nth_error r k with Some x => Ok x | None => Err IndexError end) m.
(** assignment of a column of n entries, with the broadcast of a single one *)
Definition fill (n : nat) (c : list R) : res (list R) :=
  if Nat.eqb (length c) n then Ok c else if Nat.eqb (length c) 1 then Ok (repeat (nth 0 c 0%R) n) else Err ValueError.

Record model := Model { m_su : T2 -> rc_state -> rc_state; m_init : rc_state }.
Section Compare.
  Variable n_dim : nat.
  Variable comp_order_sym : list comp.
  Variable order : list comp.
  Variable times : list R.
  Variable strains : list (list R).
  (** 93-118: stress path and failure of every model; the failure is printed only *)
  Definition predict (m : model) : res (list (list R)) :=
    rbind (compute_stress_path n_dim comp_order_sym (m_su m) (m_init m) [] false order strains) (fun o => Ok (po_stress o)).
  Fixpoint predictions (models : dict model) : res (dict (list (list R))) :=
    match models with
    | [] => Ok []
    | (name, m) :: models => rbind (predict m) (fun p => rbind (predictions models) (fun ps => Ok ((name, p) :: ps)))
    end.
  (** 120-128: the order of the components is that of the last model *)
  Definition add_reference (models : dict model) (ps : dict (list (list R))) (ref : option (list (list R))) : res (dict (list (list R))) :=
    match ref with
    | None => Ok ps
    | Some r => match models with [] => Err NameError | _ => Ok (dset ps "reference" r) end
    end.
  (** 137-160: one figure per component *)
  Fixpoint columns (c : comp) (ps : dict (list (list R))) : res (list (list R)) :=
    match ps with
    | [] => Ok []
    | (_, p) :: ps =>
      rbind (comp_index order c) (fun k =>
      rbind (column p k) (fun y => rbind (fill (length times) y) (fun y =>
      rbind (columns c ps) (fun cs => Ok (times :: y :: cs)))))
    end.
  Definition figure := (comp * list string * list (list R))%type.
  Definition figures (ps : dict (list (list R))) : res (list figure) :=
    rmap (fun c => rbind (columns c ps) (fun cs => Ok (c, map fst ps, cs))) comp_order_sym.
  (** 52-205 *)
  Definition compare_models (models : dict model) (ref : option (list (list R))) : res (list figure) :=
    rbind (predictions models) (fun ps =>
    rbind (add_reference models ps ref) (fun ps =>
    rbind (figures ps) (fun figs =>
    if Nat.eqb n_dim 3 then match models with [] => Err NameError | _ => Ok figs end else Ok figs))).
End Compare.

(** plot_prediction_files.py 34-105 *)
Section Predictions.
  Variable times : list R.
  (** np.stack of two vectors *)
  Definition stack (x y : list R) : res (list (R * R)) := if Nat.eqb (length x) (length y) then Ok (combine x y) else Err ValueError.
  Definition curve (m : list (list R)) (i : nat) : res (list (R * R)) := rbind (column m i) (stack times).
  Definition sets_after (truth : option (list (list R))) (models : dict (list (list R))) (i : nat)
      (sets : dict (list (R * R))) : res (dict (list (R * R))) :=
    rbind (match truth with
           | Some t => rbind (curve t i) (fun c => Ok (dset sets "Ground-truth" c))
           | None => Ok sets
           end) (fun sets =>
    rfold (fun sets nm => rbind (curve (snd nm) i) (fun c => Ok (dset sets (fst nm) c))) models sets).
  (** the dictionary of curves of every component, which is kept between them *)
  Fixpoint component_sets (truth : option (list (list R))) (models : dict (list (list R))) (is_ : list nat)
      (sets : dict (list (R * R))) : res (list (dict (list (R * R)))) :=
    match is_ with
    | [] => Ok []
    | i :: is_ => rbind (sets_after truth models i sets) (fun sets =>
                  rbind (component_sets truth models is_ sets) (fun l => Ok (sets :: l)))
    end.
  Definition plot_models (n_comp : nat) (stress_path : list (list R)) (is_plot_ground_truth : bool) (models : dict (list (list R)))
    : res (list (dict (list (R * R)))) :=
    component_sets (if is_plot_ground_truth then Some stress_path else None) models (seq 0 n_comp) [].
End Predictions.
