(** Force equilibrium loss of the material model finder:
    src/hookeai/material_model_finder/model/material_discovery.py.

    A mesh force array is an index function (node, dimension) with sizes
    [n_node], [n_dim]; Dirichlet codes are integers.  [norm] is the optional
    force normalisation: the entrywise map of the min-max scaler with distinct
    bounds (ScalerModel.minmax_entry); equal bounds give NaN and are excluded.
    Devices not modelled. *)
From Coq Require Import Reals List Arith ZArith Bool.
From Verif Require Import Lib ScalerModel.
Import ListNotations.
Local Open Scope R_scope.

Definition labels := nat -> nat -> Z.

(** 1479-1488, 2718-2727: data_scaler_transform(..., mode='normalize') with the
    scaler of set_fitted_force_data_scalers (3451-3477): range [-1, 1]. *)
Definition norm_force (mn mx : list R) (j : nat) (x : R) : R :=
  (-1) * 1 + ((1 - -1) * 1 / (nth j mx 0 - nth j mn 0)) * (x - nth j mn 0).
Definition normalise (norm : option (list R * list R)) (f : T2) : T2 :=
  match norm with
  | None => f
  | Some (mn, mx) => fun i j => norm_force mn mx j (f i j)
  end.

(** 1496-1509: the double loop of force_equilibrium_loss. *)
Definition fel_dof (int ext reac : T2) (bc : labels) (i : nat) (loss : R) (j : nat) : R :=
  if Z.eqb (bc i j) 1 then loss + (int i j - ext i j - reac i j) ^ 2
  else loss + (int i j - ext i j) ^ 2.
Definition force_equilibrium_loss (norm : option (list R * list R)) (n_node n_dim : nat)
  (int ext reac : T2) (bc : labels) : R :=
  let int := normalise norm int in
  let ext := normalise norm ext in
  let reac := normalise norm reac in
  fold_left (fun loss i => fold_left (fel_dof int ext reac bc i) (seq 0 n_dim) loss)
            (seq 0 n_node) 0.

(** 2733-2736: vectorised pointwise loss. *)
Definition vpointwise (n_node n_dim : nat) (int ext reac : T2) (bc : labels) : R :=
  rsum n_node (fun i => rsum n_dim (fun j =>
    (int i j - ext i j - (if Z.eqb (bc i j) 1 then reac i j else 0)) ^ 2)).

(** torch.unique (sorted) and torch.bucketize (index of the first boundary not
    smaller than the value). *)
Fixpoint insert_unique (x : Z) (l : list Z) : list Z :=
  match l with
  | [] => [x]
  | y :: t => if (x <? y)%Z then x :: l else if (x =? y)%Z then l else y :: insert_unique x t
  end.
Definition unique (l : list Z) : list Z := fold_right insert_unique [] l.
Fixpoint bucketize (bounds : list Z) (v : Z) : nat :=
  match bounds with
  | [] => O
  | b :: t => if (v <=? b)%Z then O else S (bucketize t v)
  end.

(** 2738-2815: Dirichlet sets loss; all arrays flattened row by row
    (entry k of the flat array is (k / n_dim, k mod n_dim)). *)
Definition flat_of {A} (n_dim : nat) (f : nat -> nat -> A) (k : nat) : A :=
  f (k / n_dim)%nat (k mod n_dim)%nat.
Definition one_hot (dense : nat -> nat) (k s : nat) : R := if Nat.eqb (dense k) s then 1 else 0.

(** 2764-2815: loss terms from the contiguous set labels [dense]. *)
Definition sets_loss_ndbc (n_total : nat) (dense : nat -> nat) (int ext reac : nat -> R) : R :=
  let ndbc k := one_hot dense k 0 in
  let fe k := int k - ext k - reac k * (1 - ndbc k) in
  rsum n_total (fun k => (fe k * ndbc k) ^ 2).
Definition sets_loss_dbc (n_total n_sets : nat) (dense : nat -> nat) (int ext reac : nat -> R) : R :=
  let ndbc k := one_hot dense k 0 in
  let fe k := int k - ext k - reac k * (1 - ndbc k) in
  rsum (n_sets - 1) (fun s => (rsum n_total (fun k => fe k * one_hot dense k (S s))) ^ 2).
Definition vdirichlet_sets (n_node n_dim : nat) (int ext reac : T2) (bc : labels) : R :=
  let n_total := (n_node * n_dim)%nat in
  let lab := flat_of n_dim bc in
  let u := unique (map lab (seq 0 n_total)) in
  let dense k := bucketize u (lab k) in
  sets_loss_ndbc n_total dense (flat_of n_dim int) (flat_of n_dim ext) (flat_of n_dim reac)
  + sets_loss_dbc n_total (length u) dense (flat_of n_dim int) (flat_of n_dim ext) (flat_of n_dim reac).

Inductive loss_type := Pointwise | DirichletSets | UnknownLoss.

(** 2686-2820: vforce_equilibrium_loss. *)
Definition vforce_equilibrium_loss (lt : loss_type) (norm : option (list R * list R))
  (n_node n_dim : nat) (int ext reac : T2) (bc : labels) : res R :=
  let int := normalise norm int in
  let ext := normalise norm ext in
  let reac := normalise norm reac in
  match lt with
  | Pointwise => Ok (vpointwise n_node n_dim int ext reac bc)
  | DirichletSets => Ok (vdirichlet_sets n_node n_dim int ext reac bc)
  | UnknownLoss => Err RuntimeError
  end.

(** 3202-3260: compute_dirichlet_sets_reaction (one entry per set, label order). *)
Definition compute_dirichlet_sets_reaction (n_node n_dim : nat) (int ext : T2) (bc : labels) : list R :=
  let n_total := (n_node * n_dim)%nat in
  let lab := flat_of n_dim bc in
  let u := unique (map lab (seq 0 n_total)) in
  let dense k := bucketize u (lab k) in
  map (fun s => rsum n_total (fun k =>
         (flat_of n_dim int k - flat_of n_dim ext k) * one_hot dense k s)) (seq 0 (length u)).

(** 2634-2684: vforce_equilibrium_hist_loss: only the boundary codes of the
    first time step are used. *)
Definition vforce_equilibrium_hist_loss (lt : loss_type) (norm : option (list R * list R))
  (n_node n_dim n_time : nat) (weights : nat -> R) (int ext reac : nat -> T2) (bc : nat -> labels)
  : res R :=
  match lt with
  | UnknownLoss => Err RuntimeError
  | _ => Ok (rsum n_time (fun t => weights t *
           match vforce_equilibrium_loss lt norm n_node n_dim (int t) (ext t) (reac t) (bc O) with
           | Ok v => v | Err _ => 0 end))
  end.

(** 924-1000, 1136-1158: accumulation of the sequential modes. *)
Definition hist_loss (norm : option (list R * list R)) (n_node n_dim n_time : nat)
  (weights : nat -> R) (int ext reac : nat -> T2) (bc : labels) : R :=
  fold_left (fun loss t => loss + weights t *
      force_equilibrium_loss norm n_node n_dim (int t) (ext t) (reac t) bc) (seq 0 n_time) 0.

(** 2822-3005: force_equilibrium_loss_components_hist; entry (component, time).
    The normalised arrays computed at 2864-2876 are overwritten at 2886-2890,
    so the normalisation has no effect. *)
Definition loss_components (lt : loss_type) (norm : option (list R * list R)) (n_node n_dim : nat)
  (int ext reac : T2) (bc : labels) : res (list R) :=
  match lt with
  | UnknownLoss => Err RuntimeError
  | Pointwise => Ok [vpointwise n_node n_dim int ext reac bc]
  | DirichletSets =>
      let n_total := (n_node * n_dim)%nat in
      let lab := flat_of n_dim bc in
      let u := unique (map lab (seq 0 n_total)) in
      let dense k := bucketize u (lab k) in
      let a := sets_loss_ndbc n_total dense (flat_of n_dim int) (flat_of n_dim ext) (flat_of n_dim reac) in
      let b := sets_loss_dbc n_total (length u) dense (flat_of n_dim int) (flat_of n_dim ext) (flat_of n_dim reac) in
      Ok [a + b; a; b]
  end.
Definition force_equilibrium_loss_components_hist (lt : loss_type) (norm : option (list R * list R))
  (n_node n_dim : nat) (weights : nat -> R) (scaling : option R) (int ext reac : nat -> T2)
  (bc : nat -> labels) (t : nat) : res (list R) :=
  rbind (loss_components lt norm n_node n_dim (int t) (ext t) (reac t) (bc t)) (fun l =>
  let l := map (fun x => weights t * x) l in
  Ok (match scaling with None => l | Some c => map (fun x => c * x) l end)).

(** 880-885: the loss scaling factor applied by forward. *)
Definition scale_loss (scaling : option R) (loss : R) : R :=
  match scaling with None => loss | Some c => c * loss end.
