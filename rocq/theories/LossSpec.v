(** Equilibrium in plain terms. *)
From Coq Require Import Reals List Arith ZArith.
From Verif Require Import Lib LossModel.
Import ListNotations.
Local Open Scope R_scope.

(** Every free degree of freedom is balanced and every prescribed one carries
    the measured reaction. *)
Definition in_equilibrium (n_node n_dim : nat) (int ext reac : T2) (prescribed : nat -> nat -> Prop) : Prop :=
  forall i j, (i < n_node)%nat -> (j < n_dim)%nat ->
    (~ prescribed i j -> int i j = ext i j) /\
    (prescribed i j -> int i j - ext i j = reac i j).

(** Sum of the residuals over the degrees of freedom with a given label. *)
Definition set_residual (n_node n_dim : nat) (int ext reac : T2) (bc : labels) (l : Z) : R :=
  rsum n_node (fun i => rsum n_dim (fun j =>
    if Z.eqb (bc i j) l then int i j - ext i j - reac i j else 0)).

(** Squared residuals of the free degrees of freedom (label 0). *)
Definition free_residual2 (n_node n_dim : nat) (int ext : T2) (bc : labels) : R :=
  rsum n_node (fun i => rsum n_dim (fun j =>
    if Z.eqb (bc i j) 0 then (int i j - ext i j) ^ 2 else 0)).

(** [ls] lists the labels of the Dirichlet sets, without repetition. *)
Definition dirichlet_labels (n_node n_dim : nat) (bc : labels) (ls : list Z) : Prop :=
  NoDup ls /\ forall l, In l ls <-> (l <> 0%Z /\ exists i j, (i < n_node)%nat /\ (j < n_dim)%nat /\ bc i j = l).
