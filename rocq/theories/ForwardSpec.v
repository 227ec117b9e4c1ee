(** Displacement histories in plain terms. *)
From Coq Require Import Reals List Arith ZArith.
From Verif Require Import Lib.
Import ListNotations.
Local Open Scope R_scope.

(** Displacement of local node [a] in direction [d] of the element with node
    labels [nodes] (labels count from 1). *)
Definition node_value (rows : list (list R)) (nodes : list Z) : T2 :=
  fun a d => nth d (nth (Z.to_nat (nth a nodes 0%Z) - 1) rows []) 0.

(** A nodal array with [n_node] rows of [n_dim] entries. *)
Definition nodal_array (n_node n_dim : nat) (rows : list (list R)) : Prop :=
  length rows = n_node /\ forall r, In r rows -> length r = n_dim.
