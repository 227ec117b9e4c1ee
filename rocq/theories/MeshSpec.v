(** Assembly in plain terms. *)
From Coq Require Import Reals List Arith ZArith.
From Verif Require Import Lib.
Import ListNotations.
Local Open Scope R_scope.

(** Contribution of an element with node labels [nodes] (labels count from 1)
    and element array [a] ([nd] entries per node) to entry [d] of mesh node
    number [p] (counted from 0). *)
Definition contribution (nd : nat) (nodes : list Z) (a : list R) (p d : nat) : R :=
  rsum (length nodes) (fun i =>
    if Z.eqb (nth i nodes 0%Z) (Z.of_nat (S p)) then nth (i * nd + d) a 0 else 0).

(** Labels refer to existing nodes. *)
Definition labels_in_range (n_node : nat) (nodes : list Z) : Prop :=
  forall x, In x nodes -> (1 <= x <= Z.of_nat n_node)%Z.

(** Inner product. *)
Definition dot (u v : list R) : R := rsum (length u) (fun i => nth i u 0 * nth i v 0).

(** Element values of a nodal field, node by node. *)
Definition restrict (nd : nat) (nodes : list Z) (v : list R) : list R :=
  flat_map (fun x => map (fun d => nth ((Z.to_nat x - 1) * nd + d) v 0) (seq 0 nd)) nodes.
