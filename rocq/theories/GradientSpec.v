(** Spatial gradients, virtual work and resultants, in index notation. *)
From Coq Require Import Reals List Arith.
From Verif Require Import Lib TensorSpec MatrixSpec.
Import ListNotations.
Local Open Scope R_scope.

(** [G] is the spatial gradient (G a e = d u_a / d x_e) of the nodal field [u]
    at a point of an element with [n_node] nodes where the shape functions have
    local derivatives [dN]: chain rule through the map from local to spatial
    coordinates. *)
Definition spatial_gradient (n_node n : nat) (dN X u G : T2) : Prop :=
  forall a d, (a < n)%nat -> (d < n)%nat ->
    rsum n_node (fun j => dN j d * u j a)
    = rsum n (fun e => rsum n_node (fun j => dN j d * X j e) * G a e).

(** Nodal values of the affine field  t + G x. *)
Definition affine_field (n : nat) (t : nat -> R) (G : T2) (X : T2) : T2 :=
  fun j a => t a + rsum n (fun b => G a b * X j b).

(** Work of nodal forces (stored node by node) on nodal displacements. *)
Definition nodal_work (n_node n : nat) (f : nat -> R) (v : T2) : R :=
  rsum n_node (fun j => rsum n (fun a => f (j * n + a)%nat * v j a)).
