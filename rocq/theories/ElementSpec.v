(** What interpolation with shape functions means, for an arbitrary list of
    node coordinates and shape function values. *)
From Coq Require Import Reals List Arith.
From Verif Require Import Lib.
Import ListNotations.
Local Open Scope R_scope.

(** Interpolation of nodal values. *)
Definition interp (N : list R) (v : nat -> R) : R :=
  rsum (length N) (fun j => nth j N 0 * v j).

(** d-th coordinate of a point. *)
Definition crd (p : list R) (d : nat) : R := nth d p 0.
Definition node (nodes : list (list R)) (j : nat) : list R := nth j nodes [].
