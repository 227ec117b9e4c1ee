(** Specification of strain and stress features and of the layers working on
    them (no reference to the models of the features). *)
From Coq Require Import Reals List Arith.
From Verif Require Import Lib MatrixSpec TensorSpec ElasticSpec.
Import ListNotations.
Local Open Scope R_scope.

(** The array lists the components of the tensor in the given order. *)
Definition stores (order : list (nat * nat)) (t : T2) (arr : list R) : Prop :=
  length arr = length order /\
  forall m c, nth_error order m = Some c -> nth m arr 0 = t (fst c - 1)%nat (snd c - 1)%nat.
(** The order determines the tensor: it lists every component, or the
    independent components of a symmetric tensor. *)
Definition readable (n : nat) (order : list (nat * nat)) (t : T2) : Prop :=
  (sym_order n order /\ symmetric n t) \/ full_order n order.

(** Principal invariants: the coefficients of the characteristic polynomial. *)
Definition det3 (a : T2) : R :=
  a 0%nat 0%nat * (a 1%nat 1%nat * a 2%nat 2%nat - a 1%nat 2%nat * a 2%nat 1%nat)
  - a 0%nat 1%nat * (a 1%nat 0%nat * a 2%nat 2%nat - a 1%nat 2%nat * a 2%nat 0%nat)
  + a 0%nat 2%nat * (a 1%nat 0%nat * a 2%nat 1%nat - a 1%nat 1%nat * a 2%nat 0%nat).
Definition principal_invariants (e : T2) (I1 I2 I3 : R) : Prop :=
  forall x, det3 (fun i j => x * ident i j - e i j) = x ^ 3 - I1 * x ^ 2 + I2 * x - I3.
