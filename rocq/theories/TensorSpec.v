(** Plain index-notation vocabulary for the identity operators. *)
From Coq Require Import Reals List Arith.
From Verif Require Import Lib.
Local Open Scope R_scope.

Definition trace (n : nat) (a : T2) : R := rsum n (fun i => a i i).
Definition transp (a : T2) : T2 := fun i j => a j i.
Definition symp (a : T2) : T2 := fun i j => (a i j + a j i) / 2.
Definition ident : T2 := fun i j => if Nat.eqb i j then 1 else 0.
Definition mul2 (n : nat) (a b : T2) : T2 := fun i j => rsum n (fun k => a i k * b k j).
(** Trace-free part of a three-dimensional tensor. *)
Definition deviator3 (a : T2) : T2 := fun i j => a i j - trace 3 a / 3 * ident i j.
