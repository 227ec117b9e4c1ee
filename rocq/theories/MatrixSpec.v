(** Independent specification for tensor storage (no reference to the model
    of matrixops.py): what an admissible component order is, and plain index
    notation for contractions. *)
From Coq Require Import Reals List Arith.
From Verif Require Import Lib.
Import ListNotations.
Local Open Scope R_scope.

(** A component (i,j), digits counted from 1, lies in an n-dimensional tensor. *)
Definition comp_in (n : nat) (c : nat * nat) : Prop :=
  (1 <= fst c <= n)%nat /\ (1 <= snd c <= n)%nat.

(** A symmetric storage order lists each independent component of a symmetric
    tensor exactly once: every diagonal component, and exactly one of (i,j)
    and (j,i) for i <> j. *)
Definition sym_order (n : nat) (order : list (nat * nat)) : Prop :=
  NoDup order /\
  (forall c, In c order -> comp_in n c) /\
  (forall i j, (1 <= i <= n)%nat -> (1 <= j <= n)%nat ->
     In (i, j) order \/ In (j, i) order) /\
  (forall i j, i <> j -> In (i, j) order -> ~ In (j, i) order).

(** A full storage order lists every component exactly once. *)
Definition full_order (n : nat) (order : list (nat * nat)) : Prop :=
  NoDup order /\
  (forall c, In c order <-> comp_in n c).

Definition symmetric (n : nat) (t : T2) : Prop :=
  forall i j, (i < n)%nat -> (j < n)%nat -> t i j = t j i.

(** Minor symmetries of a fourth-order tensor. *)
Definition minor_symmetric (n : nat) (c : T4) : Prop :=
  forall i j k l, (i < n)%nat -> (j < n)%nat -> (k < n)%nat -> (l < n)%nat ->
    c i j k l = c j i k l /\ c i j k l = c i j l k.

(** Double contractions in index notation. *)
Definition ddot (n : nat) (a b : T2) : R := sum2 n (fun i j => a i j * b i j).
Definition ddot42 (n : nat) (c : T4) (a : T2) : T2 :=
  fun i j => sum2 n (fun k l => c i j k l * a k l).
Definition ddot44 (n : nat) (c d : T4) : T4 :=
  fun i j k l => sum2 n (fun p q => c i j p q * d p q k l).

(** Plain vector/matrix algebra on lists. *)
Definition dotl (u v : list R) : R :=
  rsum (length u) (fun i => nth i u 0 * nth i v 0).
Definition matvec (m : list (list R)) (v : list R) : list R :=
  map (fun r => dotl r v) m.
Definition matmul (a b : list (list R)) (p : nat) : list (list R) :=
  map (fun r => map (fun j => rsum (length r) (fun i => nth i r 0 * nth j (nth i b []) 0))
                    (seq 0 p)) a.

(** The 3D tensor with in-plane block [a] and out-of-plane entry [c]. *)
Definition embed3 (a : T2) (c : R) : T2 :=
  fun i j => if (Nat.ltb i 2 && Nat.ltb j 2)%bool then a i j
             else if (Nat.eqb i 2 && Nat.eqb j 2)%bool then c else 0.
