(** Hooke's law. *)
From Coq Require Import Reals List Arith.
From Verif Require Import Lib MatrixSpec TensorSpec.
Import ListNotations.
Local Open Scope R_scope.

(** Isotropic linear elasticity. *)
Definition hooke (lam mu : R) (e : T2) : T2 :=
  fun i j => lam * trace 3 e * ident i j + 2 * mu * e i j.

(** Sum of a list of tensors. *)
Definition tsum (l : list T2) : T2 := fun i j => lsum (map (fun e : T2 => e i j) l).

(** Plane strain: no out-of-plane components. *)
Definition plane (e : T2) : T2 :=
  fun i j => if andb (Nat.ltb i 2) (Nat.ltb j 2) then e i j else 0.

(** Twice the stored energy of a fourth-order stiffness. *)
Definition energy2 (C : T4) (e : T2) : R :=
  rsum 3 (fun i => rsum 3 (fun j => rsum 3 (fun k => rsum 3 (fun l => e i j * C i j k l * e k l)))).
Definition major_symmetric (n : nat) (C : T4) : Prop :=
  forall i j k l, (i < n)%nat -> (j < n)%nat -> (k < n)%nat -> (l < n)%nat -> C i j k l = C k l i j.
(** Change of frame of a strain tensor. *)
Definition rotate (Q e : T2) : T2 := mul2 3 (mul2 3 Q e) (transp Q).
Definition orthogonal (Q : T2) : Prop := eq2 3 (mul2 3 (transp Q) Q) ident.
(** Rotation about the third axis with cosine c and sine s. *)
Definition rot3 (c s : R) : T2 := fun i j =>
  match i, j with
  | O, O => c | O, 1%nat => - s | 1%nat, O => s | 1%nat, 1%nat => c | 2%nat, 2%nat => 1 | _, _ => 0
  end.
(** Reflections along the axes. *)
Definition reflect (a b c : bool) : T2 := fun i j =>
  if Nat.eqb i j then
    let g (x : bool) : R := if x then -1 else 1 in
    match i with O => g a | 1%nat => g b | _ => g c end
  else 0.
(** Material symmetry: the stored energy is not changed by the transformation. *)
Definition invariant (C : T4) (Q : T2) : Prop :=
  forall e, symmetric 3 e -> energy2 C (rotate Q e) = energy2 C e.
