(** Exactness of quadrature: iterated Riemann integrals over the reference
    domains and polynomials given by their monomials. *)
From Coq Require Import Reals List Arith.
From Coquelicot Require Import Coquelicot.
From Verif Require Import Lib.
Import ListNotations.
Local Open Scope R_scope.

(** Sum of weights times values at the points of a rule. *)
Definition quad_sum (r : list (list R * R)) (f : list R -> R) : R :=
  lsum (map (fun pw => snd pw * f (fst pw)) r).

(** [I] is the integral of [f] over the reference domain. *)
Definition int_segment (f : R -> R) (I : R) : Prop := is_RInt f (-1) 1 I.
Definition int_square (f : R -> R -> R) (I : R) : Prop :=
  exists g : R -> R, (forall x, is_RInt (fun y => f x y) (-1) 1 (g x)) /\ is_RInt g (-1) 1 I.
Definition int_cube (f : R -> R -> R -> R) (I : R) : Prop :=
  exists g : R -> R, (forall x, int_square (fun y z => f x y z) (g x)) /\ is_RInt g (-1) 1 I.
(** Triangle with vertices (0,0), (1,0), (0,1). *)
Definition int_triangle (f : R -> R -> R) (I : R) : Prop :=
  exists g : R -> R, (forall x, is_RInt (fun y => f x y) 0 (1 - x) (g x)) /\ is_RInt g 0 1 I.
(** Tetrahedron with vertices at the origin and the three unit points. *)
Definition int_tetra (f : R -> R -> R -> R) (I : R) : Prop :=
  exists g : R -> R,
    (forall x, exists h : R -> R,
        (forall y, is_RInt (fun z => f x y z) 0 (1 - x - y) (h y)) /\
        is_RInt h 0 (1 - x) (g x)) /\
    is_RInt g 0 1 I.

(** Polynomials: lists of monomials (coefficient, exponents). *)
Definition poly1 := list (R * nat).
Definition poly2 := list (R * (nat * nat)).
Definition poly3 := list (R * (nat * nat * nat)).
Definition eval1 (p : poly1) (x : R) : R :=
  lsum (map (fun m => fst m * x ^ (snd m)) p).
Definition eval2 (p : poly2) (x y : R) : R :=
  lsum (map (fun m => fst m * (x ^ (fst (snd m)) * y ^ (snd (snd m)))) p).
Definition eval3 (p : poly3) (x y z : R) : R :=
  lsum (map (fun m => fst m * (x ^ (fst (fst (snd m))) * y ^ (snd (fst (snd m))) * z ^ (snd (snd m)))) p).

(** Degree restrictions: per variable (products of segments) or total
    (simplices). *)
Definition deg1 (d : nat) (p : poly1) : Prop := forall m, In m p -> (snd m <= d)%nat.
Definition degv2 (d : nat) (p : poly2) : Prop :=
  forall m, In m p -> (fst (snd m) <= d)%nat /\ (snd (snd m) <= d)%nat.
Definition degv3 (d : nat) (p : poly3) : Prop :=
  forall m, In m p -> (fst (fst (snd m)) <= d)%nat /\ (snd (fst (snd m)) <= d)%nat /\ (snd (snd m) <= d)%nat.
Definition degt2 (d : nat) (p : poly2) : Prop :=
  forall m, In m p -> (fst (snd m) + snd (snd m) <= d)%nat.
Definition degt3 (d : nat) (p : poly3) : Prop :=
  forall m, In m p -> (fst (fst (snd m)) + snd (fst (snd m)) + snd (snd m) <= d)%nat.

Definition pt (c : list R) (d : nat) : R := nth d c 0.
