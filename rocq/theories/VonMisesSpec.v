(** Von Mises plasticity. *)
From Coq Require Import Reals List Arith.
From Verif Require Import Lib MatrixSpec TensorSpec HardeningModel.
Local Open Scope R_scope.

(** Frobenius norm and von Mises equivalent stress. *)
Definition tnorm (a : T2) : R := sqrt (ddot 3 a a).
Definition vmises (s : T2) : R := sqrt (3 / 2 * ddot 3 (deviator3 s) (deviator3 s)).

(** Hardening laws with yield stresses bounded below by a positive number, and
    non-decreasing ones. *)
Definition law_above (ymin : R) (hl : hlaw) : Prop := forall a y h, hl a = Some (y, h) -> ymin <= y.
Definition law_monotone (hl : hlaw) : Prop :=
  forall a b y h y' h', a <= b -> hl a = Some (y, h) -> hl b = Some (y', h') -> y <= y'.

(** An admissible elastoplastic step from the elastic trial strain [et] and
    accumulated plastic strain [a] to the elastic strain [e'] and [a']:
    plastic flow is deviatoric and normal to the yield surface, [a' - a] is its
    equivalent size, an elastic step changes nothing, and the final stress is
    inside the updated yield surface, on it (to tolerance) after plastic flow. *)
Definition admissible_step (stress_of : T2 -> T2) (hl : hlaw) (tol : R) (et : T2) (a : R)
  (plast : bool) (e' : T2) (a' : R) : Prop :=
  symmetric 3 e' /\ trace 3 e' = trace 3 et /\
  (exists k, 0 <= k /\ eq2 3 (fun i j => et i j - e' i j) (fun i j => k * deviator3 (stress_of et) i j)) /\
  a' - a = sqrt (2 / 3) * tnorm (fun i j => et i j - e' i j) /\ a <= a' /\
  (plast = false -> a' = a /\ eq2 3 e' et) /\ (plast = true -> a < a') /\
  exists y h, hl a' = Some (y, h) /\ vmises (stress_of e') <= y * (1 + tol) /\
    (plast = true -> Rabs (vmises (stress_of e') - y) < tol * y).
