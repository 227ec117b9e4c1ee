(** Drucker-Prager plasticity. *)
From Coq Require Import Reals List Arith.
From Verif Require Import Lib MatrixSpec TensorSpec HardeningModel.
Local Open Scope R_scope.

(** Pressure, square root of the second deviatoric invariant, yield function. *)
Definition pressure (s : T2) : R := trace 3 s / 3.
Definition sqrtJ2 (s : T2) : R := sqrt (ddot 3 (deviator3 s) (deviator3 s) / 2).
Definition dp_yield (xi etay : R) (s : T2) (c : R) : R := sqrtJ2 s + etay * pressure s - xi * c.

(** Error relative to a cohesion, absolute if the cohesion is negligible. *)
Definition rel_err (x c : R) : R := if Rlt_dec (Rabs c) (/ 100000000) then x else x / Rabs c.

(** Flow direction at a stress: gradient of sqrt J2 + etaf * pressure. *)
Definition dp_flow (etaf : R) (s : T2) : T2 :=
  fun i j => 1 / (2 * sqrtJ2 s) * deviator3 s i j + etaf / 3 * ident i j.

Section Steps.
  Variables (sig : T2 -> T2) (xi etay etaf tol : R) (hl : hlaw).
  (** Steps from the elastic trial strain [et] and accumulated plastic strain [a]
      to [e'] and [a']. *)
  Definition dp_elastic_step (et : T2) (a : R) (e' : T2) (a' : R) : Prop :=
    eq2 3 e' et /\ a' = a /\ exists c h, hl a = Some (c, h) /\ rel_err (dp_yield xi etay (sig et) c) c <= tol.
  (** on the cone: flow along the gradient of the potential with multiplier [g],
      radial return of the deviatoric stress, yield condition *)
  Definition dp_cone_step (g : R) (et : T2) (a : R) (e' : T2) (a' : R) : Prop :=
    eq2 3 (fun i j => et i j - e' i j) (fun i j => g * dp_flow etaf (sig et) i j) /\
    (exists k, 0 <= k /\ eq2 3 (deviator3 (sig e')) (fun i j => k * deviator3 (sig et) i j)) /\
    a' - a = xi * g /\
    exists c h, hl a' = Some (c, h) /\ rel_err (Rabs (dp_yield xi etay (sig e') c)) c < tol.
  (** at the apex: hydrostatic stress at the apex pressure *)
  Definition dp_apex_step (x : R) (et : T2) (a : R) (e' : T2) (a' : R) : Prop :=
    trace 3 et - trace 3 e' = x /\ eq2 3 (deviator3 (sig e')) (fun _ _ => 0) /\ a' - a = xi / etaf * x /\
    exists c h, hl a' = Some (c, h) /\ rel_err (Rabs (xi / etay * c - pressure (sig e'))) c < tol.
End Steps.
