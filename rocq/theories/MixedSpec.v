(** Mixed isotropic and kinematic hardening. *)
From Coq Require Import Reals List Arith.
From Verif Require Import Lib MatrixSpec TensorSpec HardeningModel VonMisesSpec.
Local Open Scope R_scope.

(** Equivalent size of a stress, and equivalent stress relative to the back
    stress [b]. *)
Definition equivalent (s : T2) : R := sqrt (3 / 2) * tnorm s.
Definition relative_stress (s b : T2) : T2 := fun i j => deviator3 s i j - b i j.

(** A step of the mixed hardening model from the elastic trial strain [et],
    accumulated plastic strain [a] and back stress [b] to [e'], [a'] and [b'].
    Plastic flow is deviatoric and normal to the yield surface, [a' - a] is its
    equivalent size, the back stress moves in the direction of the flow by
    [c * (k' - k)] in equivalent size, where [k] and [k'] are the kinematic
    hardening stresses, and the final relative stress is in the elastic domain,
    on its boundary (to tolerance) after plastic flow.  The theory has [c = 1]:
    the kinematic hardening curve gives the equivalent back stress. *)
Definition mixed_flow (stress_of : T2 -> T2) (kl : hlaw) (c : R) (et : T2) (a : R) (b : T2)
  (plast : bool) (e' : T2) (a' : R) (b' : T2) : Prop :=
  let eta := relative_stress (stress_of et) b in
  symmetric 3 e' /\ trace 3 e' = trace 3 et /\ symmetric 3 b' /\ trace 3 b' = 0 /\
  (exists m, 0 <= m /\ eq2 3 (fun i j => et i j - e' i j) (fun i j => m * eta i j)) /\
  a' - a = sqrt (2 / 3) * tnorm (fun i j => et i j - e' i j) /\ a <= a' /\
  (plast = false -> a' = a /\ eq2 3 e' et /\ eq2 3 b' b) /\
  (plast = true -> a < a' /\ exists k h k' h' m, kl a = Some (k, h) /\ kl a' = Some (k', h') /\ k <= k' /\
     0 <= m /\ eq2 3 (fun i j => b' i j - b i j) (fun i j => m * eta i j) /\
     equivalent (fun i j => b' i j - b i j) = c * (k' - k)).
Definition mixed_consistent (stress_of : T2 -> T2) (hl : hlaw) (tol : R) (plast : bool) (e' : T2) (a' : R) (b' : T2)
  : Prop :=
  exists y h, hl a' = Some (y, h) /\ equivalent (relative_stress (stress_of e') b') <= y * (1 + tol) /\
    (plast = true -> Rabs (equivalent (relative_stress (stress_of e') b') - y) < tol * y).
