(** Lou-Zhang-Yoon yield criterion: stress invariants, effective stress and
    convexity of the yield surface.
    Source: src/hookeai/simulators/fetorch/material/models/standard/lou.py
    814-960, 1571-1835.
    NaN is [None].  Simplifications: exact arithmetic; a division by zero gives
    [None] (in the convexity check the off-diagonal zeros become NaN, which is
    compared as False); data types and devices are left out. *)
From Coq Require Import Reals List Arith Bool.
From Verif Require Import Lib TensorModel HardeningModel.
Import ListNotations.
Local Open Scope R_scope.

(** torch.trace, torch.matmul, torch.det, torch.inverse of 3x3 tensors *)
Definition ttrace (a : T2) : R := a 0%nat 0%nat + a 1%nat 1%nat + a 2%nat 2%nat.
Definition tmatmul (a b : T2) : T2 := fun i j => a i 0%nat * b 0%nat j + a i 1%nat * b 1%nat j + a i 2%nat * b 2%nat j.
Definition tdet (a : T2) : R :=
  a 0%nat 0%nat * (a 1%nat 1%nat * a 2%nat 2%nat - a 1%nat 2%nat * a 2%nat 1%nat)
  - a 0%nat 1%nat * (a 1%nat 0%nat * a 2%nat 2%nat - a 1%nat 2%nat * a 2%nat 0%nat)
  + a 0%nat 2%nat * (a 1%nat 0%nat * a 2%nat 1%nat - a 1%nat 1%nat * a 2%nat 0%nat).
Definition nxt (i : nat) : nat := match i with 0 => 1 | 1 => 2 | _ => 0 end%nat.
(** adjugate: transposed cofactors *)
Definition tadj (a : T2) : T2 := fun j i =>
  a (nxt i) (nxt j) * a (nxt (nxt i)) (nxt (nxt j)) - a (nxt i) (nxt (nxt j)) * a (nxt (nxt i)) (nxt j).
Definition tinverse (a : T2) : res T2 :=
  if Req_EM_T (tdet a) 0 then Err RuntimeError else Ok (fun i j => tadj a i j / tdet a).

(** 814-852 *)
Record invariants := Inv { v_i1 : R; v_i2 : R; v_i3 : R; v_j1 : R; v_j2 : R; v_j3 : R }.
Definition get_stress_invariants (stress : T2) : invariants :=
  let i1 := ttrace stress in
  let i2 := (1/2) * (ttrace stress ^ 2 - ttrace (tmatmul stress stress)) in
  let i3 := tdet stress in
  let j1 := i1 in
  let j2 := (1/3) * i1 ^ 2 - i2 in
  let j3 := (2/27) * i1 ^ 3 - (1/3) * i1 * i2 + i3 in
  Inv i1 i2 i3 j1 j2 j3.

(** 854-924 *)
Record derivatives := Der { d_i1 : T2; d_j2 : T2; d_j3 : T2; d2_j2 : T4; d2_j3 : T4 }.
Definition get_stress_invariants_derivatives (stress : T2) : res derivatives :=
  let dev_stress := ddot42_1 3 (fodevprojsym 3) stress in
  let dev_stress_det := tdet dev_stress in
  rbind (tinverse dev_stress) (fun dev_stress_inv =>
  let ddsinv := fo_dinv_sym dev_stress_inv in
  let w6 := ddot24_1 3 dev_stress_inv (fodevprojsym 3) in
  let dw6 := ddot44_1 3 (ddot44_1 3 (fodevprojsym 3) ddsinv) (fodevprojsym 3) in
  let dj3 : T2 := fun i j => dev_stress_det * w6 i j in
  Ok (Der soid dev_stress dj3 (fodevprojsym 3)
        (fun i j k l => dyad22_1 w6 dj3 i j k l + dev_stress_det * dw6 i j k l))).

(** x**(1/2) and x**(1/3) of tensors: NaN for negative x *)
Definition pow_half (x : R) : option R := if rltb x 0 then None else Some (sqrt x).
Definition pow_third (x : R) : option R :=
  if rltb x 0 then None else if Req_EM_T x 0 then Some 0 else Some (Rpower x (1/3)).
(** 950-955: ((j2^3 - c j3^2)^(1/2) - d j3)^(1/3) *)
Definition lou_root (c d j2 j3 : R) : option R :=
  match pow_half (j2 ^ 3 - c * j3 ^ 2) with Some w => pow_third (w - d * j3) | None => None end.
(** 926-960 *)
Definition get_effective_stress (stress : T2) (a b c d : R) : option R :=
  let v := get_stress_invariants stress in
  match lou_root c d (v_j2 v) (v_j3 v) with Some w => Some (a * (b * v_i1 v + w)) | None => None end.

(** ** Convexity of the yield surface *)
(** principal deviatoric stresses; the code works on the diagonal matrix *)
Definition princ : Type := (R * R * R)%type.
(** 1719-1740 *)
Definition get_dev_stress (lode : R) : princ :=
  ((2/3) * cos lode, (2/3) * cos (2 * PI / 3 - lode), (2/3) * cos (4 * PI / 3 - lode)).
(** 1742-1767 *)
Definition convexity_function (s : princ) (c d : R) : option R :=
  let '(s1, s2, s3) := s in lou_root c d (1/2 * (s1 * s1 + s2 * s2 + s3 * s3)) (s1 * s2 * s3).
Definition pdiv (s : princ) (x : R) : princ := let '(s1, s2, s3) := s in (s1 / x, s2 / x, s3 / x).
Definition pmid (s t : princ) : princ :=
  let '(s1, s2, s3) := s in let '(t1, t2, t3) := t in ((s1 + t1) / 2, (s2 + t2) / 2, (s3 + t3) / 2).
(** a point of the yield surface, 1796-1805 *)
Definition arc_point (lode c d : R) : option princ :=
  match convexity_function (get_dev_stress lode) c d with
  | Some x => if Req_EM_T x 0 then None else Some (pdiv (get_dev_stress lode) x)
  | None => None
  end.
(** 1769-1813 *)
Definition lode_small : R := (1/1000) * (PI / 180).
Definition evaluate_convexity_lode (lode c d : R) : option R :=
  match arc_point lode c d, arc_point (lode + lode_small) c d with
  | Some a, Some b => convexity_function (pmid a b) c d
  | _, _ => None
  end.
(** 1702-1835 *)
Definition lode_angles : list R := map (fun k => (360 * (INR k / 999)) * (PI / 180)) (seq 0 1000).
Definition check_yield_surface_convexity (c d : R) : bool :=
  forallb (fun lode => match evaluate_convexity_lode lode c d with Some x => rleb x 1 | None => false end) lode_angles.

(** ** Boundary of the convexity domain and return mapping *)
(** polar angle, torch.atan2 *)
Definition atan2 (y x : R) : R :=
  let r := sqrt (x * x + y * y) in
  if Req_EM_T r 0 then 0 else if rltb y 0 then - acos (x / r) else acos (x / r).

Section Search.
  (** check_yield_surface_convexity, or any other check of (c, d) *)
  Variable is_convex : R -> R -> bool.
  (** 1675-1693: the loop; the result is the last (yield_c, yield_d), [None]
      inside when the loop body never ran, [None] outside when out of fuel *)
  Fixpoint search (theta tol : R) (fuel : nat) (r_lower r_upper : R) (last : option (R * R)) : option (option (R * R)) :=
    if rltb tol (r_upper - r_lower) then
      match fuel with
      | O => None
      | S f =>
          let r_mean := (r_upper + r_lower) / 2 in
          let yield_c := r_mean * cos theta in
          let yield_d := r_mean * sin theta in
          if is_convex yield_c yield_d then search theta tol f r_mean r_upper (Some (yield_c, yield_d))
          else search theta tol f r_lower r_mean (Some (yield_c, yield_d))
      end
    else Some last.
  (** 1644-1699: yield_c is unbound when the loop body never ran *)
  Definition directional_convex_boundary_gen (fuel : nat) (theta r_lower r_upper tol : R) : option (res (R * R)) :=
    match search theta tol fuel r_lower r_upper None with
    | None => None
    | Some None => Some (Err NameError)
    | Some (Some p) => Some (Ok p)
    end.
  (** the default arguments; 23 passes suffice *)
  Definition directional_convex_boundary (theta : R) : option (res (R * R)) :=
    directional_convex_boundary_gen 23 theta 0 5 (1 / 1000000).
  (** 1571-1609 *)
  Definition convexity_return_mapping (c d : R) : option (res (bool * R * R)) :=
    if is_convex c d then Some (Ok (true, c, d))
    else match directional_convex_boundary (atan2 d c) with
         | Some (Ok (c', d')) => Some (Ok (false, c', d'))
         | Some (Err e) => Some (Err e)
         | None => None
         end.
End Search.
