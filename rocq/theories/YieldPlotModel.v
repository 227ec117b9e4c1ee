(** Yield surfaces in principal and pi-stress coordinates:
    src/hookeai/miscellaneous/materials/plot_yield_surface.py 56-420.

    The stress invariants (239-277) are the formulas of the Lou-Zhang-Yoon
    material, modelled in LouModel.  NaN or infinite values are [None]; exact
    arithmetic.  Model parameters are a dictionary of numbers.  The contours,
    slices and figures (421-797) are not modelled. *)
From Coq Require Import Reals String List Bool Arith.
From Verif Require Import Lib PyDict TensorModel HardeningModel LouModel.
Import ListNotations.
Local Open Scope string_scope.
Local Open Scope list_scope.
Local Open Scope R_scope.

(** np.diag((s1, s2, s3)) *)
Definition diag3 (s1 s2 s3 : R) : T2 := fun i j =>
  match i, j with 0%nat, 0%nat => s1 | 1%nat, 1%nat => s2 | 2%nat, 2%nat => s3 | _, _ => 0 end.
(** the perturbation of the second invariant: 128, 173, 224 *)
Definition eps : R := / 10000000000.
Definition param (d : list (string * R)) (k : string) : res R :=
  match gget String.eqb d k with Some x => Ok x | None => Err KeyError end.
(** 101-137 *)
Definition yf_von_mises (s1 s2 s3 sy : R) : R :=
  let j2 := v_j2 (get_stress_invariants (diag3 s1 s2 s3)) + eps in
  sqrt (3 * j2) - sy.
(** 139-188 *)
Definition yf_drucker_prager (s1 s2 s3 sy friction_angle : R) : option R :=
  let v := get_stress_invariants (diag3 s1 s2 s3) in
  let p := (1/3) * v_i1 v in
  let j2 := v_j2 v + eps in
  let xi := (2 / sqrt 3) * cos friction_angle in
  let eta := (3 / sqrt 3) * sin friction_angle in
  if Req_EM_T xi 0 then None
  else let cy := sy / xi in Some (sqrt j2 + eta * p - xi * cy).
(** 190-237 *)
Definition yf_lou_zhang_yoon (s1 s2 s3 sy a b c d : R) : option R :=
  let v := get_stress_invariants (diag3 s1 s2 s3) in
  let j2 := v_j2 v + eps in
  let aux_1 := b * v_i1 v in
  match pow_half (j2 ^ 3 - c * v_j3 v ^ 2) with
  | None => None
  | Some w => match pow_third (w - d * v_j3 v) with
              | None => None
              | Some x => Some (a * (aux_1 + x) - sy)
              end
  end.
(** 56-99 *)
Definition contains (pat s : string) : bool := match index 0 pat s with Some _ => true | None => false end.
Definition yield_function (s1 s2 s3 sy : R) (model_name : string) (ps : list (string * R)) (is_normalize_sy : bool)
  : res (option R) :=
  rbind (if contains "von_mises" model_name then Ok (Some (yf_von_mises s1 s2 s3 sy))
         else if contains "drucker_prager" model_name then
           rbind (param ps "friction_angle") (fun f => Ok (yf_drucker_prager s1 s2 s3 sy f))
         else if contains "lou_zhang_yoon" model_name then
           rbind (param ps "yield_a") (fun a => rbind (param ps "yield_b") (fun b =>
           rbind (param ps "yield_c") (fun c => rbind (param ps "yield_d") (fun d =>
           Ok (yf_lou_zhang_yoon s1 s2 s3 sy a b c d)))))
         else Err RuntimeError) (fun phi =>
  Ok (if is_normalize_sy then
        match phi with Some phi => if Req_EM_T sy 0 then None else Some (phi / sy) | None => None end
      else phi)).
(** 279-310 *)
Definition pi_rotation : T2 := fun i j =>
  match i, j with
  | 0%nat, 0%nat => sqrt (2/3) | 0%nat, 1%nat => - sqrt (1/6) | 0%nat, 2%nat => - sqrt (1/6)
  | 1%nat, 0%nat => 0 | 1%nat, 1%nat => sqrt (1/2) | 1%nat, 2%nat => - sqrt (1/2)
  | 2%nat, _ => sqrt (1/3)
  | _, _ => 0
  end.
Definition pi_to_principal (pi1 pi2 pi3 : R) : R * R * R :=
  let s j := pi_rotation 0%nat j * pi1 + pi_rotation 1%nat j * pi2 + pi_rotation 2%nat j * pi3 in
  (s 0%nat, s 1%nat, s 2%nat).
(** 312-355 *)
Definition batched_yield_function (points : list (R * R * R)) (sy : R) (model_name : string) (ps : list (string * R))
  : res (list (option R)) :=
  rmap (fun p => let '(pi1, pi2, pi3) := p in
                 let '(s1, s2, s3) := pi_to_principal pi1 pi2 pi3 in
                 yield_function s1 s2 s3 sy model_name ps true) points.
(** 390-419: the grid of 50 points along each dimension, from the largest yield
    stress; its bounds are (xmin, xmax, ymin, ymax, zmin, zmax) *)
Definition pi_min (max_sy : R) : R := - 2 * max_sy.
Definition pi_max (max_sy : R) : R := 2 * max_sy.
Definition grid_axis (max_sy : R) : list R :=
  map (fun k => pi_min max_sy + INR k * ((pi_max max_sy - pi_min max_sy) / 50)) (seq 0 50).
Definition grid_bounds (max_sy : R) : list R :=
  let lo := hd 0 (grid_axis max_sy) in let hi := last (grid_axis max_sy) 0 in [lo; hi; lo; hi; lo; hi].
Definition grid_range_dim (max_sy : R) : list R :=
  map (fun i => nth (S i) (grid_bounds max_sy) 0 - nth i (grid_bounds max_sy) 0) [0%nat; 1%nat; 2%nat].
