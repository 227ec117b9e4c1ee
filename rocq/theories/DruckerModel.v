(** Drucker-Prager material with isotropic strain hardening:
    src/hookeai/simulators/fetorch/material/models/standard/drucker_prager.py.

    NaN-valued (or infinite) tensors and numbers are [None].  The hardening law
    is an arbitrary function (it is looked up in the material parameters at
    330-331).  Material parameters are torch or numpy numbers, so that a
    division by zero gives an infinite or undefined number (plain Python
    numbers would raise instead).  Precision conversions, devices and the
    finite-strain formulation are not modelled. *)
From Coq Require Import Reals List Arith Bool.
From Verif Require Import Lib MatrixModel TensorModel HardeningModel ElasticModel VonMisesModel.
Import ListNotations.
Local Open Scope R_scope.

(** 325-328: yield cohesion, yield pressure and flow pressure parameters. *)
Record dp_params := DP { d_xi : R; d_etay : R; d_etaf : R }.

(** 334: bulk modulus (335: [lame_mu] is the shear modulus). *)
Definition dp_bulk (E v : R) : R := E / (3 * (1 - 2 * v)).

(** 415-417, 463-466, 530-533: scaled value, relative to the cohesion unless it
    is negligible. *)
Definition dp_scaled (x c : R) : R := if rltb (Rabs c) small then x else x / c.

Section Return.
  Variables (hl : hlaw) (P : dp_params) (K G : R).
  (** trial stress: square root of the second deviatoric invariant, pressure,
      and accumulated plastic strain *)
  Variables (q p acc : R).

  (** 448-485: return to the cone.  [first] is nr_iter = 0, [fuel] is
      su_max_n_iterations - nr_iter, [x], [r] and [H] are inc_p_mult, residual
      and the hardening modulus at the beginning of an iteration.  The result
      is the plastic multiplier and the last hardening modulus, [None] on
      failure.  A vanishing Jacobian or an undefined cohesion makes all later
      iterates infinite or undefined; an infinite modulus gives a zero
      correction, or an undefined one when multiplied by zero. *)
  Definition cone_residual (x c : R) : R := q - G * x + d_etay P * (p - K * d_etaf P * x) - d_xi P * c.
  Definition cone_correction (r : R) (H : slope) : option R :=
    match H with
    | Infinite => if Req_EM_T (d_xi P ^ 2) 0 then None else Some 0
    | Fin h => let J := - G - K * d_etaf P * d_etay P - d_xi P ^ 2 * h in
               if Req_EM_T J 0 then None else Some (- r / J)
    end.
  Fixpoint cone_newton (fuel : nat) (first : bool) (x r : R) (H : slope) : option (R * slope) :=
    match cone_correction r H with
    | None => None
    | Some d =>
        let x' := x + d in
        match hl (acc + d_xi P * x') with
        | None => None
        | Some (c, H') =>
            let r' := cone_residual x' c in
            if rltb (Rabs (dp_scaled r' c)) su_conv_tol && negb first then Some (x', H')
            else match fuel with
                 | O => None
                 | S f => cone_newton f false x' r' H'
                 end
        end
    end.

  (** 337-338: alpha and beta, undefined when dividing by zero. *)
  Definition dp_alpha : R := d_xi P / d_etaf P.
  Definition dp_beta : R := d_xi P / d_etay P.

  (** 508-547: return to the apex. *)
  Definition apex_residual (x c : R) : R := c * dp_beta - (p - K * x).
  Definition apex_correction (r : R) (H : slope) : option R :=
    match H with
    | Infinite => if Req_EM_T (dp_alpha * dp_beta) 0 then None else Some 0
    | Fin h => let J := dp_alpha * dp_beta * h + K in if Req_EM_T J 0 then None else Some (- r / J)
    end.
  Fixpoint dp_apex_newton (fuel : nat) (first : bool) (x r : R) (H : slope) : option (R * slope) :=
    match apex_correction r H with
    | None => None
    | Some d =>
        let x' := x + d in
        match hl (acc + dp_alpha * x') with
        | None => None
        | Some (c, H') =>
            let r' := apex_residual x' c in
            if rltb (Rabs (dp_scaled r' c)) su_conv_tol && negb first then Some (x', H')
            else match fuel with
                 | O => None
                 | S f => dp_apex_newton f false x' r' H'
                 end
        end
    end.

  (** 410-547: yield check and return mapping.  A failed return to the cone is
      not followed by a return to the apex (499-502). *)
  Inductive dp_outcome :=
  | DElastic | DCone (x : R) (H : slope) | DApex (x : R) (H : slope) | DConeFailed | DApexFailed.
  Definition dp_return : dp_outcome :=
    match hl acc with
    | None => DConeFailed
    | Some (c, _) =>
        let yield_function := q + d_etay P * p - d_xi P * c in
        let consistency := if rltb (Rabs c) small then yield_function else yield_function / Rabs c in
        if rleb consistency su_conv_tol then DElastic
        else
          match hl (acc + d_xi P * 0) with
          | None => DConeFailed
          | Some (c0, H0) =>
              match cone_newton su_max_n_iterations true 0 (q + d_etay P * p - d_xi P * c0) H0 with
              | None => DConeFailed
              | Some (x, H) =>
                  if rleb 0 (q - G * x) then DCone x H
                  else if (if Req_EM_T (d_etaf P) 0 then true else false) || (if Req_EM_T (d_etay P) 0 then true else false)
                       then DApexFailed
                  else
                    match hl (acc + dp_alpha * 0) with
                    | None => DApexFailed
                    | Some (c1, H1) =>
                        match dp_apex_newton su_max_n_iterations true 0 (c1 * dp_beta - p) H1 with
                        | None => DApexFailed
                        | Some (x', H') => DApex x' H'
                        end
                    end
              end
          end
    end.

  (** 600-630: consistent tangent.  [norm_e] is the norm of the elastic trial
      strain and [dev_e] its deviator. *)
  Definition dp_tangent (E v : R) (norm_e : R) (dev_e : T2) (o : dp_outcome) : option T4 :=
    match o with
    | DElastic => Some (iso_tangent E v)
    | DApex _ H =>
        let f := match H with Fin h => K / (K + dp_alpha * dp_beta * h) | Infinite => 0 end in
        Some (fun i j k l => K * (1 - f) * dyad22_1 soid soid i j k l)
    | DCone x H =>
        let norm_div_factor := if rltb small norm_e then 1 / norm_e else 0 in
        let unit : T2 := fun i j => norm_div_factor * dev_e i j in
        let s1 := norm_div_factor * (x / sqrt 2) in
        let s2 := match H with Fin h => 1 / (G + K * d_etay P * d_etaf P + h * d_xi P ^ 2) | Infinite => 0 end in
        Some (fun i j k l => 2 * G * (1 - s1) * fodevprojsym 3 i j k l
           + 2 * G * (s1 - G * s2) * dyad22_1 unit unit i j k l
           - sqrt 2 * G * s2 * K * (d_etay P * dyad22_1 unit soid i j k l + d_etaf P * dyad22_1 soid unit i j k l)
           + K * (1 - K * d_etay P * d_etaf P * s2) * dyad22_1 soid soid i j k l)
    | DConeFailed | DApexFailed => None
    end.
End Return.

Definition dp_is_plast (o : dp_outcome) : bool := match o with DElastic => false | _ => true end.
Definition dp_is_fail (o : dp_outcome) : bool := match o with DConeFailed | DApexFailed => true | _ => false end.
Definition dp_is_apex (o : dp_outcome) : bool := match o with DApex _ _ | DApexFailed => true | _ => false end.

Record dp_core_out := DCore
  { dc_e : option (list R); dc_stress : option (list R); dc_acc : option R;
    dc_outcome : dp_outcome; dc_tangent : option (list (list R)) }.
(** 424-431, 486-494, 548-575, 590-634: elastic strain, stress, accumulated
    plastic strain and tangent for each outcome. *)
Definition dp_finish (E v : R) (P : dp_params) (so et trial s : list R) (dev_e : T2) (q p acc : R) (o : dp_outcome)
  : res dp_core_out :=
  let G := lame_mu E v in
  let K := dp_bulk E v in
  rbind (match dp_tangent P K G E v (vnorm et) dev_e o with
         | Some t => rbind (vget_tensor_mf4 t 3 order_sym_3d true) (fun m => Ok (Some m))
         | None => Ok None
         end) (fun tan =>
  let e_of pressure dev := vadd (vscale (1 / (3 * K) * pressure) so) (vscale (1 / (2 * G)) dev) in
  match o with
  | DElastic => Ok (DCore (Some et) (Some trial) (Some acc) o tan)
  | DCone x H =>
      let pressure := p - K * d_etaf P * x in
      let factor := if rltb small q then 1 - G * x / q else 0 in
      let dev := vscale factor s in
      Ok (DCore (Some (e_of pressure dev)) (Some (vadd (vscale pressure so) dev)) (Some (acc + d_xi P * x)) o tan)
  | DApex x H =>
      let pressure := p - K * x in
      Ok (DCore (Some (e_of pressure (vscale 0 s))) (Some (vscale pressure so)) (Some (acc + dp_alpha P * x)) o tan)
  | DConeFailed | DApexFailed => Ok (DCore None None None o tan)
  end).
(** 375-640 in three dimensions.  Undefined inputs make every comparison False,
    so that the cone loop ends in failure. *)
Definition dp_core (E v : R) (P : dp_params) (hl : hlaw) (e_trial : option (list R)) (acc_old : option R)
  : res dp_core_out :=
  rbind (vget_tensor_mf2 soid 3 order_sym_3d true) (fun so =>
  rbind (vget_tensor_mf4 (fodevprojsym 3) 3 order_sym_3d true) (fun Pd =>
  rbind (vget_tensor_mf4 (iso_tangent E v) 3 order_sym_3d true) (fun Ce =>
  match e_trial, acc_old with
  | Some et, Some acc =>
      let trial := mv Ce et in
      rbind (vget_tensor_from_mf2 trial 3 order_sym_3d true) (fun trial_t =>
      let p := 1 / 3 * (trial_t 0%nat 0%nat + trial_t 1%nat 1%nat + trial_t 2%nat 2%nat) in
      let s := mv Pd trial in
      let q := sqrt (1 / 2 * vnorm s ^ 2) in
      rbind (vget_tensor_from_mf2 (mv Pd et) 3 order_sym_3d true) (fun dev_e =>
      dp_finish E v P so et trial s dev_e q p acc (dp_return hl P (dp_bulk E v) (lame_mu E v) q p acc)))
  | _, _ => Ok (DCore None None None DConeFailed None)
  end))).

(** 268-688: state_update; the flag is is_apex_return.  Only plane strain and
    three dimensions define the elastic tangent (392-393). *)
Definition dp_state_update (pt : nat) (E v : R) (P : dp_params) (hl : hlaw) (inc : T2) (st : vm_state)
  : res (vm_state * bool * option (list (list R))) :=
  rbind (get_problem_type_parameters pt) (fun pp =>
  let '(n, order, _) := pp in
  rbind (vget_tensor_mf2 inc n order true) (fun inc_mf =>
  let p_old := omap2 vsub (vs_strain st) (vs_e st) in
  if Nat.eqb pt 4 then
    let e_trial := omap (fun e => vadd e inc_mf) (vs_e st) in
    rbind (dp_core E v P hl e_trial (vs_acc st)) (fun c =>
    let o := dc_outcome c in
    Ok (VState (dc_e c) (omap2 vadd e_trial p_old) (dc_stress c) (dc_acc c)
          (dp_is_plast o) (dp_is_fail o) (Some 0) (Some 0), dp_is_apex o, dc_tangent c))
  else if Nat.eqb pt 1 then
    rbind (vget_state_3Dmf_from_2Dmf inc_mf 0) (fun inc3 =>
    rbind (lift_res (omap2 vget_state_3Dmf_from_2Dmf (vs_e st) (vs_e33 st))) (fun e_old =>
    let e_trial := omap (fun e => vadd e inc3) e_old in
    rbind (dp_core E v P hl e_trial (vs_acc st)) (fun c =>
    let o := dc_outcome c in
    rbind (lift_res (omap vget_state_2Dmf_from_3Dmf e_trial)) (fun e_trial2 =>
    rbind (lift_res (omap vget_state_2Dmf_from_3Dmf (dc_e c))) (fun e2 =>
    rbind (lift_res (omap vget_state_2Dmf_from_3Dmf (dc_stress c))) (fun s2 =>
    rbind (lift_res (omap vget_state_2Dmf_from_3Dmf_mat (dc_tangent c))) (fun t2 =>
    Ok (VState e2 (omap2 vadd e_trial2 p_old) s2 (dc_acc c) (dp_is_plast o) (dp_is_fail o)
          (omap (fun e => nth 2 e 0) (dc_e c)) (omap (fun s => nth 2 s 0) (dc_stress c)), dp_is_apex o, t2))))))))
  else Err NameError)).
