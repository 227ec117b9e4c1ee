(** Vectorised Drucker-Prager material:
    src/hookeai/simulators/fetorch/material/models/vmap/drucker_prager.py.

    Both steps (elastic and plastic), and in the plastic step both returns (cone
    and apex), are always computed, and torch.where picks one.  NaN-valued (or
    infinite) tensors and numbers are [None]; the hardening law is an arbitrary
    function; a torch.where whose condition is constant over the components is
    an if.  Precision conversions, devices and the finite-strain formulation
    are not modelled. *)
From Coq Require Import Reals List Arith Bool.
From Verif Require Import Lib MatrixModel TensorModel HardeningModel ElasticModel VonMisesModel VmapModel DruckerModel.
Import ListNotations.
Local Open Scope R_scope.

(** 339. *)
Definition vd_max_n_iterations : nat := 10.

Section Return.
  Variables (hl : hlaw) (P : dp_params) (K G : R).
  (** square root of the second invariant of the trial deviatoric stress, trial
      pressure, accumulated plastic strain *)
  Variables (q p acc : R).
  Let xi := d_xi P.
  Let etay := d_etay P.
  Let etaf := d_etaf P.

  (** 710-715, 899-904: test of a residual. *)
  Definition vd_small_residual (r c : R) : bool :=
    let conv_norm_residual := if rltb (Rabs c) small then Rabs r else Rabs (r / c) in
    rltb conv_norm_residual su_conv_tol.

  (** 441-448, 461: test of the yield function; a null cohesion makes the
      quotient infinite or undefined. *)
  Definition vd_inside (f c : R) : bool := if Req_EM_T c 0 then rltb f 0 else rleb (f / Rabs c) su_conv_tol.

  (** 702-708: residual of the return to the cone. *)
  Definition vd_cone_residual (x c : R) : R := q - G * x + etay * (p - K * etaf * x) - xi * c.
  Definition vd_cone_conv (x : option R) : bool :=
    match x with
    | None => false
    | Some x => match hl (acc + xi * x) with
                | None => false
                | Some (c, _) => vd_small_residual (vd_cone_residual x c) c
                end
    end.
  (** 791-827: _nr_iteration_surface; an infinite modulus gives a zero
      correction, or an undefined one when multiplied by zero. *)
  Definition vd_cone_step (x : option R) : option R :=
    match x with
    | None => None
    | Some x =>
        match hl (acc + xi * x) with
        | None => None
        | Some (_, Infinite) => if Req_EM_T (xi ^ 2) 0 then None else Some x
        | Some (c, Fin H) =>
            let jacobian := - G - K * etaf * etay - xi ^ 2 * H in
            if Req_EM_T jacobian 0 then None else Some (x + - vd_cone_residual x c / jacobian)
        end
    end.

  (** 365-366: alpha and beta; a division by zero is infinite or undefined. *)
  Definition vd_ratio (a b : R) : option R := if Req_EM_T b 0 then None else Some (a / b).
  Definition vd_alpha : option R := vd_ratio xi etaf.
  Definition vd_beta : option R := vd_ratio xi etay.

  (** 892-904: return to the apex. *)
  Definition vd_apex_conv (x : option R) : bool :=
    match x, vd_alpha, vd_beta with
    | Some x, Some alpha, Some beta =>
        match hl (acc + alpha * x) with
        | None => false
        | Some (c, _) => vd_small_residual (c * beta - (p - K * x)) c
        end
    | _, _, _ => false
    end.
  (** 946-979: _nr_iteration_apex. *)
  Definition vd_apex_step (x : option R) : option R :=
    match x, vd_alpha, vd_beta with
    | Some x, Some alpha, Some beta =>
        match hl (acc + alpha * x) with
        | None => None
        | Some (_, Infinite) => if Req_EM_T (alpha * beta) 0 then None else Some x
        | Some (c, Fin H) =>
            let jacobian := alpha * beta * H + K in
            if Req_EM_T jacobian 0 then None else Some (x + - (c * beta - (p - K * x)) / jacobian)
        end
    | _, _, _ => None
    end.

  (** 697-739: multiplier (NaN on failure), convergence and apex flags. *)
  Definition vd_cone (el : bool) : option R * bool * bool :=
    let '(x, is_converged) := masked_loop el vd_cone_conv vd_cone_step 0 vd_max_n_iterations (Some 0) in
    let is_apex_return := if is_converged
                          then match x with Some x => rltb (q - G * x) 0 | None => false end
                          else is_converged in
    (if is_converged then x else None, is_converged, is_apex_return).
  (** 886-923: plastic volumetric strain (NaN on failure) and flag. *)
  Definition vd_apex (el : bool) : option R * bool :=
    let '(x, is_converged) := masked_loop el vd_apex_conv vd_apex_step 0 vd_max_n_iterations (Some 0) in
    (if is_converged then x else None, is_converged).
End Return.

(** Components of a step: elastic strain, stress, accumulated plastic strain,
    incremental multiplier, convergence, plastic and apex flags. *)
Record vd_step := VDStep
  { vd_e : option (list R); vd_stress : option (list R); vd_acc : option R; vd_mult : option R;
    vd_ok : bool; vd_plast : bool; vd_isapex : bool }.

(** 582-626: _elastic_step. *)
Definition vd_elastic_step (et trial : list R) (acc : R) : vd_step :=
  VDStep (Some et) (Some trial) (Some acc) (Some 0) true false false.

Section Plastic.
  Variables (hl : hlaw) (P : dp_params) (K G : R).
  (** identity and trial deviatoric stress (matricial forms), second invariant
      of the latter, trial pressure and accumulated plastic strain *)
  Variables (so s : list R) (j2 p acc : R).
  Definition vd_strain_of (pressure : R) (dev : list R) : list R :=
    vadd (vscale (1 / (3 * K) * pressure) so) (vscale (1 / (2 * G)) dev).
  (** 741-766: outputs of the return to the cone.  The factor is finite unless
      the multiplier is NaN, and then the pressure is NaN. *)
  Definition vd_cone_output (x : option R) (is_converged : bool) : vd_step :=
    let safe_sqrt := sqrt (Rmax j2 small) in
    let pressure := omap (fun x => p - K * d_etaf P * x) x in
    let factor := match x with Some x => 1 - G * x / safe_sqrt | None => 0 end in
    let dev := vscale factor s in
    VDStep (omap (fun pr => vd_strain_of pr dev) pressure) (omap (fun pr => vadd (vscale pr so) dev) pressure)
           (omap (fun x => acc + d_xi P * x) x) x is_converged true false.
  (** 925-942: outputs of the return to the apex. *)
  Definition vd_apex_output (x : option R) (is_converged : bool) : vd_step :=
    let pressure := omap (fun x => p - K * x) x in
    VDStep (omap (fun pr => vd_strain_of pr (vscale 0 s)) pressure) (omap (fun pr => vscale pr so) pressure)
           (omap2 (fun alpha x => acc + alpha * x) (vd_alpha P) x) (Some 0) is_converged true true.
  (** 630-789: _plastic_step. *)
  Definition vd_plastic_step (el : bool) : vd_step :=
    let '(x, is_converged, is_apex_return) := vd_cone hl P K G (sqrt j2) p acc el in
    let '(y, is_converged_apex) := vd_apex hl P K p acc (orb el (negb is_apex_return)) in
    if is_apex_return then vd_apex_output y is_converged_apex else vd_cone_output x is_converged.
End Plastic.

(** 490-533: consistent tangent.  [small] is added to every component of the
    deviator before the norm is taken. *)
Definition vd_tangent (P : dp_params) (K G E v : R) (hl : hlaw) (dev_e : T2) (o : vd_step) : option T4 :=
  if negb (vd_plast o) then Some (iso_tangent E v)
  else
    match vd_acc o, vd_mult o with
    | Some acc, Some x =>
        match hl acc with
        | None => None
        | Some (_, H) =>
            if vd_isapex o then
              match vd_alpha P, vd_beta P with
              | Some alpha, Some beta =>
                  match H with
                  | Infinite => Some (fun i j k l => K * dyad22_1 soid soid i j k l)
                  | Fin h => if Req_EM_T (K + alpha * beta * h) 0 then None
                             else Some (fun i j k l => K * (1 - K / (K + alpha * beta * h)) * dyad22_1 soid soid i j k l)
                  end
              | _, _ => None
              end
            else
              let tnorm9 (t : T2) := sqrt (sum2 3 (fun i j => t i j * t i j)) in
              let norm_div_factor := if rltb small (tnorm9 dev_e) then 1 / tnorm9 (fun i j => dev_e i j + small) else 0 in
              let unit : T2 := fun i j => norm_div_factor * dev_e i j in
              let s1 := norm_div_factor * (x / sqrt 2) in
              let s2 := match H with Fin h => 1 / (G + K * d_etay P * d_etaf P + h * d_xi P ^ 2) | Infinite => 0 end in
              Some (fun i j k l => 2 * G * (1 - s1) * fodevprojsym 3 i j k l
                 + 2 * G * (s1 - G * s2) * dyad22_1 unit unit i j k l
                 - sqrt 2 * G * s2 * K * (d_etay P * dyad22_1 unit soid i j k l + d_etaf P * dyad22_1 soid unit i j k l)
                 + K * (1 - K * d_etay P * d_etaf P * s2) * dyad22_1 soid soid i j k l)
        end
    | _, _ => None
    end.

(** 401-537 in three dimensions.  Undefined inputs make every comparison False,
    so that the cone loop ends in failure. *)
Definition vd_core (E v : R) (P : dp_params) (hl : hlaw) (e_trial : option (list R)) (acc_old : option R)
  : res (vd_step * option (list (list R))) :=
  let G := lame_mu E v in
  let K := dp_bulk E v in
  rbind (vget_tensor_mf2 soid 3 order_sym_3d true) (fun so =>
  rbind (vget_tensor_mf4 (fodevprojsym 3) 3 order_sym_3d true) (fun Pd =>
  rbind (vget_tensor_mf4 (iso_tangent E v) 3 order_sym_3d true) (fun Ce =>
  match e_trial, acc_old with
  | Some et, Some acc =>
      let trial := mv Ce et in
      rbind (vget_tensor_from_mf2 trial 3 order_sym_3d true) (fun trial_t =>
      let p := 1 / 3 * (trial_t 0%nat 0%nat + trial_t 1%nat 1%nat + trial_t 2%nat 2%nat) in
      let s := mv Pd trial in
      let j2 := 1 / 2 * vnorm s ^ 2 in
      (* 441-448, 461: elastic step *)
      let el := match hl acc with
                | None => false
                | Some (c, _) => vd_inside (sqrt j2 + d_etay P * p - d_xi P * c) c
                end in
      let o := if el then vd_elastic_step et trial acc else vd_plastic_step hl P K G so s j2 p acc el in
      rbind (vget_tensor_from_mf2 (mv Pd et) 3 order_sym_3d true) (fun dev_e =>
      rbind (match vd_tangent P K G E v hl dev_e o with
             | Some t => rbind (vget_tensor_mf4 t 3 order_sym_3d true) (fun m => Ok (Some m))
             | None => Ok None
             end) (fun tan => Ok (o, tan))))
  | _, _ => Ok (VDStep None None None None false true false, None)
  end))).

(** 290-580: state_update; the flag is is_apex_return.  Only plane strain and
    three dimensions read the out-of-plane strain (373-374, 397-400). *)
Definition vd_state_update (pt : nat) (E v : R) (P : dp_params) (hl : hlaw) (inc : T2) (st : vm_state)
  : res (vm_state * bool * option (list (list R))) :=
  rbind (get_problem_type_parameters pt) (fun pp =>
  let '(n, order, _) := pp in
  rbind (vget_tensor_mf2 inc n order true) (fun inc_mf =>
  let p_old := omap2 vsub (vs_strain st) (vs_e st) in
  if Nat.eqb pt 4 then
    let e_trial := omap (fun e => vadd e inc_mf) (vs_e st) in
    rbind (vd_core E v P hl e_trial (vs_acc st)) (fun c =>
    let o := fst c in
    Ok (VState (vd_e o) (omap2 vadd e_trial p_old) (vd_stress o) (vd_acc o)
          (vd_plast o) (negb (vd_ok o)) (Some 0) (Some 0), vd_isapex o, snd c))
  else if Nat.eqb pt 1 then
    rbind (vget_state_3Dmf_from_2Dmf inc_mf 0) (fun inc3 =>
    rbind (lift_res (omap2 vget_state_3Dmf_from_2Dmf (vs_e st) (vs_e33 st))) (fun e_old =>
    let e_trial := omap (fun e => vadd e inc3) e_old in
    rbind (vd_core E v P hl e_trial (vs_acc st)) (fun c =>
    let o := fst c in
    rbind (lift_res (omap vget_state_2Dmf_from_3Dmf e_trial)) (fun e_trial2 =>
    rbind (lift_res (omap vget_state_2Dmf_from_3Dmf (vd_e o))) (fun e2 =>
    rbind (lift_res (omap vget_state_2Dmf_from_3Dmf (vd_stress o))) (fun s2 =>
    rbind (lift_res (omap vget_state_2Dmf_from_3Dmf_mat (snd c))) (fun t2 =>
    Ok (VState e2 (omap2 vadd e_trial2 p_old) s2 (vd_acc o) (vd_plast o) (negb (vd_ok o))
          (omap (fun e => nth 2 e 0) (vd_e o)) (omap (fun s => nth 2 s 0) (vd_stress o)), vd_isapex o, t2))))))))
  else Err NameError)).
