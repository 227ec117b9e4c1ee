(** Vectorised Lou-Zhang-Yoon material:
    src/hookeai/simulators/fetorch/material/models/vmap/lou.py.

    Both steps (elastic and plastic), and in the plastic step both returns
    (surface and apex), are always computed, and torch.where picks one: an
    exception raised in a step that is not picked is raised by the update.
    NaN-valued (or infinite) tensors and numbers are [None]; the hardening laws
    are arbitrary functions; torch.linalg.solve (1455) is an arbitrary function
    (exception, vector, or NaN), and gives NaN when the system is NaN; a
    torch.where whose condition is constant over the components is an if.  The
    invariants and the effective stress (603-753) are the formulas of the
    standard class, modelled in LouModel.  Precision conversions, devices and
    the finite-strain formulation are not modelled. *)
From Coq Require Import Reals List Arith Bool.
From Verif Require Import Lib MatrixModel TensorModel HardeningModel ElasticModel VonMisesModel LouModel LouUpdateModel.
Import ListNotations.
Local Open Scope R_scope.

(** 387. *)
Definition vl_max_n_iterations : nat := 10.

(** 1254-1265: laws at an accumulated plastic strain.  The slopes of the yield
    parameters are not read when they are assumed constant (1297-1410). *)
Definition vl_values (fixed : bool) (L : lou_laws) (acc : R) : option lou_vals :=
  if fixed then
    match fin_law (l_y L) acc, l_a L acc, l_b L acc, l_c L acc, l_d L acc with
    | Some (y, yh), Some (a, _), Some (b, _), Some (c, _), Some (d, _) => Some (Vals y yh a 0 b 0 c 0 d 0)
    | _, _, _, _, _ => None
    end
  else lou_values L acc.

(** 1174-1438: _get_residual_and_jacobian.  Exceptions: the inverse of the
    deviatoric stress (678).  [None]: NaN or infinite entries. *)
Definition vl_residual_and_jacobian (fixed : bool) (L : lou_laws) (C : T4) (y0 : option R) (e e_trial : T2) (acc acc_old g : R)
  : res (option lou_system) :=
  let stress := ddot42_1 3 C e in
  let v := get_stress_invariants stress in
  rbind (get_stress_invariants_derivatives stress) (fun dv =>
  match vl_values fixed L acc, y0 with
  | Some q, Some y0 =>
      let N := flow q v dv in
      let nrm := fnorm N in
      if negb (rltb 0 (w4 q v) && rltb 0 (w5 q v)) then Ok None
      else if Req_EM_T y0 0 then Ok None
      else if negb (l_assoc L) && (if Req_EM_T nrm 0 then true else false) then Ok None
      else
        (* 1322-1335 *)
        let residual_1 : T2 := fun i j => e i j - e_trial i j + g * N i j in
        let residual_2 := if l_assoc L then acc - acc_old - 1 * g else acc - acc_old - g * sqrt (2/3) * nrm in
        let residual_3 := (eff_stress q v - q_y q) / y0 in
        let dflow_de := ddot44_1 3 (dflow_dstress q v dv) C in
        let dfacc := dflow_dacc q v dv in
        let deff_de := ddot24_1 3 N C in
        (* 1357-1408 *)
        let dr1_de : T4 := fun i j k l => fosym 3 i j k l + g * dflow_de i j k l in
        let dr1_dacc : T2 := if fixed then zero2 else fun i j => g * dfacc i j in
        let dr2_de : T2 := if l_assoc L then zero2
          else fun i j => - g * sqrt (2/3) * (1 / nrm) * ddot24_1 3 N dflow_de i j in
        let dr2_dacc := if l_assoc L then 1 else if fixed then 1 else 1 - g * sqrt (2/3) * (1 / nrm) * ddot22_1 3 N dfacc in
        let dr2_dg := if l_assoc L then -1 * 1 else - sqrt (2/3) * nrm in
        let dr3_de : T2 := fun i j => 1 / y0 * deff_de i j in
        let dr3_dacc := if fixed then - q_yh q / y0 else 1 / y0 * (deff_dacc q v - q_yh q) in
        let dr3_dg := 0 in
        (* 1409-1437 *)
        rbind (vget_tensor_mf4 dr1_de 3 order_sym_3d true) (fun j11 =>
        rbind (vget_tensor_mf2 dr1_dacc 3 order_sym_3d true) (fun j12 =>
        rbind (vget_tensor_mf2 N 3 order_sym_3d true) (fun j13 =>
        rbind (vget_tensor_mf2 dr2_de 3 order_sym_3d true) (fun j21 =>
        rbind (vget_tensor_mf2 dr3_de 3 order_sym_3d true) (fun j31 =>
        Ok (Some (Sys residual_1 residual_2 residual_3
          (map (fun p => fst p ++ [fst (snd p); snd (snd p)]) (combine j11 (combine j12 j13))
           ++ [j21 ++ [dr2_dacc; dr2_dg]; j31 ++ [dr3_dacc; dr3_dg]]))))))))
  | _, _ => Ok None
  end).

(** Comparisons with NaN are False. *)
Definition olt (x : option R) (y : R) : bool := match x with Some x => rltb x y | None => false end.

(** Components of a step: elastic strain, stress, accumulated plastic strain,
    incremental multiplier, convergence, plastic and apex flags. *)
Record vl_step := VLStep
  { vl_e : option (list R); vl_stress : option (list R); vl_acc : option R; vl_mult : option R;
    vl_ok : bool; vl_plast : bool; vl_isapex : bool }.

Section Update.
  Variable solve : list (list R) -> list R -> res (option (list R)).

  (** 1086-1104: test of the residuals. *)
  Definition vl_residual_norm (e_trial : T2) (acc_old : R) (s : lou_system) : R :=
    let norm_1 := if rltb (fnorm e_trial) small then fnorm (rj_1 s) else fnorm (rj_1 s) / fnorm e_trial in
    let norm_2 := if rltb (Rabs acc_old) small then Rabs (rj_2 s) else Rabs (rj_2 s / acc_old) in
    let norm_3 := Rabs (rj_3 s) in
    (norm_1 + norm_2 + norm_3) / 3.
  (** 1117-1124: norm of the iterative solution; the accumulated plastic strain
      is compared without its absolute value. *)
  Definition vl_diter_norm (e_trial : T2) (acc_old : R) (d : list R) : R :=
    let d_e := firstn 6 d in
    let c_e := if rltb small (fnorm e_trial) then map (fun x => x / fnorm e_trial) d_e else d_e in
    let sc x := if rltb small acc_old then x / acc_old else x in
    vnorm (c_e ++ [sc (nth 6 d 0); sc (nth 7 d 0)]).

  (** 1061-1136: loop of the return to the surface; [left] is
      su_max_n_iterations - nr_iter. *)
  Fixpoint vl_surface_loop (fixed : bool) (L : lou_laws) (C : T4) (y0 : option R) (e_trial : T2) (acc_old : R) (avoid : bool)
    (nr_iter left : nat) (diter : option R) (x : option (T2 * R * R)) : res (option (T2 * R * R) * bool) :=
    rbind (match x with
           | Some (e, acc, g) => vl_residual_and_jacobian fixed L C y0 e e_trial acc acc_old g
           | None => Ok None
           end) (fun o =>
    let conv_cond := match o with
                     | Some s => rltb (vl_residual_norm e_trial acc_old s) su_conv_tol && olt diter su_conv_tol && Nat.ltb 0 nr_iter
                     | None => false
                     end in
    let is_converged := if avoid then avoid else conv_cond in
    rbind (match o with
           | Some s => rbind (vget_tensor_mf2 (rj_1 s) 3 order_sym_3d true) (fun r1 =>
                       solve (rj_J s) (map Ropp (r1 ++ [rj_2 s; rj_3 s])))
           | None => Ok None
           end) (fun d =>
    let d_iter := if is_converged then Some [0; 0; 0; 0; 0; 0; 0; 0] else d in
    let diter' := omap (vl_diter_norm e_trial acc_old) d_iter in
    rbind (match x, d_iter with
           | Some (e, acc, g), Some d =>
               rbind (vget_tensor_from_mf2 (firstn 6 d) 3 order_sym_3d true) (fun de =>
               Ok (Some ((fun i j => e i j + de i j) : T2, acc + nth 6 d 0, g + nth 7 d 0)))
           | _, _ => Ok None
           end) (fun x' =>
    match left with
    | O => Ok (x', is_converged)
    | S l => vl_surface_loop fixed L C y0 e_trial acc_old avoid (S nr_iter) l diter' x'
    end))).

  (** 968-1172: _plastic_step_cone. *)
  Definition vl_plastic_step_cone (fixed : bool) (L : lou_laws) (C : T4) (Ce : list (list R)) (avoid : bool) (e_trial : T2) (acc_old : R)
    : res vl_step :=
    let y0 := omap fst (l_y L 0) in
    rbind (vl_surface_loop fixed L C y0 e_trial acc_old avoid 0 vl_max_n_iterations (Some 0) (Some (e_trial, acc_old, 0))) (fun r =>
    match r with
    | (Some (e, acc, g), true) =>
        rbind (vget_tensor_mf2 e 3 order_sym_3d true) (fun e_mf =>
        Ok (VLStep (Some e_mf) (Some (mv Ce e_mf)) (Some acc) (Some g) true true false))
    | (_, is_converged) => Ok (VLStep None None None None is_converged true false)
    end).

  (** 1520-1531: alpha. *)
  Definition vl_safe (x : R) : R := Rmax (Rabs x) (1 / 1000000).
  Definition vl_alpha (L : lou_laws) : option R :=
    match l_a L 0, l_b L 0 with
    | Some (a, _), Some (b, _) =>
        let etay := 3 * a * b in
        if rltb (1 - 1/3 * etay ^ 2) 0 then None
        else Some ((2 * sqrt 3 / 3) * sqrt (1 - 1/3 * etay ^ 2) / vl_safe etay)
    | _, _ => None
    end.

  (** 1559-1614: loop of the return to the apex. *)
  Definition vl_apex_values (L : lou_laws) (acc : R) : option (R * slope * R) :=
    match l_y L acc, l_a L acc, l_b L acc with
    | Some (y, H), Some (a, _), Some (b, _) => if Req_EM_T a 0 then None else Some (y, H, 1 / (3 * a * vl_safe b))
    | _, _, _ => None
    end.
  Definition vl_apex_correction (K alpha beta residual : R) (H : slope) : option R :=
    match H with
    | Infinite => if Req_EM_T (alpha * beta) 0 then None else Some 0
    | Fin h => if Req_EM_T (alpha * beta * h + K) 0 then None else Some (- residual / (alpha * beta * h + K))
    end.
  Fixpoint vl_apex_loop (L : lou_laws) (K alpha pressure acc_old : R) (avoid : bool) (nr_iter left : nat) (diter x : option R)
    : option R * bool :=
    let o := match x with
             | Some x => match vl_apex_values L (acc_old + alpha * x) with
                         | Some (y, H, beta) => Some (y, H, beta, y * beta - (pressure - K * x))
                         | None => None
                         end
             | None => None
             end in
    let conv_cond := match o with
                     | Some (y, _, _, r) =>
                         rltb (if rltb (Rabs y) small then Rabs r else Rabs r / Rabs y) su_conv_tol
                         && olt diter su_conv_tol && Nat.ltb 0 nr_iter
                     | None => false
                     end in
    let is_converged := if avoid then avoid else conv_cond in
    let d_iter := if is_converged then Some 0
                  else match o with Some (y, H, beta, r) => vl_apex_correction K alpha beta r H | None => None end in
    let diter' := omap (fun d => Rabs (if rltb small acc_old then d / acc_old else d)) d_iter in
    let x' := omap2 Rplus x d_iter in
    match left with
    | O => (x', is_converged)
    | S l => vl_apex_loop L K alpha pressure acc_old avoid (S nr_iter) l diter' x'
    end.

  (** 1461-1650: _plastic_step_apex. *)
  Definition vl_plastic_step_apex (L : lou_laws) (K : R) (so : list R) (avoid : bool) (pressure acc_old : R) : vl_step :=
    match vl_alpha L with
    | None => VLStep None None None None avoid true true
    | Some alpha =>
        match vl_apex_loop L K alpha pressure acc_old avoid 0 vl_max_n_iterations (Some 0) (Some 0) with
        | (Some x, true) =>
            let p := pressure - K * x in
            VLStep (Some (vscale (1 / (3 * K) * p) so)) (Some (vscale p so)) (Some (acc_old + alpha * x)) (Some 0) true true true
        | (_, is_converged) => VLStep None None None None is_converged true true
        end
    end.

  (** 803-966: _plastic_step. *)
  Definition vl_plastic_step (fixed apex : bool) (E v : R) (L : lou_laws) (Ce : list (list R)) (so : list R) (el : bool)
    (e_trial trial : T2) (acc_old : R) : res vl_step :=
    let K := bulk E v in
    let p := 1/3 * ttrace trial in
    let law hl := match hl acc_old with Some (y, _) => Some y | None => None end in
    let is_apex := if apex
                   then match law (l_y L), law (l_a L), law (l_b L) with
                        | Some y, Some a, Some b => is_apex_return y a b p
                        | _, _, _ => false
                        end
                   else false in
    rbind (vl_plastic_step_cone fixed L (iso_tangent E v) Ce (el || is_apex) e_trial acc_old) (fun cone =>
    Ok (if is_apex then vl_plastic_step_apex L K so (el || negb is_apex) p acc_old else cone)).

  (** 755-801: _elastic_step. *)
  Definition vl_elastic_step (et trial : list R) (acc : R) : vl_step :=
    VLStep (Some et) (Some trial) (Some acc) (Some 0) true false false.

  (** 448-526 in three dimensions.  NaN inputs fail every comparison and both
      loops end in failure. *)
  Definition vl_core (fixed apex : bool) (E v : R) (L : lou_laws) (e_trial : option (list R)) (acc_old : option R) : res vl_step :=
    rbind (vget_tensor_mf4 (iso_tangent E v) 3 order_sym_3d true) (fun Ce =>
    rbind (vget_tensor_mf2 soid 3 order_sym_3d true) (fun so =>
    match e_trial, acc_old with
    | Some et, Some acc =>
        let trial_mf := mv Ce et in
        rbind (vget_tensor_from_mf2 trial_mf 3 order_sym_3d true) (fun trial =>
        rbind (vget_tensor_from_mf2 et 3 order_sym_3d true) (fun et_t =>
        let law hl := match hl acc with Some (y, _) => Some y | None => None end in
        let eff := match law (l_a L), law (l_b L), law (l_c L), law (l_d L) with
                   | Some a, Some b, Some c, Some d => get_effective_stress trial a b c d
                   | _, _, _, _ => None
                   end in
        let el := match eff, law (l_y L) with Some f, Some y => yield_quot_le (f - y) y | _, _ => false end in
        rbind (vl_plastic_step fixed apex E v L Ce so el et_t trial acc) (fun plastic =>
        Ok (if el then vl_elastic_step et trial_mf acc else plastic))))
    | _, _ => Ok (VLStep None None None None false true false)
    end)).

  (** 348-600: state_update (the tangent is None, 580); the flag is
      is_apex_return.  Only plane strain and three dimensions define the elastic
      tangent (460-461). *)
  Definition vl_state_update (fixed apex : bool) (pt : nat) (E v : R) (L : lou_laws) (inc : T2) (st : vm_state) : res (vm_state * bool) :=
    rbind (get_problem_type_parameters pt) (fun p =>
    let '(n, order, _) := p in
    rbind (vget_tensor_mf2 inc n order true) (fun inc_mf =>
    let p_old := omap2 vsub (vs_strain st) (vs_e st) in
    if Nat.eqb pt 4 then
      let e_trial := omap (fun e => vadd e inc_mf) (vs_e st) in
      rbind (vl_core fixed apex E v L e_trial (vs_acc st)) (fun o =>
      Ok (VState (vl_e o) (omap2 vadd e_trial p_old) (vl_stress o) (vl_acc o) (vl_plast o) (negb (vl_ok o)) (Some 0) (Some 0), vl_isapex o))
    else if Nat.eqb pt 1 then
      rbind (vget_state_3Dmf_from_2Dmf inc_mf 0) (fun inc3 =>
      rbind (lift_res (omap2 vget_state_3Dmf_from_2Dmf (vs_e st) (vs_e33 st))) (fun e_old =>
      let e_trial := omap (fun e => vadd e inc3) e_old in
      rbind (vl_core fixed apex E v L e_trial (vs_acc st)) (fun o =>
      rbind (lift_res (omap vget_state_2Dmf_from_3Dmf e_trial)) (fun e_trial2 =>
      rbind (lift_res (omap vget_state_2Dmf_from_3Dmf (vl_e o))) (fun e2 =>
      rbind (lift_res (omap vget_state_2Dmf_from_3Dmf (vl_stress o))) (fun s2 =>
      Ok (VState e2 (omap2 vadd e_trial2 p_old) s2 (vl_acc o) (vl_plast o) (negb (vl_ok o))
            (omap (fun e => nth 2 e 0) (vl_e o)) (omap (fun s => nth 2 s 0) (vl_stress o)), vl_isapex o)))))))
    else Err NameError)).
End Update.
