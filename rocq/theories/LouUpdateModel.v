(** State update of the Lou-Zhang-Yoon material:
    src/hookeai/simulators/fetorch/material/models/standard/lou.py,
    state_update 306-812 and get_residual_and_jacobian 962-1202.

    NaN-valued (or infinite) tensors and numbers are [None].  Hardening laws
    are arbitrary functions (they are looked up in the material parameters at
    363-375).  torch.linalg.solve (707) is an arbitrary function: its result is
    an exception, a vector, or NaN.  Precision conversions, devices, verbose
    output and the finite-strain formulation are not modelled. *)
From Coq Require Import Reals List Arith Bool.
From Verif Require Import Lib MatrixModel TensorModel HardeningModel ElasticModel VonMisesModel LouModel.
Import ListNotations.
Local Open Scope R_scope.

(** 363-375: hardening laws of the yield stress and of the yield parameters. *)
Record lou_laws := Laws
  { l_y : hlaw; l_a : hlaw; l_b : hlaw; l_c : hlaw; l_d : hlaw; l_assoc : bool }.

(** 1037-1048: values and slopes at an accumulated plastic strain; an infinite
    slope makes the Jacobian matrix infinite. *)
Record lou_vals := Vals
  { q_y : R; q_yh : R; q_a : R; q_ah : R; q_b : R; q_bh : R; q_c : R; q_ch : R; q_d : R; q_dh : R }.
Definition fin_law (hl : hlaw) (x : R) : option (R * R) :=
  match hl x with Some (y, Fin h) => Some (y, h) | _ => None end.
Definition lou_values (L : lou_laws) (acc : R) : option lou_vals :=
  match fin_law (l_y L) acc, fin_law (l_a L) acc, fin_law (l_b L) acc, fin_law (l_c L) acc, fin_law (l_d L) acc with
  | Some (y, yh), Some (a, ah), Some (b, bh), Some (c, ch), Some (d, dh) => Some (Vals y yh a ah b bh c ch d dh)
  | _, _, _, _, _ => None
  end.

(** torch.linalg.norm of a second-order tensor *)
Definition fnorm (a : T2) : R := sqrt (ddot22_1 3 a a).

Section Terms.
  (** 1049-1053: invariants and derivatives *)
  Variables (q : lou_vals) (v : invariants) (dv : derivatives).
  (** 1055-1060 *)
  Definition w1 : R := q_b q * v_i1 v.
  Definition w2 : R := q_c q * v_j3 v ^ 2.
  Definition w3 : R := q_d q * v_j3 v.
  Definition w4 : R := v_j2 v ^ 3 - w2.
  Definition w5 : R := Rpower w4 (1/2) - w3.
  (** 1061-1066 *)
  Definition dw1 : T2 := fun i j => q_b q * d_i1 dv i j.
  Definition dw2 : T2 := fun i j => 2 * q_c q * v_j3 v * d_j3 dv i j.
  Definition dw3 : T2 := fun i j => q_d q * d_j3 dv i j.
  Definition dw4 : T2 := fun i j => 3 * v_j2 v ^ 2 * d_j2 dv i j - dw2 i j.
  Definition dw5 : T2 := fun i j => 1/2 * Rpower w4 (-1/2) * dw4 i j - dw3 i j.
  (** 1067-1075 *)
  Definition d2w2 : T4 := fun i j k l =>
    2 * q_c q * (dyad22_1 (d_j3 dv) (d_j3 dv) i j k l + v_j3 v * d2_j3 dv i j k l).
  Definition d2w3 : T4 := fun i j k l => q_d q * d2_j3 dv i j k l.
  Definition d2w4 : T4 := fun i j k l =>
    6 * v_j2 v * dyad22_1 (d_j2 dv) (d_j2 dv) i j k l + 3 * v_j2 v ^ 2 * d2_j2 dv i j k l - d2w2 i j k l.
  Definition d2w5 : T4 := fun i j k l =>
    - (1/4) * Rpower w4 (-3/2) * dyad22_1 dw4 dw4 i j k l + 1/2 * Rpower w4 (-1/2) * d2w4 i j k l - d2w3 i j k l.
  (** 1076-1081 *)
  Definition dw1_acc : R := v_i1 v * q_bh q.
  Definition dw2_acc : R := v_j3 v ^ 2 * q_ch q.
  Definition dw3_acc : R := v_j3 v * q_dh q.
  Definition dw4_acc : R := - dw2_acc.
  Definition dw5_acc : R := 1/2 * Rpower w4 (-1/2) * dw4_acc - dw3_acc.
  (** 1082-1090 *)
  Definition d2w1_acc : T2 := fun i j => q_bh q * soid i j.
  Definition d2w2_acc : T2 := fun i j => 2 * v_j3 v * q_ch q * d_j3 dv i j.
  Definition d2w3_acc : T2 := fun i j => q_dh q * d_j3 dv i j.
  Definition d2w4_acc : T2 := fun i j => - d2w2_acc i j.
  Definition d2w5_acc : T2 := fun i j =>
    - (1/4) * Rpower w4 (-3/2) * dw4_acc * dw4 i j + 1/2 * Rpower w4 (-1/2) * d2w4_acc i j - d2w3_acc i j.
  (** 1091-1097 *)
  Definition eff_stress : R := q_a q * (w1 + Rpower w5 (1/3)).
  Definition flow : T2 := fun i j => q_a q * (dw1 i j + 1/3 * Rpower w5 (-2/3) * dw5 i j).
  (** 1111-1123 *)
  Definition dflow_dstress : T4 := fun i j k l => 1/3 * q_a q *
    (- (2/3) * Rpower w5 (-5/3) * dyad22_1 dw5 dw5 i j k l + Rpower w5 (-2/3) * d2w5 i j k l).
  Definition dflow_dacc : T2 := fun i j =>
    q_ah q * (dw1 i j + 1/3 * Rpower w5 (-2/3) * dw5 i j)
    + q_a q * (d2w1_acc i j - 2/9 * Rpower w5 (-5/3) * dw5_acc * dw5 i j + 1/3 * Rpower w5 (-2/3) * d2w5_acc i j).
  (** 1128-1131 *)
  Definition deff_dacc : R :=
    q_ah q * (w1 + Rpower w5 (1/3)) + q_a q * (dw1_acc + 1/3 * Rpower w5 (-2/3) * dw5_acc).
End Terms.

Record lou_system := Sys { rj_1 : T2; rj_2 : R; rj_3 : R; rj_J : list (list R) }.

(** 962-1202.  Exceptions: the inverse of the deviatoric stress (903).  [None]:
    negative or vanishing base of a fractional power, undefined law, vanishing
    initial yield stress or, without associative hardening, vanishing flow
    vector; all of them make entries of the residuals or of the Jacobian NaN or
    infinite. *)
Definition get_residual_and_jacobian (L : lou_laws) (C : T4) (y0 : R) (e e_trial : T2) (acc acc_old g : R)
  : res (option lou_system) :=
  let stress := ddot42_1 3 C e in
  let v := get_stress_invariants stress in
  rbind (get_stress_invariants_derivatives stress) (fun dv =>
  match lou_values L acc with
  | None => Ok None
  | Some q =>
      let N := flow q v dv in
      let nrm := fnorm N in
      if negb (rltb 0 (w4 q v) && rltb 0 (w5 q v)) then Ok None
      else if Req_EM_T y0 0 then Ok None
      else if negb (l_assoc L) && (if Req_EM_T nrm 0 then true else false) then Ok None
      else
        (* 1099-1109 *)
        let residual_1 : T2 := fun i j => e i j - e_trial i j + g * N i j in
        let residual_2 := if l_assoc L then acc - acc_old - 1 * g else acc - acc_old - g * sqrt (2/3) * nrm in
        let residual_3 := (eff_stress q v - q_y q) / y0 in
        let dflow_de := ddot44_1 3 (dflow_dstress q v dv) C in
        let dfacc := dflow_dacc q v dv in
        let deff_de := ddot24_1 3 N C in
        (* 1132-1174 *)
        let dr1_de : T4 := fun i j k l => fosym 3 i j k l + g * dflow_de i j k l in
        let dr1_dacc : T2 := fun i j => g * dfacc i j in
        let dr2_de : T2 := if l_assoc L then zero2
          else fun i j => - g * sqrt (2/3) * (1 / nrm) * ddot24_1 3 N dflow_de i j in
        let dr2_dacc := if l_assoc L then 1 else 1 - g * sqrt (2/3) * (1 / nrm) * ddot22_1 3 N dfacc in
        let dr2_dg := if l_assoc L then -1 * 1 else - sqrt (2/3) * nrm in
        let dr3_de : T2 := fun i j => 1 / y0 * deff_de i j in
        let dr3_dacc := 1 / y0 * (deff_dacc q v - q_yh q) in
        let dr3_dg := 0 in
        (* 1175-1202 *)
        rbind (vget_tensor_mf4 dr1_de 3 order_sym_3d true) (fun j11 =>
        rbind (vget_tensor_mf2 dr1_dacc 3 order_sym_3d true) (fun j12 =>
        rbind (vget_tensor_mf2 N 3 order_sym_3d true) (fun j13 =>
        rbind (vget_tensor_mf2 dr2_de 3 order_sym_3d true) (fun j21 =>
        rbind (vget_tensor_mf2 dr3_de 3 order_sym_3d true) (fun j31 =>
        Ok (Some (Sys residual_1 residual_2 residual_3
          (map (fun p => fst p ++ [fst (snd p); snd (snd p)]) (combine j11 (combine j12 j13))
           ++ [j21 ++ [dr2_dacc; dr2_dg]; j31 ++ [dr3_dacc; dr3_dg]])))))))) 
  end).

(** 346-352 *)
Definition apex_switch_tol : R := 1 / 20.

Section Update.
  Variable solve : list (list R) -> list R -> res (option (list R)).

  (** 614-728: Newton-Raphson loop of the return to the surface.  [first] is
      nr_iter = 0, [fuel] is su_max_n_iterations - nr_iter and [diter] is
      conv_diter_norm.  The result is [None] on failure. *)
  Fixpoint surface_newton (L : lou_laws) (C : T4) (y0 : R) (e_trial : T2) (acc_old : R)
    (fuel : nat) (first : bool) (diter : R) (e : T2) (acc g : R) : res (option (T2 * R * R)) :=
    rbind (get_residual_and_jacobian L C y0 e e_trial acc acc_old g) (fun o =>
    match o with
    | None => Ok None
    | Some s =>
        rbind (vget_tensor_mf2 (rj_1 s) 3 order_sym_3d true) (fun r1 =>
        let residual := r1 ++ [rj_2 s; rj_3 s] in
        let norm_1 := if rltb (fnorm e_trial) small then fnorm (rj_1 s) else fnorm (rj_1 s) / fnorm e_trial in
        let norm_2 := if rltb (Rabs acc_old) small then Rabs (rj_2 s) else Rabs (rj_2 s / acc_old) in
        let norm_3 := Rabs (rj_3 s) in
        let mean := (norm_1 + norm_2 + norm_3) / 3 in
        if rltb mean su_conv_tol && rltb diter su_conv_tol && negb first then Ok (Some (e, acc, g))
        else
          match fuel with
          | O => Ok None
          | S f =>
              rbind (solve (rj_J s) (map Ropp residual)) (fun od =>
              match od with
              | None => Ok None
              | Some d =>
                  let d_e := firstn 6 d in
                  let c_e := if rltb small (fnorm e_trial) then map (fun x => x / fnorm e_trial) d_e else d_e in
                  let sc x := if rltb small (Rabs acc_old) then x / acc_old else x in
                  let diter' := vnorm (c_e ++ [sc (nth 6 d 0); sc (nth 7 d 0)]) in
                  rbind (vget_tensor_from_mf2 d_e 3 order_sym_3d true) (fun de =>
                  surface_newton L C y0 e_trial acc_old f false diter'
                    (fun i j => e i j + de i j) (acc + nth 6 d 0) (g + nth 7 d 0))
              end)
          end)
    end).

  (** 505-609: Newton-Raphson loop of the return to the apex.  Undefined laws,
      vanishing yield parameters and a vanishing Jacobian give NaN or infinite
      iterates, hence failure.  An infinite hardening slope gives a zero
      correction (NaN if multiplied by zero). *)
  Definition apex_state (L : lou_laws) (acc : R) : option (R * slope * R * R) :=
    match l_y L acc, l_a L acc, l_b L acc with
    | Some (y, H), Some (a, _), Some (b, _) => Some (y, H, a, b)
    | _, _, _ => None
    end.
  Fixpoint apex_newton (L : lou_laws) (K alpha pressure acc_old : R) (fuel : nat) (first : bool) (diter x : R)
    : option R :=
    match apex_state L (acc_old + alpha * x) with
    | None => None
    | Some (y, H, a, b) =>
        if Req_EM_T (a * b) 0 then None
        else
          let beta := 1 / (3 * a * b) in
          let residual := y * beta - (pressure - K * x) in
          let norm := if rltb (Rabs y) small then Rabs residual else Rabs residual / Rabs y in
          if rltb norm su_conv_tol && rltb diter su_conv_tol && negb first then Some x
          else
            match fuel with
            | O => None
            | S f =>
                match H with
                | Infinite => if Req_EM_T (alpha * beta) 0 then None
                              else apex_newton L K alpha pressure acc_old f false 0 x
                | Fin h =>
                    let J := alpha * beta * h + K in
                    if Req_EM_T J 0 then None
                    else
                      let d := - residual / J in
                      let cd := if rltb small (Rabs acc_old) then d / acc_old else d in
                      apex_newton L K alpha pressure acc_old f false (Rabs cd) (x + d)
                end
            end
    end.

  (** 484-497: choice of the return; a vanishing yield parameter a gives an
      infinite apex pressure. *)
  Definition is_apex_return (y a b pressure : R) : bool :=
    let safe_b := Rmax (Rabs b) (1 / 1000000) in
    if Req_EM_T a 0 then rltb y 0
    else rltb ((1 - apex_switch_tol) * (1 / (3 * a * safe_b) * y)) pressure.

  (** 478-504: alpha, NaN when undefined *)
  Definition apex_alpha (L : lou_laws) : option R :=
    match l_a L 0, l_b L 0 with
    | Some (a, _), Some (b, _) =>
        let etay := 3 * a * b in
        if Req_EM_T etay 0 then None
        else if rltb (1 - 1/3 * etay ^ 2) 0 then None
        else Some ((2 * sqrt 3 / 3) * sqrt (1 - 1/3 * etay ^ 2) / etay)
    | _, _ => None
    end.

  Inductive lou_outcome := LElastic | LSurface (e : T2) (acc g : R) | LApex (x : R) (e : T2) (acc : R) | LFailed.

  (** 457-463: yield check; the yield stress may vanish and the numerator be
      negative *)
  Definition yield_quot_le (f y : R) : bool := if Req_EM_T y 0 then rltb f 0 else rleb (f / y) su_conv_tol.

  Definition bulk (E v : R) : R := E / (3 * (1 - 2 * v)).

  (** 440-735: yield check and return mapping *)
  Definition lou_return (E v : R) (L : lou_laws) (e_trial trial_stress : T2) (acc_old : R) : res lou_outcome :=
    let law hl := match hl acc_old with Some (y, _) => Some y | None => None end in
    let eff := match law (l_a L), law (l_b L), law (l_c L), law (l_d L) with
               | Some a, Some b, Some c, Some d => get_effective_stress trial_stress a b c d
               | _, _, _, _ => None
               end in
    let elastic := match eff, law (l_y L) with Some f, Some y => yield_quot_le (f - y) y | _, _ => false end in
    if elastic then Ok LElastic
    else
      let p := 1/3 * ttrace trial_stress in
      let apex := match law (l_y L), law (l_a L), law (l_b L) with
                  | Some y, Some a, Some b => is_apex_return y a b p
                  | _, _, _ => false
                  end in
      let K := bulk E v in
      if apex then
        match apex_alpha L with
        | None => Ok LFailed
        | Some alpha =>
            match apex_newton L K alpha p acc_old su_max_n_iterations true 0 0 with
            | None => Ok LFailed
            | Some x => Ok (LApex x (fun i j => 1 / (3 * K) * (p - K * x) * soid i j) (acc_old + alpha * x))
            end
        end
      else
        match l_y L 0 with
        | None => Ok LFailed
        | Some (y0, _) =>
            rbind (surface_newton L (iso_tangent E v) y0 e_trial acc_old su_max_n_iterations true 0 e_trial acc_old 0) (fun o =>
            match o with
            | Some (e, acc, g) => Ok (LSurface e acc g)
            | None => Ok LFailed
            end)
        end.

  (** 420-750 in three dimensions: elastic strain, stress, accumulated plastic
      strain, plastic flag and failure flag.  NaN inputs fail every comparison
      and the loop ends in failure. *)
  Record lou_core_out := LCore
    { lc_e : option (list R); lc_stress : option (list R); lc_acc : option R; lc_plast : bool; lc_fail : bool }.
  Definition lou_core (E v : R) (L : lou_laws) (e_trial : option (list R)) (acc_old : option R) : res lou_core_out :=
    rbind (vget_tensor_mf4 (iso_tangent E v) 3 order_sym_3d true) (fun Ce =>
    match e_trial, acc_old with
    | Some et, Some acc =>
        let trial_mf := mv Ce et in
        rbind (vget_tensor_from_mf2 trial_mf 3 order_sym_3d true) (fun trial =>
        rbind (vget_tensor_from_mf2 et 3 order_sym_3d true) (fun et_t =>
        rbind (lou_return E v L et_t trial acc) (fun o =>
        match o with
        | LElastic => Ok (LCore (Some et) (Some trial_mf) (Some acc) false false)
        | LSurface e acc' _ | LApex _ e acc' =>
            rbind (vget_tensor_mf2 e 3 order_sym_3d true) (fun e_mf =>
            Ok (LCore (Some e_mf) (Some (mv Ce e_mf)) (Some acc') true false))
        | LFailed => Ok (LCore None None None true true)
        end)))
    | _, _ => Ok (LCore None None None true true)
    end).

  (** 306-812: state_update (the tangent is None, 794).  Only plane strain and
      three dimensions define the elastic tangent (426-428). *)
  Definition lou_state_update (pt : nat) (E v : R) (L : lou_laws) (inc : T2) (st : vm_state) : res vm_state :=
    rbind (get_problem_type_parameters pt) (fun p =>
    let '(n, order, _) := p in
    rbind (vget_tensor_mf2 inc n order true) (fun inc_mf =>
    let p_old := omap2 vsub (vs_strain st) (vs_e st) in
    if Nat.eqb pt 4 then
      let e_trial := omap (fun e => vadd e inc_mf) (vs_e st) in
      rbind (lou_core E v L e_trial (vs_acc st)) (fun c =>
      Ok (VState (lc_e c) (omap2 vadd e_trial p_old) (lc_stress c) (lc_acc c) (lc_plast c) (lc_fail c) (Some 0) (Some 0)))
    else if Nat.eqb pt 1 then
      rbind (vget_state_3Dmf_from_2Dmf inc_mf 0) (fun inc3 =>
      rbind (lift_res (omap2 vget_state_3Dmf_from_2Dmf (vs_e st) (vs_e33 st))) (fun e_old =>
      let e_trial := omap (fun e => vadd e inc3) e_old in
      rbind (lou_core E v L e_trial (vs_acc st)) (fun c =>
      rbind (lift_res (omap vget_state_2Dmf_from_3Dmf e_trial)) (fun e_trial2 =>
      rbind (lift_res (omap vget_state_2Dmf_from_3Dmf (lc_e c))) (fun e2 =>
      rbind (lift_res (omap vget_state_2Dmf_from_3Dmf (lc_stress c))) (fun s2 =>
      Ok (VState e2 (omap2 vadd e_trial2 p_old) s2 (lc_acc c) (lc_plast c) (lc_fail c)
            (omap (fun e => nth 2 e 0) (lc_e c)) (omap (fun s => nth 2 s 0) (lc_stress c)))))))))
    else Err NameError)).
End Update.
