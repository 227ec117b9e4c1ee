(** Von Mises material with isotropic and kinematic hardening:
    src/hookeai/simulators/fetorch/material/models/standard/von_mises_mixed.py
    and src/hookeai/simulators/fetorch/material/models/vmap/von_mises_mixed.py.

    NaN-valued tensors and numbers are [None].  Both hardening laws are
    arbitrary functions (they are looked up in the material parameters at
    305-312).  Precision conversions, devices and the finite-strain formulation
    are not modelled. *)
From Coq Require Import Reals List Arith Bool.
From Verif Require Import Lib MatrixModel TensorModel HardeningModel ElasticModel VonMisesModel VmapModel.
Import ListNotations.
Local Open Scope R_scope.

(** Sum of the two hardening slopes, infinite when one of them is. *)
Definition slope_add (a b : slope) : slope :=
  match a, b with Fin x, Fin y => Fin (x + y) | _, _ => Infinite end.

(** 425-461: Newton-Raphson loop.  [first] is nr_iter = 0, [fuel] is
    su_max_n_iterations - nr_iter and [kold] is kin_hard_stress_old.  The result
    is the plastic multiplier, the last kinematic hardening stress and the sum
    of the last slopes, [None] on failure.  A vanishing Jacobian or an undefined
    hardening stress makes all later iterates undefined, hence failure.  An
    infinite slope gives a zero correction. *)
Definition mx_residual (q G kold x k y : R) : R := q - 3 * G * x - k + kold - y.
Fixpoint mx_newton (hl kl : hlaw) (q G acc_old kold tol : R) (fuel : nat) (first : bool) (x : R)
  : option (R * R * slope) :=
  match hl (acc_old + x), kl (acc_old + x) with
  | Some (y, H), Some (k, KH) =>
      let residual := mx_residual q G kold x k y in
      if quot_lt (Rabs residual) (Rabs y) tol && negb first then Some (x, k, slope_add KH H)
      else
        match fuel with
        | O => None
        | S f =>
            match slope_add KH H with
            | Infinite => mx_newton hl kl q G acc_old kold tol f false x
            | Fin h =>
                let J := - 3 * G - h in
                if Req_EM_T J 0 then None
                else mx_newton hl kl q G acc_old kold tol f false (x + - residual / J)
            end
        end
  | _, _ => None
  end.

(** [dk] is kin_hard_stress - kin_hard_stress_old. *)
Inductive mx_outcome := MElastic | MPlastic (x dk : R) (H : slope) | MFailed.

(** 396-461, 473-489: yield check and return mapping. *)
Definition mx_return (hl kl : hlaw) (G q acc_old : R) : mx_outcome :=
  match hl acc_old with
  | None => MFailed
  | Some (y, _) =>
      if quot_le (q - y) y su_conv_tol then MElastic
      else match kl acc_old with
           | None => MFailed
           | Some (kold, _) =>
               match mx_newton hl kl q G acc_old kold su_conv_tol su_max_n_iterations true 0 with
               | Some (x, k, H) => MPlastic x (k - kold) H
               | None => MFailed
               end
           end
  end.

(** 194-246: state variables; [ms_vm] holds the ones shared with the von Mises
    model. *)
Record mx_state := MState
  { ms_vm : vm_state; ms_back : option (list R); ms_back33 : option R }.
Definition mx_state_init (pt : nat) : res mx_state :=
  rbind (vm_state_init pt) (fun s =>
  rbind (get_problem_type_parameters pt) (fun p =>
  let '(n, order, _) := p in
  rbind (vget_tensor_mf2 zero2 n order true) (fun z => Ok (MState s (Some z) (Some 0))))).

(** 535-556: consistent tangent (three-dimensional tensor). *)
Definition mx_tangent (E v : R) (G q : R) (flow : T2) (o : mx_outcome) : option T4 :=
  match o with
  | MFailed => None
  | MElastic => Some (iso_tangent E v)
  | MPlastic x _ H =>
      let factor_1 := x * 6 * G ^ 2 / q in
      let inv := match H with Fin h => 1 / (3 * G + h) | Infinite => 0 end in
      let factor_2 := 6 * G ^ 2 * (x / q - inv) in
      let unit : T2 := fun i j => sqrt (2 / 3) * flow i j in
      Some (fun i j k l => iso_tangent E v i j k l - factor_1 * fodevprojsym 3 i j k l
                           + factor_2 * dyad22_1 unit unit i j k l)
  end.

(** 357-489 and 527-560 in three dimensions.  Undefined inputs make every
    comparison False, so that the loop ends in failure. *)
Record mx_core_out := MCore
  { mc_e : option (list R); mc_stress : option (list R); mc_acc : option R; mc_back : option (list R);
    mc_outcome : mx_outcome; mc_tangent : option (list (list R)) }.
Definition mx_core (E v : R) (hl kl : hlaw) (e_trial : option (list R)) (acc_old : option R)
  (back_old : option (list R)) : res mx_core_out :=
  let G := lame_mu E v in
  rbind (vget_tensor_mf4 (fodevprojsym 3) 3 order_sym_3d true) (fun Pd =>
  rbind (vget_tensor_mf4 (iso_tangent E v) 3 order_sym_3d true) (fun Ce =>
  match e_trial, acc_old, back_old with
  | Some et, Some acc, Some b =>
      let trial := mv Ce et in
      let rel := vsub (mv Pd trial) b in
      let q := vm_equivalent rel in
      let flow := flow_vector rel in
      let o := mx_return hl kl G q acc in
      rbind (vget_tensor_from_mf2 flow 3 order_sym_3d true) (fun flow_t =>
      rbind (match mx_tangent E v G q flow_t o with
             | Some t => rbind (vget_tensor_mf4 t 3 order_sym_3d true) (fun m => Ok (Some m))
             | None => Ok None
             end) (fun tan_mf =>
      match o with
      | MElastic => Ok (MCore (Some et) (Some trial) (Some acc) (Some b) o tan_mf)
      | MPlastic x dk H =>
          let e := vsub et (vscale x flow) in
          Ok (MCore (Some e) (Some (mv Ce e)) (Some (acc + x)) (Some (vadd b (vscale dk flow))) o tan_mf)
      | MFailed => Ok (MCore None None None None o tan_mf)
      end))
  | _, _, _ => Ok (MCore None None None None MFailed None)
  end)).

Definition mx_is_plast (o : mx_outcome) : bool := match o with MElastic => false | _ => true end.
Definition mx_is_fail (o : mx_outcome) : bool := match o with MFailed => true | _ => false end.

(** 249-572: state_update.  Other problem types leave the out-of-plane state
    unbound (341-352). *)
Definition mx_state_update (pt : nat) (E v : R) (hl kl : hlaw) (inc : T2) (mst : mx_state)
  : res (mx_state * option (list (list R))) :=
  let st := ms_vm mst in
  rbind (get_problem_type_parameters pt) (fun p =>
  let '(n, order, _) := p in
  rbind (vget_tensor_mf2 inc n order true) (fun inc_mf =>
  let p_old := omap2 vsub (vs_strain st) (vs_e st) in
  if Nat.eqb pt 4 then
    let e_trial := omap (fun e => vadd e inc_mf) (vs_e st) in
    rbind (mx_core E v hl kl e_trial (vs_acc st) (ms_back mst)) (fun c =>
    Ok (MState (VState (mc_e c) (omap2 vadd e_trial p_old) (mc_stress c) (mc_acc c)
          (mx_is_plast (mc_outcome c)) (mx_is_fail (mc_outcome c)) (Some 0) (Some 0))
          (mc_back c) (Some 0), mc_tangent c))
  else if Nat.eqb pt 1 then
    rbind (vget_state_3Dmf_from_2Dmf inc_mf 0) (fun inc3 =>
    rbind (lift_res (omap2 vget_state_3Dmf_from_2Dmf (vs_e st) (vs_e33 st))) (fun e_old =>
    rbind (lift_res (omap2 vget_state_3Dmf_from_2Dmf (ms_back mst) (ms_back33 mst))) (fun b_old =>
    let e_trial := omap (fun e => vadd e inc3) e_old in
    rbind (mx_core E v hl kl e_trial (vs_acc st) b_old) (fun c =>
    rbind (lift_res (omap vget_state_2Dmf_from_3Dmf e_trial)) (fun e_trial2 =>
    rbind (lift_res (omap vget_state_2Dmf_from_3Dmf (mc_e c))) (fun e2 =>
    rbind (lift_res (omap vget_state_2Dmf_from_3Dmf (mc_stress c))) (fun s2 =>
    rbind (lift_res (omap vget_state_2Dmf_from_3Dmf (mc_back c))) (fun b2 =>
    rbind (lift_res (omap vget_state_2Dmf_from_3Dmf_mat (mc_tangent c))) (fun t2 =>
    Ok (MState (VState e2 (omap2 vadd e_trial2 p_old) s2 (mc_acc c)
          (mx_is_plast (mc_outcome c)) (mx_is_fail (mc_outcome c))
          (omap (fun e => nth 2 e 0) (mc_e c)) (omap (fun s => nth 2 s 0) (mc_stress c)))
          b2 (omap (fun s => nth 2 s 0) (mc_back c)), t2))))))))))
  else Err NameError)).
Fixpoint mx_run (pt : nat) (E v : R) (hl kl : hlaw) (incs : list T2) (st : mx_state) : res mx_state :=
  match incs with
  | [] => Ok st
  | inc :: t => rbind (mx_state_update pt E v hl kl inc st) (fun r => mx_run pt E v hl kl t (fst r))
  end.

(** * The vectorised model: vmap/von_mises_mixed.py *)
(** 676-691 and 727-754: convergence test and iteration. *)
Definition mv_conv (hl kl : hlaw) (q G acc_old kold tol : R) (x : option R) : bool :=
  match x with
  | None => false
  | Some x =>
      match hl (acc_old + x), kl (acc_old + x) with
      | Some (y, _), Some (k, _) => quot_lt (Rabs (mx_residual q G kold x k y)) (Rabs y) tol
      | _, _ => false
      end
  end.
Definition mv_step (hl kl : hlaw) (q G acc_old kold : R) (x : option R) : option R :=
  match x with
  | None => None
  | Some x =>
      match hl (acc_old + x), kl (acc_old + x) with
      | Some (y, H), Some (k, KH) =>
          match slope_add KH H with
          | Infinite => Some x
          | Fin h => let J := - 3 * G - h in
                     if Req_EM_T J 0 then None else Some (x + - mx_residual q G kold x k y / J)
          end
      | _, _ => None
      end
  end.
(** 668-711: multiplier (NaN on failure) and convergence flag. *)
Definition mv_multiplier (el : bool) (hl kl : hlaw) (q G acc_old kold tol : R) (n : nat) : option R * bool :=
  let '(x, ok) := masked_loop el (mv_conv hl kl q G acc_old kold tol) (mv_step hl kl q G acc_old kold) 0 n (Some 0) in
  (if ok then x else None, ok).

(** 514-535: the plastic tangent uses the isotropic slope only. *)
Definition mv_tangent (E v : R) (G q : R) (flow : T2) (x : R) (H : slope) : option T4 :=
  mx_tangent E v G q flow (MPlastic x 0 H).
(** 412-477 and 514-541 in three dimensions. *)
Record mv_out := MVOut
  { mv_e : option (list R); mv_stress : option (list R); mv_acc : option R; mv_back : option (list R);
    mv_plast : bool; mv_fail : bool; mv_tan : option (list (list R)) }.
Definition mv_core (E v : R) (hl kl : hlaw) (e_trial : option (list R)) (acc_old : option R)
  (back_old : option (list R)) : res mv_out :=
  let G := lame_mu E v in
  rbind (vget_tensor_mf4 (fodevprojsym 3) 3 order_sym_3d true) (fun Pd =>
  rbind (vget_tensor_mf4 (iso_tangent E v) 3 order_sym_3d true) (fun Ce =>
  match e_trial, acc_old, back_old with
  | Some et, Some acc, Some b =>
      let trial := mv Ce et in
      let rel := vsub (mv Pd trial) b in
      let q := vm_equivalent rel in
      let flow := vv_flow_vector rel in
      let el := match hl acc with
                | None => false
                | Some (y, _) => quot_le (q - y) y su_conv_tol
                end in
      (* both branches are computed and one is selected: 448-463 *)
      let x := match kl acc with
               | None => None
               | Some (kold, _) => fst (mv_multiplier el hl kl q G acc kold su_conv_tol su_max_n_iterations)
               end in
      let b_p := match x, kl acc with
                 | Some x, Some (kold, _) =>
                     match kl (acc + x) with
                     | Some (k, _) => Some (vadd b (vscale (k - kold) flow))
                     | None => None
                     end
                 | _, _ => None
                 end in
      let e_p := omap (fun x => vsub et (vscale x flow)) x in
      let e := if el then Some et else e_p in
      let stress := if el then Some trial else omap (mv Ce) e_p in
      let a := if el then Some acc else omap (fun x => acc + x) x in
      let back := if el then Some b else b_p in
      let xx := if el then Some 0 else x in
      let plast := negb el in
      let fail := if el then false else match x with Some _ => false | None => true end in
      rbind (vget_tensor_from_mf2 flow 3 order_sym_3d true) (fun flow_t =>
      let tan := if plast
                 then match xx, a with
                      | Some x, Some a =>
                          match hl a with
                          | Some (_, H) => mv_tangent E v G q flow_t x H
                          | None => None
                          end
                      | _, _ => None
                      end
                 else Some (iso_tangent E v) in
      rbind (match tan with
             | Some t => rbind (vget_tensor_mf4 t 3 order_sym_3d true) (fun m => Ok (Some m))
             | None => Ok None
             end) (fun tan_mf => Ok (MVOut e stress a back plast fail tan_mf)))
  | _, _, _ => Ok (MVOut None None None None true true None)
  end)).
