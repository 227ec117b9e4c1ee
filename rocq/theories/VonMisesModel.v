(** Von Mises material with isotropic hardening:
    src/hookeai/simulators/fetorch/material/models/standard/von_mises.py.

    NaN-valued tensors and numbers are [None].  The hardening law is an
    arbitrary function (it is looked up in the material properties at 311);
    [HardeningModel] gives the ones available.  Precision conversions, devices
    and the finite-strain formulation are not modelled. *)
From Coq Require Import Reals List Arith Bool.
From Verif Require Import Lib MatrixModel TensorModel HardeningModel ElasticModel.
Import ListNotations.
Local Open Scope R_scope.

(** 295-300. *)
Definition su_conv_tol : R := / 1000000.
Definition su_max_n_iterations : nat := 20.
Definition small : R := / 100000000.

(** Comparison of a quotient with the tolerance; a vanishing yield stress gives
    an infinite or undefined quotient, which compares as False (the numerators
    are non-negative). *)
Definition quot_le (a y tol : R) : bool :=
  if Req_EM_T y 0 then false else rleb (a / y) tol.
Definition quot_lt (a y tol : R) : bool :=
  if Req_EM_T y 0 then false else rltb (a / y) tol.

(** 408-441: Newton-Raphson loop.  [first] is nr_iter = 0 and [fuel] is
    su_max_n_iterations - nr_iter.  The result is the plastic multiplier and
    the last hardening slope, [None] on failure.  A vanishing Jacobian or an
    undefined yield stress makes all later iterates undefined, hence failure.
    An infinite slope gives a zero correction. *)
Fixpoint newton (hl : hlaw) (vm G acc_old tol : R) (fuel : nat) (first : bool) (x : R)
  : option (R * slope) :=
  match hl (acc_old + x) with
  | None => None
  | Some (y, H) =>
      let residual := vm - 3 * G * x - y in
      if quot_lt (Rabs residual) (Rabs y) tol && negb first then Some (x, H)
      else
        match fuel with
        | O => None
        | S f =>
            match H with
            | Infinite => newton hl vm G acc_old tol f false x
            | Fin h =>
                let J := - 3 * G - h in
                if Req_EM_T J 0 then None
                else newton hl vm G acc_old tol f false (x + - residual / J)
            end
        end
  end.

(** 350-384: trial state in three dimensions. *)
Definition dev_stress (Ce : list (list R)) (Pd : list (list R)) (e : list R) : list R := mv Pd (mv Ce e).
Definition flow_vector (s : list R) : list R :=
  let norm_div_factor := if rltb small (vnorm s) then 1 / vnorm s else 0 in
  vscale (sqrt (3 / 2) * norm_div_factor) s.
Definition vm_equivalent (s : list R) : R := sqrt (3 / 2) * vnorm s.

Inductive outcome := OElastic | OPlastic (x : R) (H : slope) | OFailed.

(** 386-441, 449-461: yield check and return mapping. *)
Definition return_mapping (hl : hlaw) (G : R) (vm acc_old : R) : outcome :=
  match hl acc_old with
  | None => OFailed
  | Some (y, _) =>
      if quot_le (vm - y) y su_conv_tol then OElastic
      else match newton hl vm G acc_old su_conv_tol su_max_n_iterations true 0 with
           | Some (x, H) => OPlastic x H
           | None => OFailed
           end
  end.

(** 157-257: state variables. *)
Record vm_state := VState
  { vs_e : option (list R); vs_strain : option (list R); vs_stress : option (list R);
    vs_acc : option R; vs_plast : bool; vs_fail : bool;
    vs_e33 : option R; vs_s33 : option R }.
Definition vm_state_init (pt : nat) : res vm_state :=
  rbind (get_problem_type_parameters pt) (fun p =>
  let '(n, order, _) := p in
  rbind (vget_tensor_mf2 zero2 n order true) (fun z =>
  Ok (VState (Some z) (Some z) (Some z) (Some 0) false false (Some 0) (Some 0)))).

Definition omap {A B} (f : A -> B) (o : option A) : option B :=
  match o with Some a => Some (f a) | None => None end.
Definition omap2 {A B C} (f : A -> B -> C) (a : option A) (b : option B) : option C :=
  match a, b with Some x, Some y => Some (f x y) | _, _ => None end.

(** 498-527: consistent tangent (three-dimensional tensor).  1/(3G + H)
    vanishes for an infinite slope. *)
Definition vm_tangent (E v : R) (G vm : R) (flow : T2) (o : outcome) : option T4 :=
  match o with
  | OFailed => None
  | OElastic => Some (iso_tangent E v)
  | OPlastic x H =>
      let factor_1 := x * 6 * G ^ 2 / vm in
      let inv := match H with Fin h => 1 / (3 * G + h) | Infinite => 0 end in
      let factor_2 := 6 * G ^ 2 * (x / vm - inv) in
      let unit : T2 := fun i j => sqrt (2 / 3) * flow i j in
      Some (fun i j k l => iso_tangent E v i j k l - factor_1 * fodevprojsym 3 i j k l
                           + factor_2 * dyad22_1 unit unit i j k l)
  end.

(** 350-461 and 498-527 in three dimensions: trial strain and accumulated
    plastic strain to elastic strain, stress, accumulated plastic strain,
    outcome and tangent.  Undefined inputs make every comparison False, so that
    the loop ends in failure. *)
Record vm_core_out := VCore
  { vc_e : option (list R); vc_stress : option (list R); vc_acc : option R;
    vc_outcome : outcome; vc_tangent : option (list (list R)) }.
Definition vm_core (E v : R) (hl : hlaw) (e_trial : option (list R)) (acc_old : option R)
  : res vm_core_out :=
  let G := lame_mu E v in
  rbind (vget_tensor_mf4 (fodevprojsym 3) 3 order_sym_3d true) (fun Pd =>
  rbind (vget_tensor_mf4 (iso_tangent E v) 3 order_sym_3d true) (fun Ce =>
  match e_trial, acc_old with
  | Some et, Some acc =>
      let trial := mv Ce et in
      let s := mv Pd trial in
      let vm := vm_equivalent s in
      let flow := flow_vector s in
      let o := return_mapping hl G vm acc in
      rbind (vget_tensor_from_mf2 flow 3 order_sym_3d true) (fun flow_t =>
      let tan := vm_tangent E v G vm flow_t o in
      rbind (match tan with
             | Some t => rbind (vget_tensor_mf4 t 3 order_sym_3d true) (fun m => Ok (Some m))
             | None => Ok None
             end) (fun tan_mf =>
      match o with
      | OElastic => Ok (VCore (Some et) (Some trial) (Some acc) o tan_mf)
      | OPlastic x H =>
          let e := vsub et (vscale x flow) in
          Ok (VCore (Some e) (Some (mv Ce e)) (Some (acc + x)) o tan_mf)
      | OFailed => Ok (VCore None None None o tan_mf)
      end))
  | _, _ => Ok (VCore None None None OFailed None)
  end)).

Definition is_plastic (o : outcome) : bool := match o with OElastic => false | _ => true end.
Definition is_failed (o : outcome) : bool := match o with OFailed => true | _ => false end.

Definition lift_res {A} (o : option (res A)) : res (option A) :=
  match o with Some (Ok a) => Ok (Some a) | Some (Err e) => Err e | None => Ok None end.

(** 259-547: state_update. *)
Definition vm_state_update (pt : nat) (E v : R) (hl : hlaw) (inc : T2) (st : vm_state)
  : res (vm_state * option (list (list R))) :=
  rbind (get_problem_type_parameters pt) (fun p =>
  let '(n, order, _) := p in
  rbind (vget_tensor_mf2 inc n order true) (fun inc_mf =>
  let p_old := omap2 vsub (vs_strain st) (vs_e st) in
  if Nat.eqb pt 4 then
    let e_trial := omap (fun e => vadd e inc_mf) (vs_e st) in
    rbind (vm_core E v hl e_trial (vs_acc st)) (fun c =>
    Ok (VState (vc_e c) (omap2 vadd e_trial p_old) (vc_stress c) (vc_acc c)
          (is_plastic (vc_outcome c)) (is_failed (vc_outcome c)) (Some 0) (Some 0), vc_tangent c))
  else
    rbind (vget_state_3Dmf_from_2Dmf inc_mf 0) (fun inc3 =>
    rbind (lift_res (omap2 vget_state_3Dmf_from_2Dmf (vs_e st) (vs_e33 st))) (fun e_old =>
    let e_trial := omap (fun e => vadd e inc3) e_old in
    rbind (vm_core E v hl e_trial (vs_acc st)) (fun c =>
    rbind (lift_res (omap vget_state_2Dmf_from_3Dmf e_trial)) (fun e_trial2 =>
    rbind (lift_res (omap vget_state_2Dmf_from_3Dmf (vc_e c))) (fun e2 =>
    rbind (lift_res (omap vget_state_2Dmf_from_3Dmf (vc_stress c))) (fun s2 =>
    rbind (lift_res (omap vget_state_2Dmf_from_3Dmf_mat (vc_tangent c))) (fun t2 =>
    Ok (VState e2 (omap2 vadd e_trial2 p_old) s2 (vc_acc c)
          (is_plastic (vc_outcome c)) (is_failed (vc_outcome c))
          (omap (fun e => nth 2 e 0) (vc_e c)) (omap (fun s => nth 2 s 0) (vc_stress c)), t2)))))))))).
Fixpoint vm_run (pt : nat) (E v : R) (hl : hlaw) (incs : list T2) (st : vm_state) : res vm_state :=
  match incs with
  | [] => Ok st
  | inc :: t => rbind (vm_state_update pt E v hl inc st) (fun r => vm_run pt E v hl t (fst r))
  end.
