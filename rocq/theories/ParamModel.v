(** Model of the learnable material parameters of the recurrent constitutive
    model and of the material model finder.
    Sources: src/hookeai/model_architectures/rc_base_model/model/recurrent_model.py
    488-529 (_set_model_parameters), 531-708 (sync_material_model_parameters),
    720-751 (transform_parameter), 803-821 (enforce_parameters_bounds),
    823-890 (enforce_parameters_constraints), 892-925
    (get_detached_model_parameters) and
    src/hookeai/material_model_finder/model/material_discovery.py 682-754.
    Simplification: parameters and bounds are real numbers; a zero denominator
    of Python floats raises ZeroDivisionError. *)
From Coq Require Import Reals String List Bool.
From Verif Require Import Lib PyDict MatrixModel.
Import ListNotations.
Local Open Scope string_scope.
Local Open Scope list_scope.
Local Open Scope R_scope.

Record rc_par := RCPar {
  rc_normalized : bool;               (* is_normalized_parameters *)
  rc_params : dict R;                 (* _model_parameters *)
  rc_bounds : dict (R * R);           (* _model_parameters_bounds *)
  rc_norm_bounds : dict (R * R) }.    (* _model_parameters_norm_bounds *)

(** recurrent_model.py 748-749 *)
Definition affine_map (o t : R * R) (value : R) : res R :=
  let '(omin, omax) := o in
  let '(tmin, tmax) := t in
  if Req_EM_T (omax - omin) 0 then Err ZeroDivisionError
  else Ok (tmin + ((tmax - tmin) / (omax - omin)) * (value - omin)).

(** recurrent_model.py 720-751 *)
Definition transform_parameter (b nb : dict (R * R)) (name : string) (value : R) (mode : string) : res R :=
  if String.eqb mode "normalize" then
    rbind (dlookup b name) (fun o => rbind (dlookup nb name) (fun t => affine_map o t value))
  else if String.eqb mode "denormalize" then
    rbind (dlookup nb name) (fun o => rbind (dlookup b name) (fun t => affine_map o t value))
  else Err RuntimeError.

(** recurrent_model.py 507-529: one learnable parameter, given by its initial
    value and its bounds. *)
Definition set_model_parameter (m : rc_par) (kv : string * (R * (R * R))) : res rc_par :=
  let '(param, (init_val, (lo, hi))) := kv in
  if Rlt_dec hi lo then Err RuntimeError
  else
    let b := dset (rc_bounds m) param (lo, hi) in
    if rc_normalized m then
      let nb := dset (rc_norm_bounds m) param (-1, 1) in
      rbind (transform_parameter b nb param init_val "normalize") (fun v =>
        Ok (RCPar true (dset (rc_params m) param v) b nb))
    else Ok (RCPar false (dset (rc_params m) param init_val) b (rc_norm_bounds m)).

(** recurrent_model.py 488-529 *)
Definition set_model_parameters (normalized : bool) (learnable : dict (R * (R * R))) : res rc_par :=
  rfold set_model_parameter learnable (RCPar normalized [] [] []).

(** torch.Tensor.clamp_(lower, upper) *)
Definition clamp (lo hi x : R) : R := Rmin (Rmax x lo) hi.

(** recurrent_model.py 812-821 (and material_discovery.py 742-754) *)
Definition enforce_parameters_bounds (m : rc_par) : res rc_par :=
  let bounds := if rc_normalized m then rc_norm_bounds m else rc_bounds m in
  rbind (rmap (fun kv : string * R =>
           rbind (dlookup bounds (fst kv)) (fun b => Ok (fst kv, clamp (fst b) (snd b) (snd kv))))
         (rc_params m))
        (fun ps => Ok (RCPar (rc_normalized m) ps (rc_bounds m) (rc_norm_bounds m))).

(** recurrent_model.py 892-925 *)
Definition get_detached_model_parameters (m : rc_par) (is_normalized_out : bool) : res (dict R) :=
  let tr mode := rmap (fun kv : string * R =>
      rbind (transform_parameter (rc_bounds m) (rc_norm_bounds m) (fst kv) (snd kv) mode)
            (fun v => Ok (fst kv, v))) (rc_params m) in
  if rc_normalized m then (if is_normalized_out then Ok (rc_params m) else tr "denormalize")
  else (if is_normalized_out then tr "normalize" else Ok (rc_params m)).

(** An optimisation step assigns arbitrary new values to the parameters. *)
Definition optimiser_step (vals : string -> R) (m : rc_par) : rc_par :=
  RCPar (rc_normalized m) (map (fun kv : string * R => (fst kv, vals (fst kv))) (rc_params m))
        (rc_bounds m) (rc_norm_bounds m).

(** rc_base_model/train/training.py 255 and 441: bounds are enforced before
    the first and after every optimisation step. *)
Definition bounded_training (steps : list (string -> R)) (m : rc_par) : res rc_par :=
  rbind (enforce_parameters_bounds m)
        (rfold (fun m vals => enforce_parameters_bounds (optimiser_step vals m)) steps).

(** ** Material models of the material model finder
    (material_discovery.py 682-754).  A model without the attribute
    is_explicit_parameters, or with a false one, is skipped. *)
Inductive mat_model :=
| MMPlain (explicit : bool) (m : rc_par)
| MMHybrid (subs : list (bool * rc_par)).

Definition enforce_sub (s : bool * rc_par) : res (bool * rc_par) :=
  if fst s then rbind (enforce_parameters_bounds (snd s)) (fun m => Ok (true, m)) else Ok s.

Definition enforce_mat_model (mm : mat_model) : res mat_model :=
  match mm with
  | MMPlain ex m => rbind (enforce_sub (ex, m)) (fun s => Ok (MMPlain (fst s) (snd s)))
  | MMHybrid subs => rbind (rmap enforce_sub subs) (fun ss => Ok (MMHybrid ss))
  end.

Definition finder_enforce_bounds (models : dict mat_model) : res (dict mat_model) :=
  rmap (fun kv : string * mat_model => rbind (enforce_mat_model (snd kv)) (fun mm => Ok (fst kv, mm))) models.

(** ** Synchronisation with the material model
    The material parameters are a dictionary of numbers and of nested
    dictionaries of numbers. *)
Inductive mval := MNum (x : R) | MDict (d : dict R).
Definition mparams := dict mval.

(** d[group][name] = v *)
Definition set_nested (mp : mparams) (group name : string) (v : R) : res mparams :=
  match dget mp group with
  | None => Err KeyError
  | Some (MNum _) => Err TypeError
  | Some (MDict d) => Ok (dset mp group (MDict (dset d name v)))
  end.
Definition set_top (mp : mparams) (name : string) (v : R) : mparams := dset mp name (MNum v).
Definition need (mp : mparams) (group : string) (k : res mparams) : res mparams :=
  match dget mp group with None => Err KeyError | Some _ => k end.
Fixpoint drop_str (n : nat) (s : string) : string :=
  match n, s with O, _ => s | _, EmptyString => EmptyString | S n', String _ t => drop_str n' t end.
Definition mem (s : string) (l : list string) : bool := existsb (String.eqb s) l.

Definition vm_names := ["von_mises"; "von_mises_vmap"].
Definition vmm_names := ["von_mises_mixed"; "von_mises_mixed_vmap"].
Definition dp_names := ["drucker_prager"; "drucker_prager_vmap"].
Definition lzy_names := ["lou_zhang_yoon"; "lou_zhang_yoon_vmap"].
Definition vm_learnable := ["E"; "v"; "s0"; "a"; "b"].
Definition vmm_learnable := ["E"; "v"; "s0"; "a"; "b"; "kin_s0"; "kin_a"; "kin_b"].
Definition dp_learnable := ["E"; "v"; "s0"; "a"; "b"; "yield_cohesion_parameter";
  "yield_pressure_parameter"; "flow_pressure_parameter"; "friction_angle"].
Definition lzy_learnable := ["E"; "v"; "s0"; "a"; "b";
  "yield_a_s0"; "yield_a_a"; "yield_a_b"; "yield_b_s0"; "yield_b_a"; "yield_b_b";
  "yield_c_s0"; "yield_c_a"; "yield_c_b"; "yield_d_s0"; "yield_d_a"; "yield_d_b"].

(** recurrent_model.py 545-708: store one physical value. *)
Definition sync_one (model param : string) (v : R) (mp : mparams) : res mparams :=
  if mem model vm_names then
    if negb (mem param vm_learnable) then Err RuntimeError else
    need mp "hardening_parameters"
      (if mem param ["s0"; "a"; "b"] then set_nested mp "hardening_parameters" param v
       else Ok (set_top mp param v))
  else if mem model vmm_names then
    if negb (mem param vmm_learnable) then Err RuntimeError else
    need mp "hardening_parameters" (need mp "kinematic_hardening_parameters"
      (if mem param ["s0"; "a"; "b"] then set_nested mp "hardening_parameters" param v
       else if mem param ["kin_s0"; "kin_a"; "kin_b"] then
         set_nested mp "kinematic_hardening_parameters" (drop_str 4 param) v
       else Ok (set_top mp param v)))
  else if mem model dp_names then
    if negb (mem param dp_learnable) then Err RuntimeError else
    need mp "hardening_parameters"
      (if mem param ["s0"; "a"; "b"] then set_nested mp "hardening_parameters" param v
       else if String.eqb param "friction_angle" then
         let mp1 := set_top mp param v in
         let mp2 := set_top mp1 "yield_cohesion_parameter" ((2 / sqrt 3) * cos v) in
         let mp3 := set_top mp2 "yield_pressure_parameter" ((3 / sqrt 3) * sin v) in
         Ok (set_top mp3 "flow_pressure_parameter" ((3 / sqrt 3) * sin v))
       else Ok (set_top mp param v))
  else if mem model lzy_names then
    if negb (mem param lzy_learnable) then Err RuntimeError else
    need mp "hardening_parameters" (need mp "a_hardening_parameters" (need mp "b_hardening_parameters"
    (need mp "c_hardening_parameters" (need mp "d_hardening_parameters"
      (if mem param ["s0"; "a"; "b"] then set_nested mp "hardening_parameters" param v
       else if mem param ["yield_a_s0"; "yield_a_a"; "yield_a_b"] then set_nested mp "a_hardening_parameters" (drop_str 8 param) v
       else if mem param ["yield_b_s0"; "yield_b_a"; "yield_b_b"] then set_nested mp "b_hardening_parameters" (drop_str 8 param) v
       else if mem param ["yield_c_s0"; "yield_c_a"; "yield_c_b"] then set_nested mp "c_hardening_parameters" (drop_str 8 param) v
       else if mem param ["yield_d_s0"; "yield_d_a"; "yield_d_b"] then set_nested mp "d_hardening_parameters" (drop_str 8 param) v
       else Ok (set_top mp param v))))))
  else if String.eqb model "elastic" then
    if negb (mem param ["E"; "v"]) then Err RuntimeError else Ok (set_top mp param v)
  else Err RuntimeError.

(** recurrent_model.py 531-708 *)
Definition sync_material_model_parameters (model : string) (m : rc_par) (mp : mparams) : res mparams :=
  rfold (fun mp (kv : string * R) =>
    rbind (if rc_normalized m
           then transform_parameter (rc_bounds m) (rc_norm_bounds m) (fst kv) (snd kv) "denormalize"
           else Ok (1 * snd kv))
          (fun v => sync_one model (fst kv) v mp))
    (rc_params m) mp.

(** ** Convexity constraint of the Lou-Zhang-Yoon criterion
    recurrent_model.py 823-890; [crm] is LouZhangYoon.convexity_return_mapping.
    The substring test 'lou_zhang_yoon' in name selects the two names above. *)
Definition enforce_parameters_constraints (crm : R -> R -> bool * R * R) (model : string)
  (m : rc_par) (mp : mparams) : res rc_par :=
  if negb (mem model lzy_names) then Ok m else
  let fixed grp := match dget mp grp with
    | Some (MDict d) => dlookup d "s0" | Some (MNum _) => Err TypeError | None => Err KeyError end in
  rbind (fixed "c_hardening_parameters") (fun c0 =>
  rbind (fixed "d_hardening_parameters") (fun d0 =>
  let pc := dget (rc_params m) "yield_c_s0" in
  let pd := dget (rc_params m) "yield_d_s0" in
  let phys name (p : option R) (dflt : R) : res R :=
    match p with
    | None => Ok dflt
    | Some v => if rc_normalized m then transform_parameter (rc_bounds m) (rc_norm_bounds m) name v "denormalize" else Ok v
    end in
  let unphys name (p : option R) (v : R) : res R :=
    match p with
    | None => Ok v
    | Some _ => if rc_normalized m then transform_parameter (rc_bounds m) (rc_norm_bounds m) name v "normalize" else Ok v
    end in
  match pc, pd with
  | None, None => Ok m
  | _, _ =>
    rbind (phys "yield_c_s0" pc c0) (fun c =>
    rbind (phys "yield_d_s0" pd d0) (fun d =>
    match crm c d with
    | (true, _, _) => Ok m
    | (false, c', d') =>
      rbind (unphys "yield_c_s0" pc c') (fun c'' =>
      rbind (unphys "yield_d_s0" pd d') (fun d'' =>
      let ps1 := match pc with Some _ => dset (rc_params m) "yield_c_s0" c'' | None => rc_params m end in
      let ps2 := match pd with Some _ => dset ps1 "yield_d_s0" d'' | None => ps1 end in
      Ok (RCPar (rc_normalized m) ps2 (rc_bounds m) (rc_norm_bounds m))))
    end))
  end)).
