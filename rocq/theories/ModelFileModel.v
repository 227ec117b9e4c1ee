(** Model of the initialization files and data scalers of the material models.
    Source (src/hookeai/model_architectures):
      rnn_base_model/model/gru_model.py 96-208 (GRURNNModel.__init__), 211-281
      (init_model_from_file), 385-431 (save_model_init_file);
      rc_base_model/model/recurrent_model.py 184-368, 371-442, 1636-1687
      (RecurrentConstitutiveModel);
      hybrid_base_model/model/hybrid_model.py 117-222, 225-298, 743-789
      (HybridModel);
      procedures/model_data_scaling.py 40-318.
    A constructor is described by its parameters with their defaults and the
    list of parameters written by save_model_init_file; every attribute of the
    model that is written is the argument it was constructed with.
    Simplifications: argument values are scalars, strings or opaque objects;
    the only class-specific checks kept are those of the problem type and of
    the material name (learnable parameters are the subject of C26/C48 and
    hybridization channels of C42); devices are 'cpu' or 'cuda' and available;
    pickle writes and reads back the value; init_model_from_file is used with
    the directory (the file path variant takes the directory of the path). *)
From Coq Require Import Reals String List Arith Bool.
From Verif Require Import Lib PyDict ScalerModel BatchFitModel.
Import ListNotations.
Local Open Scope string_scope.
Local Open Scope list_scope.

Inductive arg := ANone | ANat (n : nat) | ANum (x : R) | AStr (s : string) | ABool (b : bool) | AObj (id : nat).
Definition scalers := option (dict (option scaler)).

(** A class: parameters (None: no default), names written to the file,
    class-specific checks of the constructor. *)
Record cls := { cl_params : list (string * option arg); cl_saved : list string; cl_check : dict arg -> res unit }.

(** gru_model.py:96-100 and 408-419 *)
Definition gru_class : cls := {|
  cl_params := [("n_features_in", None); ("n_features_out", None); ("hidden_layer_size", None); ("model_directory", None);
    ("model_name", Some (AStr "gru_material_model")); ("is_model_in_normalized", Some (ABool false));
    ("is_model_out_normalized", Some (ABool false)); ("n_recurrent_layers", Some (ANat 1)); ("dropout", Some (ANum 0));
    ("is_save_model_init_file", Some (ABool true)); ("gru_model_source", Some (AStr "torch")); ("device_type", Some (AStr "cpu"))];
  cl_saved := ["n_features_in"; "n_features_out"; "hidden_layer_size"; "n_recurrent_layers"; "dropout"; "model_directory";
    "model_name"; "is_model_in_normalized"; "is_model_out_normalized"; "gru_model_source"; "device_type"];
  cl_check := fun _ => Ok tt |}.
(** recurrent_model.py:305-352 *)
Definition material_names : list string :=
  ["elastic"; "von_mises"; "von_mises_mixed"; "drucker_prager"; "lou_zhang_yoon";
   "von_mises_vmap"; "von_mises_mixed_vmap"; "drucker_prager_vmap"; "lou_zhang_yoon_vmap"].
Definition rc_check (a : dict arg) : res unit :=
  match dget a "problem_type" with
  | Some (ANat 1) | Some (ANat 4) =>
    match dget a "material_model_name" with
    | Some (AStr n) => if existsb (String.eqb n) material_names then Ok tt else Err RuntimeError
    | _ => Err RuntimeError
    end
  | _ => Err RuntimeError
  end.
(** recurrent_model.py:184-191 and 1659-1675; AObj 0 is the empty dictionary *)
Definition rc_class : cls := {|
  cl_params := [("n_features_in", None); ("n_features_out", None); ("learnable_parameters", None); ("strain_formulation", None);
    ("problem_type", None); ("material_model_name", None); ("material_model_parameters", None); ("model_directory", None);
    ("model_name", Some (AStr "wrapper_recurrent_model")); ("is_auto_sync_parameters", Some (ABool true));
    ("is_check_su_fail", Some (ABool true)); ("state_features_out", Some (AObj 0)); ("is_model_in_normalized", Some (ABool false));
    ("is_model_out_normalized", Some (ABool false)); ("is_normalized_parameters", Some (ABool false));
    ("is_save_model_init_file", Some (ABool true)); ("device_type", Some (AStr "cpu"))];
  cl_saved := ["n_features_in"; "n_features_out"; "learnable_parameters"; "strain_formulation"; "problem_type";
    "material_model_name"; "material_model_parameters"; "model_directory"; "model_name"; "state_features_out";
    "is_normalized_parameters"; "is_model_in_normalized"; "is_model_out_normalized"; "device_type"];
  cl_check := rc_check |}.
(** hybrid_model.py:117-121 and 767-777 *)
Definition hybrid_class : cls := {|
  cl_params := [("n_features_in", None); ("n_features_out", None); ("hyb_models_dict", None); ("model_directory", None);
    ("model_name", Some (AStr "hybrid_model")); ("hybridization_type", Some (AStr "identity"));
    ("is_model_in_normalized", Some (ABool false)); ("is_model_out_normalized", Some (ABool false));
    ("is_save_model_init_file", Some (ABool true)); ("device_type", Some (AStr "cpu"))];
  cl_saved := ["n_features_in"; "n_features_out"; "hyb_models_dict"; "model_directory"; "model_name"; "hybridization_type";
    "is_model_in_normalized"; "is_model_out_normalized"; "device_type"];
  cl_check := fun _ => Ok tt |}.

(** A model: its constructor arguments and data scalers. *)
Record model := { m_args : dict arg; m_scalers : scalers }.
(** The existing directories and the initialization file in each of them. *)
Record world := { w_dirs : list string; w_files : dict (dict arg * scalers) }.
Definition isdir (w : world) (d : string) : bool := existsb (String.eqb d) (w_dirs w).

(** Keyword arguments of a Python call. *)
Fixpoint fill (params : list (string * option arg)) (kw : dict arg) : res (dict arg) :=
  match params with
  | [] => Ok []
  | (p, default) :: rest =>
    match (match dget kw p with Some v => Some v | None => default end) with
    | None => Err TypeError
    | Some v => rbind (fill rest kw) (fun t => Ok ((p, v) :: t))
    end
  end.
Definition bind_args (params : list (string * option arg)) (kw : dict arg) : res (dict arg) :=
  if forallb (fun k => existsb (String.eqb k) (map fst params)) (dkeys kw) then fill params kw else Err TypeError.

Definition arg_of (m : model) (p : string) : arg := match dget (m_args m) p with Some v => v | None => ANone end.
(** gru_model.py:385-431, recurrent_model.py:1636-1687, hybrid_model.py:743-789;
    os.path.isdir(None) raises TypeError *)
Definition save_model_init_file (c : cls) (w : world) (m : model) : world * res unit :=
  match arg_of m "model_directory" with
  | AStr d =>
    if isdir w d then
      ({| w_dirs := w_dirs w; w_files := dset (w_files w) d (map (fun p => (p, arg_of m p)) (cl_saved c), m_scalers m) |}, Ok tt)
    else (w, Err RuntimeError)
  | _ => (w, Err TypeError)
  end.
(** model_data_scaling.py:40-50 *)
Definition init_data_scalers (m : model) : model :=
  {| m_args := m_args m; m_scalers := Some [("features_in", None); ("features_out", None)] |}.
Definition saves (m : model) : bool := match arg_of m "is_save_model_init_file" with ABool b => b | _ => false end.
Definition save_if_flag (c : cls) (w : world) (m : model) : world * res model :=
  if saves m then match save_model_init_file c w m with (w', Ok _) => (w', Ok m) | (w', Err e) => (w', Err e) end
  else (w, Ok m).
(** __init__ *)
Definition check_directory (w : world) (m : model) : res unit :=
  match arg_of m "model_directory" with
  | ANone => Ok tt
  | AStr d => if isdir w d then Ok tt else Err RuntimeError
  | _ => Err TypeError
  end.
Definition check_name (m : model) : res unit :=
  match arg_of m "model_name" with ANone | AStr _ => Ok tt | _ => Err RuntimeError end.
Definition check_device (m : model) : res unit :=
  match arg_of m "device_type" with
  | AStr s => if String.eqb s "cpu" || String.eqb s "cuda" then Ok tt else Err RuntimeError
  | _ => Err RuntimeError
  end.
Definition construct (c : cls) (w : world) (kw : dict arg) : world * res model :=
  match (rbind (bind_args (cl_params c) kw) (fun a =>
         let m := {| m_args := a; m_scalers := None |} in
         rbind (check_directory w m) (fun _ => rbind (check_name m) (fun _ => rbind (check_device m) (fun _ =>
         rbind (cl_check c a) (fun _ => Ok m)))))) with
  | Err e => (w, Err e)
  | Ok m => save_if_flag c w (init_data_scalers m)
  end.
(** init_model_from_file; '**model_init_args, is_save_model_init_file=False' *)
Definition init_model_from_file (c : cls) (w : world) (d : string) : world * res model :=
  if negb (isdir w d) then (w, Err RuntimeError)
  else match dget (w_files w) d with
  | None => (w, Err RuntimeError)
  | Some (args, sc) =>
    match construct c w (dset (dset args "model_directory" (AStr d)) "is_save_model_init_file" (ABool false)) with
    | (w', Ok m) => (w', Ok {| m_args := m_args m; m_scalers := sc |})
    | (w', Err e) => (w', Err e)
    end
  end.

(** ** Data scalers of a model (model_data_scaling.py) *)
(** model._data_scalers[key] = value *)
Definition put (m : model) (k : string) (s : option scaler) : model :=
  {| m_args := m_args m; m_scalers := match m_scalers m with Some d => Some (dset d k s) | None => None end |}.
(** 52-73: set_data_scalers *)
Definition set_data_scalers (c : cls) (w : world) (m : model) (sin sout : option scaler) : world * res model :=
  save_if_flag c w (put (put (init_data_scalers m) "features_in" sin) "features_out" sout).
(** 131-186: fit_data_scalers; the state of the model is kept on errors.
    [pin], [pout]: the scaling parameters of each features type. *)
Definition nfeat (m : model) (p : string) : nat := match arg_of m p with ANat n => n | _ => 0 end.
Definition fit_data_scalers (c : cls) (w : world) (m : model) (dataset : list sample) (scaling_type : string) (pin pout : params)
  : world * model * res unit :=
  let m0 := init_data_scalers m in
  match fit_data_scaler_from_dataset dataset "features_in" (nfeat m "n_features_in") scaling_type pin with
  | Err e => (w, m0, Err e)
  | Ok sin =>
    match fit_data_scaler_from_dataset dataset "features_out" (nfeat m "n_features_out") scaling_type pout with
    | Err e => (w, m0, Err e)
    | Ok sout =>
      let m' := put (put m0 "features_in" (Some sin)) "features_out" (Some sout) in
      match save_if_flag c w m' with
      | (w', Ok _) => (w', m', Ok tt)
      | (w', Err e) => (w', m', Err e)
      end
    end
  end.
(** 75-129: set_fitted_data_scalers.  [has_init]: the class of the model defines
    a method _init_data_scalers (none of the three above does).  In the min-max
    branch the missing comma makes 'device_type ** parameters', a TypeError. *)
Definition set_fitted_data_scalers (c : cls) (has_init : bool) (w : world) (m : model) (scaling_type : string) (pin pout : params)
  : world * model * res unit :=
  if negb has_init then (w, m, Err AttributeError)
  else
    let m0 := init_data_scalers m in
    if String.eqb scaling_type "min-max" then (w, m0, Err TypeError)
    else if String.eqb scaling_type "mean-std" then
      match standard_init_with (nfeat m "n_features_in") (p_mean pin) (p_std pin) with
      | Err e => (w, m0, Err e)
      | Ok sin =>
        match standard_init_with (nfeat m "n_features_out") (p_mean pout) (p_std pout) with
        | Err e => (w, m0, Err e)
        | Ok sout =>
          let m' := put (put m0 "features_in" (Some (Std sin))) "features_out" (Some (Std sout)) in
          match save_if_flag c w m' with
          | (w', Ok _) => (w', m', Ok tt)
          | (w', Err e) => (w', m', Err e)
          end
        end
      end
    else (w, m0, Err RuntimeError).
(** 188-216 and 305-318 *)
Definition check_normalized_return (m : model) : res (dict (option scaler)) :=
  match m_scalers m with
  | None => Err RuntimeError
  | Some d => if forallb (fun kv => match snd kv with None => true | Some _ => false end) d then Err RuntimeError else Ok d
  end.
Definition get_fitted_data_scaler (m : model) (features_type : string) : res scaler :=
  match m_scalers m with
  | None => Err AttributeError
  | Some d => match dget d features_type with Some (Some s) => Ok s | _ => Err RuntimeError end
  end.
(** 218-273: data_scaler_transform *)
Definition data_scaler_transform (m : model) (t : tensor R) (features_type mode : string) : res (tensor num) :=
  rbind (check_normalized_return m) (fun _ =>
  rbind (get_fitted_data_scaler m features_type) (fun s =>
  if String.eqb mode "normalize" then
    match s with Std s => standard_transform s t | Mm s => minmax_transform s t end
  else if String.eqb mode "denormalize" then
    match s with Std s => standard_inverse_transform s t | Mm s => minmax_inverse_transform s t end
  else Err RuntimeError)).
(** 275-303: load_model_data_scalers_from_file *)
Definition load_model_data_scalers_from_file (w : world) (m : model) : res model :=
  match arg_of m "model_directory" with
  | AStr d =>
    if negb (isdir w d) then Err RuntimeError
    else match dget (w_files w) d with
    | None => Err RuntimeError
    | Some (_, sc) => Ok {| m_args := m_args m; m_scalers := sc |}
    end
  | _ => Err TypeError
  end.
