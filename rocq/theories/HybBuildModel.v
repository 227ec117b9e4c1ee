(** Construction of the hybridized models of a hybrid model.

    src/hookeai/model_architectures/hybrid_base_model/model/hybridized_model.py
      24-141 (set_hybridized_model);
    src/hookeai/user_scripts/local_model_update/hybrid_material_model/train_model.py
      426-638 (set_hybridized_gru_model), 640-777 (set_hybridized_rcm_model),
      779-836 (set_hybridized_material_layer), 131-291 (the hybridization schemes).

    Models, states and scalers are arguments, as are their constructors, files
    and setters; of a model class only the methods are kept that the code asks
    for. The features of the data set from which the scalers are fitted are those
    of FeaturesModel: here their fit is an argument. Material parameters are not
    modelled. *)
From Coq Require Import String List Bool Arith ZArith.
From Verif Require Import Lib PyDict.
Import ListNotations.
Local Open Scope string_scope.
Local Open Scope list_scope.

(** The methods of a class. *)
Record klass := Klass { has_save_init : bool; has_from_file : bool; has_set_scalers : bool }.
Inductive kind := GRU | RCM | Hybrid | ElasticLayer | VolDevLayer | Regressor.
(** gru_model.py 211, 385; recurrent_model.py 371, 1636; hybrid_model.py 225, 743;
    hybridized_layers.py 28-320; transfer_learning.py 30-378 (264). The scalers of
    the first three are set by functions of model_data_scaling.py 52-73. *)
Definition klass_of (k : kind) : klass :=
  match k with
  | GRU | RCM | Hybrid => Klass true true false
  | ElasticLayer | VolDevLayer => Klass false false false
  | Regressor => Klass false false true
  end.
Inductive py := PInt (z : Z) | PBool (b : bool) | POther.
Inductive indices := ITuple (l : list py) | INotTuple.
Inductive scalers_arg {Sc : Type} := DNone | DDict (d : list (string * Sc)) | DOther.
Arguments scalers_arg : clear implicits.
(** isinstance(x, int) *)
Definition is_int (x : py) : bool := match x with PInt _ | PBool _ => true | POther => false end.

Section Build.
  Context {M Sc St A : Type}.
  Variable k : klass.
  (** constructor: the arguments and is_save_model_init_file if passed *)
  Variable construct : list (string * A) -> option bool -> res M.
  Variable from_file : string -> res M.
  Variable state_file : string -> option St.
  Variable load_state : M -> St -> res M.
  Variable set_scalers : M -> option Sc -> option Sc -> M.

  (** 58-82; a keyword given twice is a TypeError *)
  Definition init_model (args : option (list (string * A))) (path : option string) : res M :=
    match args with
    | Some args =>
      if has_save_init k then
        if existsb (fun e => String.eqb (fst e) "is_save_model_init_file") args then Err TypeError
        else construct args (Some false)
      else construct args None
    | None =>
      match path with
      | Some p => if has_from_file k then from_file p else Err RuntimeError
      | None => Err RuntimeError
      end
    end.
  (** 84-93 *)
  Definition init_state (m : M) (path : option string) : res M :=
    match path with
    | None => Ok m
    | Some p => match state_file p with None => Err RuntimeError | Some s => load_state m s end
    end.
  (** 95-120 *)
  Definition init_scalers (m : M) (d : scalers_arg Sc) : res M :=
    match d with
    | DNone => Ok m
    | _ => if has_set_scalers k then
             match d with
             | DDict d => Ok (set_scalers m (gget String.eqb d "features_in") (gget String.eqb d "features_out"))
             | _ => Err RuntimeError
             end
           else Err RuntimeError
    end.
  (** 122-128 *)
  Definition check_indices (i : indices) : res (list py) :=
    match i with
    | ITuple l => if (Nat.eqb (length l) 2 && forallb is_int l)%bool then Ok l else Err RuntimeError
    | INotTuple => Err RuntimeError
    end.
  (** 130-134 *)
  Definition check_residual (r : py) : res bool := match r with PBool b => Ok b | _ => Err RuntimeError end.
  Definition set_hybridized_model (i : indices) (args : option (list (string * A))) (path state : option string) (residual : py)
    (d : scalers_arg Sc) : res (M * list py * bool) :=
    rbind (init_model args path) (fun m =>
    rbind (init_state m state) (fun m =>
    rbind (init_scalers m d) (fun m =>
    rbind (check_indices i) (fun l =>
    rbind (check_residual residual) (fun r => Ok (m, l, r)))))).
End Build.

Section Script.
  Context {M Sc St A : Type}.
  Variable construct : kind -> list (string * A) -> option bool -> res M.
  Variable from_file : kind -> string -> res M.
  Variable state_file : string -> option St.
  Variable load_state : M -> St -> res M.
  Variable set_scalers : M -> option Sc -> option Sc -> M.
  Definition build (k : kind) := set_hybridized_model (klass_of k) (construct k) (from_file k) state_file load_state set_scalers.

  (** train_model.py 481-540 *)
  Definition gru_options : list string := ["strain_to_stress"; "strain_to_pstrain"; "strain_to_stressvd"; "strain_i1_i2_to_stressvd"].
  (** 426-638: both scalers are fitted; the dictionary of scalers is never None *)
  Definition set_hybridized_gru_model (args_of : string -> list (string * A)) (fit : string -> string -> res Sc) (option_ : string) (i : indices)
    : res (M * list py * bool) :=
    if existsb (String.eqb option_) gru_options then
      rbind (fit option_ "features_in") (fun s_in =>
      rbind (fit option_ "features_out") (fun s_out =>
      build GRU i (Some (args_of option_)) None None (PBool false) (DDict [("features_in", s_in); ("features_out", s_out)])))
    else Err RuntimeError.
  (** 661-777 *)
  Definition rcm_names : list string := ["elastic"; "von_mises"; "von_mises_vmap"; "drucker_prager"; "drucker_prager_vmap"].
  Definition set_hybridized_rcm_model (args_of : string -> list (string * A)) (name : string) (i : indices) : res (M * list py * bool) :=
    if existsb (String.eqb name) rcm_names then build RCM i (Some (args_of name)) None None (PBool false) DNone else Err RuntimeError.
  (** 779-836 *)
  Inductive component := GruOf (option_ : string) | RcmOf (name : string) | LayerOf (layer : string).
  (** 142-291: name, indices and model of each scheme, and whether the models add up *)
  Definition scheme (n : nat) : res (list (string * (Z * Z) * component) * bool) :=
    match n with
    | 0 => Ok ([("gru_strain_to_stress", (0, 0)%Z, GruOf "strain_to_stress")], false)
    | 1 => Ok ([("gru_strain_to_pstrain", (0, 0)%Z, GruOf "strain_to_pstrain"); ("batched_elastic", (0, 1)%Z, LayerOf "batched_elastic")], false)
    | 2 => Ok ([("gru_strain_to_stressvd", (0, 0)%Z, GruOf "strain_to_stressvd"); ("vd_composition", (0, 1)%Z, LayerOf "vd_composition")], false)
    | 3 => Ok ([("gru_strain_i1_i2_to_stressvd", (0, 0)%Z, GruOf "strain_i1_i2_to_stressvd"); ("vd_composition", (0, 1)%Z, LayerOf "vd_composition")], false)
    | 4 => Ok ([("rcm_strain_to_stress", (0, 0)%Z, RcmOf "drucker_prager"); ("gru_strain_to_stress", (1, 0)%Z, GruOf "strain_to_stress")], true)
    | _ => Err RuntimeError
    end.
  Definition set_hybridized_material_layer (args_of : string -> list (string * A)) (layer : string) (i : indices) : res (M * list py * bool) :=
    if String.eqb layer "batched_elastic" then build ElasticLayer i (Some (args_of layer)) None None (PBool true) DNone
    else if String.eqb layer "vd_composition" then build VolDevLayer i (Some (args_of layer)) None None (PBool false) DNone
    else Err RuntimeError.
  Definition build_component (args_of : string -> list (string * A)) (fit : string -> string -> res Sc) (c : component) (i : indices) :=
    match c with
    | GruOf o => set_hybridized_gru_model args_of fit o i
    | RcmOf n => set_hybridized_rcm_model args_of n i
    | LayerOf l => set_hybridized_material_layer args_of l i
    end.
  Definition hyb_models_dict (args_of : string -> list (string * A)) (fit : string -> string -> res Sc) (n : nat) : res (list (string * (M * list py * bool))) :=
    rbind (scheme n) (fun '(l, _) =>
    rmap (fun '(name, (r, c), comp) => rbind (build_component args_of fit comp (ITuple [PInt r; PInt c])) (fun m => Ok (name, m))) l).
End Script.
