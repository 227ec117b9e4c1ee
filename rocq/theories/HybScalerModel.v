(** Data scalers of hybridized models (C132):
    model_architectures/hybrid_base_model/model/hybrid_model.py 615-657 (use in
    the forward propagation), 660-709 (check_model_in_normalized,
    check_model_out_normalized), 806-853 (check_hyb_models_data_scalers);
    transfer_learning.py 285-345 (get_fitted_data_scaler, data_scaler_transform).
    A scaler is its normalisation and its denormalisation. Attributes that a model
    may lack are options.  Channels are lists of models (HybridModel has their
    construction).
    Simplification: shapes and types of tensors are not modelled. *)
From Coq Require Import String List Bool.
From Verif Require Import Lib PyDict.
Import ListNotations.
Local Open Scope string_scope.
Local Open Scope list_scope.

Section Scalers.
  Context {Fe : Type} (cat : Fe -> Fe -> Fe).
  Definition scaler := ((Fe -> Fe) * (Fe -> Fe))%type.
  (** the attribute _data_scalers: missing, None, or a dictionary of scalers or None *)
  Record smodel := mkSm { s_resid : bool; s_fwd : Fe -> Fe; s_in : option bool; s_out : option bool;
    s_method : bool; s_scalers : option (option (dict (option scaler))) }.
  (** 660-709 *)
  Definition norm_in (m : smodel) : bool := match s_in m with Some b => b | None => false end.
  Definition norm_out (m : smodel) : bool := match s_out m with Some b => b | None => false end.
  (** 806-853 *)
  Definition available (d : dict (option scaler)) (k : string) : bool := match dget d k with Some (Some _) => true | _ => false end.
  Definition check_model (m : smodel) : res unit :=
    if negb (norm_in m) && negb (norm_out m) then Ok tt
    else match s_scalers m with
    | Some (Some d) =>
      if norm_in m && negb (available d "features_in") then Err RuntimeError
      else if norm_out m && negb (available d "features_out") then Err RuntimeError
      else Ok tt
    | _ => Err RuntimeError
    end.
  Definition check_scalers (ms : list smodel) : res unit := rbind (rmap check_model ms) (fun _ => Ok tt).
  (** the method data_scaler_transform, where the class has it *)
  Definition transform (m : smodel) (k : string) (sel : scaler -> Fe -> Fe) (x : Fe) : res Fe :=
    if s_method m then
      match s_scalers m with
      | None => Err AttributeError
      | Some None => Err RuntimeError
      | Some (Some d) => match dget d k with Some (Some sc) => Ok (sel sc x) | _ => Err RuntimeError end
      end
    else Err AttributeError.
  (** 615-643 *)
  Definition apply_smodel (x0 x : Fe) (m : smodel) : res Fe :=
    let x1 := if s_resid m then cat x x0 else x in
    rbind (if norm_in m then transform m "features_in" fst x1 else Ok x1) (fun x2 =>
    let y := s_fwd m x2 in
    if norm_out m then transform m "features_out" snd y else Ok y).
  Definition apply_schannel (x0 : Fe) (ms : list smodel) : res Fe := rfold (apply_smodel x0) ms x0.
  (** 603-657: the hybrid model with its own scalers *)
  Definition hybrid_forward (hyb : list Fe -> res Fe) (chs : list (list smodel)) (out_norm : bool) (own : dict (option scaler)) (x : Fe) : res Fe :=
    rbind (rmap (apply_schannel x) chs) (fun l =>
    rbind (hyb l) (fun y =>
    if out_norm then match dget own "features_out" with Some (Some sc) => Ok (fst sc y) | _ => Err RuntimeError end else Ok y)).
End Scalers.
Arguments smodel : clear implicits.
Arguments scaler : clear implicits.
