(** Collected parameters and bounds of the material model finder:
    get_detached_model_parameters and get_model_parameters_bounds of
    src/hookeai/material_model_finder/model/material_discovery.py (532-680).

    A material model with the attributes of explicit parameters is a
    [ParamModel.rc_par]; the flag says whether is_explicit_parameters is there
    and true.  Submodels of a hybrid model come with their names. *)
From Coq Require Import Reals String List Bool.
From Verif Require Import Lib PyDict MatrixModel ParamModel.
Import ListNotations.
Local Open Scope string_scope.
Local Open Scope list_scope.

Inductive fmodel :=
| FPlain (explicit : bool) (m : rc_par)
| FHybrid (subs : list (string * (bool * rc_par))).

(** 583-584, 600: the labels f'model_{model_key}_{param}' and
    f'model_{model_key}_{submodel_name}_{param}'. *)
Definition label_plain (k p : string) : string := ("model_" ++ k ++ "_" ++ p)%string.
Definition label_sub (k s p : string) : string := ("model_" ++ k ++ "_" ++ s ++ "_" ++ p)%string.

Definition store {V} (lab : string -> string) (d : dict V) (acc : dict V) : dict V :=
  fold_left (fun acc kv => dset acc (lab (fst kv)) (snd kv)) d acc.

(** The loops of 553-603 and 625-680. *)
Definition collect_sub {V} (get : rc_par -> res (dict V)) (lab : string -> string) (s : bool * rc_par)
  (acc : dict V) : res (dict V) :=
  if fst s then rbind (get (snd s)) (fun d => Ok (store lab d acc)) else Ok acc.
Definition collect_model {V} (get : rc_par -> res (dict V)) (acc : dict V) (km : string * fmodel) : res (dict V) :=
  match snd km with
  | FPlain ex m => collect_sub get (label_plain (fst km)) (ex, m) acc
  | FHybrid subs => rfold (fun acc s => collect_sub get (label_sub (fst km) (fst s)) (snd s) acc) subs acc
  end.
Definition collect {V} (get : rc_par -> res (dict V)) (models : dict fmodel) : res (dict V) :=
  rfold (collect_model get) models [].

Definition finder_parameters : dict fmodel -> res (dict R) :=
  collect (fun m => get_detached_model_parameters m false).
Definition finder_bounds : dict fmodel -> res (dict (R * R)) :=
  collect (fun m => Ok (rc_bounds m)).
