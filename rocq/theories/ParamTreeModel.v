(** Nested dictionary of the parameters of a model:
    src/hookeai/material_model_finder/utilities/torch_parameters.py 24-80
      (set_parameter_in_dict, get_model_parameter_dict).

    A torch.nn.ParameterDict is an insertion-ordered dictionary of parameters and
    dictionaries; the names listed by model.named_parameters() are an argument.
    Keys that clash with the attributes of ParameterDict are not modelled. Item
    assignment and membership on a parameter (a tensor) raise an exception. *)
From Coq Require Import String Ascii List Bool Arith.
From Verif Require Import Lib PyDict PyStr TextLines.
Import ListNotations.
Local Open Scope list_scope.

Inductive ptree (V : Type) := PLeaf (v : V) | PDict (d : list (string * ptree V)).
Arguments PLeaf {V} v.
Arguments PDict {V} d.

Section ParamTree.
Context {V : Type}.
(** 24-54 *)
Fixpoint set_parameter_in_dict (d : list (string * ptree V)) (split_name : list string) (v : V) : res (list (string * ptree V)) :=
  match split_name with
  | [] => Err IndexError
  | key :: more =>
    match more with
    | [] => Ok (gset String.eqb d key (PLeaf v))
    | _ :: more' =>
      match gget String.eqb d key with
      | None => rbind (set_parameter_in_dict [] more v) (fun sub => Ok (gset String.eqb d key (PDict sub)))
      | Some (PDict sub) => rbind (set_parameter_in_dict sub more v) (fun sub' => Ok (gset String.eqb d key (PDict sub')))
      | Some (PLeaf _) => Err (match more' with [] => IndexError | _ => RuntimeError end)
      end
    end
  end.
(** 56-80 *)
Definition set_step (acc : res (list (string * ptree V))) (nv : string * V) : res (list (string * ptree V)) :=
  rbind acc (fun d => set_parameter_in_dict d (split_on "."%char (fst nv)) (snd nv)).
Definition get_model_parameter_dict (named_parameters : list (string * V)) : res (list (string * ptree V)) :=
  fold_left set_step named_parameters (Ok []).
End ParamTree.
