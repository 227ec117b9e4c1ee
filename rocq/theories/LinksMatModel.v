(** Material sections of a Links input file:
    src/hookeai/simulators/links/models/links_elastic.py, links_von_mises.py,
    links_drucker_prager.py, links_lou.py, and links.py (571-592).

    Numbers are of any type C; the format '<16.8e' is the argument lfmt and
    torch.linspace(0.0, 2.0, steps=n) the argument linspace.  A descriptor is a
    text, a number, a count or the yield stress of the hardening law with its
    parameters; formatting a value of another kind is TypeError. *)
From Coq Require Import String Ascii List Bool Arith ZArith.
From Verif Require Import Lib PyStr PyDict TextLines.
Import ListNotations.
Local Open Scope string_scope.
Local Open Scope list_scope.

Section Material.
  Context {C : Type} (lfmt : C -> string) (linspace : nat -> list C).
  Inductive dval := DText (s : string) | DNum (c : C) | DCount (n : nat) | DLaw (f : C -> C) | DParams.
  Definition descr := list (string * dval).
  Definition has (d : descr) (k : string) : bool := match gget String.eqb d k with Some _ => true | None => false end.
  Definition num (d : descr) (k : string) : res C :=
    match gget String.eqb d k with Some (DNum c) => Ok c | Some _ => Err TypeError | None => Err KeyError end.

  (** '{:<4d}' *)
  Definition ljust (n : nat) (s : string) : string := (s ++ spaces (n - String.length s))%string.
  (** a line of numbers, after len(str(phase)) + 1 blanks *)
  Definition spacing (phase : nat) : string := spaces (String.length (nat_str phase) + 1).
  Definition num_line (phase : nat) (d : descr) (keys : list string) (tail : string) : res string :=
    rbind (rmap (num d) keys) (fun cs => Ok (spacing phase ++ join "" (map lfmt cs) ++ tail)%string).
  (** the hardening points: links_von_mises.py 104-119, links_drucker_prager.py
      110-125, links_lou.py 124-139 *)
  Definition hard_lines (phase : nat) (d : descr) : res (list string) :=
    match gget String.eqb d "n_hard_point", gget String.eqb d "hardening_law" with
    | Some (DCount n), Some (DLaw f) =>
      Ok ((spacing phase ++ ljust 4 (nat_str n))%string
          :: map (fun p => (spacing phase ++ lfmt p ++ lfmt (f p))%string) (linspace n))
    | None, _ | _, None => Err KeyError
    | _, _ => Err TypeError
    end.
  (** _get_required_material_descriptors of each model *)
  Definition base_keys : list string := ["name"; "density"; "young"; "poisson"].
  Definition hard_keys : list string := ["n_hard_point"; "hardening_law"; "hardening_parameters"].
  Definition required (name : string) : res (list string) :=
    if String.eqb name "ELASTIC" then Ok base_keys
    else if String.eqb name "VON_MISES" then Ok (base_keys ++ hard_keys)
    else if String.eqb name "DRUCKER_PRAGER" then Ok (base_keys ++ ["friction_angle_deg"; "dilatancy_angle_deg"] ++ hard_keys)
    else if String.eqb name "LOU" then
      Ok (base_keys ++ ["yield_a_init"; "a_hard_slope"; "yield_b_init"; "b_hard_slope"; "yield_c_init"; "c_hard_slope";
                        "yield_d_init"; "d_hard_slope"] ++ hard_keys)
    else Err RuntimeError.
  (** the lines of numbers of each model: elastic 90-97, von Mises 97-103,
      Drucker-Prager 100-109, Lou 109-123 *)
  Definition number_rows (name : string) : list (list string * string) :=
    if String.eqb name "DRUCKER_PRAGER"
    then [(["density"], ""); (["young"; "poisson"; "friction_angle_deg"; "dilatancy_angle_deg"], "3")]
    else [(["density"], ""); (["young"; "poisson"], "")]
         ++ (if String.eqb name "LOU" then
               [(["yield_a_init"; "a_hard_slope"], ""); (["yield_b_init"; "b_hard_slope"], "");
                (["yield_c_init"; "c_hard_slope"], ""); (["yield_d_init"; "d_hard_slope"], "")]
             else []).
  (** links.py 573-592 and _format_material_descriptors *)
  Definition material_lines (phase : nat) (d : descr) : res (list string) :=
    match gget String.eqb d "name" with
    | Some (DText name) =>
      rbind (required name) (fun keys =>
      if negb (forallb (has d) keys) then Err RuntimeError
      else
        rbind (rmap (fun r => num_line phase d (fst r) (snd r)) (number_rows name)) (fun nums =>
        rbind (if String.eqb name "ELASTIC" then Ok [] else hard_lines phase d) (fun hard =>
        Ok ((nat_str phase ++ " " ++ name)%string :: nums ++ hard))))
    | Some _ => Err RuntimeError
    | None => Err KeyError
    end.
  (** 572-592: all phases *)
  Fixpoint materials_lines (phases : list nat) (ds : list (nat * descr)) : res (list string) :=
    match phases with
    | [] => Ok []
    | p :: ps =>
      match gget Nat.eqb ds p with
      | None => Err KeyError
      | Some d => rbind (material_lines p d) (fun l => rbind (materials_lines ps ds) (fun ls => Ok (l ++ ls)))
      end
    end.
End Material.
Arguments dval : clear implicits.
Arguments descr : clear implicits.
