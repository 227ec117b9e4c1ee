(** Specification vocabulary for learnable parameters, independent of the
    model's helpers. *)
From Coq Require Import Reals String List.
From Verif Require Import Lib PyDict ParamModel.
Import ListNotations.
Local Open Scope string_scope.
Local Open Scope R_scope.

(** Affine coordinates on an interval: -1 at the lower end, 1 at the upper. *)
Definition norm_of (lo hi x : R) : R := (2 * x - (lo + hi)) / (hi - lo).
Definition phys_of (lo hi z : R) : R := (lo + hi) / 2 + z * (hi - lo) / 2.

(** y is the point of [lo,hi] nearest to x. *)
Definition nearest (lo hi x y : R) : Prop :=
  lo <= y <= hi /\ forall z, lo <= z <= hi -> Rabs (y - x) <= Rabs (z - x).

(** A learnable parameter: name, initial value, bounds. *)
Definition learnables := dict (R * (R * R)).
Definition admissible (normalized : bool) (L : learnables) : Prop :=
  NoDup (dkeys L) /\
  forall k i lo hi, In (k, (i, (lo, hi))) L -> if normalized then lo < hi else lo <= hi.

(** Where the material model keeps a parameter: a group ("" is the top level)
    and a name. *)
Definition base_table : dict (string * string) :=
  [("E", ("", "E")); ("v", ("", "v"));
   ("s0", ("hardening_parameters", "s0")); ("a", ("hardening_parameters", "a")); ("b", ("hardening_parameters", "b"))].
Definition group_table (prefix group : string) : dict (string * string) :=
  map (fun p => (prefix ++ p, (group, p))) ["s0"; "a"; "b"].
Definition location_table (model : string) : dict (string * string) :=
  match model with
  | "elastic" => [("E", ("", "E")); ("v", ("", "v"))]
  | "von_mises" | "von_mises_vmap" => base_table
  | "von_mises_mixed" | "von_mises_mixed_vmap" =>
    (base_table ++ group_table "kin_" "kinematic_hardening_parameters")%list
  | "drucker_prager" | "drucker_prager_vmap" =>
    (base_table ++ map (fun p => (p, ("", p)))
       ["yield_cohesion_parameter"; "yield_pressure_parameter"; "flow_pressure_parameter"; "friction_angle"])%list
  | "lou_zhang_yoon" | "lou_zhang_yoon_vmap" =>
    (base_table ++ group_table "yield_a_" "a_hardening_parameters" ++ group_table "yield_b_" "b_hardening_parameters"
     ++ group_table "yield_c_" "c_hardening_parameters" ++ group_table "yield_d_" "d_hardening_parameters")%list
  | _ => []
  end.
Definition location (model param : string) : option (string * string) := dget (location_table model) param.
Definition known_models := ["elastic"; "von_mises"; "von_mises_vmap"; "von_mises_mixed"; "von_mises_mixed_vmap";
  "drucker_prager"; "drucker_prager_vmap"; "lou_zhang_yoon"; "lou_zhang_yoon_vmap"].

(** Values the material model must hold for a learnable parameter: its own,
    and for the friction angle phi also the Mohr-Coulomb match
    2 cos phi / sqrt 3, sqrt 3 sin phi. *)
Definition holds_values (model param : string) (x : R) : list (string * string * R) :=
  match location model param with
  | None => []
  | Some l => (l, x) :: (if String.eqb param "friction_angle" then
      [(("", "yield_cohesion_parameter"), 2 * cos x / sqrt 3);
       (("", "yield_pressure_parameter"), sqrt 3 * sin x);
       (("", "flow_pressure_parameter"), sqrt 3 * sin x)] else [])
  end.

(** Reading a location of the material parameters. *)
Definition mread (mp : mparams) (l : string * string) : option R :=
  match fst l with
  | EmptyString => match dget mp (snd l) with Some (MNum x) => Some x | _ => None end
  | g => match dget mp g with Some (MDict d) => dget d (snd l) | _ => None end
  end.

(** Groups a material model must provide. *)
Definition groups (model : string) : list string :=
  let is l := existsb (String.eqb model) l in
  if is ["elastic"] then []
  else if is ["von_mises"; "von_mises_vmap"; "drucker_prager"; "drucker_prager_vmap"] then ["hardening_parameters"]
  else if is ["von_mises_mixed"; "von_mises_mixed_vmap"]
  then ["hardening_parameters"; "kinematic_hardening_parameters"]
  else ["hardening_parameters"; "a_hardening_parameters"; "b_hardening_parameters";
        "c_hardening_parameters"; "d_hardening_parameters"].
Definition has_groups (model : string) (mp : mparams) : Prop :=
  forall g, In g (groups model) -> exists d, dget mp g = Some (MDict d).

(** Locations a material model knows: the top level and its groups. *)
Definition known_location (model : string) (l : string * string) : Prop :=
  fst l = "" \/ In (fst l) (groups model).
(** The friction angle determines the three pressure/cohesion parameters; they
    are not learnable independently of it. *)
Definition no_conflict (keys : list string) : Prop :=
  In "friction_angle" keys ->
  ~ In "yield_cohesion_parameter" keys /\ ~ In "yield_pressure_parameter" keys /\ ~ In "flow_pressure_parameter" keys.
