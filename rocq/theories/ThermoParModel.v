(** Temperature and composition dependent von Mises parameters
    (user_scripts/complete_pipelines/local_model_update.py, 831-940) and the
    neighbourhood sampling of the dependencies (191-207). *)
From Coq Require Import Reals String List Bool Arith ZArith.
Import ListNotations.
From Verif Require Import Lib HardeningModel StrainPathModel.
Local Open Scope list_scope.
Local Open Scope R_scope.

(** polynomial (919-940): sum of c*(x**i) over enumerate(coefficients). *)
Fixpoint poly_from (i : nat) (cs : list R) (x : R) : R :=
  match cs with [] => 0 | c :: t => c * x ^ i + poly_from (S i) t x end.
Definition polynomial (cs : list R) (x : R) : R := poly_from 0 cs x.

Record mat_params := { young : R; poisson : R; hard_points : list (R * R) }.

(** Normalisation (861-862, 875-876); the decimal literals are taken as exact
    rationals. *)
Definition t_norm (t : R) : R := (t - 325) / (180606 / 1000).
Definition c_norm (c : R) : R := (c - 1 / 2) / (3168 / 10000).

(** Elastic moduli in MPa (878-888). *)
Definition young_of (t c : R) : R :=
  (polynomial [135546 / 1000; 20186 / 1000] (c_norm c)
   + polynomial [- 8489 / 1000; 936 / 1000] (c_norm c) * t_norm t) * 1000.
Definition shear_of (t c : R) : R :=
  (polynomial [52891 / 1000; 8843 / 1000] (c_norm c)
   + polynomial [- 3340 / 1000; 405 / 1000] (c_norm c) * t_norm t) * 1000.
(** Poisson's ratio from isotropy (890). *)
Definition poisson_of (t c : R) : R := young_of t c / (2 * shear_of t c) - 1.
(** Yield strength (892-898) and hardening slope (900-904). *)
Definition yield_of (t c : R) : R :=
  polynomial [25107 / 1000; - 47582 / 1000; 39738 / 1000] (c_norm c)
  * exp (- polynomial [883 / 1000; 18 / 1000; - 91 / 1000] (c_norm c) * t_norm t)
  + polynomial [541225 / 1000; - 74391 / 1000; - 121669 / 1000; 29518 / 1000; 20025 / 1000] (c_norm c).
Definition slope_of (t c : R) : R :=
  polynomial [72537 / 10; 22131 / 10] (c_norm c) + polynomial [- 687 / 10; - 577 / 10] (c_norm c) * t_norm t.

(** numpy.linspace(0.0, 2.0, num=1000) (910) *)
Definition n_hard : nat := Z.to_nat 1000.
Definition hard_table (s0 s1 : R) : list (R * R) :=
  map (fun x => (x, s0 + s1 * x)) (linspace 0 2 n_hard).

(** get_model_parameters (831-917); the fixed entries elastic_symmetry
    (isotropic), euler_angles (zero) and hardening_law (piecewise_linear) are
    left out. *)
Definition get_model_parameters (name : string) (t c : R) : res mat_params :=
  if String.eqb name "von_mises"%string then
    if rltb t 25 || rltb 625 t then Err RuntimeError
    else if rltb c 0 || rltb 1 c then Err RuntimeError
    else Ok {| young := young_of t c; poisson := poisson_of t c;
               hard_points := hard_table (yield_of t c) (slope_of t c) |}
  else Err RuntimeError.

(** numpy.argmin: the first position of the least entry. *)
Fixpoint argmin_from (l : list R) (i best : nat) (v : R) : nat :=
  match l with
  | [] => best
  | y :: t => if rltb y v then argmin_from t (S i) i y else argmin_from t (S i) best v
  end.
Definition argmin (l : list R) : nat := match l with [] => 0%nat | y :: t => argmin_from t 1 0 y end.
(** random.uniform(a, b) = a + (b - a) * random() *)
Definition uniform (a b u : R) : R := a + (b - a) * u.
(** Neighbourhood of a grid value (194-202): closest position, the two
    positions around it, and a draw between the two entries. *)
Definition nb_low (l : list R) (x : R) : nat := (argmin (map (fun y => Rabs (y - x)) l) - 1)%nat.
Definition nb_up (l : list R) (x : R) : nat :=
  Nat.min (argmin (map (fun y => Rabs (y - x)) l) + 1) (length l - 1).
Definition neighbour_draw (l : list R) (x u : R) : R := uniform (nth (nb_low l x) l 0) (nth (nb_up l x) l 0) u.
(** Effective dependencies of a sample (189-207). *)
Definition is_neighbour_type (ty : string) : bool :=
  (String.eqb ty "validation" || String.eqb ty "testing_id")%string.
Definition effective (ty : string) (l : list R) (x u : R) : R :=
  if is_neighbour_type ty then neighbour_draw l x u else x.
