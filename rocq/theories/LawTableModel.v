(** Tables of hardening functions and the comparison of hardening laws.

    src/hookeai/miscellaneous/other/function_discretizer.py 29-135;
    src/hookeai/miscellaneous/materials/compare_hardening_laws.py 38-163.

    np.linspace is that of StrainPathModel, the hardening laws those of
    HardeningModel. Powers are those of positive reals (Rpower); the number of
    degrees of the friction angle and the format of a line are arguments. *)
From Coq Require Import String Reals List Bool Arith.
From Verif Require Import Lib PyDict StrainPathModel HardeningModel.
Import ListNotations.
Local Open Scope list_scope.

(** function_discretizer.py 54-62, compare_hardening_laws.py 126-133 *)
Definition nadai_fun (s0 a b ep0 x : R) : R := (s0 + a * Rpower (x + ep0) b)%R.
(** 64-85 *)
Definition yield_cohesion (angle : R) : R := (2 / sqrt 3 * cos angle)%R.
Definition custom_fun (degrees s0 a b ep0 x : R) : R :=
  let c := yield_cohesion (degrees * (PI / 180))%R in nadai_fun (s0 / c) (a / c) b ep0 x.
(** 50-85; the option 'linear_hardening' leaves the function undefined *)
Definition fun_of (option_ : string) (degrees s0 a b ep0 : R) : res (R -> R) :=
  if String.eqb option_ "linear_hardening" then Err NameError
  else if String.eqb option_ "nadai_ludwik_hardening" then Ok (nadai_fun s0 a b ep0)
  else Ok (custom_fun degrees s0 a b ep0).
(** 87-95, compare_hardening_laws.py 134-142 *)
Definition discretize (f : R -> R) (lo hi : R) (n : nat) : list (R * R) := map (fun x => (x, f x)) (linspace lo hi n).
Definition newline_str : string := String (Ascii.ascii_of_nat 10) "".
(** 105-133: the figure saved (None without is_save_fig) and the text of the file *)
Definition script (line : R * R -> string) (nat_line option_line : string) (f : res (R -> R)) (lo hi : R) (n : nat)
    (display save_fig save_file : bool) : res (option (list (R * R)) * option (list string)) :=
  rbind f (fun f =>
  let t := discretize f lo hi n in
  rbind (if save_fig then if display then Ok (Some t) else Err NameError else Ok None) (fun fig =>
  Ok (fig, if save_file then Some ([option_line; nat_line; "Discrete values:"%string] ++ map line t) else None))).

(** compare_hardening_laws.py 56-80: the comparison array by columns *)
Section Compare.
  Context {P : Type}.
  Record law := Law { law_fun : P -> R -> res (R * R); law_params : P }.
  Definition evaluate (xs : list R) (l : law) : res (list R * list R * list R) :=
    rbind (rmap (law_fun l (law_params l)) xs) (fun ys => Ok (xs, map fst ys, map snd ys)).
  Fixpoint comparison_data (xs : list R) (laws : list (string * law)) : res (list (list R)) :=
    match laws with
    | [] => Ok []
    | (_, l) :: rest => rbind (evaluate xs l) (fun c => rbind (comparison_data xs rest) (fun cs => Ok (fst (fst c) :: snd (fst c) :: snd c :: cs)))
    end.
  (** 88-91: the columns other than the slopes *)
  Definition plot_columns (data : list (list R)) : list (list R) :=
    map (fun c => nth c data []) (filter (fun c => negb (Nat.eqb (c mod 3) 2)) (seq 0 (length data))).
  (** 38-107: the columns and labels of the displayed figure, and of the saved one *)
  Definition compare (n_point : nat) (laws : list (string * law)) (display save : bool) :
      res (option (list (list R) * list string) * option (list (list R) * list string)) :=
    rbind (comparison_data (linspace 0 1 n_point) laws) (fun data =>
    let fig := (plot_columns data, map fst laws) in
    if save then (if display then Ok (Some fig, Some fig) else Err NameError) else Ok (if display then Some fig else None, None)).
End Compare.
