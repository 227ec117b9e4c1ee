(** Loading incrementation of a Links input data file.

    src/hookeai/simulators/links/links.py 870-1073
      (_get_links_loading_incrementation).

    An incrementation is the number in its header and the incremental load
    factors of its lines; the other columns of a line (1.0, tolerance and number
    of iterations) are constants. Values are real numbers; the rounding of the
    printed factors (nine significant digits) is [written]. The incrementation
    mode, loading type and numbers of increments and reversals, constants in the
    code, are arguments. The polynomial fit is an argument [fit]; the draws of the
    control values are arguments. *)
From Coq Require Import List Bool Arith Reals.
From Verif Require Import Lib PyDict StrainPathModel DeformModel.
Import ListNotations.
Local Open Scope R_scope.

Inductive load_mode := NIncrements | IncrementList.
Inductive load_type := Proportional | CyclicPlus | CyclicSym | PolynomialLoad.
Inductive loading := EvenLoading (n : nat) | ListedLoading (n : nat) (factors : list R).

(** 961-968: [dfact] changes sign at each reversal *)
Fixpoint reversals (n_reverse width : nat) (dfact : R) (lines : list R) : list R :=
  match n_reverse with
  | O => lines
  | S k => reversals k width (- dfact) (lines ++ repeat (- dfact) width)
  end.
(** 916-982 *)
Definition stepped_loading (t : load_type) (n_inc n_reverse : nat) : res loading :=
  let n_reverse := match t with Proportional => O | _ => n_reverse end in
  let too_few := match t with
    | CyclicPlus => Nat.ltb n_inc (n_reverse + 1)
    | CyclicSym => Nat.ltb n_inc (2 * n_reverse + 1)
    | _ => false end in
  if too_few then Err RuntimeError
  else
    let n_mon := match t with CyclicSym => Nat.div n_inc (2 * n_reverse + 1) | _ => Nat.div n_inc (n_reverse + 1) end in
    let switch := match t with CyclicSym => 2%nat | _ => 1%nat end in
    if Nat.eqb n_mon 0 then Err ZeroDivisionError
    else
      let dfact := 1 / INR n_mon in
      let n_eff := (n_mon * (switch * n_reverse + 1))%nat in
      let lines := reversals n_reverse (switch * n_mon) dfact (repeat dfact n_mon) in
      Ok (ListedLoading n_inc (lines ++ (if Nat.ltb n_eff n_inc then repeat 0 (n_inc - n_eff) else []))).
(** 984-1048; [draws]: the control values, of which the first is replaced *)
Definition load_history (fit : list R -> list R -> list R) (n_inc : nat) (draws : list R) : list R :=
  let n_control := length draws in
  let coefs := fit (StrainPathModel.linspace 0 1 n_control) (upd draws 0 0) in
  let hist := map (polynomial coefs) (StrainPathModel.linspace 0 1 (n_inc + 1)) in
  bound_scale (-1) 1 (hd 0 hist) hist.
Definition polynomial_loading (fit : list R -> list R -> list R) (n_inc : nat) (draws : list R) : loading :=
  let h := load_history fit n_inc draws in
  ListedLoading n_inc (map (fun i => nth (S i) h 0 - nth i h 0) (seq 0 n_inc)).
(** 870-1073 *)
Definition links_loading (fit : list R -> list R -> list R) (m : load_mode) (t : load_type) (n_inc n_reverse : nat) (draws : list R) : res loading :=
  match m, t with
  | NIncrements, Proportional => Ok (EvenLoading n_inc)
  | NIncrements, _ => Err RuntimeError
  | IncrementList, PolynomialLoad => Ok (polynomial_loading fit n_inc draws)
  | IncrementList, _ => stepped_loading t n_inc n_reverse
  end.
(** The factors as printed, "{:>16.8e}" *)
Definition written (rnd : R -> R) (l : loading) : loading :=
  match l with EvenLoading n => EvenLoading n | ListedLoading n f => ListedLoading n (map rnd f) end.
