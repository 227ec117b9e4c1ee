(** Norms, increments, distributions and component pairs of strain paths (C143):
    data_generation/strain_paths/interface.py 314-591 (plot_strain_path).
    Times and paths are given as lists of the same length (the other cases are
    in DataPlotModel); an array filled with NaN is a list with [None].
    Simplifications: bins and drawing are not modelled, nor the scatter plot
    with marginal distributions, which shows the array of the pairs; single
    entries are not repeated (paths have as many rows as times). *)
From Coq Require Import String Reals List Bool Arith.
From Verif Require Import Lib PyDict PyStr MatrixModel ResponseModel StressSpaceModel EqPathModel DataPlotModel.
Import ListNotations.
Local Open Scope string_scope.
Local Open Scope list_scope.

Section Norms.
  Variables (is_infinitesimal : bool) (n_dim : nat) (comps : list comp).
  Definition row_tensor (rows : list (list R)) (i : nat) : res T2 :=
    match nth_error rows i with
    | Some r => build_tensor n_dim comps r is_infinitesimal
    | None => Err IndexError
    end.
  (** 346-357: one path *)
  Definition norm_column (m : nat) (times : list R) (rows : list (list R)) : res (list (option (R * R))) :=
    rbind (rmap (fun it => rbind (row_tensor rows (fst it)) (fun e => Ok (Some (snd it, frobenius n_dim e))))
      (combine (seq 0 (length times)) times)) (fun l => Ok (pad None m l)).
  (** 340-357 *)
  Definition norm_figure (times : list (list R)) (paths : list (list (list R))) : res (list (list (option (R * R)))) :=
    rmap (fun tp => norm_column (n_time_max times) (fst tp) (snd tp)) (combine times paths).
  (** 386-392: the columns of the norms with the missing values *)
  Definition norm_hist (times : list (list R)) (paths : list (list (list R))) : res (list (option R)) :=
    rbind (norm_figure times paths) (fun cs => Ok (concat (map (map (option_map snd)) cs))).
  (** 418-438: one time after the first *)
  Definition inc_point (rows : list (list R)) (times : list R) (i : nat) : res (R * R) :=
    match nth_error times i with
    | None => Err IndexError
    | Some t =>
      rbind (row_tensor rows i) (fun e =>
      rbind (row_tensor rows (i - 1)) (fun e_old =>
      if is_infinitesimal then Ok (t, frobenius n_dim (fun a b => (e a b - e_old a b)%R)) else Err RuntimeError))
    end.
  (** 411-438: the arrays are filled with zeros and set from the second row *)
  Definition inc_column (m : nat) (times : list R) (rows : list (list R)) : res (list (R * R)) :=
    rbind (rmap (inc_point rows times) (seq 1 (length times - 1))) (fun l => Ok (pad (0, 0)%R m ((0, 0)%R :: l))).
  Definition inc_figure (times : list (list R)) (paths : list (list (list R))) : res (list (list (R * R))) :=
    rmap (fun tp => inc_column (n_time_max times) (fst tp) (snd tp)) (combine times paths).
  (** 460-466 *)
  Definition inc_hist (times : list (list R)) (paths : list (list (list R))) : res (list R) :=
    rbind (inc_figure times paths) (fun cs =>
    Ok (concat (map (fun tc => firstn (length (fst tc)) (map snd (snd tc))) (combine times cs)))).
  (** 314-323: the distribution of every component *)
  Definition comp_hists (what : string) (paths : list (list (list R))) : res (list (string * list R)) :=
    rmap (fun jc : nat * comp => rbind (rmap (fun p => path_column p (fst jc)) paths) (fun cs => Ok ((what ++ " " ++ comp_name (snd jc))%string, concat cs)))
      (combine (seq 0 (length comps)) comps).
  (** 489-501: the pairs *)
  Definition strain_pairs : res (list (comp * comp)) :=
    if is_infinitesimal then
      Ok (if Nat.eqb n_dim 2 then [((1, 1), (2, 2)); ((1, 1), (1, 2)); ((2, 2), (1, 2))]%nat
          else [((1, 1), (2, 2)); ((1, 1), (3, 3)); ((2, 2), (3, 3)); ((1, 1), (1, 2)); ((1, 1), (2, 3)); ((1, 1), (1, 3))]%nat)
    else Err RuntimeError.
  Definition comp_eqb (a b : comp) : bool := Nat.eqb (fst a) (fst b) && Nat.eqb (snd a) (snd b).
  (** tuple.index *)
  Fixpoint comp_index (l : list comp) (c : comp) : res nat :=
    match l with
    | [] => Err ValueError
    | d :: t => if comp_eqb c d then Ok 0%nat else rbind (comp_index t c) (fun k => Ok (S k))
    end.
  (** 502-518: the array of one pair *)
  Definition pair_figure (times : list (list R)) (paths : list (list (list R))) (pr : comp * comp) : res (list (list (option (R * R)))) :=
    rbind (comp_index comps (fst pr)) (fun jx =>
    rbind (comp_index comps (snd pr)) (fun jy =>
    rmap (fun tp => rbind (path_column (snd tp) jx) (fun x => rbind (path_column (snd tp) jy) (fun y =>
      if Nat.eqb (length x) (length (fst tp)) then Ok (pad None (n_time_max times) (map Some (combine x y))) else Err ValueError)))
      (combine times paths))).
  Definition pair_figures (times : list (list R)) (paths : list (list (list R))) : res (list (comp * comp * list (list (option (R * R))))) :=
    rbind strain_pairs (fun l => rmap (fun pr => rbind (pair_figure times paths pr) (fun f => Ok (pr, f))) l).
End Norms.
