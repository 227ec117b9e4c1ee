(** Figures of a material response path and of a state variable (C134):
    user_scripts/synthetic_data/gen_response_dataset.py 948-1137
    (plot_material_response_path) and 1593-1720 (plot_state_history).
    A path is its discrete times and the rows of its strain and stress
    components.  np.linalg.norm is the Frobenius norm; a number subtracted from
    an array is subtracted from all its entries.
    Simplifications: rows of a path have the same length; labels of axes,
    limits of axes and drawing are not modelled. *)
From Coq Require Import String Reals List Bool Arith.
From Verif Require Import Lib PyDict PyStr MatrixModel ResponseModel StressSpaceModel.
Import ListNotations.
Local Open Scope string_scope.
Local Open Scope list_scope.
Local Open Scope R_scope.

(** 1092-1099 *)
Definition minus_mean (n : nat) (t : T2) : T2 := fun i j => t i j - 1 / 3 * rsum n (fun k => t k k).
Definition eq_strain (n : nat) (t : T2) : R := sqrt (2 / 3) * frobenius n (minus_mean n t).
Definition eq_stress (n : nat) (t : T2) : R := sqrt (3 / 2) * frobenius n (minus_mean n t).

Record rpath := mkPath { p_time : list R; p_strain : list (list R); p_stress : list (list R) }.
Section Response.
  Variables (is_infinitesimal : bool) (n_dim : nat) (strain_order stress_order : list comp).
  (** 1076-1099: one discrete time *)
  Definition eq_point (p : rpath) (i : nat) : res (R * R) :=
    match nth_error (p_strain p) i, nth_error (p_stress p) i with
    | Some e, Some s =>
      rbind (build_tensor n_dim strain_order e is_infinitesimal) (fun e =>
      rbind (build_tensor n_dim stress_order s is_infinitesimal) (fun s =>
      Ok (if is_infinitesimal then (eq_strain n_dim e, eq_stress n_dim s) else (0, 0))))
    | _, _ => Err IndexError
    end.
  (** 1070-1103: arrays of zeros of the longest path, filled up to the length of
      the path *)
  Definition eq_curve (m : nat) (p : rpath) : res (list (R * R)) :=
    rbind (rmap (eq_point p) (seq 0 (length (p_time p)))) (fun l => Ok (pad (0, 0) m l)).
  (** 1002-1014, 1067-1127: None without figure *)
  Definition eq_figure (paths : list rpath) : res (option (list (list (R * R)))) :=
    match paths with
    | [] => Err ValueError
    | _ =>
      let m := n_time_max (map p_time paths) in
      rbind (rmap (eq_curve m) paths) (fun cs => Ok (if Nat.eqb n_dim 3 then Some cs else None))
    end.
End Response.
(** 1026-1066: the figure of the components of one path; a column of one entry
    is repeated by numpy *)
Definition comp_name (c : comp) : string := (nat_str (fst c) ++ nat_str (snd c))%string.
Definition comp_column (n : nat) (rows : list (list R)) (j : nat) : res (list R) :=
  rbind (rmap (fun r => match nth_error r j with Some x => Ok x | None => Err IndexError end) rows) (fun c =>
  if Nat.eqb (length c) n then Ok c else match c with [x] => Ok (repeat x n) | _ => Err ValueError end).
Definition comp_figure (what : string) (comps : list comp) (times : list R) (rows : list (list R)) : res (list (string * list (R * R))) :=
  rmap (fun jc => rbind (comp_column (length times) rows (fst jc)) (fun c => Ok ((what ++ " " ++ comp_name (snd jc))%string, combine times c)))
    (combine (seq 0 (length comps)) comps).

(** ** State variable *)
(** One array or a list of arrays; a state path has rows and a number of
    columns. *)
Inductive arg (A : Type) := One (a : A) | Many (l : list A).
Arguments One {A}.
Arguments Many {A}.
Definition arg_len {A} (len : A -> nat) (a : arg A) : nat := match a with One x => len x | Many l => length l end.
Record spath := mkState { s_cols : nat; s_rows : list (list R) }.
(** 1679-1683: assignment of the flattened path to the rows of its times *)
Definition state_column (m : nat) (ts : list R) (s : spath) : res (list (option (R * R))) :=
  let v := concat (s_rows s) in
  rbind (if Nat.eqb (length v) (length ts) then Ok v else match v with [x] => Ok (repeat x (length ts)) | _ => Err ValueError end) (fun v =>
  Ok (pad None m (map Some (combine ts v)))).
(** 1671-1712: the curves and the values of the histogram *)
Definition state_figures (ts : list (list R)) (ss : list spath) : res (list (list (option (R * R))) * list R) :=
  match ss with
  | [] => Err IndexError
  | s0 :: _ =>
    if negb (Nat.eqb (s_cols s0) 1) then Err RuntimeError
    else rbind (rmap (fun k => match nth_error ts k with Some t => state_column (n_time_max ts) t (nth k ss s0) | None => Err IndexError end) (seq 0 (length ss))) (fun cs =>
      if forallb (fun s => Nat.eqb (s_cols s) (s_cols s0)) ss then Ok (cs, concat (map (fun s => concat (s_rows s)) ss)) else Err ValueError)
  end.
(** 1637-1664: the test of 1639 is never met; the first and last times exist only
    for nonempty histories *)
Definition check_times (ts : list (list R)) : res (list (list R)) :=
  match ts with
  | [] => Err ValueError
  | _ => if existsb (fun t => Nat.eqb (length t) 0) ts then Err IndexError else Ok ts
  end.
Definition plot_state (time : arg (list R)) (state : arg spath) : res (list (list (option (R * R))) * list R) :=
  match time, state with
  | One t, One s => rbind (check_times [t]) (fun ts => state_figures ts [s])
  | _, _ =>
    if negb (Nat.eqb (arg_len (@length R) time) (arg_len (fun s => length (s_rows s)) state)) then Err RuntimeError
    else match time, state with
    | Many ts, Many ss => rbind (check_times ts) (fun ts => state_figures ts ss)
    | Many ts, One s =>
      rbind (check_times ts) (fun _ => Err IndexError) (* state_path[0].shape[1] of a row *)
    | One t, _ => match t with [] => Err ValueError | _ => Err TypeError end (* len of a number *)
    end
  end.
