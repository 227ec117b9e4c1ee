(** Plot functions: curves, ranges, labels and styles (C135).
    Modelled: ioput/plots.py 51-240 (plot_xy_data: checks, curves, labels and
    styles), 428-664 (plot_xny_data: checks, mean, ranges), 2324-2358 (tex_str).
    A data array is its number of columns and its rows; NaN is None.  The style
    of a curve is the position of its linestyle and colour in the product of the
    two cycles.
    Simplifications: axes, ticks, grid, legend, markers and drawing are not
    modelled. *)
From Coq Require Import String Ascii Reals List Bool Arith.
From Verif Require Import Lib PyDict.
Import ListNotations.
Local Open Scope string_scope.
Local Open Scope list_scope.
Local Open Scope R_scope.

(** 2324-2358; str.strip of one character *)
Fixpoint drop_dollars (l : list ascii) : list ascii := match l with c :: t => if Ascii.eqb c "$"%char then drop_dollars t else l | [] => [] end.
Definition strip_dollars (s : string) : string := string_of_list_ascii (rev (drop_dollars (rev (drop_dollars (list_ascii_of_string s))))).
Definition tex_str (x : option string) (is_latex : bool) : option string :=
  match x with None => None | Some s => Some (if is_latex then s else strip_dollars s) end.

(** 130-141 *)
Definition n_colors : nat := 14.
Definition n_linestyles : nat := 3.
(** product of cycles: the colours run fastest *)
Definition cycle_style (k : nat) : nat * nat := ((k / n_colors) mod n_linestyles, k mod n_colors)%nat.
Inductive style := Reference | Cycle (linestyle color : nat).
Record curve := mkCurve { c_label : option string; c_points : list (option R * option R); c_style : style }.
(** matplotlib: a curve with its own linestyle and colour does not move the
    cycle *)
Definition style_of (is_reference : bool) (i : nat) : style :=
  if is_reference then match i with 0%nat => Reference | S k => Cycle (fst (cycle_style k)) (snd (cycle_style k)) end
  else Cycle (fst (cycle_style i)) (snd (cycle_style i)).
Definition labels_of (n : nat) (labels : option (list (option string))) : res (list (option string)) :=
  match labels with
  | Some l => if negb (Nat.eqb (length l) n) then Err RuntimeError else Ok l
  | None => Ok (repeat None n)
  end.
(** 114-215 *)
Definition plot_xy (cols : nat) (rows : list (list (option R))) (labels : option (list (option string))) (is_reference latex : bool) : res (list curve) :=
  if negb (Nat.eqb (cols mod 2) 0) then Err RuntimeError
  else
    let n := (cols / 2)%nat in
    rbind (labels_of n labels) (fun ls =>
    Ok (map (fun i => mkCurve (tex_str (nth i ls None) latex) (map (fun r => (nth (2 * i) r None, nth (2 * i + 1) r None)) rows) (style_of is_reference i)) (seq 0 n))).

(** ** Mean and range of realisations *)
Fixpoint opts {A} (l : list (option A)) : option (list A) :=
  match l with [] => Some [] | Some x :: t => match opts t with Some r => Some (x :: r) | None => None end | None :: _ => None end.
Definition mean_of (l : list R) : R := lsum l / INR (length l).
Definition min_of (x : R) (l : list R) : R := fold_right Rmin x l.
Definition max_of (x : R) (l : list R) : R := fold_right Rmax x l.
Definition std_of (l : list R) : R := sqrt (mean_of (map (fun x => (x - mean_of l) ^ 2) l)).
Inductive range := MinMax | MeanStd | NoRange.
(** 598-639: abscissa, mean, and lower and upper ends of the shaded area; None if
    any realisation is NaN *)
Record point := mkPoint { p_x : option R; p_mean : R; p_band : option (R * R) }.
Definition xny_point (rt : range) (row : list (option R)) : res (option point) :=
  match row with
  | [] => Err IndexError
  | x :: ys =>
    match ys, rt with
    | [], MinMax => Err ValueError
    | [], _ => Ok None
    | _, _ =>
      Ok (match opts ys with
      | Some (y :: t) =>
        let l := y :: t in let m := mean_of l in
        Some (mkPoint x m (match rt with
          | MinMax => Some (m - Rabs (m - min_of y t), m + Rabs (m - max_of y t))
          | MeanStd => Some (m - 196 / 100 * std_of l, m + 196 / 100 * std_of l)
          | NoRange => None end))
      | _ => None
      end)
    end
  end.
(** 492-513, 579-641 without reference data *)
Definition plot_xny (rt : range) (labels : option (list (option string))) (latex : bool) (data : list (list (list (option R)))) : res (list (option string * list (option point))) :=
  rbind (labels_of (length data) labels) (fun ls =>
  rmap (fun id => rbind (rmap (xny_point rt) (snd id)) (fun ps => Ok (tex_str (nth (fst id) ls None) latex, ps))) (combine (seq 0 (length data)) data)).
