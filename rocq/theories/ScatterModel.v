(** Scatter plots, curves in space and histograms (C139): ioput/plots.py 1371-1597
    (scatter_xny_data), 666-860 (plot_xyz_data) and 1948-2120 (plot_histogram).
    Simplifications: as in PlotBaseModel (axes, ticks, grid, styles and drawing are
    not modelled); the bins and counts of a histogram are those of matplotlib and
    are not modelled. *)
From Coq Require Import String Reals List Bool Arith.
From Verif Require Import Lib PyDict PlotBaseModel.
Import ListNotations.
Local Open Scope list_scope.

(** 1440-1575: the series drawn, with label and points; nothing is drawn without
    error bars *)
Definition scatter_xny (is_error_bar : bool) (rt : range) (labels : option (list (option string))) (latex : bool) (data : list (list (list (option R)))) : res (list (option string * list (option point))) :=
  rbind (labels_of (length data) labels) (fun ls =>
  rbind (rmap (fun id =>
    if is_error_bar then rbind (rmap (xny_point rt) (snd id)) (fun ps => Ok [(tex_str (nth (fst id) ls None) latex, ps)])
    else Ok []) (combine (seq 0 (length data)) data)) (fun ss => Ok (concat ss))).
(** 739-754, 826-831 *)
Definition plot_xyz (cols : nat) (rows : list (list (option R))) (labels : option (list (option string))) (latex : bool) : res (list (option string * list (option R * option R * option R))) :=
  if negb (Nat.eqb (cols mod 3) 0) then Err RuntimeError
  else
    let n := cols / 3 in
    rbind (labels_of n labels) (fun ls =>
    Ok (map (fun i => (tex_str (nth i ls None) latex, map (fun r => (nth (3 * i) r None, nth (3 * i + 1) r None, nth (3 * i + 2) r None)) rows)) (seq 0 n))).
(** 2014-2022, 2087-2102: the histograms with the label under which the legend
    lists them, and whether there is a legend *)
Definition plot_histogram (data : list (list R)) (labels : option (list (option string))) : res (list (option string * list R) * bool) :=
  rbind (labels_of (length data) labels) (fun ls =>
  Ok (map (fun d => (None, d)) data, negb (forallb (fun l => match l with None => true | Some _ => false end) ls))).
