(** Grouped bar charts and box plots (C136): ioput/plots.py 1599-1757
    (grouped_bar_chart) and 1760-1945 (plot_boxplots).
    A bar is its data set, its group, its ends on the x axis and its height; the
    bars are centred at their location (align='center').
    Simplifications: axes, colours, limits, legend and drawing are not modelled;
    data sets are tuples of numbers. *)
From Coq Require Import String Reals List Bool Arith.
From Verif Require Import Lib PyDict PlotBaseModel.
Import ListNotations.
Local Open Scope string_scope.
Local Open Scope list_scope.
Local Open Scope R_scope.

Record bar := mkBar { b_set : string; b_group : nat; b_left : R; b_right : R; b_height : R }.
Record chart := mkChart { c_bars : list bar; c_ticks : list (R * string); c_averages : list (string * R) }.
(** 1662-1664 *)
Definition bar_width (width : option R) (n_sets : nat) : R := match width with Some w => w | None => 1 / (2 + INR n_sets) end.
(** 1725-1738: bars of the data set at a position *)
Definition set_bars (w : R) (position : nat) (label : string) (values : list R) : list bar :=
  map (fun gv => let center := INR (fst gv) + (1 / 2 + INR position) * w in mkBar label (fst gv) (center - w / 2) (center + w / 2) (snd gv))
    (combine (seq 0 (length values)) values).
(** 1643-1757 *)
Definition bar_chart (labels : list string) (data : dict (list R)) (width : option R) (is_avg : bool) : res chart :=
  let n := length labels in
  if negb (forallb (fun kv => Nat.eqb (length (snd kv)) n) data) then Err RuntimeError
  else
    let w := bar_width width (length data) in
    if is_avg && (Nat.eqb (length data) 0 || Nat.eqb n 0) then Err IndexError
    else Ok (mkChart
      (flat_map (fun ikv => set_bars w (fst ikv) (fst (snd ikv)) (snd (snd ikv))) (combine (seq 0 (length data)) data))
      (map (fun gl => (INR (fst gl) + w, snd gl)) (combine (seq 0 n) labels))
      (if is_avg then map (fun kv => (fst kv, mean_of (snd kv))) data else [])).

(** 1804-1945: the boxes of every subplot, with the label and the column of each;
    the last axes are returned *)
Definition column (rows : list (list R)) (k : nat) : list R := map (fun r => nth k r 0) rows.
Definition box_plots (cols : nat) (rows : list (list R)) (labels : option (list (option string))) (is_multiple : bool) : res (list (list (option string * list R))) :=
  rbind (labels_of cols labels) (fun ls =>
  let box k := (nth k ls None, column rows k) in
  if is_multiple then match cols with 0%nat => Err NameError | _ => Ok (map (fun k => [box k]) (seq 0 cols)) end
  else Ok [map box (seq 0 cols)]).
