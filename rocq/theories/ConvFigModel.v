(** Figure of the convexity domain with parameter paths (C140):
    simulators/fetorch/material/models/standard/lou.py 1838-1950
    (plot_convexity_boundary).
    A line is its label, whether its segments are visible (lw=0 hides them) and its
    points; an arrow is its tail and its head (quiver with angles, scale_units
    'xy' and scale 1: the head is the tail plus the components).
    Simplifications: plot_xy_data for one data set is its points with its label
    (C135); colours, markers, display and saving are not modelled. *)
From Coq Require Import String Reals List Bool.
From Verif Require Import Lib PyDict.
Import ListNotations.
Local Open Scope list_scope.
Local Open Scope R_scope.

Definition pt := (R * R)%type.
Record line := mkLine { l_label : option string; l_visible : bool; l_points : list pt }.
Record convex_figure := mkConvex { v_lines : list line; v_arrows : list (pt * pt); v_domain : option (pt * pt); v_legend : bool }.
(** np.diff *)
Fixpoint diff (l : list R) : list R := match l with x :: ((y :: _) as t) => (y - x) :: diff t | _ => [] end.
(** path_points[:-1] *)
Definition but_last (l : list pt) : list pt := firstn (length l - 1) l.
(** 1905-1912 *)
Definition path_arrows (l : list pt) : list (pt * pt) :=
  if Nat.ltb 1 (length l) then
    map (fun td => let '(t, (u, v)) := td in (t, (fst t + u, snd t + v))) (combine (but_last l) (combine (diff (map fst l)) (diff (map snd l))))
  else [].
(** 1876-1938 *)
Definition convexity_figure (boundary : list pt) (paths : option (dict (list pt))) (is_path_arrows : bool) (domain : option (pt * pt)) (is_plot_legend : bool) : convex_figure :=
  let ps := match paths with Some d => d | None => [] end in
  mkConvex
    (mkLine (if is_plot_legend then Some "Convexity boundary"%string else None) true boundary ::
     map (fun kv => mkLine (Some (fst kv)) (negb is_path_arrows) (snd kv)) ps)
    (flat_map (fun kv => path_arrows (snd kv)) ps)
    (match domain with
     | Some ((x0, x1), (y0, y1)) => let w := x1 - x0 in let h := y1 - y0 in Some ((x0, y0), (x0 + w, y0 + h))
     | None => None end)
    is_plot_legend.
