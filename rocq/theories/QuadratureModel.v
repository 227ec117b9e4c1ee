(** Model of src/hookeai/simulators/fetorch/element/type/quadratures.py.

    A quadrature rule is the list, in key order '1', '2', ..., of pairs (point
    local coordinates, weight).  Simplifications: the string-keyed
    dictionaries are lists; dtype/device not modelled; the floating-point
    floor of j/g**i is integer division. *)
From Coq Require Import Reals List Arith.
From Verif Require Import Lib ElementModel.
Import ListNotations.
Local Open Scope R_scope.

Inductive domain : Type := Linear | Quadrilateral | Triangular | Hexahedral | Tetrahedral.

Definition rule : Type := list (list R * R).

(** quadratures.py:75-128: gauss_quadrature_1d. *)
Definition gauss_quadrature_1d (n_gauss : nat) : res rule :=
  match n_gauss with
  | 1%nat => Ok [([0], 2)]
  | 2%nat => Ok [([- 1 / sqrt 3], 1); ([1 / sqrt 3], 1)]
  | 3%nat => Ok [([- sqrt (3 / 5)], 5 / 9); ([0], 8 / 9); ([sqrt (3 / 5)], 5 / 9)]
  | _ => Err RuntimeError
  end.

(** quadratures.py:307-329: body of uniform_grid_quadrature, given the 1D rule
    [r1] with [g] points. *)
Definition grid_point (r1 : rule) (g n_dim j : nat) : list R :=
  map (fun i => nth 0 (fst (nth ((j / g ^ i) mod g) r1 ([], 0))) 0) (seq 0 n_dim).
Definition grid_weight (r1 : rule) (g n_dim j : nat) : R :=
  fold_right Rmult 1 (map (fun i => snd (nth ((j / g ^ i) mod g) r1 ([], 0))) (seq 0 n_dim)).
Definition uniform_grid (r1 : rule) (g n_dim n_gauss : nat) : rule :=
  map (fun j => (grid_point r1 g n_dim j, grid_weight r1 g n_dim j)) (seq 0 n_gauss).

(** quadratures.py:278-329: uniform_grid_quadrature. *)
Definition uniform_grid_quadrature (n_dim n_gauss n_gauss_dim : nat) : res rule :=
  rbind (gauss_quadrature_1d n_gauss_dim) (fun r1 =>
    Ok (uniform_grid r1 n_gauss_dim n_dim n_gauss)).

(** quadratures.py:130-195: gauss_quadrature_2d. *)
Definition gauss_quadrature_2d (n_gauss : nat) (dom : domain) : res rule :=
  match dom with
  | Quadrilateral =>
      match n_gauss with
      | 1%nat => uniform_grid_quadrature 2 n_gauss 1
      | 4%nat => uniform_grid_quadrature 2 n_gauss 2
      | 9%nat => uniform_grid_quadrature 2 n_gauss 3
      | _ => Err RuntimeError
      end
  | Triangular =>
      match n_gauss with
      | 1%nat => Ok [([1 / 3; 1 / 3], 1 / 2)]
      | 3%nat => Ok [([1 / 6; 1 / 6], 1 / 6); ([2 / 3; 1 / 6], 1 / 6); ([1 / 6; 2 / 3], 1 / 6)]
      | _ => Err RuntimeError
      end
  | _ => Err RuntimeError
  end.

(** quadratures.py:197-276: gauss_quadrature_3d. *)
Definition gauss_quadrature_3d (n_gauss : nat) (dom : domain) : res rule :=
  match dom with
  | Hexahedral =>
      match n_gauss with
      | 1%nat => uniform_grid_quadrature 3 n_gauss 1
      | 8%nat => uniform_grid_quadrature 3 n_gauss 2
      | 27%nat => uniform_grid_quadrature 3 n_gauss 3
      | _ => Err RuntimeError
      end
  | Tetrahedral =>
      match n_gauss with
      | 1%nat => Ok [([1 / 4; 1 / 4; 1 / 4], 1 / 6)]
      | 4%nat =>
          Ok [([(5 - sqrt 5) / 20; (5 - sqrt 5) / 20; (5 - sqrt 5) / 20], 1 / 24);
              ([(5 + 3 * sqrt 5) / 20; (5 - sqrt 5) / 20; (5 - sqrt 5) / 20], 1 / 24);
              ([(5 - sqrt 5) / 20; (5 + 3 * sqrt 5) / 20; (5 - sqrt 5) / 20], 1 / 24);
              ([(5 - sqrt 5) / 20; (5 - sqrt 5) / 20; (5 + 3 * sqrt 5) / 20], 1 / 24)]
      | _ => Err RuntimeError
      end
  | _ => Err RuntimeError
  end.

(** quadratures.py:33-73: gauss_quadrature. *)
Definition gauss_quadrature (n_gauss : nat) (dom : domain) : res rule :=
  match dom with
  | Linear => gauss_quadrature_1d n_gauss
  | Quadrilateral | Triangular => gauss_quadrature_2d n_gauss dom
  | Hexahedral | Tetrahedral => gauss_quadrature_3d n_gauss dom
  end.

(** Domain handed to gauss_quadrature by each element type
    (e.g. quad4.py:95-97, tri3.py:95-96, tetra4.py:95-97, hexa8.py:95-96) and
    the element itself. *)
Definition element_domains : list (element * domain) :=
  [(tri3, Triangular); (tri6, Triangular); (quad4, Quadrilateral); (quad8, Quadrilateral);
   (tetra4, Tetrahedral); (tetra10, Tetrahedral); (hexa8, Hexahedral); (hexa20, Hexahedral)].

(** e.g. quad4.py:88-97: constructing an element with [n_gauss] points. *)
Definition element_quadrature (ed : element * domain) (n_gauss : nat) : res rule :=
  if existsb (Nat.eqb n_gauss) (el_admissible_gauss (fst ed))
  then gauss_quadrature n_gauss (snd ed) else Err RuntimeError.
