(** Finite element library: node local coordinates, shape functions and their
    local derivatives of every element type under
    src/hookeai/simulators/fetorch/element/type/.

    The formulas are literal transcriptions (decimal literals 0.25, 0.5 become
    the rationals 1/4, 1/2; [x**2] becomes [x ^ 2]).  Coordinates are lists of
    reals; unpacking a list of the wrong length (a Python ValueError) is not
    modelled: missing coordinates read as 0.  dtype/device not modelled. *)
From Coq Require Import Reals List Arith.
Import ListNotations.
Local Open Scope R_scope.

(** Attributes of an element type (interface.py:20-60): name code, number of
    nodes, dofs per node (= spatial dimension), node local coordinates,
    eval_shapefun, eval_shapefun_local_deriv and
    _admissible_gauss_quadratures. *)
Record element : Type := Element {
  el_n_node : nat;
  el_n_dim : nat;
  el_nodes : list (list R);
  el_shapefun : list R -> list R;
  el_deriv : list R -> list (list R);
  el_admissible_gauss : list nat
}.

(** tri3.py:98-108: node local coordinates. *)
Definition tri3_nodes : list (list R) :=
  [[0; 0];
   [1; 0];
   [0; 1]].

(** tri3.py:110-133: eval_shapefun. *)
Definition tri3_shapefun (c : list R) : list R :=
  let c1 := nth 0 c 0 in
  let c2 := nth 1 c 0 in
  [(1 - c1) - c2;
   c1;
   c2].

(** tri3.py:135-165: eval_shapefun_local_deriv. *)
Definition tri3_deriv (c : list R) : list (list R) :=
  let c1 := nth 0 c 0 in
  let c2 := nth 1 c 0 in
  [[- 1; - 1];
   [1; 0];
   [0; 1]].

(** tri3.py:65-96 (attributes), 168-180 (admissible quadratures). *)
Definition tri3 : element :=
  Element 3 2 tri3_nodes tri3_shapefun tri3_deriv [1]%nat.

(** tri6.py:98-111: node local coordinates. *)
Definition tri6_nodes : list (list R) :=
  [[0; 0];
   [1; 0];
   [0; 1];
   [1 / 2; 0];
   [1 / 2; 1 / 2];
   [0; 1 / 2]].

(** tri6.py:113-139: eval_shapefun. *)
Definition tri6_shapefun (c : list R) : list R :=
  let c1 := nth 0 c 0 in
  let c2 := nth 1 c 0 in
  [(- ((1 - c1) - c2)) * (1 - (2 * ((1 - c1) - c2)));
   (- c1) * (1 - (2 * c1));
   (- c2) * (1 - (2 * c2));
   (4 * c1) * ((1 - c1) - c2);
   (4 * c1) * c2;
   (4 * c2) * ((1 - c1) - c2)].

(** tri6.py:141-174: eval_shapefun_local_deriv. *)
Definition tri6_deriv (c : list R) : list (list R) :=
  let c1 := nth 0 c 0 in
  let c2 := nth 1 c 0 in
  [[1 - (4 * ((1 - c1) - c2)); 1 - (4 * ((1 - c1) - c2))];
   [(4 * c1) - 1; 0];
   [0; (4 * c2) - 1];
   [4 * ((1 - (2 * c1)) - c2); (- 4) * c1];
   [4 * c2; 4 * c1];
   [(- 4) * c2; 4 * ((1 - c1) - (2 * c2))]].

(** tri6.py:65-96 (attributes), 177-189 (admissible quadratures). *)
Definition tri6 : element :=
  Element 6 2 tri6_nodes tri6_shapefun tri6_deriv [1; 3]%nat.

(** quad4.py:99-110: node local coordinates. *)
Definition quad4_nodes : list (list R) :=
  [[- 1; - 1];
   [1; - 1];
   [1; 1];
   [- 1; 1]].

(** quad4.py:112-136: eval_shapefun. *)
Definition quad4_shapefun (c : list R) : list R :=
  let c1 := nth 0 c 0 in
  let c2 := nth 1 c 0 in
  [((1 / 4) * (1 - c1)) * (1 - c2);
   ((1 / 4) * (1 + c1)) * (1 - c2);
   ((1 / 4) * (1 + c1)) * (1 + c2);
   ((1 / 4) * (1 - c1)) * (1 + c2)].

(** quad4.py:138-165: eval_shapefun_local_deriv. *)
Definition quad4_deriv (c : list R) : list (list R) :=
  let c1 := nth 0 c 0 in
  let c2 := nth 1 c 0 in
  [[(- (1 / 4)) * (1 - c2); (- (1 / 4)) * (1 - c1)];
   [(1 / 4) * (1 - c2); (- (1 / 4)) * (1 + c1)];
   [(1 / 4) * (1 + c2); (1 / 4) * (1 + c1)];
   [(- (1 / 4)) * (1 + c2); (1 / 4) * (1 - c1)]].

(** quad4.py:65-97 (attributes), 168-180 (admissible quadratures). *)
Definition quad4 : element :=
  Element 4 2 quad4_nodes quad4_shapefun quad4_deriv [1; 4]%nat.

(** quad8.py:99-114: node local coordinates. *)
Definition quad8_nodes : list (list R) :=
  [[- 1; - 1];
   [1; - 1];
   [1; 1];
   [- 1; 1];
   [0; - 1];
   [1; 0];
   [0; 1];
   [- 1; 0]].

(** quad8.py:116-144: eval_shapefun. *)
Definition quad8_shapefun (c : list R) : list R :=
  let c1 := nth 0 c 0 in
  let c2 := nth 1 c 0 in
  [(((1 / 4) * (1 - c1)) * (1 - c2)) * (((- 1) - c1) - c2);
   (((1 / 4) * (1 + c1)) * (1 - c2)) * (((- 1) + c1) - c2);
   (((1 / 4) * (1 + c1)) * (1 + c2)) * (((- 1) + c1) + c2);
   (((1 / 4) * (1 - c1)) * (1 + c2)) * (((- 1) - c1) + c2);
   ((1 / 2) * (1 - (c1 ^ 2))) * (1 - c2);
   ((1 / 2) * (1 + c1)) * (1 - (c2 ^ 2));
   ((1 / 2) * (1 - (c1 ^ 2))) * (1 + c2);
   ((1 / 2) * (1 - c1)) * (1 - (c2 ^ 2))].

(** quad8.py:146-181: eval_shapefun_local_deriv. *)
Definition quad8_deriv (c : list R) : list (list R) :=
  let c1 := nth 0 c 0 in
  let c2 := nth 1 c 0 in
  [[((1 / 4) * (1 - c2)) * ((2 * c1) + c2); ((1 / 4) * (1 - c1)) * (c1 + (2 * c2))];
   [((1 / 4) * (1 - c2)) * ((2 * c1) - c2); ((- (1 / 4)) * (1 + c1)) * (c1 - (2 * c2))];
   [((1 / 4) * (1 + c2)) * ((2 * c1) + c2); ((1 / 4) * (1 + c1)) * (c1 + (2 * c2))];
   [((1 / 4) * (1 + c2)) * ((2 * c1) - c2); ((- (1 / 4)) * (1 - c1)) * (c1 - (2 * c2))];
   [(- c1) * (1 - c2); (- (1 / 2)) * (1 - (c1 ^ 2))];
   [(1 / 2) * (1 - (c2 ^ 2)); (- c2) * (1 + c1)];
   [(- c1) * (1 + c2); (1 / 2) * (1 - (c1 ^ 2))];
   [(- (1 / 2)) * (1 - (c2 ^ 2)); (- c2) * (1 - c1)]].

(** quad8.py:65-97 (attributes), 184-196 (admissible quadratures). *)
Definition quad8 : element :=
  Element 8 2 quad8_nodes quad8_shapefun quad8_deriv [4; 9]%nat.

(** tetra4.py:99-110: node local coordinates. *)
Definition tetra4_nodes : list (list R) :=
  [[0; 0; 0];
   [1; 0; 0];
   [0; 1; 0];
   [0; 0; 1]].

(** tetra4.py:112-136: eval_shapefun. *)
Definition tetra4_shapefun (c : list R) : list R :=
  let c1 := nth 0 c 0 in
  let c2 := nth 1 c 0 in
  let c3 := nth 2 c 0 in
  [((1 - c1) - c2) - c3;
   c1;
   c2;
   c3].

(** tetra4.py:138-169: eval_shapefun_local_deriv. *)
Definition tetra4_deriv (c : list R) : list (list R) :=
  let c1 := nth 0 c 0 in
  let c2 := nth 1 c 0 in
  let c3 := nth 2 c 0 in
  [[- 1; - 1; - 1];
   [1; 0; 0];
   [0; 1; 0];
   [0; 0; 1]].

(** tetra4.py:65-97 (attributes), 172-184 (admissible quadratures). *)
Definition tetra4 : element :=
  Element 4 3 tetra4_nodes tetra4_shapefun tetra4_deriv [1; 4]%nat.

(** tetra10.py:99-116: node local coordinates. *)
Definition tetra10_nodes : list (list R) :=
  [[0; 0; 0];
   [1; 0; 0];
   [0; 1; 0];
   [0; 0; 1];
   [1 / 2; 0; 0];
   [1 / 2; 1 / 2; 0];
   [0; 1 / 2; 0];
   [0; 0; 1 / 2];
   [1 / 2; 0; 1 / 2];
   [0; 1 / 2; 1 / 2]].

(** tetra10.py:118-148: eval_shapefun. *)
Definition tetra10_shapefun (c : list R) : list R :=
  let c1 := nth 0 c 0 in
  let c2 := nth 1 c 0 in
  let c3 := nth 2 c 0 in
  [(((1 - c1) - c2) - c3) * (1 - (2 * ((c1 + c2) + c3)));
   c1 * ((2 * c1) - 1);
   c2 * ((2 * c2) - 1);
   c3 * ((2 * c3) - 1);
   (4 * c1) * (((1 - c1) - c2) - c3);
   (4 * c1) * c2;
   (4 * c2) * (((1 - c1) - c2) - c3);
   (4 * c3) * (((1 - c1) - c2) - c3);
   (4 * c1) * c3;
   (4 * c2) * c3].

(** tetra10.py:150-194: eval_shapefun_local_deriv. *)
Definition tetra10_deriv (c : list R) : list (list R) :=
  let c1 := nth 0 c 0 in
  let c2 := nth 1 c 0 in
  let c3 := nth 2 c 0 in
  [[(4 * ((c1 + c2) + c3)) - 3; (4 * ((c1 + c2) + c3)) - 3; (4 * ((c1 + c2) + c3)) - 3];
   [(4 * c1) - 1; 0; 0];
   [0; (4 * c2) - 1; 0];
   [0; 0; (4 * c3) - 1];
   [((4 - (8 * c1)) - (4 * c2)) - (4 * c3); (- 4) * c1; (- 4) * c1];
   [4 * c2; 4 * c1; 0];
   [(- 4) * c2; ((4 - (4 * c1)) - (8 * c2)) - (4 * c3); (- 4) * c2];
   [(- 4) * c3; (- 4) * c3; ((4 - (4 * c1)) - (4 * c2)) - (8 * c3)];
   [4 * c3; 0; 4 * c1];
   [0; 4 * c3; 4 * c2]].

(** tetra10.py:65-97 (attributes), 197-209 (admissible quadratures). *)
Definition tetra10 : element :=
  Element 10 3 tetra10_nodes tetra10_shapefun tetra10_deriv [4]%nat.

(** hexa8.py:98-113: node local coordinates. *)
Definition hexa8_nodes : list (list R) :=
  [[- 1; - 1; - 1];
   [1; - 1; - 1];
   [1; 1; - 1];
   [- 1; 1; - 1];
   [- 1; - 1; 1];
   [1; - 1; 1];
   [1; 1; 1];
   [- 1; 1; 1]].

(** hexa8.py:115-143: eval_shapefun. *)
Definition hexa8_shapefun (c : list R) : list R :=
  let c1 := nth 0 c 0 in
  let c2 := nth 1 c 0 in
  let c3 := nth 2 c 0 in
  [(((1 / 8) * (1 - c1)) * (1 - c2)) * (1 - c3);
   (((1 / 8) * (1 + c1)) * (1 - c2)) * (1 - c3);
   (((1 / 8) * (1 + c1)) * (1 + c2)) * (1 - c3);
   (((1 / 8) * (1 - c1)) * (1 + c2)) * (1 - c3);
   (((1 / 8) * (1 - c1)) * (1 - c2)) * (1 + c3);
   (((1 / 8) * (1 + c1)) * (1 - c2)) * (1 + c3);
   (((1 / 8) * (1 + c1)) * (1 + c2)) * (1 + c3);
   (((1 / 8) * (1 - c1)) * (1 + c2)) * (1 + c3)].

(** hexa8.py:145-192: eval_shapefun_local_deriv. *)
Definition hexa8_deriv (c : list R) : list (list R) :=
  let c1 := nth 0 c 0 in
  let c2 := nth 1 c 0 in
  let c3 := nth 2 c 0 in
  [[((- (1 / 8)) * (1 - c2)) * (1 - c3); ((- (1 / 8)) * (1 - c1)) * (1 - c3); ((- (1 / 8)) * (1 - c1)) * (1 - c2)];
   [((1 / 8) * (1 - c2)) * (1 - c3); ((- (1 / 8)) * (1 + c1)) * (1 - c3); ((- (1 / 8)) * (1 + c1)) * (1 - c2)];
   [((1 / 8) * (1 + c2)) * (1 - c3); ((1 / 8) * (1 + c1)) * (1 - c3); ((- (1 / 8)) * (1 + c1)) * (1 + c2)];
   [((- (1 / 8)) * (1 + c2)) * (1 - c3); ((1 / 8) * (1 - c1)) * (1 - c3); ((- (1 / 8)) * (1 - c1)) * (1 + c2)];
   [((- (1 / 8)) * (1 - c2)) * (1 + c3); ((- (1 / 8)) * (1 - c1)) * (1 + c3); ((1 / 8) * (1 - c1)) * (1 - c2)];
   [((1 / 8) * (1 - c2)) * (1 + c3); ((- (1 / 8)) * (1 + c1)) * (1 + c3); ((1 / 8) * (1 + c1)) * (1 - c2)];
   [((1 / 8) * (1 + c2)) * (1 + c3); ((1 / 8) * (1 + c1)) * (1 + c3); ((1 / 8) * (1 + c1)) * (1 + c2)];
   [((- (1 / 8)) * (1 + c2)) * (1 + c3); ((1 / 8) * (1 - c1)) * (1 + c3); ((1 / 8) * (1 - c1)) * (1 + c2)]].

(** hexa8.py:65-96 (attributes), 195-207 (admissible quadratures). *)
Definition hexa8 : element :=
  Element 8 3 hexa8_nodes hexa8_shapefun hexa8_deriv [1; 8]%nat.

(** hexa20.py:98-125: node local coordinates. *)
Definition hexa20_nodes : list (list R) :=
  [[- 1; - 1; - 1];
   [1; - 1; - 1];
   [1; 1; - 1];
   [- 1; 1; - 1];
   [- 1; - 1; 1];
   [1; - 1; 1];
   [1; 1; 1];
   [- 1; 1; 1];
   [0; - 1; - 1];
   [1; 0; - 1];
   [0; 1; - 1];
   [- 1; 0; - 1];
   [- 1; - 1; 0];
   [1; - 1; 0];
   [1; 1; 0];
   [- 1; 1; 0];
   [0; - 1; 1];
   [1; 0; 1];
   [0; 1; 1];
   [- 1; 0; 1]].

(** hexa20.py:127-167: eval_shapefun. *)
Definition hexa20_shapefun (c : list R) : list R :=
  let c1 := nth 0 c 0 in
  let c2 := nth 1 c 0 in
  let c3 := nth 2 c 0 in
  [((((1 / 8) * (1 - c1)) * (1 - c2)) * (1 - c3)) * ((((- 2) - c1) - c2) - c3);
   ((((1 / 8) * (1 + c1)) * (1 - c2)) * (1 - c3)) * ((((- 2) + c1) - c2) - c3);
   ((((1 / 8) * (1 + c1)) * (1 + c2)) * (1 - c3)) * ((((- 2) + c1) + c2) - c3);
   ((((1 / 8) * (1 - c1)) * (1 + c2)) * (1 - c3)) * ((((- 2) - c1) + c2) - c3);
   ((((1 / 8) * (1 - c1)) * (1 - c2)) * (1 + c3)) * ((((- 2) - c1) - c2) + c3);
   ((((1 / 8) * (1 + c1)) * (1 - c2)) * (1 + c3)) * ((((- 2) + c1) - c2) + c3);
   ((((1 / 8) * (1 + c1)) * (1 + c2)) * (1 + c3)) * ((((- 2) + c1) + c2) + c3);
   ((((1 / 8) * (1 - c1)) * (1 + c2)) * (1 + c3)) * ((((- 2) - c1) + c2) + c3);
   (((1 / 4) * (1 - (c1 ^ 2))) * (1 - c2)) * (1 - c3);
   (((1 / 4) * (1 + c1)) * (1 - (c2 ^ 2))) * (1 - c3);
   (((1 / 4) * (1 - (c1 ^ 2))) * (1 + c2)) * (1 - c3);
   (((1 / 4) * (1 - c1)) * (1 - (c2 ^ 2))) * (1 - c3);
   (((1 / 4) * (1 - c1)) * (1 - c2)) * (1 - (c3 ^ 2));
   (((1 / 4) * (1 + c1)) * (1 - c2)) * (1 - (c3 ^ 2));
   (((1 / 4) * (1 + c1)) * (1 + c2)) * (1 - (c3 ^ 2));
   (((1 / 4) * (1 - c1)) * (1 + c2)) * (1 - (c3 ^ 2));
   (((1 / 4) * (1 - (c1 ^ 2))) * (1 - c2)) * (1 + c3);
   (((1 / 4) * (1 + c1)) * (1 - (c2 ^ 2))) * (1 + c3);
   (((1 / 4) * (1 - (c1 ^ 2))) * (1 + c2)) * (1 + c3);
   (((1 / 4) * (1 - c1)) * (1 - (c2 ^ 2))) * (1 + c3)].

(** hexa20.py:169-272: eval_shapefun_local_deriv. *)
Definition hexa20_deriv (c : list R) : list (list R) :=
  let c1 := nth 0 c 0 in
  let c2 := nth 1 c 0 in
  let c3 := nth 2 c 0 in
  [[(((1 / 4) * (c1 + ((1 / 2) * ((c2 + c3) + 1)))) * (c2 - 1)) * (c3 - 1); (((1 / 4) * (c2 + ((1 / 2) * ((c1 + c3) + 1)))) * (c1 - 1)) * (c3 - 1); (((1 / 4) * (c3 + ((1 / 2) * ((c1 + c2) + 1)))) * (c1 - 1)) * (c2 - 1)];
   [(((1 / 4) * (c1 - ((1 / 2) * ((c2 + c3) + 1)))) * (c2 - 1)) * (c3 - 1); (((- (1 / 4)) * (c2 - ((1 / 2) * ((c1 - c3) - 1)))) * (c1 + 1)) * (c3 - 1); (((- (1 / 4)) * (c3 - ((1 / 2) * ((c1 - c2) - 1)))) * (c1 + 1)) * (c2 - 1)];
   [(((- (1 / 4)) * (c1 + ((1 / 2) * ((c2 - c3) - 1)))) * (c2 + 1)) * (c3 - 1); (((- (1 / 4)) * (c2 + ((1 / 2) * ((c1 - c3) - 1)))) * (c1 + 1)) * (c3 - 1); (((1 / 4) * (c3 - ((1 / 2) * ((c1 + c2) - 1)))) * (c1 + 1)) * (c2 + 1)];
   [(((- (1 / 4)) * (c1 - ((1 / 2) * ((c2 - c3) - 1)))) * (c2 + 1)) * (c3 - 1); (((1 / 4) * (c2 - ((1 / 2) * ((c1 + c3) + 1)))) * (c1 - 1)) * (c3 - 1); (((- (1 / 4)) * (c3 + ((1 / 2) * ((c1 - c2) + 1)))) * (c1 - 1)) * (c2 + 1)];
   [(((- (1 / 4)) * (c1 + ((1 / 2) * ((c2 - c3) + 1)))) * (c2 - 1)) * (c3 + 1); (((- (1 / 4)) * (c2 + ((1 / 2) * ((c1 - c3) + 1)))) * (c1 - 1)) * (c3 + 1); (((1 / 4) * (c3 - ((1 / 2) * ((c1 + c2) + 1)))) * (c1 - 1)) * (c2 - 1)];
   [(((- (1 / 4)) * (c1 - ((1 / 2) * ((c2 - c3) + 1)))) * (c2 - 1)) * (c3 + 1); (((1 / 4) * (c2 - ((1 / 2) * ((c1 + c3) - 1)))) * (c1 + 1)) * (c3 + 1); (((- (1 / 4)) * (c3 + ((1 / 2) * ((c1 - c2) - 1)))) * (c1 + 1)) * (c2 - 1)];
   [(((1 / 4) * (c1 + ((1 / 2) * ((c2 + c3) - 1)))) * (c2 + 1)) * (c3 + 1); (((1 / 4) * (c2 + ((1 / 2) * ((c1 + c3) - 1)))) * (c1 + 1)) * (c3 + 1); (((1 / 4) * (c3 + ((1 / 2) * ((c1 + c2) - 1)))) * (c1 + 1)) * (c2 + 1)];
   [(((1 / 4) * (c1 - ((1 / 2) * ((c2 + c3) - 1)))) * (c2 + 1)) * (c3 + 1); (((- (1 / 4)) * (c2 - ((1 / 2) * ((c1 - c3) + 1)))) * (c1 - 1)) * (c3 + 1); (((- (1 / 4)) * (c3 - ((1 / 2) * ((c1 - c2) + 1)))) * (c1 - 1)) * (c2 + 1)];
   [(((- (1 / 2)) * c1) * (c2 - 1)) * (c3 - 1); ((- (1 / 4)) * ((c1 ^ 2) - 1)) * (c3 - 1); ((- (1 / 4)) * ((c1 ^ 2) - 1)) * (c2 - 1)];
   [((1 / 4) * ((c2 ^ 2) - 1)) * (c3 - 1); (((1 / 2) * c2) * (c1 + 1)) * (c3 - 1); ((1 / 4) * (c1 + 1)) * ((c2 ^ 2) - 1)];
   [(((1 / 2) * c1) * (c2 + 1)) * (c3 - 1); ((1 / 4) * ((c1 ^ 2) - 1)) * (c3 - 1); ((1 / 4) * ((c1 ^ 2) - 1)) * (c2 + 1)];
   [((- (1 / 4)) * ((c2 ^ 2) - 1)) * (c3 - 1); (((- (1 / 2)) * c2) * (c1 - 1)) * (c3 - 1); ((- (1 / 4)) * (c1 - 1)) * ((c2 ^ 2) - 1)];
   [((- (1 / 4)) * (c2 - 1)) * ((c3 ^ 2) - 1); ((- (1 / 4)) * (c1 - 1)) * ((c3 ^ 2) - 1); (((- (1 / 2)) * c3) * (c1 - 1)) * (c2 - 1)];
   [((1 / 4) * (c2 - 1)) * ((c3 ^ 2) - 1); ((1 / 4) * (c1 + 1)) * ((c3 ^ 2) - 1); (((1 / 2) * c3) * (c1 + 1)) * (c2 - 1)];
   [((- (1 / 4)) * (c2 + 1)) * ((c3 ^ 2) - 1); ((- (1 / 4)) * (c1 + 1)) * ((c3 ^ 2) - 1); (((- (1 / 2)) * c3) * (c1 + 1)) * (c2 + 1)];
   [((1 / 4) * (c2 + 1)) * ((c3 ^ 2) - 1); ((1 / 4) * (c1 - 1)) * ((c3 ^ 2) - 1); (((1 / 2) * c3) * (c1 - 1)) * (c2 + 1)];
   [(((1 / 2) * c1) * (c2 - 1)) * (c3 + 1); ((1 / 4) * ((c1 ^ 2) - 1)) * (c3 + 1); ((1 / 4) * ((c1 ^ 2) - 1)) * (c2 - 1)];
   [((- (1 / 4)) * ((c2 ^ 2) - 1)) * (c3 + 1); (((- (1 / 2)) * c2) * (c1 + 1)) * (c3 + 1); ((- (1 / 4)) * (c1 + 1)) * ((c2 ^ 2) - 1)];
   [(((- (1 / 2)) * c1) * (c2 + 1)) * (c3 + 1); ((- (1 / 4)) * ((c1 ^ 2) - 1)) * (c3 + 1); ((- (1 / 4)) * ((c1 ^ 2) - 1)) * (c2 + 1)];
   [((1 / 4) * ((c2 ^ 2) - 1)) * (c3 + 1); (((1 / 2) * c2) * (c1 - 1)) * (c3 + 1); ((1 / 4) * (c1 - 1)) * ((c2 ^ 2) - 1)]].

(** hexa20.py:65-96 (attributes), 275-287 (admissible quadratures). *)
Definition hexa20 : element :=
  Element 20 3 hexa20_nodes hexa20_shapefun hexa20_deriv [8; 27]%nat.

Definition elements : list element :=
  [tri3; tri6; quad4; quad8; tetra4; tetra10; hexa8; hexa20].
