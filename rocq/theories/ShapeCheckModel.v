(** Check of the shape functions of an element (C126):
    simulators/fetorch/element/type/interface.py 256-313
    (check_shape_functions_properties), with torch.isclose.
    The two random points of torch.rand (components in [0, 1)) are arguments; the
    messages are not modelled. *)
From Coq Require Import Reals List Bool Arith.
From Verif Require Import Lib ElementModel.
Import ListNotations.
Local Open Scope R_scope.

Definition rleb (a b : R) : bool := if Rle_dec a b then true else false.
(** torch.isclose(x, y, rtol=1e-05, atol) *)
Definition isclose (atol x y : R) : bool := rleb (Rabs (x - y)) (atol + 1 / 100000 * Rabs y).
Definition default_atol : R := 1 / 100000000.
(** 264-283 *)
Definition node_check (el : element) (i j : nat) : bool :=
  isclose default_atol (nth j (el_shapefun el (nth i (el_nodes el) [])) 0) (if Nat.eqb i j then 1 else 0).
Definition delta_check (el : element) : bool :=
  forallb (fun i => forallb (node_check el i) (seq 0 (el_n_node el))) (seq 0 (el_n_node el)).
(** 256-313 *)
Definition check_shape_functions (el : element) (p q : list R) : res unit :=
  if negb (delta_check el) then Err RuntimeError
  else if negb (isclose default_atol (lsum (el_shapefun el p)) 1) then Err RuntimeError
  else if negb (isclose (1 / 100000) (lsum (map lsum (el_deriv el q))) 0) then Err RuntimeError
  else Ok tt.
