(** Model of the vectorisable GRU.
    Source: src/hookeai/model_architectures/rnn_base_model/custom/gru_vmap.py
    131-193 (GRUCell.forward), 268-355 (GRU.forward).
    A matrix is the list of its rows; a batch of features is a matrix with one row
    for each batch member.
    Simplifications: real arithmetic; shapes are assumed compatible (products cut
    to the shorter operand); the gates exist for every weight matrix (no
    initialisation of weights). *)
From Coq Require Import Reals List Arith.
From Verif Require Import Lib.
Import ListNotations.
Local Open Scope R_scope.

Notation vec := (list R).
Notation mat := (list (list R)).
Fixpoint map2 {A B C} (f : A -> B -> C) (a : list A) (b : list B) : list C :=
  match a, b with x :: a', y :: b' => f x y :: map2 f a' b' | _, _ => [] end.
Definition dot (a b : vec) : R := lsum (map2 Rmult a b).
(** torch.mm(x, w.t()): row products *)
Definition mm_t (x w : mat) : mat := map (fun r => map (dot r) w) x.
(** adding a vector to every row *)
Definition add_row (m : mat) (b : vec) : mat := map (fun r => map2 Rplus r b) m.
(** torch.chunk(m, chunks=3, dim=1) with rows of 3*h entries: the k-th chunk *)
Definition chunk (h k : nat) (m : mat) : mat := map (fun r => firstn h (skipn (k * h) r)) m.
(** elementwise operations *)
Definition ew2 (f : R -> R -> R) (a b : mat) : mat := map2 (map2 f) a b.
Definition ew1 (f : R -> R) (a : mat) : mat := map (map f) a.
Definition sigmoid (x : R) : R := 1 / (1 + exp (- x)).

Record cell := { w_ih : mat; w_hh : mat; b_ih : vec; b_hh : vec; hidden : nat }.

(** 169-187, batched *)
Definition cell_forward (c : cell) (input hx : mat) : mat :=
  let gi := add_row (mm_t input (w_ih c)) (b_ih c) in
  let gh := add_row (mm_t hx (w_hh c)) (b_hh c) in
  let h := hidden c in
  let i_r := chunk h 0 gi in let i_i := chunk h 1 gi in let i_n := chunk h 2 gi in
  let h_r := chunk h 0 gh in let h_i := chunk h 1 gh in let h_n := chunk h 2 gh in
  let update_gate := ew1 sigmoid (ew2 Rplus i_i h_i) in
  let reset_gate := ew1 sigmoid (ew2 Rplus i_r h_r) in
  let new_gate := ew1 tanh (ew2 Rplus i_n (ew2 Rmult reset_gate h_n)) in
  ew2 Rplus (ew2 Rmult update_gate (ew2 Rminus hx new_gate)) new_gate.

(** 331-340: layers of one time step, updating the list of hidden states *)
Definition layer_step (cells : list cell) (x : mat) (h_layers : list mat) (l : nat) : list mat :=
  let layer_input := if Nat.eqb l 0 then x else nth (l - 1) h_layers [] in
  upd h_layers l (cell_forward (nth l cells (Build_cell [] [] [] [] 0)) layer_input (nth l h_layers [])).
Definition time_step (cells : list cell) (x : mat) (h_layers : list mat) : list mat :=
  fold_left (layer_step cells x) (seq 0 (length cells)) h_layers.
(** 328-348: outputs of the last layer for all times, final hidden states *)
Fixpoint gru_loop (cells : list cell) (h_layers : list mat) (input : list mat) : list mat * list mat :=
  match input with
  | [] => ([], h_layers)
  | x :: t =>
    let h' := time_step cells x h_layers in
    let (out, h_n) := gru_loop cells h' t in
    (nth (length cells - 1) h' [] :: out, h_n)
  end.
(** 312-317: initial hidden states *)
Definition zero_hidden (n_layers batch h : nat) : list mat := repeat (repeat (repeat 0 h) batch) n_layers.
Definition gru_forward (cells : list cell) (input : list mat) (hx : option (list mat)) : list mat * list mat :=
  let batch := length (nth 0 input []) in
  let h := hidden (nth 0 cells (Build_cell [] [] [] [] 0)) in
  gru_loop cells (match hx with Some s => s | None => zero_hidden (length cells) batch h end) input.
(** 308-310, 318-321, 351-353: unbatched input (a batch of one) *)
Definition gru_unbatched (cells : list cell) (input : list vec) (hx : option (list vec)) : list vec * list vec :=
  let (out, h_n) := gru_forward cells (map (fun v => [v]) input) (option_map (map (fun v => [v])) hx) in
  (map (fun m => nth 0 m []) out, map (fun m => nth 0 m []) h_n).
