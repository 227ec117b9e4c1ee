(** Boundary nodes and boundary edge nodes of a material patch (C137):
    data_generation/spdg/patch.py 140-147 (check of the prescribed nodes), 293-319 (get_boundary_nodes_labels), 321-352
    (get_boundary_edges_nodes_labels) and 413-416 (nodes inside the faces).
    The matrix of nodes is a function of the indices below the shape, with the
    label 0 where there is no node; index -1 is the shape minus 1 (shapes are
    positive). Slices are enumerated as in the code; tuple(set(...)) keeps one
    occurrence of each label (its order is not modelled).
    Simplification: labels of prescribed nodes are numbers, not strings. *)
From Coq Require Import List Bool Arith.
From Verif Require Import Lib.
Import ListNotations.

Definition axis (n : nat) : list nat := seq 0 n.
(** a[:, ...] for two free indices, flattened *)
Definition plane (f : nat -> nat -> nat) (n m : nat) : list nat := flat_map (fun i => map (f i) (axis m)) (axis n).
Section Patch2.
  Variables (n m : nat) (M : nat -> nat -> nat).
  (** 303-307 and 331-335 *)
  Definition boundary2 : list nat :=
    nodup Nat.eq_dec (map (fun i => M i 0) (axis n) ++ map (fun i => M i (m - 1)) (axis n) ++ map (fun j => M 0 j) (axis m) ++ map (fun j => M (n - 1) j) (axis m)).
End Patch2.
Section Patch3.
  Variables (a b c : nat) (M : nat -> nat -> nat -> nat).
  (** 309-317 *)
  Definition boundary3 : list nat :=
    nodup Nat.eq_dec (filter (fun l => negb (Nat.eqb l 0))
      (plane (fun i j => M i j 0) a b ++ plane (fun i j => M i j (c - 1)) a b ++
       plane (fun j k => M 0 j k) b c ++ plane (fun j k => M (a - 1) j k) b c ++
       plane (fun i k => M i 0 k) a c ++ plane (fun i k => M i (b - 1) k) a c)).
  (** 337-350 *)
  Definition edges3 : list nat :=
    nodup Nat.eq_dec
      (map (fun i => M i 0 0) (axis a) ++ map (fun i => M i 0 (c - 1)) (axis a) ++ map (fun i => M i (b - 1) 0) (axis a) ++ map (fun i => M i (b - 1) (c - 1)) (axis a) ++
       map (fun j => M 0 j 0) (axis b) ++ map (fun j => M 0 j (c - 1)) (axis b) ++ map (fun j => M (a - 1) j 0) (axis b) ++ map (fun j => M (a - 1) j (c - 1)) (axis b) ++
       map (fun k => M 0 0 k) (axis c) ++ map (fun k => M 0 (b - 1) k) (axis c) ++ map (fun k => M (a - 1) 0 k) (axis c) ++ map (fun k => M (a - 1) (b - 1) k) (axis c)).
  (** 413-416 *)
  Definition inside_faces3 : list nat := filter (fun l => negb (existsb (Nat.eqb l) edges3)) boundary3.
End Patch3.
(** 142-147 *)
Definition check_prescribed (boundary prescribed : list nat) : res unit :=
  if existsb (fun l => negb (existsb (Nat.eqb l) boundary)) prescribed then Err RuntimeError else Ok tt.
