(** Options of the random material patch:
    src/hookeai/data_generation/spdg/patch_generator.py
      475-537 (_build_corners_bc), 617-682 (_build_edges_poly_orders), 684-747
      (_build_edges_disp_range), 749-754 and 794-821 (labels of the corners and
      edges), 1914-1930 (averaging of the edges that share their corners), and
    src/hookeai/data_generation/spdg/patch.py 675-739 (rotation angles).

    [d] is the number of dimensions (2 or 3).  Values of the user's dictionaries
    are of the documented type or [None]; orders and ranges are indexed by the
    dimension and the position of the edge.  The random shuffle is an argument
    (a permutation).  np.linalg.det of two vectors is the closed formula. *)
From Coq Require Import String ZArith Reals List Bool Arith.
From Verif Require Import Lib PyDict PyStr HardeningModel LouModel DeformModel.
Import ListNotations.
Local Open Scope string_scope.
Local Open Scope list_scope.

(** 153-160 *)
Definition n_corners (d : nat) : nat := if Nat.eqb d 2 then 4 else 8.
Definition n_edges (d : nat) : nat := if Nat.eqb d 2 then 4 else 24.
(** 749-754 *)
Definition corners_mapping (d : nat) : list (string * nat) := map (fun i => (nat_str (i + 1), i)) (seq 0 (n_corners d)).
(** 794-821 *)
Definition edges_mapping (d : nat) : list (string * (nat * nat)) :=
  if Nat.eqb d 2 then [("1", (0, 0)); ("2", (0, 1)); ("3", (1, 0)); ("4", (1, 1))]%nat
  else [("1", (0, 0)); ("2", (0, 1)); ("3", (1, 0)); ("4", (1, 1));
        ("5", (0, 2)); ("6", (0, 3)); ("7", (1, 2)); ("8", (1, 3));
        ("9", (1, 4)); ("10", (1, 5)); ("11", (2, 0)); ("12", (2, 1));
        ("13", (1, 6)); ("14", (1, 7)); ("15", (2, 2)); ("16", (2, 3));
        ("17", (0, 4)); ("18", (0, 5)); ("19", (2, 4)); ("20", (2, 5));
        ("21", (0, 6)); ("22", (0, 7)); ("23", (2, 6)); ("24", (2, 7))]%nat.

(** 500-537: [None] values are not tuples *)
Definition n_min_bc (d : nat) : nat := if Nat.eqb d 2 then 3 else 6.
Definition random_start (d : nat) : list Z := repeat 1%Z (n_min_bc d) ++ repeat 0%Z (n_corners d * d - n_min_bc d).
(** [shuffled]: random_bc after np.random.shuffle *)
Definition random_corners_bc (d : nat) (shuffled : list Z) (c j : nat) : Z := nth (c * d + j) shuffled 0%Z.
Definition corner_bc_step (d : nat) (acc : res (nat -> list Z)) (kv : string * option (list Z)) : res (nat -> list Z) :=
  rbind acc (fun f =>
  match gget String.eqb (corners_mapping d) (fst kv) with
  | None => Err KeyError
  | Some i =>
    match snd kv with
    | None => Err RuntimeError
    | Some t => if Nat.eqb (length t) d then Ok (fun c => if Nat.eqb c i then t else f c) else Err RuntimeError
    end
  end).
Definition build_corners_bc (d : nat) (lab : option (list (string * option (list Z)))) : res (nat -> list Z) :=
  match lab with
  | None => Ok (fun _ => repeat 0%Z d)
  | Some l => fold_left (corner_bc_step d) l (Ok (fun _ => repeat 0%Z d))
  end.

(** A table over the edges filled in the order of the labels: 657-676, 722-738 *)
Section Fill.
Context {A V : Type}.
Variables (get : option V -> res A).  (* the value of an edge from the dictionary *)
Fixpoint fill (m : list (string * (nat * nat))) (lab : list (string * V)) (f : nat -> nat -> A) : res (nat -> nat -> A) :=
  match m with
  | [] => Ok f
  | (label, (i, j)) :: m' => rbind (get (gget String.eqb lab label)) (fun v => fill m' lab (set2 f i j v))
  end.
End Fill.
(** 617-682 *)
Inductive order_arg := ONone | OInt (z : Z) | ODict (l : list (string * option Z)) | OOther.
Definition edge_order (v : option (option Z)) : res Z :=
  match v with Some (Some z) => Ok (Z.max 0 z) | Some None => Err RuntimeError | None => Ok 0%Z end.
Definition build_edges_poly_orders (d : nat) (a : order_arg) : res (nat -> nat -> Z) :=
  match a with
  | ONone => Ok (fun _ _ => 0%Z)
  | OInt z => Ok (fun _ _ => Z.max 0 z)
  | ODict l => fill edge_order (edges_mapping d) l (fun _ _ => 0%Z)
  | OOther => Err RuntimeError
  end.
(** 684-747: a tuple of any length is stored *)
Inductive range_arg := RNone | RDict (l : list (string * option (list R))) | ROther.
Definition edge_range (v : option (option (list R))) : res (list R) :=
  match v with Some (Some t) => Ok t | Some None => Err RuntimeError | None => Ok [0; 0]%R end.
Definition build_edges_disp_range (d : nat) (a : range_arg) : res (nat -> nat -> list R) :=
  match a with
  | RNone => Ok (fun _ _ => [0; 0]%R)
  | RDict l => fill edge_range (edges_mapping d) l (fun _ _ => [])
  | ROther => Err RuntimeError
  end.

(** 1914-1930: [e] j k: node k of edge j along dimension i *)
Definition average_edge (d i : nat) (e : nat -> nat -> vec) (j k : nat) : vec := fun c =>
  (lsum (map (fun l => e l k c) (matching d i j)) / INR (length (matching d i j)))%R.

(** patch.py 675-739; degrees *)
Definition degrees (x : R) : R := (x * 180 / PI)%R.
Definition rotation_angle_2d (x1 x2 : R * R) : R :=
  degrees (atan2 (fst x1 * snd x2 - snd x1 * fst x2) (fst x1 * fst x2 + snd x1 * snd x2))%R.
Definition mean_rotation_angle_2d (a1 a2 : list (R * R)) : res (option R) :=
  if negb (Nat.eqb (length a1) (length a2)) then Err RuntimeError
  else Ok (match a1 with
           | [] => None
           | _ => Some (lsum (map (fun p => rotation_angle_2d (fst p) (snd p)) (combine a1 a2)) / INR (length a1))%R
           end).
