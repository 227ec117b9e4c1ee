(** Boundary of a two-dimensional patch and connected nodes (C125):
    - data_generation/spdg/patch_generator.py 1367-1402 (_get_patch_centroid),
      1404-1469 (_build_boundary_coords_array), 1471-1508
      (_is_admissible_simulation);
    - data_generation/spdg/patch.py 240-273 (get_mesh_connected_nodes).
    shapely: the centroid of a polygon is that of its area, a ring is
    counter-clockwise if its signed area is positive, and validity (no
    self-intersection) is a given function of the ring. *)
From Coq Require Import String Reals List Bool Arith.
From Verif Require Import Lib DeformModel PatchOptModel.
Import ListNotations.
Local Open Scope list_scope.

Section Boundary.
  Context {P : Type}.
  (** 1437: edges by corners *)
  Definition edges_clockwise : list (nat * nat) := [(0, 1); (1, 2); (2, 3); (3, 0)]%nat.
  Definition same_set (a b : nat * nat) : bool := pair_eqb a b || pair_eqb a (snd b, fst b).
  (** 1438-1462: the part of one edge *)
  Definition edge_part (ec : nat -> nat -> list P) (target : nat * nat) (ij : nat * nat) : list P :=
    let corners := nth (snd ij) (edges 2 (fst ij)) (0, 0)%nat in
    if same_set target corners then removelast (if negb (pair_eqb target corners) then rev (ec (fst ij) (snd ij)) else ec (fst ij) (snd ij)) else [].
  (** 1404-1469 *)
  Definition boundary_coords (d : nat) (ec : nat -> nat -> list P) (close : bool) : res (list P) :=
    if Nat.eqb d 2 then
      let body := flat_map (fun target => flat_map (fun m => edge_part ec target (snd m)) (edges_mapping 2)) edges_clockwise in
      Ok (if close then body ++ firstn 1 body else body)
    else Err RuntimeError.
End Boundary.

(** Consecutive points of a ring *)
Definition segments {P} (l : list P) : list (P * P) := combine l (tl l).
Definition pt := (R * R)%type.
Definition cross2 (p q : pt) : R := (fst p * snd q - fst q * snd p)%R.
Definition seg_sum (f : pt -> pt -> R) (l : list pt) : R := lsum (map (fun s => f (fst s) (snd s)) (segments l)).
(** signed area and centroid of a closed ring *)
Definition area (l : list pt) : R := (seg_sum cross2 l / 2)%R.
Definition centroid_of (l : list pt) : pt :=
  ((seg_sum (fun p q => cross2 p q * (fst p + fst q)) l / (6 * area l))%R, (seg_sum (fun p q => cross2 p q * (snd p + snd q)) l / (6 * area l))%R).
(** 1367-1402, two dimensions *)
Definition patch_centroid (ec : nat -> nat -> list pt) : res pt := rbind (boundary_coords 2 ec true) (fun l => Ok (centroid_of l)).
Definition rltb (a b : R) : bool := if Rlt_dec a b then true else false.
(** 1471-1508 *)
Definition is_admissible (is_valid : list pt -> bool) (d : nat) (ec : nat -> nat -> list pt) : res bool :=
  if Nat.eqb d 2 then rbind (boundary_coords 2 ec true) (fun l => Ok (is_valid l && rltb 0 (area l))) else Ok true.

(** patch.py 240-273: [m]: the nodes matrix of shape (n0, n1), 0 where there is no node *)
Definition connected_nodes (d : nat) (m : nat -> nat -> nat) (n0 n1 : nat) : res (list (nat * nat)) :=
  if Nat.eqb d 2 then
    let pair a b := if negb (Nat.eqb a 0) && negb (Nat.eqb b 0) then [(a, b)] else [] in
    Ok (flat_map (fun j => flat_map (fun i => pair (m i j) (m (S i) j)) (seq 0 (n0 - 1))) (seq 0 n1) ++
        flat_map (fun i => flat_map (fun j => pair (m i j) (m i (S j))) (seq 0 (n1 - 1))) (seq 0 n0))
  else Err RuntimeError.
