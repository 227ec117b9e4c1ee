(** Model of the random deformation of a material patch.
    Source: src/hookeai/data_generation/spdg/patch_generator.py
      475-615 (corner boundary conditions and displacement ranges), 749-854
      (corners, edges, matching edges), 884-981
      (_get_corners_random_displacements), 983-1199
      (_get_deformed_boundary_edge), 1201-1296 (_polynomial_sampler), 1298-1365
      (_get_random_rigid_motions), 1510-1714 (edge frames and transformations),
      1844-1991 (_get_mesh_boundary_nodes_disps), 1993-2022
      (_get_node_label_from_coords), 2024-2088 (rotation_tensor_from_euler_angles)
      and 288-473 (loop of generate_deformed_patch).
    The mesh itself is the subject of RegularMeshModel.
    Points and vectors are functions of the component; [d] is the number of
    dimensions (2 or 3).  Every random number is an argument: [u] in [0, 1] for
    np.random.uniform, any real for the standard normal draws; the sampled values
    are indexed by what they are used for instead of by the order of the draws.
    Simplifications: real arithmetic; a null norm (division by zero, NaN in the
    code, refused by the orthogonality check) is RuntimeError; the orthogonality
    check itself is not repeated (it holds exactly, see edge_frame_orthonormal);
    np.linalg.solve and the predicates of shapely (centroid, validity and
    orientation of the polygon) are arguments; plots, printing and the types of
    the user's dictionaries are not modelled, nor is the averaging of the edges
    that share their corners in three dimensions (1914-1930). *)
From Coq Require Import Reals List Arith Bool.
From Verif Require Import Lib PyDict HardeningModel.
Import ListNotations.
Local Open Scope R_scope.
Local Open Scope list_scope.

Definition vec := nat -> R.
Definition vadd (a b : vec) : vec := fun j => a j + b j.
Definition vsub (a b : vec) : vec := fun j => a j - b j.
Definition vscale (s : R) (a : vec) : vec := fun j => s * a j.
Definition dot (n : nat) (a b : vec) : R := rsum n (fun j => a j * b j).
(** np.linalg.norm *)
Definition norm (n : nat) (a : vec) : R := sqrt (dot n a a).
(** np.matmul(r, x) *)
Definition mv (n : nat) (r : T2) (x : vec) : vec := fun i => rsum n (fun j => r i j * x j).
Definition transpose (r : T2) : T2 := fun i j => r j i.
(** np.cross *)
Definition cross (a b : vec) : vec := fun j =>
  match j with 0%nat => a 1%nat * b 2%nat - a 2%nat * b 1%nat
             | 1%nat => a 2%nat * b 0%nat - a 0%nat * b 2%nat
             | _ => a 0%nat * b 1%nat - a 1%nat * b 0%nat end.

(** 2024-2088: np.radians and the rotation tensor *)
Definition radians (x : R) : R := x * PI / 180.
Definition rotation_tensor_from_euler_angles (a b g : R) : T2 :=
  let s1 := sin (radians a) in let s2 := sin (radians b) in let s3 := sin (radians g) in
  let c1 := cos (radians a) in let c2 := cos (radians b) in let c3 := cos (radians g) in
  fun i j => match i, j with
  | 0%nat, 0%nat => c1 * c3 - c2 * s1 * s3
  | 1%nat, 0%nat => c3 * s1 + c1 * c2 * s3
  | 2%nat, 0%nat => s2 * s3
  | 0%nat, 1%nat => - c1 * s3 - c2 * c3 * s1
  | 1%nat, 1%nat => c1 * c2 * c3 - s1 * s3
  | 2%nat, 1%nat => c3 * s2
  | 0%nat, 2%nat => s1 * s2
  | 1%nat, 2%nat => - c1 * s2
  | 2%nat, 2%nat => c2
  | _, _ => 0
  end.

(** ** Corners and edges *)
(** 756-777 *)
Definition corner_coords (dims : vec) (c : nat) : vec := fun j =>
  match j with
  | 0%nat => if existsb (Nat.eqb c) [1; 2; 5; 6]%nat then dims 0%nat else 0
  | 1%nat => if existsb (Nat.eqb c) [2; 3; 6; 7]%nat then dims 1%nat else 0
  | _ => if existsb (Nat.eqb c) [4; 5; 6; 7]%nat then dims 2%nat else 0
  end.
(** 781-808 *)
Definition edges (d i : nat) : list (nat * nat) :=
  if Nat.eqb d 2 then nth i [ [(0,1);(3,2)]; [(0,3);(1,2)] ]%nat []
  else nth i [ [(0,1);(3,2);(4,5);(7,6);(0,1);(4,5);(3,2);(7,6)];
               [(0,3);(1,2);(4,7);(5,6);(0,3);(4,7);(1,2);(5,6)];
               [(0,4);(3,7);(1,5);(2,6);(0,4);(1,5);(3,7);(2,6)] ]%nat [].
Definition edges_diag (d i : nat) : list (nat * nat) :=
  if Nat.eqb d 2 then nth i [ [(0,2);(3,1)]; [(0,2);(1,3)] ]%nat []
  else nth i [ [(0,2);(3,1);(4,6);(7,5);(0,5);(4,1);(3,6);(7,2)];
               [(0,2);(1,3);(4,6);(5,7);(0,7);(4,3);(1,6);(5,2)];
               [(0,7);(3,4);(1,6);(2,5);(0,5);(1,4);(3,6);(2,7)] ]%nat [].
Definition pair_eqb (p q : nat * nat) : bool := Nat.eqb (fst p) (fst q) && Nat.eqb (snd p) (snd q).
(** 823-854: the indices of the edges with the corners of edge j *)
Definition matching (d i j : nat) : list nat :=
  filter (fun k => pair_eqb (nth k (edges d i) (0, 0)%nat) (nth j (edges d i) (0, 0)%nat)) (seq 0 (length (edges d i))).
(** 1510-1525 *)
Definition orthogonal_dims (d i : nat) : list nat := filter (fun k => negb (Nat.eqb k i)) (seq 0 d).

(** ** Corner displacements *)
(** 563-615: [lab]: the ranges given for some corners, [bc]: 1 for fixed *)
Definition build_corners_disp_range (lab : nat -> option (nat -> R * R)) (bc : nat -> nat -> bool) (c j : nat) : R * R :=
  if bc c j then (0, 0) else match lab c with Some r => r j | None => (0, 0) end.
Definition uniform (b : R * R) (u : R) : R := fst b + (snd b - fst b) * u.
(** 942-966 *)
Definition zero_order_disp (range_l range_r : R * R) (ul ur : R) : R :=
  let min_max := Rmin (snd range_l) (snd range_r) in
  let max_min := Rmax (fst range_l) (fst range_r) in
  if rltb max_min min_max then uniform (max_min, min_max) ul
  else (uniform range_l ul + uniform range_r ur) / 2.
Definition set2 {A} (f : nat -> nat -> A) (a b : nat) (v : A) : nat -> nat -> A :=
  fun x y => if Nat.eqb x a && Nat.eqb y b then v else f x y.
(** 935-979: one edge; the state is the displacements and the orders *)
Definition corner_edge_step (d : nat) (rg : nat -> nat -> R * R) (u : nat -> nat -> nat -> R * R) (i j : nat)
    (st : (nat -> nat -> R) * (nat -> nat -> nat)) : (nat -> nat -> R) * (nat -> nat -> nat) :=
  let '(disp, orders) := st in
  let '(ci, ce) := nth j (edges d i) (0, 0)%nat in
  if Nat.eqb (orders i j) 0 then
    (fold_left (fun dp k =>
        let v := zero_order_disp (rg ci k) (rg ce k) (fst (u i j k)) (snd (u i j k)) in
        set2 (set2 dp ci k v) ce k v) (orthogonal_dims d i) disp,
     fold_left (fun o k => set2 o i k 0%nat) (matching d i j) orders)
  else st.
(** 912-981; [u0], [u]: the uniform draws *)
Definition corners_random_displacements (d : nat) (rg : nat -> nat -> R * R) (orders : nat -> nat -> nat)
    (u0 : nat -> nat -> R) (u : nat -> nat -> nat -> R * R) : (nat -> nat -> R) * (nat -> nat -> nat) :=
  fold_left (fun st i => fold_left (fun st j => corner_edge_step d rg u i j st) (seq 0 (length (edges d i))) st)
    (seq 0 d) (fun c j => uniform (rg c j) (u0 c j), orders).

(** ** Deformed edges *)
(** np.linspace(a, b, num=n)[k] *)
Definition linspace (a b : R) (n k : nat) : R := a + INR k * ((b - a) / INR (n - 1)).
(** 269-286 *)
Definition edge_ref (dims : vec) (n : nat) (e : nat * nat) (k : nat) : vec :=
  fun j => linspace (corner_coords dims (fst e) j) (corner_coords dims (snd e) j) n k.
(** 1549-1590; in two dimensions a null third component is appended *)
Definition pad (d : nat) (a : vec) : vec := fun j => if Nat.ltb j d then a j else 0.
Definition edge_frame (d : nat) (corners_def : nat -> vec) (i j : nat) : res T2 :=
  let '(ci, ce) := nth j (edges d i) (0, 0)%nat in
  let '(di, de) := nth j (edges_diag d i) (0, 0)%nat in
  let e := vsub (corners_def ce) (corners_def ci) in
  let g := vsub (corners_def de) (corners_def di) in
  if Req_EM_T (norm d e) 0 then Err RuntimeError
  else if Req_EM_T (norm d g) 0 then Err RuntimeError
  else
    let edge_dir := pad d (vscale (1 / norm d e) e) in
    let diag_dir := pad d (vscale (1 / norm d g) g) in
    let oop := cross diag_dir edge_dir in
    if Req_EM_T (norm 3 oop) 0 then Err RuntimeError
    else
      let oop_dir := vscale (1 / norm 3 oop) oop in
      let orth_dir := vscale (-1) (cross edge_dir oop_dir) in
      Ok (fun r => match r with 0%nat => edge_dir | 1%nat => orth_dir | _ => oop_dir end).

(** 1081-1083 *)
Definition polynomial (coefs : list R) (x : R) : R := lsum (map (fun i => nth i coefs 0 * x ^ i) (seq 0 (length coefs))).
(** 1085-1088 *)
Definition linear_coord_map (x1 l1 u1 l2 u2 : R) : R := l2 + (u2 - l2) / (u1 - l1) * (x1 - l1).
(** 1231-1265; points are pairs; [u]: the uniform draws *)
Definition control_points (order : nat) (left right : R * R) (bounds : R * R) (u : nat -> R) : list (R * R) :=
  let n_int := (order - 1)%nat in
  [left; right] ++ map (fun i => (linspace (fst left) (fst right) (2 + n_int) (S i), uniform bounds (u i))) (seq 0 n_int).
Definition polynomial_sampler (solve : list (list R) -> list R -> list R) (order : nat) (left right bounds : R * R) (u : nat -> R) : list R :=
  let pts := control_points order left right bounds u in
  solve (map (fun p => map (fun k => fst p ^ k) (seq 0 (length pts))) pts) (map snd pts).
(** 1091-1113: points of the polynomial and fractions of its length *)
Section Curve.
  Variables (coefs : list R) (left right : R * R) (n_points : nat).
  Definition point_step : R := 1 / INR (n_points - 1).
  Definition param_x (t : R) : R := linear_coord_map t 0 1 (fst left) (fst right).
  Definition chord (i : nat) : R :=
    let xl := param_x (INR i * point_step) in let xr := param_x (INR (S i) * point_step) in
    sqrt ((xr - xl) * (xr - xl) + (polynomial coefs xr - polynomial coefs xl) * (polynomial coefs xr - polynomial coefs xl)).
  Definition frac_point (i : nat) : R := 1 / rsum (n_points - 1) chord * rsum i chord.
  (** 1141-1157: np.searchsorted(side='right') counts the values up to v *)
  Definition search (v : R) : nat := length (filter (fun p => rleb (frac_point p) v) (seq 0 n_points)).
  Definition node_param (v : R) : R :=
    let r := search v in let l := (r - 1)%nat in
    INR l * point_step + (v - frac_point l) / (frac_point r - frac_point l) * point_step.
  Definition node_at (v : R) : R * R := let x := param_x (node_param v) in (x, polynomial coefs x).
End Curve.
(** 1091 *)
Definition n_poly_points : nat := 1000.
(** 1035-1056, 1115-1177: the nodes of the edge in the plane; [ref]: the local
    reference coordinates, [std]: the noise standard deviations (|noise| * patch
    dimension), [normal]: the standard normal draws *)
Definition ascending (n : nat) (ref : nat -> R * R) : bool := forallb (fun k => rleb (fst (ref k)) (fst (ref (S k)))) (seq 0 (n - 1)).
Definition descending (n : nat) (ref : nat -> R * R) : bool := forallb (fun k => rleb (fst (ref (S k))) (fst (ref k))) (seq 0 (n - 1)).
Definition dist2 (p q : R * R) : R := sqrt ((fst q - fst p) * (fst q - fst p) + (snd q - snd p) * (snd q - snd p)).
Definition deformed_edge (solve : list (list R) -> list R -> list R) (n_points n : nat) (ref : nat -> R * R) (left right : R * R) (order : nat)
    (rng : R * R) (u : nat -> R) (std : R * R) (normal : nat -> R * R) : res (nat -> R * R) :=
  if rleb (fst right) (fst left) then Err RuntimeError
  else if negb (ascending n ref) && negb (descending n ref) then Err RuntimeError
  else
    let ref' := if ascending n ref then ref else fun k => ref (n - 1 - k)%nat in
    let ref_coord := (snd left + snd right) / 2 in
    let coefs := polynomial_sampler solve order left right (ref_coord + fst rng, ref_coord + snd rng) u in
    let lengths := fun k => dist2 (ref' k) (ref' (S k)) in
    let frac := fun k => 1 / rsum (n - 1) lengths * rsum k lengths in
    Ok (fun k =>
      if Nat.eqb k 0 then left
      else if Nat.eqb k (n - 1) then right
      else let p := node_at coefs left right n_points (frac k) in
           (fst p + fst std * fst (normal k), snd p + snd std * snd (normal k))).

(** 318-391: edge j along dimension i; [order], [rng], [u], [normal]: of the edge *)
Definition to_local (d : nat) (r : T2) (init x : vec) : vec := vsub (mv d r x) (mv d r init).
Definition from_local (d : nat) (r : T2) (init y : vec) : vec := vadd (mv d (transpose r) y) init.
Definition edge_def (solve : list (list R) -> list R -> list R) (d : nat) (dims : vec) (noise : R) (n : nat) (corners_def : nat -> vec) (i j order : nat)
    (rng : R * R) (u : nat -> R) (normal : nat -> R * R) : res (nat -> vec) :=
  rbind (edge_frame d corners_def i j) (fun r =>
  let e := nth j (edges d i) (0, 0)%nat in
  let init := corners_def (fst e) in
  let plane := fun x : vec => (x 0%nat, x 1%nat) in
  let loc := fun x => plane (to_local d r init x) in
  rbind (deformed_edge solve n_poly_points n (fun k => loc (edge_ref dims n e k)) (loc init) (loc (corners_def (snd e))) order rng u
           (Rabs noise * dims 0%nat, Rabs noise * dims 1%nat) normal) (fun nodes =>
  Ok (fun k => from_local d r init (fun c => match c with 0%nat => fst (nodes k) | 1%nat => snd (nodes k) | _ => 0 end)))).

(** ** Rigid body motion *)
(** 402-425; None: no range was given.  The tests read the rotation and the
    translation of the last edge instead of those of the rigid motion, and are
    always true; None is then subscripted or added, a TypeError *)
Definition rigid_motion (d : nat) (centroid : vec) (rotation : option T2) (translation : option vec) (x : vec) : res vec :=
  match rotation with
  | None => Err TypeError
  | Some r =>
    let y := vadd centroid (mv d r (vsub x centroid)) in
    match translation with
    | None => Err TypeError
    | Some t => Ok (vadd y t)
    end
  end.

(** ** Displacements of the boundary nodes of the mesh *)
(** np.allclose(a, b) *)
Definition allclose (d : nat) (a b : vec) : bool :=
  forallb (fun j => rleb (Rabs (a j - b j)) (/ 10 ^ 8 + / 10 ^ 5 * Rabs (b j))) (seq 0 d).
(** 1993-2022: the last label whose coordinates are close *)
Definition node_label_from_coords (d : nat) (coords : list (nat * vec)) (x : vec) : res nat :=
  match fold_left (fun found lc => if allclose d x (snd lc) then Some (fst lc) else found) coords None with
  | Some l => Ok l
  | None => Err RuntimeError
  end.
(** 1900-1911 and 1932-1943: the nodes of one edge *)
Fixpoint edge_disps (d : nat) (coords : list (nat * vec)) (nodes : list (vec * vec)) (acc : list (nat * vec)) : res (list (nat * vec)) :=
  match nodes with
  | [] => Ok acc
  | (xref, xdef) :: rest =>
    rbind (node_label_from_coords d coords xref) (fun l =>
    edge_disps d coords rest
      (match gget Nat.eqb acc l with Some _ => acc | None => gset Nat.eqb acc l (vsub xdef xref) end))
  end.
Fixpoint edges_disps (d : nat) (coords : list (nat * vec)) (es : list (list (vec * vec))) (acc : list (nat * vec)) : res (list (nat * vec)) :=
  match es with
  | [] => Ok acc
  | e :: rest => rbind (edge_disps d coords e acc) (fun acc' => edges_disps d coords rest acc')
  end.
(** 1956-1989: one face with n1 x n2 labels (0: no node) *)
Definition lookup (acc : list (nat * vec)) (l : nat) : res vec :=
  match gget Nat.eqb acc l with Some v => Ok v | None => Err KeyError end.
Definition face_step (face : nat -> nat -> nat) (n1 n2 : nat) (acc : list (nat * vec)) (ij : nat * nat) : res (list (nat * vec)) :=
  let '(i, j) := ij in
  if Nat.eqb (face i j) 0 then Ok acc
  else
    rbind (lookup acc (face 0%nat j)) (fun a => rbind (lookup acc (face (n1 - 1)%nat j)) (fun b =>
    rbind (lookup acc (face i 0%nat)) (fun a' => rbind (lookup acc (face i (n2 - 1)%nat)) (fun b' =>
    let s := INR i / INR n1 in let t := INR j / INR n2 in
    let disp_1 := vadd (vscale (1 - s) a) (vscale s b) in
    let disp_2 := vadd (vscale (1 - t) a') (vscale t b') in
    Ok (match gget Nat.eqb acc (face i j) with
        | Some _ => acc
        | None => gset Nat.eqb acc (face i j) (vscale (1 / 2) (vadd disp_1 disp_2))
        end))))).
Definition face_disps (face : nat -> nat -> nat) (n1 n2 : nat) (acc : list (nat * vec)) : res (list (nat * vec)) :=
  rfold (face_step face n1 n2) (flat_map (fun j => map (fun i => (i, j)) (seq 1 (n1 - 1))) (seq 1 (n2 - 1))) acc.

(** ** The generation loop *)
(** 1298-1365: ranges of the components that are given; in two dimensions only
    alpha is sampled *)
Definition sampled (rng : option (R * R)) (u : R) : R := match rng with Some b => uniform b u | None => 0 end.
Definition random_translation (rng : option (nat -> option (R * R))) (u : nat -> R) : option vec :=
  match rng with None => None | Some f => Some (fun j => sampled (f j) (u j)) end.
Definition random_rotation (d : nat) (rng : option (nat -> option (R * R))) (u : nat -> R) : option T2 :=
  match rng with
  | None => None
  | Some f =>
    let angle := fun k => if Nat.eqb d 2 && negb (Nat.eqb k 0) then 0 else sampled (f k) (u k) in
    Some (rotation_tensor_from_euler_angles (angle 0%nat) (angle 1%nat) (angle 2%nat))
  end.
(** The random numbers of one iteration. *)
Record draws := { u_corner : nat -> nat -> R; u_zero : nat -> nat -> nat -> R * R; u_poly : nat -> nat -> nat -> R;
  z_noise : nat -> nat -> nat -> R * R; u_trans : nat -> R; u_rot : nat -> R }.
(** The settings of the user and the values computed before the loop. *)
Record settings := { s_solve : list (list R) -> list R -> list R; s_dims : vec; s_noise : R; s_nodes : nat -> nat;
  s_range : nat -> nat -> R * R; s_edge_range : nat -> nat -> R * R;
  s_translation : option (nat -> option (R * R)); s_rotation : option (nat -> option (R * R));
  s_centroid : (nat -> vec) -> list (list vec) -> vec; s_admissible : list (list vec) -> bool }.
Definition all_edges (d : nat) : list (nat * nat) :=
  flat_map (fun i => map (fun j => (i, j)) (seq 0 (length (edges d i)))) (seq 0 d).
(** 302-425: one iteration, the orders are updated in place *)
Definition attempt (d : nat) (s : settings) (dr : draws) (orders : nat -> nat -> nat) : res ((nat -> nat -> nat) * list (list vec)) :=
  let '(disp, orders') := corners_random_displacements d (s_range s) orders (u_corner dr) (u_zero dr) in
  let corners_def := fun c => vadd (corner_coords (s_dims s) c) (disp c) in
  rbind (rmap (fun ij : nat * nat => let '(i, j) := ij in
           rbind (edge_def (s_solve s) d (s_dims s) (s_noise s) (s_nodes s i) corners_def i j (orders' i j) (s_edge_range s i j) (u_poly dr i j) (z_noise dr i j))
             (fun nodes => Ok (map nodes (seq 0 (s_nodes s i))))) (all_edges d)) (fun es =>
  let c := s_centroid s corners_def es in
  rbind (rmap (rmap (rigid_motion d c (random_rotation d (s_rotation s) (u_rot dr)) (random_translation (s_translation s) (u_trans dr)))) es) (fun es' =>
  Ok (orders', es'))).
(** 292-473, before the mesh: whether an iteration is admissible, and its edges *)
Fixpoint generate_loop (d : nat) (s : settings) (dr : nat -> draws) (k fuel : nat) (orders : nat -> nat -> nat) : res (option (list (list vec))) :=
  match fuel with
  | O => Ok None
  | S f =>
    rbind (attempt d s (dr k) orders) (fun r =>
    if s_admissible s (snd r) then Ok (Some (snd r)) else generate_loop d s dr (S k) f (fst r))
  end.
(** 1889-1911 (two dimensions): the displacements of the boundary nodes *)
Definition boundary_disps_2d (s : settings) (coords : list (nat * vec)) (es : list (list vec)) : res (list (nat * vec)) :=
  edges_disps 2 coords
    (map (fun p => combine (map (edge_ref (s_dims s) (s_nodes s (fst (fst p))) (nth (snd (fst p)) (edges 2 (fst (fst p))) (0, 0)%nat))
                            (seq 0 (s_nodes s (fst (fst p))))) (snd p))
         (combine (all_edges 2) es)) [].
