(** Stress paths in the principal stress space (C130):
    user_scripts/synthetic_data/gen_response_dataset.py 1196-1545
    (plot_stress_space_metrics), for lists of stress paths.  The tensors are those
    of build_tensor_from_comps, the invariants those of
    compute_stress_invariants (ResponseModel); the eigenvalues of
    numpy.linalg.eig and the random order of the principal stresses are
    arguments.  None is NaN.
    Simplifications: exact arithmetic; j2**(3/2) is j2*sqrt(j2); a figure is the
    array passed to the plot function. *)
From Coq Require Import Reals List Bool Arith.
From Verif Require Import Lib PyDict MatrixSpec TensorModel TensorSpec ResponseModel YieldPlotModel.
Import ListNotations.
Local Open Scope list_scope.
Local Open Scope R_scope.

(** 1248: np.sort(eigenvalues)[::-1] *)
Definition sort_desc (e : R * R * R) : R * R * R :=
  let '(a, b, c) := e in
  (Rmax a (Rmax b c), Rmax (Rmin a b) (Rmin (Rmax a b) c), Rmin a (Rmin b c)).
(** 1306: np.matmul(rotation_matrix, stress_eigen) *)
Definition pi_stress (e : R * R * R) : R * R * R :=
  let '(a, b, c) := e in
  let p i := pi_rotation i 0%nat * a + pi_rotation i 1%nat * b + pi_rotation i 2%nat * c in (p 0%nat, p 1%nat, p 2%nat).
(** 1428-1440: triaxiality and Lode parameter *)
Definition triax_tol : R := 1 / 100000000.
Definition triax_lode (s : T2) : option (R * R) :=
  let '((i1, _, _), (_, j2, j3)) := compute_stress_invariants s in
  if Rlt_dec j2 triax_tol then None
  else Some (1 / 3 * i1 / sqrt (3 * j2), 3 * sqrt 3 / 2 * (j3 / (j2 * sqrt j2))).

(** Arrays of n_time_max rows of which those of the path are set *)
Definition pad {A} (z : A) (m : nat) (l : list A) : list A := l ++ repeat z (m - length l).
Definition n_time_max {A} (paths : list (list A)) : nat := list_max (map (@length A) paths).
(** a[:n, ...] = rows for an array of m rows: all rows, or one row for all *)
Definition fill {A} (z : option A) (m n : nat) (rows : list A) : res (list (option A)) :=
  if Nat.eqb (length rows) n then Ok (map Some rows ++ repeat z (m - n))
  else match rows with [r] => Ok (repeat (Some r) n ++ repeat z (m - n)) | _ => Err ValueError end.

Section Paths.
  Variable eig : T2 -> R * R * R.
  (** 1228-1260: principal stresses of the paths *)
  Definition principal_paths (paths : list (list T2)) : list (list (R * R * R)) :=
    map (fun p => pad (0, 0, 0) (n_time_max paths) (map (fun s => sort_desc (eig s)) p)) paths.
  (** 1262-1271: array of the principal stress plot, by path *)
  Definition principal_figure (paths : list (list T2)) : res (list (list (option (R * R * R)))) :=
    rmap (fun pq => fill None (n_time_max paths) (length (fst pq)) (snd pq)) (combine paths (principal_paths paths)).
  (** 1284-1330: arrays of the pi-stress plots; [order k] is the random order of
      path [k] *)
  Definition pi_figure (order : nat -> R * R * R -> R * R * R) (paths : list (list T2)) : res (list (list (option (R * R * R)))) :=
    rmap (fun kpq => let '(k, (p, q)) := kpq in
      let m := n_time_max paths in
      fill None m (length p) (pad (0, 0, 0) m (map (fun e => pi_stress (order k e)) (firstn (length p) q))))
      (combine (seq 0 (length paths)) (combine paths (principal_paths paths))).
End Paths.
(** 1346-1379: rows of the distributions of the stress invariants *)
Definition invariant_data (paths : list (list T2)) : list ((R * R * R) * (R * R * R)) :=
  concat (map (fun p => pad ((0, 0, 0), (0, 0, 0)) (n_time_max paths) (map compute_stress_invariants p)) paths).
(** 1413-1443: triaxiality and Lode parameter of the paths *)
Definition triax_paths (paths : list (list T2)) : list (list (option (R * R))) :=
  map (fun p => pad (Some (0, 0)) (n_time_max paths) (map triax_lode p)) paths.
(** 1446-1476: arrays of the plots over time, by path *)
Definition triax_figure (paths : list (list T2)) : res (list (list (option (option (R * R))))) :=
  rmap (fun pq => fill (Some (Some (0, 0))) (n_time_max paths) (length (fst pq)) (snd pq)) (combine paths (triax_paths paths)).
(** 1484-1490: rows of the distributions, without NaN *)
Definition triax_data (paths : list (list T2)) : list (R * R) :=
  flat_map (fun o => match o with Some x => [x] | None => [] end) (concat (triax_paths paths)).
