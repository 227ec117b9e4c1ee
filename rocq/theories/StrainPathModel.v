(** Model of the strain path generators.
    Sources: src/hookeai/data_generation/strain_paths/interface.py 73-160
    (component orders, build_strain_tensor), proportional_path.py 113-237,
    random_path.py 133-336.
    A path is a list of rows (one per time), a row a list of strain components.
    Simplifications: real arithmetic; the random final strain, the regression
    values and the noise are arguments; only the infinitesimal formulation
    (the other raises when increments are prescribed). *)
From Coq Require Import Reals List Arith Bool.
From Verif Require Import Lib HardeningModel.
Import ListNotations.
Local Open Scope R_scope.

(** proportional_path.py 118-133, 214-237; random_path.py 138-153, 313-336 *)
Definition n_forward (n_time n_cycle : nat) : nat := ((n_time - 1) / (2 * n_cycle) + 1)%nat.
(** strain_path[-2:0:-1] *)
Definition backward {A} (f : list A) : list A := rev (tl (removelast f)).
Fixpoint more_cycles {A} (f b : list A) (k : nat) (path : list A) : list A :=
  match k with O => path | S k' => more_cycles f b k' (path ++ f ++ b) end.
Definition cyclic {A} (n_time n_cycle : nat) (f : list A) : list A :=
  match f with
  | [] => []
  | init :: _ =>
    let p := more_cycles f (backward f) (n_cycle - 1) (f ++ backward f) ++ [init] in
    p ++ repeat init (n_time - length p)
  end.
(** the whole path from a generator of forward paths *)
Definition generate {A} (n_time n_cycle : nat) (forward : nat -> list A) : res (list A) :=
  if (0 <? n_cycle)%nat then
    if (n_time <? 2 * n_cycle + 1)%nat then Err RuntimeError
    else Ok (cyclic n_time n_cycle (forward (n_forward n_time n_cycle)))
  else Ok (forward n_time).

(** numpy.linspace(a, b, num=n) *)
Definition linspace (a b : R) (n : nat) : list R := map (fun i => a + INR i * ((b - a) / INR (n - 1))) (seq 0 n).
(** numpy.isclose(a, b) with default tolerances *)
Definition isclose (a b : R) : bool := rleb (Rabs (a - b)) (1 / 100000000 + 1 / 100000 * Rabs b).
Definition denormalise (l u x : R) : R := l + 1 / 2 * (u - l) * (x + 1).

(** proportional_path.py 139-168: history of one component; x is the sampled
    final strain (normalised) *)
Definition proportional_comp (l u x : R) (n : nat) : list R :=
  if isclose l u then linspace l l n
  else map (denormalise l u) (linspace (- (u + l) / (u - l)) x n).

Definition rmin_l (d : R) (h : list R) : R := fold_right Rmin d h.
Definition rmax_l (d : R) (h : list R) : R := fold_right Rmax d h.
(** random_path.py 238-264; the history is not empty, d is its first value *)
Definition bound_scale (l u d : R) (h : list R) : list R :=
  if rltb 0 (rmax_l (Rabs d) (map Rabs h)) then
    let mn := rmin_l d h in
    let mx := rmax_l d h in
    if rltb mn l || rltb u mx then
      let l_dist := if rltb mn l then Rabs (l - mn) else 0 in
      let u_dist := if rltb u mx then Rabs (u - mx) else 0 in
      let s := if rltb u_dist l_dist then Rabs (l / mn) else Rabs (u / mx) in
      map (Rmult s) h
    else h
  else h.
(** random_path.py 164-267: m is the regression of the control strains *)
Definition random_comp (l u : R) (m : list R) : list R :=
  let h := if isclose l u then linspace l l (length m) else map (denormalise l u) m in
  match h with [] => [] | d :: _ => bound_scale l u d h end.

(** interface.py 73-79, 97-160: symmetric orders *)
Definition comp_order (n_dim : nat) : list (nat * nat) :=
  (if Nat.eqb n_dim 2 then [(0, 0); (1, 1); (0, 1)] else [(0, 0); (1, 1); (2, 2); (0, 1); (1, 2); (0, 2)])%nat.
Definition tset (T : T2) (i j : nat) (v : R) : T2 := fun a b => if (Nat.eqb a i && Nat.eqb b j)%bool then v else T a b.
Definition build (order : list (nat * nat)) (row : list R) : T2 :=
  fold_left (fun T kc => let '((i, j), v) := kc in
               let T' := tset T i j v in if Nat.eqb i j then T' else tset T' j i v)
    (combine order row) (fun _ _ => 0).
Definition frob (n : nat) (T : T2) : R := sqrt (sum2 n (fun i j => T i j * T i j)).

(** proportional_path.py 174-199: prescribed norm of increments (None: the
    increment vanishes and the path contains NaN) *)
Definition enforce_row (n : nat) (c : R) (old trial : list R) : option (list R) :=
  let order := comp_order n in
  let e := build order trial in
  let e0 := build order old in
  let inc := fun i j => e i j - e0 i j in
  let nrm := frob n inc in
  if rltb 0 nrm then
    let s := fun i j => e0 i j + c * (inc i j / nrm) in
    Some (map (fun ij => s (fst ij) (snd ij)) order)
  else None.
Fixpoint enforce_from (n : nat) (c : R) (old : list R) (rows : list (list R)) : option (list (list R)) :=
  match rows with
  | [] => Some []
  | r :: t => match enforce_row n c old r with
              | None => None
              | Some r' => option_map (cons r') (enforce_from n c r' t)
              end
  end.
Definition enforce (n : nat) (c : R) (rows : list (list R)) : res (option (list (list R))) :=
  match rows with
  | [] => Ok (Some [])
  | [r] => Ok (Some [r])
  | r :: t => if rleb c 0 then Err RuntimeError else Ok (option_map (cons r) (enforce_from n c r t))
  end.
