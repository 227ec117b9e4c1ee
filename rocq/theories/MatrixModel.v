(** Model of src/hookeai/simulators/fetorch/math/matrixops.py: storage of
    second- and fourth-order tensors in matricial form.

    Simplifications (whole file): a component string such as '12' is the pair
    of its digits (1,2), so the length-2 check of a component string holds by
    construction; tensors are index functions, so the shape check
    [tensor.shape[i] != n_dim] is not modelled; dtype and device are not
    modelled; list-of-sequences indexing is read as tuple indexing. *)
From Coq Require Import Reals List Arith Bool Lia.
From Verif Require Import Lib.
Import ListNotations.
Local Open Scope R_scope.

Notation comp := (nat * nat)%type.

Definition comp_eqb (a b : comp) : bool :=
  Nat.eqb (fst a) (fst b) && Nat.eqb (snd a) (snd b).

(** [x[::-1]] on a component string. *)
Definition comp_rev (c : comp) : comp := (snd c, fst c).

(** [int(x) - 1] for both digits. *)
Definition row (c : comp) : nat := fst c - 1.
Definition col (c : comp) : nat := snd c - 1.

(** Digits differ: an off-diagonal component. *)
Definition offdiag (c : comp) : bool := negb (Nat.eqb (fst c) (snd c)).

(** [comp_order.index(c)]; [None] is Python's ValueError. *)
Fixpoint index_of (c : comp) (order : list comp) : option nat :=
  match order with
  | [] => None
  | x :: t => if comp_eqb x c then Some O
              else match index_of c t with Some k => Some (S k) | None => None end
  end.

(** matrixops.py:50-82 get_problem_type_parameters:
    (n_dim, comp_order_sym, comp_order_nsym). *)
Definition order_sym_2d : list comp := [(1,1); (2,2); (1,2)]%nat.
Definition order_nsym_2d : list comp := [(1,1); (2,1); (1,2); (2,2)]%nat.
Definition order_sym_3d : list comp := [(1,1); (2,2); (3,3); (1,2); (2,3); (1,3)]%nat.
Definition order_nsym_3d : list comp :=
  [(1,1); (2,1); (3,1); (1,2); (2,2); (3,2); (1,3); (2,3); (3,3)]%nat.

Definition get_problem_type_parameters (problem_type : nat)
  : res (nat * list comp * list comp) :=
  match problem_type with
  | 1%nat => Ok (2%nat, order_sym_2d, order_nsym_2d)
  | 4%nat => Ok (3%nat, order_sym_3d, order_nsym_3d)
  | _ => Err RuntimeError
  end.

(** matrixops.py:134-137, 370-373: every digit in range(1, n_dim + 1). *)
Definition digits_ok (n : nat) (c : comp) : bool :=
  (Nat.leb 1 (fst c) && Nat.leb (fst c) n) && (Nat.leb 1 (snd c) && Nat.leb (snd c) n).

(** matrixops.py:143-145: dict.fromkeys(comp_order) keeps every component. *)
Fixpoint dup_free (order : list comp) : bool :=
  match order with
  | [] => true
  | c :: t => negb (existsb (comp_eqb c) t) && dup_free t
  end.

Definition order_ok (n : nat) (order : list comp) : bool :=
  forallb (digits_ok n) order && dup_free order.

(** sum(range(n_dim + 1)). *)
Definition sum_range (n : nat) : nat := fold_left Nat.add (seq 0 (n + 1)) O.

(** matrixops.py:147-154 (same block at 260-267, 381-388, 513-520). *)
Definition kelvin_flag (n : nat) (order : list comp) (is_kelvin : bool) : res bool :=
  if Nat.eqb (length order) (n * n) then Ok false
  else if Nat.eqb (length order) (sum_range n) then Ok is_kelvin
  else Err RuntimeError.

(** matrixops.py:175-177: Kelvin factor of a single component. *)
Definition kfac (k : bool) (c : comp) : R := if k && offdiag c then sqrt 2 else 1.

(** matrixops.py:203-209: Kelvin factor of a pair of components. *)
Definition kfac2 (k : bool) (c d : comp) : R :=
  if k && negb (negb (offdiag c) && negb (offdiag d)) then
    let f := 1 in
    let f := if offdiag c then f * sqrt 2 else f in
    if offdiag d then f * sqrt 2 else f
  else 1.

(** matrixops.py:86-178: get_tensor_mf for a second-order tensor. *)
Definition get_tensor_mf2 (t : T2) (n : nat) (order : list comp) (is_kelvin : bool)
  : res (list R) :=
  if negb (order_ok n order) then Err RuntimeError
  else rbind (kelvin_flag n order is_kelvin) (fun k =>
    Ok (fold_left (fun mf i =>
          let c := nth i order (0, 0)%nat in
          match index_of c order with
          | Some m => upd mf m (kfac k c * t (row c) (col c))
          | None => mf
          end)
        (seq 0 (length order)) (repeat 0 (length order)))).

(** Element assignment [m[i, j] = v] of a matrix stored as a list of rows. *)
Definition upd2 (m : list (list R)) (i j : nat) (v : R) : list (list R) :=
  upd m i (upd (nth i m []) j v).

(** matrixops.py:86-212: get_tensor_mf for a fourth-order tensor. *)
Definition get_tensor_mf4 (t : T4) (n : nat) (order : list comp) (is_kelvin : bool)
  : res (list (list R)) :=
  if negb (order_ok n order) then Err RuntimeError
  else rbind (kelvin_flag n order is_kelvin) (fun k =>
    Ok (fold_left (fun mf cd =>
          let c := fst cd in let d := snd cd in
          match index_of c order, index_of d order with
          | Some p, Some q =>
              upd2 mf p q (kfac2 k c d * t (row c) (col c) (row d) (col d))
          | _, _ => mf
          end)
        (list_prod order order)
        (repeat (repeat 0 (length order)) (length order)))).

(** matrixops.py:214-285: vget_tensor_mf for a second-order tensor. *)
Definition vget_tensor_mf2 (t : T2) (n : nat) (order : list comp) (is_kelvin : bool)
  : res (list R) :=
  rbind (kelvin_flag n order is_kelvin) (fun k =>
    Ok (map (fun c => t (row c) (col c) * kfac k c) order)).

(** matrixops.py:287-306: vget_tensor_mf for a fourth-order tensor. *)
Definition vget_tensor_mf4 (t : T4) (n : nat) (order : list comp) (is_kelvin : bool)
  : res (list (list R)) :=
  rbind (kelvin_flag n order is_kelvin) (fun k =>
    Ok (map (fun c => map (fun d =>
          t (row c) (col c) (row d) (col d) * (kfac k c * kfac k d)) order) order)).

(** In-place element assignments on tensors. *)
Definition set2 (t : T2) (i j : nat) (v : R) : T2 :=
  fun a b => if Nat.eqb a i && Nat.eqb b j then v else t a b.
Definition set4 (t : T4) (i j k l : nat) (v : R) : T4 :=
  fun a b c d => if Nat.eqb a i && Nat.eqb b j && Nat.eqb c k && Nat.eqb d l
                 then v else t a b c d.

Definition zero2 : T2 := fun _ _ => 0.
Definition zero4 : T4 := fun _ _ _ _ => 0.

(** matrixops.py:352-355, 361-364: admissible matricial form sizes. *)
Definition mf_size_ok (n len : nat) : bool :=
  Nat.eqb len (n * n) || Nat.eqb len (sum_range n).

(** matrixops.py:308-413: get_tensor_from_mf for a vector.  Reading an entry
    beyond the matricial form raises IndexError. *)
Definition get_tensor_from_mf2 (mf : list R) (n : nat) (order : list comp) (is_kelvin : bool)
  : res T2 :=
  if negb (mf_size_ok n (length mf)) then Err RuntimeError
  else if negb (order_ok n order) then Err RuntimeError
  else rbind (kelvin_flag n order is_kelvin) (fun k =>
    if Nat.ltb (length mf) (length order) then Err IndexError
    else Ok (fold_left (fun t i =>
      let c := nth i order (0, 0)%nat in
      match index_of c order with
      | Some m =>
          let f := kfac k c in
          let t1 := if k && offdiag c
                    then set2 t (col c) (row c) ((1 / f) * nth m mf 0) else t in
          set2 t1 (row c) (col c) ((1 / f) * nth m mf 0)
      | None => t
      end)
      (seq 0 (length order)) zero2)).

(** matrixops.py:308-459: get_tensor_from_mf for a matrix. *)
Definition get_tensor_from_mf4 (mf : list (list R)) (n : nat) (order : list comp)
  (is_kelvin : bool) : res T4 :=
  if negb (forallb (fun r => Nat.eqb (length r) (length mf)) mf) then Err RuntimeError
  else if negb (mf_size_ok n (length mf)) then Err RuntimeError
  else if negb (order_ok n order) then Err RuntimeError
  else rbind (kelvin_flag n order is_kelvin) (fun k =>
    if Nat.ltb (length mf) (length order) then Err IndexError
    else Ok (fold_left (fun t cd =>
      let c := fst cd in let d := snd cd in
      match index_of c order, index_of d order with
      | Some p, Some q =>
          let v := (1 / kfac2 k c d) * nth q (nth p mf []) 0 in
          let t1 :=
            if k && negb (negb (offdiag c) && negb (offdiag d)) then
              if offdiag c && offdiag d then
                set4 (set4 (set4 t (col c) (row c) (row d) (col d) v)
                           (row c) (col c) (col d) (row d) v)
                     (col c) (row c) (col d) (row d) v
              else if offdiag c then set4 t (col c) (row c) (row d) (col d) v
              else if offdiag d then set4 t (row c) (col c) (col d) (row d) v
              else t
            else t in
          set4 t1 (row c) (col c) (row d) (col d) v
      | _, _ => t
      end)
      (list_prod order order) zero4)).

(** matrixops.py:545-546: position of component (i,j) (row-major order) or of
    its transpose; [None] is Python's ValueError. *)
Definition sym_index (i j : nat) (order : list comp) : option nat :=
  match index_of (i + 1, j + 1)%nat order with
  | Some m => Some m
  | None => index_of (j + 1, i + 1)%nat order
  end.

(** All row-major components are found. *)
Definition sym_index_total (n : nat) (order : list comp) : bool :=
  forallb (fun i => forallb (fun j =>
    match sym_index i j order with Some _ => true | None => false end) (seq 0 n)) (seq 0 n).

(** matrixops.py:461-549: vget_tensor_from_mf for a vector.  torch.mul needs
    equal lengths (broadcasting of a length-1 tensor is not modelled). *)
Definition vget_tensor_from_mf2 (mf : list R) (n : nat) (order : list comp) (is_kelvin : bool)
  : res T2 :=
  rbind (kelvin_flag n order is_kelvin) (fun k =>
    if negb (Nat.eqb (length mf) (length order)) then Err RuntimeError
    else if negb (sym_index_total n order) then Err ValueError
    else Ok (fun i j =>
      match sym_index i j order with
      | Some m => nth m mf 0 * (1 / kfac k (nth m order (0,0)%nat))
      | None => 0
      end)).

(** matrixops.py:551-572: vget_tensor_from_mf for a matrix. *)
Definition vget_tensor_from_mf4 (mf : list (list R)) (n : nat) (order : list comp)
  (is_kelvin : bool) : res T4 :=
  rbind (kelvin_flag n order is_kelvin) (fun k =>
    if negb (Nat.eqb (length mf) (length order)
             && forallb (fun r => Nat.eqb (length r) (length order)) mf)
    then Err RuntimeError
    else if negb (sym_index_total n order) then Err ValueError
    else Ok (fun i j a b =>
      match sym_index i j order, sym_index a b order with
      | Some p, Some q =>
          nth q (nth p mf []) 0
          * ((1 / kfac k (nth p order (0,0)%nat)) * (1 / kfac k (nth q order (0,0)%nat)))
      | _, _ => 0
      end)).

(** matrixops.py:631-683: get_state_3Dmf_from_2Dmf.  [None] entries of
    comp_order.index cannot occur for the fixed orders; they are mapped to the
    unchanged vector. *)
Definition pick_orders (sym : bool) : list comp * list comp :=
  if sym then (order_sym_2d, order_sym_3d) else (order_nsym_2d, order_nsym_3d).

Definition get_state_3Dmf_from_2Dmf (problem_type : nat) (mf2 : list R) (c33 : R)
  : res (list R) :=
  let '(o2, o3) := pick_orders (Nat.eqb (length mf2) 3) in
  if Nat.eqb problem_type 3 || Nat.eqb problem_type 4 then Err RuntimeError
  else if Nat.ltb (length mf2) (length o2) then Err IndexError
  else
    let filled := fold_left (fun mf i =>
        match index_of (nth i o2 (0,0)%nat) o3 with
        | Some m => upd mf m (nth i mf2 0) | None => mf end)
      (seq 0 (length o2)) (repeat 0 (length o3)) in
    match index_of (3,3)%nat o3 with
    | Some m => Ok (upd filled m c33) | None => Err ValueError end.

(** matrixops.py:685-732: vget_state_3Dmf_from_2Dmf. *)
Definition vget_state_3Dmf_from_2Dmf (mf2 : list R) (c33 : R) : res (list R) :=
  let '(o2, o3) := pick_orders (Nat.eqb (length mf2) 3) in
  if Nat.ltb (length mf2) (length o2) then Err IndexError
  else match index_of (3,3)%nat o3 with
       | None => Err ValueError
       | Some m33 =>
         Ok (map (fun p => let '(i, x) := p in
               (match index_of x o2 with Some m => nth m mf2 0 | None => 0 end)
               + c33 * (if Nat.eqb i m33 then 1 else 0))
             (combine (seq 0 (length o3)) o3))
       end.

(** matrixops.py:734-777 (vector) get_state_2Dmf_from_3Dmf. *)
Definition get_state_2Dmf_from_3Dmf (mf3 : list R) : res (list R) :=
  let '(o2, o3) := pick_orders (Nat.eqb (length mf3) 6) in
  if Nat.ltb (length mf3) (length o3) then Err IndexError
  else Ok (fold_left (fun mf i =>
        match index_of (nth i o2 (0,0)%nat) o3 with
        | Some m => upd mf i (nth m mf3 0) | None => mf end)
      (seq 0 (length o2)) (repeat 0 (length o2))).

(** matrixops.py:788-826 (vector) vget_state_2Dmf_from_3Dmf. *)
Definition vget_state_2Dmf_from_3Dmf (mf3 : list R) : res (list R) :=
  let '(o2, o3) := pick_orders (Nat.eqb (length mf3) 6) in
  if Nat.ltb (length mf3) (length o3) then Err IndexError
  else Ok (map (fun x => match index_of x o3 with
                         | Some m => nth m mf3 0 | None => 0 end) o2).

(** matrixops.py:778-786 and 827-829 (matrix): rows and columns of the 2D
    components. *)
Definition get_state_2Dmf_from_3Dmf_mat (mf3 : list (list R)) : res (list (list R)) :=
  let '(o2, o3) := pick_orders (Nat.eqb (length mf3) 6) in
  if Nat.ltb (length mf3) (length o3) then Err IndexError
  else Ok (fold_left (fun mf ji =>
        let j := fst ji in let i := snd ji in
        match index_of (nth i o2 (0,0)%nat) o3, index_of (nth j o2 (0,0)%nat) o3 with
        | Some p, Some q => upd2 mf i j (nth q (nth p mf3 []) 0)
        | _, _ => mf end)
      (list_prod (seq 0 (length o2)) (seq 0 (length o2)))
      (repeat (repeat 0 (length o2)) (length o2))).

Definition vget_state_2Dmf_from_3Dmf_mat (mf3 : list (list R)) : res (list (list R)) :=
  let '(o2, o3) := pick_orders (Nat.eqb (length mf3) 6) in
  if Nat.ltb (length mf3) (length o3) then Err IndexError
  else Ok (map (fun x => map (fun y =>
        match index_of x o3, index_of y o3 with
        | Some p, Some q => nth q (nth p mf3 []) 0 | _, _ => 0 end) o2) o2).

(** matrixops.py:574-627: kelvin_factor for one component index. *)
Definition kelvin_factor1 (idx : nat) (order : list comp) : R :=
  if Nat.eqb (length order) 4 || Nat.eqb (length order) 9 then 1
  else if offdiag (nth idx order (0,0)%nat) then sqrt 2 else 1.
