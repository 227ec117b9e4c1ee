(** Model of src/hookeai/simulators/fetorch/math/voigt_notation.py and of
    src/hookeai/simulators/fetorch/math/tensorops.py.

    Simplifications: as in MatrixModel.v (components are digit pairs, tensors
    are index functions, type/shape checks, dtype and device not modelled). *)
From Coq Require Import Reals List Arith Bool Lia.
From Verif Require Import Lib MatrixModel.
Import ListNotations.
Local Open Scope R_scope.

(** voigt_notation.py:91-93: Voigt factor of a component. *)
Definition vfac (c : comp) : R := if offdiag c then 2 else 1.

(** voigt_notation.py:35-97: get_strain_from_vmf.  Reading beyond the vector
    raises IndexError. *)
Definition get_strain_from_vmf (vmf : list R) (n : nat) (order : list comp) : res T2 :=
  if negb (order_ok n order) then Err RuntimeError
  else if Nat.ltb (length vmf) (length order) then Err IndexError
  else Ok (fold_left (fun t i =>
      let c := nth i order (0, 0)%nat in
      match index_of c order with
      | Some m =>
          let t1 := if offdiag c
                    then set2 t (col c) (row c) ((1 / vfac c) * nth m vmf 0) else t in
          set2 t1 (row c) (col c) ((1 / vfac c) * nth m vmf 0)
      | None => t
      end)
      (seq 0 (length order)) zero2).

(** voigt_notation.py:99-139: vget_strain_from_vmf. *)
Definition vget_strain_from_vmf (vmf : list R) (n : nat) (order : list comp) : res T2 :=
  if negb (Nat.eqb (length vmf) (length order)) then Err RuntimeError
  else if negb (sym_index_total n order) then Err ValueError
  else Ok (fun i j =>
    match sym_index i j order with
    | Some m => nth m vmf 0 * (if offdiag (nth m order (0,0)%nat) then 1 / 2 else 1)
    | None => 0
    end).

(** voigt_notation.py:141-197: get_stress_vmf. *)
Definition get_stress_vmf (t : T2) (n : nat) (order : list comp) : res (list R) :=
  if negb (order_ok n order) then Err RuntimeError
  else Ok (fold_left (fun mf i =>
          let c := nth i order (0, 0)%nat in
          match index_of c order with
          | Some m => upd mf m (t (row c) (col c))
          | None => mf
          end)
        (seq 0 (length order)) (repeat 0 (length order))).

(** voigt_notation.py:199-230: vget_stress_vmf. *)
Definition vget_stress_vmf (t : T2) (n : nat) (order : list comp) : res (list R) :=
  Ok (map (fun c => t (row c) (col c)) order).

(** voigt_notation.py:232-265: get_projection_tensors_vmf (volumetric,
    deviatoric), as matrices stored by rows. *)
Definition vol_indicator (order : list comp) : list R :=
  map (fun c => if offdiag c then 0 else 1) order.
Definition vol_proj_vmf (n : nat) (order : list comp) : list (list R) :=
  map (fun a => map (fun b => (1 / INR n) * (a * b)) (vol_indicator order)) (vol_indicator order).
Definition dev_proj_vmf (n : nat) (order : list comp) : list (list R) :=
  map (fun i => map (fun j =>
      (if Nat.eqb i j then 1 else 0) - nth j (nth i (vol_proj_vmf n order) []) 0)
    (seq 0 (length order))) (seq 0 (length order)).

(** tensorops.py:78-96: einsum products used by the material models. *)
Definition dyad22_1 (a b : T2) : T4 := fun i j k l => a i j * b k l.
Definition dyad22_2 (a b : T2) : T4 := fun i j k l => a i k * b j l.
Definition dyad22_3 (a b : T2) : T4 := fun i j k l => a i l * b j k.
Definition dot21_1 (n : nat) (a : T2) (b : nat -> R) : nat -> R :=
  fun i => rsum n (fun j => a i j * b j).
Definition dot12_1 (n : nat) (a : nat -> R) (b : T2) : nat -> R :=
  fun j => rsum n (fun i => a i * b i j).
Definition ddot22_1 (n : nat) (a b : T2) : R :=
  rsum n (fun i => rsum n (fun j => a i j * b i j)).
Definition ddot42_1 (n : nat) (a : T4) (b : T2) : T2 :=
  fun i j => rsum n (fun k => rsum n (fun l => a i j k l * b k l)).
Definition ddot44_1 (n : nat) (a b : T4) : T4 :=
  fun i j k l => rsum n (fun p => rsum n (fun q => a i j p q * b p q k l)).
Definition ddot24_1 (n : nat) (a : T2) (b : T4) : T2 :=
  fun i j => rsum n (fun k => rsum n (fun l => a k l * b k l i j)).

(** tensorops.py:133-211: get_id_operators. *)
Definition soid : T2 := fun i j => if Nat.eqb i j then 1 else 0.
Definition foid (n : nat) : T4 :=
  fold_left (fun t ij => set4 t (fst ij) (snd ij) (fst ij) (snd ij) 1)
    (list_prod (seq 0 n) (seq 0 n)) zero4.
Definition fotransp (n : nat) : T4 :=
  fold_left (fun t ij => set4 t (fst ij) (snd ij) (snd ij) (fst ij) 1)
    (list_prod (seq 0 n) (seq 0 n)) zero4.
Definition fosym (n : nat) : T4 :=
  fun i j k l => / 2 * (foid n i j k l + fotransp n i j k l).
Definition fodiagtrace : T4 := dyad22_1 soid soid.
Definition fodevproj (n : nat) : T4 :=
  fun i j k l => foid n i j k l - (1 / 3) * fodiagtrace i j k l.
Definition fodevprojsym (n : nat) : T4 :=
  fun i j k l => fosym n i j k l - (1 / 3) * fodiagtrace i j k l.

(** tensorops.py:213-244: fo_dinv_sym. *)
Definition fo_dinv_sym (inv : T2) : T4 :=
  fun i j k l => - / 2 * (inv i k * inv l j + inv i l * inv k j).
