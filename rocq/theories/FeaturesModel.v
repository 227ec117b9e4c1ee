(** Model of the strain and stress features of data sets and of the layers that
    put them back together.
    Sources: src/hookeai/model_architectures/materials/strain_features.py,
    src/hookeai/model_architectures/materials/stress_features.py,
    src/hookeai/model_architectures/hybrid_base_model/model/hybridized_layers.py.
    Simplifications: component strings are pairs of digits (see MatrixModel);
    torch.vmap over time is a map over the rows of the path; dtype and device are not modelled;
    tensors are contiguous, so that torch's view never fails, and have two or
    three dimensions. *)
From Coq Require Import String Reals List Arith Bool Lia.
From Verif Require Import Lib PyDict MatrixModel TensorModel ElasticModel DatasetModel.
Import ListNotations.
Local Open Scope list_scope.
Local Open Scope R_scope.

(** strain_features.py 174-210 build_strain_from_comps and
    stress_features.py 177-213 build_stress_from_comps (the same code): the
    index map looks up each row-major component or its reverse ([ValueError]
    when both are missing), then gathers and reshapes. *)
Definition build_from_comps (n : nat) (order : list comp) (arr : list R) : res T2 :=
  if negb (sym_index_total n order) then Err ValueError
  else if forallb (fun i => forallb (fun j =>
            match sym_index i j order with Some m => Nat.ltb m (length arr) | None => false end)
            (seq 0 n)) (seq 0 n)
  then Ok (fun i j => match sym_index i j order with Some m => nth m arr 0 | None => 0 end)
  else Err IndexError.

(** stress_features.py 215-243 store_stress_comps (digits from 1 to 3). *)
Definition store_comps (order : list comp) (t : T2) : list R := map (fun c => t (row c) (col c)) order.

(** torch.trace and torch.matmul. *)
Definition torch_trace (n : nat) (t : T2) : R := lsum (map (fun i => t i i) (seq 0 n)).
Definition torch_matmul (n : nat) (a b : T2) : T2 := fun i j => lsum (map (fun k => a i k * b k j) (seq 0 n)).

(** strain_features.py 117-172 compute_strain_feature. *)
Definition compute_strain_feature (arr : list R) (label : string) (n : nat) (order : list comp)
  : res (list R) :=
  rbind (build_from_comps n order arr) (fun strain =>
  if String.eqb label "i1_strain" then
    if negb (Nat.eqb n 3) then Err RuntimeError else Ok [torch_trace n strain]
  else if String.eqb label "i2_strain" then
    if negb (Nat.eqb n 3) then Err RuntimeError
    else Ok [5 / 10 * (torch_trace n strain ^ 2 - torch_trace n (torch_matmul n strain strain))]
  else Err RuntimeError).

(** stress_features.py 117-175 compute_stress_feature. *)
Definition compute_stress_feature (arr : list R) (label : string) (n : nat) (order : list comp)
  : res (list R) :=
  rbind (build_from_comps n order arr) (fun stress =>
  if String.eqb label "vol_stress" then
    if negb (Nat.eqb n 3) then Err RuntimeError else Ok [torch_trace n stress]
  else if String.eqb label "dev_stress" then
    if negb (Nat.eqb n 3) then Err RuntimeError
    else
      let vol := torch_trace n stress in
      let dev : T2 := fun i j => stress i j - vol * (if Nat.eqb i j then 1 else 0) in
      Ok (store_comps order dev)
  else Err RuntimeError).

(** ** Adding a feature to every sample of a data set *)

(** Values stored in a sample: a path (one row per time) or a component order. *)
Inductive fval := Path (rows : list (list R)) | Order (order : list comp).

(** strain_features.py 76-80: the number of dimensions, from the number of components. *)
Definition infer_n_dim (order : list comp) : nat :=
  if (Nat.eqb (length order) 3 || Nat.eqb (length order) 4)%bool then 2%nat else 3%nat.

Fixpoint map_res {A B} (f : A -> res B) (l : list A) : res (list B) :=
  match l with
  | [] => Ok []
  | a :: t => rbind (f a) (fun b => rbind (map_res f t) (fun r => Ok (b :: r)))
  end.

(** The loop body 91-113: the path of the sample, row by row. *)
Definition feature_edit (path_label new : string) (f : list R -> res (list R)) : edit (F := fval) :=
  fun s =>
    match dget s path_label with
    | Some (Path rows) =>
        match map_res f rows with
        | Ok rows' => (dset s new (Path rows'), None)
        | Err e => (s, Some e)
        end
    | Some (Order _) => (s, Some TypeError)
    | None => (s, Some KeyError)
    end.

(** strain_features.py 32-115 add_strain_features, stress_features.py 32-115
    add_stress_features (the same code up to names). *)
Definition add_features (path_label order_label : string) (available : list string)
  (compute : list R -> string -> nat -> list comp -> res (list R))
  (d : dset_t) (label : string) (st : store fval) : store fval * option exn :=
  match getitem d st 0 with
  | None => (st, Some IndexError)
  | Some s =>
      match dget s path_label with
      | None => (st, Some RuntimeError)
      | Some _ =>
          match dget s order_label with
          | None => (st, Some RuntimeError)
          | Some (Path _) => (st, Some TypeError)
          | Some (Order order) =>
              let n := infer_n_dim order in
              if negb (existsb (String.eqb label) available) then (st, Some RuntimeError)
              else edit_all d (feature_edit path_label label (fun r => compute r label n order)) st
          end
      end
  end.
Definition add_strain_features :=
  add_features "strain_path" "strain_comps_order" ["i1_strain"; "i2_strain"]%string compute_strain_feature.
Definition add_stress_features :=
  add_features "stress_path" "stress_comps_order" ["vol_stress"; "dev_stress"]%string compute_stress_feature.

(** ** Layers on batched time series *)

(** A tensor of shape (sequence_length, n_features) or
    (sequence_length, batch_size, n_features). *)
Inductive series :=
| S2 (T n : nat) (f : nat -> nat -> R)
| S3 (T B n : nat) (f : nat -> nat -> nat -> R).
Definition is_batched (x : series) : bool := match x with S2 _ _ _ => false | S3 _ _ _ _ => true end.
(** unsqueeze(1) and squeeze(1) of a dimension of size one. *)
Definition unsqueeze (x : series) : nat * nat * nat * (nat -> nat -> nat -> R) :=
  match x with
  | S2 T n f => (T, 1%nat, n, fun t _ i => f t i)
  | S3 T B n f => (T, B, n, f)
  end.
Definition resqueeze (batched : bool) (T B n : nat) (f : nat -> nat -> nat -> R) : series :=
  if batched then S3 T B n f else S2 T n (fun t i => f t 0%nat i).
(** view(-1, n) and view(sequence_length, batch_size, n). *)
Definition flat (B : nat) (f : nat -> nat -> nat -> R) : nat -> nat -> R :=
  fun k i => f (k / B)%nat (k mod B)%nat i.
Definition unflat (B : nat) (g : nat -> nat -> R) : nat -> nat -> nat -> R := fun t b i => g (t * B + b)%nat i.
Definition row_of (n : nat) (g : nat -> nat -> R) (k : nat) : list R := map (g k) (seq 0 n).

(** hybridized_layers.py 336-414 VolDevCompositionModel.forward.  The result is
    a view of the input: [features_out[:, i] += vol_comp] writes into the
    caller's tensor, returned here as second component. *)
Definition voldev_row (row : list R) : list R :=
  fold_left (fun r ic =>
      if Nat.eqb (fst (snd ic)) (snd (snd ic))
      then upd r (S (fst ic)) (nth (S (fst ic)) r 0 + nth 0 r 0) else r)
    (combine (seq 0 (length order_sym_3d)) order_sym_3d) row.
Definition voldev_forward (x : series) : res (series * series) :=
  let '(T, B, n, f) := unsqueeze x in
  if negb (Nat.eqb n (1 + length order_sym_3d)) then Err RuntimeError
  else
    let g := flat B f in
    let mem : nat -> nat -> R := fun k i => nth i (voldev_row (row_of n g k)) 0 in
    Ok (resqueeze (is_batched x) T B (n - 1) (unflat B (fun k i => mem k (S i))),
        resqueeze (is_batched x) T B n (unflat B mem)).

(** hybridized_layers.py 78-141: the constructor of BatchedElasticModel; the
    elastic symmetry [s] is stored but the tangent is that of an isotropic
    material. *)
Record elastic_layer := ELayer { bl_order : list comp; bl_tangent : list (list R) }.
Definition elastic_layer_init (pt : nat) (props : list (pname * R)) (s : symmetry) : res elastic_layer :=
  rbind (get_problem_type_parameters pt) (fun p =>
  let '(n, order, _) := p in
  rbind (elastic_tangent_modulus props Isotropic) (fun C =>
  rbind (if Nat.eqb n 2 then vget_state_2Dmf_from_3Dmf_mat C else Ok C) (fun C' =>
  Ok (ELayer order C')))).
(** 137-141: Kelvin factors. *)
Definition layer_kelvin (c : comp) : R := if Nat.eqb (fst c) (snd c) then 1 else sqrt 2.
(** 240-242: one column of the matrix product. *)
Definition elastic_row (l : elastic_layer) (x : list R) : list R :=
  map (fun p => 1 / layer_kelvin (fst p) * snd p)
    (combine (bl_order l) (mv (bl_tangent l)
       (map (fun p => layer_kelvin (fst p) * snd p) (combine (bl_order l) x)))).
(** 175-256: forward. *)
Definition elastic_forward (l : elastic_layer) (x : series) : res series :=
  let '(T, B, n, f) := unsqueeze x in
  let N := length (bl_order l) in
  rbind (if Nat.eqb n N then Ok f
         else if Nat.eqb n (2 * N) then Ok (fun t b i => f t b (N + i)%nat - f t b i)
         else Err RuntimeError) (fun e =>
  let g := flat B e in
  Ok (resqueeze (is_batched x) T B N (unflat B (fun k i => nth i (elastic_row l (row_of N g k)) 0)))).
