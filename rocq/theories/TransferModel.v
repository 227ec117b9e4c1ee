(** Model of the transfer learning models and of the hybridization models.

    Modelled: model_architectures/hybrid_base_model/model/transfer_learning.py
    82-136 (constructor of the polynomial regressor), 138-177 (device), 179-256
    (forward), 429-491 and 526-605 (batched elastic model);
    hybridization.py 42-60 and 100-163.

    Simplifications: real numbers for floats; tensors are contiguous, so that
    [view] succeeds whenever the number of elements agrees; the data scalers of
    the regressor are those of ModelFileModel.v; the additive model is described
    for tensors of equal shape (no broadcasting). *)
From Coq Require Import String Reals List Arith Bool.
From Verif Require Import Lib PyDict MatrixModel TensorModel ElasticModel FeaturesModel.
Import ListNotations.
Local Open Scope list_scope.
Local Open Scope R_scope.

(** ** Polynomial regressor *)

(** transfer_learning.py 105-133: the numbers kept by the constructor and one
    linear layer (a row of weights) per feature. *)
Record regressor := Regressor { pr_nfeat : nat; pr_degree : nat; pr_ncoeff : nat; pr_weights : list (list R) }.
(** 120-133: the initial weights of torch.nn.Linear are given. *)
Definition regressor_init (n degree : nat) (is_bias : bool) (init : nat -> nat -> R) : regressor :=
  let n_poly_coeff := if is_bias then (degree + 1)%nat else degree in
  Regressor n degree n_poly_coeff (map (fun i => map (init i) (seq 0 n_poly_coeff)) (seq 0 n)).

(** 220-224: range of degrees. *)
Definition degrees (m : regressor) : list nat :=
  let ini_deg := if Nat.eqb (pr_ncoeff m) (pr_degree m) then 1%nat else 0%nat in
  seq ini_deg (pr_ncoeff m).
(** torch.stack of a list of tensors: an empty list is an error. *)
Definition stack {A} (l : list A) : res (list A) := match l with [] => Err RuntimeError | _ => Ok l end.
(** torch.nn.Linear(n, 1, bias=False) on one row. *)
Definition linear_row (w x : list R) : R := lsum (map (fun p => fst p * snd p) (combine w x)).
(** 230-242: one feature, one row of the expansion. *)
Definition feature_output (m : regressor) (n : nat) (g : nat -> nat -> R) (i : nat) : res (nat -> R) :=
  if negb (Nat.ltb i n) then Err IndexError
  else rbind (stack (map (fun deg => fun k => g k i ^ deg) (degrees m))) (fun cols =>
       Ok (fun k => linear_row (nth i (pr_weights m) []) (map (fun c => c k) cols))).
(** 179-256: forward. *)
Definition poly_forward (m : regressor) (x : series) : res series :=
  let '(T, B, n, f) := unsqueeze x in
  if Nat.eqb n 0 then Err RuntimeError
  else
    let g := flat B f in
    rbind (rmap (feature_output m n g) (seq 0 (pr_nfeat m))) (fun outs =>
    rbind (stack outs) (fun outs =>
    if Nat.eqb (T * B * pr_nfeat m) (T * B * n)
    then Ok (resqueeze (is_batched x) T B n (unflat B (fun k i => nth i outs (fun _ => 0) k)))
    else Err RuntimeError)).

(** 108-136, 153-154: names of the attributes set by the constructor; 167-177
    get_device reads two attributes. *)
Definition regressor_attributes : list string :=
  ["_n_features_in"; "_poly_degree"; "_is_bias"; "is_model_in_normalized"; "is_model_out_normalized";
   "_device_type"; "_device"; "_n_poly_coeff"; "_polynomial_layers"; "_data_scalers"]%string.
Definition getattr (attrs : list string) (a : string) : res string :=
  if existsb (String.eqb a) attrs then Ok a else Err AttributeError.
(** 138-165: set_device; [cuda] tells whether CUDA is available. *)
Definition set_device (cuda : bool) (device_type : string) : res string :=
  if (String.eqb device_type "cpu" || String.eqb device_type "cuda")%bool then
    if (String.eqb device_type "cuda" && negb cuda)%bool then Err RuntimeError else Ok device_type
  else Err RuntimeError.
Definition get_device (attrs : list string) : res (string * string) :=
  rbind (getattr attrs "device_type") (fun a => rbind (getattr attrs "device") (fun b => Ok (a, b))).

(** ** Batched elastic model of the transfer learning module *)

(** transfer_learning.py 429-491: as in hybridized_layers.py. *)
Definition transfer_elastic_init := elastic_layer_init.
(** 526-605: here the first half of the features is the total strain. *)
Definition transfer_elastic_forward (l : elastic_layer) (x : series) : res series :=
  let '(T, B, n, f) := unsqueeze x in
  let N := length (bl_order l) in
  rbind (if Nat.eqb n N then Ok f
         else if Nat.eqb n (2 * N) then Ok (fun t b i => f t b i - f t b (N + i)%nat)
         else Err RuntimeError) (fun e =>
  let g := flat B e in
  Ok (resqueeze (is_batched x) T B N (unflat B (fun k i => nth i (elastic_row l (row_of N g k)) 0)))).

(** ** Hybridization models *)

Inductive hybridization := HIdentity | HAdditive.
(** hybridization.py 54-60. *)
Definition hybridization_init (t : string) : res hybridization :=
  if String.eqb t "identity" then Ok HIdentity
  else if String.eqb t "additive" then Ok HAdditive else Err RuntimeError.
(** Python's sum of tensors: the integer zero, then one addition per tensor.
    [None] is the integer. *)
Definition series_add (x y : series) : series :=
  match x, y with
  | S2 T n f, S2 _ _ g => S2 T n (fun t i => f t i + g t i)
  | S3 T B n f, S3 _ _ _ g => S3 T B n (fun t b i => f t b i + g t b i)
  | _, _ => x
  end.
Definition py_sum (l : list series) : option series :=
  fold_left (fun acc x => match acc with None => Some x | Some a => Some (series_add a x) end) l None.
(** hybridization.py 100-163. *)
Definition hybridization_forward (h : hybridization) (l : list series) : res (option series) :=
  match h with
  | HIdentity => match l with [] => Err IndexError | x :: _ => Ok (Some x) end
  | HAdditive => Ok (py_sum l)
  end.
