(** Data scalers: src/hookeai/utilities/data_scalers.py.

    A feature tensor is 2d (list of samples, each a list of features) or 3d
    (list of 2d).  Tensors are regular (all rows of one tensor have the same
    length, all 2d slices of a 3d tensor the same number of rows); an empty
    tensor passes the check of its last dimension.  A value is [Some x] or
    [None] (NaN or infinity, the result of a division by zero).  dtype/device,
    isinstance checks and the printing options not modelled. *)
From Coq Require Import Reals List Arith Bool.
From Verif Require Import Lib.
Import ListNotations.
Local Open Scope R_scope.

Inductive tensor (A : Type) : Type :=
| Mat (rows : list (list A))
| Seq (slices : list (list (list A)))
| Other.
Arguments Mat {A}. Arguments Seq {A}. Arguments Other {A}.

Definition num := option R.
(** a / b in floating point. *)
Definition fdiv (a b : R) : num := if Req_EM_T b 0 then None else Some (a / b).
Definition fmap (f : R -> R) (x : num) : num := match x with Some a => Some (f a) | None => None end.

Definition rows_ok {A} (n : nat) (rows : list (list A)) : bool :=
  forallb (fun r => Nat.eqb (length r) n) rows.

(** data_scalers.py:384-403 and 746-764: _check_tensor. *)
Definition check_tensor {A} (n : nat) (t : tensor A) : bool :=
  match t with
  | Mat rows => rows_ok n rows
  | Seq s => forallb (rows_ok n) s
  | Other => false
  end.

(** torch.reshape(tensor, (-1, n_features)) of a 3d tensor and back. *)
Fixpoint chunk {A} (fuel k : nat) (l : list A) : list (list A) :=
  match fuel with
  | O => []
  | S f => firstn k l :: chunk f k (skipn k l)
  end.
Definition n_rows {A} (s : list (list A)) : nat := match s with [] => O | r :: _ => length r end.

(** The common skeleton of transform and inverse_transform: flatten the
    sequence dimension, apply an entrywise map with tiled parameters, restore
    the shape (data_scalers.py:226-255, 292-321, 599-625, 662-684). *)
Definition map_rows {A} (dflt : R) (n : nat) (f : nat -> R -> A) (rows : list (list R)) : list (list A) :=
  map (fun row => map (fun j => f j (nth j row dflt)) (seq 0 n)) rows.
Definition apply_features {A} (n : nat) (f : nat -> R -> A) (t : tensor R) : res (tensor A) :=
  if negb (check_tensor n t) then Err RuntimeError else
  match t with
  | Mat rows => Ok (Mat (map_rows 0 n f rows))
  | Seq s => Ok (Seq (chunk (length s) (n_rows s) (map_rows 0 n f (concat s))))
  | Other => Err RuntimeError
  end.

(** TorchMinMaxScaler (24-403). *)
Record minmax := { mm_n : nat; mm_min : option (list R); mm_max : option (list R);
                   mm_nmin : R; mm_nmax : R }.

(** 332-382: _check_minimum / _check_maximum. *)
Definition check_param (n : nat) (v : list R) : res (list R) :=
  if Nat.eqb (length v) n then Ok v else Err RuntimeError.

(** 69-105: __init__. *)
Definition minmax_init (n : nat) (mn mx : option (list R)) (nmin nmax : R) : res minmax :=
  if Nat.eqb n 0 then Err RuntimeError else
  rbind (match mn with None => Ok None | Some v => rbind (check_param n v) (fun v => Ok (Some v)) end) (fun a =>
  rbind (match mx with None => Ok None | Some v => rbind (check_param n v) (fun v => Ok (Some v)) end) (fun b =>
  Ok {| mm_n := n; mm_min := a; mm_max := b; mm_nmin := nmin; mm_nmax := nmax |})).

(** 149-162: set_minimum_and_maximum. *)
Definition set_minimum_and_maximum (s : minmax) (mn mx : list R) : res minmax :=
  rbind (check_param (mm_n s) mn) (fun a => rbind (check_param (mm_n s) mx) (fun b =>
  Ok {| mm_n := mm_n s; mm_min := Some a; mm_max := Some b; mm_nmin := mm_nmin s; mm_nmax := mm_nmax s |})).

(** torch.min/max over the samples (dim=0); no samples raises IndexError. *)
Definition column (j : nat) (rows : list (list R)) : list R := map (fun r => nth j r 0) rows.
Definition col_min (c : list R) : R := match c with [] => 0 | x :: t => fold_left Rmin t x end.
Definition col_max (c : list R) : R := match c with [] => 0 | x :: t => fold_left Rmax t x end.
Definition flat_rows (t : tensor R) : list (list R) :=
  match t with Mat rows => rows | Seq s => concat s | Other => [] end.

(** 178-201: fit. *)
Definition minmax_fit (s : minmax) (t : tensor R) : res minmax :=
  if negb (check_tensor (mm_n s) t) then Err RuntimeError else
  match flat_rows t with
  | [] => Err IndexError
  | rows => set_minimum_and_maximum s
              (map (fun j => col_min (column j rows)) (seq 0 (mm_n s)))
              (map (fun j => col_max (column j rows)) (seq 0 (mm_n s)))
  end.

(** 247-251: nmin*1 + ((nmax - nmin)*1 / (max - min)) * (x - min). *)
Definition minmax_entry (nmin nmax : R) (mn mx : list R) (j : nat) (x : R) : num :=
  fmap (fun q => nmin * 1 + q * (x - nth j mn 0)) (fdiv ((nmax - nmin) * 1) (nth j mx 0 - nth j mn 0)).
(** 313-317: min + ((max - min) / ((nmax - nmin)*1)) * (x - nmin*1). *)
Definition minmax_inv_entry (nmin nmax : R) (mn mx : list R) (j : nat) (x : R) : num :=
  fmap (fun q => nth j mn 0 + q * (x - nmin * 1)) (fdiv (nth j mx 0 - nth j mn 0) ((nmax - nmin) * 1)).

(** 203-267 and 269-330: an unfitted scaler fails in torch.tile(None). *)
Definition minmax_transform (s : minmax) (t : tensor R) : res (tensor num) :=
  match mm_min s, mm_max s with
  | Some mn, Some mx => apply_features (mm_n s) (minmax_entry (mm_nmin s) (mm_nmax s) mn mx) t
  | _, _ => if check_tensor (mm_n s) t then Err TypeError else Err RuntimeError
  end.
Definition minmax_inverse_transform (s : minmax) (t : tensor R) : res (tensor num) :=
  match mm_min s, mm_max s with
  | Some mn, Some mx => apply_features (mm_n s) (minmax_inv_entry (mm_nmin s) (mm_nmax s) mn mx) t
  | _, _ => if check_tensor (mm_n s) t then Err TypeError else Err RuntimeError
  end.

(** TorchStandardScaler (405-764). *)
Record standard := { st_n : nat; st_mean : option (list R); st_std : option (list R) }.

(** 446-474: __init__ without parameters; 518-531: set_mean_and_std. *)
Definition standard_init (n : nat) : res standard :=
  if Nat.eqb n 0 then Err RuntimeError else Ok {| st_n := n; st_mean := None; st_std := None |}.
Definition set_mean_and_std (s : standard) (m d : list R) : res standard :=
  rbind (check_param (st_n s) m) (fun a => rbind (check_param (st_n s) d) (fun b =>
  Ok {| st_n := st_n s; st_mean := Some a; st_std := Some b |})).

Definition col_mean (c : list R) : R := lsum c / INR (length c).
(** torch.std with correction: sqrt(sum (x - mean)^2 / (N - correction)); one
    sample with correction 1 gives 0/0 (excluded: fit raises in the model). *)
Definition col_std (corr : nat) (c : list R) : R :=
  sqrt (lsum (map (fun x => (x - col_mean c) * (x - col_mean c)) c) / INR (length c - corr)).

(** 547-574: fit.  An empty tensor, or a single sample with the Bessel
    correction, yields NaN parameters; the model reports them as ValueError. *)
Definition standard_fit (s : standard) (t : tensor R) (is_bessel : bool) : res standard :=
  if negb (check_tensor (st_n s) t) then Err RuntimeError else
  let rows := flat_rows t in
  let corr := if is_bessel then 1%nat else 0%nat in
  if Nat.leb (length rows) corr then Err ValueError else
  set_mean_and_std s
    (map (fun j => col_mean (column j rows)) (seq 0 (st_n s)))
    (map (fun j => col_std corr (column j rows)) (seq 0 (st_n s))).

(** 616-621: division only where the standard deviation is not null. *)
Definition standard_entry (m d : list R) (j : nat) (x : R) : num :=
  if Req_EM_T (nth j d 0) 0 then Some (x - nth j m 0)
  else Some ((x - nth j m 0) / nth j d 0).
(** 680 *)
Definition standard_inv_entry (m d : list R) (j : nat) (x : R) : num :=
  Some (x * nth j d 0 + nth j m 0).
Definition standard_transform (s : standard) (t : tensor R) : res (tensor num) :=
  match st_mean s, st_std s with
  | Some m, Some d => apply_features (st_n s) (standard_entry m d) t
  | _, _ => if check_tensor (st_n s) t then Err TypeError else Err RuntimeError
  end.
Definition standard_inverse_transform (s : standard) (t : tensor R) : res (tensor num) :=
  match st_mean s, st_std s with
  | Some m, Some d => apply_features (st_n s) (standard_inv_entry m d) t
  | _, _ => if check_tensor (st_n s) t then Err TypeError else Err RuntimeError
  end.
