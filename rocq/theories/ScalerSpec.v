(** Vocabulary for the scaler properties. *)
From Coq Require Import Reals List Arith.
From Verif Require Import Lib ScalerModel.
Import ListNotations.
Local Open Scope R_scope.

(** All values of a tensor are ordinary numbers: it is the image of a real tensor. *)
Definition defined (t : tensor R) : tensor num :=
  match t with
  | Mat rows => Mat (map (map Some) rows)
  | Seq s => Seq (map (map (map Some)) s)
  | Other => Other
  end.

(** A regular tensor with [n] features. *)
Definition regular (n : nat) (t : tensor R) : Prop :=
  match t with
  | Mat rows => forall r, In r rows -> length r = n
  | Seq s => (forall sl r, In sl s -> In r sl -> length r = n) /\
             exists k, forall sl, In sl s -> length sl = k
  | Other => False
  end.

(** All samples of a tensor and the values of a feature. *)
Definition samples (t : tensor R) : list (list R) :=
  match t with Mat rows => rows | Seq s => concat s | Other => [] end.
Definition feature (j : nat) (t : tensor R) : list R := map (fun r => nth j r 0) (samples t).

(** Population mean and variance of a list. *)
Definition mean (c : list R) : R := lsum c / INR (length c).
Definition variance (c : list R) : R :=
  lsum (map (fun x => (x - mean c) * (x - mean c)) c) / INR (length c).
