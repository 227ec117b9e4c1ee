(** k-fold cross-validation of the recurrent model
    (src/hookeai/model_architectures/rnn_base_model/train/cross_validation.py,
    36-270).

    sklearn.model_selection.KFold(n_splits, shuffle=True).split is modelled from
    its documented algorithm: the positions 0 .. n-1 are permuted ([perm] is the
    result of the shuffle), cut into consecutive pieces, and each piece gives the
    mask of the validation samples. Training and prediction are arguments. *)
From Coq Require Import Reals String List Bool Arith.
Import ListNotations.
From Verif Require Import Lib PyDict.
Local Open Scope list_scope.

(** sizes of the folds: n // k, and one more in the first n % k *)
Definition fold_size (n k i : nat) : nat := if Nat.ltb i (Nat.modulo n k) then S (Nat.div n k) else Nat.div n k.
Fixpoint cut (sizes : list nat) (l : list nat) : list (list nat) :=
  match sizes with [] => [] | s :: t => firstn s l :: cut t (skipn s l) end.
Definition mem (i : nat) (l : list nat) : bool := existsb (Nat.eqb i) l.
(** training and validation positions of a fold, in increasing order *)
Definition fold_ids (n : nat) (piece : list nat) : list nat * list nat :=
  (filter (fun i => negb (mem i piece)) (seq 0 n), filter (fun i => mem i piece) (seq 0 n)).
(** 135-144; the two refusals of KFold *)
Definition folds_indexes (n k : nat) (perm : list nat) : res (list (list nat * list nat)) :=
  if Nat.leb k 1 then Err ValueError
  else if Nat.ltb n k then Err ValueError
  else Ok (map (fold_ids n) (cut (map (fold_size n k) (seq 0 k)) perm)).

Section CV.
  Context {A M : Type}.
  (** train_model: the model and its best training loss; predict: the average
      loss if all ground truths are known. *)
  Variable train : list A -> res (M * R).
  Variable predict : M -> list A -> res (option R).
  Definition subset (d : list A) (ids : list nat) : list A :=
    flat_map (fun i => match nth_error d i with Some a => [a] | None => [] end) ids.
  (** 163-215: a fold *)
  Definition run_fold (d : list A) (ids : list nat * list nat) : res (R * R) :=
    rbind (train (subset d (fst ids))) (fun ml =>
    rbind (predict (fst ml) (subset d (snd ids))) (fun l =>
    match l with None => Err RuntimeError | Some v => Ok (snd ml, v) end)).
  (** 158-215 *)
  Definition run_folds (d : list A) (folds : list (list nat * list nat)) : res (list (R * R)) := rmap (run_fold d) folds.
  (** 120-270: the local variable model is read (152-153) before the loop
      assigns it (182): an UnboundLocalError, a NameError. [reads_model] is true
      in the code. start_time_sec (118) exists in the verbose mode only and is
      read in every mode (246). *)
  Definition cross_validation (reads_model : bool) (dir_exists verbose : bool) (k : nat) (perm : list nat) (d : list A)
    : res (list (R * R)) :=
    if negb dir_exists then Err RuntimeError
    else rbind (folds_indexes (length d) k perm) (fun folds =>
    if reads_model then Err NameError
    else rbind (run_folds d folds) (fun losses =>
    if verbose then Ok losses else Err NameError)).
End CV.
