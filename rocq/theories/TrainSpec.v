(** Independent specification of early stopping, training and parameter
    convergence: statements about plain sequences of losses and states. *)
From Coq Require Import Reals List Arith.
Import ListNotations.
Local Open Scope R_scope.

(** Smallest number among losses ([None] is NaN). *)
Definition finite_min (l : list (option R)) (m : R) : Prop :=
  In (Some m) l /\ forall x, In (Some x) l -> m <= x.

(** A validation improves significantly on the earlier ones. *)
Definition significant (tol : R) (earlier : list (option R)) (v : option R) : Prop :=
  exists x, v = Some x /\
    ((forall y, ~ In (Some y) earlier) \/
     exists m, finite_min earlier m /\ x < m /\ (m = 0 \/ tol * Rabs m < m - x)).

(** The last [k] validations all failed to improve significantly. *)
Definition unimproved_tail (tol : R) (vs : list (option R)) (k : nat) : Prop :=
  (k <= length vs)%nat /\
  forall i, (length vs - k <= i < length vs)%nat -> ~ significant tol (firstn i vs) (nth i vs None).

(** First position of the smallest number. *)
Definition first_argmin (vs : list (option R)) (i : nat) : Prop :=
  exists m, nth_error vs i = Some (Some m) /\ finite_min vs m /\
    forall j, (j < i)%nat -> nth_error vs j <> Some (Some m).

(** First and last position of the minimum of a list of numbers. *)
Definition smallest (l : list R) (m : R) : Prop := In m l /\ forall x, In x l -> m <= x.
Definition first_min (l : list R) (i : nat) : Prop :=
  exists m, nth_error l i = Some m /\ smallest l m /\ forall j, (j < i)%nat -> nth_error l j <> Some m.
Definition last_min (l : list R) (i : nat) : Prop :=
  exists m, nth_error l i = Some m /\ smallest l m /\ forall j, (i < j)%nat -> nth_error l j <> Some m.

(** Model state after [k] epochs of optimisation and the loss of epoch [k]. *)
Fixpoint trajectory {M} (run_epoch : nat -> M -> R * M) (m0 : M) (k : nat) : M :=
  match k with
  | O => m0
  | S k' => snd (run_epoch k' (trajectory run_epoch m0 k'))
  end.
Definition epoch_loss {M} (run_epoch : nat -> M -> R * M) (m0 : M) (k : nat) : R :=
  fst (run_epoch k (trajectory run_epoch m0 k)).
Definition epoch_losses {M} (run_epoch : nat -> M -> R * M) (m0 : M) (n : nat) : list R :=
  map (epoch_loss run_epoch m0) (seq 0 n).

(** Epochs (below [n]) at which the model is validated and the losses found. *)
Definition validated (frequency n : nat) : list nat :=
  filter (fun k => Nat.eqb (k mod frequency) 0) (seq 0 n).
Definition validation_losses {M} (run_epoch : nat -> M -> R * M) (valid_loss : nat -> M -> option R)
  (m0 : M) (frequency n : nat) : list (option R) :=
  map (fun k => valid_loss k (trajectory run_epoch m0 (S k))) (validated frequency n).

(** [e] is the first epoch at which [stop] holds or the epoch [n]. *)
Definition first_stop (stop : nat -> Prop) (n e : nat) : Prop :=
  (e <= n)%nat /\ (e = n \/ stop e) /\ forall k, (k < e)%nat -> ~ stop k.

(** Change of a parameter from one record to the next: relative to the earlier
    value, absolute if the earlier value is (almost) zero. *)
Definition small_change (small tol a b : R) : Prop :=
  (small < Rabs a -> Rabs (b - a) < tol * Rabs a) /\ (Rabs a <= small -> Rabs (b - a) < tol).

(** The last [k] recorded changes are all small. *)
Definition settled (small tol : R) (k : nat) (h : list R) : Prop :=
  (k < length h)%nat /\
  forall i, (length h - k <= i < length h)%nat -> small_change small tol (nth (i - 1) h 0) (nth i h 0).
