(** Early-exit Newton iteration: stop at the first converged iterate, not
    counting the starting guess, or give up. *)
From Coq Require Import List Arith Bool.

(** [iterates step x k] is the k-th iterate. *)
Fixpoint iterates {X} (step : X -> X) (x : X) (k : nat) : X :=
  match k with O => x | S k => iterates step (step x) k end.

(** [k] is the first iteration, from 1 to [n], at which the test succeeds. *)
Definition first_converged {X} (conv : X -> bool) (step : X -> X) (n : nat) (x : X) (k : nat) : Prop :=
  (1 <= k <= n)%nat /\ conv (iterates step x k) = true /\
  forall j, (1 <= j < k)%nat -> conv (iterates step x j) = false.
Definition never_converged {X} (conv : X -> bool) (step : X -> X) (n : nat) (x : X) : Prop :=
  forall j, (1 <= j <= n)%nat -> conv (iterates step x j) = false.
