(** Hardening curves. *)
From Coq Require Import Reals List Arith.
Import ListNotations.
Local Open Scope R_scope.

(** Points in strictly ascending order of plastic strain. *)
Definition ascending (pts : list (R * R)) : Prop :=
  forall i j, (i < j)%nat -> (j < length pts)%nat -> fst (nth i pts (0, 0)) < fst (nth j pts (0, 0)).
Definition nondecreasing (pts : list (R * R)) : Prop :=
  forall i, (S i < length pts)%nat -> snd (nth i pts (0, 0)) <= snd (nth (S i) pts (0, 0)).

(** The piecewise linear curve through the points, constant outside. *)
Definition chord (pts : list (R * R)) (k : nat) : R :=
  (snd (nth (S k) pts (0, 0)) - snd (nth k pts (0, 0)))
  / (fst (nth (S k) pts (0, 0)) - fst (nth k pts (0, 0))).
Definition on_curve (pts : list (R * R)) (x y : R) : Prop :=
  (x <= fst (nth 0 pts (0, 0)) /\ y = snd (nth 0 pts (0, 0))) \/
  (fst (nth (length pts - 1) pts (0, 0)) <= x /\ y = snd (nth (length pts - 1) pts (0, 0))) \/
  (exists k, (S k < length pts)%nat /\
     fst (nth k pts (0, 0)) <= x <= fst (nth (S k) pts (0, 0)) /\
     y = snd (nth k pts (0, 0)) + chord pts k * (x - fst (nth k pts (0, 0)))).
