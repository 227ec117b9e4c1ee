(** Specification of data set editing and splitting. *)
From Coq Require Import String List Bool Arith ZArith QArith Permutation.
From Verif Require Import Lib PyDict DatasetModel.
Import ListNotations.
Local Open Scope list_scope.

Section Spec.
  Context {F : Type}.
  (** every index has a sample, and different indices different samples *)
  Definition distinct_samples (d : dset_t) : Prop :=
    (forall i, (i < dlen d)%nat -> exists l, locate d i = Some l) /\
    (forall i j l, locate d i = Some l -> locate d j = Some l -> i = j).
  (** changes of samples reach the data set: samples in memory, or a data set of
      files (but not a subset of a data set of files) *)
  Definition persistent (d : dset_t) : Prop := is_file d = true \/ forall i l, locate d i = Some l -> fst l = true.
  Definition outside (d : dset_t) (l : loc) : Prop := forall i, locate d i <> Some l.
  Definition keys_distinct (d : dset_t) (st : store F) : Prop := forall i l, locate d i = Some l -> NoDup (dkeys (st l)).

  (** the sample s' is s with feature new set to v and the given features removed *)
  Definition feature_set (v : F) (new : string) (removed : list string) (s s' : sample F) : Prop :=
    (~ In new removed -> dget s' new = Some v) /\
    (forall k, In k removed -> dget s' k = None) /\
    (forall k, k <> new -> ~ In k removed -> dget s' k = dget s k).
  (** the values of the features *)
  Definition values (s : sample F) (labels : list string) (vs : list F) : Prop :=
    Forall2 (fun l v => dget s l = Some v) labels vs.
  (** combination of one value (as is) or more values (by the operation) *)
  Definition combined (op : list F -> res F) (vs : list F) (v : F) : Prop :=
    match vs with [] => False | [x] => v = x | _ => op vs = Ok v end.

  (** renaming by a map that moves labels to unused labels *)
  Definition separate (m : list (string * string)) : Prop :=
    NoDup (map fst m) /\ NoDup (map snd m) /\ forall k, In k (map fst m) -> ~ In k (map snd m).
  Definition renamed (m : list (string * string)) (s s' : sample F) : Prop :=
    (forall old new v, In (old, new) m -> dget s old = Some v -> dget s' new = Some v /\ dget s' old = None) /\
    (forall k, ~ In k (map fst m) -> (forall old, In (old, k) m -> dget s old = None) -> dget s' k = dget s k).
End Spec.

(** the subsets use every index below n exactly once *)
Definition partition_of (n : nat) (subs : dict (list nat)) : Prop :=
  Permutation (concat (map snd subs)) (seq 0 n).
(** sample counts: each within one of its share *)
Definition fair_share (n : nat) (v : Q) (k : nat) : Prop :=
  (inject_Z (Z.of_nat n) * v - 1 < inject_Z (Z.of_nat k))%Q /\ (inject_Z (Z.of_nat k) <= inject_Z (Z.of_nat n) * v + 1)%Q.
