(** Model of the iterative pruning of a data set.
    Source: src/hookeai/miscellaneous/pruning/pruning_dataset.py 142-310 (loop),
    596-634 (get_n_prun_sample), 636-767 (perform_pruning_step), 769-863
    (set_pruning_step_dir); time_dataset.py 124-166 (save_dataset).
    Data sets in memory are lists of samples. The random permutations of the
    splits and the losses obtained by training and predicting are arguments.
    Simplifications: ratios are rational; summary files, plots and model
    directories are omitted. *)
From Coq Require Import String List Bool Arith ZArith QArith Qround.
From Verif Require Import Lib PyDict PyStr DatasetModel.
Import ListNotations.
Local Open Scope list_scope.

Section GSort.
  Context {A : Type} (leb : A -> A -> bool).
  Fixpoint ginsert (x : A) (l : list A) : list A :=
    match l with [] => [x] | y :: t => if leb x y then x :: y :: t else y :: ginsert x t end.
  Fixpoint gsort (l : list A) : list A := match l with [] => [] | x :: t => ginsert x (gsort t) end.
End GSort.

(** get_n_prun_sample 596-634 *)
Inductive scheduler := Constant (n : nat) | Proportional (r : Q).
Definition n_prun (s : scheduler) (n_dev : nat) : nat :=
  match s with
  | Constant n => n
  | Proportional r => Z.to_nat (Qfloor (r * inject_Z (Z.of_nat n_dev)))
  end.

Record params := mkParams { p_sched : scheduler; p_iter_max : nat; p_dev_min : nat; p_ratio_min : Q; p_test_min : nat;
  p_ratio_max : Q; p_step_sizes : dict Q; p_iter_sizes : dict Q; p_full : nat }.

Definition qn (n : nat) : Q := inject_Z (Z.of_nat n).
Definition qltb (a b : Q) : bool := negb (Qle_bool b a).

Section Step.
  Context {A K : Type}.
  Variable kleb : K -> K -> bool.
  Variable k0 : K.

  (** 708-721 *)
  Definition admissible (p : params) (n_dev n n_test : nat) : bool :=
    negb ((n_dev <=? p_dev_min p)%nat || qltb (qn n_dev / qn (p_full p)) (p_ratio_min p)
          || (n_dev <? p_test_min p)%nat || qltb (p_ratio_max p) (qn n / qn n_test)).

  (** sorted(range(len(samples_loss)), key=lambda i: samples_loss[i]) 745-746 *)
  Definition sorted_by_loss (losses : list K) : list nat :=
    gsort (fun i j => kleb (nth i losses k0) (nth j losses k0)) (seq 0 (length losses)).

  (** perform_pruning_step 636-767; [losses test] are the losses read back for
      the samples of the testing subset *)
  Definition pruning_step (p : params) (perm : nat -> list nat) (losses : list nat -> list K) (dev unused : list A)
    : res (bool * list A * list A) :=
    let n := n_prun (p_sched p) (length dev) in
    rbind (split_dataset perm (length dev) (p_step_sizes p)) (fun subs =>
    rbind (dlookup subs "training") (fun _ =>
    rbind (dlookup subs "validation") (fun _ =>
    rbind (dlookup subs "testing") (fun test =>
    if admissible p (length dev) n (length test) then
      let chosen := firstn n (sorted_by_loss (losses test)) in
      rbind (parent_indices test chosen) (fun dev_idx =>
      rbind (rmap (fun i => match nth_error dev i with Some x => Ok x | None => Err IndexError end) dev_idx) (fun moved =>
      Ok (true, remove_samples dev_idx dev, add_samples moved unused)))
    else Ok (false, dev, unused))))).

  (** 142-290: the development and unused data sets of each iteration *)
  Fixpoint pruning_loop (p : params) (perm : nat -> nat -> list nat) (perm' : nat -> nat -> list nat)
    (losses : nat -> list nat -> list K) (fuel iter : nat) (dev unused : list A) : res (list (list A * list A)) :=
    match fuel with
    | O => Ok []
    | S fuel' =>
      let iteration dev unused :=
        rbind (split_dataset (perm' iter) (length dev) (p_iter_sizes p)) (fun _ =>
        if (p_iter_max p <=? iter)%nat then Ok [(dev, unused)]
        else rbind (pruning_loop p perm perm' losses fuel' (S iter) dev unused) (fun r => Ok ((dev, unused) :: r))) in
      match iter with
      | O => iteration dev unused
      | S _ =>
        rbind (pruning_step p (perm iter) (losses iter) dev unused) (fun '(ok, dev', unused') =>
        if ok : bool then iteration dev' unused' else Ok [])
      end
    end.
  Definition prune (p : params) perm perm' losses (full : list A) : res (list (list A * list A)) :=
    pruning_loop p perm perm' losses (S (p_iter_max p)) 0 full [].
End Step.

(** save_dataset 124-166: directory, base name and size determine the file *)
Definition dataset_file (dir : string) (n : nat) : string := (dir ++ "/ss_paths_dataset_n" ++ nat_str n ++ ".pkl")%string.
(** set_pruning_step_dir 819-848: the testing data set is saved in the
    directory of the validation data set *)
Definition step_files {A} (step_dir : string) (train val test : list A) : dict (list A) * (string * string * string) :=
  let train_dir := (step_dir ++ "/1_training_dataset")%string in
  let val_dir := (step_dir ++ "/2_validation_dataset")%string in
  let ft := dataset_file train_dir (length train) in
  let fv := dataset_file val_dir (length val) in
  let fe := dataset_file val_dir (length test) in
  (dset (dset (dset [] ft train) fv val) fe test, (ft, fv, fe)).
(** set_pruning_iter_dir 443-448: name of the iteration directory *)
Definition iter_dir (prun_dir : string) (n_train : nat) : string := (prun_dir ++ "/n" ++ nat_str n_train)%string.
