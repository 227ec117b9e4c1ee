(** Preview of the iterations of a data set pruning (C127):
    miscellaneous/pruning/pruning_dataset.py 1395-1529
    (preview_pruning_iterations).  A row is what is printed for an iteration:
    sizes of the development, training, validation and unused data sets.
    Simplifications: exact ratios; the percentages and the messages are not
    modelled; a development data set of negative size, possible when more samples
    than tested may be pruned, counts as empty. *)
From Coq Require Import String List Arith Bool ZArith QArith Qround.
From Verif Require Import Lib PyDict DatasetModel PruningModel.
Import ListNotations.
Local Open Scope nat_scope.
Local Open Scope list_scope.

Record row := mkRow { r_dev : nat; r_train : nat; r_valid : nat; r_unused : nat }.
(** int(np.floor(ratio*n)) *)
Definition floor_size (r : Q) (n : nat) : nat := Z.to_nat (Qfloor (inject_Z (Z.of_nat n) * r)).
(** 1473-1483; the first argument is the size of the full data set *)
Definition preview_admissible (p : params) (n_full n_dev n : nat) (n_test : Z) : res bool :=
  if (n_dev <=? p_dev_min p) then Ok false
  else if Qle_bool (qn n_dev / qn n_full) (p_ratio_min p) then Ok false
  else if Z.ltb n_test (Z.of_nat (p_test_min p)) then Ok false
  else if Z.eqb n_test 0 then Err ZeroDivisionError
  else Ok (negb (qltb (p_ratio_max p) (qn n / inject_Z n_test))).
(** 1450-1498: number of pruned samples of the step, if it is admissible *)
Definition preview_step (p : params) (n_full n_dev : nat) : res (option nat) :=
  let n := n_prun (p_sched p) n_dev in
  rbind (dlookup (p_step_sizes p) "training") (fun a =>
  rbind (dlookup (p_step_sizes p) "validation") (fun b =>
  let n_test := (Z.of_nat n_dev - Z.of_nat (floor_size a n_dev + floor_size b n_dev))%Z in
  rbind (preview_admissible p n_full n_dev n n_test) (fun ok => Ok (if ok then Some n else None)))).
(** 1441-1526: the iterations from [iter] *)
Fixpoint preview_loop (p : params) (n_full fuel iter n_dev n_unused : nat) : res (list row) :=
  match fuel with
  | 0 => Ok []
  | S fuel' =>
    let iteration n_dev n_unused :=
      rbind (dlookup (p_iter_sizes p) "training") (fun a =>
      let t := floor_size a n_dev in
      let r := mkRow n_dev t (n_dev - t) n_unused in
      if p_iter_max p <=? iter then Ok [r]
      else rbind (preview_loop p n_full fuel' (S iter) n_dev n_unused) (fun l => Ok (r :: l))) in
    match iter with
    | 0 => iteration n_dev n_unused
    | S _ => rbind (preview_step p n_full n_dev) (fun o =>
             match o with Some n => iteration (n_dev - n) (n_unused + n) | None => Ok [] end)
    end
  end.
(** 1366-1529: the ratio to the full data set is computed first *)
Definition preview (p : params) (n_full : nat) : res (list row) :=
  if n_full =? 0 then Err ZeroDivisionError else preview_loop p n_full (S (p_iter_max p)) 0 n_full 0.
