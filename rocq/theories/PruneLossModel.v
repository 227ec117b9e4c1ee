(** Losses of the tested samples of a pruning step (C128):
    miscellaneous/pruning/pruning_dataset.py 1007-1083
    (read_samples_loss_from_dir) and 743-754 (choice of the pruned samples).
    A directory is the list of its entries in the order of os.listdir, with the
    loss of the stored results if there is one; the names are matched as in
    MeanMetricsModel ('^prediction_sample_([0-9]+).pkl$').
    Simplification: files that cannot be unpickled are not modelled. *)
From Coq Require Import String Ascii List Arith Bool.
From Verif Require Import Lib PyDict PyStr TextLines MeanMetricsModel PruningModel DatasetModel.
Import ListNotations.
Local Open Scope list_scope.

Section Losses.
  Context {L : Type}.
  Definition ldir := list (string * option L).
  (** 1048-1052: the last run of digits of the path, which is that of the name *)
  Definition sort_key (name : string) : nat :=
    match drop_prefix "prediction_sample_" name with
    | Some t => match int_of (take_digits t) with Ok n => n | Err _ => 0 end
    | None => 0
    end.
  Definition is_prediction (e : string * option L) : bool := match sample_number (fst e) with Some _ => true | None => false end.
  Definition entry_id (e : string * option L) : nat := match sample_number (fst e) with Some n => n | None => 0 end.
  (** 1062-1081 *)
  Definition entry_loss (e : string * option L) : res L := match snd e with Some x => Ok x | None => Err RuntimeError end.
  (** 1022-1083 *)
  Definition read_samples_loss (d : ldir) : res (list nat * list L) :=
    match d with
    | [] => Err RuntimeError
    | _ =>
      match filter is_prediction d with
      | [] => Err RuntimeError
      | files =>
        let sorted := gsort (fun a b => sort_key (fst a) <=? sort_key (fst b)) files in
        rbind (rmap entry_loss sorted) (fun losses => Ok (map entry_id sorted, losses))
      end
    end.
  (** 743-752: positions in the testing data set of the pruned samples *)
  Definition chosen_positions (kleb : L -> L -> bool) (k0 : L) (n : nat) (d : ldir) : res (list nat) :=
    rbind (read_samples_loss d) (fun p => Ok (firstn n (sorted_by_loss kleb k0 (snd p)))).
End Losses.
Arguments ldir : clear implicits.
