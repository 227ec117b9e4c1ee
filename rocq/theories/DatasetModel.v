(** Model of the time series data sets and the operations editing them.
    Source: src/hookeai/time_series_data/time_dataset.py.
    A sample is a dictionary from feature labels to tensors (abstract). Samples
    live at locations: objects in memory (TimeSeriesDatasetInMemory 502-611) or
    files (TimeSeriesDataset 613-784, whose items are loaded afresh at every
    access). A torch Subset redirects the index. Operations return the new
    store and the exception raised, if any; a raised exception keeps the changes
    already made, as in Python.
    Simplifications: tensors are abstract (concatenation and sums may fail);
    indices are non-negative; split sizes are rational numbers and the test that
    they add up to one is exact; the random permutation of torch's random_split
    is an argument. *)
From Coq Require Import String List Bool Arith ZArith QArith Qround.
From Verif Require Import Lib PyDict.
Import ListNotations.
Local Open Scope list_scope.

Section Data.
  Context {F W : Type}.
  Definition sample := dict F.
  Definition loc := (bool * nat)%type.                (* true: memory, false: file *)
  Definition store := loc -> sample.
  Definition loc_eqb (a b : loc) : bool := eqb (fst a) (fst b) && Nat.eqb (snd a) (snd b).
  Definition put (st : store) (l : loc) (s : sample) : store := fun m => if loc_eqb l m then s else st m.

  Inductive dset_t := Mem (ids : list nat) | File (ids : list nat) | Sub (p : dset_t) (idx : list nat).
  Definition dlen (d : dset_t) : nat := match d with Mem l | File l => length l | Sub _ l => length l end.
  Fixpoint locate (d : dset_t) (i : nat) : option loc :=
    match d with
    | Mem l => option_map (pair true) (nth_error l i)
    | File l => option_map (pair false) (nth_error l i)
    | Sub p l => match nth_error l i with Some j => locate p j | None => None end
    end.
  Definition is_file (d : dset_t) : bool := match d with File _ => true | _ => false end.
  (** dataset[i] (528-546, 708-726) *)
  Definition getitem (d : dset_t) (st : store) (i : nat) : option sample := option_map st (locate d i).

  (** an edit of a sample object: the object afterwards and the exception *)
  Definition edit := sample -> sample * option exn.
  (** one pass of the loops over samples of 271-280, 329-349, 409-434 *)
  Definition edit_one (d : dset_t) (f : edit) (st : store) (i : nat) : store * option exn :=
    match locate d i with
    | None => (st, Some IndexError)
    | Some l =>
      let (s', e) := f (st l) in
      if fst l then (put st l s', e)                         (* the object itself *)
      else match e with
           | Some _ => (st, e)
           | None => (if is_file d then put st l s' else st, None)  (* update_dataset_sample *)
           end
    end.
  Fixpoint edit_loop (one : store -> nat -> store * option exn) (l : list nat) (st : store) : store * option exn :=
    match l with
    | [] => (st, None)
    | i :: t => match one st i with (st', None) => edit_loop one t st' | r => r end
    end.
  Definition edit_all (d : dset_t) (f : edit) (st : store) : store * option exn :=
    edit_loop (edit_one d f) (seq 0 (dlen d)) st.

  (** add_dataset_feature_init 240-282 *)
  Definition add_feature (d : dset_t) (label : string) (v : F) (st : store) : store * option exn :=
    edit_all d (fun s => (dset s label v, None)) st.

  Definition has (s : sample) (l : string) : bool := match dget s l with Some _ => true | None => false end.
  (** 316-320, 387-391: every label exists in the first sample *)
  Fixpoint check_labels (d : dset_t) (st : store) (labels : list string) : option exn :=
    match labels with
    | [] => None
    | l :: t => match getitem d st 0 with
                | None => Some IndexError
                | Some s => if has s l then check_labels d st t else Some RuntimeError
                end
    end.
  (** sample.pop(label) in a loop (342-345, 427-430) *)
  Fixpoint pop_all (labels : list string) (s : sample) : sample * option exn :=
    match labels with
    | [] => (s, None)
    | l :: t => if has s l then pop_all t (ddel s l) else (s, Some KeyError)
    end.
  Definition set_and_pop (v : res F) (new : string) (labels : list string) (remove : bool) : edit := fun s =>
    match v with
    | Err e => (s, Some e)
    | Ok x => let s' := dset s new x in if remove then pop_all labels s' else (s', None)
    end.

  (** concatenate_dataset_features 284-351 *)
  Variable fcat : list F -> res F.
  Definition cat_value (labels : list string) (s : sample) : res F :=
    match labels with
    | [] => Err IndexError
    | [l] => dlookup s l
    | _ => rbind (rmap (dlookup s) labels) fcat
    end.
  Definition concatenate (d : dset_t) (new : string) (labels : list string) (remove : bool) (st : store) : store * option exn :=
    match check_labels d st labels with
    | Some e => (st, Some e)
    | None => edit_all d (fun s => set_and_pop (cat_value labels s) new labels (remove && negb (is_file d)) s) st
    end.

  (** sum_dataset_features 353-436; weights are floats (W), 1.0 by default *)
  Variables (w1 : W) (fscale : W -> F -> F) (fsum : list F -> res F).
  Definition weight (ws : dict W) (l : string) : W := match dget ws l with Some w => w | None => w1 end.
  Definition sum_value (ws : dict W) (labels : list string) (s : sample) : res F :=
    match labels with
    | [] => Err IndexError
    | [l] => rbind (dlookup s l) (fun x => Ok (fscale (weight ws l) x))
    | _ => rbind (rmap (fun l => rbind (dlookup s l) (fun x => Ok (fscale (weight ws l) x))) labels) fsum
    end.
  Definition sum_features (d : dset_t) (new : string) (labels : list string) (weights : option (dict W)) (remove : bool)
    (st : store) : store * option exn :=
    match check_labels d st labels with
    | Some e => (st, Some e)
    | None =>
      match weights, labels with
      | None, _ :: _ => (st, Some AttributeError)         (* features_weights.keys() with None (397) *)
      | _, _ =>
        let ws := match weights with Some ws => ws | None => [] end in
        edit_all d (fun s => set_and_pop (sum_value ws labels s) new labels (remove && negb (is_file d)) s) st
      end
    end.

  (** change_dataset_features_labels 197-238; neither the in-memory data set nor
      Subset supports item assignment (236) *)
  Definition rename_edit (old new : string) : edit := fun s =>
    match dget s old with
    | None => (s, Some KeyError)
    | Some v => (dset (ddel s old) new v, None)
    end.
  Definition rename_one (d : dset_t) (old new : string) (st : store) (i : nat) : store * option exn :=
    match edit_one d (rename_edit old new) st i with
    | (st', None) => (st', if is_file d then None else Some TypeError)
    | r => r
    end.
  Fixpoint rename_labels (d : dset_t) (m : list (string * string)) (st : store) : store * option exn :=
    match m with
    | [] => (st, None)
    | (old, new) :: t =>
      match getitem d st 0 with
      | None => (st, Some IndexError)
      | Some s =>
        if has s old then
          match edit_loop (rename_one d old new) (seq 0 (dlen d)) st with
          | (st', None) => rename_labels d t st'
          | r => r
          end
        else rename_labels d t st
      end
    end.
End Data.
Arguments sample : clear implicits.
Arguments store : clear implicits.

(** remove_dataset_samples 573-585 *)
Fixpoint remove_from {A} (k : nat) (indices : list nat) (l : list A) : list A :=
  match l with
  | [] => []
  | x :: t => (if existsb (Nat.eqb k) indices then [] else [x]) ++ remove_from (S k) indices t
  end.
Definition remove_samples {A} (indices : list nat) (l : list A) : list A := remove_from 0 indices l.
(** add_dataset_samples 560-571 *)
Definition add_samples {A} (samples l : list A) : list A := l ++ samples.
(** get_parent_dataset_indices 968-994 *)
Definition parent_indices (subset_indices : list nat) (l : list nat) : res (list nat) :=
  rmap (fun i => match nth_error subset_indices i with Some j => Ok j | None => Err IndexError end) l.

(** torch.utils.data.random_split with fractions: floors, then the remainder is
    dealt out one by one *)
Definition lens0 (n : nat) (fr : list Q) : list nat := map (fun v => Z.to_nat (Qfloor (inject_Z (Z.of_nat n) * v))) fr.
Definition nsum (l : list nat) : nat := fold_right Nat.add 0%nat l.
Definition bump (k : nat) (l : list nat) (i : nat) : list nat := upd l (i mod k) (S (nth (i mod k) l 0%nat)).
Definition split_lens (n : nat) (fr : list Q) : list nat :=
  let l := lens0 n fr in fold_left (bump (length fr)) (seq 0 (n - nsum l)) l.
Fixpoint slices {A} (lens : list nat) (l : list A) : list (list A) :=
  match lens with [] => [] | k :: t => firstn k l :: slices t (skipn k l) end.

(** split_dataset 870-966: indices of the samples of each subset *)
Definition valid_size (v : Q) : bool := Qle_bool 0 v && Qle_bool v 1.
Definition split_dataset (perm : nat -> list nat) (n : nat) (sizes : dict Q) : res (dict (list nat)) :=
  let fr := map snd sizes in
  if forallb valid_size fr then
    if Qeq_bool (fold_right Qplus 0 fr) 1 then
      let subs := slices (split_lens n fr) (perm n) in
      if existsb (fun s => match s with [] => true | _ => false end) subs then Err RuntimeError
      else Ok (combine (map fst sizes) subs)
    else Err RuntimeError
  else Err RuntimeError.
