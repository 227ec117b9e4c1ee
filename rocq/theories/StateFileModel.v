(** Model of the model/optimiser state files.
    Sources (under src/hookeai/model_architectures/procedures):
    model_state_files.py 35-377, model_training.py 49-161.
    Simplifications: one model directory, a dictionary from file names to
    contents; file names are strings and the regular expressions are matched
    character by character, where the only metacharacter handled in the model
    name is '.' (any character); epochs are non-negative; a torch state is an
    abstract value; the checks of the model object itself are omitted. *)
From Coq Require Import String Ascii List Bool Arith.
From Verif Require Import Lib PyDict PyStr.
Import ListNotations.
Local Open Scope string_scope.

Section Files.
  Context {S : Type}.
  Definition dir := dict S.
  (** A computation on the directory that may raise. *)
  Definition io (A : Type) := dir -> dir * res A.
  Definition iret {A} (a : A) : io A := fun d => (d, Ok a).
  Definition ierr {A} (e : exn) : io A := fun d => (d, Err e).
  Definition ibind {A B} (m : io A) (f : A -> io B) : io B :=
    fun d => let '(d', r) := m d in match r with Ok a => f a d' | Err e => (d', Err e) end.
  Definition listdir : io (list string) := fun d => (d, Ok (dkeys d)).
  Definition remove_file (f : string) : io unit := fun d => (ddel d f, Ok tt).
  Definition write_file (f : string) (s : S) : io unit := fun d => (dset d f s, Ok tt).
  Fixpoint iter {A} (f : A -> io unit) (l : list A) : io unit :=
    match l with [] => iret tt | a :: t => ibind (f a) (fun _ => iter f t) end.

  (** '.' in the pattern matches any character but a newline. *)
  Definition char_match (p c : ascii) : bool :=
    if Ascii.eqb p dot then negb (Ascii.eqb c "010"%char) else Ascii.eqb p c.
  Fixpoint strip_name (pat s : string) : option string :=
    match pat with
    | EmptyString => Some s
    | String p pat' =>
      match s with
      | String c s' => if char_match p c then strip_name pat' s' else None
      | EmptyString => None
      end
    end.

  (** ^name-[0-9]+\.pt (model_state_files.py 296-297) *)
  Definition match_state (name f : string) : bool :=
    match strip_name name f with
    | Some (String c r) => Ascii.eqb c dash &&
        match r with String c1 r' => is_digit c1 && starts_with ".pt" (skip_digits r') | EmptyString => false end
    | _ => false
    end.
  (** ^name-?[0-9]*-best\.pt (model_state_files.py 330-332) *)
  Definition match_best (name f : string) : bool :=
    match strip_name name f with
    | Some r => starts_with "-best.pt" (skip_digits r) ||
        match r with String c r' => Ascii.eqb c dash && starts_with "-best.pt" (skip_digits r') | EmptyString => false end
    | None => false
    end.

  Definition nth_last (k : nat) (l : list string) : res string :=
    match nth_error (rev l) k with Some x => Ok x | None => Err IndexError end.

  (** model_state_files.py 274-304 *)
  Definition check_state_file (name f : string) : res (option nat) :=
    if match_state name f
    then rbind (nth_last 0 (split_dash (splitext_root f))) (fun s => rbind (int_of s) (fun n => Ok (Some n)))
    else Ok None.
  (** model_state_files.py 306-339 *)
  Definition check_best_state_file (name f : string) : res (option nat) :=
    if match_best name f
    then rbind (nth_last 1 (split_dash (splitext_root f))) (fun s => rbind (int_of s) (fun n => Ok (Some n)))
    else Ok None.

  Definition lift {A} (r : res A) : io A := fun d => (d, r).

  (** model_state_files.py 341-359 *)
  Definition remove_posterior_state_files (name : string) (epoch : nat) : io unit :=
    ibind listdir (iter (fun f =>
      ibind (lift (check_state_file name f)) (fun o =>
        match o with Some e => if Nat.ltb epoch e then remove_file f else iret tt | None => iret tt end))).
  (** model_state_files.py 361-377 *)
  Definition remove_best_state_files (name : string) : io unit :=
    ibind listdir (iter (fun f =>
      ibind (lift (check_best_state_file name f)) (fun o =>
        match o with Some _ => remove_file f | None => iret tt end))).

  (** File names (model_state_files.py 86-108). *)
  Definition default_file (name : string) : string := name ++ ".pt".
  Definition init_file (name : string) : string := name ++ "-init.pt".
  Definition epoch_file (name : string) (e : nat) : string := name ++ "-" ++ nat_str e ++ ".pt".
  Definition best_file (name : string) (e : nat) : string := name ++ "-" ++ nat_str e ++ "-best.pt".
  Definition best_file_no_epoch (name : string) : string := name ++ "-best.pt".

  Inductive state_type := TInit | TBest | TOther.   (* 'init' | 'best' | 'epoch', 'default' *)

  (** model_state_files.py 35-114 *)
  Definition save_model_state (name : string) (s : S) (ty : state_type) (epoch : option nat)
    (is_remove_posterior : bool) : io unit :=
    let file := match ty, epoch with
      | TInit, _ => init_file name
      | TBest, Some e => best_file name e
      | TBest, None => best_file_no_epoch name
      | TOther, Some e => epoch_file name e
      | TOther, None => default_file name end in
    ibind (match ty with TBest => remove_best_state_files name | _ => iret tt end) (fun _ =>
    ibind (write_file file s) (fun _ =>
      match epoch with
      | Some e => if is_remove_posterior then remove_posterior_state_files name e else iret tt
      | None => iret tt
      end)).

  Inductive load_state := LInit | LEpoch (e : nat) | LBest | LLast | LDefault.

  Fixpoint check_all (check : string -> res (option nat)) (l : list string) : res (list nat) :=
    match l with
    | [] => Ok []
    | f :: t => rbind (check f) (fun o => rbind (check_all check t) (fun r =>
        Ok (match o with Some e => e :: r | None => r end)))
    end.

  (** model_state_files.py 116-272: the loaded state and its epoch *)
  Definition read_state (file : string) (epoch : option nat) : io (S * option nat) :=
    fun d => (d, match dget d file with Some s => Ok (s, epoch) | None => Err RuntimeError end).
  Definition load_model_state (name : string) (which : load_state) (is_remove_posterior : bool)
    : io (S * option nat) :=
    let clean e := if is_remove_posterior then remove_posterior_state_files name e else iret tt in
    match which with
    | LInit => ibind (clean 0) (fun _ => read_state (init_file name) (Some 0))
    | LEpoch e => ibind (clean e) (fun _ => read_state (epoch_file name e) (Some e))
    | LBest =>
      ibind listdir (fun l =>
      ibind (lift (check_all (check_best_state_file name) l)) (fun es =>
        match es with
        | [] => ierr RuntimeError
        | [e] => ibind (clean e) (fun _ => read_state (best_file name e) (Some e))
        | _ => ierr RuntimeError
        end))
    | LLast =>
      ibind listdir (fun l =>
      ibind (lift (check_all (check_state_file name) l)) (fun es =>
        match es with
        | [] => ierr RuntimeError
        | _ => let e := list_max es in read_state (epoch_file name e) (Some e)
        end))
    | LDefault => read_state (default_file name) None
    end.

  (** model_training.py 49-161: optimiser state files are those of the name
      followed by '_optim', except that removing the best file does not read its
      epoch and that nothing is written for the initial state. *)
  Definition optim_name (name : string) : string := name ++ "_optim".
  Definition remove_best_optim_files (oname : string) : io unit :=
    ibind listdir (iter (fun f => if match_best oname f then remove_file f else iret tt)).
  Definition save_training_state (name : string) (model optimizer : S) (ty : state_type) (epoch : option nat)
    (is_remove_posterior : bool) : io unit :=
    let oname := optim_name name in
    ibind (save_model_state name model ty epoch is_remove_posterior) (fun _ =>
      match ty with
      | TInit => iret tt
      | _ =>
        let file := match ty, epoch with
          | TBest, Some e => best_file oname e
          | TBest, None => best_file_no_epoch oname
          | _, Some e => epoch_file oname e
          | _, None => default_file oname end in
        ibind (match ty with TBest => remove_best_optim_files oname | _ => iret tt end) (fun _ =>
        ibind (write_file file optimizer) (fun _ =>
          match epoch with
          | Some e => if is_remove_posterior then remove_posterior_state_files oname e else iret tt
          | None => iret tt
          end))
      end).
End Files.
