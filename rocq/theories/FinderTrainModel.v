(** Training of the material model finder:
    src/hookeai/material_model_finder/train/training.py 185-420, and the records
    of its histories, src/hookeai/model_architectures/procedures/model_training.py
    163-340.

    The training state [P] holds the model parameters and the optimizer; the
    loss, the update (gradients, optimizer step, bounds and constraints), the
    learning rates of the scheduler and the convergence check are arguments.  An
    epoch has one training step, so that the mean values of an epoch are those of
    its step (305-317).  NaN losses are [None].  Printing, times, figures and the
    state files themselves (StateFileModel) are not modelled. *)
From Coq Require Import String ZArith Reals List Bool Arith.
From Verif Require Import Lib PyDict.
Import ListNotations.
Local Open Scope string_scope.
Local Open Scope list_scope.

(** get_last_lr returns a list, lr_init is a number: 309-312 *)
Inductive lr_entry := Rate (r : R) | RateList (r : R).
(** Python's <= and min on floats *)
Definition nan_le (a b : option R) : bool :=
  match a, b with Some x, Some y => if Rle_dec x y then true else false | _, _ => false end.
Definition nan_lt (a b : option R) : bool :=
  match a, b with Some x, Some y => if Rlt_dec x y then true else false | _, _ => false end.
Definition py_min (l : list (option R)) : option R :=
  match l with [] => None | a :: t => fold_left (fun m x => if nan_lt x m then x else m) t a end.
(** list.index of a new float: a NaN equals no entry *)
Fixpoint py_index_of (x : R) (l : list (option R)) (k : nat) : res nat :=
  match l with
  | [] => Err ValueError
  | Some y :: t => if Req_EM_T x y then Ok k else py_index_of x t (S k)
  | None :: t => py_index_of x t (S k)
  end.

Section Train.
Context {P : Type}.
Variables (loss : P -> option R) (update : R -> P -> P) (lr_init : R) (sched : option (nat -> R))
  (is_explicit is_params_stopping : bool) (converged : list P -> bool) (save_every : option nat) (n_max : nat).

Record tst := Tst { t_p : P; t_sched : nat; t_losses : list (option R); t_lr_steps : list lr_entry; t_lrs : list lr_entry;
                    t_params : list P; t_saved : list (nat * P); t_best : option (nat * P) }.
(** the rate of the optimizer after k steps of the scheduler, and its record *)
Definition rate (k : nat) : R := match sched with Some f => f k | None => lr_init end.
Definition lr_record (k : nat) : lr_entry := match sched with Some f => RateList (f k) | None => Rate lr_init end.
Definition is_saved_epoch (e : nat) : res bool :=
  match save_every with
  | None => Ok false
  | Some 0%nat => Err ZeroDivisionError
  | Some n => Ok (Nat.eqb (Nat.modulo e n) 0)
  end.
(** 237-343: one epoch; the flag tells whether the parameters have converged *)
Definition train_epoch (e : nat) (s : tst) : res (tst * bool) :=
  let l := loss (t_p s) in
  let p := update (rate (t_sched s)) (t_p s) in
  let lr_steps := t_lr_steps s ++ [lr_record (t_sched s)] in
  let k := S (t_sched s) in
  let losses := t_losses s ++ [l] in
  let lrs := t_lrs s ++ [lr_record k] in
  let params := t_params s ++ [p] in
  rbind (is_saved_epoch e) (fun sv =>
  let saved := if sv then t_saved s ++ [(e, p)] else t_saved s in
  let best := if nan_le l (py_min losses) then Some (e, p) else t_best s in
  let stop := is_explicit && is_params_stopping && converged params in
  Ok (Tst p k losses lr_steps lrs params saved best, stop)).
(** 345-357 *)
Fixpoint train_loop (fuel e : nat) (s : tst) : res (tst * nat) :=
  rbind (train_epoch e s) (fun r => let '(s', stop) := r in
  if Nat.leb n_max e then Ok (s', e)
  else if is_params_stopping && stop then Ok (s', e)
  else match fuel with 0%nat => Ok (s', e) | S f => train_loop f (S e) s' end).
(** 362-420: what is on file after training, and the outcome of the call *)
Record outcome := Out { o_saved : list (nat * P); o_best : option (nat * P); o_losses : list (option R); o_lrs : list lr_entry;
                        o_params : list P; o_result : res (R * nat) }.
Definition train_finder (p0 : P) : res outcome :=
  rbind (train_loop n_max 0 (Tst p0 0 [] [] [] [] [] None)) (fun r => let '(s, e) := r in
  Ok (Out (t_saved s ++ [(e, t_p s)]) (t_best s) (t_losses s) (t_lrs s) (t_params s)
      (if is_explicit && (match t_best s with None => true | _ => false end) then Err NameError
       else match py_min (t_losses s) with
            | None => Err ValueError
            | Some b => rbind (py_index_of b (t_losses s) 0) (fun i =>
                        if Nat.eqb e 0 then Err ZeroDivisionError else Ok (b, i))
            end))).
End Train.

(** ** Records: model_training.py 163-340 *)
Inductive item := Num (x : option R) | Tensor (x : option R).
Inductive value := VNone | VInt (z : Z) | VStr (s : string) | VItems (l : list item) | VRates (l : list lr_entry).
Definition record := list (string * value).
Definition save_loss_history (n_max_epochs : Z) (loss_nature loss_type : string) (training : list item)
  (lr_type : option string) (lrs : option (list lr_entry)) (validation : option (list item)) : record :=
  [("n_max_epochs", VInt n_max_epochs); ("loss_nature", VStr loss_nature); ("loss_type", VStr loss_type);
   ("training_loss_history", VItems training);
   ("lr_scheduler_type", match lr_type with Some s => VStr s | None => VNone end);
   ("lr_history_epochs", match lrs with Some l => VRates l | None => VNone end);
   ("validation_loss_history", match validation with Some l => VItems l | None => VNone end)].
(** detach and move: the values are kept *)
Definition detach (x : item) : item := match x with Tensor v => Tensor v | Num v => Num v end.
Definition str_of (v : value) : string := match v with VStr s => s | _ => "None" end.
Definition read_loss_history (f : option record) : res (string * string * list item * option (list item)) :=
  match f with
  | None => Err RuntimeError
  | Some d =>
    match gget String.eqb d "loss_nature", gget String.eqb d "loss_type", gget String.eqb d "training_loss_history" with
    | Some n, Some t, Some (VItems l) =>
      match gget String.eqb d "validation_loss_history" with
      | None => Err KeyError
      | Some (VItems v) => Ok (str_of n, str_of t, map detach l, Some (map detach v))
      | Some _ => Ok (str_of n, str_of t, map detach l, None)
      end
    | _, _, _ => Err RuntimeError
    end
  end.
Definition read_lr_history (f : option record) : res (value * list lr_entry) :=
  match f with
  | None => Err RuntimeError
  | Some d =>
    match gget String.eqb d "lr_scheduler_type", gget String.eqb d "lr_history_epochs" with
    | Some t, Some (VRates l) => Ok (t, l)
    | _, _ => Err RuntimeError
    end
  end.
