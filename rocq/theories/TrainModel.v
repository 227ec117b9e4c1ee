(** Model of the training loops, of the early stopping criterion and of the
    parameter convergence criterion.
    Sources (under src/hookeai):
    model_architectures/rnn_base_model/train/training.py 303-507 (train_model),
    509-829 (EarlyStopper); model_architectures/rc_base_model/train/training.py
    297-631 (train_model), 777-904 (check_model_parameters_convergence),
    906-1242 (EarlyStopper); material_model_finder/train/training.py 237-420.
    Simplifications: model and optimiser state are one abstract state; an epoch
    of optimisation is an arbitrary function from the state to the average loss
    and the new state; the validation loss is an arbitrary function of the state
    ([None] is NaN); saving a state is recorded in a store (see StateFileModel
    for the files). *)
From Coq Require Import String Reals List Bool Arith.
From Verif Require Import Lib PyDict MatrixModel ParamModel.
Import ListNotations.
Local Open Scope R_scope.
Local Open Scope list_scope.

(** Strict comparison with a minimum that may be infinite ([None]). *)
Definition below (v : option R) (m : option R) : bool :=
  match v, m with
  | None, _ => false
  | Some _, None => true
  | Some x, Some y => if Rlt_dec x y then true else false
  end.

Section EarlyStopper.
  Context {M : Type}.
  Record stopper := Stopper {
    es_steps : list nat;             (* _validation_steps_history *)
    es_history : list (option R);    (* _validation_loss_history *)
    es_min : option R;               (* _min_validation_loss, None = inf *)
    es_n_not_improve : nat;
    es_best : option (M * nat) }.    (* best states and best epoch *)

  (** rnn training.py 590-603 *)
  Definition stopper_init : stopper := Stopper [] [] None 0 None.

  (** Python [epoch % n == 0]: raises for n = 0. *)
  Definition is_multiple (n epoch : nat) : res bool :=
    if Nat.eqb n 0 then Err ZeroDivisionError else Ok (Nat.eqb (epoch mod n) 0).

  (** rnn training.py 615-629 *)
  Definition is_evaluate_criterion (frequency epoch : nat) : res bool := is_multiple frequency epoch.

  (** rnn training.py 780-790 *)
  Definition record_validation (s : stopper) (epoch : nat) (v : option R) : stopper :=
    let h := es_history s in
    let h' := match h with [] => [] | _ => h ++ repeat (last h None) (epoch - length h) end in
    Stopper (es_steps s ++ [epoch]) (h' ++ [v]) (es_min s) (es_n_not_improve s) (es_best s).

  (** (min - v)/|min| > tol with the floating-point conventions for min = inf
      (inf/inf is NaN: false) and min = 0 (positive/0 is inf: true). *)
  Definition relative_improvement_above (m : option R) (v tol : R) : bool :=
    match m with
    | None => false
    | Some y => if Req_EM_T y 0 then true else if Rlt_dec tol ((y - v) / Rabs y) then true else false
    end.

  (** rnn training.py 631-710 *)
  Definition evaluate_criterion (improvement_tol : R) (trigger : nat)
    (s0 : stopper) (model : M) (epoch : nat) (v : option R) : stopper * bool :=
    let s := record_validation s0 epoch v in
    let s' :=
      if below v (es_min s) then
        let n := if Nat.ltb 1 (length (es_steps s)) then
            match v with
            | Some x => if relative_improvement_above (es_min s) x improvement_tol then 0%nat
                        else S (es_n_not_improve s)
            | None => es_n_not_improve s
            end
          else es_n_not_improve s in
        Stopper (es_steps s) (es_history s) v n (Some (model, epoch))
      else Stopper (es_steps s) (es_history s) (es_min s) (S (es_n_not_improve s)) (es_best s) in
    (s', Nat.leb trigger (es_n_not_improve s')).

  (** rnn training.py 799-829 *)
  Definition load_best_performance_state (s : stopper) : res (M * nat) :=
    match es_best s with Some b => Ok b | None => Err RuntimeError end.
End EarlyStopper.
Arguments stopper : clear implicits.

(** Configuration of a training run. *)
Record es_config := ESConfig { es_frequency : nat; es_trigger : nat; es_improvement : R }.

Section Train.
  Context {M : Type}.
  Variable run_epoch : nat -> M -> R * M.        (* average loss, state after the epoch *)
  Variable valid_loss : nat -> M -> option R.    (* validation loss of a state *)
  Variable params_converged : nat -> M -> bool.  (* parameter convergence criterion *)
  Variable early : option es_config.             (* is_early_stopping *)
  Variable params_stopping : bool.               (* is_params_stopping *)
  Variable save_every : option nat.
  Variable n_max_epochs : nat.

  (** What the loop leaves behind: loss history, saved epoch states (latest
      first), saved best state, early stopper. *)
  Record tstate := TState {
    t_model : M;
    t_losses : list R;
    t_saved : list (nat * M);
    t_best : option (M * nat);
    t_stopper : stopper M;
    t_stop : bool }.

  Definition list_min (l : list R) : R := match l with [] => 0 | a :: t => fold_left Rmin t a end.

  (** One pass of the loop: rnn training.py 304-435, rc training.py 350-536. *)
  Definition train_epoch (epoch : nat) (t : tstate) : res tstate :=
    let '(avg, m) := run_epoch epoch (t_model t) in
    let losses := t_losses t ++ [avg] in
    rbind (match save_every with
           | Some k => rbind (is_multiple k epoch) (fun b => Ok (if b then (epoch, m) :: t_saved t else t_saved t))
           | None => Ok (t_saved t) end) (fun saved =>
    let best := if Rle_dec avg (list_min losses) then Some (m, epoch) else t_best t in
    rbind
      (match early with
       | None => Ok (TState m losses saved best (t_stopper t) (t_stop t))
       | Some c =>
         rbind (is_evaluate_criterion (es_frequency c) epoch) (fun ev =>
         let '(st, stop) :=
           if ev
           then evaluate_criterion (es_improvement c) (es_trigger c) (t_stopper t) m epoch (valid_loss epoch m)
           else (t_stopper t, t_stop t) in
         if stop then
           rbind (load_best_performance_state st) (fun b =>
             Ok (TState (fst b) losses saved (Some b) st true))
         else Ok (TState m losses saved best st false))
       end)
      (fun t' =>
       if params_stopping then
         Ok (TState (t_model t') (t_losses t') (t_saved t') (t_best t') (t_stopper t')
                    (params_converged epoch (t_model t')))
       else Ok t')).

  (** rnn training.py 437-448, rc 538-553: the loop, with fuel [n_max + 1]. *)
  Fixpoint train_loop (fuel epoch : nat) (t : tstate) : res (nat * tstate) :=
    match fuel with
    | O => Err RuntimeError   (* out of fuel: excluded by train_loop_enough_fuel *)
    | S fuel' =>
      rbind (train_epoch epoch t) (fun t' =>
        if Nat.leb n_max_epochs epoch then Ok (epoch, t')
        else if (params_stopping && t_stop t') || (match early with Some _ => t_stop t' | None => false end)
        then Ok (epoch, t')
        else train_loop fuel' (S epoch) t')
    end.

  Fixpoint index_of (x : R) (l : list R) : nat :=
    match l with [] => 0 | a :: t => if Req_EM_T a x then 0 else S (index_of x t) end.

  (** Result: last epoch, final store, best loss, best training epoch. *)
  Record tresult := TResult {
    tr_epoch : nat; tr_state : tstate; tr_best_loss : R; tr_best_epoch : nat }.

  (** rnn training.py 260-507: the last line models total_time_sec/epoch. *)
  Definition train_model (m0 : M) : res tresult :=
    rbind (train_loop (S n_max_epochs) 0 (TState m0 [] [] None stopper_init false)) (fun r =>
      let '(epoch, t) := r in
      let t' := TState (t_model t) (t_losses t) ((epoch, t_model t) :: t_saved t) (t_best t) (t_stopper t) (t_stop t) in
      let best_loss := list_min (t_losses t') in
      let best_epoch := index_of best_loss (t_losses t') in
      if Nat.eqb epoch 0 then Err ZeroDivisionError
      else Ok (TResult epoch t' best_loss best_epoch)).
End Train.

(** ** Parameter convergence criterion (rc training.py 777-904) *)
Definition pc_small : R := 1 / 10 ^ 8.

(** rc training.py 830-835: relative differences of consecutive values,
    absolute ones when the earlier value is close to zero. *)
Fixpoint rdiff_hist (h : list R) : list R :=
  match h with
  | a :: (b :: _) as t =>
    (if Rlt_dec pc_small (Rabs a) then Rabs (Rabs (b - a) / a) else Rabs (Rabs (b - a))) :: rdiff_hist t
  | _ => []
  end.

(** Python slice l[-k:] (the whole list for k = 0 and for k > length). *)
Definition last_slice {A} (k : nat) (l : list A) : list A :=
  match k with O => l | _ => skipn (length l - k) l end.

Definition all_below (tol : R) (l : list R) : bool := forallb (fun x => if Rlt_dec x tol then true else false) l.

(** rc training.py 828-845: convergence flag of one parameter. *)
Definition param_converged (tol : R) (trigger : nat) (h : list R) : bool :=
  if Nat.ltb 1 (length h) then
    if Nat.ltb trigger (length h) then all_below tol (last_slice trigger (rdiff_hist h)) else false
  else false.

(** rc training.py 889-904; [param_hist] of line 891 is the history of the last
    parameter of the loop; NameError without parameters (its value is never
    bound). *)
Definition check_model_parameters_convergence (tol : R) (trigger min_hist : nat)
  (hists : dict (list R)) : res bool :=
  match hists with
  | [] => Err NameError
  | _ =>
    if existsb (fun kv => match snd kv with [] => true | _ => false end) hists then Err IndexError
    else Ok (forallb (fun kv => param_converged tol trigger (snd kv)) hists
             && Nat.ltb min_hist (length (snd (last hists (EmptyString, [])))))
  end.

(** ** Parameter history per epoch
    rc training.py 298-304, 469-472, 491-493: the step history starts with the
    initial value; [steps] are the values after each batch of each epoch. *)
Definition mean (l : list R) : R := lsum l / INR (length l).
Fixpoint epoch_param_history (step_hist : list R) (init_step : nat) (steps : list (list R)) : list R :=
  match steps with
  | [] => []
  | vals :: rest =>
    let h := step_hist ++ vals in
    mean (skipn init_step h) :: epoch_param_history h (init_step + length vals) rest
  end.
Definition rc_param_history (init : R) (steps : list (list R)) : list R :=
  init :: epoch_param_history [init] 0 steps.
(** material_model_finder/train/training.py 215-219, 295-296, 315-319: the step
    history starts empty. *)
Definition finder_param_history (steps : list (list R)) : list R := epoch_param_history [] 0 steps.
