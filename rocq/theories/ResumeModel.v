(** Learning rate schedules and the resumption of a training.

    src/hookeai/utilities/optimizers.py 24-110 (get_pytorch_optimizer,
      get_learning_rate_scheduler);
    src/hookeai/model_architectures/rnn_base_model/train/training.py 178-251, 303-475
      (train_model: initialization, loop and saved states, without early stopping);
    src/hookeai/model_architectures/procedures/model_state_files.py 35-290 (saving and
      loading of the states; the files are those of StateFileModel, here as a store).

    The schedulers of PyTorch are modelled by their recursions (StepLR,
    ExponentialLR, LinearLR with their default arguments). One epoch of the
    optimizer is an arbitrary function of the learning rate, the parameters of
    the model and the state of the optimizer. *)
From Coq Require Import String Reals List Bool Arith.
From Verif Require Import Lib PyDict.
Import ListNotations.
Local Open Scope string_scope.
Local Open Scope list_scope.
Local Open Scope R_scope.

(** ** Schedules *)
Inductive kwarg := KInt (n : nat) | KReal (r : R).
Inductive schedule :=
| StepDecay (step_size : nat) (gamma : R)
| ExpDecay (gamma : R)
| LinearRate (start_factor end_factor : R) (total_iters : nat).
Definition kw_real (d : list (string * kwarg)) (k : string) (default : R) : res R :=
  match gget String.eqb d k with None => Ok default | Some (KReal r) => Ok r | Some (KInt n) => Ok (INR n) end.
Definition kw_int (d : list (string * kwarg)) (k : string) (default : nat) : res nat :=
  match gget String.eqb d k with None => Ok default | Some (KInt n) => Ok n | Some (KReal _) => Err TypeError end.
Definition only_keys (allowed : list string) (d : list (string * kwarg)) : bool :=
  forallb (fun e => existsb (String.eqb (fst e)) allowed) d.
Definition has_kw (d : list (string * kwarg)) (k : string) : bool := match gget String.eqb d k with Some _ => true | None => false end.
Definition in_unit (lo : bool) (x : R) : bool :=
  (if lo then (if Rlt_dec 0 x then true else false) else (if Rle_dec 0 x then true else false)) && (if Rle_dec x 1 then true else false).
(** optimizers.py 24-50 *)
Definition get_optimizer (algorithm : string) : res unit := if String.eqb algorithm "adam" then Ok tt else Err RuntimeError.
(** 52-110 *)
Definition get_scheduler (scheduler_type : string) (kw : list (string * kwarg)) : res schedule :=
  if String.eqb scheduler_type "steplr" then
    if negb (has_kw kw "step_size") then Err RuntimeError
    else if negb (only_keys ["step_size"; "gamma"] kw) then Err TypeError
    else rbind (kw_int kw "step_size" 0%nat) (fun s => rbind (kw_real kw "gamma" (1/10)) (fun g => Ok (StepDecay s g)))
  else if String.eqb scheduler_type "explr" then
    if negb (has_kw kw "gamma") then Err RuntimeError
    else if negb (only_keys ["gamma"] kw) then Err TypeError
    else rbind (kw_real kw "gamma" 0) (fun g => Ok (ExpDecay g))
  else if String.eqb scheduler_type "linlr" then
    if negb (only_keys ["start_factor"; "end_factor"; "total_iters"] kw) then Err TypeError
    else rbind (kw_real kw "start_factor" (1/3)) (fun s => rbind (kw_real kw "end_factor" 1) (fun e =>
         rbind (kw_int kw "total_iters" 5%nat) (fun t =>
         if in_unit true s && in_unit false e then Ok (LinearRate s e t) else Err ValueError)))
  else Err RuntimeError.
(** The rate after k calls of step (the constructor makes the first one, k = 0);
    a step size of zero fails at the first update. *)
Fixpoint rate_after (s : schedule) (lr_init : R) (k : nat) : res R :=
  match k with
  | O => Ok (match s with LinearRate a _ _ => lr_init * a | _ => lr_init end)
  | S k' =>
    rbind (rate_after s lr_init k') (fun lr =>
    match s with
    | StepDecay n g => if Nat.eqb n 0 then Err ZeroDivisionError
                       else if Nat.eqb (Nat.modulo (S k') n) 0 then Ok (lr * g) else Ok lr
    | ExpDecay g => Ok (lr * g)
    | LinearRate a b n =>
      if Nat.ltb n (S k') then Ok lr
      else Ok (lr * (1 + (b - a) / (INR n * a + INR k' * (b - a))))
    end)
  end.
(** training.py 243-249, 396-406: the rate of epoch k *)
Definition epoch_rate (sched : option schedule) (lr_init : R) (k : nat) : res R :=
  match sched with None => Ok lr_init | Some s => rate_after s lr_init k end.

(** ** State files *)
Section Resume.
Context {P T : Type}.
Record store := mkStore { st_init : option P; st_epochs : list (nat * P); st_best : option (nat * P) }.
Fixpoint get_epoch (l : list (nat * P)) (e : nat) : option P :=
  match l with [] => None | (k, p) :: t => if Nat.eqb k e then Some p else get_epoch t e end.
(** remove_posterior_state_files *)
Definition up_to (e : nat) (l : list (nat * P)) : list (nat * P) := filter (fun x => Nat.leb (fst x) e) l.
(** model_state_files.py 35-115 *)
Definition save_init (p : P) (s : store) : store := mkStore (Some p) (st_epochs s) (st_best s).
Definition save_epoch (e : nat) (p : P) (s : store) : store :=
  mkStore (st_init s) ((e, p) :: filter (fun x => Nat.ltb (fst x) e) (st_epochs s)) (st_best s).
Definition save_best (e : nat) (p : P) (s : store) : store := mkStore (st_init s) (up_to e (st_epochs s)) (Some (e, p)).
(** 117-270 *)
Inductive load_state := LInit | LEpoch (e : nat) | LBest | LLast.
Definition found (s : store) (p : option P) : store * res P :=
  match p with Some p => (s, Ok p) | None => (s, Err RuntimeError) end.
Definition load (l : load_state) (s : store) : store * res P :=
  match l with
  | LInit => let s' := mkStore (st_init s) (up_to 0 (st_epochs s)) (st_best s) in found s' (st_init s)
  | LEpoch e => let s' := mkStore (st_init s) (up_to e (st_epochs s)) (st_best s) in found s' (get_epoch (st_epochs s') e)
  | LBest => match st_best s with
             | None => (s, Err RuntimeError)
             | Some (e, p) => (mkStore (st_init s) (up_to e (st_epochs s)) (st_best s), Ok p)
             end
  | LLast => match st_epochs s with
             | [] => (s, Err RuntimeError)
             | _ => found s (get_epoch (st_epochs s) (fold_right Nat.max 0%nat (map fst (st_epochs s))))
             end
  end.

(** ** Training *)
(** one epoch: learning rate, parameters and optimizer state to the average loss,
    the new parameters and the new optimizer state *)
Variable run : R -> P * T -> R * (P * T).
Variable opt_init : T.
Record session := mkSession { ss_po : P * T; ss_losses : list R; ss_rates : list R; ss_store : store }.
(** training.py 304-450: epoch e of a session *)
Definition is_min (x : R) (l : list R) : bool := forallb (fun y => if Rle_dec x y then true else false) l.
Definition train_epoch_in (sched : option schedule) (lr_init : R) (save_every : option nat) (e : nat) (s : session) : res session :=
  rbind (epoch_rate sched lr_init e) (fun lr =>
  let '(loss, po) := run lr (ss_po s) in
  (* the scheduler is updated at the end of the epoch *)
  rbind (epoch_rate sched lr_init (S e)) (fun _ =>
  let losses := ss_losses s ++ [loss] in
  rbind (match save_every with
         | None => Ok (ss_store s)
         | Some O => Err ZeroDivisionError
         | Some n => Ok (if Nat.eqb (Nat.modulo e n) 0 then save_epoch e (fst po) (ss_store s) else ss_store s)
         end) (fun st1 =>
  let st2 := if is_min loss losses then save_best e (fst po) st1 else st1 in
  Ok (mkSession po losses (ss_rates s ++ [lr]) st2)))).
Fixpoint train_epochs (sched : option schedule) (lr_init : R) (save_every : option nat) (n : nat) (s : session) : res session :=
  match n with
  | O => Ok s
  | S n' => rbind (train_epochs sched lr_init save_every n' s) (train_epoch_in sched lr_init save_every n')
  end.
(** 178-218, 230-263, 303-475: the epochs 0, ..., n_max are run *)
Definition train_session (model_load_state : option load_state) (fresh : P) (sched : option schedule) (lr_init : R)
    (save_every : option nat) (n_max : nat) (st : store) : res session :=
  let '(st1, p) := match model_load_state with None => (st, Ok fresh) | Some l => load l st end in
  rbind p (fun p =>
  rbind (train_epochs sched lr_init save_every (S n_max) (mkSession (p, opt_init) [] [] (save_init p st1))) (fun s =>
  Ok (mkSession (ss_po s) (ss_losses s) (ss_rates s) (save_epoch n_max (fst (ss_po s)) (ss_store s))))).
End Resume.
Arguments store : clear implicits.
Arguments session : clear implicits.
