(** Learning rate schedules and the resumption of a training (C112). *)
From Coq Require Import String Reals List Bool Arith Lia Lra.
From Verif Require Import Lib PyDict ResumeModel.
Import ListNotations.
Local Open Scope string_scope.
Local Open Scope list_scope.
Local Open Scope R_scope.

(** ** Schedules *)
(** Closed forms of the rates *)
Definition step_law (lr gamma : R) (step_size k : nat) : R := lr * gamma ^ (Nat.div k step_size).
Definition exp_law (lr gamma : R) (k : nat) : R := lr * gamma ^ k.
Definition linear_law (lr a b : R) (n k : nat) : R := lr * (a + (b - a) * INR (Nat.min k n) / INR n).

Lemma div_step (n k : nat) : (n > 0)%nat ->
  Nat.div (S k) n = if Nat.eqb (Nat.modulo (S k) n) 0 then S (Nat.div k n) else Nat.div k n.
Proof.
  intros H. pose proof (Nat.div_mod (S k) n ltac:(lia)) as E. pose proof (Nat.mod_upper_bound (S k) n ltac:(lia)) as U.
  destruct (Nat.eqb_spec (Nat.modulo (S k) n) 0) as [Z|Z].
  - rewrite Z in E. remember (Nat.div (S k) n) as q eqn:Eq. destruct q as [|q]; [lia|]. f_equal.
    apply Nat.div_unique with (r := (n - 1)%nat); lia.
  - apply Nat.div_unique with (r := (Nat.modulo (S k) n - 1)%nat); lia.
Qed.
Theorem step_decay_rate n g lr k : (n > 0)%nat -> rate_after (StepDecay n g) lr k = Ok (step_law lr g n k).
Proof.
  intros H. unfold step_law. induction k as [|k IH]; cbn [rate_after].
  - rewrite Nat.div_0_l by lia. cbn. f_equal. ring.
  - rewrite IH. cbn [rbind]. destruct (Nat.eqb_spec n 0); [lia|]. rewrite (div_step n k H).
    destruct (Nat.eqb _ 0); [|reflexivity]. f_equal. cbn [pow]. ring.
Qed.
Theorem exp_decay_rate g lr k : rate_after (ExpDecay g) lr k = Ok (exp_law lr g k).
Proof. unfold exp_law. induction k as [|k IH]; cbn [rate_after]; [f_equal; cbn; ring|]. rewrite IH. cbn [rbind]. f_equal. cbn [pow]. ring. Qed.
Theorem linear_rate a b n lr k : (n > 0)%nat -> 0 < a -> 0 <= b -> rate_after (LinearRate a b n) lr k = Ok (linear_law lr a b n k).
Proof.
  intros H Ha Hb. unfold linear_law. assert (Hn : 0 < INR n) by (apply lt_0_INR; lia). induction k as [|k IH]; cbn [rate_after].
  - cbn [Nat.min]. f_equal. cbn [INR]. field. lra.
  - rewrite IH. cbn [rbind]. destruct (Nat.ltb_spec n (S k)) as [L|L].
    + rewrite !Nat.min_r by lia. reflexivity.
    + rewrite !Nat.min_l by lia. f_equal. rewrite S_INR.
      assert (D : INR n * a + INR k * (b - a) > 0).
      { apply le_INR in L. rewrite S_INR in L. pose proof (pos_INR k).
        replace (INR n * a + INR k * (b - a)) with ((INR n - INR k) * a + INR k * b) by ring.
        assert (0 < (INR n - INR k) * a) by (apply Rmult_lt_0_compat; lra). assert (0 <= INR k * b) by (now apply Rmult_le_pos). lra. }
      field. split; lra.
Qed.
(** A schedule of decay never raises the rate. *)
Theorem decay_never_increases s lr k r r' : 0 <= lr ->
  match s with StepDecay n g => (n > 0)%nat /\ 0 <= g <= 1 | ExpDecay g => 0 <= g <= 1 | LinearRate a b n => (n > 0)%nat /\ 0 < a /\ 0 <= b <= a end ->
  rate_after s lr k = Ok r -> rate_after s lr (S k) = Ok r' -> 0 <= r' <= r.
Proof.
  intros Hl Hs E E'. destruct s as [n g|g|a b n].
  - destruct Hs as [Hn Hg]. rewrite (step_decay_rate n g lr k Hn) in E. rewrite (step_decay_rate n g lr (S k) Hn) in E'. injection E as <-. injection E' as <-.
    unfold step_law. rewrite (div_step n k Hn). assert (Hp : 0 <= lr * g ^ Nat.div k n) by (apply Rmult_le_pos; [exact Hl|apply pow_le; lra]).
    destruct (Nat.eqb _ 0); [|lra]. cbn [pow]. replace (lr * (g * g ^ Nat.div k n)) with (g * (lr * g ^ Nat.div k n)) by ring.
    split; [apply Rmult_le_pos; lra|]. rewrite <- (Rmult_1_l (lr * g ^ Nat.div k n)) at 2. apply Rmult_le_compat_r; lra.
  - rewrite exp_decay_rate in E, E'. injection E as <-. injection E' as <-. unfold exp_law.
    assert (Hp : 0 <= lr * g ^ k) by (apply Rmult_le_pos; [exact Hl|apply pow_le; lra]). cbn [pow]. replace (lr * (g * g ^ k)) with (g * (lr * g ^ k)) by ring.
    split; [apply Rmult_le_pos; lra|]. rewrite <- (Rmult_1_l (lr * g ^ k)) at 2. apply Rmult_le_compat_r; lra.
  - destruct Hs as (Hn & Ha & Hb). rewrite linear_rate in E by lra || lia. rewrite linear_rate in E' by lra || lia. injection E as <-. injection E' as <-.
    unfold linear_law. assert (Hi : 0 < INR n) by (apply lt_0_INR; lia).
    assert (G : forall m, (m <= n)%nat -> 0 <= a + (b - a) * INR m / INR n).
    { intros m Hm. apply le_INR in Hm. pose proof (pos_INR m). replace (a + (b - a) * INR m / INR n) with (((INR n - INR m) * a + INR m * b) / INR n) by (field; lra).
      apply Rmult_le_pos; [|left; now apply Rinv_0_lt_compat]. apply Rplus_le_le_0_compat; apply Rmult_le_pos; lra. }
    split; [apply Rmult_le_pos; [exact Hl|apply G; lia]|]. apply Rmult_le_compat_l; [exact Hl|]. apply Rplus_le_compat_l. unfold Rdiv.
    apply Rmult_le_compat_r; [left; now apply Rinv_0_lt_compat|]. assert (L : INR (Nat.min k n) <= INR (Nat.min (S k) n)) by (apply le_INR; lia). nra.
Qed.
(** The linear schedule, documented as a decay, raises the rate with its default
    arguments, and does not begin with the initial rate. *)
Theorem linear_default_refuted lr : 0 < lr -> exists s, get_scheduler "linlr" [] = Ok s /\
  rate_after s lr 0 = Ok (lr / 3) /\ rate_after s lr 5 = Ok lr /\ lr / 3 < lr.
Proof.
  intros H. exists (LinearRate (1/3) 1 5). split; [|split; [|split]].
  - unfold get_scheduler. cbn. unfold in_unit. destruct (Rlt_dec 0 (1/3)); [|lra]. destruct (Rle_dec (1/3) 1); [|lra]. destruct (Rle_dec 0 1); [|lra].
    destruct (Rle_dec 1 1); [|lra]. reflexivity.
  - cbn. f_equal. lra.
  - rewrite linear_rate by (lia || lra). unfold linear_law. f_equal. cbn [Nat.min INR]. field.
  - lra.
Qed.
(** Refusals of optimizers and schedulers *)
Theorem optimizer_choice a : get_optimizer a = Err RuntimeError <-> a <> "adam".
Proof. unfold get_optimizer. destruct (String.eqb_spec a "adam"); split; congruence. Qed.
Theorem scheduler_refused t kw : get_scheduler t kw = Err RuntimeError <->
  ~ In t ["steplr"; "explr"; "linlr"] \/ (t = "steplr" /\ gget String.eqb kw "step_size" = None) \/ (t = "explr" /\ gget String.eqb kw "gamma" = None).
Proof.
  unfold get_scheduler. destruct (String.eqb_spec t "steplr") as [->|N1].
  - unfold has_kw. destruct (gget String.eqb kw "step_size") as [v|] eqn:E; cbn [negb].
    + split; [|intros [H|[[_ H]|[H _]]]; [exfalso; apply H; now left|discriminate|discriminate]].
      destruct (negb (only_keys _ kw)); [discriminate|]. unfold kw_int. rewrite E. destruct v; [|discriminate]. cbn [rbind].
      unfold kw_real. destruct (gget String.eqb kw "gamma") as [[|]|]; discriminate.
    + split; [|reflexivity]. intros _. right. left. now split.
  - destruct (String.eqb_spec t "explr") as [->|N2].
    + unfold has_kw. destruct (gget String.eqb kw "gamma") as [v|] eqn:E; cbn [negb].
      * split; [|intros [H|[[H _]|[_ H]]]; [exfalso; apply H; right; now left|discriminate|discriminate]].
        destruct (negb (only_keys _ kw)); [discriminate|]. unfold kw_real. rewrite E. destruct v; discriminate.
      * split; [|reflexivity]. intros _. right. right. now split.
    + destruct (String.eqb_spec t "linlr") as [->|N3].
      * split; [|intros [H|[[H _]|[H _]]]; [exfalso; apply H; right; right; now left|discriminate|discriminate]].
        destruct (negb (only_keys _ kw)); [discriminate|]. unfold kw_real, kw_int.
        destruct (gget String.eqb kw "start_factor") as [[|]|]; cbn [rbind]; destruct (gget String.eqb kw "end_factor") as [[|]|]; cbn [rbind];
        destruct (gget String.eqb kw "total_iters") as [[|]|]; cbn [rbind]; try discriminate; destruct (_ && _); discriminate.
      * split; [|reflexivity]. intros _. left. intros [H|[H|[H|[]]]]; congruence.
Qed.
(** A step size of zero is accepted and ends the training at its first update. *)
Theorem zero_step_refuted g lr : rate_after (StepDecay 0 g) lr 0 = Ok lr /\ forall k, rate_after (StepDecay 0 g) lr (S k) = Err ZeroDivisionError.
Proof. split; [reflexivity|]. induction k as [|k IH]; [reflexivity|]. cbn [rate_after] in *. rewrite IH. reflexivity. Qed.

(** ** Resumption *)
Section R.
Context {P T : Type}.
Variable run : R -> P * T -> R * (P * T).
Variable opt_init : T.
(** Specification: the states of a training with given rates *)
Fixpoint state_after (rates : nat -> R) (po : P * T) (k : nat) : P * T :=
  match k with 0%nat => po | S k => snd (run (rates k) (state_after rates po k)) end.
Definition loss_of (rates : nat -> R) (po : P * T) (k : nat) : R := fst (run (rates k) (state_after rates po k)).
Notation sessionPT := (session P T).

Lemma is_min_iff x l : is_min x l = true <-> Forall (fun y => x <= y) l.
Proof.
  unfold is_min. rewrite forallb_forall, Forall_forall. split; intros H y Hy; specialize (H y Hy); cbn in *;
  destruct (Rle_dec x y); (assumption || reflexivity || discriminate || contradiction).
Qed.
(** The states of a session are those of the training with the rates of the
    schedule from its beginning; the initial file has the starting parameters;
    the epoch files are those of this session, but for the epoch zero; the best
    file has the last smallest loss of this session. *)
Definition session_inv (rates : nat -> R) (po : P * T) (p0 : P) (old : list (nat * P)) (k : nat) (s : sessionPT) : Prop :=
  ss_po s = state_after rates po k /\ ss_losses s = map (loss_of rates po) (seq 0 k) /\ ss_rates s = map rates (seq 0 k) /\
  st_init (ss_store s) = Some p0 /\
  (k <> 0%nat -> forall e q, In (e, q) (st_epochs (ss_store s)) ->
     ((e < k)%nat /\ q = fst (state_after rates po (S e))) \/ (e = 0%nat /\ In (0%nat, q) old)) /\
  (k <> 0%nat -> exists b, (b < k)%nat /\ st_best (ss_store s) = Some (b, fst (state_after rates po (S b))) /\
     (forall j, (j < k)%nat -> loss_of rates po b <= loss_of rates po j) /\ (forall j, (b < j < k)%nat -> loss_of rates po b < loss_of rates po j)).

Lemma epochs_inv sched lr0 every rates p0 st k s :
  (forall j, (j <= k)%nat -> epoch_rate sched lr0 j = Ok (rates j)) -> st_init st = Some p0 -> every <> Some 0%nat ->
  train_epochs run sched lr0 every k (mkSession (p0, opt_init) [] [] st) = Ok s ->
  session_inv rates (p0, opt_init) p0 (st_epochs st) k s.
Proof.
  intros Hr Hi He. revert s. induction k as [|k IH]; intros s.
  - cbn. intros E. injection E as <-. unfold session_inv. cbn. repeat split; try assumption; intros H; contradiction.
  - cbn [train_epochs]. destruct (train_epochs run sched lr0 every k _) as [s0|] eqn:E0; [|discriminate]. cbn [rbind].
    assert (Hr' : forall j, (j <= k)%nat -> epoch_rate sched lr0 j = Ok (rates j)) by (intros j Hj; apply Hr; lia).
    specialize (IH Hr' s0 eq_refl). destruct IH as (I1 & I2 & I3 & I4 & I5 & I6).
    unfold train_epoch_in. rewrite (Hr k) by lia. cbn [rbind]. rewrite I1. destruct (run (rates k) (state_after rates (p0, opt_init) k)) as [loss po] eqn:Er.
    rewrite (Hr (S k)) by lia. cbn [rbind].
    assert (Hpo : state_after rates (p0, opt_init) (S k) = po) by (cbn [state_after]; now rewrite Er).
    assert (Hlo : loss_of rates (p0, opt_init) k = loss) by (unfold loss_of; now rewrite Er).
    assert (Hst : exists st1, (match every with None => Ok (ss_store s0) | Some 0%nat => Err ZeroDivisionError
        | Some n => Ok (if Nat.eqb (Nat.modulo k n) 0 then save_epoch k (fst po) (ss_store s0) else ss_store s0) end) = Ok st1 /\
        (st1 = ss_store s0 \/ st1 = save_epoch k (fst po) (ss_store s0))).
    { destruct every as [[|n]|]; [now elim He| |now eauto]. destruct (Nat.eqb _ 0); eauto. }
    destruct Hst as (st1 & -> & Hst1). cbn [rbind]. intros E. injection E as <-. unfold session_inv. cbn [ss_po ss_losses ss_rates ss_store].
    rewrite seq_S, !map_app, I2, I3. cbn [map Nat.add]. rewrite Hlo.
    split; [now rewrite Hpo|]. split; [reflexivity|]. split; [reflexivity|].
    assert (Ep : forall e q, In (e, q) (st_epochs st1) -> In (e, q) (st_epochs (ss_store s0)) \/ (e = k /\ q = fst po)).
    { intros e q Hq. destruct Hst1 as [->| ->]; [now left|]. cbn in Hq. destruct Hq as [Hq|Hq]; [injection Hq as <- <-; now right|]. left. now apply filter_In in Hq. }
    assert (B1 : st_best st1 = st_best (ss_store s0)) by (destruct Hst1 as [->| ->]; reflexivity).
    assert (N1 : st_init st1 = st_init (ss_store s0)) by (destruct Hst1 as [->| ->]; reflexivity).
    destruct (is_min loss _) eqn:Em.
    + apply is_min_iff in Em. cbn [save_best st_init st_epochs st_best]. split; [congruence|]. split.
      * intros _ e q Hq. unfold up_to in Hq. apply filter_In in Hq as [Hq Hle]. apply Nat.leb_le in Hle. cbn in Hle. destruct (Ep e q Hq) as [H|[-> ->]].
        -- destruct (Nat.eq_dec k 0) as [Z|Z].
           ++ subst k. cbn in E0. injection E0 as <-. cbn in H. right. assert (e = 0)%nat by lia. subst e. now split.
           ++ destruct (I5 Z e q H) as [[H1 H2]|H1]; [left; split; [lia|exact H2]|now right].
        -- left. split; [lia|now rewrite Hpo].
      * intros _. exists k. split; [lia|]. split; [now rewrite Hpo|]. rewrite Hlo. split; [|intros j Hj; lia].
        intros j Hj. rewrite Forall_forall in Em. destruct (Nat.eq_dec j k) as [->|Nj]; [rewrite Hlo; lra|]. apply Em. apply in_or_app. left.
        apply in_map. apply in_seq. lia.
    + assert (Zk : k <> 0%nat).
      { intros ->. cbn in Em. destruct (Rle_dec loss loss); [discriminate|lra]. }
      split; [congruence|]. split.
      * intros _ e q Hq. destruct (Ep e q Hq) as [H|[-> ->]].
        -- destruct (I5 Zk e q H) as [[H1 H2]|H1]; [left; split; [lia|exact H2]|now right].
        -- left. split; [lia|now rewrite Hpo].
      * intros _. destruct (I6 Zk) as (b & Hb & Eb & Mb & Lb). exists b. split; [lia|]. split; [congruence|].
        assert (Hgt : loss_of rates (p0, opt_init) b < loss).
        { destruct (Rlt_dec (loss_of rates (p0, opt_init) b) loss) as [|G]; [assumption|]. exfalso. apply Rnot_lt_le in G.
          assert (Forall (fun y => loss <= y) (map (loss_of rates (p0, opt_init)) (seq 0 k) ++ [loss])).
          { apply Forall_app. split; [|constructor; [lra|constructor]]. apply Forall_forall. intros y Hy. apply in_map_iff in Hy as (j & <- & Hj). apply in_seq in Hj.
            specialize (Mb j ltac:(lia)). lra. }
          apply is_min_iff in H. congruence. }
        split; intros j Hj; (destruct (Nat.eq_dec j k) as [->|Nj]; [rewrite Hlo; lra|]); [apply Mb; lia|apply Lb; lia].
Qed.

Lemma epochs_run sched lr0 every rates k s0 : (forall j, (j <= k)%nat -> epoch_rate sched lr0 j = Ok (rates j)) -> every <> Some 0%nat ->
  exists s, train_epochs run sched lr0 every k s0 = Ok s.
Proof.
  intros Hr He. induction k as [|k IH]; [now exists s0|]. destruct IH as [s1 E1]; [intros j Hj; apply Hr; lia|]. cbn [train_epochs]. rewrite E1. cbn [rbind].
  unfold train_epoch_in. rewrite (Hr k), (Hr (S k)) by lia. cbn [rbind]. destruct (run (rates k) (ss_po s1)) as [x y].
  destruct every as [[|n]|]; [now elim He| |]; cbn [rbind]; eauto.
Qed.
(** Where a session starts *)
Definition starts (l : option load_state) (fresh : P) (st st1 : store P) (p0 : P) : Prop :=
  match l with None => st1 = st /\ p0 = fresh | Some l => load l st = (st1, Ok p0) end.
Theorem session_runs l fresh sched lr0 every rates n st st1 p0 : starts l fresh st st1 p0 ->
  (forall j, (j <= S n)%nat -> epoch_rate sched lr0 j = Ok (rates j)) -> every <> Some 0%nat ->
  exists s, train_session run opt_init l fresh sched lr0 every n st = Ok s.
Proof.
  intros Hs Hr He. unfold train_session. destruct (epochs_run sched lr0 every rates (S n) (mkSession (p0, opt_init) [] [] (save_init p0 st1)) Hr He) as [s E].
  assert (G : match l with None => (st, Ok fresh) | Some l0 => load l0 st end = (st1, Ok p0)) by (destruct l; [exact Hs|destruct Hs; now subst]).
  rewrite G. cbn [rbind]. rewrite E. cbn [rbind]. eauto.
Qed.
Theorem session_law l fresh sched lr0 every rates n st st1 p0 s : starts l fresh st st1 p0 ->
  (forall j, (j <= S n)%nat -> epoch_rate sched lr0 j = Ok (rates j)) -> every <> Some 0%nat ->
  train_session run opt_init l fresh sched lr0 every n st = Ok s ->
  let states := state_after rates (p0, opt_init) in let losses := loss_of rates (p0, opt_init) in
  ss_po s = states (S n) /\ ss_losses s = map losses (seq 0 (S n)) /\ ss_rates s = map rates (seq 0 (S n)) /\
  st_init (ss_store s) = Some p0 /\
  (forall e q, In (e, q) (st_epochs (ss_store s)) -> ((e <= n)%nat /\ q = fst (states (S e))) \/ (e = 0%nat /\ In (0%nat, q) (st_epochs st1))) /\
  load LLast (ss_store s) = (ss_store s, Ok (fst (states (S n)))) /\
  exists b, (b <= n)%nat /\ st_best (ss_store s) = Some (b, fst (states (S b))) /\ forall j, (j <= n)%nat -> losses b <= losses j.
Proof.
  intros Hs Hr He. unfold train_session.
  assert (G : match l with None => (st, Ok fresh) | Some l0 => load l0 st end = (st1, Ok p0)) by (destruct l; [exact Hs|destruct Hs; now subst]).
  rewrite G. cbn [rbind]. destruct (train_epochs run sched lr0 every (S n) _) as [s1|] eqn:E; [|discriminate]. cbn [rbind]. intros E'. injection E' as <-.
  apply (epochs_inv sched lr0 every rates p0 (save_init p0 st1) (S n) s1 Hr eq_refl He) in E. destruct E as (I1 & I2 & I3 & I4 & I5 & I6).
  cbn [ss_po ss_losses ss_rates ss_store]. cbn zeta. split; [exact I1|]. split; [exact I2|]. split; [exact I3|]. split; [exact I4|].
  assert (K : forall e q, In (e, q) (st_epochs (save_epoch n (fst (ss_po s1)) (ss_store s1))) ->
    ((e <= n)%nat /\ q = fst (state_after rates (p0, opt_init) (S e))) \/ (e = 0%nat /\ In (0%nat, q) (st_epochs st1))).
  { intros e q Hq. cbn in Hq. destruct Hq as [Hq|Hq]; [injection Hq as <- <-; left; split; [lia|now rewrite I1]|]. apply filter_In in Hq as [Hq _].
    destruct (I5 ltac:(lia) e q Hq) as [[H1 H2]|H1]; [left; split; [lia|exact H2]|now right]. }
  split; [exact K|]. split.
  - unfold load. cbn [st_epochs save_epoch]. rewrite <- I1.
    assert (M : fold_right Nat.max 0%nat (map fst ((n, fst (ss_po s1)) :: filter (fun x => Nat.ltb (fst x) n) (st_epochs (ss_store s1)))) = n).
    { cbn [map fst fold_right]. apply Nat.max_l. clear. induction (st_epochs (ss_store s1)) as [|[a x] t IHt]; cbn [filter map fold_right fst]; [lia|].
      destruct (Nat.ltb_spec a n); cbn [filter map fold_right fst]; [apply Nat.max_lub; [lia|exact IHt]|exact IHt]. }
    rewrite M. cbn [get_epoch]. rewrite Nat.eqb_refl. reflexivity.
  - destruct (I6 ltac:(lia)) as (b & Hb & Eb & Mb & _). exists b. split; [lia|]. split; [exact Eb|]. intros j Hj. apply Mb. lia.
Qed.
(** Without a schedule, and with an optimizer that keeps no state, a training
    resumed from its last state goes on as if it had not been interrupted. *)
Theorem stateless_resume_continues l fresh fresh' lr0 every n m st st1 p0 s1 s2 s :
  (forall p t t', fst (run lr0 (p, t)) = fst (run lr0 (p, t')) /\ fst (snd (run lr0 (p, t))) = fst (snd (run lr0 (p, t')))) ->
  starts l fresh st st1 p0 -> every <> Some 0%nat ->
  train_session run opt_init l fresh None lr0 every n st = Ok s1 ->
  train_session run opt_init (Some LLast) fresh' None lr0 every m (ss_store s1) = Ok s2 ->
  train_session run opt_init l fresh None lr0 every (n + S m) st = Ok s ->
  fst (ss_po s2) = fst (ss_po s) /\ ss_losses s = ss_losses s1 ++ ss_losses s2.
Proof.
  intros HT Hs He E1 E2 E. set (rates := fun _ : nat => lr0).
  assert (Hr : forall k j, (j <= S k)%nat -> epoch_rate None lr0 j = Ok (rates j)) by reflexivity.
  destruct (session_law l fresh None lr0 every rates n st st1 p0 s1 Hs (Hr n) He E1) as (A1 & A2 & _ & _ & _ & A6 & _).
  destruct (session_law (Some LLast) fresh' None lr0 every rates m (ss_store s1) _ _ s2 A6 (Hr m) He E2) as (B1 & B2 & _).
  destruct (session_law l fresh None lr0 every rates (n + S m) st st1 p0 s Hs (Hr (n + S m)%nat) He E) as (C1 & C2 & _).
  set (q := fst (state_after rates (p0, opt_init) (S n))) in *.
  assert (G : forall k, fst (state_after rates (q, opt_init) k) = fst (state_after rates (p0, opt_init) (S n + k))).
  { induction k as [|k IH]; [rewrite Nat.add_0_r; reflexivity|]. rewrite Nat.add_succ_r.
    change (state_after rates (q, opt_init) (S k)) with (snd (run lr0 (state_after rates (q, opt_init) k))).
    change (state_after rates (p0, opt_init) (S (S n + k))) with (snd (run lr0 (state_after rates (p0, opt_init) (S n + k)))).
    destruct (state_after rates (q, opt_init) k) as [a t]. destruct (state_after rates (p0, opt_init) (S n + k)) as [a' t']. cbn [fst] in IH. subst a'. apply HT. }
  split.
  - rewrite B1, C1, G. reflexivity.
  - rewrite A2, B2, C2. replace (S (n + S m)) with (S n + S m)%nat by lia. rewrite (seq_app (S n) (S m) 0), map_app. f_equal. rewrite Nat.add_0_l.
    assert (Sh : forall k i, seq (k + i) (S m) = map (Nat.add k) (seq i (S m))).
    { clear. intros k. generalize (S m). induction n as [|a IH]; intros i; [reflexivity|]. cbn [seq map]. f_equal. rewrite <- IH. f_equal. lia. }
    rewrite <- (Nat.add_0_r (S n)) at 1. rewrite Sh, map_map. apply map_ext. intros k. unfold loss_of. specialize (G k).
    change (rates (S n + k)%nat) with lr0. change (rates k) with lr0.
    destruct (state_after rates (q, opt_init) k) as [a t]. destruct (state_after rates (p0, opt_init) (S n + k)) as [a' t']. cbn [fst] in G. subst a'. apply HT.
Qed.
(** The file of the initial state is overwritten with the state resumed from. *)
Theorem initial_file_refuted fresh fresh' lr0 every n m st s1 s2 : every <> Some 0%nat ->
  train_session run opt_init None fresh None lr0 every n st = Ok s1 ->
  train_session run opt_init (Some LLast) fresh' None lr0 every m (ss_store s1) = Ok s2 ->
  st_init (ss_store s1) = Some fresh /\ st_init (ss_store s2) = Some (fst (ss_po s1)).
Proof.
  intros He E1 E2. set (rates := fun _ : nat => lr0).
  assert (Hr : forall k j, (j <= S k)%nat -> epoch_rate None lr0 j = Ok (rates j)) by reflexivity.
  destruct (session_law None fresh None lr0 every rates n st st fresh s1 (conj eq_refl eq_refl) (Hr n) He E1) as (A1 & _ & _ & A4 & _ & A6 & _).
  destruct (session_law (Some LLast) fresh' None lr0 every rates m (ss_store s1) _ _ s2 A6 (Hr m) He E2) as (_ & _ & _ & B4 & _).
  split; [exact A4|]. now rewrite B4, A1.
Qed.
(** The schedule begins again: the resumed training uses the initial rate, the
    uninterrupted one a smaller one. *)
Theorem resumed_rate_refuted fresh fresh' lr0 g every n m st s1 s2 s : every <> Some 0%nat -> 0 < lr0 -> 0 < g < 1 ->
  train_session run opt_init None fresh (Some (ExpDecay g)) lr0 every n st = Ok s1 ->
  train_session run opt_init (Some LLast) fresh' (Some (ExpDecay g)) lr0 every m (ss_store s1) = Ok s2 ->
  train_session run opt_init None fresh (Some (ExpDecay g)) lr0 every (n + S m) st = Ok s ->
  nth 0 (ss_rates s2) 0 = lr0 /\ nth (S n) (ss_rates s) 0 < lr0.
Proof.
  intros He Hl Hg E1 E2 E. set (rates := exp_law lr0 g).
  assert (Hr : forall k j, (j <= S k)%nat -> epoch_rate (Some (ExpDecay g)) lr0 j = Ok (rates j)) by (intros; apply exp_decay_rate).
  destruct (session_law None fresh _ lr0 every rates n st st fresh s1 (conj eq_refl eq_refl) (Hr n) He E1) as (_ & _ & _ & _ & _ & A6 & _).
  destruct (session_law (Some LLast) fresh' _ lr0 every rates m (ss_store s1) _ _ s2 A6 (Hr m) He E2) as (_ & _ & B3 & _).
  destruct (session_law None fresh _ lr0 every rates (n + S m) st st fresh s (conj eq_refl eq_refl) (Hr (n + S m)%nat) He E) as (_ & _ & C3 & _).
  rewrite B3, C3. split.
  - cbn. unfold rates, exp_law. cbn. ring.
  - rewrite (nth_indep _ 0 (rates 0%nat)) by (rewrite map_length, seq_length; lia). rewrite map_nth, seq_nth by lia. rewrite Nat.add_0_l. unfold rates, exp_law.
    assert (H : g ^ S n < 1). { apply pow_lt_1_compat; [lra|lia]. } nra.
Qed.
End R.

(** The state of the optimizer is lost: with one that counts its steps, the
    parameters after the resumed training are never those of the uninterrupted one. *)
Definition counting (lr : R) (po : R * R) : R * (R * R) := (0, (fst po - lr * (snd po + 1), snd po + 1)).
Lemma counting_states lr p t k : state_after counting (fun _ => lr) (p, t) k = (p - lr * (INR k * t + INR k * (INR k + 1) / 2), t + INR k).
Proof. induction k as [|k IH]; [cbn; f_equal; lra|]. cbn [state_after]. rewrite IH. unfold counting. cbn [fst snd]. rewrite S_INR. f_equal; field. Qed.
Theorem optimizer_state_refuted lr0 every n m fresh fresh' st s1 s2 s : lr0 <> 0 -> every <> Some 0%nat ->
  train_session counting 0 None fresh None lr0 every n st = Ok s1 ->
  train_session counting 0 (Some LLast) fresh' None lr0 every m (ss_store s1) = Ok s2 ->
  train_session counting 0 None fresh None lr0 every (n + S m) st = Ok s ->
  fst (ss_po s2) <> fst (ss_po s).
Proof.
  intros Hl He E1 E2 E. set (rates := fun _ : nat => lr0).
  assert (Hr : forall k j, (j <= S k)%nat -> epoch_rate None lr0 j = Ok (rates j)) by reflexivity.
  destruct (session_law _ _ None fresh None lr0 every rates n st st fresh s1 (conj eq_refl eq_refl) (Hr n) He E1) as (A1 & _ & _ & _ & _ & A6 & _).
  destruct (session_law _ _ (Some LLast) fresh' None lr0 every rates m (ss_store s1) _ _ s2 A6 (Hr m) He E2) as (B1 & _).
  destruct (session_law _ _ None fresh None lr0 every rates (n + S m) st st fresh s (conj eq_refl eq_refl) (Hr (n + S m)%nat) He E) as (C1 & _).
  rewrite B1, C1. unfold rates. rewrite !counting_states. cbn [fst]. rewrite !S_INR, plus_INR, S_INR. intros H.
  assert (Z : lr0 * ((INR n + 1) * (INR m + 1)) = 0) by nra. apply Rmult_integral in Z as [Z|Z]; [contradiction|].
  pose proof (pos_INR n). pose proof (pos_INR m). nra.
Qed.
(** The best state of the resumed training replaces a better one. *)
Definition worsening (lr : R) (po : R * unit) : R * (R * unit) := (fst po, (fst po + 1, tt)).
Lemma worsening_states lr p k : state_after worsening (fun _ => lr) (p, tt) k = (p + INR k, tt).
Proof. induction k as [|k IH]; [cbn; f_equal; lra|]. cbn [state_after]. rewrite IH. unfold worsening. cbn [fst snd]. rewrite S_INR. f_equal. lra. Qed.
Theorem best_replaced_refuted lr0 every n m fresh' st s1 s2 : every <> Some 0%nat ->
  train_session worsening tt None 0 None lr0 every n st = Ok s1 ->
  train_session worsening tt (Some LLast) fresh' None lr0 every m (ss_store s1) = Ok s2 ->
  nth 0 (ss_losses s1) 1 = 0 /\ Forall (fun x => 1 <= x) (ss_losses s2) /\
  exists p, st_best (ss_store s1) = Some (0%nat, 1) /\ st_best (ss_store s2) = Some (0%nat, p) /\ p = INR (S n) + 1.
Proof.
  intros He E1 E2. set (rates := fun _ : nat => lr0).
  assert (Hr : forall k j, (j <= S k)%nat -> epoch_rate None lr0 j = Ok (rates j)) by reflexivity.
  destruct (session_law _ _ None 0 None lr0 every rates n st st 0 s1 (conj eq_refl eq_refl) (Hr n) He E1) as (_ & A2 & _ & _ & _ & A6 & b1 & A7 & A8 & A9).
  destruct (session_law _ _ (Some LLast) fresh' None lr0 every rates m (ss_store s1) _ _ s2 A6 (Hr m) He E2) as (_ & B2 & _ & _ & _ & _ & b2 & B7 & B8 & B9).
  unfold rates in *. rewrite worsening_states in B2, B8. rewrite A2, B2. cbn [fst] in *.
  assert (L : forall p k, loss_of worsening (fun _ => lr0) (p, tt) k = p + INR k) by (intros; unfold loss_of; rewrite worsening_states; reflexivity).
  split; [cbn [seq map nth]; rewrite L; cbn; lra|]. split.
  - apply Forall_forall. intros x Hx. apply in_map_iff in Hx as (k & <- & _). rewrite L, S_INR. pose proof (pos_INR n). pose proof (pos_INR k). lra.
  - specialize (A9 0%nat ltac:(lia)). specialize (B9 0%nat ltac:(lia)). rewrite !L in A9, B9.
    assert (Z1 : b1 = 0%nat) by (destruct b1; [reflexivity|]; rewrite S_INR in A9; cbn in A9; pose proof (pos_INR b1); lra).
    assert (Z2 : b2 = 0%nat).
    { rewrite worsening_states in B9. destruct b2; [reflexivity|]. rewrite (S_INR b2) in B9. cbn [fst] in B9. change (INR 0) with 0 in B9. pose proof (pos_INR b2). lra. }
    subst b1 b2. exists (INR (S n) + 1). split; [|split; [|reflexivity]].
    + rewrite A8, worsening_states. cbn [fst]. f_equal. f_equal. cbn. lra.
    + rewrite B8, worsening_states. cbn [fst]. f_equal. f_equal. cbn [INR]. lra.
Qed.

(** ** Cases *)
Example ex_schedules : get_scheduler "steplr" [("step_size", KInt 10)] = Ok (StepDecay 10 (1/10)) /\ get_scheduler "explr" [] = Err RuntimeError
  /\ step_law 1 (1/10) 10 25 = 1/100 /\ linear_law 3 (1/3) 1 5 5 = 3.
Proof. repeat split; [unfold step_law; change (Nat.div 25 10) with 2%nat; lra|unfold linear_law; cbn [Nat.min INR]; field]. Qed.
Example ex_resume : exists s1 s2, train_session counting 0 None 5 None (1/2) None 1 (mkStore None [] None) = Ok s1
  /\ train_session counting 0 (Some LLast) 0 None (1/2) (Some 1%nat) 0 (ss_store s1) = Ok s2
  /\ fst (ss_po s1) = 7/2 /\ fst (ss_po s2) = 3 /\ map fst (st_epochs (ss_store s2)) = [0%nat] /\ st_init (ss_store s1) = Some 5.
Proof.
  destruct (session_runs counting 0 None 5 None (1/2) None (fun _ => 1/2) 1 (mkStore None [] None) _ _ (conj eq_refl eq_refl)) as [s1 E1]; [reflexivity|discriminate|].
  destruct (session_law counting 0 None 5 None (1/2) None (fun _ => 1/2) 1 (mkStore None [] None) _ _ s1 (conj eq_refl eq_refl)) as (A1 & _ & _ & A4 & A5 & A6 & _);
    [reflexivity|discriminate|exact E1|].
  destruct (session_runs counting 0 (Some LLast) 0 None (1/2) (Some 1%nat) (fun _ => 1/2) 0 (ss_store s1) _ _ A6) as [s2 E2]; [reflexivity|discriminate|].
  destruct (session_law counting 0 (Some LLast) 0 None (1/2) (Some 1%nat) (fun _ => 1/2) 0 (ss_store s1) _ _ s2 A6) as (B1 & _); [reflexivity|discriminate|exact E2|].
  exists s1, s2. split; [exact E1|]. split; [exact E2|]. rewrite A1, B1, !counting_states. cbn [fst INR]. split; [lra|]. split; [lra|]. split; [|exact A4].
  unfold train_session in E2. rewrite A6 in E2. cbn [rbind] in E2. destruct (train_epochs counting None (1/2) (Some 1%nat) 1 _) as [x|] eqn:Ex; [|discriminate].
  cbn [rbind] in E2. injection E2 as <-. cbn [ss_store save_epoch st_epochs map fst]. f_equal.
  induction (st_epochs (ss_store x)) as [|[a b] t IH]; [reflexivity|]. cbn. exact IH.
Qed.

(** Loading a state keeps the states of the epochs up to it, and removes the later ones. *)
Theorem load_removes_later {P} (l : load_state) (s s' : @store P) p : load l s = (s', Ok p) ->
  st_init s' = st_init s /\ st_best s' = st_best s /\
  forall e q, In (e, q) (st_epochs s') <-> In (e, q) (st_epochs s) /\
    match l with LInit => (e <= 0)%nat | LEpoch k => (e <= k)%nat | LBest => exists b pb, st_best s = Some (b, pb) /\ (e <= b)%nat | LLast => True end.
Proof.
  assert (U : forall k (l : list (nat * P)) e q, In (e, q) (up_to k l) <-> In (e, q) l /\ (e <= k)%nat).
  { intros k l0 e q. unfold up_to. rewrite filter_In. cbn [fst]. now rewrite Nat.leb_le. }
  destruct l as [|k| |]; cbn [load]; unfold found.
  - destruct (st_init s) eqn:E; [|discriminate]. intros H. injection H as <- _. cbn. split; [congruence|]. split; [reflexivity|]. intros e q. apply U.
  - destruct (get_epoch _ k); [|discriminate]. intros H. injection H as <- _. cbn. split; [reflexivity|]. split; [reflexivity|]. intros e q. apply U.
  - destruct (st_best s) as [[b pb]|] eqn:E; [|discriminate]. intros H. injection H as <- _. cbn. split; [reflexivity|]. split; [congruence|]. intros e q. rewrite U. split; [intros [I L]; split; [exact I|]; eauto|].
    intros [I (b' & pb' & Q & L)]. injection Q as <- <-. now split.
  - destruct (st_epochs s) as [|x r] eqn:E; [discriminate|]. destruct (get_epoch _ _); [|discriminate]. intros H. injection H as <- _. rewrite E. split; [reflexivity|]. split; [reflexivity|]. tauto.
Qed.
Print Assumptions step_decay_rate.
Print Assumptions exp_decay_rate.
Print Assumptions linear_rate.
Print Assumptions decay_never_increases.
Print Assumptions linear_default_refuted.
Print Assumptions optimizer_choice.
Print Assumptions scheduler_refused.
Print Assumptions zero_step_refuted.
Print Assumptions session_runs.
Print Assumptions session_law.
Print Assumptions stateless_resume_continues.
Print Assumptions initial_file_refuted.
Print Assumptions resumed_rate_refuted.
Print Assumptions optimizer_state_refuted.
Print Assumptions best_replaced_refuted.
Print Assumptions load_removes_later.
