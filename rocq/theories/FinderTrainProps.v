(** Properties of the training of the material model finder (FinderTrainModel.v). *)
From Coq Require Import String ZArith Reals List Bool Arith Lia Lra.
From Verif Require Import Lib PyDict FinderTrainModel.
Import ListNotations.
Local Open Scope string_scope.
Local Open Scope list_scope.

(** ** Minimum of a history *)
Lemma fold_nan t : fold_left (fun m x => if nan_lt x m then x else m) t None = None.
Proof. induction t as [|[x|] t IH]; cbn [fold_left nan_lt]; [reflexivity|exact IH|exact IH]. Qed.
(** With a first loss that is a number, NaN losses are passed over. *)
Lemma py_min_spec a t : exists m, py_min (Some a :: t) = Some m /\ In (Some m) (Some a :: t) /\
  forall y, In (Some y) (Some a :: t) -> (m <= y)%R.
Proof.
  cbn [py_min]. revert a. induction t as [|x t IH]; intros a.
  - exists a. split; [reflexivity|]. split; [now left|]. intros y [H|[]]. injection H as <-. lra.
  - cbn [fold_left]. destruct x as [x|]; cbn [nan_lt].
    + destruct (Rlt_dec x a) as [L|L].
      * destruct (IH x) as (m & E & I & M). exists m. split; [exact E|]. split; [destruct I as [I|I]; [right; left; exact I|right; right; exact I]|].
        intros y [H|[H|H]]; [|apply M; left; exact H|apply M; right; exact H]. injection H as <-. specialize (M x (or_introl eq_refl)). lra.
      * destruct (IH a) as (m & E & I & M). exists m. split; [exact E|]. split; [destruct I as [I|I]; [left; exact I|right; right; exact I]|].
        intros y [H|[H|H]]; [apply M; left; exact H| |apply M; right; exact H]. injection H as <-. specialize (M a (or_introl eq_refl)). lra.
    + destruct (IH a) as (m & E & I & M). exists m. split; [exact E|]. split; [destruct I as [I|I]; [left; exact I|right; right; exact I]|].
      intros y [H|[H|H]]; [apply M; left; exact H|discriminate H|apply M; right; exact H].
Qed.
Lemma py_min_nan t : py_min (None :: t) = None. Proof. apply fold_nan. Qed.
Lemma index_spec x l k : In (Some x) l -> exists i, py_index_of x l k = Ok (k + i)%nat /\ nth_error l i = Some (Some x) /\
  forall j, (j < i)%nat -> nth_error l j <> Some (Some x).
Proof.
  revert k. induction l as [|[y|] l IH]; intros k H; [destruct H| |].
  - cbn [py_index_of]. destruct (Req_EM_T x y) as [<-|N].
    + exists 0%nat. split; [now rewrite Nat.add_0_r|]. split; [reflexivity|]. intros j Hj. lia.
    + destruct H as [H|H]; [congruence|]. destruct (IH (S k) H) as (i & E & I & M). exists (S i). split; [rewrite E; f_equal; lia|].
      split; [exact I|]. intros [|j] Hj; [cbn; congruence|]. apply M. lia.
  - cbn [py_index_of]. destruct H as [H|H]; [discriminate H|]. destruct (IH (S k) H) as (i & E & I & M). exists (S i).
    split; [rewrite E; f_equal; lia|]. split; [exact I|]. intros [|j] Hj; [cbn; discriminate|]. apply M. lia.
Qed.

(** ** The run *)
Section Run.
Context {P : Type}.
Variables (loss : P -> option R) (update : R -> P -> P) (lr_init : R) (sched : option (nat -> R))
  (is_explicit is_params_stopping : bool) (converged : list P -> bool) (save_every : option nat) (n_max : nat) (p0 : P).
Hypothesis Hsave : save_every <> Some 0%nat.

(** The parameters before epoch k: each epoch uses the rate of the scheduler after
    as many steps. *)
Fixpoint state (k : nat) : P := match k with 0%nat => p0 | S j => update (rate lr_init sched j) (state j) end.
Definition stops_at (e : nat) : Prop :=
  is_explicit = true /\ is_params_stopping = true /\ converged (map (fun k => state (S k)) (seq 0 (S e))) = true.
Definition best_at (n : nat) (best : option (nat * P)) : Prop :=
  match n with
  | 0%nat => best = None
  | S _ => match loss p0 with
           | None => best = None
           | Some _ => exists b x, best = Some (b, state (S b)) /\ (b < n)%nat /\ loss (state b) = Some x /\
               forall k y, (k < n)%nat -> loss (state k) = Some y -> (x <= y)%R /\ ((b < k)%nat -> (x < y)%R)
           end
  end.
Definition saved_at (e : nat) : bool := match save_every with Some n => Nat.eqb (Nat.modulo e n) 0 | None => false end.
Definition inv (n : nat) (s : tst (P := P)) : Prop :=
  t_p s = state n /\ t_sched s = n /\ t_losses s = map (fun k => loss (state k)) (seq 0 n) /\
  t_lr_steps s = map (lr_record lr_init sched) (seq 0 n) /\
  t_lrs s = map (fun k => lr_record lr_init sched (S k)) (seq 0 n) /\ t_params s = map (fun k => state (S k)) (seq 0 n) /\
  t_saved s = map (fun k => (k, state (S k))) (filter saved_at (seq 0 n)) /\ best_at n (t_best s).

Lemma losses_in n x : In (Some x) (map (fun k => loss (state k)) (seq 0 n)) <-> exists k, (k < n)%nat /\ loss (state k) = Some x.
Proof.
  rewrite in_map_iff. split; intros (k & A & B); exists k; [apply in_seq in B; split; [lia|exact A]|split; [exact B|apply in_seq; lia]].
Qed.
Lemma losses_min n : match loss p0 with
  | None => py_min (map (fun k => loss (state k)) (seq 0 (S n))) = None
  | Some _ => exists m, py_min (map (fun k => loss (state k)) (seq 0 (S n))) = Some m /\
      (exists k, (k < S n)%nat /\ loss (state k) = Some m) /\ forall k y, (k < S n)%nat -> loss (state k) = Some y -> (m <= y)%R
  end.
Proof.
  destruct (loss p0) as [a|] eqn:E.
  - pose proof (losses_in (S n)) as LI. cbn [seq map] in *. cbn [state] in *. rewrite E in *.
    destruct (py_min_spec a (map (fun k => loss (state k)) (seq 1 n))) as (m & A & B & C). exists m. split; [exact A|].
    split; [apply LI, B|]. intros k y Hk Hy. apply C, LI. exists k. split; assumption.
  - cbn [seq map state]. rewrite E. apply py_min_nan.
Qed.
Lemma epoch_inv e s : inv e s -> exists s' stop, train_epoch loss update lr_init sched is_explicit is_params_stopping converged save_every e s = Ok (s', stop) /\
  inv (S e) s' /\ (stop = true <-> stops_at e).
Proof.
  intros (A & B & C & D & D2 & F & G & H). unfold train_epoch.
  assert (SV : is_saved_epoch save_every e = Ok (saved_at e)).
  { unfold is_saved_epoch, saved_at. destruct save_every as [[|n]|]; [congruence|reflexivity|reflexivity]. }
  rewrite SV. cbn [rbind]. do 2 eexists. split; [reflexivity|]. rewrite A, B, C, D, D2, F, G.
  assert (SQ : seq 0 (S e) = seq 0 e ++ [e]) by (rewrite seq_S; reflexivity).
  assert (M : map (fun k => loss (state k)) (seq 0 e) ++ [loss (state e)] = map (fun k => loss (state k)) (seq 0 (S e))) by (rewrite SQ, map_app; reflexivity).
  split.
  - unfold inv. cbn [t_p t_sched t_losses t_lr_steps t_lrs t_params t_saved t_best]. rewrite SQ, filter_app, !map_app. cbn [filter].
    repeat split; try reflexivity.
    + destruct (saved_at e); cbn [map]; [reflexivity|now rewrite app_nil_r].
    + rewrite M. pose proof (losses_min e) as LM. unfold best_at in *. destruct (loss p0) as [a|] eqn:Ea.
      * destruct LM as (m & -> & (k0 & Hk0 & Em) & Mn). unfold nan_le. destruct (loss (state e)) as [x|] eqn:Ex.
        -- destruct (Rle_dec x m) as [L|L].
           ++ exists e, x. repeat split; [lia|exact Ex|specialize (Mn k y H0 H1); lra|lia].
           ++ destruct e as [|e]; [cbn [state] in Ex; rewrite Ea in Ex; injection Ex as <-; exfalso; assert (k0 = 0%nat) as -> by lia; cbn [state] in Em; rewrite Ea in Em; injection Em as <-; apply L; lra|].
              destruct H as (b & z & Eb & Hb & Ez & Hz). exists b, z. repeat split; [exact Eb|lia|exact Ez| |]; intros.
              ** destruct (Nat.eq_dec k (S e)) as [->|]; [|apply (Hz k y); [lia|assumption]].
                 assert (y = x) by congruence. subst y. destruct (Nat.eq_dec k0 (S e)) as [->|]; [rewrite Ex in Em; injection Em as ->; lra|].
                 destruct (Hz k0 m) as [Q _]; [lia|exact Em|]. lra.
              ** destruct (Nat.eq_dec k (S e)) as [->|]; [|apply (Hz k y); [lia|assumption|assumption]].
                 assert (y = x) by congruence. subst y. destruct (Nat.eq_dec k0 (S e)) as [->|]; [rewrite Ex in Em; injection Em as ->; lra|].
                 destruct (Hz k0 m) as [Q _]; [lia|exact Em|]. lra.
        -- destruct e as [|e]; [cbn [state] in Ex; congruence|]. destruct H as (b & z & Eb & Hb & Ez & Hz). exists b, z.
           repeat split; [exact Eb|lia|exact Ez| |]; intros.
           ++ destruct (Nat.eq_dec k (S e)) as [->|]; [congruence|]. apply (Hz k y); [lia|assumption].
           ++ destruct (Nat.eq_dec k (S e)) as [->|]; [congruence|]. apply (Hz k y); [lia|assumption|assumption].
      * rewrite LM. unfold nan_le. destruct (loss (state e)); destruct e; exact H.
  - unfold stops_at. rewrite SQ, map_app. cbn [map]. cbn [state]. rewrite !andb_true_iff. tauto.
Qed.
(** The last epoch: n_max, or the first at which the parameters have converged. *)
Definition last_epoch (e : nat) : Prop :=
  (e <= n_max)%nat /\ (forall k, (k < e)%nat -> ~ stops_at k) /\ (e = n_max \/ stops_at e).
Lemma loop_inv fuel e s : inv e s -> (e + fuel = n_max)%nat -> (forall k, (k < e)%nat -> ~ stops_at k) ->
  exists s' l, train_loop loss update lr_init sched is_explicit is_params_stopping converged save_every n_max fuel e s = Ok (s', l) /\
  inv (S l) s' /\ last_epoch l.
Proof.
  revert e s. induction fuel as [|fuel IH]; intros e s I F N; destruct (epoch_inv e s I) as (s' & stop & E & I' & Hs); cbn [train_loop]; rewrite E; cbn [rbind].
  - destruct (Nat.leb_spec n_max e); [|lia]. exists s', e. split; [reflexivity|]. split; [exact I'|]. repeat split; [lia|exact N|left; lia].
  - destruct (Nat.leb_spec n_max e); [lia|]. destruct (is_params_stopping && stop) eqn:Q.
    + apply andb_true_iff in Q. destruct Q as [_ Q]. exists s', e. split; [reflexivity|]. split; [exact I'|].
      repeat split; [lia|exact N|right; now apply Hs].
    + assert (NS : ~ stops_at e). { intros H1. pose proof (proj2 Hs H1) as ->. destruct H1 as (_ & H1 & _). rewrite H1 in Q. discriminate Q. }
      apply IH; [exact I'|lia|]. intros k Hk. destruct (Nat.eq_dec k e) as [->|]; [exact NS|]. apply N. lia.
Qed.
(** What is on file after training: one loss, rate and parameter set per epoch
    up to the last one, and the states of the saved epochs and of the last. *)
Theorem finder_run : exists o e,
  train_finder loss update lr_init sched is_explicit is_params_stopping converged save_every n_max p0 = Ok o /\ last_epoch e /\
  o_losses o = map (fun k => loss (state k)) (seq 0 (S e)) /\
  o_lrs o = map (fun k => lr_record lr_init sched (S k)) (seq 0 (S e)) /\
  o_params o = map (fun k => state (S k)) (seq 0 (S e)) /\
  o_saved o = map (fun k => (k, state (S k))) (filter saved_at (seq 0 (S e))) ++ [(e, state (S e))] /\
  best_at (S e) (o_best o) /\
  match loss p0 with
  | None => o_result o = Err (if is_explicit then NameError else ValueError)
  | Some _ => exists m i, loss (state i) = Some m /\ (i <= e)%nat /\
      (forall k y, (k <= e)%nat -> loss (state k) = Some y -> (m <= y)%R /\ ((k < i)%nat -> (m < y)%R)) /\
      o_result o = if Nat.eqb e 0 then Err ZeroDivisionError else Ok (m, i)
  end.
Proof.
  destruct (loop_inv n_max 0 (Tst p0 0 [] [] [] [] [] None)) as (s & e & E & (A & B & C & D & D2 & F & G & H) & L).
  - repeat split.
  - lia.
  - intros k Hk. lia.
  - unfold train_finder. rewrite E. cbn [rbind]. eexists. exists e. split; [reflexivity|]. split; [exact L|].
    cbn [o_losses o_lrs o_params o_saved o_best o_result]. rewrite A, C, D2, F, G.
    split; [reflexivity|]. split; [reflexivity|]. split; [reflexivity|]. split; [reflexivity|]. split; [exact H|].
    pose proof (losses_min e) as LM. cbn [best_at] in H. destruct (loss p0) as [a|] eqn:Ea.
    + destruct H as (b & x & -> & _). rewrite andb_false_r. destruct LM as (m & -> & K & Mn).
      destruct (index_spec m (map (fun k => loss (state k)) (seq 0 (S e))) 0) as (i & Ei & Ni & Fi); [apply losses_in, K|].
      rewrite Ei. cbn [rbind]. cbn [Nat.add].
      assert (NE : forall j, (j < S e)%nat -> nth_error (map (fun k => loss (state k)) (seq 0 (S e))) j = Some (loss (state j))).
      { intros j Hj. rewrite nth_error_map, (nth_error_nth' _ 0%nat) by (rewrite seq_length; exact Hj). rewrite seq_nth by exact Hj. reflexivity. }
      assert (Hi : (i < S e)%nat). { assert (Q : nth_error (map (fun k => loss (state k)) (seq 0 (S e))) i <> None) by congruence. apply nth_error_Some in Q. rewrite map_length, seq_length in Q. exact Q. }
      exists m, i. split; [rewrite NE in Ni by exact Hi; congruence|]. split; [lia|]. split; [|reflexivity].
      intros k y Hk Hy. assert (Q : (m <= y)%R) by (apply (Mn k); [lia|exact Hy]). split; [exact Q|]. intros Hki.
      specialize (Fi k Hki). rewrite NE in Fi by lia. rewrite Hy in Fi. destruct Q as [Q| ->]; [exact Q|congruence].
    + rewrite H, LM. destruct is_explicit; reflexivity.
Qed.
End Run.

Section Corollaries.
Context {P : Type}.
Variables (loss : P -> option R) (update : R -> P -> P) (lr_init : R) (sched : option (nat -> R))
  (is_explicit is_params_stopping : bool) (converged : list P -> bool) (save_every : option nat) (n_max : nat) (p0 : P).
Let run := train_finder loss update lr_init sched is_explicit is_params_stopping converged save_every n_max p0.

(** Whatever holds after every update (bounds, constraints) holds for every
    parameter set on file. *)
Theorem finder_files_keep (Q : P -> Prop) o : (forall r p, Q (update r p)) -> run = Ok o ->
  Forall Q (o_params o) /\ Forall (fun x => Q (snd x)) (o_saved o) /\ match o_best o with Some (_, p) => Q p | None => True end.
Proof.
  intros H E. unfold run in E.
  assert (Hs : save_every <> Some 0%nat). { intros ->. unfold train_finder in E. destruct n_max; cbn in E; discriminate E. }
  destruct (finder_run loss update lr_init sched is_explicit is_params_stopping converged save_every n_max p0 Hs) as (o' & e & E' & _ & _ & _ & A & B & C & _).
  rewrite E in E'. injection E' as <-. rewrite A, B. split; [|split].
  - apply Forall_forall. intros x Hx. apply in_map_iff in Hx. destruct Hx as (k & <- & _). apply H.
  - apply Forall_app. split; [|repeat constructor; apply H]. apply Forall_forall. intros x Hx. apply in_map_iff in Hx. destruct Hx as (k & <- & _). apply H.
  - cbn [best_at] in C. destruct (loss p0); [|now rewrite C]. destruct C as (b & x & -> & _). apply H.
Qed.
(** Without the convergence check, or without explicit parameters, all epochs
    from 0 to the maximum are run: one more than asked for. *)
Theorem finder_epochs o : is_explicit && is_params_stopping = false -> run = Ok o -> length (o_losses o) = S n_max.
Proof.
  intros H E. unfold run in E.
  assert (Hs : save_every <> Some 0%nat). { intros ->. unfold train_finder in E. destruct n_max; cbn in E; discriminate E. }
  destruct (finder_run loss update lr_init sched is_explicit is_params_stopping converged save_every n_max p0 Hs) as (o' & e & E' & (_ & _ & L) & A & _).
  rewrite E in E'. injection E' as <-. rewrite A, map_length, seq_length. f_equal. destruct L as [L|(L1 & L2 & _)]; [exact L|].
  rewrite L1, L2 in H. discriminate H.
Qed.
(** The history, state files and best state depend on the first loss only
    through being a number: if it is NaN, no best state is ever saved. *)
Theorem finder_first_nan_refuted o : loss p0 = None -> run = Ok o ->
  o_best o = None /\ o_result o = Err (if is_explicit then NameError else ValueError).
Proof.
  intros H E. unfold run in E.
  assert (Hs : save_every <> Some 0%nat). { intros ->. unfold train_finder in E. destruct n_max; cbn in E; discriminate E. }
  destruct (finder_run loss update lr_init sched is_explicit is_params_stopping converged save_every n_max p0 Hs) as (o' & e & E' & _ & _ & _ & _ & _ & B & R).
  rewrite E in E'. injection E' as <-. cbn [best_at] in B. rewrite H in B, R. split; assumption.
Qed.
(** A training of one epoch is lost to a division by the number of epochs. *)
Theorem finder_one_epoch_refuted : n_max = 0%nat -> save_every <> Some 0%nat -> loss p0 <> None ->
  exists o, run = Ok o /\ length (o_losses o) = 1%nat /\ o_result o = Err ZeroDivisionError.
Proof.
  intros H Hs Hl. unfold run.
  destruct (finder_run loss update lr_init sched is_explicit is_params_stopping converged save_every n_max p0 Hs) as (o & e & E & (L & _) & A & _ & _ & _ & _ & R).
  exists o. split; [exact E|]. assert (e = 0%nat) by lia. subst e. rewrite A. split; [reflexivity|].
  destruct (loss p0); [|congruence]. destruct R as (m & i & _ & _ & _ & R). exact R.
Qed.
Theorem finder_save_every_zero : save_every = Some 0%nat -> run = Err ZeroDivisionError.
Proof. intros H. unfold run, train_finder. rewrite H. destruct n_max; reflexivity. Qed.
(** Without a scheduler the recorded rates are those of the epochs. *)
Theorem finder_constant_rate o : sched = None -> run = Ok o -> Forall (fun r => r = Rate lr_init) (o_lrs o).
Proof.
  intros H E. unfold run in E.
  assert (Hs : save_every <> Some 0%nat). { intros ->. unfold train_finder in E. destruct n_max; cbn in E; discriminate E. }
  destruct (finder_run loss update lr_init sched is_explicit is_params_stopping converged save_every n_max p0 Hs) as (o' & e & E' & _ & _ & A & _).
  rewrite E in E'. injection E' as <-. rewrite A. apply Forall_forall. intros x Hx. apply in_map_iff in Hx. destruct Hx as (k & <- & _).
  unfold lr_record. now rewrite H.
Qed.
(** With one, the record of an epoch is the rate of the next epoch. *)
Theorem finder_scheduled_rate o f : sched = Some f -> run = Ok o -> forall k, (k < length (o_lrs o))%nat ->
  nth_error (o_lrs o) k = Some (RateList (rate lr_init sched (S k))).
Proof.
  intros H E k. unfold run in E.
  assert (Hs : save_every <> Some 0%nat). { intros ->. unfold train_finder in E. destruct n_max; cbn in E; discriminate E. }
  destruct (finder_run loss update lr_init sched is_explicit is_params_stopping converged save_every n_max p0 Hs) as (o' & e & E' & _ & _ & A & _).
  rewrite E in E'. injection E' as <-. rewrite A, map_length, seq_length. intros Hk.
  rewrite nth_error_map, (nth_error_nth' _ 0%nat) by (rewrite seq_length; exact Hk). rewrite seq_nth by exact Hk. cbn [option_map Nat.add].
  unfold lr_record, rate. now rewrite H.
Qed.
End Corollaries.

(** ** Concrete runs: a descent on |x| from 3, with a step of 2 *)
Definition ex_loss (x : R) : option R := Some (Rabs x).
Definition ex_update (r x : R) : R := (x - r)%R.
Definition ex_run (f : option (nat -> R)) := train_finder ex_loss ex_update 2 f false false (fun _ => false) None 1 3%R.
(** The recorded rate of the first epoch is not the rate it used. *)
Theorem finder_rate_refuted : exists f o r, ex_run (Some f) = Ok o /\ nth_error (o_lrs o) 0 = Some (RateList r) /\
  (r < rate 2 (Some f) 0)%R.
Proof.
  pose (f := fun k => (2 / 2 ^ k)%R).
  destruct (finder_run ex_loss ex_update 2 (Some f) false false (fun _ => false) None 1 3%R ltac:(discriminate)) as (o & e & E & _).
  exists f, o, (f 1%nat). split; [exact E|].
  assert (L : length (o_lrs o) = 2%nat).
  { unfold train_finder in E. cbn in E. injection E as <-. reflexivity. }
  split; [|unfold rate, f; cbn; lra].
  apply (finder_scheduled_rate ex_loss ex_update 2 (Some f) false false (fun _ => false) None 1 3%R o f); [reflexivity|exact E|lia].
Qed.
(** The best state on file is the one after the update of the best epoch: its
    own loss is not the best loss, and can be larger. *)
Theorem finder_best_state_refuted : exists (update : R -> R -> R) o b p, train_finder ex_loss update 2 None false false (fun _ => false) None 1 1%R = Ok o /\
  o_result o = Ok (1%R, b) /\ o_best o = Some (b, p) /\ ex_loss p = Some 5%R.
Proof.
  pose (up := fun (_ x : R) => (x + 4)%R).
  destruct (finder_run ex_loss up 2 None false false (fun _ => false) None 1 1%R ltac:(discriminate)) as (o & e & E & (L1 & _ & L2) & _ & _ & _ & _ & B & Rr).
  assert (e = 1%nat) by (destruct L2 as [L2|(L2 & _)]; [exact L2|discriminate L2]). subst e. clear L1 L2.
  cbn [best_at] in B. unfold ex_loss at 1 in B. unfold ex_loss at 1 in Rr.
  assert (A1 : Rabs 1 = 1%R) by (apply Rabs_right; lra). assert (A5 : Rabs (1 + 4) = 5%R) by (rewrite Rabs_right; lra).
  assert (S1 : state up 2 None 1%R 1 = (1 + 4)%R) by reflexivity.
  exists up, o, 0%nat, (1 + 4)%R. split; [exact E|].
  destruct Rr as (m & i & Ei & Hi & Mi & Rr). destruct B as (b & x & Eb & Hb & Ex & Hx).
  assert (m = 1%R /\ i = 0%nat) as [-> ->].
  { destruct i as [|[|i]]; [|exfalso|lia].
    - split; [|reflexivity]. unfold ex_loss in Ei. cbn [state] in Ei. rewrite A1 in Ei. congruence.
    - rewrite S1 in Ei. unfold ex_loss in Ei. rewrite A5 in Ei. injection Ei as <-.
      destruct (Mi 0%nat 1%R) as [Q _]; [lia|unfold ex_loss; cbn [state]; now rewrite A1|]. lra. }
  assert (b = 0%nat) as ->.
  { destruct b as [|[|b]]; [reflexivity|exfalso|lia]. rewrite S1 in Ex. unfold ex_loss in Ex. rewrite A5 in Ex. injection Ex as <-.
    destruct (Hx 0%nat 1%R) as [Q _]; [lia|unfold ex_loss; cbn [state]; now rewrite A1|]. lra. }
  split; [exact Rr|]. split; [exact Eb|]. unfold ex_loss. now rewrite A5.
Qed.
Example ex_run_losses : exists o, ex_run None = Ok o /\ o_losses o = [Some (Rabs 3); Some (Rabs (3 - 2))] /\ o_saved o = [(1%nat, (3 - 2 - 2)%R)].
Proof.
  destruct (finder_run ex_loss ex_update 2 None false false (fun _ => false) None 1 3%R ltac:(discriminate)) as (o & e & E & (L1 & _ & L2) & A & _ & _ & B & _).
  assert (e = 1%nat) by (destruct L2 as [L2|(L2 & _)]; [exact L2|discriminate L2]). subst e.
  exists o. split; [exact E|]. rewrite A, B. split; reflexivity.
Qed.

(** ** Records *)
(** Saved histories are read back, with the validation history if there is one. *)
Theorem loss_record_roundtrip n nature type tr lt lrs v :
  read_loss_history (Some (save_loss_history n nature type tr lt lrs v)) = Ok (nature, type, tr, v).
Proof.
  assert (D : forall l, map detach l = l) by (intros l; induction l as [|[x|x] l IH]; cbn [map detach]; congruence).
  unfold read_loss_history. cbn. destruct v as [v|]; cbn; now rewrite !D.
Qed.
Theorem lr_record_roundtrip n nature type tr lt l v :
  read_lr_history (Some (save_loss_history n nature type tr lt (Some l) v))
  = Ok (match lt with Some s => VStr s | None => VNone end, l).
Proof. reflexivity. Qed.
(** A record saved without learning rates, or a missing file, is refused. *)
Theorem lr_record_missing n nature type tr lt v :
  read_lr_history (Some (save_loss_history n nature type tr lt None v)) = Err RuntimeError /\
  read_lr_history None = Err RuntimeError /\ read_loss_history None = Err RuntimeError.
Proof. repeat split. Qed.

Print Assumptions finder_run.
Print Assumptions finder_files_keep.
Print Assumptions finder_epochs.
Print Assumptions finder_first_nan_refuted.
Print Assumptions finder_one_epoch_refuted.
Print Assumptions finder_save_every_zero.
Print Assumptions finder_constant_rate.
Print Assumptions finder_scheduled_rate.
Print Assumptions finder_rate_refuted.
Print Assumptions finder_best_state_refuted.
Print Assumptions loss_record_roundtrip.
Print Assumptions lr_record_roundtrip.
Print Assumptions lr_record_missing.
