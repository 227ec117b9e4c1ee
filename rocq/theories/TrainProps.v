(** C30: training runs the requested epochs and saves the best model. *)
From Coq Require Import String Reals List Bool Arith Lra Lia.
From Verif Require Import Lib PyDict MatrixModel ParamModel TrainModel TrainSpec EarlyStopProps.
Import ListNotations.
Local Open Scope R_scope.
Local Open Scope list_scope.

(** ** Minimum of a list *)
Lemma fold_min l a : smallest (a :: l) (fold_left Rmin l a).
Proof.
  revert a. induction l as [|b l IH]; intros a.
  - cbn. split; [now left|]. intros x [->|[]]. lra.
  - cbn [fold_left]. destruct (IH (Rmin a b)) as [Hin Hle]. split.
    + destruct Hin as [H|H]; [|right; now right]. rewrite <- H.
      destruct (Rle_dec a b); [rewrite Rmin_left by lra; now left|rewrite Rmin_right by lra; right; now left].
    + intros x [<-|[<-|H]].
      * pose proof (Hle (Rmin a b) (or_introl eq_refl)). pose proof (Rmin_l a b). lra.
      * pose proof (Hle (Rmin a b) (or_introl eq_refl)). pose proof (Rmin_r a b). lra.
      * apply Hle. now right.
Qed.
Lemma list_min_smallest l : l <> [] -> smallest l (list_min l).
Proof. destruct l; [contradiction|]. intros _. apply fold_min. Qed.
Lemma smallest_unique l m m' : smallest l m -> smallest l m' -> m = m'.
Proof. intros [H1 H2] [H3 H4]. apply H2 in H3. apply H4 in H1. lra. Qed.

Lemma index_of_first x l : In x l ->
  nth_error l (index_of x l) = Some x /\ forall j, (j < index_of x l)%nat -> nth_error l j <> Some x.
Proof.
  induction l as [|a l IH]; [contradiction|]. intros H. cbn [index_of].
  destruct (Req_EM_T a x) as [->|Hne]; [split; [reflexivity|intros j Hj; lia]|].
  destruct H as [H|H]; [contradiction|]. destruct (IH H) as [H1 H2]. split; [exact H1|].
  intros [|j] Hj; [cbn; congruence|]. apply H2. lia.
Qed.

Lemma last_min_snoc_new l x : (forall y, In y l -> x <= y) -> last_min (l ++ [x]) (length l).
Proof.
  intros H. exists x. split; [rewrite nth_error_app2, Nat.sub_diag by lia; reflexivity|]. split.
  - split; [apply in_or_app; right; now left|]. intros y Hy. apply in_app_or in Hy as [Hy|[->|[]]]; [now apply H|lra].
  - intros j Hj. assert (nth_error (l ++ [x]) j = None) as ->; [|discriminate].
    apply nth_error_None. rewrite app_length. cbn. lia.
Qed.
Lemma last_min_snoc_old l x b : last_min l b -> (exists y, In y l /\ y < x) -> last_min (l ++ [x]) b.
Proof.
  intros (m & Hb & [Hin Hle] & Hl) (y & Hy & Hyx). exists m.
  assert (Hbl : (b < length l)%nat) by (apply nth_error_Some; rewrite Hb; discriminate).
  split; [rewrite nth_error_app1 by exact Hbl; exact Hb|]. split.
  - split; [apply in_or_app; now left|]. intros z Hz. apply in_app_or in Hz as [Hz|[<-|[]]]; [now apply Hle|].
    apply Hle in Hy. lra.
  - intros j Hj. destruct (Nat.lt_ge_cases j (length l)) as [H|H].
    + rewrite nth_error_app1 by exact H. now apply Hl.
    + rewrite nth_error_app2 by exact H. destruct (j - length l)%nat as [|k]; [|destruct k; discriminate].
      cbn. intros E. injection E as ->. apply Hle in Hy. lra.
Qed.

Section Train.
  Context {M : Type}.
  Variable run_epoch : nat -> M -> R * M.
  Variable valid_loss : nat -> M -> option R.
  Variable params_converged : nat -> M -> bool.
  Variable early : option es_config.
  Variable params_stopping : bool.
  Variable save_every : option nat.
  Variable n_max : nat.
  Variable m0 : M.

  Notation traj := (trajectory run_epoch m0).
  Notation losses_of := (epoch_losses run_epoch m0).
  Notation train := (train_model run_epoch valid_loss params_converged early params_stopping save_every n_max).
  Notation loop := (train_loop run_epoch valid_loss params_converged early params_stopping save_every n_max).
  Notation one_epoch := (train_epoch run_epoch valid_loss params_converged early params_stopping save_every).

  (** Not both stopping criteria together (see
      [params_check_discards_early_stop_refuted]); periods are positive. *)
  Hypothesis one_criterion : early = None \/ params_stopping = false.
  Hypothesis save_positive : save_every <> Some 0%nat.
  Hypothesis frequency_positive : forall c, early = Some c -> (0 < es_frequency c)%nat.
  (** The first validation loss is a number. *)
  Hypothesis first_valid : forall c, early = Some c -> exists x, valid_loss 0 (traj 1) = Some x.

  (** The stopping conditions, on the undisturbed trajectory. *)
  Definition early_stop (e : nat) : Prop :=
    exists c, early = Some c /\ (e mod es_frequency c = 0)%nat /\
      unimproved_tail (es_improvement c)
        (validation_losses run_epoch valid_loss m0 (es_frequency c) (S e)) (es_trigger c).
  Definition params_stop (e : nat) : Prop :=
    params_stopping = true /\ params_converged e (traj (S e)) = true.
  Definition stop_at (e : nat) : Prop := early_stop e \/ params_stop e.

  Definition saved_states (n : nat) : list (nat * M) :=
    match save_every with
    | None => []
    | Some s => rev (map (fun k => (k, traj (S k))) (filter (fun k => Nat.eqb (k mod s) 0) (seq 0 n)))
    end.
  Definition validations (f n : nat) : list validation :=
    map (fun k => (traj (S k), k, valid_loss k (traj (S k)))) (validated f n).

  Definition best_ok (n : nat) (best : option (M * nat)) : Prop :=
    match n with
    | O => best = None
    | _ => exists b, last_min (losses_of n) b /\ best = Some (traj (S b), b)
    end.

  Definition inv (e : nat) (t : @tstate M) : Prop :=
    t_model t = traj e /\ t_losses t = losses_of e /\ t_saved t = saved_states e /\
    best_ok e (t_best t) /\ t_stop t = false /\
    (forall c, early = Some c ->
       t_stopper t = run_stopper (es_improvement c) (es_trigger c) (validations (es_frequency c) e)).

  Lemma losses_S e : losses_of (S e) = losses_of e ++ [epoch_loss run_epoch m0 e].
  Proof. unfold epoch_losses. now rewrite seq_S, map_app. Qed.
  Lemma losses_length e : length (losses_of e) = e.
  Proof. unfold epoch_losses. now rewrite map_length, seq_length. Qed.
  Lemma saved_S e : saved_states (S e) =
    match save_every with
    | None => []
    | Some s => if Nat.eqb (e mod s) 0 then (e, traj (S e)) :: saved_states e else saved_states e
    end.
  Proof.
    unfold saved_states. destruct save_every as [s|]; [|reflexivity].
    rewrite seq_S, filter_app. cbn [plus filter]. destruct (Nat.eqb (e mod s) 0).
    - rewrite map_app, rev_app_distr. reflexivity.
    - now rewrite app_nil_r.
  Qed.
  Lemma validations_S f e : validations f (S e) =
    validations f e ++ (if Nat.eqb (e mod f) 0 then [(traj (S e), e, valid_loss e (traj (S e)))] else []).
  Proof.
    unfold validations, validated. rewrite seq_S, filter_app, map_app. cbn [plus filter].
    now destruct (Nat.eqb (e mod f) 0).
  Qed.
  Lemma validations_losses f e :
    losses (validations f e) = validation_losses run_epoch valid_loss m0 f e.
  Proof. unfold losses, validations, validation_losses. rewrite map_map. reflexivity. Qed.
  Lemma validations_first c e : early = Some c ->
    exists w x rest, validations (es_frequency c) (S e) = w :: rest /\ vloss w = Some x.
  Proof.
    intros Hc. destruct (first_valid c Hc) as [x Hx]. unfold validations, validated. cbn [seq filter].
    rewrite Nat.mod_0_l by (pose proof (frequency_positive c Hc); lia). cbn [Nat.eqb map].
    do 3 eexists. split; [reflexivity|]. exact Hx.
  Qed.

  Lemma best_step e best : best_ok e best ->
    best_ok (S e) (if Rle_dec (epoch_loss run_epoch m0 e) (list_min (losses_of (S e)))
                   then Some (traj (S e), e) else best).
  Proof.
    intros Hb. unfold best_ok at 1.
    assert (Hmin : smallest (losses_of (S e)) (list_min (losses_of (S e)))).
    { apply list_min_smallest. rewrite losses_S. intros E. now apply app_eq_nil in E as [_ E]. }
    rewrite losses_S in *. destruct (Rle_dec _ _) as [Hle|Hgt].
    - exists e. split; [|reflexivity]. rewrite <- (losses_length e) at 3. apply last_min_snoc_new.
      intros y Hy. pose proof (proj2 Hmin y ltac:(apply in_or_app; now left)). lra.
    - destruct Hmin as [Hin Hall].
      assert (Hold : exists y, In y (losses_of e) /\ y < epoch_loss run_epoch m0 e).
      { apply in_app_or in Hin as [Hin|[Heq|[]]]; [|exfalso; lra].
        eexists. split; [exact Hin|]. lra. }
      destruct e as [|e]; [destruct Hold as (y & [] & _)|].
      cbn [best_ok] in Hb. destruct Hb as (b & Hl & Hbest). exists b. split; [|exact Hbest].
      now apply last_min_snoc_old.
  Qed.

  (** What one epoch leaves, on the trajectory. *)
  Definition after (e : nat) (t : @tstate M) : Prop :=
    t_losses t = losses_of (S e) /\ t_saved t = saved_states (S e) /\
    ((~ early_stop e /\ t_model t = traj (S e) /\ best_ok (S e) (t_best t) /\
      (t_stop t = true <-> params_stop e)) \/
     (early_stop e /\ t_stop t = true /\ exists c i b, early = Some c /\
        first_argmin (validation_losses run_epoch valid_loss m0 (es_frequency c) (S e)) i /\
        nth_error (validated (es_frequency c) (S e)) i = Some b /\
        t_model t = traj (S b) /\ t_best t = Some (traj (S b), b))).

  Lemma argmin_exists (vs : list (option R)) : (exists x, In (Some x) vs) -> exists i, first_argmin vs i.
  Proof.
    induction vs as [|v vs IH] using rev_ind; intros [x Hx]; [contradiction|].
    assert (Hcase : (exists x, In (Some x) vs) \/ forall x, ~ In (Some x) vs).
    { clear. induction vs as [|[y|] vs IH]; [right; intros x []|left; exists y; now left|].
      destruct IH as [[x Hx]|Hn]; [left; exists x; now right|right; intros x [H|H]; [discriminate|now apply Hn in H]]. }
    destruct Hcase as [Hex|Hno].
    - destruct (IH Hex) as (i & m & Hi & [Hin Hle] & Hf).
      assert (Hil : (i < length vs)%nat) by (apply nth_error_Some; rewrite Hi; discriminate).
      assert (Hold : (forall y, v = Some y -> m <= y) -> exists i, first_argmin (vs ++ [v]) i).
      { intros Hv. exists i, m. split; [rewrite nth_error_app1 by exact Hil; exact Hi|]. split; [split|].
        - apply in_or_app. now left.
        - intros y Hy. apply in_app_or in Hy as [Hy|[Hy|[]]]; [now apply Hle|now apply Hv].
        - intros j Hj. rewrite nth_error_app1 by lia. now apply Hf. }
      destruct v as [y|]; [|apply Hold; discriminate].
      destruct (Rlt_dec y m) as [Hlt|Hge].
      + exists (length vs), y. split; [rewrite nth_error_app2, Nat.sub_diag by lia; reflexivity|]. split; [split|].
        * apply in_or_app. right. now left.
        * intros z Hz. apply in_app_or in Hz as [Hz|[Hz|[]]]; [apply Hle in Hz; lra|injection Hz as <-; lra].
        * intros j Hj. rewrite nth_error_app1 by exact Hj. intros E. apply nth_error_In in E. apply Hle in E. lra.
      + apply Hold. intros z E. injection E as <-. lra.
    - exists (length vs), x. apply in_app_or in Hx as [Hx|[Hx|[]]]; [now apply Hno in Hx|]. subst v.
      split; [rewrite nth_error_app2, Nat.sub_diag by lia; reflexivity|]. split; [split|].
      + apply in_or_app. right. now left.
      + intros z Hz. apply in_app_or in Hz as [Hz|[Hz|[]]]; [now apply Hno in Hz|injection Hz as <-; lra].
      + intros j Hj. rewrite nth_error_app1 by exact Hj. intros E. apply nth_error_In in E. now apply Hno in E.
  Qed.

  Lemma epoch_step e t : inv e t -> exists t', one_epoch e t = Ok t' /\ after e t' /\ (~ stop_at e -> inv (S e) t').
  Proof.
    intros (Hm & Hl & Hs & Hb & Hst & Hes).
    unfold train_epoch. rewrite Hm, Hl.
    assert (Hrun : run_epoch e (traj e) = (epoch_loss run_epoch m0 e, traj (S e))).
    { unfold epoch_loss. cbn [trajectory]. now destruct (run_epoch e (traj e)). }
    rewrite Hrun. cbv beta iota zeta. rewrite <- losses_S.
    assert (Hsaved : (match save_every with
           | Some k => rbind (is_multiple k e) (fun b => Ok (if b then (e, traj (S e)) :: t_saved t else t_saved t))
           | None => Ok (t_saved t) end) = Ok (saved_states (S e))).
    { rewrite saved_S, Hs. destruct save_every as [s|] eqn:Es.
      - unfold is_multiple. destruct (Nat.eqb_spec s 0) as [->|Hne]; [congruence|]. cbn [rbind].
        now destruct (Nat.eqb (e mod s) 0).
      - unfold saved_states. now rewrite Es. }
    rewrite Hsaved. cbn [rbind].
    pose proof (best_step e _ Hb) as Hb'.
    set (best := if Rle_dec _ _ then _ else _) in *. clearbody best.
    assert (Hnp : params_stopping = false -> ~ params_stop e) by (intros E [H _]; congruence).
    assert (Hearly : (exists c, early = Some c) \/ early = None) by (destruct early as [c|]; [left; now exists c|now right]).
    destruct Hearly as [[c Ec]|Ec]; rewrite Ec.
    - assert (Hps : params_stopping = false) by (destruct one_criterion; [congruence|assumption]). rewrite Hps.
      unfold is_evaluate_criterion, is_multiple.
      destruct (Nat.eqb_spec (es_frequency c) 0) as [E|_]; [pose proof (frequency_positive c Ec); lia|].
      cbn [rbind].
      destruct (Nat.eqb_spec (e mod es_frequency c) 0) as [Hev|Hnev].
      + set (v := (traj (S e), e, valid_loss e (traj (S e))) : validation).
        assert (HVS : validations (es_frequency c) (S e) = validations (es_frequency c) e ++ [v]).
        { rewrite validations_S. apply Nat.eqb_eq in Hev. now rewrite Hev. }
        rewrite (Hes c Ec).
        assert (Heval : evaluate_criterion (es_improvement c) (es_trigger c)
                  (run_stopper (es_improvement c) (es_trigger c) (validations (es_frequency c) e))
                  (traj (S e)) e (valid_loss e (traj (S e))) =
                (run_stopper (es_improvement c) (es_trigger c) (validations (es_frequency c) (S e)),
                 answer (es_improvement c) (es_trigger c) (validations (es_frequency c) e) v)).
        { rewrite HVS, run_snoc. unfold feed, answer.
          change (vmodel v) with (traj (S e)). change (vepoch v) with e.
          change (vloss v) with (valid_loss e (traj (S e))).
          now destruct (evaluate_criterion _ _ _ _ _ _). }
        rewrite Heval.
        assert (Hans : answer (es_improvement c) (es_trigger c) (validations (es_frequency c) e) v = true <-> early_stop e).
        { rewrite early_stop_iff_unimproved_partial.
          - rewrite <- HVS, validations_losses. split.
            + intros H. exists c. repeat split; [exact Ec|exact Hev|exact (proj1 H)|exact (proj2 H)].
            + intros (c' & Hc' & _ & H). assert (c' = c) by congruence. now subst c'.
          - rewrite <- HVS. now apply validations_first. }
        destruct (answer _ _ _ _) eqn:Ea.
        * pose proof (proj1 Hans eq_refl) as Hstop.
          destruct (argmin_exists (validation_losses run_epoch valid_loss m0 (es_frequency c) (S e))) as [i Hi].
          { destruct (validations_first c e Ec) as (w & x & rest & Hw & Hx). exists x.
            rewrite <- validations_losses, Hw. unfold losses. cbn. now left. }
          pose proof Hi as Hi'. rewrite <- validations_losses in Hi'.
          destruct (best_state_is_first_minimum (es_improvement c) (es_trigger c) _ _ Hi') as (w & Hw & _ & Hload & _).
          rewrite Hload. cbn [rbind].
          unfold validations in Hw. rewrite nth_error_map in Hw.
          destruct (nth_error (validated (es_frequency c) (S e)) i) as [b|] eqn:Eb; [|discriminate].
          cbn [option_map] in Hw. injection Hw as <-.
          eexists. split; [reflexivity|]. split; [|intros Hn; exfalso; apply Hn; now left].
          split; [reflexivity|]. split; [reflexivity|]. right. split; [exact Hstop|].
          split; [reflexivity|]. exists c, i, b. repeat split; try assumption.
        * assert (Hns : ~ early_stop e) by (intros H; apply Hans in H; discriminate).
          eexists. split; [reflexivity|]. split.
          -- split; [reflexivity|]. split; [reflexivity|]. left. split; [exact Hns|].
             split; [reflexivity|]. split; [exact Hb'|]. cbn [t_stop]. split; [discriminate|].
             intros H. now apply Hnp in H.
          -- intros _. repeat split; try assumption.
             intros c' Hc'. assert (c' = c) by congruence. subst c'. reflexivity.
      + rewrite Hst.
        assert (Hns : ~ early_stop e).
        { intros (c' & Hc' & H & _). assert (c' = c) by congruence. subst c'. contradiction. }
        eexists. split; [reflexivity|]. split.
        -- split; [reflexivity|]. split; [reflexivity|]. left. split; [exact Hns|].
           split; [reflexivity|]. split; [exact Hb'|]. cbn [t_stop]. split; [discriminate|].
           intros H. now apply Hnp in H.
        -- intros _. repeat split; try assumption.
           intros c' Hc'. assert (c' = c) by congruence. subst c'. cbn [t_stopper]. rewrite (Hes c Ec), validations_S.
           apply Nat.eqb_neq in Hnev. rewrite Hnev. now rewrite app_nil_r.
    - cbn [rbind].
      assert (Hns : ~ early_stop e) by (intros (c & Hc & _); congruence).
      assert (Hpp : params_stopping = true \/ params_stopping = false) by (destruct params_stopping; tauto).
      destruct Hpp as [Ep|Ep]; rewrite Ep.
      + eexists. split; [reflexivity|]. split.
        * split; [reflexivity|]. split; [reflexivity|]. left. split; [exact Hns|].
          split; [reflexivity|]. split; [exact Hb'|]. cbn [t_stop t_model]. split.
          -- intros H. split; [exact Ep|exact H].
          -- intros [_ H]. exact H.
        * intros Hn. repeat split; try assumption; [|intros c Hc; congruence].
          cbn [t_stop t_model]. destruct (params_converged e (traj (S e))) eqn:E; [|reflexivity].
          exfalso. apply Hn. right. split; [exact Ep|exact E].
      + eexists. split; [reflexivity|]. split.
        * split; [reflexivity|]. split; [reflexivity|]. left. split; [exact Hns|].
          split; [reflexivity|]. split; [exact Hb'|]. cbn [t_stop]. rewrite Hst. split; [discriminate|].
          intros H. now apply Hnp in H.
        * intros _. repeat split; try assumption. intros c Hc. congruence.
  Qed.

  Lemma after_stop e t : after e t ->
    ((params_stopping && t_stop t) || match early with Some _ => t_stop t | None => false end) = true <-> stop_at e.
  Proof.
    intros (_ & _ & [(Hn & _ & _ & Ht)|(Hs & Ht & c & _ & _ & Hc & _)]).
    - unfold stop_at. split.
      + intros H. apply orb_prop in H as [H|H].
        * apply andb_prop in H as [_ H]. right. now apply Ht.
        * destruct early; [|discriminate]. right. now apply Ht.
      + intros [H|H]; [contradiction|]. pose proof H as [Hp _]. apply Ht in H. now rewrite H, Hp.
    - rewrite Ht, Hc. rewrite orb_true_r. unfold stop_at. tauto.
  Qed.

  Lemma loop_spec fuel e t : inv e t -> (S n_max - e <= fuel)%nat -> (e <= n_max)%nat ->
    (forall k, (k < e)%nat -> ~ stop_at k) ->
    exists e' t', loop fuel e t = Ok (e', t') /\ first_stop stop_at n_max e' /\ after e' t'.
  Proof.
    revert e t. induction fuel as [|fuel IH]; intros e t Hinv Hfuel He Hbefore; [lia|].
    cbn [train_loop]. destruct (epoch_step e t Hinv) as (t' & Ht & Hafter & Hnext). rewrite Ht. cbn [rbind].
    destruct (Nat.leb_spec n_max e) as [Hge|Hlt].
    - exists e, t'. split; [reflexivity|]. split; [|exact Hafter].
      split; [exact He|]. split; [left; lia|exact Hbefore].
    - pose proof (after_stop e t' Hafter) as Hstop.
      destruct (_ || _) eqn:E.
      + exists e, t'. split; [reflexivity|]. split; [|exact Hafter].
        split; [exact He|]. split; [right; now apply Hstop|exact Hbefore].
      + assert (Hn : ~ stop_at e) by (intros H; apply Hstop in H; discriminate).
        apply IH; [now apply Hnext|lia|lia|]. intros k Hk.
        destruct (Nat.eq_dec k e) as [->|Hne]; [exact Hn|]. apply Hbefore. lia.
  Qed.

  Lemma first_stop_unique stop n e e' : first_stop stop n e -> first_stop stop n e' -> e = e'.
  Proof.
    intros (H1 & H2 & H3) (H4 & H5 & H6).
    destruct (Nat.lt_total e e') as [H|[H|H]]; [|exact H|].
    - destruct H2 as [->|H2]; [lia|]. exfalso. now apply (H6 e).
    - destruct H5 as [->|H5]; [lia|]. exfalso. now apply (H3 e').
  Qed.

  (** *** Outcome of training, for every optimiser and loss behaviour: training
      ends at the first epoch at which a stopping criterion holds or at epoch
      [n_max]; it fails with ZeroDivisionError if that epoch is 0; otherwise the
      loss history is that of the epochs 0..e, the reported best loss is its
      minimum and the reported best epoch the first one attaining it; the saved
      best state is the state at the end of the last epoch attaining the
      minimum, or the first best-validated state if early stopping triggered. *)
  Theorem training_outcome_partial :
    exists e, first_stop stop_at n_max e /\
      (e = 0%nat -> train m0 = Err ZeroDivisionError) /\
      (e <> 0%nat -> exists r, train m0 = Ok r /\ tr_epoch r = e /\
         t_losses (tr_state r) = losses_of (S e) /\
         smallest (losses_of (S e)) (tr_best_loss r) /\ first_min (losses_of (S e)) (tr_best_epoch r) /\
         t_saved (tr_state r) = (e, t_model (tr_state r)) :: saved_states (S e) /\
         (~ early_stop e -> t_model (tr_state r) = traj (S e) /\
            exists b, last_min (losses_of (S e)) b /\ t_best (tr_state r) = Some (traj (S b), b)) /\
         (early_stop e -> exists c i b, early = Some c /\
            first_argmin (validation_losses run_epoch valid_loss m0 (es_frequency c) (S e)) i /\
            nth_error (validated (es_frequency c) (S e)) i = Some b /\
            t_model (tr_state r) = traj (S b) /\ t_best (tr_state r) = Some (traj (S b), b))).
  Proof.
    destruct (loop_spec (S n_max) 0 (TState m0 [] [] None stopper_init false)) as (e & t & Hl & Hf & Ha);
      try lia.
    { repeat split; try reflexivity. unfold saved_states. now destruct save_every. }
    exists e. split; [exact Hf|]. unfold train_model. rewrite Hl. cbn [rbind]. split.
    - intros ->. reflexivity.
    - intros Hne. apply Nat.eqb_neq in Hne. rewrite Hne. eexists. split; [reflexivity|].
      destruct Ha as (Hlo & Hsa & Hcase).
      cbn [tr_epoch tr_state tr_best_loss tr_best_epoch t_losses t_saved t_model t_best].
      assert (Hmin : smallest (losses_of (S e)) (list_min (losses_of (S e)))).
      { apply list_min_smallest. rewrite losses_S. intros E. now apply app_eq_nil in E as [_ E]. }
      rewrite Hlo. split; [reflexivity|]. split; [reflexivity|]. split; [exact Hmin|]. split.
      { destruct (index_of_first (list_min (losses_of (S e))) (losses_of (S e))) as [H1 H2]; [apply Hmin|].
        exists (list_min (losses_of (S e))). now repeat split; try apply Hmin. }
      split; [now rewrite Hsa|].
      destruct Hcase as [(Hn & Hm & Hb & _)|(Hs & _ & Hc)].
      + split; [|intros H; contradiction]. intros _. split; [exact Hm|exact Hb].
      + split; [intros H; contradiction|]. intros _. exact Hc.
  Qed.

  (** *** Without a triggered criterion, n_max + 1 epochs are performed. *)
  Corollary epochs_performed_partial r : (forall e, (e < n_max)%nat -> ~ stop_at e) ->
    train m0 = Ok r -> length (t_losses (tr_state r)) = S n_max.
  Proof.
    intros Hno Hr. destruct training_outcome_partial as (e & Hf & H0 & H1).
    destruct (Nat.eq_dec e 0) as [->|Hne].
    - rewrite (H0 eq_refl) in Hr. discriminate.
    - destruct (H1 Hne) as (r' & Hr' & _ & Hl & _). assert (r = r') by congruence. subst r'.
      rewrite Hl, losses_length. f_equal.
      destruct Hf as (He & [->|Hs] & _); [reflexivity|].
      destruct (Nat.eq_dec e n_max) as [->|H]; [reflexivity|]. exfalso. apply (Hno e ltac:(lia) Hs).
  Qed.
End Train.

(** ** Refutations, on concrete optimisers *)

(** Two epochs requested, three performed. *)
Theorem requested_epochs_refuted :
  exists r, train_model (M:=nat) (fun _ m => (INR m, S m)) (fun _ _ => None) (fun _ _ => false)
              None false None 2 5%nat = Ok r /\
    length (t_losses (tr_state r)) = 3%nat /\ t_model (tr_state r) = (5 + 3)%nat.
Proof.
  destruct (training_outcome_partial (M:=nat) (fun _ m => (INR m, S m)) (fun _ _ => None) (fun _ _ => false)
              None false None 2 5%nat) as (e & Hf & _ & H).
  - now left.
  - discriminate.
  - discriminate.
  - discriminate.
  - assert (e = 2%nat).
    { destruct Hf as (_ & [->|Hs] & _); [reflexivity|].
      destruct Hs as [(c & Hc & _)|[Hp _]]; discriminate. }
    subst e. destruct (H ltac:(lia)) as (r & Hr & _ & Hl & _ & _ & _ & Hm & _).
    exists r. split; [exact Hr|]. split; [now rewrite Hl, losses_length|].
    apply Hm. intros (c & Hc & _). discriminate.
Qed.

(** Zero epochs requested, or a single one performed: the averaging of the time
    per epoch raises. *)
Theorem single_epoch_refuted {M} (run_epoch : nat -> M -> R * M) (m0 : M) :
  train_model run_epoch (fun _ _ => None) (fun _ _ => false) None false None 0 m0 = Err ZeroDivisionError.
Proof.
  unfold train_model. cbn [train_loop]. unfold train_epoch. cbn.
  now destruct (run_epoch 0%nat m0).
Qed.

(** The state saved as best is the one after the optimisation step: its own loss
    is not the smallest recorded loss. Here a state is a number with loss its
    square; the recorded best loss is 0 but the saved state has loss 9. *)
Theorem saved_best_has_other_loss_refuted :
  let run := fun (_ : nat) (m : R) => (m * m, m + 3) in
  exists r s, train_model run (fun _ _ => None) (fun _ _ => false) None false None 1 0 = Ok r /\
    t_best (tr_state r) = Some (s, tr_best_epoch r) /\ tr_best_loss r = 0 /\ s * s = 9.
Proof.
  intros run. exists (TResult 1 (TState (0 + 3 + 3) [0 * 0; (0 + 3) * (0 + 3)] [(1%nat, 0 + 3 + 3)]
                     (Some (0 + 3, 0%nat)) stopper_init false) 0 0), (0 + 3).
  split; [|split; [reflexivity|split; [reflexivity|lra]]].
  unfold train_model. cbn [train_loop]. unfold train_epoch, run.
  cbn [t_model t_losses t_saved t_best t_stopper t_stop rbind app list_min fold_left Nat.leb andb orb].
  destruct (Rle_dec (0 * 0) (0 * 0)); [|lra].
  destruct (Rle_dec ((0 + 3) * (0 + 3)) (Rmin (0 * 0) ((0 + 3) * (0 + 3)))) as [H|H].
  - exfalso. pose proof (Rmin_l (0*0) ((0 + 3) * (0 + 3))). lra.
  - cbn [Nat.eqb]. rewrite Rmin_left by lra. cbn [index_of].
    destruct (Req_EM_T (0 * 0) (0 * 0)); [|lra].
    replace (0 * 0) with 0 by lra. reflexivity.
Qed.

(** With tied losses the reported best epoch is the first, the saved state
    belongs to the last. *)
Theorem tied_best_epochs_refuted :
  exists r s b, train_model (fun (_ : nat) (m : nat) => (7, S m)) (fun _ _ => None) (fun _ _ => false)
     None false None 1 0%nat = Ok r /\
    t_best (tr_state r) = Some (s, b) /\ b = 1%nat /\ tr_best_epoch r = 0%nat.
Proof.
  destruct (training_outcome_partial (M:=nat) (fun _ m => (7, S m)) (fun _ _ => None) (fun _ _ => false)
              None false None 1 0%nat) as (e & Hf & _ & H); try discriminate; [now left|].
  assert (e = 1%nat).
  { destruct Hf as (_ & [->|Hs] & _); [reflexivity|].
    destruct Hs as [(c & Hc & _)|[Hp _]]; discriminate. }
  subst e. destruct (H ltac:(lia)) as (r & Hr & _ & _ & _ & Hfirst & _ & Hm & _).
  destruct Hm as (_ & b & Hb & Hbest); [intros (c & Hc & _); discriminate|].
  exists r. do 2 eexists. split; [exact Hr|]. split; [exact Hbest|].
  unfold epoch_losses, epoch_loss in *. cbn in Hfirst, Hb.
  split.
  - destruct Hb as (m & H1 & H2 & H3). destruct b as [|[|b]]; [|reflexivity|destruct b; discriminate].
    exfalso. cbn in H1. injection H1 as <-. now apply (H3 1%nat ltac:(lia)).
  - destruct Hfirst as (m & H1 & H2 & H3). destruct (tr_best_epoch r) as [|[|k]]; [reflexivity| |destruct k; discriminate].
    exfalso. cbn in H1. injection H1 as <-. now apply (H3 0%nat ltac:(lia)).
Qed.

(** With both criteria enabled, the parameter check overwrites the early
    stopping request: training rolls back to the best validated state and then
    keeps optimising up to n_max. Each epoch adds one to the state; validation
    losses grow, so early stopping (trigger 1) triggers at epoch 1 and the best
    state is 1, but epochs 1, 2 and 3 are all performed, each rolled back. *)
Theorem params_check_discards_early_stop_refuted :
  let early := Some (ESConfig 1 1 0) in
  exists r, train_model (M:=nat) (fun _ m => (1, S m)) (fun e m => Some (INR e)) (fun _ _ => false)
              early true None 3 0%nat = Ok r /\
    early_stop (fun _ m => (1, S m)) (fun e m => Some (INR e)) early 0%nat 1 /\
    tr_epoch r = 3%nat /\ length (t_losses (tr_state r)) = 4%nat.
Proof.
  assert (B1 : forall a b, below (Some (INR a)) (Some (INR b)) = Nat.ltb a b).
  { intros a b. unfold below. destruct (Rlt_dec _ _) as [H|H]; destruct (Nat.ltb_spec a b) as [H'|H']; try reflexivity.
    - apply INR_lt in H. lia.
    - exfalso. apply H. now apply lt_INR. }
  assert (B0 : forall a, below (Some (INR a)) None = true) by reflexivity.
  intros early. subst early.
  cbv -[below INR Rle_dec list_min IZR index_of early_stop].
  repeat (first [rewrite B0 | rewrite B1]; cbv -[below INR Rle_dec list_min IZR index_of early_stop]).
  eexists. split; [reflexivity|]. split; [|split; reflexivity].
  exists (ESConfig 1 1 0). split; [reflexivity|]. split; [reflexivity|].
  cbn. split; [cbn; lia|]. cbn. intros i Hi. assert (i = 1%nat) by lia. subst i. cbn.
  intros (x & Hx & [Hn|(m & [Hin Hle] & Hlt & _)]).
  - apply (Hn 0). now left.
  - injection Hx as <-. specialize (Hle 0 (or_introl eq_refl)). lra.
Qed.

(** Non-trivial case: losses 3, 1, 2 over three epochs: best epoch 1. *)
Example training_case :
  exists r, train_model (M:=nat) (fun e m => (match e with O => 3 | 1%nat => 1 | _ => 2 end, S m))
              (fun _ _ => None) (fun _ _ => false) None false (Some 2%nat) 2 0%nat = Ok r /\
    tr_best_epoch r = 1%nat /\ t_best (tr_state r) = Some (2%nat, 1%nat) /\ tr_best_loss r = 1 /\
    t_saved (tr_state r) = [(2%nat, 3%nat); (2%nat, 3%nat); (0%nat, 1%nat)].
Proof.
  destruct (training_outcome_partial (M:=nat) (fun e m => (match e with O => 3 | 1%nat => 1 | _ => 2 end, S m))
      (fun _ _ => None) (fun _ _ => false) None false (Some 2%nat) 2 0%nat) as (e & Hf & _ & H); try discriminate; [now left|].
  assert (e = 2%nat).
  { destruct Hf as (_ & [->|Hs] & _); [reflexivity|].
    destruct Hs as [(c & Hc & _)|[Hp _]]; discriminate. }
  subst e. destruct (H ltac:(lia)) as (r & Hr & _ & _ & Hsm & Hfirst & Hsv & Hm & _).
  destruct Hm as (Hm & b & Hb & Hbest); [intros (c & Hc & _); discriminate|].
  exists r. split; [exact Hr|].
  rewrite Hm in Hsv. cbn in Hsv. split; [|split; [|split; [|exact Hsv]]].
  - destruct Hfirst as (m & H1 & [_ H2] & _). cbn in H1, H2.
    pose proof (H2 _ (or_intror (or_introl eq_refl))) as Hle. cbn in Hle.
    destruct (tr_best_epoch r) as [|[|[|k]]]; cbn in H1; [|reflexivity| |destruct k; discriminate];
      injection H1 as <-; exfalso; cbn in Hle; lra.
  - rewrite Hbest. destruct Hb as (m & H1 & [_ H2] & _). cbn in H1, H2.
    pose proof (H2 _ (or_intror (or_introl eq_refl))) as Hle. cbn in Hle.
    destruct b as [|[|[|k]]]; cbn in H1; [|reflexivity| |destruct k; discriminate];
      injection H1 as <-; exfalso; cbn in Hle; lra.
  - apply (smallest_unique _ _ _ Hsm). cbn. split; [right; now left|].
    intros x [<-|[<-|[<-|[]]]]; cbn; lra.
Qed.

Print Assumptions training_outcome_partial.
Print Assumptions params_check_discards_early_stop_refuted.
