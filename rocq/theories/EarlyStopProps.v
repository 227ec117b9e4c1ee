(** C29: early stopping. *)
From Coq Require Import String Reals List Bool Arith Lra Lia.
From Verif Require Import Lib PyDict MatrixModel ParamModel TrainModel TrainSpec.
Import ListNotations.
Local Open Scope R_scope.
Local Open Scope list_scope.

Section Stop.
  Context {M : Type}.
  Variable tol : R.
  Variable trigger : nat.

  (** The early stopper fed with a sequence of validations. *)
  Definition validation : Type := (M * nat * option R)%type.
  Definition vmodel (v : validation) : M := fst (fst v).
  Definition vepoch (v : validation) : nat := snd (fst v).
  Definition vloss (v : validation) : option R := snd v.

  Definition feed (s : stopper M) (v : validation) : stopper M :=
    fst (evaluate_criterion tol trigger s (vmodel v) (vepoch v) (vloss v)).
  Definition run_stopper (l : list validation) : stopper M := fold_left feed l stopper_init.
  (** Answer of the last of a non-empty sequence of evaluations. *)
  Definition answer (l : list validation) (v : validation) : bool :=
    snd (evaluate_criterion tol trigger (run_stopper l) (vmodel v) (vepoch v) (vloss v)).

  Lemma run_snoc l v : run_stopper (l ++ [v]) = feed (run_stopper l) v.
  Proof. unfold run_stopper. now rewrite fold_left_app. Qed.

  Lemma run_steps l : es_steps (run_stopper l) = map vepoch l.
  Proof.
    induction l as [|v l IH] using rev_ind; [reflexivity|].
    rewrite run_snoc, map_app, <- IH. unfold feed, evaluate_criterion, record_validation.
    cbn [es_min es_steps es_n_not_improve es_best].
    now destruct (below _ _).
  Qed.

  Definition losses (l : list validation) : list (option R) := map vloss l.

  Lemma run_min l :
    match es_min (run_stopper l) with
    | None => forall y, ~ In (Some y) (losses l)
    | Some m => finite_min (losses l) m
    end.
  Proof.
    induction l as [|v l IH] using rev_ind; [cbn; tauto|].
    rewrite run_snoc. unfold losses in *. rewrite map_app.
    unfold feed, evaluate_criterion, record_validation. cbn [es_min es_steps es_n_not_improve es_best].
    change (map vloss [v]) with [vloss v].
    set (mm := es_min (run_stopper l)) in *. clearbody mm.
    destruct (vloss v) as [x|] eqn:Ev; cbn [below].
    - destruct mm as [m|].
      + destruct (Rlt_dec x m) as [Hlt|Hge]; cbn [fst es_min].
        * split; [apply in_or_app; right; now left|].
          intros y Hy. apply in_app_or in Hy as [Hy|[Hy|[]]]; [|injection Hy as <-; lra].
          apply IH in Hy. lra.
        * destruct IH as [Hin Hle]. split; [apply in_or_app; now left|].
          intros y Hy. apply in_app_or in Hy as [Hy|[Hy|[]]]; [now apply Hle|injection Hy as <-; lra].
      + cbn [fst es_min]. split; [apply in_or_app; right; now left|].
        intros y Hy. apply in_app_or in Hy as [Hy|[Hy|[]]]; [now apply IH in Hy|injection Hy as <-; lra].
    - destruct mm as [m|]; cbn [fst es_min].
      + destruct IH as [Hin Hle]. split; [apply in_or_app; now left|].
        intros y Hy. apply in_app_or in Hy as [Hy|[Hy|[]]]; [now apply Hle|discriminate].
      + intros y Hy. apply in_app_or in Hy as [Hy|[Hy|[]]]; [now apply IH in Hy|discriminate].
  Qed.

  Lemma finite_min_unique l m m' : finite_min l m -> finite_min l m' -> m = m'.
  Proof. intros [H1 H2] [H3 H4]. apply H2 in H3. apply H4 in H1. lra. Qed.

  Lemma rel_above y x : x < y ->
    relative_improvement_above (Some y) x tol = true <-> (y = 0 \/ tol * Rabs y < y - x).
  Proof.
    intros Hlt. unfold relative_improvement_above.
    destruct (Req_EM_T y 0) as [->|Hn]; [split; [now left|reflexivity]|].
    assert (Hp : 0 < Rabs y) by now apply Rabs_pos_lt.
    assert (Heq : (y - x) / Rabs y * Rabs y = y - x) by (field; lra).
    destruct (Rlt_dec tol ((y - x) / Rabs y)) as [H|H]; split; intros HH; try reflexivity; try discriminate.
    - right. rewrite <- Heq. now apply Rmult_lt_compat_r.
    - exfalso. destruct HH as [HH|HH]; [contradiction|]. apply H.
      apply Rmult_lt_reg_r with (Rabs y); [exact Hp|]. now rewrite Heq.
  Qed.

  (** Significance is what one evaluation decides, given that the first
      validation was a number. *)
  Lemma significant_dec l x v0 rest m : l = v0 :: rest -> es_min (run_stopper l) = Some m ->
    (significant tol (losses l) (Some x) <-> x < m /\ relative_improvement_above (Some m) x tol = true).
  Proof.
    intros -> Hm. pose proof (run_min (v0 :: rest)) as Hr. rewrite Hm in Hr.
    split.
    - intros (x' & Hx & [Hno|(m' & Hmin & Hlt & Hs)]); injection Hx as <-.
      + destruct Hr as [Hin _]. now apply Hno in Hin.
      + pose proof (finite_min_unique _ _ _ Hr Hmin). subst m'. split; [exact Hlt|]. now apply rel_above.
    - intros [Hlt Hs]. exists x. split; [reflexivity|]. right. exists m. repeat split; try apply Hr; try exact Hlt.
      now apply rel_above.
  Qed.

  Lemma unimproved_zero vs : unimproved_tail tol vs 0.
  Proof. split; [lia|]. intros i Hi. lia. Qed.

  Lemma unimproved_snoc vs v k :
    unimproved_tail tol (vs ++ [v]) (S k) <-> (~ significant tol vs v /\ unimproved_tail tol vs k).
  Proof.
    unfold unimproved_tail. rewrite app_length. cbn [length]. split.
    - intros [Hk H]. split; [|split; [lia|]].
      + specialize (H (length vs) ltac:(lia)). rewrite firstn_app, firstn_all, Nat.sub_diag, app_nil_r in H.
        rewrite app_nth2, Nat.sub_diag in H by lia. exact H.
      + intros i Hi. specialize (H i ltac:(lia)). rewrite firstn_app in H.
        replace (i - length vs)%nat with 0%nat in H by lia. cbn [firstn] in H. rewrite app_nil_r in H.
        rewrite app_nth1 in H by lia. exact H.
    - intros [Hs [Hk H]]. split; [lia|]. intros i Hi.
      destruct (Nat.eq_dec i (length vs)) as [->|Hne].
      + rewrite firstn_app, firstn_all, Nat.sub_diag, app_nil_r.
        rewrite app_nth2, Nat.sub_diag by lia. exact Hs.
      + rewrite firstn_app. replace (i - length vs)%nat with 0%nat by lia. cbn [firstn]. rewrite app_nil_r.
        rewrite app_nth1 by lia. apply H. lia.
  Qed.

  (** The counter is the length of the longest unimproved tail. *)
  Lemma counter_spec l : (exists v0 x rest, l = v0 :: rest /\ vloss v0 = Some x) \/ l = [] ->
    forall k, unimproved_tail tol (losses l) k <-> (k <= es_n_not_improve (run_stopper l))%nat.
  Proof.
    induction l as [|v l IH] using rev_ind; intros Hfirst k.
    - cbn. split; [intros [H _]; exact H|]. intros H. replace k with 0%nat by lia. apply unimproved_zero.
    - destruct l as [|v0 rest].
      + destruct Hfirst as [(w & x & r & E & Hw)|E]; [|discriminate]. cbn [app] in *.
        injection E as E1 E2. subst v r. change (run_stopper [w]) with (feed stopper_init w). unfold feed, evaluate_criterion, record_validation. cbn [es_min es_steps es_history es_n_not_improve es_best stopper_init]. rewrite Hw. cbn [below fst es_n_not_improve length app Nat.ltb Nat.leb].
        change (losses [w]) with [vloss w]. rewrite Hw.
        split.
        * intros [Hk H]. cbn [length] in *. destruct k as [|k]; [lia|]. exfalso.
          apply (H 0%nat ltac:(lia)). exists x. split; [reflexivity|]. left. intros y [].
        * intros Hk. replace k with 0%nat by lia. apply unimproved_zero.
      + set (l := v0 :: rest) in *.
        assert (Hf : exists x, vloss v0 = Some x).
        { destruct Hfirst as [(w & x & r & E & Hw)|E]; [|discriminate].
          unfold l in E. cbn [app] in E. injection E as -> _. now exists x. }
        assert (IH' : forall k, unimproved_tail tol (losses l) k <-> (k <= es_n_not_improve (run_stopper l))%nat).
        { apply IH. left. destruct Hf as [x Hx]. now exists v0, x, rest. }
        assert (Hm : exists m, es_min (run_stopper l) = Some m).
        { pose proof (run_min l) as Hr. destruct (es_min (run_stopper l)) as [m|]; [now exists m|].
          destruct Hf as [x Hx]. exfalso. apply (Hr x). unfold losses, l. cbn. now left. }
        destruct Hm as [m Hm]. clear IH.
        rewrite run_snoc. unfold losses. rewrite map_app. change (map vloss [v]) with [vloss v].
        assert (Hstep : es_n_not_improve (feed (run_stopper l) v) =
                  match vloss v with
                  | Some x => if Rlt_dec x m then
                      if relative_improvement_above (Some m) x tol then 0%nat
                      else S (es_n_not_improve (run_stopper l))
                    else S (es_n_not_improve (run_stopper l))
                  | None => S (es_n_not_improve (run_stopper l)) end).
        { unfold feed, evaluate_criterion, record_validation. cbn [es_min es_steps es_n_not_improve es_best].
          rewrite Hm, run_steps, app_length, map_length.
          replace (Nat.ltb 1 (length l + length [vepoch v])) with true
            by (symmetry; apply Nat.ltb_lt; unfold l; cbn; lia).
          destruct (vloss v) as [x|]; cbn [below]; [|reflexivity].
          now destruct (Rlt_dec x m). }
        assert (Hsig : significant tol (losses l) (vloss v) <-> es_n_not_improve (feed (run_stopper l) v) = 0%nat).
        { rewrite Hstep. destruct (vloss v) as [x|].
          - rewrite (significant_dec l x v0 rest m eq_refl Hm).
            destruct (Rlt_dec x m) as [Hlt|Hge].
            + destruct (relative_improvement_above (Some m) x tol); split; intros H; try lia; try tauto; destruct H as [_ H]; discriminate.
            + split; [intros [H _]; contradiction|discriminate].
          - split; [intros (x & Hx & _); discriminate|discriminate]. }
        assert (Hcase : es_n_not_improve (feed (run_stopper l) v) = 0%nat \/
                        es_n_not_improve (feed (run_stopper l) v) = S (es_n_not_improve (run_stopper l))).
        { rewrite Hstep. destruct (vloss v); [|tauto]. destruct (Rlt_dec _ _); [|tauto].
          destruct (relative_improvement_above _ _ _); tauto. }
        destruct k as [|k]; [split; [lia|intros; apply unimproved_zero]|].
        change (map vloss l) with (losses l).
        rewrite unimproved_snoc, Hsig, IH'. destruct Hcase as [Hc|Hc]; rewrite Hc; lia.
  Qed.

  (** *** Early stopping is requested exactly when the last [trigger]
      validations all failed to improve significantly.
      Partial: for sequences whose first validation loss is a number (see
      [nan_first_validation_refuted]). *)
  Theorem early_stop_iff_unimproved_partial l v :
    (exists w x rest, l ++ [v] = w :: rest /\ vloss w = Some x) ->
    answer l v = true <-> unimproved_tail tol (losses (l ++ [v])) trigger.
  Proof.
    intros Hf. rewrite counter_spec by (left; exact Hf).
    rewrite run_snoc. unfold answer, feed, evaluate_criterion. cbn [fst snd].
    now rewrite Nat.leb_le.
  Qed.

  (** *** Never before: a significant improvement among the last [trigger]
      validations, or fewer than [trigger] + 1 validations, prevents stopping. *)
  Theorem no_early_stop_before_trigger l v :
    (exists w x rest, l ++ [v] = w :: rest /\ vloss w = Some x) ->
    (length l < trigger)%nat -> answer l v = false.
  Proof.
    intros Hf Hlen. destruct (answer l v) eqn:E; [|reflexivity]. exfalso.
    pose proof Hf as Hf'.
    apply early_stop_iff_unimproved_partial in E; [|exact Hf]. destruct E as [Hk H].
    unfold losses in *. rewrite map_length, app_length in *. cbn [length] in *.
    destruct Hf' as (w & x & rest & E & Hw).
    apply (H 0%nat); [lia|]. rewrite firstn_O. rewrite E. cbn. rewrite Hw.
    exists x. split; [reflexivity|]. left. intros y [].
  Qed.

  (** *** The stored best state is that of the first smallest validation loss. *)
  Theorem best_state_is_first_minimum l i :
    first_argmin (losses l) i ->
    exists v, nth_error l i = Some v /\ es_best (run_stopper l) = Some (vmodel v, vepoch v) /\
              load_best_performance_state (run_stopper l) = Ok (vmodel v, vepoch v) /\
              es_min (run_stopper l) = vloss v.
  Proof.
    enough (Hgen : first_argmin (losses l) i -> exists v, nth_error l i = Some v /\
              es_best (run_stopper l) = Some (vmodel v, vepoch v) /\ es_min (run_stopper l) = vloss v).
    { intros H. destruct (Hgen H) as (v & Hv & Hb & Hm). exists v. repeat split; try assumption.
      unfold load_best_performance_state. now rewrite Hb. }
    revert i. induction l as [|v l IH] using rev_ind; intros i (m & Hi & Hmin & Hfirst).
    - destruct i; discriminate.
    - unfold losses in *. rewrite map_app in *. change (map vloss [v]) with [vloss v] in *.
      pose proof (run_min l) as Hr. unfold losses in Hr. rewrite run_snoc.
      assert (Hstep : forall x, vloss v = Some x ->
                 match es_min (run_stopper l) with None => True | Some y => x < y end ->
                 es_best (feed (run_stopper l) v) = Some (vmodel v, vepoch v) /\
                 es_min (feed (run_stopper l) v) = vloss v).
      { intros x Hx Hc. unfold feed, evaluate_criterion, record_validation.
        cbn [es_min es_steps es_n_not_improve es_best]. rewrite Hx.
        destruct (es_min (run_stopper l)) as [y|]; cbn [below].
        - destruct (Rlt_dec x y); [split; reflexivity|contradiction].
        - split; reflexivity. }
      assert (Hkeep : (forall x, vloss v = Some x -> match es_min (run_stopper l) with None => False | Some y => y <= x end) ->
                 es_best (feed (run_stopper l) v) = es_best (run_stopper l) /\
                 es_min (feed (run_stopper l) v) = es_min (run_stopper l)).
      { intros Hc. unfold feed, evaluate_criterion, record_validation.
        cbn [es_min es_steps es_n_not_improve es_best].
        destruct (vloss v) as [x|]; cbn [below]; [|split; reflexivity].
        specialize (Hc x eq_refl). destruct (es_min (run_stopper l)) as [y|]; [|contradiction].
        destruct (Rlt_dec x y); [lra|split; reflexivity]. }
      destruct Hmin as [Hin Hle].
      destruct (Nat.lt_ge_cases i (length l)) as [Hlt|Hge].
      + rewrite nth_error_app1 in Hi by (rewrite map_length; exact Hlt).
        assert (Hfa : first_argmin (map vloss l) i).
        { exists m. split; [exact Hi|]. split; [split; [apply nth_error_In in Hi; exact Hi|]|].
          - intros x Hx. apply Hle. apply in_or_app. now left.
          - intros j Hj Hn. apply (Hfirst j Hj). rewrite nth_error_app1; [exact Hn|rewrite map_length; lia]. }
        destruct (IH i Hfa) as (w & Hw & Hb & Hmw). exists w.
        split; [rewrite nth_error_app1 by exact Hlt; exact Hw|].
        destruct Hkeep as [K1 K2].
        { intros x Hx. rewrite Hmw.
          assert (Hm : vloss w = Some m).
          { rewrite nth_error_map, Hw in Hi. cbn in Hi. now injection Hi. }
          rewrite Hm. apply Hle. apply in_or_app. right. rewrite Hx. now left. }
        rewrite K1, K2. now split.
      + assert (i = length l).
        { assert (nth_error (map vloss l ++ [vloss v]) i <> None) by (rewrite Hi; discriminate).
          apply nth_error_Some in H. rewrite app_length, map_length in H. cbn in H. lia. }
        subst i. exists v. split; [rewrite nth_error_app2, Nat.sub_diag by lia; reflexivity|].
        rewrite nth_error_app2, map_length, Nat.sub_diag in Hi by (rewrite map_length; lia). cbn in Hi.
        injection Hi as Hi.
        apply (Hstep m Hi).
        destruct (es_min (run_stopper l)) as [y|]; [|exact I].
        destruct Hr as [Hyin _]. pose proof (Hle y ltac:(apply in_or_app; now left)) as Hmy.
        destruct (Rle_lt_or_eq_dec _ _ Hmy) as [H|H]; [exact H|]. exfalso. subst y.
        apply In_nth_error in Hyin as [j Hj].
        assert (j < length (map vloss l))%nat by (apply nth_error_Some; rewrite Hj; discriminate).
        rewrite map_length in *. apply (Hfirst j ltac:(lia)).
        rewrite nth_error_app1 by (rewrite map_length; lia). exact Hj.
  Qed.

  (** Without any numeric validation loss there is no best state and loading it
      raises. *)
  Theorem no_best_state_without_number l :
    (forall x, ~ In (Some x) (losses l)) -> load_best_performance_state (run_stopper l) = Err RuntimeError.
  Proof.
    intros H. unfold load_best_performance_state.
    enough (es_best (run_stopper l) = None) as -> by reflexivity.
    induction l as [|v l IH] using rev_ind; [reflexivity|].
    unfold losses in *. rewrite map_app in H. rewrite run_snoc.
    unfold feed, evaluate_criterion, record_validation. cbn [es_min es_steps es_n_not_improve es_best].
    destruct (vloss v) as [x|] eqn:E.
    - exfalso. apply (H x). apply in_or_app. right. cbn. left. exact E.
    - cbn [below fst es_best]. apply IH. intros x Hx. apply (H x). apply in_or_app. now left.
  Qed.

  (** *** The recorded minimum never increases. *)
  Theorem best_loss_never_increases l v m :
    es_min (run_stopper l) = Some m ->
    exists m', es_min (run_stopper (l ++ [v])) = Some m' /\ m' <= m.
  Proof.
    intros Hm. pose proof (run_min l) as Hr. rewrite Hm in Hr.
    pose proof (run_min (l ++ [v])) as Hr'. unfold losses in *. rewrite map_app in Hr'.
    destruct (es_min (run_stopper (l ++ [v]))) as [m'|].
    - exists m'. split; [reflexivity|]. apply Hr'. apply in_or_app. left. apply Hr.
    - exfalso. destruct Hr as [Hin _]. apply (Hr' m). apply in_or_app. now left.
  Qed.

  (** *** The validation loss history has one entry per training epoch: the
      loss of the latest validation at or before that epoch, when validations
      are at increasing epochs starting with epoch 0 (as the training loop does). *)
  Inductive increasing_from_zero : list validation -> Prop :=
  | ifz_one v : vepoch v = 0%nat -> increasing_from_zero [v]
  | ifz_snoc l w v : increasing_from_zero (l ++ [w]) -> (vepoch w < vepoch v)%nat ->
      increasing_from_zero (l ++ [w] ++ [v]).

  Lemma run_history l v :
    es_history (run_stopper (l ++ [v])) =
    match es_history (run_stopper l) with
    | [] => [vloss v]
    | h => h ++ repeat (last h None) (vepoch v - length h) ++ [vloss v]
    end.
  Proof.
    rewrite run_snoc. unfold feed, evaluate_criterion, record_validation.
    cbn [es_min es_steps es_n_not_improve es_best es_history].
    destruct (below _ _); cbn [fst es_history]; destruct (es_history (run_stopper l)); cbn [app]; try reflexivity;
      now rewrite <- app_assoc.
  Qed.

  Theorem validation_history_per_epoch l v : increasing_from_zero (l ++ [v]) ->
    length (es_history (run_stopper (l ++ [v]))) = S (vepoch v) /\
    forall e i w, (e <= vepoch v)%nat -> nth_error (l ++ [v]) i = Some w -> (vepoch w <= e)%nat ->
      (forall w', nth_error (l ++ [v]) (S i) = Some w' -> (e < vepoch w')%nat) ->
      nth_error (es_history (run_stopper (l ++ [v]))) e = Some (vloss w).
  Proof.
    remember (l ++ [v]) as lv eqn:Elv. intros Hinc. revert l v Elv.
    induction Hinc as [v0 Hv0 | l0 w0 v0 Hinc IH Hlt]; intros l v Elv.
    - destruct l as [|a l]; [|destruct l; discriminate]. cbn in Elv. injection Elv as <-.
      change [v0] with ([] ++ [v0]). rewrite run_history. cbn. rewrite Hv0. split; [reflexivity|].
      intros e i w He Hi _ _. assert (e = 0%nat) by lia. subst e. destruct i as [|i]; [|destruct i; discriminate].
      cbn in Hi. now injection Hi as ->.
    - rewrite app_assoc in Elv. apply app_inj_tail in Elv as [El Ev]. subst l v0.
      rewrite app_assoc.
      destruct (IH l0 w0 eq_refl) as [IHlen IHval].
      rewrite run_history.
      destruct (es_history (run_stopper (l0 ++ [w0]))) as [|h0 hs] eqn:Eh; [discriminate|].
      cbv beta iota zeta. rewrite <- Eh in *. clear h0 hs Eh. set (h := es_history (run_stopper (l0 ++ [w0]))) in *.
      assert (Hlast : last h None = vloss w0).
      { assert (HH : nth_error h (vepoch w0) = Some (vloss w0)).
        { apply (IHval (vepoch w0) (length l0) w0); [lia|rewrite nth_error_app2, Nat.sub_diag by lia; reflexivity|lia|].
          intros w' Hw'. assert (Hn : nth_error (l0 ++ [w0]) (S (length l0)) = None)
            by (apply nth_error_None; rewrite app_length; cbn; lia). rewrite Hn in Hw'. discriminate. }
        assert (Hls : forall (h : list (option R)) k, length h = S k -> nth_error h k = Some (last h None)).
        { clear. intros h. induction h as [|a h IH]; intros k Hk; [discriminate|]. destruct h as [|b h].
          - cbn in Hk. assert (k = 0)%nat by lia. now subst k.
          - destruct k as [|k]; [discriminate|]. cbn [nth_error]. rewrite (IH k) by (cbn in *; lia). reflexivity. }
        rewrite (Hls h _ IHlen) in HH. now injection HH. }
      rewrite Hlast. split.
      + rewrite !app_length, repeat_length, IHlen. cbn [length]. lia.
      + intros e i w He Hi Hwe Hnext.
        destruct (Nat.lt_ge_cases i (length (l0 ++ [w0]))) as [Hil|Hil].
        * rewrite nth_error_app1 in Hi by exact Hil.
          destruct (Nat.lt_ge_cases e (S (vepoch w0))) as [Hel|Hel].
          -- rewrite nth_error_app1 by lia. apply (IHval e i w); [lia|exact Hi|exact Hwe|].
             intros w' Hw'. apply Hnext. rewrite nth_error_app1; [exact Hw'|].
             apply nth_error_Some. rewrite Hw'. discriminate.
          -- (* gap: the next validation after i must be v itself *)
             assert (Ei : i = length l0).
             { rewrite app_length in Hil. cbn in Hil. destruct (Nat.eq_dec i (length l0)) as [E|E]; [exact E|].
               exfalso. assert (exists w', nth_error (l0 ++ [w0]) (S i) = Some w') as [w' Hw'].
               { destruct (nth_error (l0 ++ [w0]) (S i)) as [w'|] eqn:E'; [now exists w'|].
                 apply nth_error_None in E'. rewrite app_length in E'. cbn in E'. lia. }
               assert (e < vepoch w')%nat.
               { apply Hnext. rewrite nth_error_app1; [exact Hw'|]. apply nth_error_Some. rewrite Hw'. discriminate. }
               assert (vepoch w' <= vepoch w0)%nat; [|lia].
               clear - Hinc Hw'. remember (l0 ++ [w0]) as lw eqn:E. revert l0 w0 E w' i Hw'.
               induction Hinc as [v1 H1|l1 w1 v1 H IH Hlt]; intros l0 w0 E w' i Hw'.
               - destruct l0 as [|a l]; [|destruct l; discriminate]. cbn in *. injection E as <-.
                 destruct i; discriminate.
               - rewrite app_assoc in E. apply app_inj_tail in E as [<- <-].
                 destruct (Nat.lt_ge_cases (S i) (length (l1 ++ [w1]))) as [Hl|Hl].
                 + rewrite app_assoc, nth_error_app1 in Hw' by exact Hl.
                   specialize (IH l1 w1 eq_refl w' i Hw'). lia.
                 + rewrite app_assoc, nth_error_app2 in Hw' by exact Hl.
                   destruct (S i - length (l1 ++ [w1]))%nat as [|k]; [cbn in Hw'; injection Hw' as ->; lia|].
                   destruct k; discriminate. }
             subst i. rewrite nth_error_app2, Nat.sub_diag in Hi by lia. cbn in Hi. injection Hi as <-.
             assert (e < vepoch v)%nat.
             { apply Hnext. rewrite nth_error_app2 by (rewrite app_length; cbn; lia).
               rewrite app_length. cbn [length]. replace (S (length l0) - (length l0 + 1))%nat with 0%nat by lia. reflexivity. }
             rewrite nth_error_app2 by lia. rewrite nth_error_app1 by (rewrite repeat_length; lia).
             apply nth_error_repeat. lia.
        * rewrite nth_error_app2 in Hi by exact Hil.
          destruct (i - length (l0 ++ [w0]))%nat as [|k]; [|destruct k; discriminate].
          cbn in Hi. injection Hi as <-. assert (e = vepoch v) by lia. subst e.
          rewrite app_assoc, nth_error_app2 by (rewrite app_length, repeat_length; lia).
          rewrite app_length, repeat_length.
          replace (vepoch v - (length h + (vepoch v - length h)))%nat with 0%nat by lia. reflexivity.
  Qed.
End Stop.

(** A NaN first validation followed by a number: the number is the first
    finite loss ever seen, yet it is counted as a failure to improve and
    stopping is requested. *)
Theorem nan_first_validation_refuted :
  let l := [(tt, 0%nat, None)] in let v := (tt, 1%nat, Some 1) in
  answer 0 2 l v = true /\ ~ unimproved_tail 0 (losses (l ++ [v])) 2 /\ ~ unimproved_tail 0 (losses (l ++ [v])) 1.
Proof.
  intros l v. split; [|split].
  - unfold answer, run_stopper, feed, evaluate_criterion, record_validation. cbn. reflexivity.
  - intros [_ H]. apply (H 1%nat); [cbn; lia|]. exists 1. split; [reflexivity|]. left.
    intros y [Hy|[]]. discriminate.
  - intros [_ H]. apply (H 1%nat); [cbn; lia|]. exists 1. split; [reflexivity|]. left.
    intros y [Hy|[]]. discriminate.
Qed.

(** Non-trivial case: losses 4, 2, 1.99, 3 with tolerance 1/10: the second is a
    significant improvement, the third and fourth are not, and with trigger 2
    stopping is requested exactly at the fourth, with the third state as best. *)
Example early_stop_case :
  let l := [(0%nat, 0%nat, Some 4); (1%nat, 1%nat, Some 2); (2%nat, 2%nat, Some (199/100))] in
  let v := (3%nat, 3%nat, Some 3) in
  answer (1/10) 2 (removelast l) (last l v) = false /\ answer (1/10) 2 l v = true /\
  es_best (run_stopper (1/10) 2 (l ++ [v])) = Some (2%nat, 2%nat) /\ es_min (run_stopper (1/10) 2 (l ++ [v])) = Some (199/100).
Proof.
  assert (Habs : forall r, 0 < r -> Rabs r = r) by (intros; apply Rabs_pos_eq; lra).
  cbv [answer run_stopper feed evaluate_criterion record_validation below relative_improvement_above
       removelast last fold_left es_steps es_history es_min es_n_not_improve es_best fst snd vmodel vepoch vloss
       stopper_init length app Nat.ltb Nat.leb].
  repeat (destruct (Rlt_dec _ _); [|exfalso; lra]) || idtac.
  destruct (Req_EM_T 4 0); [lra|]. rewrite (Habs 4) by lra. rewrite (Habs 2) by lra.
  destruct (Rlt_dec 2 4); [|exfalso; lra].
  destruct (Rlt_dec (1/10) ((4 - 2)/4)); [|exfalso; lra].
  destruct (Req_EM_T 2 0); [lra|].
  destruct (Rlt_dec (199/100) 2); [|exfalso; lra].
  destruct (Rlt_dec (1/10) ((2 - 199/100)/2)); [exfalso; lra|].
  destruct (Rlt_dec 3 (199/100)); [exfalso; lra|].
  repeat split; reflexivity.
Qed.

Print Assumptions early_stop_iff_unimproved_partial.
Print Assumptions best_state_is_first_minimum.
Print Assumptions validation_history_per_epoch.
