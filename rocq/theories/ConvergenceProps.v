(** C31: parameter convergence criterion and the parameter history it reads. *)
From Coq Require Import String Reals List Bool Arith Lra Lia.
From Verif Require Import Lib PyDict MatrixModel ParamModel TrainModel TrainSpec.
Import ListNotations.
Local Open Scope R_scope.
Local Open Scope list_scope.

Lemma rdiff_length h : length (rdiff_hist h) = (length h - 1)%nat.
Proof.
  induction h as [|a h IH]; [reflexivity|]. destruct h as [|b h]; [reflexivity|].
  change (length (rdiff_hist (a :: b :: h))) with (S (length (rdiff_hist (b :: h)))). rewrite IH. cbn. lia.
Qed.

Definition rdiff (a b : R) : R := if Rlt_dec pc_small (Rabs a) then Rabs (Rabs (b - a) / a) else Rabs (Rabs (b - a)).

Lemma rdiff_nth h i : (S i < length h)%nat -> nth i (rdiff_hist h) 0 = rdiff (nth i h 0) (nth (S i) h 0).
Proof.
  revert i. induction h as [|a h IH]; intros i Hi; [cbn in Hi; lia|].
  destruct h as [|b h]; [cbn in Hi; lia|]. destruct i as [|i]; [reflexivity|].
  change (rdiff_hist (a :: b :: h)) with (rdiff a b :: rdiff_hist (b :: h)).
  change (nth (S i) (rdiff a b :: rdiff_hist (b :: h)) 0) with (nth i (rdiff_hist (b :: h)) 0).
  rewrite IH by (cbn in *; lia). reflexivity.
Qed.

Lemma pc_small_pos : 0 < pc_small.
Proof. unfold pc_small. apply Rdiv_lt_0_compat; [lra|]. apply pow_lt. lra. Qed.

Lemma rdiff_small tol a b : rdiff a b < tol <-> small_change pc_small tol a b.
Proof.
  pose proof pc_small_pos as Hs.
  unfold rdiff, small_change. destruct (Rlt_dec pc_small (Rabs a)) as [H|H].
  - assert (Hp : 0 < Rabs a) by lra. assert (Ha : a <> 0) by (intros ->; rewrite Rabs_R0 in Hp; lra).
    assert (E : Rabs (Rabs (b - a) / a) = Rabs (b - a) / Rabs a).
    { unfold Rdiv. rewrite Rabs_mult, Rabs_Rabsolu, Rabs_inv. reflexivity. }
    assert (E2 : Rabs (b - a) / Rabs a * Rabs a = Rabs (b - a)) by (field; lra).
    rewrite E. split.
    + intros Hlt. split; [intros _|lra]. rewrite <- E2. now apply Rmult_lt_compat_r.
    + intros [Hlt _]. specialize (Hlt H). apply Rmult_lt_reg_r with (Rabs a); [exact Hp|]. lra.
  - rewrite Rabs_Rabsolu. split; [intros Hlt; split; [lra|intros _; exact Hlt]|].
    intros [_ Hlt]. apply Hlt. lra.
Qed.

Lemma all_below_spec tol l : all_below tol l = true <-> forall i, (i < length l)%nat -> nth i l 0 < tol.
Proof.
  unfold all_below. rewrite forallb_forall. split.
  - intros H i Hi. specialize (H _ (nth_In l 0 Hi)). destruct (Rlt_dec _ _); [assumption|discriminate].
  - intros H x Hx. apply (In_nth _ _ 0) in Hx as (i & Hi & <-).
    destruct (Rlt_dec _ _) as [_|Hn]; [reflexivity|]. exfalso. apply Hn. now apply H.
Qed.

Lemma nth_skipn_R (l : list R) k i : nth i (skipn k l) 0 = nth (k + i) l 0.
Proof.
  revert l. induction k as [|k IH]; intros l; [reflexivity|]. destruct l as [|a l]; [now destruct i|].
  cbn [skipn plus nth]. apply IH.
Qed.

(** One parameter: for a positive trigger the test is exactly "the last
    [trigger] recorded changes are all small". *)
Theorem parameter_converged_iff_settled tol trigger h : (1 <= trigger)%nat ->
  param_converged tol trigger h = true <-> settled pc_small tol trigger h.
Proof.
  intros Ht. unfold param_converged, settled.
  destruct (Nat.ltb_spec 1 (length h)) as [H1|H1]; [|split; [discriminate|intros [H _]; lia]].
  destruct (Nat.ltb_spec trigger (length h)) as [H2|H2]; [|split; [discriminate|intros [H _]; lia]].
  rewrite all_below_spec. unfold last_slice. destruct trigger as [|tr]; [lia|]. set (k := S tr) in *.
  rewrite skipn_length, rdiff_length. split.
  - intros H. split; [exact H2|]. intros i Hi.
    specialize (H (i - (length h - k))%nat ltac:(lia)). rewrite nth_skipn_R in H.
    rewrite rdiff_nth in H by lia. rewrite rdiff_small in H.
    replace (length h - 1 - k + (i - (length h - k)))%nat with (i - 1)%nat in H by lia.
    replace (S (i - 1)) with i in H by lia. exact H.
  - intros [_ H] j Hj. rewrite nth_skipn_R, rdiff_nth by lia. rewrite rdiff_small.
    specialize (H (S (length h - 1 - k + j)) ltac:(lia)).
    replace (S (length h - 1 - k + j) - 1)%nat with (length h - 1 - k + j)%nat in H by lia. exact H.
Qed.

(** *** Convergence is reported exactly when every parameter has settled and its
    history is long enough.
    Partial: positive trigger, at least one parameter, non-empty histories all of
    the same length (those recorded by the training loops). *)
Theorem convergence_iff_all_settled_partial tol trigger min_hist hists n :
  (1 <= trigger)%nat -> hists <> [] -> (0 < n)%nat ->
  (forall kv, In kv hists -> length (snd kv) = n) ->
  exists b, check_model_parameters_convergence tol trigger min_hist hists = Ok b /\
    (b = true <-> forall k h, In (k, h) hists -> settled pc_small tol trigger h /\ (min_hist < length h)%nat).
Proof.
  intros Ht Hne Hn Hlen. unfold check_model_parameters_convergence.
  assert (Hex : existsb (fun kv : string * list R => match snd kv with [] => true | _ => false end) hists = false).
  { destruct (existsb _ _) eqn:E; [|reflexivity]. apply existsb_exists in E as (kv & Hin & H).
    apply Hlen in Hin. destruct (snd kv); [cbn in Hin; lia|discriminate]. }
  destruct hists as [|kv0 rest] eqn:Eh; [contradiction|]. rewrite <- Eh in *. rewrite Hex.
  eexists. split; [reflexivity|].
  assert (Hl : In (last hists (EmptyString, [])) hists).
  { rewrite Eh. clear. revert kv0. induction rest as [|a rest IH]; intros kv0; [now left|].
    right. apply (IH a). }
  rewrite andb_true_iff, forallb_forall, Nat.ltb_lt, (Hlen _ Hl). split.
  - intros [H1 H2] k h Hin. rewrite <- (parameter_converged_iff_settled tol trigger h Ht).
    split; [exact (H1 _ Hin)|]. apply Hlen in Hin. cbn [snd] in Hin. lia.
  - intros H. split.
    + intros [k h] Hin. apply parameter_converged_iff_settled; [exact Ht|]. now apply (H k h).
    + destruct (last hists (EmptyString, [])) as [k h] eqn:E. destruct (H k h Hl) as [_ H'].
      apply Hlen in Hl. cbn [snd] in Hl. lia.
Qed.

(** Histories of different lengths: the minimum length is tested on the last
    parameter only, so the answer depends on the order of the dictionary. *)
Theorem minimum_length_of_last_only_refuted :
  let a := ("E"%string, [1; 1]) in let b := ("v"%string, [1; 1; 1; 1]) in
  check_model_parameters_convergence (1/10) 1 3 [a; b] = Ok true /\
  check_model_parameters_convergence (1/10) 1 3 [b; a] = Ok false.
Proof.
  assert (Hp : forall h, h = [1; 1] \/ h = [1; 1; 1; 1] -> param_converged (1/10) 1 h = true).
  { intros h Hh. apply parameter_converged_iff_settled; [lia|].
    assert (E : Rabs (1 - 1) = 0) by (rewrite Rminus_diag_eq by reflexivity; apply Rabs_R0).
    assert (Hsc : small_change pc_small (1/10) 1 1).
    { split; intros _; rewrite E; [rewrite Rabs_R1|]; lra. }
    destruct Hh as [-> | ->]; (split; [cbn; lia|]); cbn [length]; intros i Hi.
    - assert (i = 1)%nat by lia. subst i. exact Hsc.
    - assert (i = 3)%nat by lia. subst i. exact Hsc. }
  unfold check_model_parameters_convergence. cbn [existsb snd orb forallb].
  rewrite !Hp by tauto. split; reflexivity.
Qed.

(** Zero trigger: no change is required to be small, yet the whole history is
    tested (Python slice [-0:]). *)
Theorem zero_trigger_refuted :
  settled pc_small (1/10) 0 [1; 2] /\ check_model_parameters_convergence (1/10) 0 0 [("E"%string, [1; 2])] = Ok false.
Proof.
  split.
  - split; [cbn; lia|]. cbn [length]. intros i Hi. lia.
  - unfold check_model_parameters_convergence. cbn [existsb snd orb forallb].
    enough (param_converged (1/10) 0 [1; 2] = false) as -> by reflexivity.
    unfold param_converged. cbn [length Nat.ltb Nat.leb last_slice].
    destruct (all_below _ _) eqn:E; [|reflexivity]. exfalso.
    rewrite all_below_spec in E. specialize (E 0%nat). rewrite rdiff_length in E. cbn [length] in E.
    specialize (E ltac:(lia)). rewrite rdiff_nth in E by (cbn; lia). cbn [nth] in E.
    rewrite rdiff_small in E. destruct E as [E _]. rewrite Rabs_R1 in E.
    replace (2 - 1) with 1 in E by lra. rewrite Rabs_R1 in E.
    assert (pc_small < 1).
    { unfold pc_small, Rdiv. rewrite Rmult_1_l. rewrite <- Rinv_1. apply Rinv_lt_contravar; [|]; simpl; lra. }
    specialize (E H). lra.
Qed.

(** Without parameters the test raises. *)
Theorem no_parameters_refuted tol trigger min_hist :
  check_model_parameters_convergence tol trigger min_hist [] = Err NameError.
Proof. reflexivity. Qed.

(** Non-trivial case: 10, 20, 20.1, 20.1 has settled for trigger 2 (changes
    0.5 % and 0) but not for trigger 3 (change 100 %). *)
Example convergence_case :
  settled pc_small (1/100) 2 [10; 20; 201/10; 201/10] /\ ~ settled pc_small (1/100) 3 [10; 20; 201/10; 201/10] /\
  check_model_parameters_convergence (1/100) 2 3 [("E"%string, [10; 20; 201/10; 201/10])] = Ok true.
Proof.
  assert (Hsm : pc_small < 1).
  { unfold pc_small, Rdiv. rewrite Rmult_1_l. rewrite <- Rinv_1. apply Rinv_lt_contravar; [|]; simpl; lra. }
  assert (A : forall r, 0 <= r -> Rabs r = r) by (intros; now apply Rabs_pos_eq).
  assert (H2 : settled pc_small (1/100) 2 [10; 20; 201/10; 201/10]).
  { split; [cbn; lia|]. cbn [length]. intros i Hi.
    assert (Hi' : i = 2%nat \/ i = 3%nat) by lia. destruct Hi' as [->| ->]; cbn [nth Nat.sub]; split.
    - intros _. rewrite (A 20), (A (_ - _)) by lra. lra.
    - intros H. rewrite (A 20) in H by lra. lra.
    - intros _. rewrite (A (201/10)), (A (_ - _)) by lra. lra.
    - intros _. rewrite (A (_ - _)) by lra. lra. }
  split; [exact H2|]. split.
  - intros [_ H]. specialize (H 1%nat ltac:(cbn; lia)). cbn [nth Nat.sub] in H. destruct H as [H _].
    rewrite (A 10) in H by lra. rewrite (A (20 - 10)) in H by lra. specialize (H ltac:(lra)). lra.
  - unfold check_model_parameters_convergence. cbn [existsb snd orb forallb].
    assert (E : param_converged (1/100) 2 [10; 20; 201/10; 201/10] = true) by (apply parameter_converged_iff_settled; [lia|exact H2]).
    rewrite E. reflexivity.
Qed.

(** ** Parameter history per epoch *)

(** The finder records the average over the steps of each epoch. *)
Lemma skipn_all_app {A} (l1 l2 : list A) : skipn (length l1) (l1 ++ l2) = l2.
Proof. induction l1; [reflexivity|exact IHl1]. Qed.

Theorem finder_history_is_epoch_average steps : finder_param_history steps = map mean steps.
Proof.
  unfold finder_param_history. change 0%nat with (length (@nil R)). generalize (@nil R).
  induction steps as [|vals steps IH]; intros h; [reflexivity|].
  cbn [epoch_param_history map]. rewrite skipn_all_app. f_equal.
  rewrite <- app_length. apply IH.
Qed.

(** The recurrent constitutive trainer records, for each epoch, the average over
    the steps of the epoch and the value before its first step. *)
Fixpoint averages_with_previous (prev : R) (steps : list (list R)) : list R :=
  match steps with
  | [] => []
  | vals :: rest => mean (prev :: vals) :: averages_with_previous (last vals prev) rest
  end.

Theorem rc_history_includes_previous_value init steps :
  rc_param_history init steps = init :: averages_with_previous init steps.
Proof.
  unfold rc_param_history. f_equal.
  enough (H : forall pre prev, epoch_param_history (pre ++ [prev]) (length pre) steps = averages_with_previous prev steps).
  { apply (H [] init). }
  induction steps as [|vals steps IH]; intros pre prev; [reflexivity|].
  cbn [epoch_param_history averages_with_previous].
  rewrite <- app_assoc, skipn_all_app. change ([prev] ++ vals) with (prev :: vals). f_equal.
  rewrite <- app_length.
  destruct vals as [|v vals]; [cbn [last]; rewrite app_nil_r; apply IH|].
  rewrite <- (IH (pre ++ removelast (prev :: v :: vals)) (last (v :: vals) prev)).
  assert (E : prev :: v :: vals = removelast (prev :: v :: vals) ++ [last (v :: vals) prev]).
  { change (last (v :: vals) prev) with (last (prev :: v :: vals) prev).
    apply app_removelast_last. discriminate. }
  rewrite E at 1. rewrite app_assoc. f_equal.
  rewrite !app_length. f_equal. apply (f_equal (@length R)) in E. rewrite app_length in E. cbn [length] in E |- *. lia.
Qed.

(** So the recorded value of an epoch is not the average over that epoch. *)
Theorem rc_epoch_average_refuted : exists init steps,
  rc_param_history init steps <> init :: map mean steps.
Proof.
  exists 1, [[3]]. rewrite rc_history_includes_previous_value. unfold averages_with_previous, mean, lsum. cbn.
  intros E. injection E as E. lra.
Qed.

Print Assumptions convergence_iff_all_settled_partial.
Print Assumptions rc_history_includes_previous_value.
