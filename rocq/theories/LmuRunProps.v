(** Runs of the local model update (C124). *)
From Coq Require Import String List Bool Arith Lia.
From Verif Require Import Lib PyDict FileFindModel UqModel UqProps LmuRunModel.
Import ListNotations.
Local Open Scope string_scope.
Local Open Scope list_scope.

Section RunLaws.
  Context {M Q : Type}.
  Variable train : string -> option string -> nat -> M.
  Variable predict : string -> M -> Q.
  Variable plots : @store M Q -> nat -> res unit.
  Notation run := (lmu_run train predict plots).
  Notation grid := (noisy_grid train predict plots).
  Notation one := (noisy_case train predict plots).

  (** A successful update: the three data sets were found, they are left as they
      were, no working directory remains, and each realisation has its model and
      the prediction of that model on the testing file. *)
  Theorem lmu_update : forall n c c', run n true false c = (c', Ok tt) <-> exists tr va te,
    find_dataset base_name (c_train c) = Ok tr /\ find_dataset base_name (c_val c) = Ok va /\ find_dataset base_name (c_test c) = Ok te /\
    c_train c' = c_train c /\ c_val c' = c_val c /\ c_test c' = c_test c /\ c_model c' = None /\ c_pred c' = None /\
    c_uq c' = Some (perform_uq (train tr (Some va)) (predict te) true "in_distribution" n (match c_uq c with Some s => s | None => no_realisation end)).
  Proof.
    intros n c c'. unfold lmu_run, emptied. cbn [c_train c_val c_test]. split.
    - destruct (find_dataset base_name (c_train c)) as [tr|]; [|discriminate]. destruct (find_dataset base_name (c_val c)) as [va|]; [|discriminate].
      destruct (find_dataset base_name (c_test c)) as [te|]; [|discriminate]. intros E. injection E as <-. exists tr, va, te. repeat split; reflexivity.
    - intros (tr & va & te & -> & -> & -> & E1 & E2 & E3 & E4 & E5 & E6). destruct c'. cbn in *. subst. reflexivity.
  Qed.
  (** The realisations of a successful update, each on its own. *)
  Theorem lmu_update_realisations : forall n c c', run n true false c = (c', Ok tt) -> exists tr va te st,
    find_dataset base_name (c_train c) = Ok tr /\ find_dataset base_name (c_val c) = Ok va /\ find_dataset base_name (c_test c) = Ok te /\ c_uq c' = Some st /\
    forall k, st k = if Nat.ltb k n then Some (Some (train tr (Some va) k), [("in_distribution", predict te (train tr (Some va) k))]) else None.
  Proof.
    intros n c c' E. apply lmu_update in E as (tr & va & te & T & V & P & _ & _ & _ & _ & _ & U). exists tr, va, te, (perform_uq (train tr (Some va)) (predict te) true "in_distribution" n (match c_uq c with Some s => s | None => no_realisation end)).
    repeat split; auto. intros k. apply uq_trained.
  Qed.
  (** A run without training keeps the models and the predictions of other types,
      and replaces those of the testing data set. *)
  Theorem lmu_prediction : forall n c c' st, c_uq c = Some st -> run n false false c = (c', Ok tt) -> exists te st',
    find_dataset base_name (c_test c) = Ok te /\ c_uq c' = Some st' /\
    forall k m preds, st k = Some (Some m, preds) -> (k < n)%nat -> st' k = Some (Some m, gset String.eqb preds "in_distribution" (predict te m)).
  Proof.
    intros n c c' st U E. unfold lmu_run, emptied in E. cbn [c_train c_val c_test] in E.
    destruct (find_dataset base_name (c_train c)) as [tr|]; [|discriminate]. destruct (find_dataset base_name (c_val c)) as [va|]; [|discriminate].
    destruct (find_dataset base_name (c_test c)) as [te|]; [|discriminate]. injection E as <-. exists te. eexists. split; [reflexivity|]. split; [reflexivity|].
    cbn [c_uq]. rewrite U. intros k m preds S L. rewrite uq_predicted, S. apply Nat.ltb_lt in L. now rewrite L.
  Qed.
  (** A missing data set is found only after the model and prediction directories
      were emptied, whatever they held. *)
  Theorem lmu_missing_data_refuted : forall n training with_plots c e m,
    c_model c = Some (Some m) -> find_dataset base_name (c_test c) = Err e ->
    exists c' e', run n training with_plots c = (c', Err e') /\ c_model c' = Some None /\ c_pred c' = Some ["in_distribution"] /\ c_uq c' = c_uq c.
  Proof.
    intros n training with_plots c e m _ E. unfold lmu_run, emptied. cbn [c_train c_val c_test].
    destruct (find_dataset base_name (c_train c)); [|do 2 eexists; split; [reflexivity|repeat split; reflexivity]].
    destruct (find_dataset base_name (c_val c)); [|do 2 eexists; split; [reflexivity|repeat split; reflexivity]].
    rewrite E. do 2 eexists; split; [reflexivity|repeat split; reflexivity].
  Qed.
  (** A run without training and without earlier realisations succeeds and
      predicts nothing. *)
  Theorem lmu_nothing_predicted_refuted : forall n c tr va te, c_uq c = None ->
    find_dataset base_name (c_train c) = Ok tr -> find_dataset base_name (c_val c) = Ok va -> find_dataset base_name (c_test c) = Ok te ->
    exists c' st, run n false false c = (c', Ok tt) /\ c_uq c' = Some st /\ forall k, st k = None.
  Proof.
    intros n c tr va te U T V P. unfold lmu_run, emptied. cbn [c_train c_val c_test]. rewrite T, V, P. do 2 eexists. split; [reflexivity|]. split; [reflexivity|].
    intros k. cbn [c_uq]. rewrite U, uq_predicted. reflexivity.
  Qed.
  (** Plots that fail leave the working directories behind. *)
  Theorem lmu_plots_fail_refuted : forall n c tr va te e, find_dataset base_name (c_train c) = Ok tr -> find_dataset base_name (c_val c) = Ok va ->
    find_dataset base_name (c_test c) = Ok te -> (forall st, plots st (S n) = Err e) ->
    exists c', run (S n) true true c = (c', Err e) /\ c_model c' = Some (Some (train tr (Some va) n)) /\ c_pred c' = Some ["in_distribution"].
  Proof.
    intros n c tr va te e T V P F. unfold lmu_run, emptied. cbn [c_train c_val c_test]. rewrite T, V, P. cbn [model_uq]. rewrite F.
    eexists. split; [reflexivity|]. split; reflexivity.
  Qed.
  (** The noisy cases: the script ends well if each case does, and then each case is
      that of its own run. *)
  Theorem noisy_grid_iff : forall ty training n p ds ds', grid ty training n p ds = (ds', Ok tt) <-> Forall2 (fun d d' => one ty training n p d = (d', Ok tt)) ds ds'.
  Proof.
    intros ty training n p. induction ds as [|d ds IH]; intros ds'; cbn [noisy_grid].
    - split; [intros E; injection E as <-; constructor|intros F; inversion F; reflexivity].
    - destruct (one ty training n p d) as [d1 [[]|e]] eqn:E.
      + destruct (grid ty training n p ds) as [t' r'] eqn:G. split.
        * intros X. injection X as <- ->. constructor; [exact E|]. now apply IH.
        * intros F. inversion F as [|? y ? l E1 F1]; subst. rewrite E in E1. injection E1 as <-. apply IH in F1. injection F1 as <- ->. reflexivity.
      + split; [discriminate|]. intros F. inversion F as [|? y ? l E1 F1]; subst. rewrite E in E1. discriminate E1.
  Qed.
  (** A failing case leaves the later cases as they were, the earlier ones done. *)
  Theorem noisy_grid_stops_refuted : forall ty training n p pre pre' d d' e post,
    Forall2 (fun x y => one ty training n p x = (y, Ok tt)) pre pre' -> one ty training n p d = (d', Err e) ->
    grid ty training n p (pre ++ d :: post) = (pre' ++ d' :: post, Err e).
  Proof.
    intros ty training n p pre pre' d d' e post F E. induction F as [|x y l l' X _ IH]; cbn [app noisy_grid]; [now rewrite E|].
    rewrite X, IH. reflexivity.
  Qed.
  (** One noisy case with training: the validation data set may be absent, and the
      model of the last realisation stays in the model directory. *)
  Theorem noisy_case_trained : forall ty n c c', one ty true (S n) false (Some c) = (Some c', Ok tt) <-> exists tr va te,
    find_script (c_train c) = Ok tr /\ find_script (c_test c) = Ok te /\
    ((c_val c = None /\ va = None) \/ exists l f, c_val c = Some l /\ find_script (Some l) = Ok f /\ va = Some f) /\
    c_train c' = c_train c /\ c_val c' = c_val c /\ c_test c' = c_test c /\ c_model c' = Some (Some (train tr va n)) /\
    c_pred c' = Some (add_name ty (match c_pred c with Some l => l | None => [] end)) /\
    c_uq c' = Some (perform_uq (train tr va) (predict te) true ty (S n) (match c_uq c with Some s => s | None => no_realisation end)).
  Proof.
    intros ty n c c'. unfold noisy_case. split.
    - destruct (find_script (c_train c)) as [tr|]; [|discriminate]. cbn [c_train c_val c_test c_model c_pred c_uq]. destruct (c_val c) as [l|] eqn:V.
      + destruct (find_script (Some l)) as [f|] eqn:FV; [|discriminate]. cbn [rbind]. destruct (find_script (c_test c)) as [te|]; [|discriminate].
        intros E. injection E as <-. exists tr, (Some f), te. cbn. repeat split; auto. right. exists l, f. auto.
      + destruct (find_script (c_test c)) as [te|]; [|discriminate]. intros E. injection E as <-. exists tr, None, te. cbn. repeat split; auto.
    - intros (tr & va & te & -> & TE & V & E1 & E2 & E3 & E4 & E5 & E6). cbn [c_train c_val c_test c_model c_pred c_uq]. destruct c'. cbn in E1, E2, E3, E4, E5, E6.
      destruct V as [[V ->]|(l & f & V & FV & ->)]; rewrite V; [|rewrite FV]; cbn [rbind]; rewrite TE; subst; unfold model_uq; cbn; rewrite V; reflexivity.
  Qed.
End RunLaws.

Example lmu_case : exists c' st, lmu_run (fun _ _ i => i) (fun _ m => (10 * m)%nat) (fun _ _ => Ok tt) 2 true true
  (mkCase (Some ["notes.txt"; "ss_paths_dataset_n10.pkl"]) (Some ["ss_paths_dataset_n5.pkl"]) (Some ["ss_paths_dataset_n7.pkl"]) None None None) = (c', Ok tt) /\
  c_uq c' = Some st /\ st 1%nat = Some (Some 1%nat, [("in_distribution", 10%nat)]) /\ st 2%nat = None /\ c_model c' = None.
Proof. do 2 eexists. split; [vm_compute; reflexivity|]. split; [reflexivity|]. repeat split. Qed.

Print Assumptions lmu_update.
Print Assumptions lmu_update_realisations.
Print Assumptions lmu_prediction.
Print Assumptions lmu_missing_data_refuted.
Print Assumptions lmu_nothing_predicted_refuted.
Print Assumptions lmu_plots_fail_refuted.
Print Assumptions noisy_grid_iff.
Print Assumptions noisy_grid_stops_refuted.
Print Assumptions noisy_case_trained.
