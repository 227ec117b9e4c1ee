(** Directories of dataset pruning (C138). *)
From Coq Require Import String Ascii List Bool Arith Lia.
From Verif Require Import Lib PyStr PyDict NamesModel NamesProps PruneDirsModel.
Import ListNotations.
Local Open Scope string_scope.
Local Open Scope list_scope.

(** The directory of each known testing type (None: the unused data). *)
Definition known_test (d t : string) (p : option string) : Prop :=
  t = "in_distribution" /\ p = Some (d ++ "/base_datasets/5_testing_id_dataset")%string \/
  t = "out_distribution" /\ p = Some (d ++ "/base_datasets/6_testing_od_dataset")%string \/
  t = "unused_data" /\ p = None.
Definition usable (f : fs) (d t : string) : Prop := exists p, known_test d t p /\ forall q, p = Some q -> In q (dirs f).
(** Everything the pruning needs is there. *)
Definition ready (f : fs) (d : string) (types : list string) : Prop :=
  In d (dirs f) /\ In (d ++ "/base_datasets")%string (dirs f) /\ In (d ++ "/base_datasets/1_training_dataset")%string (dirs f) /\ Forall (usable f d) types.
Lemma str_assoc a b c : ((a ++ b) ++ c = a ++ b ++ c)%string.
Proof. induction a as [|x a IH]; cbn; [reflexivity|now rewrite IH]. Qed.
Lemma base_join d name : join (join d "base_datasets") name = (d ++ "/base_datasets/" ++ name)%string.
Proof. unfold join. rewrite str_assoc. reflexivity. Qed.
Lemma isdir_in f p : isdir f p = true <-> In p (dirs f).
Proof. apply mem_in. Qed.
Lemma known_unique d t p q : known_test d t p -> known_test d t q -> p = q.
Proof. intros [(-> & ->)|[(-> & ->)|(-> & ->)]] [(E & ->)|[(E & ->)|(E & ->)]]; try reflexivity; discriminate. Qed.
Lemma test_dir_spec f d t : match test_dir f (join d "base_datasets") t with
  | Ok p => known_test d t p /\ (forall q, p = Some q -> In q (dirs f))
  | Err e => e = RuntimeError /\ ~ usable f d t end.
Proof.
  unfold test_dir, known_test. rewrite !base_join.
  assert (K : forall p, known_test d t p -> ~ (forall q, p = Some q -> In q (dirs f)) -> ~ usable f d t).
  { intros p H N (p' & H' & U). apply N. rewrite (known_unique d t p p' H H'). exact U. }
  destruct (String.eqb_spec t "in_distribution") as [->|N1].
  - cbn [rbind]. destruct (isdir f _) eqn:E.
    + apply isdir_in in E. split; [left; split; reflexivity|]. intros q Q. injection Q as <-. exact E.
    + split; [reflexivity|]. eapply K; [left; split; reflexivity|]. intros H. specialize (H _ eq_refl). apply isdir_in in H. cbn [append] in H, E. congruence.
  - destruct (String.eqb_spec t "out_distribution") as [->|N2].
    + cbn [rbind]. destruct (isdir f _) eqn:E.
      * apply isdir_in in E. split; [right; left; split; reflexivity|]. intros q Q. injection Q as <-. exact E.
      * split; [reflexivity|]. eapply K; [right; left; split; reflexivity|]. intros H. specialize (H _ eq_refl). apply isdir_in in H. cbn [append] in H, E. congruence.
    + destruct (String.eqb_spec t "unused_data") as [->|N3].
      * cbn [rbind]. split; [right; right; split; reflexivity|discriminate].
      * cbn [rbind]. split; [reflexivity|]. intros (p & [(E & _)|[(E & _)|(E & _)]] & _); congruence.
Qed.
Lemma test_dirs_spec f d types : forall acc, match test_dirs f (join d "base_datasets") types acc with
  | Ok r => Forall (usable f d) types /\ forall t, (In t types -> exists p, dget r t = Some p /\ known_test d t p) /\ (~ In t types -> dget r t = dget acc t)
  | Err e => e = RuntimeError /\ ~ Forall (usable f d) types end.
Proof.
  induction types as [|t ts IH]; intros acc; cbn [test_dirs]; [split; [constructor|intros t; split; [intros []|reflexivity]]|].
  pose proof (test_dir_spec f d t) as T. destruct (test_dir f (join d "base_datasets") t) as [p|e]; cbn [rbind].
  - destruct T as (T & U). specialize (IH (dset acc t p)). destruct (test_dirs f (join d "base_datasets") ts (dset acc t p)) as [r|e].
    + destruct IH as (F & H). split; [constructor; [exists p; auto|exact F]|]. intros x. destruct (H x) as (H1 & H2). split.
      * intros [<-|I]; [|exact (H1 I)]. destruct (in_dec string_dec t ts) as [I|I]; [exact (H1 I)|]. exists p. rewrite (H2 I). split; [apply dget_dset_same|exact T].
      * intros N. rewrite H2 by (intros I; apply N; now right). apply dget_dset_other. intros ->. apply N. now left.
    + destruct IH as (-> & N). split; [reflexivity|]. intros Q. inversion Q; subst; tauto.
  - destruct T as (-> & N). split; [reflexivity|]. intros Q. inversion Q; subst; tauto.
Qed.
(** Without all that is needed, it is refused and nothing is changed. *)
Theorem setup_not_ready : forall f d types, ~ ready f d types -> setup_pruning_dirs f d types = (f, Err RuntimeError).
Proof.
  intros f d types N. unfold setup_pruning_dirs.
  destruct (isdir f d) eqn:E1; cbn [negb]; [|reflexivity]. destruct (isdir f (join d "base_datasets")) eqn:E2; cbn [negb]; [|reflexivity].
  destruct (isdir f (join (join d "base_datasets") "1_training_dataset")) eqn:E3; cbn [negb]; [|reflexivity].
  pose proof (test_dirs_spec f d types []) as T. destruct (test_dirs f (join d "base_datasets") types []) as [r|e]; [|destruct T as (-> & _); reflexivity].
  elim N. rewrite base_join in E3. apply isdir_in in E1, E2, E3. unfold ready. tauto.
Qed.
(** make_directory with overwrite, whether or not the directory exists *)
Lemma overwrite_spec f d : ~ In d (files f) -> exists f', make_directory f d true = (f', Ok d) /\ In d (dirs f') /\
  (forall q, In q (files f') <-> In q (files f) /\ (In d (dirs f) -> below d q = false)) /\
  (forall q, In q (dirs f) -> below d q = false -> In q (dirs f')).
Proof.
  intros N. destruct (isdir f d) eqn:E.
  - apply isdir_in in E as I. unfold make_directory. rewrite E.
    destruct (makedirs (rmtree f d) d) as [f2 [[]|e]] eqn:M; cbn [rbind].
    + destruct (makedirs_ok _ _ _ M) as (A & B & C & D & F & G). exists f2. split; [reflexivity|]. split; [exact C|]. split.
      * intros q. rewrite F. cbn. rewrite filter_In, negb_true_iff. tauto.
      * intros q Q W. apply D. cbn. rewrite filter_In, negb_true_iff. auto.
    + exfalso. destruct (makedirs_err _ _ _ _ M) as (_ & _ & [J|J]); cbn in J; rewrite filter_In, below_refl in J; destruct J as (_ & J); discriminate.
  - assert (NI : ~ In d (dirs f)) by (rewrite <- isdir_in; congruence). unfold make_directory. rewrite E.
    destruct (makedirs f d) as [f2 [[]|e]] eqn:M; cbn [rbind].
    + destruct (makedirs_ok _ _ _ M) as (A & B & C & D & F & G). exists f2. split; [reflexivity|]. split; [exact C|]. split; [intros q; rewrite F; tauto|]. intros q Q _. now apply D.
    + exfalso. destruct (makedirs_err _ _ _ _ M) as (_ & _ & [J|J]); tauto.
Qed.
Definition output_of (d q : string) : Prop := below (d ++ "/pruned_datasets")%string q = true \/ below (d ++ "/plots")%string q = true.
Lemma starts_common a x y : starts_with (a ++ x)%string (a ++ y)%string = starts_with x y.
Proof. induction a as [|c a IH]; cbn; [reflexivity|]. now rewrite Ascii.eqb_refl. Qed.
Lemma eqb_common a x y : String.eqb (a ++ x)%string (a ++ y)%string = String.eqb x y.
Proof. induction a as [|c a IH]; cbn; [reflexivity|]. now rewrite Ascii.eqb_refl. Qed.
Lemma below_common a x y : below (a ++ x)%string (a ++ y)%string = below x y.
Proof. unfold below. rewrite str_assoc, starts_common, eqb_common. reflexivity. Qed.
(** With all that is needed (and no regular files with the names of the output
    directories) the four results are the named directories, the testing types have
    theirs, the output directories exist and everything outside them is kept. *)
Theorem setup_ready : forall f d types, ready f d types -> ~ In (d ++ "/pruned_datasets")%string (files f) -> ~ In (d ++ "/plots")%string (files f) ->
  exists f' s, setup_pruning_dirs f d types = (f', Ok s) /\
  s_base s = (d ++ "/base_datasets")%string /\ s_full s = (d ++ "/base_datasets/1_training_dataset")%string /\ s_pruned s = (d ++ "/pruned_datasets")%string /\
  (forall t, (In t types -> exists p, dget (s_tests s) t = Some p /\ known_test d t p) /\ (~ In t types -> dget (s_tests s) t = None)) /\
  In (d ++ "/pruned_datasets")%string (dirs f') /\ In (d ++ "/plots")%string (dirs f') /\
  (forall q, ~ output_of d q -> (In q (files f') <-> In q (files f)) /\ (In q (dirs f) -> In q (dirs f'))).
Proof.
  intros f d types (R1 & R2 & R3 & R4) NP NL. unfold setup_pruning_dirs. apply isdir_in in R1, R2, R3. rewrite R1. cbn [negb].
  change (join d "base_datasets") with (d ++ "/base_datasets")%string at 1. rewrite R2. cbn [negb]. rewrite base_join. change ("/base_datasets/" ++ "1_training_dataset")%string with "/base_datasets/1_training_dataset". rewrite R3. cbn [negb].
  pose proof (test_dirs_spec f d types []) as T. destruct (test_dirs f (join d "base_datasets") types []) as [r|e]; [|tauto]. destruct T as (_ & T).
  change (join d "pruned_datasets") with (d ++ "/pruned_datasets")%string. change (join d "plots") with (d ++ "/plots")%string.
  destruct (overwrite_spec f _ NP) as (f1 & M1 & D1 & F1 & K1). rewrite M1.
  assert (NL1 : ~ In (d ++ "/plots")%string (files f1)) by (intros I; apply F1 in I; tauto).
  destruct (overwrite_spec f1 _ NL1) as (f2 & M2 & D2 & F2 & K2). rewrite M2. eexists. eexists. split; [reflexivity|]. cbn [s_base s_pruned s_full s_tests].
  split; [reflexivity|]. split; [reflexivity|]. split; [reflexivity|]. split; [intros t; destruct (T t) as (T1 & T2); split; [exact T1|exact T2]|].
  split; [apply K2; [exact D1|rewrite below_common; reflexivity]|]. split; [exact D2|].
  intros q O. assert (O1 : below (d ++ "/pruned_datasets")%string q = false) by (apply not_true_iff_false; intros Q; apply O; now left). assert (O2 : below (d ++ "/plots")%string q = false) by (apply not_true_iff_false; intros Q; apply O; now right).
  split; [rewrite F2, F1; tauto|]. intros I. apply K2; [apply K1|]; assumption.
Qed.
(** In particular the base data sets are kept. *)
Theorem base_datasets_kept : forall f d types f' s, ready f d types -> ~ In (d ++ "/pruned_datasets")%string (files f) -> ~ In (d ++ "/plots")%string (files f) ->
  setup_pruning_dirs f d types = (f', Ok s) -> forall rest, let q := (d ++ "/base_datasets" ++ rest)%string in (In q (files f') <-> In q (files f)) /\ (In q (dirs f) -> In q (dirs f')).
Proof.
  intros f d types f' s R NP NL H rest q. destruct (setup_ready f d types R NP NL) as (f2 & s2 & E & _ & _ & _ & _ & _ & _ & K). rewrite H in E. injection E as <- <-. apply K.
  unfold output_of, q. rewrite !below_common. unfold below. cbn. intros [Q|Q]; discriminate.
Qed.
(** The pruned data sets and plots of an earlier pruning are lost. *)
Theorem earlier_pruning_refuted : forall f d types f' s, ready f d types -> ~ In (d ++ "/pruned_datasets")%string (files f) -> ~ In (d ++ "/plots")%string (files f) ->
  In (d ++ "/pruned_datasets")%string (dirs f) -> setup_pruning_dirs f d types = (f', Ok s) -> forall name, ~ In (d ++ "/pruned_datasets/" ++ name)%string (files f').
Proof.
  intros f d types f' s (R1 & R2 & R3 & R4) NP NL I H name Q. unfold setup_pruning_dirs in H. apply isdir_in in R1, R2, R3. rewrite R1 in H. cbn [negb] in H.
  change (join d "base_datasets") with (d ++ "/base_datasets")%string in H at 1. rewrite R2 in H. cbn [negb] in H. rewrite base_join in H. change ("/base_datasets/" ++ "1_training_dataset")%string with "/base_datasets/1_training_dataset" in H. rewrite R3 in H. cbn [negb] in H.
  destruct (test_dirs f (join d "base_datasets") types []) as [r|e]; [|discriminate]. change (join d "pruned_datasets") with (d ++ "/pruned_datasets")%string in H. change (join d "plots") with (d ++ "/plots")%string in H.
  destruct (overwrite_spec f _ NP) as (f1 & M1 & D1 & F1 & K1). rewrite M1 in H.
  assert (NL1 : ~ In (d ++ "/plots")%string (files f1)) by (intros J; apply F1 in J; tauto).
  destruct (overwrite_spec f1 _ NL1) as (f2 & M2 & D2 & F2 & K2). rewrite M2 in H. injection H as <- _.
  apply F2 in Q as (Q & _). apply F1 in Q as (_ & Q). specialize (Q I). rewrite below_common in Q. unfold below in Q. cbn in Q. discriminate.
Qed.
Example setup_case : exists f' s, setup_pruning_dirs (mkFs ["/p"; "/p/base_datasets"; "/p/base_datasets/1_training_dataset"; "/p/base_datasets/5_testing_id_dataset"; "/p/plots"] ["/p/plots/a.pdf"; "/p/base_datasets/1_training_dataset/d.pkl"]) "/p" ["unused_data"; "in_distribution"] = (f', Ok s) /\
  files f' = ["/p/base_datasets/1_training_dataset/d.pkl"] /\ s_tests s = [("unused_data", None); ("in_distribution", Some "/p/base_datasets/5_testing_id_dataset")].
Proof. eexists. eexists. split; [vm_compute; reflexivity|]. split; reflexivity. Qed.
Print Assumptions setup_ready.
Print Assumptions base_datasets_kept.
