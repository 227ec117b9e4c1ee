(** Editing and splitting of time series data sets. *)
From Coq Require Import String List Bool Arith ZArith QArith Qround Lia Lqa Permutation.
From Verif Require Import Lib PyDict DatasetModel DatasetSpec.
Import ListNotations.
Local Open Scope list_scope.

Lemma loc_eqb_eq : forall a b, loc_eqb a b = true <-> a = b.
Proof.
  intros [a1 a2] [b1 b2]. unfold loc_eqb; cbn. rewrite andb_true_iff, eqb_true_iff, Nat.eqb_eq.
  split; [intros [-> ->]; reflexivity|]. intros E; injection E as -> ->; auto.
Qed.
Lemma put_same : forall {F} (st : store F) l s, put st l s l = s.
Proof. intros. unfold put. now rewrite (proj2 (loc_eqb_eq l l) eq_refl). Qed.
Lemma put_other : forall {F} (st : store F) l m s, l <> m -> put st l s m = st m.
Proof.
  intros F st l m s H. unfold put. destruct (loc_eqb l m) eqn:E; [|reflexivity]. apply loc_eqb_eq in E. contradiction.
Qed.
Lemma locate_lt : forall d i l, locate d i = Some l -> (i < dlen d)%nat.
Proof.
  destruct d as [ids|ids|p ids]; cbn; intros i l H; apply nth_error_Some; intros E; rewrite E in H; discriminate.
Qed.

(** ** Loops of edits *)
Section Loops.
  Context {F : Type}.
  Variables (d : dset_t) (f : sample F -> sample F * option exn).
  Hypothesis Hd : distinct_samples d.
  Hypothesis Hp : persistent d.

  Lemma edit_one_ok : forall st i st', edit_one d f st i = (st', None) ->
    exists l, locate d i = Some l /\ f (st l) = (st' l, None) /\ forall m, m <> l -> st' m = st m.
  Proof.
    intros st i st' H. unfold edit_one in H. destruct (locate d i) as [l|] eqn:E; [|discriminate].
    exists l. split; [reflexivity|]. destruct (f (st l)) as [s' e] eqn:Ef. destruct (fst l) eqn:El.
    - injection H as <- ->. split; [now rewrite put_same|]. intros m Hm. rewrite put_other; congruence.
    - destruct e; [discriminate|]. destruct Hp as [HF|HM].
      + rewrite HF in H. injection H as <-. split; [now rewrite put_same|]. intros m Hm. rewrite put_other; congruence.
      + rewrite (HM i l E) in El. discriminate.
  Qed.

  Lemma edit_loop_effect : forall one,
    (forall st i st', one st i = (st', None) -> edit_one d f st i = (st', None)) ->
    forall idx st st', NoDup idx -> edit_loop one idx st = (st', None) ->
    (forall i l, In i idx -> locate d i = Some l -> f (st l) = (st' l, None)) /\
    (forall l, (forall i, In i idx -> locate d i <> Some l) -> st' l = st l).
  Proof.
    intros one Hone. induction idx as [|i t IH]; intros st st' Hn H; cbn in H.
    - injection H as <-. split; [intros i l []|auto].
    - inversion_clear Hn as [|? ? Hi Ht]. destruct (one st i) as [st1 [e|]] eqn:E1; [discriminate|].
      apply Hone, edit_one_ok in E1. destruct E1 as [l1 [L1 [F1 O1]]].
      destruct (IH st1 st' Ht H) as [IHa IHb]. split.
      + intros j l [->|Hj] Hl.
        * assert (l = l1) by congruence. subst l1. rewrite F1. f_equal. symmetry. apply IHb. intros k Hk Hkl.
          assert (j = k) by (eapply (proj2 Hd); eauto). subst k. contradiction.
        * rewrite <- (O1 l); [now apply (IHa j l)|]. intros ->.
          assert (i = j) by (eapply (proj2 Hd); eauto). subst j. contradiction.
      + intros l Hl. rewrite IHb by (intros k Hk; apply Hl; now right). apply O1.
        intros ->. exact (Hl i (or_introl eq_refl) L1).
  Qed.

  Lemma edit_loop_succeeds : forall one,
    (forall st i st', edit_one d f st i = (st', None) -> one st i = (st', None)) ->
    forall idx st, NoDup idx -> (forall i, In i idx -> (i < dlen d)%nat) ->
    (forall i l, In i idx -> locate d i = Some l -> snd (f (st l)) = None) ->
    exists st', edit_loop one idx st = (st', None).
  Proof.
    intros one Hone. induction idx as [|i t IH]; intros st Hn Hi Hs; cbn; [eauto|].
    inversion_clear Hn as [|? ? Hni Ht].
    destruct (proj1 Hd i (Hi i (or_introl eq_refl))) as [l Hl].
    assert (E1 : exists st1, edit_one d f st i = (st1, None)).
    { unfold edit_one. rewrite Hl. specialize (Hs i l (or_introl eq_refl) Hl). destruct (f (st l)) as [s' e]; cbn in Hs. subst e.
      destruct (fst l); eauto. }
    destruct E1 as [st1 E1]. rewrite (Hone _ _ _ E1).
    apply edit_one_ok in E1. destruct E1 as [l1 [L1 [F1 O1]]]. assert (l1 = l) by congruence. subst l1.
    apply IH; [exact Ht|intros; apply Hi; now right|]. intros j m Hj Hm. rewrite O1; [apply (Hs j m); [now right|exact Hm]|].
    intros ->. assert (i = j) by (eapply (proj2 Hd); eauto). subst j. contradiction.
  Qed.

  Lemma edit_all_effect : forall st st', edit_all d f st = (st', None) ->
    (forall i l, locate d i = Some l -> f (st l) = (st' l, None)) /\ (forall l, outside d l -> st' l = st l).
  Proof.
    intros st st' H. unfold edit_all in H.
    destruct (edit_loop_effect _ (fun st i st' h => h) _ _ _ (seq_NoDup _ _) H) as [A B]. split.
    - intros i l Hl. apply (A i); [|exact Hl]. apply in_seq. apply locate_lt in Hl. lia.
    - intros l Hl. apply B. intros i _. apply Hl.
  Qed.
  Lemma edit_all_succeeds : forall st, (forall i l, locate d i = Some l -> snd (f (st l)) = None) ->
    exists st', edit_all d f st = (st', None).
  Proof.
    intros st Hs. apply edit_loop_succeeds; [auto|apply seq_NoDup| |].
    - intros i Hi. apply in_seq in Hi. lia.
    - intros i l _. apply Hs.
  Qed.
End Loops.

(** ** Samples *)
Lemma ddel_get : forall {V} (s : dict V) k k', NoDup (dkeys s) -> dget (ddel s k) k' = if String.eqb k k' then None else dget s k'.
Proof.
  intros V s k k' Hn. destruct (String.eqb k k') eqn:E.
  - apply String.eqb_eq in E. subst. apply (gget_gdel_same String.eqb); [apply String.eqb_eq|exact Hn].
  - apply String.eqb_neq in E. apply (gget_gdel_other String.eqb); [apply String.eqb_eq|exact E].
Qed.
Lemma ddel_nodup : forall {V} (s : dict V) k, NoDup (dkeys s) -> NoDup (dkeys (ddel s k)).
Proof. intros. now apply gdel_nodup. Qed.
Lemma dset_nodup : forall {V} (s : dict V) k v, NoDup (dkeys s) -> NoDup (dkeys (dset s k v)).
Proof. intros. apply gset_nodup; [apply String.eqb_eq|assumption]. Qed.

Lemma pop_all_ok : forall {F} labels (s s' : sample F), NoDup (dkeys s) -> pop_all labels s = (s', None) ->
  (forall k, In k labels -> dget s' k = None) /\ (forall k, ~ In k labels -> dget s' k = dget s k) /\ NoDup (dkeys s').
Proof.
  intros F labels. induction labels as [|l t IH]; intros s s' Hn H; cbn in H.
  - injection H as <-. split; [intros k []|]. split; auto.
  - destruct (has s l) eqn:Eh; [|discriminate].
    destruct (IH _ _ (ddel_nodup s l Hn) H) as [A [B C]]. split; [|split; [|exact C]].
    + intros k [->|Hk]; [|now apply A]. destruct (in_dec string_dec k t) as [Hk|Hk]; [now apply A|].
      rewrite B by exact Hk. rewrite ddel_get by exact Hn. now rewrite String.eqb_refl.
    + intros k Hk. cbn in Hk. rewrite B by tauto. rewrite ddel_get by exact Hn.
      destruct (String.eqb l k) eqn:E; [apply String.eqb_eq in E; tauto|reflexivity].
Qed.
Lemma pop_all_succeeds : forall {F} labels (s : sample F), NoDup (dkeys s) -> NoDup labels ->
  (forall k, In k labels -> has s k = true) -> snd (pop_all labels s) = None.
Proof.
  intros F labels. induction labels as [|l t IH]; intros s Hn Hl Hh; cbn; [reflexivity|].
  inversion_clear Hl as [|? ? Hlt Ht]. rewrite Hh by now left. apply IH; [now apply ddel_nodup|exact Ht|].
  intros k Hk. unfold has. rewrite ddel_get by exact Hn.
  destruct (String.eqb l k) eqn:E; [apply String.eqb_eq in E; subst; contradiction|]. apply Hh. now right.
Qed.

Lemma set_and_pop_ok : forall {F} (v : res F) new labels remove s s', NoDup (dkeys s) ->
  set_and_pop v new labels remove s = (s', None) ->
  exists x, v = Ok x /\ feature_set x new (if remove then labels else []) s s'.
Proof.
  intros F v new labels remove s s' Hn H. unfold set_and_pop in H. destruct v as [x|]; [|discriminate].
  exists x. split; [reflexivity|]. destruct remove.
  - apply pop_all_ok in H; [|now apply dset_nodup]. destruct H as [A [B _]]. split; [|split; [exact A|]].
    + intros Hk. rewrite B by exact Hk. apply dget_dset_same.
    + intros k Hk Hk'. rewrite B by exact Hk'. apply dget_dset_other. congruence.
  - injection H as <-. split; [intros _; apply dget_dset_same|]. split; [intros k []|].
    intros k Hk _. apply dget_dset_other. congruence.
Qed.

Lemma dlookup_ok : forall {V} (s : dict V) k v, dlookup s k = Ok v <-> dget s k = Some v.
Proof. intros. unfold dlookup. destruct (dget s k); split; intros H; congruence. Qed.

Section Edits.
  Context {F W : Type}.
  Variables (fcat fsum : list F -> res F) (w1 : W) (fscale : W -> F -> F).

  Lemma cat_value_ok : forall labels (s : sample F) v, cat_value fcat labels s = Ok v ->
    exists vs, values s labels vs /\ combined fcat vs v.
  Proof.
    intros labels s v H. destruct labels as [|a [|b t]]; [discriminate| |].
    - cbn in H. exists [v]. split; [|reflexivity]. constructor; [now apply dlookup_ok|constructor].
    - unfold cat_value in H. destruct (rmap (dlookup s) (a :: b :: t)) as [vs|] eqn:E; [|discriminate].
      apply rmap_ok in E. exists vs. split.
      + clear - E. induction E; constructor; [now apply dlookup_ok|exact IHE].
      + inversion E as [|? ? ? ? _ E']; subst. inversion E'; subst. exact H.
  Qed.
  Lemma sum_value_ok : forall ws labels (s : sample F) v, sum_value w1 fscale fsum ws labels s = Ok v ->
    exists vs, values s labels vs /\
      combined fsum (map (fun p => fscale (match dget ws (fst p) with Some w => w | None => w1 end) (snd p)) (combine labels vs)) v.
  Proof.
    intros ws labels s v H. destruct labels as [|a [|b t]]; [discriminate| |].
    - cbn in H. destruct (dlookup s a) as [x|] eqn:E; [|discriminate]. cbn in H. injection H as <-.
      exists [x]. split; [|reflexivity]. constructor; [now apply dlookup_ok|constructor].
    - unfold sum_value in H. destruct (rmap _ (a :: b :: t)) as [us|] eqn:E; [|discriminate].
      apply rmap_ok in E.
      assert (HV : exists vs, values s (a :: b :: t) vs /\
        us = map (fun p => fscale (match dget ws (fst p) with Some w => w | None => w1 end) (snd p)) (combine (a :: b :: t) vs)).
      { clear - E. induction E as [|l u ls us Hl E IH]; [exists []; split; [constructor|reflexivity]|].
        destruct IH as [vs [Hvs Hus]]. destruct (dlookup s l) as [x|] eqn:Ex; [|discriminate]. cbn in Hl. injection Hl as <-.
        exists (x :: vs). split; [constructor; [now apply dlookup_ok|exact Hvs]|]. cbn. now rewrite Hus. }
      destruct HV as [vs [Hvs ->]]. exists vs. split; [exact Hvs|].
      inversion Hvs as [|? ? ? ? _ E']; subst. inversion E'; subst. exact H.
  Qed.

  (** C34: initialising a feature *)
  Theorem add_feature_effect : forall d label (v : F) st, distinct_samples d -> persistent d ->
    exists st', add_feature d label v st = (st', None) /\
      (forall i l, locate d i = Some l -> feature_set v label [] (st l) (st' l)) /\
      (forall l, outside d l -> st' l = st l).
  Proof.
    intros d label v st Hd Hp. unfold add_feature.
    destruct (edit_all_succeeds d (fun s => (dset s label v, None)) Hd Hp st) as [st' E]; [reflexivity|].
    exists st'. split; [exact E|]. destruct (edit_all_effect d _ Hd Hp st st' E) as [A B]. split; [|exact B].
    intros i l Hl. specialize (A i l Hl). injection A as <-.
    split; [intros _; apply dget_dset_same|]. split; [intros k []|]. intros k Hk _. apply dget_dset_other. congruence.
  Qed.

  (** C34: concatenating features *)
  Theorem concatenate_effect : forall d new labels remove (st st' : store F), distinct_samples d -> persistent d -> keys_distinct d st ->
    concatenate fcat d new labels remove st = (st', None) ->
    (forall i l, locate d i = Some l -> exists vs v, values (st l) labels vs /\ combined fcat vs v /\
       feature_set v new (if remove && negb (is_file d) then labels else []) (st l) (st' l)) /\
    (forall l, outside d l -> st' l = st l).
  Proof.
    intros d new labels remove st st' Hd Hp Hk H. unfold concatenate in H.
    destruct (check_labels d st labels); [discriminate|].
    destruct (edit_all_effect d _ Hd Hp st st' H) as [A B]. split; [|exact B].
    intros i l Hl. specialize (A i l Hl). apply set_and_pop_ok in A; [|exact (Hk i l Hl)].
    destruct A as [v [Hv Hs]]. apply cat_value_ok in Hv. destruct Hv as [vs [Hvs Hc]]. eauto.
  Qed.
  (** C34: summing features *)
  Theorem sum_features_effect : forall d new labels ws remove (st st' : store F), distinct_samples d -> persistent d -> keys_distinct d st ->
    sum_features w1 fscale fsum d new labels (Some ws) remove st = (st', None) ->
    (forall i l, locate d i = Some l -> exists vs v, values (st l) labels vs /\
       combined fsum (map (fun p => fscale (match dget ws (fst p) with Some w => w | None => w1 end) (snd p)) (combine labels vs)) v /\
       feature_set v new (if remove && negb (is_file d) then labels else []) (st l) (st' l)) /\
    (forall l, outside d l -> st' l = st l).
  Proof.
    intros d new labels ws remove st st' Hd Hp Hk H. unfold sum_features in H.
    destruct (check_labels d st labels); [discriminate|].
    destruct (edit_all_effect d _ Hd Hp st st' H) as [A B]. split; [|exact B].
    intros i l Hl. specialize (A i l Hl). apply set_and_pop_ok in A; [|exact (Hk i l Hl)].
    destruct A as [v [Hv Hs]]. apply sum_value_ok in Hv. destruct Hv as [vs [Hvs Hc]]. eauto.
  Qed.

  Lemma check_labels_ok : forall d (st : store F) labels s, getitem d st 0 = Some s ->
    (forall k, In k labels -> has s k = true) -> check_labels d st labels = None.
  Proof.
    intros d st labels s Hs. induction labels as [|l t IH]; intros Hh; cbn; [reflexivity|].
    rewrite Hs, Hh by now left. apply IH. intros. apply Hh. now right.
  Qed.

  (** C34: the operation succeeds when every sample has the features, they can
      be combined, and (if removed) no feature is listed twice *)
  Theorem concatenate_succeeds : forall d new labels remove (st : store F), distinct_samples d -> persistent d -> keys_distinct d st ->
    (0 < dlen d)%nat -> labels <> [] -> (remove = true -> NoDup labels) ->
    (forall i l, locate d i = Some l -> exists vs v, values (st l) labels vs /\ combined fcat vs v) ->
    exists st', concatenate fcat d new labels remove st = (st', None).
  Proof.
    intros d new labels remove st Hd Hp Hk Hlen Hne Hr Hv. unfold concatenate.
    assert (Hhas : forall i l, locate d i = Some l -> forall k, In k labels -> has (st l) k = true).
    { intros i l Hl k Hin. destruct (Hv i l Hl) as [vs [v [Hvs _]]]. clear - Hvs Hin. unfold has.
      induction Hvs as [|a x t vs Ha _ IH]; [destruct Hin|]. destruct Hin as [->|Hin]; [now rewrite Ha|auto]. }
    destruct (proj1 Hd 0%nat Hlen) as [l0 Hl0].
    rewrite (check_labels_ok d st labels (st l0)); [|unfold getitem; now rewrite Hl0|now apply (Hhas 0%nat)].
    apply edit_all_succeeds; [exact Hd|exact Hp|]. intros i l Hl.
    destruct (Hv i l Hl) as [vs [v [Hvs Hc]]].
    assert (E : cat_value fcat labels (st l) = Ok v).
    { destruct Hvs as [|a x t vs Ha Hvs]; [contradiction|]. destruct Hvs as [|b y t vs Hb Hvs].
      - cbn in Hc. subst x. now apply dlookup_ok.
      - unfold cat_value. assert (Er : rmap (dlookup (st l)) (a :: b :: t) = Ok (x :: y :: vs)).
        { assert (HH : values (st l) (a :: b :: t) (x :: y :: vs)) by (repeat constructor; auto).
          clear - HH. induction HH as [|c z u w Hc HH IH]; [reflexivity|]. cbn [rmap].
          rewrite (proj2 (dlookup_ok _ _ _) Hc). cbn [rbind]. now rewrite IH. }
        rewrite Er. exact Hc. }
    rewrite E. unfold set_and_pop. destruct (remove && negb (is_file d)) eqn:Er; [|reflexivity].
    apply andb_true_iff in Er as [Er _]. apply pop_all_succeeds; [apply dset_nodup; exact (Hk i l Hl)|auto|].
    intros k Hin. unfold has. destruct (string_dec new k) as [->|Hnk]; [now rewrite dget_dset_same|].
    rewrite dget_dset_other by exact Hnk. exact (Hhas i l Hl k Hin).
  Qed.

  (** C34, counterexample: the default weights of the sum raise *)
  Theorem sum_default_weights_refuted : forall d new l labels remove (st : store F), exists e,
    snd (sum_features w1 fscale fsum d new (l :: labels) None remove st) = Some e.
  Proof.
    intros. unfold sum_features. destruct (check_labels d st (l :: labels)) as [e|]; cbn; eauto.
  Qed.

  (** C34: on a subset of a data set of files every edit is lost *)
  Theorem subset_of_files_edits_lost : forall d (f : sample F -> sample F * option exn) st,
    is_file d = false -> (forall i l, locate d i = Some l -> fst l = false) -> fst (edit_all d f st) = st.
  Proof.
    intros d f st Hf Hl. unfold edit_all. generalize (seq 0 (dlen d)). intros idx. induction idx as [|i t IH]; [reflexivity|].
    cbn [edit_loop]. assert (E : fst (edit_one d f st i) = st).
    { unfold edit_one. destruct (locate d i) as [l|] eqn:El; [|reflexivity]. destruct (f (st l)) as [s' e].
      rewrite (Hl i l El), Hf. destruct e; reflexivity. }
    destruct (edit_one d f st i) as [st1 [e|]]; cbn in E; subst st1; [reflexivity|exact IH].
  Qed.
End Edits.

(** ** Renaming *)
Section Rename.
  Context {F : Type}.
  Implicit Types st : store F.

  Lemma file_persistent : forall d, is_file d = true -> persistent d. Proof. intros. now left. Qed.

  Lemma rename_pass : forall d old new st st', distinct_samples d -> is_file d = true -> keys_distinct d st ->
    edit_loop (rename_one d old new) (seq 0 (dlen d)) st = (st', None) ->
    (forall i l, locate d i = Some l -> exists v, dget (st l) old = Some v /\ st' l = dset (ddel (st l) old) new v) /\
    (forall l, outside d l -> st' l = st l).
  Proof.
    intros d old new st st' Hd Hf Hk H.
    assert (Hone : forall (s : store F) i s', rename_one d old new s i = (s', None) -> edit_one d (rename_edit old new) s i = (s', None)).
    { intros s i s' E. unfold rename_one in E. destruct (edit_one d (rename_edit old new) s i) as [s1 [e|]]; [discriminate|].
      rewrite Hf in E. exact E. }
    destruct (edit_loop_effect d _ Hd (file_persistent d Hf) _ Hone _ _ _ (seq_NoDup _ _) H) as [A B].
    split.
    - intros i l Hl. specialize (A i l). rewrite in_seq in A. pose proof (locate_lt d i l Hl) as Hlt.
      specialize (A ltac:(lia) Hl). unfold rename_edit in A. destruct (dget (st l) old) as [v|]; [|discriminate].
      exists v. split; [reflexivity|]. now injection A as <-.
    - intros l Hl. apply B. intros i _. apply Hl.
  Qed.

  (** C34: renaming features of a data set of files, for maps whose new labels
      are not renamed themselves and samples that agree on the labels present *)
  Theorem rename_effect_partial : forall d m st st', distinct_samples d -> is_file d = true -> keys_distinct d st ->
    separate m -> rename_labels d m st = (st', None) ->
    (forall i j l l' k, locate d i = Some l -> locate d j = Some l' -> In k (map fst m) ->
       (dget (st l) k = None <-> dget (st l') k = None)) ->
    (forall i l, locate d i = Some l -> renamed m (st l) (st' l)) /\ (forall l, outside d l -> st' l = st l).
  Proof.
    intros d m. induction m as [|[old new] t IH]; intros st st' Hd Hf Hk Hm H Hagree; cbn in H.
    - injection H as <-. split; [|auto]. intros i l Hl. split; [intros o n v []|]. auto.
    - destruct Hm as [Hm1 [Hm2 Hm3]]. cbn in Hm1, Hm2. inversion_clear Hm1 as [|? ? Hold Hm1']. inversion_clear Hm2 as [|? ? Hnew Hm2'].
      assert (Hsep : separate t).
      { split; [exact Hm1'|]. split; [exact Hm2'|]. intros k Hk' Hk''. apply (Hm3 k); cbn; auto. }
      assert (Hon : old <> new) by (intros E; apply (Hm3 old); cbn; auto).
      unfold getitem in H. destruct (locate d 0) as [l0|] eqn:E0; [|discriminate]. cbn in H.
      destruct (has (st l0) old) eqn:Eh.
      + destruct (edit_loop (rename_one d old new) (seq 0 (dlen d)) st) as [st1 [e|]] eqn:E1; [discriminate|].
        destruct (rename_pass _ _ _ _ _ Hd Hf Hk E1) as [A B].
        assert (G1 : forall i l, locate d i = Some l -> exists v, dget (st l) old = Some v /\ forall k,
          dget (st1 l) k = if String.eqb new k then Some v else if String.eqb old k then None else dget (st l) k).
        { intros i l Hl. destruct (A i l Hl) as [v [Hv E]]. exists v. split; [exact Hv|]. intros k. rewrite E.
          destruct (String.eqb new k) eqn:En.
          - apply String.eqb_eq in En. subst k. apply dget_dset_same.
          - apply String.eqb_neq in En. rewrite dget_dset_other by exact En. apply ddel_get. exact (Hk i l Hl). }
        assert (Hk1 : keys_distinct d st1).
        { intros i l Hl. destruct (A i l Hl) as [v [_ ->]]. apply dset_nodup, ddel_nodup. exact (Hk i l Hl). }
        destruct (IH st1 st' Hd Hf Hk1 Hsep H) as [IHa IHb].
        { intros i j l l' k Hi Hj Hkt.
          assert (En : String.eqb new k = false) by (apply String.eqb_neq; intros ->; apply (Hm3 k); cbn; auto).
          assert (Eo : String.eqb old k = false) by (apply String.eqb_neq; intros ->; contradiction).
          destruct (G1 i l Hi) as [v [_ Gv]]. destruct (G1 j l' Hj) as [v' [_ Gv']]. rewrite Gv, Gv', En, Eo.
          apply (Hagree i j); auto. cbn; auto. }
        split; [|intros l Hl; rewrite IHb by exact Hl; now apply B].
        intros i l Hl. destruct (G1 i l Hl) as [v [Hv Gv]]. destruct (IHa i l Hl) as [Ra Rb]. split.
        * intros o n x [E|Hin] Hx.
          -- injection E as <- <-. assert (x = v) by congruence. subst x. split.
             ++ rewrite Rb; [rewrite Gv, String.eqb_refl; reflexivity| |].
                ** intros Hin. apply (Hm3 new); cbn; auto.
                ** intros o Ho. exfalso. apply Hnew. apply in_map_iff. now exists (o, new).
             ++ rewrite Rb; [|exact Hold|].
                ** rewrite Gv, String.eqb_refl. now rewrite (proj2 (String.eqb_neq new old)) by congruence.
                ** intros o Ho. exfalso. apply (Hm3 old); [now left|]. right. apply in_map_iff. now exists (o, old).
          -- apply (Ra o n x Hin). rewrite Gv.
             rewrite (proj2 (String.eqb_neq new o)), (proj2 (String.eqb_neq old o)); [exact Hx| |].
             ++ intros ->. apply Hold. apply in_map_iff. now exists (o, n).
             ++ intros ->. apply (Hm3 o); [right; apply in_map_iff; now exists (o, n)|now left].
        * intros k Hnk Hko. cbn in Hnk.
          assert (En : String.eqb new k = false).
          { apply String.eqb_neq. intros ->. specialize (Hko old (or_introl eq_refl)). congruence. }
          assert (Eo : String.eqb old k = false) by (apply String.eqb_neq; tauto).
          rewrite Rb; [rewrite Gv, En, Eo; reflexivity|tauto|].
          intros o Ho. rewrite Gv.
          rewrite (proj2 (String.eqb_neq new o)), (proj2 (String.eqb_neq old o)); [apply Hko; now right| |].
          -- intros ->. apply Hold. apply in_map_iff. now exists (o, k).
          -- intros ->. apply (Hm3 o); [right; apply in_map_iff; now exists (o, k)|now left].
      + assert (Hno : forall i l, locate d i = Some l -> dget (st l) old = None).
        { intros i l Hl. apply (Hagree 0%nat i l0 l old E0 Hl); [now left|]. unfold has in Eh. now destruct (dget (st l0) old). }
        destruct (IH st st' Hd Hf Hk Hsep H) as [IHa IHb].
        { intros i j l l' k Hi Hj Hkt. apply (Hagree i j); auto. cbn; auto. }
        split; [|exact IHb]. intros i l Hl. destruct (IHa i l Hl) as [Ra Rb]. split.
        * intros o n x [E|Hin] Hx; [injection E as <- <-; rewrite (Hno i l Hl) in Hx; discriminate|now apply (Ra o n x)].
        * intros k Hnk Hko. cbn in Hnk. apply Rb; [tauto|]. intros o Ho. apply Hko. now right.
  Qed.
End Rename.

(** C34, counterexample: renaming a data set in memory raises after having
    renamed the first sample only *)
Theorem rename_in_memory_refuted :
  let st : store nat := fun _ => [("x"%string, 1%nat)] in
  let r := rename_labels (Mem [0; 1]%nat) [("x"%string, "y"%string)] st in
  snd r = Some TypeError /\ fst r (true, 0%nat) = [("y"%string, 1%nat)] /\ fst r (true, 1%nat) = [("x"%string, 1%nat)].
Proof. cbn. repeat split. Qed.
(** C34, counterexample: swapping two labels loses one of the features *)
Theorem rename_swap_refuted :
  let st : store nat := fun _ => [("x"%string, 1%nat); ("y"%string, 2%nat)] in
  let r := rename_labels (File [0]%nat) [("x"%string, "y"%string); ("y"%string, "x"%string)] st in
  snd r = None /\ fst r (false, 0%nat) = [("x"%string, 1%nat)].
Proof. cbn. repeat split. Qed.
(** C34, counterexample: removing the concatenated features also removes the
    result when it replaces one of them *)
Theorem concatenate_replace_refuted :
  let st : store nat := fun _ => [("x"%string, 1%nat); ("y"%string, 2%nat)] in
  let r := concatenate (fun l => Ok (fold_right Nat.add 0%nat l)) (Mem [0]%nat) "x" ["x"; "y"]%string true st in
  snd r = None /\ fst r (true, 0%nat) = [].
Proof. cbn. repeat split. Qed.
Example concatenate_case :
  let st : store nat := fun l => [("x"%string, snd l); ("y"%string, 2%nat); ("z"%string, 5%nat)] in
  let d := Sub (Mem [7; 8; 9]%nat) [2; 0]%nat in
  let r := concatenate (fun l => Ok (fold_right Nat.add 0%nat l)) d "xy" ["x"; "y"]%string true st in
  snd r = None /\ fst r (true, 9%nat) = [("z"%string, 5%nat); ("xy"%string, 11%nat)]
  /\ fst r (true, 8%nat) = st (true, 8%nat).
Proof. cbn. repeat split. Qed.
Example rename_case :
  let st : store nat := fun l => [("x"%string, snd l); ("y"%string, 2%nat)] in
  let r := rename_labels (File [4; 6]%nat) [("x"%string, "a"%string); ("q"%string, "b"%string)] st in
  snd r = None /\ fst r (false, 6%nat) = [("y"%string, 2%nat); ("a"%string, 6%nat)].
Proof. cbn. repeat split. Qed.

(** ** Which data sets qualify *)
Theorem mem_distinct : forall ids, NoDup ids -> distinct_samples (Mem ids) /\ persistent (Mem ids).
Proof.
  intros ids Hn. split; [split|].
  - cbn. intros i Hi. apply nth_error_Some in Hi. destruct (nth_error ids i); [cbn; eauto|contradiction].
  - cbn. intros i j l Hi Hj. destruct (nth_error ids i) as [a|] eqn:Ei; [|discriminate].
    destruct (nth_error ids j) as [b|] eqn:Ej; [|discriminate]. cbn in *.
    assert (a = b) by congruence. subst b. apply (proj1 (NoDup_nth_error _) Hn); [|congruence].
    apply nth_error_Some. congruence.
  - right. intros i l. cbn. destruct (nth_error ids i); cbn; intros E; [now injection E as <-|discriminate].
Qed.
Theorem file_distinct : forall ids, NoDup ids -> distinct_samples (File ids) /\ persistent (File ids).
Proof.
  intros ids Hn. split; [split|now left].
  - cbn. intros i Hi. apply nth_error_Some in Hi. destruct (nth_error ids i); [cbn; eauto|contradiction].
  - cbn. intros i j l Hi Hj. destruct (nth_error ids i) as [a|] eqn:Ei; [|discriminate].
    destruct (nth_error ids j) as [b|] eqn:Ej; [|discriminate]. cbn in *.
    assert (a = b) by congruence. subst b. apply (proj1 (NoDup_nth_error _) Hn); [|congruence].
    apply nth_error_Some. congruence.
Qed.
Theorem subset_distinct : forall d idx, distinct_samples d -> NoDup idx -> (forall i, In i idx -> (i < dlen d)%nat) ->
  distinct_samples (Sub d idx).
Proof.
  intros d idx [T I] Hn Hr. split.
  - cbn. intros i Hi. apply nth_error_Some in Hi. destruct (nth_error idx i) as [j|] eqn:E; [|contradiction].
    apply T, Hr. now apply nth_error_In in E.
  - cbn. intros i j l Hi Hj. destruct (nth_error idx i) as [a|] eqn:Ei; [|discriminate].
    destruct (nth_error idx j) as [b|] eqn:Ej; [|discriminate].
    assert (a = b) by (eapply I; eauto). subst b. apply (proj1 (NoDup_nth_error _) Hn); [|congruence].
    apply nth_error_Some. congruence.
Qed.

(** ** Removing and adding samples *)
Lemma nth_seq_all : forall {A} (d : A) l, map (fun i => nth i l d) (seq 0 (length l)) = l.
Proof.
  intros A d l. induction l as [|x t IH]; cbn; [reflexivity|]. f_equal.
  rewrite <- seq_shift, map_map. exact IH.
Qed.
Lemma remove_from_ext : forall {A} (l : list A) k ind, remove_from k ind l =
  map snd (filter (fun p => negb (existsb (Nat.eqb (fst p)) ind)) (combine (seq k (length l)) l)).
Proof.
  induction l as [|x t IH]; intros k ind; cbn; [reflexivity|]. rewrite IH.
  destruct (existsb (Nat.eqb k) ind); reflexivity.
Qed.
Lemma existsb_in : forall k l, existsb (Nat.eqb k) l = true <-> In k l.
Proof.
  intros. rewrite existsb_exists. split; [intros [x [H E]]; apply Nat.eqb_eq in E; now subst|].
  intros H. exists k. split; [exact H|apply Nat.eqb_refl].
Qed.
(** C34/C45: the samples taken out together with those kept are the original
    ones, and those kept stay in order *)
Theorem remove_conserves : forall {A} (dA : A) (l : list A) ind, NoDup ind -> (forall i, In i ind -> (i < length l)%nat) ->
  Permutation (map (fun i => nth i l dA) ind ++ remove_samples ind l) l /\
  remove_samples ind l = map (fun i => nth i l dA) (filter (fun i => negb (existsb (Nat.eqb i) ind)) (seq 0 (length l))).
Proof.
  intros A dA l ind Hn Hr.
  assert (E : remove_samples ind l = map (fun i => nth i l dA) (filter (fun i => negb (existsb (Nat.eqb i) ind)) (seq 0 (length l)))).
  { unfold remove_samples. rewrite remove_from_ext.
    assert (Hc : forall (m : list A) k, (forall i, (i < length m)%nat -> nth (k + i) l dA = nth i m dA) ->
      map snd (filter (fun p => negb (existsb (Nat.eqb (fst p)) ind)) (combine (seq k (length m)) m)) =
      map (fun i => nth i l dA) (filter (fun i => negb (existsb (Nat.eqb i) ind)) (seq k (length m)))).
    { induction m as [|x t IH]; intros k Hk; cbn; [reflexivity|].
      assert (IH' := IH (S k)).
      assert (Ex : nth k l dA = x) by (rewrite <- (Nat.add_0_r k); exact (Hk 0%nat ltac:(cbn; lia))).
      destruct (existsb (Nat.eqb k) ind); cbn [negb map filter fst snd].
      - apply IH'. intros i Hi. specialize (Hk (S i)). cbn in Hk. rewrite <- Hk by lia. f_equal. lia.
      - rewrite Ex. f_equal. apply IH'. intros i Hi. specialize (Hk (S i)). cbn in Hk. rewrite <- Hk by lia. f_equal. lia. }
    apply (Hc l 0%nat). reflexivity. }
  split; [|exact E]. rewrite E, <- map_app.
  assert (P : Permutation (ind ++ filter (fun i => negb (existsb (Nat.eqb i) ind)) (seq 0 (length l))) (seq 0 (length l))).
  { apply NoDup_Permutation; [|apply seq_NoDup|].
    - assert (Hd : forall x, In x ind -> ~ In x (filter (fun i => negb (existsb (Nat.eqb i) ind)) (seq 0 (length l)))).
      { intros x Hx Hf. apply filter_In in Hf as [_ Hf]. apply negb_true_iff in Hf. apply existsb_in in Hx. congruence. }
      clear E Hr. revert Hd. generalize (NoDup_filter (fun i => negb (existsb (Nat.eqb i) ind)) (seq_NoDup (length l) 0)).
      generalize (filter (fun i => negb (existsb (Nat.eqb i) ind)) (seq 0 (length l))). intros f Hf Hd.
      induction Hn as [|x t Hx Hn IH]; [exact Hf|]. cbn. constructor.
      + rewrite in_app_iff. intros [H|H]; [contradiction|]. apply (Hd x); [now left|exact H].
      + apply IH. intros y Hy. apply Hd. now right.
    - intros x. rewrite in_app_iff, filter_In, in_seq. split.
      + intros [Hx|[Hx _]]; [apply Hr in Hx; lia|lia].
      + intros Hx. destruct (existsb (Nat.eqb x) ind) eqn:Ex; [left; now apply existsb_in|right; auto]. }
  eapply Permutation_trans; [apply Permutation_map; exact P|]. rewrite nth_seq_all. apply Permutation_refl.
Qed.

(** ** Splitting *)
Lemma nsum_upd : forall l k, (k < length l)%nat -> nsum (upd l k (S (nth k l 0%nat))) = S (nsum l).
Proof.
  unfold nsum. induction l as [|x t IH]; intros k Hk; cbn in Hk; [lia|]. destruct k as [|k]; cbn; [lia|]. rewrite IH by lia. lia.
Qed.
Lemma bump_fold_len : forall k idx l, length (fold_left (bump k) idx l) = length l.
Proof. intros k idx. induction idx as [|i t IH]; intros l; cbn; [reflexivity|]. rewrite IH. apply upd_length. Qed.
Lemma bump_fold_sum : forall idx l, l <> [] -> nsum (fold_left (bump (length l)) idx l) = (length idx + nsum l)%nat.
Proof.
  intros idx l Hl. assert (G : forall k l', length l' = k -> (k <> 0)%nat -> nsum (fold_left (bump k) idx l') = (length idx + nsum l')%nat).
  { induction idx as [|i t IH]; intros k l' Hk Hk0; cbn; [reflexivity|]. rewrite IH; [|unfold bump; now rewrite upd_length|exact Hk0].
    unfold bump. rewrite nsum_upd; [lia|]. rewrite Hk. now apply Nat.mod_upper_bound. }
  apply G; [reflexivity|]. destruct l; [contradiction|discriminate].
Qed.
Lemma bump_fold_nth : forall k r l i, length l = k -> (r <= k)%nat -> (i < k)%nat ->
  nth i (fold_left (bump k) (seq 0 r) l) 0%nat = (nth i l 0 + if (i <? r)%nat then 1 else 0)%nat.
Proof.
  intros k r. induction r as [|r IH]; intros l i Hl Hr Hi; [cbn; lia|].
  rewrite seq_S, fold_left_app. cbn [fold_left plus]. unfold bump at 1. rewrite Nat.mod_small by lia.
  rewrite nth_upd by (rewrite bump_fold_len; lia). destruct (Nat.eqb i r) eqn:E.
  - apply Nat.eqb_eq in E. subst i. rewrite IH by (auto; lia). rewrite (proj2 (Nat.ltb_ge r r)) by lia.
    rewrite (proj2 (Nat.ltb_lt r (S r))) by lia. lia.
  - apply Nat.eqb_neq in E. rewrite IH by (auto; lia).
    destruct (i <? r)%nat eqn:E1; destruct (i <? S r)%nat eqn:E2; try lia;
      apply Nat.ltb_lt in E1 || apply Nat.ltb_ge in E1; apply Nat.ltb_lt in E2 || apply Nat.ltb_ge in E2; lia.
Qed.

Lemma floor_nat : forall n v, (0 <= v)%Q ->
  (inject_Z (Z.of_nat (Z.to_nat (Qfloor (inject_Z (Z.of_nat n) * v)))) <= inject_Z (Z.of_nat n) * v)%Q /\
  (inject_Z (Z.of_nat n) * v < inject_Z (Z.of_nat (Z.to_nat (Qfloor (inject_Z (Z.of_nat n) * v)))) + 1)%Q.
Proof.
  intros n v Hv. set (x := (inject_Z (Z.of_nat n) * v)%Q).
  assert (Hx : (0 <= x)%Q).
  { unfold x. apply Qmult_le_0_compat; [|exact Hv]. unfold Qle; cbn. lia. }
  assert (Hf : (0 <= Qfloor x)%Z).
  { replace 0%Z with (Qfloor 0) by reflexivity. now apply Qfloor_resp_le. }
  rewrite Z2Nat.id by exact Hf. split; [apply Qfloor_le|].
  pose proof (Qlt_floor x) as H. rewrite inject_Z_plus in H. exact H.
Qed.

Lemma lens0_sum : forall n fr, Forall (fun v => (0 <= v)%Q) fr ->
  (inject_Z (Z.of_nat (nsum (lens0 n fr))) <= inject_Z (Z.of_nat n) * fold_right Qplus 0 fr)%Q /\
  (fr <> [] -> inject_Z (Z.of_nat n) * fold_right Qplus 0 fr < inject_Z (Z.of_nat (nsum (lens0 n fr))) + inject_Z (Z.of_nat (length fr)))%Q.
Proof.
  intros n fr H. induction H as [|v t Hv Ht IH].
  - cbn. split; [|intros E; contradiction]. rewrite Qmult_0_r. apply Qle_refl.
  - destruct IH as [IH1 IH2]. pose proof (floor_nat n v Hv) as [F1 F2]. cbn [lens0 map nsum fold_right length].
    fold (lens0 n t). change (fold_right Nat.add 0%nat (lens0 n t)) with (nsum (lens0 n t)).
    rewrite Nat2Z.inj_add, inject_Z_plus.
    set (a := inject_Z (Z.of_nat (Z.to_nat (Qfloor (inject_Z (Z.of_nat n) * v))))) in *.
    set (b := inject_Z (Z.of_nat (nsum (lens0 n t)))) in *. set (N := inject_Z (Z.of_nat n)) in *.
    set (sv := fold_right Qplus 0 t) in *. setoid_replace (N * (v + sv))%Q with (N * v + N * sv)%Q by ring.
    split; [lra|]. intros _. rewrite Nat2Z.inj_succ, <- Z.add_1_r, inject_Z_plus. change (inject_Z 1) with 1%Q.
    destruct t as [|u t].
    + cbn in sv. subst sv. unfold b. cbn. setoid_replace (N * 0)%Q with 0%Q by ring. change (inject_Z 0) with 0%Q. lra.
    + specialize (IH2 ltac:(discriminate)). lra.
Qed.

Lemma slices_concat : forall {A} lens (l : list A), nsum lens = length l -> concat (slices lens l) = l.
Proof.
  intros A lens. induction lens as [|k t IH]; intros l H; cbn in *.
  - symmetry in H. now apply length_zero_iff_nil in H.
  - rewrite IH; [apply firstn_skipn|]. rewrite skipn_length. unfold nsum in *. cbn in H. lia.
Qed.
Lemma slices_length : forall {A} lens (l : list A), length (slices lens l) = length lens.
Proof. intros A lens. induction lens as [|k t IH]; intros l; cbn; [reflexivity|]. now rewrite IH. Qed.
Lemma slices_lens : forall {A} lens (l : list A), nsum lens = length l -> map (@length A) (slices lens l) = lens.
Proof.
  intros A lens. induction lens as [|k t IH]; intros l H; cbn in *; [reflexivity|]. unfold nsum in H; cbn in H.
  rewrite firstn_length_le by (unfold nsum in H; cbn in H; lia). f_equal. apply IH. rewrite skipn_length. unfold nsum. lia.
Qed.

Lemma split_lens_facts : forall n fr, Forall (fun v => (0 <= v)%Q) fr -> (fold_right Qplus 0 fr == 1)%Q ->
  nsum (split_lens n fr) = n /\ length (split_lens n fr) = length fr /\
  Forall2 (fun v k => fair_share n v k) fr (split_lens n fr).
Proof.
  intros n fr Hf Hs. destruct (lens0_sum n fr Hf) as [S1 S2].
  assert (Hne : fr <> []) by (intros ->; cbn in Hs; discriminate). specialize (S2 Hne). rewrite Hs, Qmult_1_r in S1, S2.
  assert (L0 : length (lens0 n fr) = length fr) by apply map_length.
  assert (S1' : (nsum (lens0 n fr) <= n)%nat) by (rewrite <- Zle_Qle in S1; lia).
  assert (S2' : (n < nsum (lens0 n fr) + length fr)%nat).
  { rewrite <- inject_Z_plus, <- Zlt_Qlt in S2. lia. }
  unfold split_lens. split; [|split].
  - rewrite <- L0, bump_fold_sum, seq_length by (intros E; rewrite E in L0; destruct fr; [contradiction|discriminate]). lia.
  - now rewrite bump_fold_len.
  - set (r := (n - nsum (lens0 n fr))%nat). assert (Hr : (r <= length fr)%nat) by lia.
    set (out := fold_left (bump (length fr)) (seq 0 r) (lens0 n fr)).
    assert (Lo : length out = length fr) by (unfold out; now rewrite bump_fold_len).
    assert (Hnth : forall i, (i < length fr)%nat -> fair_share n (nth i fr 0) (nth i out 0%nat)).
    { intros i Hi. unfold out. rewrite bump_fold_nth by (auto; lia).
      assert (E : nth i (lens0 n fr) 0%nat = Z.to_nat (Qfloor (inject_Z (Z.of_nat n) * nth i fr 0))).
      { unfold lens0. rewrite (nth_indep _ 0%nat (Z.to_nat (Qfloor (inject_Z (Z.of_nat n) * 0)))) by (rewrite map_length; lia).
        now rewrite (map_nth (fun v => Z.to_nat (Qfloor (inject_Z (Z.of_nat n) * v)))). }
      rewrite E. assert (Hv : (0 <= nth i fr 0)%Q) by (rewrite Forall_forall in Hf; apply Hf, nth_In; exact Hi).
      destruct (floor_nat n _ Hv) as [F1 F2]. unfold fair_share. rewrite Nat2Z.inj_add, inject_Z_plus.
      set (a := inject_Z (Z.of_nat (Z.to_nat (Qfloor (inject_Z (Z.of_nat n) * nth i fr 0))))) in *.
      set (x := (inject_Z (Z.of_nat n) * nth i fr 0)%Q) in *.
      destruct (i <? r)%nat; cbn [Z.of_nat]; [change (inject_Z (Z.pos (Pos.of_succ_nat 0))) with 1%Q|change (inject_Z 0) with 0%Q]; split; lra. }
    clear - Lo Hnth. clearbody out. revert out Lo Hnth. induction fr as [|v t IH]; intros out Lo Hnth; destruct out as [|k out]; try discriminate; constructor.
    + exact (Hnth 0%nat ltac:(cbn; lia)).
    + apply IH; [cbn in Lo; lia|]. intros i Hi. exact (Hnth (S i) ltac:(cbn; lia)).
Qed.

(** C34: splitting partitions the data set into non-empty subsets of the
    requested shares, for every random permutation *)
Theorem split_partitions : forall perm n sizes subs, Permutation (perm n) (seq 0 n) ->
  split_dataset perm n sizes = Ok subs ->
  partition_of n subs /\ map fst subs = map fst sizes /\ Forall (fun p => snd p <> []) subs /\
  Forall2 (fun v s => fair_share n (snd v) (length (snd s))) sizes subs.
Proof.
  intros perm n sizes subs HP H. unfold split_dataset in H.
  destruct (forallb valid_size (map snd sizes)) eqn:Ev; [|discriminate].
  destruct (Qeq_bool _ 1) eqn:Es; [|discriminate].
  destruct (existsb _ _) eqn:Ee; [discriminate|]. injection H as <-.
  apply Qeq_bool_iff in Es. set (fr := map snd sizes) in *.
  assert (Hf : Forall (fun v => (0 <= v)%Q) fr).
  { apply Forall_forall. intros v Hv. rewrite forallb_forall in Ev. specialize (Ev v Hv).
    apply andb_true_iff in Ev as [Ev _]. now apply Qle_bool_iff in Ev. }
  destruct (split_lens_facts n fr Hf Es) as [L1 [L2 L3]].
  assert (Lp : length (perm n) = n) by (rewrite (Permutation_length HP); apply seq_length).
  assert (LS : length (slices (split_lens n fr) (perm n)) = length sizes).
  { rewrite slices_length, L2. unfold fr. apply map_length. }
  assert (Hsnd : forall (a : list string) (b : list (list nat)), length a = length b -> map snd (combine a b) = b).
  { induction a as [|x a IH]; intros [|y b] Hl; try discriminate; [reflexivity|]. cbn. f_equal. apply IH. now injection Hl. }
  assert (Hfst : forall (a : list string) (b : list (list nat)), length a = length b -> map fst (combine a b) = a).
  { induction a as [|x a IH]; intros [|y b] Hl; try discriminate; [reflexivity|]. cbn. f_equal. apply IH. now injection Hl. }
  assert (Lm : length (map fst sizes) = length (slices (split_lens n fr) (perm n))) by (rewrite map_length; lia).
  split; [|split; [|split]].
  - unfold partition_of. rewrite Hsnd by exact Lm. rewrite slices_concat by lia. exact HP.
  - now apply Hfst.
  - apply Forall_forall. intros [k s] Hks E. cbn in E. subst s. apply in_combine_r in Hks.
    assert (existsb (fun s : list nat => match s with [] => true | _ => false end) (slices (split_lens n fr) (perm n)) = true).
    { apply existsb_exists. exists []. auto. } congruence.
  - pose proof (slices_lens (split_lens n fr) (perm n) ltac:(lia)) as HL.
    revert LS HL L3. generalize (slices (split_lens n fr) (perm n)) as sl. generalize (split_lens n fr) as ln. unfold fr.
    clear. induction sizes as [|[k v] t IH]; intros ln sl LS HL HF.
    + destruct sl; [constructor|discriminate].
    + destruct sl as [|s sl]; [discriminate|]. cbn in HF. destruct ln as [|k' ln']; [inversion HF|]. inversion_clear HF as [|? ? ? ? Hk HF'].
      cbn in HL. injection HL as HL1 HL2. cbn. constructor; [cbn; congruence|]. apply (IH ln'); auto.
Qed.

(** C34: splitting fails exactly for invalid shares or when a subset would be
    empty, always with RuntimeError *)
Theorem split_fails_runtime : forall perm n sizes e, split_dataset perm n sizes = Err e -> e = RuntimeError.
Proof.
  intros perm n sizes e H. unfold split_dataset in H. destruct (forallb _ _); [destruct (Qeq_bool _ _); [destruct (existsb _ _)|]|]; congruence.
Qed.
Theorem split_succeeds : forall perm n sizes, Permutation (perm n) (seq 0 n) ->
  Forall (fun v => 0 <= snd v /\ snd v <= 1)%Q sizes -> (fold_right Qplus 0 (map snd sizes) == 1)%Q ->
  Forall (fun v => 1 <= inject_Z (Z.of_nat n) * snd v)%Q sizes -> exists subs, split_dataset perm n sizes = Ok subs.
Proof.
  intros perm n sizes HP Hv Hs Hn. unfold split_dataset. set (fr := map snd sizes) in *.
  assert (Hf : Forall (fun v => (0 <= v)%Q) fr) by (apply Forall_map; eapply Forall_impl; [|exact Hv]; cbn; tauto).
  assert (E1 : forallb valid_size fr = true).
  { apply forallb_forall. intros v Hin. unfold fr in Hin. apply in_map_iff in Hin as [p [<- Hp]].
    rewrite Forall_forall in Hv. destruct (Hv p Hp). apply andb_true_iff. split; now apply Qle_bool_iff. }
  rewrite E1, (proj2 (Qeq_bool_iff _ _) Hs). destruct (existsb _ _) eqn:Ee; [exfalso|eauto].
  apply existsb_exists in Ee as [s [Hin Hs0]]. destruct s; [|discriminate].
  destruct (split_lens_facts n fr Hf Hs) as [L1 [L2 L3]].
  assert (Lp : length (perm n) = n) by (rewrite (Permutation_length HP); apply seq_length).
  assert (H0 : In 0%nat (split_lens n fr)).
  { rewrite <- (slices_lens (split_lens n fr) (perm n)) by lia. apply in_map_iff. now exists []. }
  assert (Hlow : Forall (fun v => 1 <= inject_Z (Z.of_nat n) * v)%Q fr) by (apply Forall_map; exact Hn).
  clear - H0 L3 Hlow. induction L3 as [|v k fr ln Hk L3 IH]; [destruct H0|]. inversion_clear Hlow as [|? ? Hv Ht].
  destruct H0 as [->|H0]; [|auto]. destruct Hk as [Hk _]. change (inject_Z (Z.of_nat 0)) with 0%Q in Hk. lra.
Qed.
Example split_case : split_dataset (fun n => rev (seq 0 n)) 7 [("a"%string, 1#2); ("b"%string, 1#4); ("c"%string, 1#4)]%Q
  = Ok [("a", [6; 5; 4; 3]); ("b", [2; 1]); ("c", [0])]%nat%string.
Proof. reflexivity. Qed.

Print Assumptions add_feature_effect.
Print Assumptions concatenate_effect.
Print Assumptions concatenate_succeeds.
Print Assumptions sum_features_effect.
Print Assumptions rename_effect_partial.
Print Assumptions remove_conserves.
Print Assumptions split_partitions.
Print Assumptions split_succeeds.
