(** Pruning conserves samples and moves those with the smallest losses. *)
From Coq Require Import String List Bool Arith ZArith QArith Qround Lia Lqa Permutation Sorted.
From Verif Require Import Lib PyDict PyStr DatasetModel DatasetSpec DatasetProps PruningModel.
Import ListNotations.
Local Open Scope list_scope.

Lemma ginsert_perm : forall {A} (leb : A -> A -> bool) x l, Permutation (ginsert leb x l) (x :: l).
Proof.
  intros. induction l as [|y t IH]; cbn; [apply Permutation_refl|].
  destruct (leb x y); [apply Permutation_refl|].
  eapply Permutation_trans; [apply perm_skip; exact IH|]. apply perm_swap.
Qed.
Lemma gsort_perm : forall {A} (leb : A -> A -> bool) l, Permutation (gsort leb l) l.
Proof.
  intros. induction l as [|y t IH]; cbn; [constructor|].
  eapply Permutation_trans; [apply ginsert_perm|]. now apply perm_skip.
Qed.
Section Sorted.
  Context {A : Type} (leb : A -> A -> bool).
  Hypothesis total : forall a b, leb a b = true \/ leb b a = true.
  Hypothesis trans : forall a b c, leb a b = true -> leb b c = true -> leb a c = true.
  Lemma gsort_sorted : forall l, StronglySorted (fun a b => leb a b = true) (gsort leb l).
  Proof.
    induction l as [|x t IH]; cbn; [constructor|].
    induction IH as [|y u Hu IHu Hy]; cbn; [repeat constructor|].
    destruct (leb x y) eqn:E.
    - constructor; [now constructor|]. constructor; [exact E|]. eapply Forall_impl; [|exact Hy]. cbn; eauto.
    - constructor; [exact IHu|]. apply Forall_forall. intros a Ha. apply (Permutation_in _ (ginsert_perm leb x u)) in Ha.
      destruct Ha as [<-|Ha]; [destruct (total x y); congruence|]. rewrite Forall_forall in Hy. now apply Hy.
  Qed.
End Sorted.

Lemma forall2_len : forall {A B} (P : A -> B -> Prop) l m, Forall2 P l m -> length l = length m.
Proof. intros A B P l m H. induction H; cbn; congruence. Qed.
Section Prune.
  Context {A K : Type}.
  Variables (kleb : K -> K -> bool) (k0 : K).
  Implicit Types dev unused : list A.

  Lemma parent_ok : forall sub l r, parent_indices sub l = Ok r -> r = map (fun i => nth i sub 0%nat) l /\ Forall (fun i => (i < length sub)%nat) l.
  Proof.
    intros sub l r H. apply rmap_ok in H. induction H as [|i j l r Hi H IH]; [split; [reflexivity|constructor]|].
    destruct IH as [-> IH]. destruct (nth_error sub i) as [x|] eqn:E; [|discriminate]. injection Hi as ->.
    split; [cbn; f_equal; symmetry; now apply nth_error_nth|]. constructor; [|exact IH]. apply nth_error_Some. congruence.
  Qed.
  Lemma get_ok : forall (dA : A) dev l r, rmap (fun i => match nth_error dev i with Some x => Ok x | None => Err IndexError end) l = Ok r ->
    r = map (fun i => nth i dev dA) l.
  Proof.
    intros dA dev l r H. apply rmap_ok in H. induction H as [|i j l r Hi H IH]; [reflexivity|]. subst r.
    destruct (nth_error dev i) as [x|] eqn:E; [|discriminate]. injection Hi as ->. cbn. f_equal. symmetry. now apply nth_error_nth.
  Qed.

  (** what is known about a completed step *)
  Lemma step_inv : forall p perm losses dev unused dev' unused',
    Permutation (perm (length dev)) (seq 0 (length dev)) ->
    pruning_step kleb k0 p perm losses dev unused = Ok (true, dev', unused') ->
    exists test rest chosen idx, Permutation (test ++ rest) (seq 0 (length dev)) /\ rest <> [] /\ test <> [] /\
      admissible p (length dev) (n_prun (p_sched p) (length dev)) (length test) = true /\
      chosen = firstn (n_prun (p_sched p) (length dev)) (sorted_by_loss kleb k0 (losses test)) /\
      idx = map (fun i => nth i test 0%nat) chosen /\ Forall (fun i => (i < length test)%nat) chosen /\
      rmap (fun i => match nth_error dev i with Some x => Ok x | None => Err IndexError end) idx = Ok (skipn (length unused) unused') /\
      dev' = remove_samples idx dev /\ firstn (length unused) unused' = unused.
  Proof.
    intros p perm losses dev unused dev' unused' HP H. unfold pruning_step in H.
    destruct (split_dataset perm (length dev) (p_step_sizes p)) as [subs|] eqn:Es; [|discriminate]. cbn [rbind] in H.
    destruct (dlookup subs "training") as [tr|] eqn:Et; [|discriminate]. cbn [rbind] in H.
    destruct (dlookup subs "validation") as [va|] eqn:Ev; [|discriminate]. cbn [rbind] in H.
    destruct (dlookup subs "testing") as [test|] eqn:Ete; [|discriminate]. cbn [rbind] in H.
    destruct (admissible p (length dev) (n_prun (p_sched p) (length dev)) (length test)) eqn:Ea; [|discriminate].
    destruct (parent_indices test _) as [idx|] eqn:Ep; [|discriminate]. cbn [rbind] in H.
    destruct (rmap _ idx) as [moved|] eqn:Em; [|discriminate]. cbn [rbind] in H. injection H as <- <-.
    apply parent_ok in Ep. destruct Ep as [Ei Hl].
    destruct (split_partitions _ _ _ _ HP Es) as [HPa [_ [Hne _]]].
    apply dlookup_ok in Et. apply dlookup_ok in Ete. apply dget_in in Et. apply dget_in in Ete.
    destruct (in_split _ _ Ete) as [l1 [l2 E]].
    exists test, (concat (map snd (l1 ++ l2))), (firstn (n_prun (p_sched p) (length dev)) (sorted_by_loss kleb k0 (losses test))), idx.
    split; [|split; [|split; [|split; [|split; [|split; [|split; [|split; [|split]]]]]]]]; auto.
    - unfold partition_of in HPa. eapply Permutation_trans; [|exact HPa]. rewrite E, !map_app, !concat_app. cbn [map concat snd].
      rewrite !app_assoc. apply Permutation_app_tail. apply Permutation_app_comm.
    - intros E0. assert (Hin : In ("training"%string, tr) (l1 ++ l2)).
      { rewrite E in Et. apply in_app_iff in Et as [Et|[Et|Et]]; [apply in_app_iff; now left|discriminate|apply in_app_iff; now right]. }
      assert (Htr : tr <> []).
      { rewrite Forall_forall in Hne. apply (Hne ("training"%string, tr)). rewrite E. apply in_app_iff in Hin as [Hin|Hin]; apply in_app_iff; [now left|right; now right]. }
      destruct tr as [|x tr]; [now apply Htr|]. assert (Hx : In x (concat (map snd (l1 ++ l2)))).
      { apply in_concat. exists (x :: tr). split; [|now left]. apply in_map_iff. exists ("training"%string, x :: tr). auto. }
      rewrite E0 in Hx. destruct Hx.
    - rewrite Forall_forall in Hne. exact (Hne _ Ete).
    - unfold add_samples. rewrite skipn_app, skipn_all, Nat.sub_diag. cbn. exact Em.
    - unfold add_samples. rewrite firstn_app, Nat.sub_diag, firstn_all. cbn. apply app_nil_r.
  Qed.

  (** facts about the chosen indices *)
  Lemma chosen_facts : forall dev test rest losses n,
    Permutation (test ++ rest) (seq 0 (length dev)) ->
    let chosen := firstn n (sorted_by_loss kleb k0 losses) in
    Forall (fun i => (i < length test)%nat) chosen ->
    let idx := map (fun i => nth i test 0%nat) chosen in
    NoDup idx /\ (forall i, In i idx -> (i < length dev)%nat) /\ length idx = Nat.min n (length losses).
  Proof.
    intros dev test rest losses n HP chosen Hc idx.
    assert (Hn : NoDup (test ++ rest)) by (eapply Permutation_NoDup; [apply Permutation_sym; exact HP|apply seq_NoDup]).
    assert (Hnt : NoDup test).
    { clear - Hn. induction test as [|x t IH]; [constructor|]. cbn in Hn. inversion_clear Hn as [|? ? Hx Hn'].
      constructor; [|auto]. intros H. apply Hx. apply in_app_iff. now left. }
    assert (Hs : Permutation (sorted_by_loss kleb k0 losses) (seq 0 (length losses))) by apply gsort_perm.
    assert (Hnc : NoDup chosen).
    { assert (Hns : NoDup (sorted_by_loss kleb k0 losses)) by (eapply Permutation_NoDup; [apply Permutation_sym; exact Hs|apply seq_NoDup]).
      rewrite <- (firstn_skipn n) in Hns. fold chosen in Hns. clear - Hns.
      induction chosen as [|x t IH]; [constructor|]. cbn in Hns. inversion_clear Hns as [|? ? Hx Hn'].
      constructor; [|auto]. intros H. apply Hx. apply in_app_iff. now left. }
    split; [|split].
    - unfold idx. rewrite Forall_forall in Hc. clear - Hnc Hc Hnt. induction Hnc as [|x t Hx Hnc IH]; [constructor|]. cbn. constructor.
      + rewrite in_map_iff. intros [y [E Hy]]. assert (y = x); [|congruence].
        apply (proj1 (NoDup_nth test 0%nat) Hnt); auto; apply Hc; [now right|now left].
      + apply IH. intros. apply Hc. now right.
    - intros i Hi. unfold idx in Hi. apply in_map_iff in Hi as [j [<- Hj]]. rewrite Forall_forall in Hc. specialize (Hc j Hj).
      assert (In (nth j test 0%nat) (seq 0 (length dev))).
      { eapply Permutation_in; [exact HP|]. apply in_app_iff. left. now apply nth_In. }
      apply in_seq in H. lia.
    - unfold idx. rewrite map_length. unfold chosen. rewrite firstn_length, (Permutation_length Hs), seq_length. reflexivity.
  Qed.

  (** C45: a step loses and duplicates no sample *)
  Theorem pruning_step_conserves : forall p perm losses dev unused ok dev' unused',
    Permutation (perm (length dev)) (seq 0 (length dev)) ->
    pruning_step kleb k0 p perm losses dev unused = Ok (ok, dev', unused') ->
    Permutation (dev' ++ unused') (dev ++ unused).
  Proof.
    intros p perm losses dev unused ok dev' unused' HP H. destruct ok.
    - destruct dev as [|dA dev0] eqn:Ed.
      { exfalso. destruct (step_inv _ _ _ _ _ _ _ HP H) as [test [rest [_ [_ [HPt [Hr _]]]]]]. cbn in HPt.
        apply Permutation_sym, Permutation_nil in HPt. apply app_eq_nil in HPt as [_ ->]. now apply Hr. }
      rewrite <- Ed in *. destruct (step_inv _ _ _ _ _ _ _ HP H) as [test [rest [chosen [idx [HPt [_ [_ [_ [Ec [Ei [Hl [Em [-> Eu]]]]]]]]]]]]].
      subst chosen. destruct (chosen_facts dev test rest (losses test) _ HPt Hl) as [Hn [Hr _]]. rewrite <- Ei in Hn, Hr.
      destruct (remove_conserves dA dev idx Hn Hr) as [P _].
      apply (get_ok dA) in Em. rewrite <- (firstn_skipn (length unused) unused'), Eu, Em.
      eapply Permutation_trans; [|apply Permutation_app_tail; exact P].
      rewrite <- app_assoc. eapply Permutation_trans; [apply Permutation_app_comm|]. rewrite <- app_assoc.
      eapply Permutation_trans; [apply Permutation_app_comm|]. rewrite <- app_assoc. apply Permutation_app_head, Permutation_refl.
    - assert (dev' = dev /\ unused' = unused) as [-> ->]; [|apply Permutation_refl].
      unfold pruning_step in H.
      destruct (split_dataset perm (length dev) (p_step_sizes p)) as [subs|]; [|discriminate]. cbn [rbind] in H.
      destruct (dlookup subs "training"); [|discriminate]. cbn [rbind] in H.
      destruct (dlookup subs "validation"); [|discriminate]. cbn [rbind] in H.
      destruct (dlookup subs "testing") as [test|]; [|discriminate]. cbn [rbind] in H.
      destruct (admissible _ _ _ _).
      + destruct (parent_indices test _); [|discriminate]. cbn [rbind] in H. destruct (rmap _ _); discriminate.
      + injection H as <- <-. auto.
  Qed.

  (** C45: a completed step moves as many samples as scheduled, keeps the order
      of the others and never empties the development data set *)
  Theorem pruning_step_counts : forall p perm losses dev unused dev' unused',
    Permutation (perm (length dev)) (seq 0 (length dev)) -> (forall t, length (losses t) = length t) ->
    (p_ratio_max p <= 1)%Q ->
    pruning_step kleb k0 p perm losses dev unused = Ok (true, dev', unused') ->
    length unused' = (length unused + n_prun (p_sched p) (length dev))%nat /\
    (length dev' + n_prun (p_sched p) (length dev))%nat = length dev /\ dev' <> [] /\ firstn (length unused) unused' = unused.
  Proof.
    intros p perm losses dev unused dev' unused' HP HL Hr H.
    pose proof (pruning_step_conserves _ _ _ _ _ _ _ _ HP H) as PC. apply Permutation_length in PC. rewrite !app_length in PC.
    destruct (step_inv _ _ _ _ _ _ _ HP H) as [test [rest [chosen [idx [HPt [Hrest [Htest [Ha [Ec [Ei [Hl [Em [Edv Eu]]]]]]]]]]]]].
    subst chosen. destruct (chosen_facts dev test rest (losses test) _ HPt Hl) as [Hn [Hri Hlen]]. rewrite <- Ei in Hn, Hri, Hlen.
    rewrite HL in Hlen.
    assert (Hnt : (n_prun (p_sched p) (length dev) <= length test)%nat).
    { unfold admissible in Ha. apply negb_true_iff in Ha. apply orb_false_iff in Ha as [_ Ha]. unfold qltb in Ha.
      apply negb_false_iff, Qle_bool_iff in Ha. revert Ha. generalize (n_prun (p_sched p) (length dev)). intros n Ha.
      destruct test as [|t0 test']; [contradiction|]. cbn [length] in *. set (t := length test') in *.
      assert (Hpos : (0 < qn (S t))%Q) by (unfold qn; unfold Qlt; cbn; lia).
      assert (H1 : (qn n <= qn (S t))%Q).
      { assert (E1 : (qn n == qn n / qn (S t) * qn (S t))%Q) by (field; lra).
        assert (E2 : (qn n / qn (S t) * qn (S t) <= 1 * qn (S t))%Q) by (apply Qmult_le_compat_r; lra). lra. }
      unfold qn in H1. rewrite <- Zle_Qle in H1. lia. }
    rewrite Nat.min_l in Hlen by exact Hnt.
    assert (Hmoved : length (skipn (length unused) unused') = n_prun (p_sched p) (length dev)).
    { apply rmap_ok in Em. apply forall2_len in Em. lia. }
    assert (Hu : length unused' = (length unused + n_prun (p_sched p) (length dev))%nat).
    { rewrite <- (firstn_skipn (length unused) unused'), app_length, Eu, Hmoved. reflexivity. }
    split; [exact Hu|]. split; [lia|]. split; [|exact Eu].
    intros E0. assert (length dev' = 0%nat) by now rewrite E0.
    apply Permutation_length in HPt. rewrite app_length, seq_length in HPt. destruct rest; [contradiction|]. cbn in HPt. lia.
  Qed.

  (** C45: a step prunes exactly when the development data set is larger than
      its minimum size, large enough relative to the full data set and to the
      minimum testing size, and the pruned share of the testing set is not too
      large; otherwise nothing moves. *)
  Theorem pruning_step_stops : forall p perm losses dev unused ok dev' unused',
    pruning_step kleb k0 p perm losses dev unused = Ok (ok, dev', unused') ->
    exists test subs, split_dataset perm (length dev) (p_step_sizes p) = Ok subs /\ dget subs "testing" = Some test /\
    (ok = true <->
      (p_dev_min p < length dev)%nat /\ (p_ratio_min p <= qn (length dev) / qn (p_full p))%Q /\
      (p_test_min p <= length dev)%nat /\ (qn (n_prun (p_sched p) (length dev)) / qn (length test) <= p_ratio_max p)%Q) /\
    (ok = false -> dev' = dev /\ unused' = unused).
  Proof.
    intros p perm losses dev unused ok dev' unused' H. unfold pruning_step in H.
    destruct (split_dataset perm (length dev) (p_step_sizes p)) as [subs|] eqn:Es; [|discriminate]. cbn [rbind] in H.
    destruct (dlookup subs "training") as [tr|] eqn:Et; [|discriminate]. cbn [rbind] in H.
    destruct (dlookup subs "validation") as [va|] eqn:Ev; [|discriminate]. cbn [rbind] in H.
    destruct (dlookup subs "testing") as [test|] eqn:Ete; [|discriminate]. cbn [rbind] in H.
    exists test, subs. split; [reflexivity|]. split; [now apply dlookup_ok|].
    assert (AD : admissible p (length dev) (n_prun (p_sched p) (length dev)) (length test) = true <->
      (p_dev_min p < length dev)%nat /\ (p_ratio_min p <= qn (length dev) / qn (p_full p))%Q /\
      (p_test_min p <= length dev)%nat /\ (qn (n_prun (p_sched p) (length dev)) / qn (length test) <= p_ratio_max p)%Q).
    { unfold admissible, qltb. rewrite !negb_orb, !negb_involutive, !andb_true_iff, !Qle_bool_iff, !negb_true_iff.
      rewrite Nat.leb_gt, Nat.ltb_ge. tauto. }
    destruct (admissible p (length dev) (n_prun (p_sched p) (length dev)) (length test)) eqn:Ea.
    - destruct (parent_indices test _) as [idx|] eqn:Ep; [|discriminate]. cbn [rbind] in H.
      destruct (rmap _ idx) as [moved|] eqn:Em; [|discriminate]. cbn [rbind] in H. injection H as <- <- <-.
      split; [exact AD|discriminate].
    - injection H as <- <- <-. split; [exact AD|auto].
  Qed.


  (** C45: the samples moved are tested samples with the smallest losses *)
  Theorem pruned_have_smallest_loss : forall losses n,
    (forall a b, kleb a b = true \/ kleb b a = true) -> (forall a b c, kleb a b = true -> kleb b c = true -> kleb a c = true) ->
    forall i j, In i (firstn n (sorted_by_loss kleb k0 losses)) -> (j < length losses)%nat ->
    ~ In j (firstn n (sorted_by_loss kleb k0 losses)) -> kleb (nth i losses k0) (nth j losses k0) = true.
  Proof.
    intros losses n total trans i j Hi Hj Hnj.
    pose proof (gsort_sorted (fun i j => kleb (nth i losses k0) (nth j losses k0)) ltac:(intros; apply total)
      ltac:(intros a b c; apply trans) (seq 0 (length losses))) as HS. fold (sorted_by_loss kleb k0 losses) in HS.
    assert (Hin : In j (sorted_by_loss kleb k0 losses)).
    { eapply Permutation_in; [apply Permutation_sym, gsort_perm|]. apply in_seq. lia. }
    rewrite <- (firstn_skipn n) in Hin. apply in_app_iff in Hin as [Hin|Hin]; [contradiction|].
    revert Hi Hin. rewrite <- (firstn_skipn n (sorted_by_loss kleb k0 losses)) in HS. revert HS.
    generalize (firstn n (sorted_by_loss kleb k0 losses)) as u, (skipn n (sorted_by_loss kleb k0 losses)) as v.
    induction u as [|x u IH]; intros v HS Hi Hin; [destruct Hi|]. cbn in HS. inversion_clear HS as [|? ? HS' HF].
    destruct Hi as [->|Hi]; [|now apply (IH v)]. rewrite Forall_forall in HF. apply HF. apply in_app_iff. now right.
  Qed.

  (** C45: over any number of iterations the development and unused data sets
      together are the full data set *)
  Theorem pruning_conserves : forall p perm perm' losses (full : list A) hist,
    (forall k n, Permutation (perm k n) (seq 0 n)) ->
    prune kleb k0 p perm perm' losses full = Ok hist ->
    Forall (fun du => Permutation (fst du ++ snd du) full) hist.
  Proof.
    intros p perm perm' losses full hist HP H. unfold prune in H.
    assert (G : forall fuel iter dev unused h, Permutation (dev ++ unused) full ->
      pruning_loop kleb k0 p perm perm' losses fuel iter dev unused = Ok h ->
      Forall (fun du => Permutation (fst du ++ snd du) full) h).
    { induction fuel as [|fuel IH]; intros iter dev unused h Hd Hh; cbn in Hh; [injection Hh as <-; constructor|].
      assert (Hit : forall d u, Permutation (d ++ u) full ->
        rbind (split_dataset (perm' iter) (length d) (p_iter_sizes p)) (fun _ =>
          if (p_iter_max p <=? iter)%nat then Ok [(d, u)]
          else rbind (pruning_loop kleb k0 p perm perm' losses fuel (S iter) d u) (fun r => Ok ((d, u) :: r))) = Ok h ->
        Forall (fun du => Permutation (fst du ++ snd du) full) h).
      { intros d u Hdu E. destruct (split_dataset (perm' iter) (length d) (p_iter_sizes p)); cbn [rbind] in E; [|discriminate].
        destruct (p_iter_max p <=? iter)%nat; [injection E as <-; constructor; auto|].
        destruct (pruning_loop kleb k0 p perm perm' losses fuel (S iter) d u) as [r|] eqn:Er; [|discriminate]. injection E as <-.
        constructor; [exact Hdu|]. eapply IH; eauto. }
      destruct iter as [|iter]; [now apply (Hit dev unused)|].
      destruct (pruning_step _ _ _ _ _ dev unused) as [[[ok dev'] unused']|] eqn:Es; [|discriminate]. cbn [rbind] in Hh.
      assert (Hd' : Permutation (dev' ++ unused') full).
      { eapply Permutation_trans; [|exact Hd]. eapply pruning_step_conserves; [|exact Es]. apply HP. }
      destruct ok; [now apply (Hit dev' unused')|]. injection Hh as <-. constructor. }
    eapply G; [|exact H]. rewrite app_nil_r. apply Permutation_refl.
  Qed.
End Prune.

(** C45, counterexample to progress: with a proportional scheduler and few
    samples an admissible step moves nothing *)
Definition prun_params := mkParams (Proportional (1#20)) 100 10 (1#20) 10 (1#2)
  [("training"%string, 7#10); ("validation"%string, 2#10); ("testing"%string, 1#10)]
  [("training"%string, 8#10); ("validation"%string, 2#10)] 100.
Theorem proportional_stall_refuted : exists dev : list nat,
  pruning_step Nat.leb 0%nat prun_params (fun n => seq 0 n) (fun t => t) dev [] = Ok (true, dev, []).
Proof. exists (seq 0 19). vm_compute. reflexivity. Qed.
Example pruning_case :
  pruning_step Nat.leb 0%nat prun_params (fun n => seq 0 n) (fun t => map (fun i => 100 - i)%nat t) (seq 0 40) []
  = Ok (true, seq 0 38, [39; 38]%nat).
Proof. vm_compute. reflexivity. Qed.
Example prune_case : exists h, prune Nat.leb 0%nat prun_params (fun _ n => seq 0 n) (fun _ n => seq 0 n) (fun _ t => t) (seq 0 100) = Ok h /\ length h = 101%nat.
Proof. eexists. split; [vm_compute; reflexivity|reflexivity]. Qed.

(** C45: the testing data set of a step is saved over the validation data set
    exactly when they have the same size *)
Lemma append_cancel_l : forall a b c : string, (a ++ b = a ++ c)%string -> b = c.
Proof. induction a as [|x a IH]; cbn; intros b c H; [exact H|]. injection H as H. auto. Qed.
Lemma append_cancel_r : forall a b c : string, (b ++ a = c ++ a)%string -> b = c.
Proof.
  assert (L : forall a b, String.length (a ++ b) = (String.length a + String.length b)%nat).
  { induction a as [|x a IH]; cbn; intros; [reflexivity|now rewrite IH]. }
  intros a b. induction b as [|x b IH]; intros c H.
  - destruct c as [|y c]; [reflexivity|]. apply (f_equal String.length) in H. rewrite !L in H. cbn in H. lia.
  - destruct c as [|y c].
    + apply (f_equal String.length) in H. rewrite !L in H. cbn in H. lia.
    + cbn in H. injection H as -> H. f_equal. auto.
Qed.
Theorem validation_file_overwritten_iff : forall {A} dir (train val test : list A),
  let '(files, (_, fv, fe)) := step_files dir train val test in
  dget files fe = Some test /\
  dget files fv = Some (if (length val =? length test)%nat then test else val).
Proof.
  intros A dir train val test. cbn [step_files]. unfold step_files. split; [apply dget_dset_same|].
  destruct (length val =? length test)%nat eqn:E.
  - apply Nat.eqb_eq in E. rewrite E. apply dget_dset_same.
  - apply Nat.eqb_neq in E. rewrite dget_dset_other; [apply dget_dset_same|].
    intros H. apply E. symmetry. apply nat_str_inj. unfold dataset_file in H.
    apply append_cancel_l in H. apply append_cancel_l in H. now apply append_cancel_r in H.
Qed.
Theorem validation_file_overwritten_refuted : exists train val test : list nat,
  let '(files, (_, fv, _)) := step_files "d" train val test in dget files fv <> Some val.
Proof. exists [1; 2; 3]%nat, [4]%nat, [5]%nat. cbn. discriminate. Qed.
(** C45, counterexample: different iterations may share their directory *)
Theorem iteration_directory_shared_refuted : exists n n', n <> n' /\
  iter_dir "p" (hd 0%nat (split_lens n (map snd (p_iter_sizes prun_params)))) =
  iter_dir "p" (hd 0%nat (split_lens n' (map snd (p_iter_sizes prun_params)))).
Proof. exists 15%nat, 14%nat. split; [lia|]. vm_compute. reflexivity. Qed.

Print Assumptions pruning_step_conserves.
Print Assumptions pruning_step_counts.
Print Assumptions pruned_have_smallest_loss.
Print Assumptions pruning_conserves.
Print Assumptions validation_file_overwritten_iff.
