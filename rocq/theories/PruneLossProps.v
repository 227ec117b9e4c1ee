(** Losses of the tested samples of a pruning step (C128). *)
From Coq Require Import String Ascii List Arith Bool Lia Permutation Sorted.
From Verif Require Import Lib PyDict PyStr TextLines HybridModel HybridProps MeanMetricsModel MeanMetricsProps DenoiseCsvProps DatasetModel PruningModel PruningProps PruneLossModel.
Import ListNotations.
Local Open Scope nat_scope.
Local Open Scope list_scope.

Lemma key_of_name n : sort_key (sample_name n) = n.
Proof.
  unfold sort_key, sample_name. rewrite drop_prefix_app. change (nat_str n ++ ".pkl")%string with (nat_str n ++ String "." "pkl")%string.
  rewrite take_digits_app by (try reflexivity; apply nat_str_digits). rewrite int_of_nat_str. reflexivity.
Qed.
Section Losses.
  Context {L : Type}.
  Implicit Type d : ldir L.
  (** Entry written by the prediction of sample [i] with loss [f i] *)
  Definition written (f : nat -> L) (i : nat) : string * option L := (sample_name i, Some (f i)).
  Lemma gsort_nonempty {A} (leb : A -> A -> bool) l : l <> [] -> gsort leb l <> [].
  Proof. intros N E. pose proof (Permutation_length (gsort_perm leb l)) as P. rewrite E in P. destruct l; [congruence|discriminate]. Qed.
  Lemma sorted_files f ids l : StronglySorted lt ids -> Permutation l (map (written f) ids) ->
    gsort (fun a b => sort_key (fst a) <=? sort_key (fst b)) l = map (written f) ids.
  Proof.
    intros S P. set (lekey := fun a b : string * option L => sort_key (fst a) <=? sort_key (fst b)).
    assert (SS : StronglySorted (fun a b => lekey a b = true) (gsort lekey l)).
    { apply gsort_sorted; unfold lekey; [intros a b; rewrite !Nat.leb_le; lia|intros a b c; rewrite !Nat.leb_le; lia]. }
    assert (Q : Permutation (gsort lekey l) (map (written f) ids)) by (eapply Permutation_trans; [apply gsort_perm|exact P]).
    clear P. revert ids S Q. generalize dependent (gsort lekey l). intros s SS. clear l. induction SS as [|x t ST IH FA]; intros ids S Q.
    - apply Permutation_nil in Q. now rewrite Q.
    - destruct ids as [|i ids]; [apply Permutation_sym, Permutation_nil in Q; discriminate|].
      inversion S as [|? ? S' F']; subst. cbn [map] in *.
      assert (X : x = written f i).
      { assert (I : In x (written f i :: map (written f) ids)) by (eapply Permutation_in; [exact Q|now left]).
        destruct I as [<-|I]; [reflexivity|]. apply in_map_iff in I as (j & <- & Ij).
        assert (J : In (written f i) (written f j :: t)) by (eapply Permutation_in; [apply Permutation_sym; exact Q|now left]).
        destruct J as [J|J]; [exact J|]. rewrite Forall_forall in FA. specialize (FA _ J). unfold lekey in FA. cbn [fst written] in FA.
        rewrite !key_of_name in FA. apply Nat.leb_le in FA. rewrite Forall_forall in F'. specialize (F' _ Ij). lia. }
      subst x. f_equal. apply Permutation_cons_inv in Q. apply IH; auto.
  Qed.
  Lemma losses_of_written f ids : rmap entry_loss (map (written f) ids) = Ok (map f ids).
  Proof. induction ids as [|i ids IH]; [reflexivity|]. cbn [map rmap entry_loss written snd rbind]. rewrite IH. reflexivity. Qed.
  Lemma ids_of_written f ids : map entry_id (map (written f) ids) = ids.
  Proof. induction ids as [|i ids IH]; [reflexivity|]. cbn [map]. rewrite IH. unfold entry_id, written. cbn [fst]. rewrite sample_name_found. reflexivity. Qed.
  (** The losses come in the order of the numbers of the samples, whatever the
      order of the directory and its other files. *)
  Theorem losses_in_order : forall d f ids, StronglySorted lt ids -> ids <> [] ->
    Permutation (filter is_prediction d) (map (written f) ids) -> read_samples_loss d = Ok (ids, map f ids).
  Proof.
    intros d f ids S N P. unfold read_samples_loss. destruct d as [|e d]; [apply Permutation_nil in P; destruct ids; [congruence|discriminate]|].
    remember (e :: d) as dd eqn:E. clear E e d. pose proof (sorted_files f ids _ S P) as G. destruct (filter is_prediction dd) as [|x t] eqn:F.
    - apply Permutation_nil in P. destruct ids; [congruence|discriminate].
    - cbv zeta. rewrite G, losses_of_written. cbn [rbind]. rewrite ids_of_written. reflexivity.
  Qed.
  Lemma seq_sorted_lt n : forall a, StronglySorted lt (seq a n).
  Proof. induction n; intros a; cbn; constructor; [apply IHn|]. apply Forall_forall. intros x Hx. apply in_seq in Hx. lia. Qed.
  (** When all the samples of the testing data set have been predicted, the
      chosen positions are those of the smallest losses. *)
  Theorem chosen_are_smallest : forall kleb k0 n k d f, (forall a b, kleb a b = true \/ kleb b a = true) ->
    (forall a b c, kleb a b = true -> kleb b c = true -> kleb a c = true) -> 0 < n ->
    Permutation (filter is_prediction d) (map (written f) (seq 0 n)) ->
    exists l, chosen_positions kleb k0 k d = Ok l /\ length l = Nat.min k n /\ NoDup l /\ Forall (fun i => i < n) l /\ forall i j, In i l -> j < n -> ~ In j l -> kleb (f i) (f j) = true.
  Proof.
    intros kleb k0 n k d f T TR N P. exists (firstn k (sorted_by_loss kleb k0 (map f (seq 0 n)))).
    assert (NE : seq 0 n <> []) by (destruct n; [lia|discriminate]).
    unfold chosen_positions. rewrite (losses_in_order d f (seq 0 n) (seq_sorted_lt n 0) NE P). cbn [rbind snd]. split; [reflexivity|].
    assert (Q : Permutation (sorted_by_loss kleb k0 (map f (seq 0 n))) (seq 0 n)).
    { unfold sorted_by_loss. rewrite map_length, seq_length. apply gsort_perm. }
    split; [|split; [|split]].
    - rewrite firstn_length, (Permutation_length Q), seq_length. reflexivity.
    - assert (ND : NoDup (sorted_by_loss kleb k0 (map f (seq 0 n)))) by (eapply Permutation_NoDup; [apply Permutation_sym; exact Q|apply seq_NoDup]).
      rewrite <- (firstn_skipn k) in ND. revert ND. generalize (firstn k (sorted_by_loss kleb k0 (map f (seq 0 n)))) (skipn k (sorted_by_loss kleb k0 (map f (seq 0 n)))).
      intros a b ND. induction a as [|x a IH]; [constructor|]. cbn in ND. inversion ND; subst. constructor; [|auto]. intros I. apply H1. apply in_app_iff. now left.
    - apply Forall_forall. intros i Hi. assert (I : In i (sorted_by_loss kleb k0 (map f (seq 0 n)))) by (rewrite <- (firstn_skipn k); apply in_app_iff; now left).
      apply (Permutation_in _ Q) in I. apply in_seq in I. lia.
    - intros i j Hi Hj Hn. assert (NI : i < n).
      { assert (I : In i (sorted_by_loss kleb k0 (map f (seq 0 n)))) by (rewrite <- (firstn_skipn k); apply in_app_iff; now left).
        apply (Permutation_in _ Q) in I. apply in_seq in I. lia. }
      pose proof (pruned_have_smallest_loss kleb k0 (map f (seq 0 n)) k T TR i j Hi ltac:(rewrite map_length, seq_length; exact Hj) Hn) as G.
      assert (V : forall q, q < n -> nth q (map f (seq 0 n)) k0 = f q).
      { intros q Hq. rewrite (nth_indep _ k0 (f 0)) by (rewrite map_length, seq_length; exact Hq). rewrite map_nth, seq_nth by exact Hq. reflexivity. }
      rewrite !V in G by assumption. exact G.
  Qed.
  (** A directory without results, or results without loss, is refused. *)
  Theorem losses_refused : forall d, (forall e, In e d -> is_prediction e = false) \/ (exists name, In (name, None) d /\ is_prediction (name, None : option L) = true) ->
    read_samples_loss d = Err RuntimeError.
  Proof.
    intros d [H|(name & I & M)].
    - unfold read_samples_loss. destruct d as [|e d]; [reflexivity|]. remember (e :: d) as dd eqn:E. clear E e d.
      assert (F : filter is_prediction dd = []).
      { induction dd as [|x t IH]; [reflexivity|]. cbn [filter]. rewrite (H x) by now left. apply IH. intros y Hy. apply H. now right. }
      rewrite F. reflexivity.
    - unfold read_samples_loss. destruct d as [|e d]; [reflexivity|]. remember (e :: d) as dd eqn:E. clear E e d.
      assert (J : In (name, None) (filter is_prediction dd)) by (apply filter_In; split; assumption).
      destruct (filter is_prediction dd) as [|x t]; [reflexivity|]. cbv zeta.
      apply (Permutation_in _ (Permutation_sym (gsort_perm (fun a b : string * option L => sort_key (fst a) <=? sort_key (fst b)) (x :: t)))) in J.
      revert J. generalize (gsort (fun a b : string * option L => sort_key (fst a) <=? sort_key (fst b)) (x :: t)). intros s J.
      assert (R : rmap entry_loss s = Err RuntimeError).
      { induction s as [|y s IH]; [destruct J|]. cbn [rmap]. destruct J as [->|J]; [reflexivity|]. unfold entry_loss at 1. destruct (snd y); [|reflexivity]. cbn [rbind].
        rewrite (IH J). reflexivity. }
      rewrite R. reflexivity.
  Qed.
End Losses.
(** The numbers of the samples are not used: when the results of a sample are
    missing, the positions of the later ones are off by one.  Sample 2 has the
    smallest loss, and position 1 is chosen. *)
Theorem missing_sample_refuted : exists (f : nat -> nat) (d : ldir nat), d = map (written f) [0; 2] /\ f 2 < f 0 /\ read_samples_loss d = Ok ([0; 2], [f 0; f 2]) /\ chosen_positions Nat.leb 0 1 d = Ok [1].
Proof. exists (fun i => 10 - i). eexists. split; [reflexivity|]. split; [cbn; lia|]. split; reflexivity. Qed.
(** A second file for a sample makes the positions exceed the testing data set. *)
Theorem second_file_refuted : exists (f : nat -> nat) (d : ldir nat), d = ("prediction_sample_00.pkl"%string, Some 20) :: map (written f) [0; 1] /\ f 1 < f 0 /\ chosen_positions Nat.leb 0 1 d = Ok [2].
Proof. exists (fun i => 10 - i). eexists. split; [reflexivity|]. split; [cbn; lia|]. reflexivity. Qed.
Example losses_case : read_samples_loss [("prediction_sample_10.pkl"%string, Some 3); ("loss.png"%string, None); ("prediction_sample_9.pkl"%string, Some 4)] = Ok ([9; 10], [4; 3]).
Proof. reflexivity. Qed.

Print Assumptions losses_in_order.
Print Assumptions chosen_are_smallest.
Print Assumptions losses_refused.
Print Assumptions missing_sample_refuted.
Print Assumptions second_file_refuted.
