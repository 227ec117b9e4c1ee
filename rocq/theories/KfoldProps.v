(** k-fold cross-validation: theorems. *)
From Coq Require Import Reals String List Bool Arith Lia Permutation Sorted.
Import ListNotations.
From Verif Require Import Lib PyDict KfoldModel.
Local Open Scope list_scope.

Lemma mem_iff i l : mem i l = true <-> In i l.
Proof.
  unfold mem. rewrite existsb_exists. split; [intros (x & I & E); apply Nat.eqb_eq in E; now subst|].
  intros I. exists i. split; auto. apply Nat.eqb_refl.
Qed.
(** Sum of natural numbers. *)
Definition total (l : list nat) : nat := fold_right Nat.add 0 l.
Lemma cut_concat : forall sizes l, total sizes = length l -> concat (cut sizes l) = l.
Proof.
  induction sizes as [|s t IH]; intros l H; cbn [cut concat total fold_right] in *; [now destruct l|].
  rewrite IH; [apply firstn_skipn|]. rewrite skipn_length. unfold total. lia.
Qed.
Lemma cut_length : forall sizes l, length (cut sizes l) = length sizes.
Proof. induction sizes; intros; cbn [cut length]; auto. Qed.
Lemma cut_sizes : forall sizes l i, total sizes = length l -> (i < length sizes)%nat ->
  length (nth i (cut sizes l) []) = nth i sizes 0.
Proof.
  induction sizes as [|s t IH]; intros l i H Hi; cbn [cut length total fold_right] in *; [lia|].
  destruct i as [|i]; cbn [nth]; [rewrite firstn_length; lia|]. apply IH; [|lia].
  rewrite skipn_length. unfold total. lia.
Qed.
Lemma total_sizes_from n k : forall m a, total (map (fold_size n k) (seq a m))
  = (m * Nat.div n k + (Nat.min (a + m) (Nat.modulo n k) - Nat.min a (Nat.modulo n k)))%nat.
Proof.
  induction m as [|m IH]; intros a; cbn [seq map total fold_right]; [lia|].
  change (fold_right Nat.add 0 (map (fold_size n k) (seq (S a) m))) with (total (map (fold_size n k) (seq (S a) m))).
  rewrite IH. unfold fold_size. destruct (Nat.ltb_spec a (n mod k)); lia.
Qed.
Lemma total_sizes n k : k <> 0%nat -> total (map (fold_size n k) (seq 0 k)) = n.
Proof.
  intros K. rewrite total_sizes_from. cbn [Nat.add]. pose proof (Nat.mod_upper_bound n k K). pose proof (Nat.div_mod n k K). lia.
Qed.
Lemma filter_partition {A} (f : A -> bool) l : Permutation (filter (fun x => negb (f x)) l ++ filter f l) l.
Proof.
  induction l as [|a l IH]; cbn [filter app]; auto. destruct (f a); cbn [negb app].
  - rewrite <- Permutation_middle. now constructor.
  - now constructor.
Qed.
Lemma filter_seq_perm n p : NoDup p -> incl p (seq 0 n) -> Permutation (filter (fun i => mem i p) (seq 0 n)) p.
Proof.
  intros N I. apply NoDup_Permutation; auto; [apply NoDup_filter, seq_NoDup|].
  intros x. rewrite filter_In, mem_iff. split; [tauto|]. intros X. split; auto.
Qed.
Lemma filter_sorted (f : nat -> bool) n : forall a, StronglySorted lt (filter f (seq a n)).
Proof.
  induction n as [|n IH]; intros a; cbn [seq filter]; [constructor|]. destruct (f a); auto. constructor; auto.
  apply Forall_forall. intros x X. apply filter_In in X as [X _]. apply in_seq in X. lia.
Qed.
Lemma nodup_app_both {A} (a b : list A) : NoDup (a ++ b) -> NoDup a /\ NoDup b.
Proof.
  induction a as [|x a IH]; cbn [app]; intros N; [split; auto; constructor|]. apply NoDup_cons_iff in N as [N1 N2].
  destruct (IH N2) as [A1 B1]. split; auto. constructor; auto. intros I. apply N1, in_or_app. now left.
Qed.
Lemma concat_nodup {A} (ls : list (list A)) l : NoDup (concat ls) -> In l ls -> NoDup l.
Proof.
  induction ls as [|x ls IH]; [easy|]. cbn [concat]. intros N [->|I].
  - now apply nodup_app_both in N.
  - apply IH; auto. now apply nodup_app_both in N.
Qed.
Lemma concat_map_perm {A B} (f : A -> list B) (g : A -> list B) l : (forall a, In a l -> Permutation (f a) (g a)) ->
  Permutation (concat (map f l)) (concat (map g l)).
Proof.
  induction l as [|a l IH]; intros H; cbn [map concat]; auto. apply Permutation_app; [apply H; now left|]. apply IH. intros; apply H. now right.
Qed.

(** ** Folds *)
(** The folds of any shuffle: as many as asked; every sample is validated in
    exactly one fold and trained in the others; sizes differ by at most one. *)
Theorem folds_partition n k perm folds : Permutation perm (seq 0 n) -> folds_indexes n k perm = Ok folds ->
  (2 <= k <= n)%nat /\ length folds = k /\
  Permutation (concat (map snd folds)) (seq 0 n) /\
  (forall i, (i < k)%nat -> length (snd (nth i folds ([], []))) = fold_size n k i) /\
  Forall (fun f => Permutation (fst f ++ snd f) (seq 0 n) /\ StronglySorted lt (fst f) /\ StronglySorted lt (snd f)) folds.
Proof.
  intros P. unfold folds_indexes. destruct (Nat.leb_spec k 1); [discriminate|]. destruct (Nat.ltb_spec n k); [discriminate|].
  intros H'. injection H' as <-. set (sizes := map (fold_size n k) (seq 0 k)).
  assert (T : total sizes = length perm). { unfold sizes. rewrite total_sizes by lia. rewrite (Permutation_length P), seq_length. auto. }
  assert (C : concat (cut sizes perm) = perm) by now apply cut_concat.
  assert (N : NoDup (concat (cut sizes perm))). { rewrite C. apply (Permutation_NoDup (Permutation_sym P)), seq_NoDup. }
  assert (I : forall p, In p (cut sizes perm) -> NoDup p /\ incl p (seq 0 n)).
  { intros p Hp. split; [now apply (concat_nodup _ _ N)|]. intros x X. apply (Permutation_in _ P). rewrite <- C. apply in_concat. eauto. }
  split; [lia|]. split; [unfold sizes; rewrite map_length, cut_length, map_length, seq_length; auto|].
  split; [|split].
  - rewrite map_map. cbn [fold_ids snd]. eapply Permutation_trans.
    + apply (concat_map_perm _ (fun p => p)). intros p Hp. destruct (I p Hp). now apply filter_seq_perm.
    + now rewrite map_id, C.
  - intros i Hi. assert (L : (i < length (cut sizes perm))%nat) by (unfold sizes; rewrite cut_length, map_length, seq_length; auto).
    rewrite (nth_indep _ _ (fold_ids n [])) by (now rewrite map_length). rewrite (map_nth (fold_ids n)). cbn [fold_ids snd].
    destruct (I (nth i (cut sizes perm) [])) as [N1 N2]; [now apply nth_In|].
    rewrite (Permutation_length (filter_seq_perm _ _ N1 N2)), cut_sizes; auto; [|unfold sizes; rewrite map_length, seq_length; auto].
    unfold sizes. rewrite (nth_indep _ 0%nat (fold_size n k 0)) by (rewrite map_length, seq_length; auto).
    rewrite (map_nth (fold_size n k)), seq_nth; auto.
  - apply Forall_forall. intros f F. apply in_map_iff in F as (p & <- & Hp). cbn [fold_ids fst snd].
    split; [apply filter_partition|]. split; apply filter_sorted.
Qed.
Theorem folds_refused n k perm : (k < 2 \/ n < k)%nat <-> folds_indexes n k perm = Err ValueError.
Proof.
  unfold folds_indexes. destruct (Nat.leb_spec k 1); [split; auto; lia|]. destruct (Nat.ltb_spec n k); [split; auto; lia|].
  split; [lia|discriminate].
Qed.
Theorem fold_sizes_close n k i j : (fold_size n k i <= S (fold_size n k j))%nat.
Proof. unfold fold_size. destruct (Nat.ltb _ _), (Nat.ltb _ _); lia. Qed.

Lemma forall2_weaken {A B} (P Q : A -> B -> Prop) l m : (forall a b, P a b -> Q a b) -> Forall2 P l m -> Forall2 Q l m.
Proof. intros H. induction 1; constructor; auto. Qed.
(** ** The loop *)
Section Loop.
  Context {A M : Type}.
  Variable train : list A -> res (M * R).
  Variable predict : M -> list A -> res (option R).
  (** The losses of every fold come from a model trained on the training samples
      of the fold and its prediction of the others. *)
  Lemma run_folds_law d folds losses : run_folds train predict d folds = Ok losses ->
    Forall2 (fun f l => exists m, train (subset d (fst f)) = Ok (m, fst l) /\ predict m (subset d (snd f)) = Ok (Some (snd l))) folds losses.
  Proof.
    intros H. apply rmap_ok in H. eapply forall2_weaken; [|exact H]. intros f (a, b) E. unfold run_fold in E.
    destruct (train _) as [(m, r)|]; cbn [rbind] in E; [|discriminate].
    destruct (predict _ _) as [[v|]|] eqn:Q; cbn [rbind fst snd] in *; try discriminate. injection E as <- <-. eauto.
  Qed.
  (** The function cannot return: the model is read before any is trained. *)
  Theorem cross_validation_refuted dir verbose k perm d :
    cross_validation train predict true dir verbose k perm d
    = Err (if dir then if Nat.leb k 1 then ValueError else if Nat.ltb (length d) k then ValueError else NameError else RuntimeError).
  Proof.
    unfold cross_validation. destruct dir; cbn [negb]; auto. unfold folds_indexes.
    destruct (Nat.leb k 1); auto. destruct (Nat.ltb _ k); auto.
  Qed.
  (** Without that reading the function would return the losses of the folds in
      the verbose mode, and still nothing in the quiet mode. *)
  Theorem cross_validation_otherwise dir verbose k perm d losses :
    cross_validation train predict false dir verbose k perm d = Ok losses ->
    dir = true /\ verbose = true /\ exists folds, folds_indexes (length d) k perm = Ok folds /\
    Forall2 (fun f l => exists m, train (subset d (fst f)) = Ok (m, fst l) /\ predict m (subset d (snd f)) = Ok (Some (snd l))) folds losses.
  Proof.
    unfold cross_validation. destruct dir; cbn [negb]; [|discriminate].
    destruct (folds_indexes _ _ _) as [folds|] eqn:E; cbn [rbind]; [|discriminate].
    destruct (run_folds _ _ _ _) as [l|] eqn:L; cbn [rbind]; [|discriminate]. destruct verbose; [|discriminate].
    intros H. injection H as <-. split; auto. split; auto. exists folds. split; auto. now apply run_folds_law.
  Qed.
End Loop.

(** The folds are documented to be consecutive; they are shuffled. *)
Theorem consecutive_folds_refuted : exists n k perm folds, Permutation perm (seq 0 n) /\ folds_indexes n k perm = Ok folds /\
  snd (nth 0 folds ([], [])) = [0; 3]%nat.
Proof.
  exists 4%nat, 2%nat, [3; 0; 1; 2]%nat. eexists. split; [|split; [vm_compute; reflexivity|reflexivity]].
  cbn [seq]. apply (Permutation_cons_app [0; 1; 2]%nat []). auto.
Qed.

(** ** Case *)
Example ex_folds : folds_indexes 5 3 [4; 2; 0; 1; 3]%nat
  = Ok [([0; 1; 3], [2; 4]); ([2; 3; 4], [0; 1]); ([0; 1; 2; 4], [3])]%nat.
Proof. vm_compute. reflexivity. Qed.

Print Assumptions folds_partition.
Print Assumptions folds_refused.
Print Assumptions cross_validation_refuted.
Print Assumptions cross_validation_otherwise.
Print Assumptions consecutive_folds_refuted.
