(** C63 batch collation and loading, C64 batch fitting of data scalers. *)
From Coq Require Import Reals String List Arith Lia Lra Bool Permutation.
From Verif Require Import Lib PyDict ScalerModel ScalerSpec ScalerProps BatchFitModel.
Import ListNotations.
Local Open Scope R_scope.
Local Open Scope list_scope.

(** ** Collation *)
Definition tens_of (s : sample) (f : string) : list (list R) :=
  match dget s f with Some (Tens rows) => rows | _ => [] end.
(** Every tensor of the first sample has the same shape in all samples. *)
Definition compatible (x : sample) (batch : list sample) : Prop :=
  forall f rows, dget x f = Some (Tens rows) -> forall s, In s batch ->
  exists rows', dget s f = Some (Tens rows') /\ length rows' = length rows /\ ncols rows' = ncols rows.

Lemma gather_ok f nr nc batch l : gather f nr nc batch = Ok l ->
  l = map (fun s => tens_of s f) batch
  /\ forall s, In s batch -> exists rows, dget s f = Some (Tens rows) /\ length rows = nr /\ ncols rows = nc.
Proof.
  revert l. induction batch as [|x rest IH]; intros l H; cbn [gather] in H.
  - injection H as <-. split; [reflexivity|]. intros s [].
  - destruct (dget x f) as [[rows|]|] eqn:D; try discriminate.
    destruct (gather f nr nc rest) as [l'|] eqn:G; cbn [rbind] in H; [|discriminate].
    destruct (Nat.eqb_spec (length rows) nr) as [E1|]; cbn [andb] in H; [|discriminate].
    destruct (Nat.eqb_spec (ncols rows) nc) as [E2|]; [|discriminate].
    injection H as <-. destruct (IH l' eq_refl) as [-> Q]. split.
    + cbn [map]. unfold tens_of at 2. rewrite D. reflexivity.
    + intros s [<-|I]; [exists rows; auto|auto].
Qed.
Lemma gather_succeeds f nr nc batch :
  (forall s, In s batch -> exists rows, dget s f = Some (Tens rows) /\ length rows = nr /\ ncols rows = nc) ->
  gather f nr nc batch = Ok (map (fun s => tens_of s f) batch).
Proof.
  induction batch as [|x rest IH]; intros H; [reflexivity|]. cbn [gather map].
  destruct (H x (or_introl eq_refl)) as [rows [D [E1 E2]]]. unfold tens_of at 1. rewrite D.
  rewrite IH by (intros; apply H; right; auto). cbn [rbind]. rewrite (proj2 (Nat.eqb_eq _ _) E1), (proj2 (Nat.eqb_eq _ _) E2).
  reflexivity.
Qed.

Definition collated (f : string) (rows : list (list R)) (batch : list sample) :=
  stack1 (length rows) (map (fun s => tens_of s f) batch).
Lemma collate_features_ok feats batch acc r : collate_features feats batch acc = Ok r -> NoDup (map fst feats) ->
  (forall f rows, In (f, Tens rows) feats -> dget r f = Some (collated f rows batch) /\
     forall s, In s batch -> exists rows', dget s f = Some (Tens rows') /\ length rows' = length rows /\ ncols rows' = ncols rows)
  /\ (forall f, (forall rows, ~ In (f, Tens rows) feats) -> dget r f = dget acc f).
Proof.
  revert acc. induction feats as [|[f v] rest IH]; intros acc H N; cbn [collate_features] in H.
  - injection H as <-. split; [intros f rows []|reflexivity].
  - cbn [map fst] in N. inversion N as [|? ? N1 N2]; subst. destruct v as [rows|].
    + destruct (gather f (length rows) (ncols rows) batch) as [l|] eqn:G; cbn [rbind] in H; [|discriminate].
      destruct (gather_ok _ _ _ _ _ G) as [-> Q]. destruct (IH _ H N2) as [A B]. split.
      * intros g rows' [E|I]; [|apply A; auto]. injection E as <- <-. split; [|exact Q].
        rewrite B; [apply dget_dset_same|]. intros rows' I. apply N1. apply (in_map fst) in I. exact I.
      * intros g NG. rewrite B by (intros rows' I; apply (NG rows'); right; auto).
        apply dget_dset_other. intros ->. apply (NG rows). left. reflexivity.
    + destruct (IH _ H N2) as [A B]. split.
      * intros g rows [E|I]; [discriminate|]. apply A; auto.
      * intros g NG. apply B. intros rows I. apply (NG rows). right; auto.
Qed.
Lemma collate_features_succeeds feats batch : forall acc,
  (forall f rows, In (f, Tens rows) feats -> forall s, In s batch ->
     exists rows', dget s f = Some (Tens rows') /\ length rows' = length rows /\ ncols rows' = ncols rows) ->
  exists r, collate_features feats batch acc = Ok r.
Proof.
  induction feats as [|[f v] rest IH]; intros acc H; cbn [collate_features]; [eauto|]. destruct v as [rows|].
  - rewrite gather_succeeds by (intros s I; apply (H f rows); [left; auto|auto]). cbn [rbind]. apply IH.
    intros g rows' I. apply H. right; auto.
  - apply IH. intros g rows' I. apply H. right; auto.
Qed.
Lemma dget_in_iff (x : sample) f v : NoDup (map fst x) -> (In (f, v) x <-> dget x f = Some v).
Proof.
  intros N. unfold dget. split.
  - intros I. apply (in_gget _ String.eqb_eq); auto.
  - intros D. apply (gget_in _ String.eqb_eq); auto.
Qed.
(** Collation succeeds exactly on compatible samples ... *)
Theorem collate_succeeds_iff : forall x rest, NoDup (map fst x) ->
  ((exists r, time_collator (x :: rest) = Ok r) <-> compatible x (x :: rest)).
Proof.
  intros x rest N. unfold time_collator. split.
  - intros [r H] f rows D s I. apply (dget_in_iff _ _ _ N) in D.
    apply (proj2 (proj1 (collate_features_ok _ _ _ _ H N) f rows D) s I).
  - intros C. apply collate_features_succeeds. intros f rows I. apply C. apply (dget_in_iff _ _ _ N). auto.
Qed.
(** ... and puts entry (time, feature) of sample b at (time, b, feature). *)
Theorem collate_entries : forall x rest r, NoDup (map fst x) -> time_collator (x :: rest) = Ok r ->
  forall f,
  (forall rows, dget x f = Some (Tens rows) ->
     exists out, dget r f = Some out /\ length out = length rows /\
       forall t, (t < length rows)%nat -> length (nth t out []) = S (length rest) /\
         forall b, (b < S (length rest))%nat -> nth b (nth t out []) [] = nth t (tens_of (nth b (x :: rest) []) f) [])
  /\ ((forall rows, dget x f <> Some (Tens rows)) -> dget r f = None).
Proof.
  intros x rest r N H f. unfold time_collator in H. destruct (collate_features_ok _ _ _ _ H N) as [A B]. split.
  - intros rows D. apply (dget_in_iff _ _ _ N) in D. destruct (A f rows D) as [E _]. eexists. split; [exact E|].
    unfold collated, stack1. rewrite map_length, seq_length. split; [reflexivity|]. intros t Ht.
    rewrite nth_map_seq by auto. rewrite !map_length. split; [reflexivity|]. intros b Hb.
    rewrite map_map. rewrite (nth_indep _ [] ((fun s => nth t (tens_of s f) []) [])) by (rewrite map_length; auto).
    rewrite (map_nth (fun s => nth t (tens_of s f) [])). reflexivity.
  - intros NF. rewrite B; [reflexivity|]. intros rows I. apply (dget_in_iff _ _ _ N) in I. apply (NF rows). auto.
Qed.
Theorem collate_empty : time_collator [] = Err IndexError.
Proof. reflexivity. Qed.

(** ** Loading *)
Lemma batches_spec {A} k fuel (l : list A) : (0 < k)%nat -> (length l <= fuel)%nat ->
  concat (batches fuel k l) = l /\ Forall (fun b => (0 < length b <= k)%nat) (batches fuel k l)
  /\ length (batches fuel k l) = ((length l + (k - 1)) / k)%nat.
Proof.
  intros K. revert l. induction fuel as [|fuel IH]; intros l H.
  - destruct l; [|cbn in H; lia]. cbn. repeat split; [constructor|]. symmetry. apply Nat.div_small. lia.
  - destruct l as [|a l].
    + cbn. repeat split; [constructor|]. symmetry. apply Nat.div_small. lia.
    + cbn [batches]. set (m := a :: l) in *.
      assert (ML : (0 < length m)%nat) by (cbn; lia).
      destruct (IH (skipn k m)) as [E1 [E2 E3]]; [rewrite skipn_length; lia|]. repeat split.
      * cbn [concat]. rewrite E1. apply firstn_skipn.
      * constructor; auto. rewrite firstn_length. lia.
      * cbn [length]. rewrite E3, skipn_length.
        destruct (le_lt_dec k (length m)) as [L|L].
        -- replace (length m + (k - 1))%nat with ((length m - k + (k - 1)) + 1 * k)%nat by lia.
           rewrite Nat.div_add by lia. lia.
        -- replace (length m - k)%nat with 0%nat by lia. rewrite Nat.add_0_l, Nat.div_small by lia.
           replace (length m + (k - 1))%nat with ((length m - 1) + 1 * k)%nat by lia.
           rewrite Nat.div_add, Nat.div_small by lia. reflexivity.
Qed.
(** One epoch: every sample in exactly one batch, batches of batch_size samples
    but the last. *)
Theorem loader_epoch : forall k order (dataset : list sample), (0 < k)%nat ->
  Permutation order (seq 0 (length dataset)) ->
  exists bs, loader k order dataset = map time_collator bs
    /\ Permutation (concat bs) dataset
    /\ Forall (fun b => (0 < length b <= k)%nat) bs
    /\ length bs = ((length dataset + (k - 1)) / k)%nat.
Proof.
  intros k order dataset K P. destruct (batches_spec k (length order) order K (le_n _)) as [E1 [E2 E3]].
  exists (map (map (fun i => nth i dataset [])) (batches (length order) k order)). repeat split.
  - unfold loader. rewrite map_map. reflexivity.
  - rewrite <- concat_map, E1. eapply perm_trans; [apply Permutation_map; exact P|].
    assert (Q : map (fun i => nth i dataset []) (seq 0 (length dataset)) = dataset).
    { apply (nth_ext _ _ [] []); rewrite map_length, seq_length; auto. intros i Hi. etransitivity; [apply (nth_map_seq (fun i => nth i dataset [])); auto|reflexivity]. }
    rewrite Q. apply Permutation_refl.
  - apply Forall_forall. intros b I. apply in_map_iff in I. destruct I as [c [<- I]]. rewrite map_length.
    rewrite Forall_forall in E2. apply E2. auto.
  - rewrite map_length, E3, (Permutation_length P), seq_length. reflexivity.
Qed.
(** Unshuffled, with batch_size=1: the samples in order. *)
Lemma batches_one {A} (l : list A) : batches (length l) 1 l = map (fun a => [a]) l.
Proof. induction l as [|a l IH]; [reflexivity|]. cbn [length batches firstn skipn map]. rewrite IH. reflexivity. Qed.
Lemma epoch_samples dataset : epoch dataset = map (fun s => time_collator [s]) dataset.
Proof.
  unfold epoch, loader. rewrite batches_one, map_map. cbn [map].
  apply (nth_ext _ _ (time_collator []) (time_collator [])); rewrite !map_length, seq_length; auto. intros i Hi.
  rewrite (nth_map_seq (fun i => time_collator [nth i dataset []])) by auto.
  rewrite (nth_indep _ (time_collator []) ((fun s => time_collator [s]) [])) by (rewrite map_length; auto).
  rewrite (map_nth (fun s => time_collator [s])). reflexivity.
Qed.
Lemma collate_one s f rows : NoDup (map fst s) -> dget s f = Some (Tens rows) ->
  exists r, time_collator [s] = Ok r /\ dget r f = Some (map (fun row => [row]) rows).
Proof.
  intros N D. destruct (proj2 (collate_succeeds_iff s [] N)) as [r H].
  { intros g rows' D' s' [<-|[]]. exists rows'. auto. }
  exists r. split; [exact H|].
  destruct (proj1 (collate_features_ok _ _ _ _ H N) f rows) as [E _]; [apply (dget_in_iff _ _ _ N); auto|].
  rewrite E. f_equal. unfold collated, stack1. cbn [map]. unfold tens_of. rewrite D.
  apply (nth_ext _ _ [] []); rewrite !map_length, seq_length; auto. intros t Ht.
  rewrite nth_map_seq by auto. rewrite (nth_indep _ [] ((fun row => [row]) [])) by (rewrite map_length; auto).
  rewrite (map_nth (fun row => [row])). reflexivity.
Qed.
Lemma collate_one_absent s f : NoDup (map fst s) -> (forall rows, dget s f <> Some (Tens rows)) ->
  exists r, time_collator [s] = Ok r /\ dget r f = None.
Proof.
  intros N D. destruct (proj2 (collate_succeeds_iff s [] N)) as [r H].
  { intros g rows' D' s' [<-|[]]. exists rows'. auto. }
  exists r. split; [exact H|]. apply (proj2 (collate_entries s [] r N H f) D).
Qed.

(** ** Batch fitting *)
(** A data set whose samples hold a non-empty path of [n] features. *)
Definition fit_data (dataset : list sample) (f : string) (n : nat) : Prop :=
  Forall (fun s => NoDup (map fst s) /\ exists rows, dget s f = Some (Tens rows) /\ rows <> [] /\ Forall (fun r => length r = n) rows) dataset.
(** All times of all samples. *)
Definition pooled (dataset : list sample) (f : string) : list (list R) := flat_map (fun s => tens_of s f) dataset.

Section Loop.
  Context {S : Type} (pf : list (list R) -> option S -> res S) (inv : list (list R) -> S).
  Hypothesis pf_first : forall rows, rows <> [] -> pf rows None = Ok (inv rows).
  Hypothesis pf_next : forall rows past, rows <> [] -> past <> [] -> pf rows (Some (inv past)) = Ok (inv (past ++ rows)).
  Lemma fit_loop_pooled f n dataset : fit_data dataset f n -> forall past,
    fit_loop pf f n (map (fun s => time_collator [s]) dataset) (match past with [] => None | _ => Some (inv past) end)
    = Ok (match past ++ pooled dataset f with [] => None | l => Some (inv l) end).
  Proof.
    induction dataset as [|s rest IH]; intros F past.
    - cbn. rewrite app_nil_r. destruct past; reflexivity.
    - inversion F as [|? ? [N [rows [D [NE L]]]] F2]; subst.
      destruct (collate_one s f rows N D) as [r [C E]].
      cbn [map fit_loop].
      match goal with |- rbind ?t _ = _ => replace t with (Ok r) by (symmetry; exact C) end. cbn [rbind]. rewrite E.
      assert (NC : ncols (concat (map (fun row => [row]) rows)) = n).
      { destruct rows as [|row rows]; [congruence|]. cbn. inversion L; auto. }
      rewrite NC, Nat.eqb_refl. rewrite map_map. cbn [nth]. rewrite map_id.
      assert (P : pf rows (match past with [] => None | _ => Some (inv past) end) = Ok (inv (past ++ rows))).
      { destruct past as [|p past]; [apply pf_first; auto|]. apply pf_next; auto. discriminate. }
      rewrite P. cbn [rbind]. specialize (IH F2 (past ++ rows)).
      assert (NR : past ++ rows <> []) by (intros Z; apply app_eq_nil in Z; destruct Z; contradiction).
      destruct (past ++ rows) as [|q l] eqn:Q; [congruence|].
      rewrite IH. unfold pooled. cbn [flat_map]. unfold tens_of at 2. rewrite D. rewrite app_assoc, Q. reflexivity.
  Qed.
End Loop.

Lemma column_app j a b : column j (a ++ b) = column j a ++ column j b.
Proof. unfold column. apply map_app. Qed.
Lemma column_nil j rows : rows <> [] -> column j rows <> [].
Proof. destruct rows; [congruence|discriminate]. Qed.

(** *** Minimum and maximum *)
Lemma col_min_unique c v : In v c -> (forall y, In y c -> v <= y) -> col_min c = v.
Proof.
  intros I B. assert (N : c <> []) by (intros ->; contradiction). destruct (col_min_spec c N) as [A C].
  apply Rle_antisym; auto.
Qed.
Lemma col_max_unique c v : In v c -> (forall y, In y c -> y <= v) -> col_max c = v.
Proof.
  intros I B. assert (N : c <> []) by (intros ->; contradiction). destruct (col_max_spec c N) as [A C].
  apply Rle_antisym; auto.
Qed.
Lemma col_min_app a b : a <> [] -> b <> [] -> col_min (a ++ b) = Rmin (col_min a) (col_min b).
Proof.
  intros A B. destruct (col_min_spec a A) as [A1 A2]. destruct (col_min_spec b B) as [B1 B2].
  apply col_min_unique.
  - apply in_app_iff. unfold Rmin. destruct (Rle_dec _ _); auto.
  - intros y I. apply in_app_iff in I. destruct I as [I|I].
    + eapply Rle_trans; [apply Rmin_l|auto].
    + eapply Rle_trans; [apply Rmin_r|auto].
Qed.
Lemma col_max_app a b : a <> [] -> b <> [] -> col_max (a ++ b) = Rmax (col_max a) (col_max b).
Proof.
  intros A B. destruct (col_max_spec a A) as [A1 A2]. destruct (col_max_spec b B) as [B1 B2].
  apply col_max_unique.
  - apply in_app_iff. unfold Rmax. destruct (Rle_dec _ _); auto.
  - intros y I. apply in_app_iff in I. destruct I as [I|I].
    + eapply Rle_trans; [auto|apply Rmax_l].
    + eapply Rle_trans; [auto|apply Rmax_r].
Qed.
Definition mm_inv (n : nat) (rows : list (list R)) : list (R * R) :=
  map (fun j => (col_min (column j rows), col_max (column j rows))) (seq 0 n).
Lemma mm_next n rows past : rows <> [] -> past <> [] ->
  minmax_partial_fit n rows (Some (mm_inv n past)) = Ok (mm_inv n (past ++ rows)).
Proof.
  intros A B. unfold minmax_partial_fit. destruct rows as [|r rows]; [congruence|]. f_equal.
  apply map_ext_in. intros j I. apply in_seq in I. unfold mm_inv at 1 2. rewrite !nth_map_seq by lia. cbn [fst snd].
  rewrite column_app, col_min_app, col_max_app by (apply column_nil; auto). reflexivity.
Qed.
Lemma mm_first n rows : rows <> [] -> minmax_partial_fit n rows None = Ok (mm_inv n rows).
Proof. intros A. unfold minmax_partial_fit. destruct rows; [congruence|]. reflexivity. Qed.

(** *** Mean and variance *)
Definition sqsum (c : list R) : R := lsum (map (fun x => x * x) c).
Lemma centred_sum c k : lsum (map (fun v => v - k) c) = lsum c - INR (length c) * k.
Proof. induction c as [|x c IH]; [cbn; ring|]. cbn [map lsum length]. rewrite IH, S_INR. ring. Qed.
Lemma centred_square c k : lsum (map (fun v => (v - k) * (v - k)) c) = sqsum c - 2 * k * lsum c + INR (length c) * k * k.
Proof. unfold sqsum. induction c as [|x c IH]; [cbn; ring|]. cbn [map lsum length]. rewrite IH, S_INR. ring. Qed.
Lemma variance_sums c : c <> [] -> variance c = sqsum c / INR (length c) - mean c * mean c.
Proof.
  intros N. assert (P : INR (length c) <> 0) by (apply not_0_INR; destruct c; [congruence|discriminate]).
  unfold variance. rewrite centred_square. unfold mean. field. auto.
Qed.
Lemma sqsum_app a b : sqsum (a ++ b) = sqsum a + sqsum b.
Proof. unfold sqsum. rewrite map_app, lsum_app. reflexivity. Qed.
(** The incremental formulas give the statistics of all data seen. *)
Lemma incremental_first x : x <> [] -> incremental_mean_and_var x (0, 0, O) = (mean x, variance x, length x).
Proof.
  intros N. assert (P : INR (length x) <> 0) by (apply not_0_INR; destruct x; [congruence|discriminate]).
  unfold incremental_mean_and_var. cbn [Nat.eqb Nat.add].
  rewrite variance_sums by auto. rewrite centred_sum, centred_square. unfold mean. cbn [INR].
  f_equal. f_equal; field; auto.
Qed.
Lemma incremental_next a x : a <> [] -> x <> [] ->
  incremental_mean_and_var x (mean a, variance a, length a) = (mean (a ++ x), variance (a ++ x), length (a ++ x)).
Proof.
  intros A X. assert (PA : 0 < INR (length a)) by (apply lt_0_INR; destruct a; [congruence|cbn; lia]).
  assert (PX : 0 < INR (length x)) by (apply lt_0_INR; destruct x; [congruence|cbn; lia]).
  assert (NE : a ++ x <> []) by (intros Z; apply app_eq_nil in Z; destruct Z; contradiction).
  unfold incremental_mean_and_var. replace (Nat.eqb (length a) 0) with false by (destruct a; [congruence|reflexivity]).
  rewrite !variance_sums by auto. rewrite centred_sum, centred_square. unfold mean. rewrite app_length, lsum_app, sqsum_app, plus_INR.
  f_equal. f_equal; field; repeat split; lra.
Qed.
Definition ms_inv (n : nat) (rows : list (list R)) : list (R * R * nat) :=
  map (fun j => (mean (column j rows), variance (column j rows), length (column j rows))) (seq 0 n).
Lemma ms_first n rows : rows <> [] -> standard_partial_fit n rows None = Ok (ms_inv n rows).
Proof.
  intros A. unfold standard_partial_fit. destruct rows as [|r rows]; [congruence|]. f_equal. apply map_ext. intros j.
  apply incremental_first. discriminate.
Qed.
Lemma ms_next n rows past : rows <> [] -> past <> [] ->
  standard_partial_fit n rows (Some (ms_inv n past)) = Ok (ms_inv n (past ++ rows)).
Proof.
  intros A B. unfold standard_partial_fit. destruct rows as [|r rows]; [congruence|]. f_equal.
  apply map_ext_in. intros j I. apply in_seq in I. unfold ms_inv at 1. rewrite nth_map_seq by lia.
  rewrite incremental_next by (apply column_nil; auto). rewrite column_app. reflexivity.
Qed.

Lemma pooled_rows dataset f n : fit_data dataset f n -> Forall (fun r => length r = n) (pooled dataset f).
Proof.
  intros F. apply Forall_forall. intros r I. apply in_flat_map in I. destruct I as [s [I J]].
  unfold fit_data in F. rewrite Forall_forall in F. destruct (F s I) as [_ [rows [D [_ L]]]]. unfold tens_of in J. rewrite D in J.
  rewrite Forall_forall in L. auto.
Qed.
Lemma pooled_nonempty dataset f n : fit_data dataset f n -> dataset <> [] -> pooled dataset f <> [].
Proof.
  intros F N. destruct dataset as [|s rest]; [congruence|]. inversion F as [|? ? [_ [rows [D [NE _]]]] _]; subst.
  unfold pooled. cbn [flat_map]. unfold tens_of at 1. rewrite D. intros Z. apply app_eq_nil in Z. destruct Z. contradiction.
Qed.

(** The batch fits are the statistics of all data. *)
Theorem min_max_batch_fit_pooled : forall dataset f n, fit_data dataset f n -> dataset <> [] ->
  min_max_batch_fit dataset f n = Ok (map (fun j => col_min (column j (pooled dataset f))) (seq 0 n),
                                      map (fun j => col_max (column j (pooled dataset f))) (seq 0 n)).
Proof.
  intros dataset f n F N. unfold min_max_batch_fit. rewrite epoch_samples.
  rewrite (fit_loop_pooled _ (mm_inv n) (mm_first n) (mm_next n) f n dataset F []). cbn [app rbind].
  pose proof (pooled_nonempty _ _ _ F N) as NP. destruct (pooled dataset f) as [|r l] eqn:E; [congruence|].
  unfold mm_inv. rewrite !map_map. reflexivity.
Qed.
Theorem mean_std_batch_fit_pooled : forall dataset f n, fit_data dataset f n -> dataset <> [] ->
  mean_std_batch_fit dataset f n = Ok (map (fun j => mean (column j (pooled dataset f))) (seq 0 n),
                                       map (fun j => sqrt (variance (column j (pooled dataset f)))) (seq 0 n)).
Proof.
  intros dataset f n F N. unfold mean_std_batch_fit. rewrite epoch_samples.
  rewrite (fit_loop_pooled _ (ms_inv n) (ms_first n) (ms_next n) f n dataset F []). cbn [app rbind].
  pose proof (pooled_nonempty _ _ _ F N) as NP. destruct (pooled dataset f) as [|r l] eqn:E; [congruence|].
  unfold ms_inv. rewrite !map_map. reflexivity.
Qed.

(** Splitting or reordering the data set does not matter. *)
Lemma column_perm j a b : Permutation a b -> Permutation (column j a) (column j b).
Proof. apply Permutation_map. Qed.
Lemma col_min_perm a b : Permutation a b -> col_min a = col_min b.
Proof.
  intros P. destruct a as [|x a]; [apply Permutation_nil in P; subst; reflexivity|].
  assert (N : b <> []) by (intros ->; apply Permutation_sym, Permutation_nil in P; discriminate).
  destruct (col_min_spec b N) as [B1 B2]. apply col_min_unique.
  - apply (Permutation_in _ (Permutation_sym P)). auto.
  - intros y I. apply B2. apply (Permutation_in _ P). auto.
Qed.
Lemma col_max_perm a b : Permutation a b -> col_max a = col_max b.
Proof.
  intros P. destruct a as [|x a]; [apply Permutation_nil in P; subst; reflexivity|].
  assert (N : b <> []) by (intros ->; apply Permutation_sym, Permutation_nil in P; discriminate).
  destruct (col_max_spec b N) as [B1 B2]. apply col_max_unique.
  - apply (Permutation_in _ (Permutation_sym P)). auto.
  - intros y I. apply B2. apply (Permutation_in _ P). auto.
Qed.
Lemma mean_perm a b : Permutation a b -> mean a = mean b.
Proof. intros P. unfold mean. rewrite (lsum_perm _ _ P), (Permutation_length P). reflexivity. Qed.
Lemma variance_perm a b : Permutation a b -> variance a = variance b.
Proof.
  intros P. unfold variance. rewrite (mean_perm _ _ P), (Permutation_length P). f_equal. apply lsum_perm.
  apply Permutation_map. auto.
Qed.
Theorem batch_fit_same_data : forall d d' f n, fit_data d f n -> fit_data d' f n -> d <> [] -> d' <> [] ->
  Permutation (pooled d f) (pooled d' f) ->
  min_max_batch_fit d f n = min_max_batch_fit d' f n /\ mean_std_batch_fit d f n = mean_std_batch_fit d' f n.
Proof.
  intros d d' f n F F' N N' P. rewrite !min_max_batch_fit_pooled, !mean_std_batch_fit_pooled by auto.
  split; do 2 f_equal; apply map_ext; intros j; pose proof (column_perm j _ _ P) as Q.
  - apply col_min_perm; auto.
  - apply col_max_perm; auto.
  - apply mean_perm; auto.
  - rewrite (variance_perm _ _ Q). reflexivity.
Qed.

(** Fitting from a data set is fitting on one tensor with all its data. *)
Lemma col_std_variance c : col_std 0 c = sqrt (variance c).
Proof. unfold col_std, variance. rewrite Nat.sub_0_r. reflexivity. Qed.
Lemma set_minmax_check n mn mx s r : minmax_init n mn mx (mm_nmin s) (mm_nmax s) = Ok r -> mm_n r = n.
Proof.
  unfold minmax_init. destruct (Nat.eqb n 0); [discriminate|].
  destruct mn as [a|]; [unfold check_param; destruct (Nat.eqb (length a) n); [|discriminate]|]; cbn [rbind];
  (destruct mx as [b|]; [unfold check_param; destruct (Nat.eqb (length b) n); [|discriminate]|]); cbn [rbind];
  intros H; injection H as <-; reflexivity.
Qed.
Theorem fit_minmax_from_dataset : forall d f n p s, fit_data d f n -> d <> [] ->
  minmax_init n (p_min p) (p_max p) (p_nmin p) (p_nmax p) = Ok s ->
  fit_data_scaler_from_dataset d f n "min-max" p = rbind (minmax_fit s (Mat (pooled d f))) (fun s' => Ok (Mm s')).
Proof.
  intros d f n p s F N I. unfold fit_data_scaler_from_dataset. cbn [String.eqb Ascii.eqb Bool.eqb]. rewrite I. cbn [rbind].
  rewrite min_max_batch_fit_pooled by auto. cbn [rbind fst snd].
  assert (Hn : mm_n s = n).
  { apply (set_minmax_check n (p_min p) (p_max p) {| mm_n := n; mm_min := None; mm_max := None; mm_nmin := p_nmin p; mm_nmax := p_nmax p |}). exact I. }
  pose proof (pooled_rows _ _ _ F) as L. pose proof (pooled_nonempty _ _ _ F N) as NP.
  rewrite minmax_fit_ok.
  - unfold set_minimum_and_maximum, check_param. rewrite Hn, !map_length, seq_length, Nat.eqb_refl. reflexivity.
  - cbn. intros r J. rewrite Forall_forall in L. rewrite Hn. auto.
  - exact NP.
Qed.
Lemma standard_init_n n m d s : standard_init_with n m d = Ok s -> st_n s = n.
Proof.
  unfold standard_init_with. destruct (Nat.eqb n 0); [discriminate|].
  destruct m as [a|]; [unfold check_param; destruct (Nat.eqb (length a) n); [|discriminate]|]; cbn [rbind];
  (destruct d as [b|]; [unfold check_param; destruct (Nat.eqb (length b) n); [|discriminate]|]); cbn [rbind];
  intros H; injection H as <-; reflexivity.
Qed.
Theorem fit_standard_from_dataset : forall d f n p s, fit_data d f n -> d <> [] ->
  standard_init_with n (p_mean p) (p_std p) = Ok s ->
  fit_data_scaler_from_dataset d f n "mean-std" p = rbind (standard_fit s (Mat (pooled d f)) false) (fun s' => Ok (Std s')).
Proof.
  intros d f n p s F N I. unfold fit_data_scaler_from_dataset. cbn [String.eqb Ascii.eqb Bool.eqb]. rewrite I. cbn [rbind].
  rewrite mean_std_batch_fit_pooled by auto. cbn [rbind fst snd].
  pose proof (standard_init_n _ _ _ _ I) as Hn.
  pose proof (pooled_rows _ _ _ F) as L. pose proof (pooled_nonempty _ _ _ F N) as NP.
  rewrite standard_fit_ok.
  - unfold set_mean_and_std, check_param. rewrite Hn, !map_length, seq_length, Nat.eqb_refl. cbn [rbind].
    do 3 f_equal. f_equal. apply map_ext. intros j. rewrite col_std_variance. reflexivity.
  - cbn. intros r J. rewrite Forall_forall in L. rewrite Hn. auto.
  - cbn [samples]. destruct (pooled d f); [congruence|]. cbn. lia.
Qed.
(** The data set becomes normalised: zero mean and unit variance ... *)
Theorem fit_standard_normalises : forall d f n p s, fit_data d f n -> d <> [] ->
  standard_init_with n (p_mean p) (p_std p) = Ok s ->
  (forall j, (j < n)%nat -> exists x y, In x (column j (pooled d f)) /\ In y (column j (pooled d f)) /\ x <> y) ->
  exists s' y, fit_data_scaler_from_dataset d f n "mean-std" p = Ok (Std s')
    /\ standard_transform s' (Mat (pooled d f)) = Ok (defined y)
    /\ forall j, (j < n)%nat -> mean (feature j y) = 0 /\ variance (feature j y) = 1.
Proof.
  intros d f n p s F N I C. rewrite (fit_standard_from_dataset d f n p s) by auto.
  pose proof (standard_init_n _ _ _ _ I) as Hn.
  pose proof (pooled_rows _ _ _ F) as L. pose proof (pooled_nonempty _ _ _ F N) as NP. rewrite Forall_forall in L.
  destruct (standard_fit_normalises s (Mat (pooled d f)) false) as [s' [y [E [T Q]]]].
  - cbn. intros r J. rewrite Hn. auto.
  - cbn [samples]. destruct (pooled d f); [congruence|]. cbn. lia.
  - rewrite Hn. exact C.
  - exists s', y. rewrite E. repeat split; [exact T| |]; rewrite <- Hn in *; destruct (Q j H) as [Q1 Q2]; auto.
    rewrite Q2. cbn [samples]. rewrite Nat.sub_0_r. field. apply not_0_INR. destruct (pooled d f); [congruence|discriminate].
Qed.
(** ... or within the bounds, reaching both. *)
Theorem fit_minmax_normalises : forall d f n p s, fit_data d f n -> d <> [] -> p_nmin p < p_nmax p ->
  minmax_init n (p_min p) (p_max p) (p_nmin p) (p_nmax p) = Ok s ->
  (forall j, (j < n)%nat -> exists x y, In x (column j (pooled d f)) /\ In y (column j (pooled d f)) /\ x <> y) ->
  exists s' y, fit_data_scaler_from_dataset d f n "min-max" p = Ok (Mm s')
    /\ minmax_transform s' (Mat (pooled d f)) = Ok (defined y)
    /\ forall j, (j < n)%nat -> (forall v, In v (feature j y) -> p_nmin p <= v <= p_nmax p)
         /\ In (p_nmin p) (feature j y) /\ In (p_nmax p) (feature j y).
Proof.
  intros d f n p s F N B I C. rewrite (fit_minmax_from_dataset d f n p s) by auto.
  assert (Hn : mm_n s = n /\ mm_nmin s = p_nmin p /\ mm_nmax s = p_nmax p).
  { revert I. unfold minmax_init. destruct (Nat.eqb n 0); [discriminate|].
    destruct (p_min p) as [a|]; [unfold check_param; destruct (Nat.eqb (length a) n); [|discriminate]|]; cbn [rbind];
    (destruct (p_max p) as [b|]; [unfold check_param; destruct (Nat.eqb (length b) n); [|discriminate]|]); cbn [rbind];
    intros H; injection H as <-; auto. }
  destruct Hn as [Hn [H1 H2]].
  pose proof (pooled_rows _ _ _ F) as L. pose proof (pooled_nonempty _ _ _ F N) as NP. rewrite Forall_forall in L.
  destruct (minmax_fit_range s (Mat (pooled d f))) as [s' [y [E [T [_ Q]]]]].
  - cbn. intros r J. rewrite Hn. auto.
  - exact NP.
  - rewrite H1, H2. exact B.
  - rewrite Hn. exact C.
  - exists s', y. rewrite E. split; [reflexivity|]. split; [exact T|]. rewrite Hn, H1, H2 in Q. exact Q.
Qed.
(** Errors. *)
Theorem batch_fit_empty : forall f n, min_max_batch_fit [] f n = Err AttributeError /\ mean_std_batch_fit [] f n = Err AttributeError.
Proof. split; reflexivity. Qed.
Theorem batch_fit_missing_feature : forall d1 s d2 f n, fit_data d1 f n -> NoDup (map fst s) ->
  (forall rows, dget s f <> Some (Tens rows)) ->
  min_max_batch_fit (d1 ++ s :: d2) f n = Err RuntimeError /\ mean_std_batch_fit (d1 ++ s :: d2) f n = Err RuntimeError.
Proof.
  intros d1 s d2 f n F NS D. destruct (collate_one_absent s f NS D) as [r [C E]].
  enough (G : forall S (pf : list (list R) -> option S -> res S) inv,
    (forall rows, rows <> [] -> pf rows None = Ok (inv rows)) ->
    (forall rows past, rows <> [] -> past <> [] -> pf rows (Some (inv past)) = Ok (inv (past ++ rows))) ->
    fit_loop pf f n (epoch (d1 ++ s :: d2)) None = Err RuntimeError).
  { unfold min_max_batch_fit, mean_std_batch_fit.
    rewrite (G _ _ (mm_inv n) (mm_first n) (mm_next n)), (G _ _ (ms_inv n) (ms_first n) (ms_next n)). split; reflexivity. }
  intros S pf inv P1 P2. rewrite epoch_samples, map_app. cbn [map].
  enough (A : forall a b st, fit_loop pf f n (a ++ b) st = rbind (fit_loop pf f n a st) (fit_loop pf f n b)).
  { rewrite A. rewrite (fit_loop_pooled pf inv P1 P2 f n d1 F []). cbn [rbind fit_loop].
    match goal with |- rbind ?t _ = _ => replace t with (Ok r) by (symmetry; exact C) end. cbn [rbind].
    rewrite E. reflexivity. }
  intros a b. induction a as [|x a IH]; intros st; cbn [app fit_loop rbind]; [reflexivity|].
  destruct x as [smp|e]; cbn [rbind]; [|reflexivity]. destruct (dget smp f) as [t|]; [|reflexivity].
  destruct (Nat.eqb _ n); [|reflexivity]. destruct (pf _ st) as [st'|]; cbn [rbind]; [apply IH|reflexivity].
Qed.
Theorem fit_unknown_type : forall d f n ty p, ty <> "mean-std"%string -> ty <> "min-max"%string ->
  fit_data_scaler_from_dataset d f n ty p = Err RuntimeError.
Proof.
  intros d f n ty p A B. unfold fit_data_scaler_from_dataset.
  rewrite (proj2 (String.eqb_neq _ _) A), (proj2 (String.eqb_neq _ _) B). reflexivity.
Qed.

(** ** Concrete cases *)
Definition s1 : sample := [("x"%string, Tens [[1; 2]; [3; 4]]); ("name"%string, NotTens)].
Definition s2 : sample := [("x"%string, Tens [[5; 6]; [7; 8]])].
Example collate_case : exists r, time_collator [s1; s2] = Ok r
  /\ dget r "x" = Some [[[1; 2]; [5; 6]]; [[3; 4]; [7; 8]]] /\ dget r "name" = None.
Proof. eexists. split; [reflexivity|]. split; reflexivity. Qed.
Example fit_case : mean_std_batch_fit [s1; s2] "x" 2 = Ok ([4; 5], [sqrt 5; sqrt 5]).
Proof.
  rewrite mean_std_batch_fit_pooled.
  - unfold pooled, tens_of, column, variance, mean. cbn [s1 s2 flat_map dget gget String.eqb Ascii.eqb Bool.eqb app map seq nth lsum length].
    simpl. f_equal. f_equal; [f_equal; [field|f_equal; field]|].
    f_equal; [f_equal; field|f_equal; f_equal; field].
  - unfold fit_data. repeat constructor; try (intros [I|[]]; discriminate); try (intros []);
      eexists; (split; [reflexivity|]); (split; [discriminate|]); repeat constructor.
  - discriminate.
Qed.

Print Assumptions collate_entries.
Print Assumptions loader_epoch.
Print Assumptions fit_standard_normalises.
Print Assumptions fit_minmax_normalises.
