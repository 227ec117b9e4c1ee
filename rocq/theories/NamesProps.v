(** C41: fresh directory and file names. *)
From Coq Require Import String Ascii List Bool Arith Lia.
From Verif Require Import Lib PyStr NamesModel.
Import ListNotations.
Local Open Scope string_scope.

Lemma mem_in p l : mem p l = true <-> In p l.
Proof.
  unfold mem. rewrite existsb_exists. split.
  - intros (x & I & E). apply String.eqb_eq in E. subst; auto.
  - intros I. exists p. split; auto. apply String.eqb_refl.
Qed.
Lemma mem_notin p l : mem p l = false <-> ~ In p l.
Proof. rewrite <- mem_in. destruct (mem p l); split; congruence. Qed.

(** The first free name among [n0, name 1, name 2, ...]. *)
Definition first_free (taken : string -> bool) (n0 : string) (name : nat -> string) (r : string) : Prop :=
  taken r = false /\ ((r = n0) \/ (taken n0 = true /\ exists i, 1 <= i /\ r = name i /\ forall j, 1 <= j < i -> taken (name j) = true)).

Lemma search_some taken name fuel : forall new i r, search taken name fuel new i = Some r ->
  taken r = false /\ (r = new \/ (taken new = true /\ exists j, i <= j /\ r = name j /\ forall k, i <= k < j -> taken (name k) = true)).
Proof.
  induction fuel as [|n IH]; intros new i r; cbn [search]; destruct (taken new) eqn:T; try discriminate;
    try (intros E; injection E as <-; auto).
  intros E. destruct (IH _ _ _ E) as (F & H). split; auto. right. split; auto. destruct H as [->|(Ti & j & L & -> & A)].
  - exists i. split; [lia|]. split; auto. intros k K. lia.
  - exists j. split; [lia|]. split; auto. intros k K. destruct (Nat.eq_dec k i) as [->|N]; auto. apply A. lia.
Qed.
Lemma search_none taken name fuel : forall new i, search taken name fuel new i = None ->
  taken new = true /\ forall j, i <= j < i + fuel -> taken (name j) = true.
Proof.
  induction fuel as [|n IH]; intros new i; cbn [search]; destruct (taken new) eqn:T; try discriminate.
  - intros _. split; auto. intros j. lia.
  - intros E. destruct (IH _ _ E) as (Ti & A). split; auto. intros j J.
    destruct (Nat.eq_dec j i) as [->|N]; auto. apply A. lia.
Qed.
(** The bound on the iterations is never reached. *)
Lemma search_total (l : list string) name n0 :
  (forall i j, name i = name j -> i = j) -> (forall i, name i <> n0) ->
  exists r, search (fun p => mem p l) name (S (length l)) n0 1 = Some r.
Proof.
  intros Inj N0. destruct (search _ name (S (length l)) n0 1) as [r|] eqn:E; eauto. exfalso.
  destruct (search_none _ _ _ _ _ E) as (_ & A).
  assert (ND : NoDup (map name (seq 1 (S (length l))))).
  { apply FinFun.Injective_map_NoDup; [exact Inj|apply seq_NoDup]. }
  assert (I : incl (map name (seq 1 (S (length l)))) l).
  { intros x Hx. apply in_map_iff in Hx as (j & <- & Hj). apply in_seq in Hj. apply mem_in. apply A. lia. }
  pose proof (NoDup_incl_length ND I) as L. rewrite map_length, seq_length in L. lia.
Qed.

Lemma append_len a b : String.length (a ++ b) = String.length a + String.length b.
Proof. induction a; cbn; auto. Qed.
Lemma app_inj_r a b c : (a ++ c = b ++ c)%string -> a = b.
Proof.
  revert b. induction a as [|x a IH]; intros [|y b] E; auto; cbn in E.
  - apply (f_equal String.length) in E. cbn in E. rewrite append_len in E. lia.
  - apply (f_equal String.length) in E. cbn in E. rewrite append_len in E. lia.
  - injection E as -> E. f_equal. auto.
Qed.

Lemma makedirs_ok f p f' : makedirs f p = (f', Ok tt) ->
  ~ In p (dirs f) /\ ~ In p (files f) /\ In p (dirs f') /\ incl (dirs f) (dirs f') /\ files f' = files f /\
  (forall q, In q (dirs f') -> In q (dirs f) \/ q = p \/ In q (ancestors p)).
Proof.
  unfold makedirs, path_exists, isdir, isfile.
  destruct (mem p (dirs f)) eqn:D; cbn [orb]; [discriminate|]. destruct (mem p (files f)) eqn:F; [discriminate|].
  intros E. injection E as <-. apply mem_notin in D, F. cbn [dirs files].
  split; [auto|]. split; [auto|]. split; [rewrite !in_app_iff; cbn; auto|].
  split; [intros q I; rewrite in_app_iff; auto|]. split; [auto|]. intros q. rewrite !in_app_iff. cbn.
  intros [I|[I|[I|[]]]]; auto. apply filter_In in I as (I & _). auto.
Qed.
Lemma makedirs_err f p f' e : makedirs f p = (f', Err e) -> f' = f /\ e = FileExistsError /\ (In p (dirs f) \/ In p (files f)).
Proof.
  unfold makedirs, path_exists, isdir, isfile. destruct (mem p (dirs f)) eqn:D; cbn [orb].
  - intros E; injection E as <- <-. apply mem_in in D. auto.
  - destruct (mem p (files f)) eqn:F; [|discriminate]. intros E; injection E as <- <-. apply mem_in in F. auto.
Qed.

(** Without overwrite: whatever the file system contains, every existing
    directory and file is kept, and on success the returned directory did not
    exist and now does; it is the requested one when that is free, otherwise
    the first free one of the numbered names. The only failure is a regular
    file bearing the chosen name, and it changes nothing. *)
Theorem make_directory_fresh f d f' r : make_directory f d false = (f', r) ->
  incl (dirs f) (dirs f') /\ files f' = files f /\
  match r with
  | Ok d' => ~ In d' (dirs f) /\ ~ In d' (files f) /\ In d' (dirs f') /\
             first_free (isdir f) d (fun i => d ++ "_" ++ nat_str i) d'
  | Err e => f' = f /\ e = FileExistsError /\
             exists d', In d' (files f) /\ first_free (isdir f) d (fun i => d ++ "_" ++ nat_str i) d'
  end.
Proof.
  unfold make_directory. intros E.
  assert (G : forall d', first_free (isdir f) d (fun i => d ++ "_" ++ nat_str i) d' ->
    (let '(f2, r) := makedirs f d' in (f2, rbind r (fun _ => Ok d'))) = (f', r) ->
    incl (dirs f) (dirs f') /\ files f' = files f /\
    match r with
    | Ok d' => ~ In d' (dirs f) /\ ~ In d' (files f) /\ In d' (dirs f') /\ first_free (isdir f) d (fun i => d ++ "_" ++ nat_str i) d'
    | Err e => f' = f /\ e = FileExistsError /\ exists d', In d' (files f) /\ first_free (isdir f) d (fun i => d ++ "_" ++ nat_str i) d'
    end).
  { clear E. intros d' FF E. destruct (makedirs f d') as [f2 [[]|e]] eqn:M; cbn [rbind] in E; injection E as <- <-.
    - destruct (makedirs_ok _ _ _ M) as (A & B & C & D & F & _). auto 8.
    - destruct (makedirs_err _ _ _ _ M) as (-> & -> & [I|I]).
      + destruct FF as (T & _). apply mem_notin in T. tauto.
      + split; [apply incl_refl|]. split; auto. split; auto. split; auto. eauto. }
  destruct (isdir f d) eqn:T.
  - destruct (search_total (dirs f) (fun i => d ++ "_" ++ nat_str i) d) as (d' & S).
    { intros i j Q. apply app_inj_s, app_inj_s in Q. apply nat_str_inj; auto. }
    { intros i Q. apply (f_equal String.length) in Q. rewrite !append_len in Q. cbn in Q. lia. }
    change (fun p => mem p (dirs f)) with (isdir f) in S. rewrite S in E.
    apply (G d'); auto. destruct (search_some _ _ _ _ _ _ S) as (F & [->|(A & j & L & -> & B)]); [split; auto|].
    split; auto. right. split; auto. exists j. auto.
  - apply (G d); auto. split; auto.
Qed.

(** With overwrite: exactly the requested directory is returned, empty;
    nothing outside it is removed. *)
Lemma below_refl p : below p p = true.
Proof. unfold below. rewrite String.eqb_refl. auto. Qed.
Theorem make_directory_overwrite f d f' : In d (dirs f) -> ~ In d (files f) -> make_directory f d true = (f', Ok d) ->
  In d (dirs f') /\
  (forall q, In q (files f') <-> In q (files f) /\ below d q = false) /\
  (forall q, q <> d -> ~ In q (ancestors d) -> (In q (dirs f') <-> In q (dirs f) /\ below d q = false)).
Proof.
  intros Hd Hf. unfold make_directory. unfold isdir at 1. rewrite (proj2 (mem_in d (dirs f)) Hd).
  destruct (makedirs (rmtree f d) d) as [f2 [[]|e]] eqn:M; cbn [rbind]; intros E; [|discriminate].
  injection E as <-. destruct (makedirs_ok _ _ _ M) as (A & B & C & D & F & G).
  split; [auto|]. split.
  - intros q. rewrite F. cbn. rewrite filter_In, negb_true_iff. tauto.
  - intros q N NA. split.
    + intros I. destruct (G q I) as [I'|[I'|I']]; [|congruence|tauto]. cbn in I'. rewrite filter_In, negb_true_iff in I'. auto.
    + intros (I & Bq). apply D. cbn. rewrite filter_In, negb_true_iff. auto.
Qed.
(** ... and it always succeeds on an existing directory. *)
Theorem make_directory_overwrite_succeeds f d : In d (dirs f) -> exists f', make_directory f d true = (f', Ok d).
Proof.
  intros Hd. unfold make_directory. unfold isdir at 1. rewrite (proj2 (mem_in d (dirs f)) Hd).
  destruct (makedirs (rmtree f d) d) as [f2 [[]|e]] eqn:M; cbn [rbind]; [eauto|].
  exfalso. destruct (makedirs_err _ _ _ _ M) as (_ & _ & [I|I]); cbn in I; rewrite filter_In, below_refl in I;
    destruct I as (_ & I); discriminate.
Qed.

(** splitext is a split *)
Lemma splitext_concat b s : (fst (splitext_from b s) ++ snd (splitext_from b s))%string = s.
Proof.
  revert b. induction s as [|c s IH]; intros b; cbn; auto.
  destruct (Ascii.eqb c "/"); [destruct (splitext_from false s) eqn:E; cbn; f_equal; specialize (IH false); rewrite E in IH; auto|].
  destruct (Ascii.eqb c ".").
  - destruct (b && negb (has_char "." s) && negb (has_slash s)); cbn; auto.
    destruct (splitext_from b s) eqn:E; cbn; f_equal; specialize (IH b); rewrite E in IH; auto.
  - destruct (splitext_from true s) eqn:E; cbn; f_equal; specialize (IH true); rewrite E in IH; auto.
Qed.

(** The new path is not a regular file, is the requested one when that is
    free, and otherwise is the first free numbered name with the same
    extension; the search always ends. *)
Theorem new_file_path_fresh f p : exists r, new_file_path_with_int f p = Some r /\ ~ In r (files f) /\
  (~ In p (files f) -> r = p) /\
  (exists root ext, p = root ++ ext /\ first_free (isfile f) p (fun i => root ++ "_" ++ nat_str i ++ ext) r).
Proof.
  unfold new_file_path_with_int. pose proof (splitext_concat false p) as SC. fold (splitext p) in SC.
  destruct (splitext p) as [root ext]. cbn [fst snd] in SC.
  destruct (search_total (files f) (fun i => root ++ "_" ++ nat_str i ++ ext) p) as (r & S).
  { intros i j Q. apply app_inj_s, app_inj_s, app_inj_r in Q. apply nat_str_inj; auto. }
  { intros i Q. rewrite <- SC in Q. apply (f_equal String.length) in Q. rewrite !append_len in Q. cbn in Q. lia. }
  change (fun q => mem q (files f)) with (isfile f) in S. exists r. split; [auto|].
  destruct (search_some _ _ _ _ _ _ S) as (F & H). split; [apply mem_notin; auto|]. split.
  - intros N. destruct H as [->|(T & _)]; auto. apply mem_in in T. tauto.
  - exists root, ext. split; auto. split; [exact F|exact H].
Qed.

(** The path may nevertheless exist: as a directory. *)
Theorem new_file_path_is_directory_refuted : exists f p r, new_file_path_with_int f p = Some r /\ In r (dirs f).
Proof.
  exists (mkFs ["/a"; "/a/x_1.txt"] ["/a/x.txt"]), "/a/x.txt", "/a/x_1.txt". split; [vm_compute; reflexivity|cbn; auto].
Qed.
(** Creating a directory fails although free numbered names exist, when the
    first of them is a regular file. *)
Theorem make_directory_fails_refuted : exists f d, ~ In d (files f) /\ In d (dirs f) /\ make_directory f d false = (f, Err FileExistsError).
Proof.
  exists (mkFs ["/a"] ["/a_1"]), "/a". split; [cbn; intros [H|[]]; discriminate|]. split; [cbn; auto|]. vm_compute. reflexivity.
Qed.

(** Prediction subdirectories: the first free number. *)
Lemma after_last_app a b : has_char "_" b = false -> after_last "_" (a ++ String "_" b) = b.
Proof.
  intros H. induction a as [|x a IH]; cbn [append after_last]; [rewrite H; auto|].
  rewrite has_char_app. cbn [has_char]. rewrite (proj2 (Ascii.eqb_eq "_" "_") eq_refl). cbn [orb].
  rewrite orb_true_r. cbn [negb]. rewrite andb_false_r. auto.
Qed.
Definition predict_name (d : string) (k : nat) : string := join d ("prediction_set_" ++ nat_str k).
Lemma predict_number d k : int_of (after_last "_" (predict_name d k)) = Ok k.
Proof.
  unfold predict_name, join. replace (d ++ "/" ++ "prediction_set_" ++ nat_str k) with ((d ++ "/prediction_set") ++ String "_" (nat_str k)).
  - rewrite after_last_app; [apply int_of_nat_str|]. apply digits_no_char; [reflexivity|apply nat_str_digits].
  - rewrite <- app_assoc_s. reflexivity.
Qed.
Lemma predict_search_ok f d fuel : forall k,
  (exists j, k <= j <= k + fuel /\ path_exists f (predict_name d j) = false) ->
  exists j, predict_search f d fuel (predict_name d k) = Ok (predict_name d j) /\ path_exists f (predict_name d j) = false /\
    k <= j /\ forall i, k <= i < j -> path_exists f (predict_name d i) = true.
Proof.
  induction fuel as [|n IH]; intros k (j & J & F); cbn [predict_search].
  - replace j with k in F by lia. rewrite F. exists k. split; [auto|]. split; [auto|]. split; [lia|]. intros i; lia.
  - destruct (path_exists f (predict_name d k)) eqn:P.
    + rewrite predict_number. cbn [rbind]. fold (predict_name d (k + 1)). rewrite Nat.add_1_r.
      destruct (IH (S k)) as (j' & E & F' & L & A).
      { exists j. split; auto. assert (j <> k) by congruence. lia. }
      exists j'. split; [auto|]. split; [auto|]. split; [lia|]. intros i I. destruct (Nat.eq_dec i k) as [->|]; auto. apply A. lia.
    + exists k. split; [auto|]. split; [auto|]. split; [lia|]. intros i; lia.
Qed.
Theorem predictions_subdir_fresh f d : path_exists f d = true -> exists f' k,
  make_predictions_subdir f d = (f', Ok (predict_name d k)) /\
  ~ In (predict_name d k) (dirs f) /\ ~ In (predict_name d k) (files f) /\ In (predict_name d k) (dirs f') /\
  (forall i, i < k -> In (predict_name d i) (dirs f) \/ In (predict_name d i) (files f)) /\
  incl (dirs f) (dirs f') /\ files f' = files f.
Proof.
  intros H. unfold make_predictions_subdir. rewrite H.
  set (n := S (length (dirs f) + length (files f))).
  assert (X : exists j, 0 <= j <= 0 + n /\ path_exists f (predict_name d j) = false).
  { destruct (existsb (fun j => negb (path_exists f (predict_name d j))) (seq 0 n)) eqn:E.
    - apply existsb_exists in E as (j & J & F). apply in_seq in J. apply negb_true_iff in F. exists j. split; [lia|auto].
    - exfalso. assert (A : forall j, j < n -> path_exists f (predict_name d j) = true).
      { intros j J. destruct (path_exists f (predict_name d j)) eqn:Q; auto. rewrite <- E. apply existsb_exists.
        exists j. split; [apply in_seq; lia|]. rewrite Q. auto. }
      assert (ND : NoDup (map (predict_name d) (seq 0 n))).
      { apply FinFun.Injective_map_NoDup; [|apply seq_NoDup]. intros a b Q. unfold predict_name, join in Q.
        apply app_inj_s, app_inj_s, app_inj_s in Q. apply nat_str_inj; auto. }
      assert (I : incl (map (predict_name d) (seq 0 n)) (dirs f ++ files f)%list).
      { intros x Hx. apply in_map_iff in Hx as (j & <- & J). apply in_seq in J. specialize (A j ltac:(lia)).
        unfold path_exists, isdir, isfile in A. apply orb_true_iff in A. rewrite !mem_in in A. apply in_app_iff. auto. }
      pose proof (NoDup_incl_length ND I) as L. rewrite map_length, seq_length, app_length in L. unfold n in L. lia. }
  change (join d "prediction_set_0") with (predict_name d 0).
  destruct (predict_search_ok f d n 0 X) as (k & E & F & _ & A). rewrite E.
  unfold path_exists, isdir, isfile in F. apply orb_false_iff in F as (F1 & F2).
  unfold make_directory, isdir. rewrite F1.
  destruct (makedirs f (predict_name d k)) as [f2 [[]|e]] eqn:M; cbn [rbind].
  - destruct (makedirs_ok _ _ _ M) as (B1 & B2 & B3 & B4 & B5 & _). exists f2, k. split; [auto|]. split; [auto|]. split; [auto|].
    split; [auto|]. split; [|auto]. intros i I. specialize (A i ltac:(lia)). unfold path_exists, isdir, isfile in A.
    apply orb_true_iff in A. rewrite !mem_in in A. auto.
  - destruct (makedirs_err _ _ _ _ M) as (_ & _ & [I|I]); apply mem_notin in F1, F2; tauto.
Qed.

Example names_case :
  let f := mkFs ["/a"; "/a/b"; "/a/b_1"; "/a/b_2"; "/a/b_3"] ["/a/r.tar.gz"; "/a/r.tar_1.gz"; "/a/.bashrc"] in
  snd (make_directory f "/a/b" false) = Ok "/a/b_4" /\
  snd (make_directory f "/a/c/d" false) = Ok "/a/c/d" /\
  In "/a/c" (dirs (fst (make_directory f "/a/c/d" false))) /\
  new_file_path_with_int f "/a/r.tar.gz" = Some "/a/r.tar_2.gz" /\
  new_file_path_with_int f "/a/.bashrc" = Some "/a/.bashrc_1" /\
  snd (make_predictions_subdir f "/a") = Ok "/a/prediction_set_0".
Proof. vm_compute. repeat split; auto 10. Qed.

Print Assumptions make_directory_fresh.
Print Assumptions new_file_path_fresh.
Print Assumptions predictions_subdir_fresh.
