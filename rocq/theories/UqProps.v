(** Uncertainty quantification: theorems. *)
From Coq Require Import Reals String Ascii List Bool Arith ZArith Lia Permutation Sorted.
Import ListNotations.
From Verif Require Import Lib PyStr PyDict TextLines LinksFileProps HistoryModel HistoryProps UqModel.
Local Open Scope list_scope.

(** ** Summary *)
Lemma last_words a s : words s = [s] -> last (words (a ++ String " " s)%string) EmptyString = s.
Proof. intros H. rewrite words_space, H. apply last_last. Qed.
Lemma loss_line_found s : has_text loss_key (quote ++ loss_key ++ quote ++ ":  " ++ s)%string = true.
Proof. reflexivity. Qed.
Section Summary.
  Variable fmt : R -> string.
  Variable pf : string -> res R.
  Lemma read_skip pre l : forallb (fun x => negb (has_text loss_key x)) pre = true -> read_loss pf (pre ++ l) = read_loss pf l.
  Proof.
    induction pre as [|x pre IH]; cbn [forallb app]; auto. intros H. apply andb_true_iff in H as [H1 H2].
    cbn [read_loss]. apply negb_true_iff in H1. rewrite H1. auto.
  Qed.
  Lemma read_summary before after_ loss : forallb (fun x => negb (has_text loss_key x)) (flat_map summary_entry before) = true ->
    words (loss_text fmt loss) = [loss_text fmt loss] ->
    read_loss pf (prediction_summary fmt before after_ loss) = pf (loss_text fmt loss).
  Proof.
    intros H W. unfold prediction_summary, summary_lines. rewrite flat_map_app.
    change ("Summary: Model prediction"%string :: dashes (String.length "Summary: Model prediction") ::
      flat_map summary_entry before ++ flat_map summary_entry ((loss_key, SText (loss_text fmt loss)) :: after_))
      with (["Summary: Model prediction"%string; dashes (String.length "Summary: Model prediction")] ++
      (flat_map summary_entry before ++ flat_map summary_entry ((loss_key, SText (loss_text fmt loss)) :: after_))).
    rewrite read_skip by reflexivity. rewrite read_skip by exact H.
    cbn [flat_map summary_entry snd fst app]. cbn [read_loss].
    change (has_text loss_key EmptyString) with false. rewrite loss_line_found.
    change (quote ++ loss_key ++ quote ++ ":  " ++ loss_text fmt loss)%string
      with ((quote ++ loss_key ++ quote ++ ": ") ++ String " " (loss_text fmt loss))%string.
    now rewrite last_words.
  Qed.
  (** The average loss of a prediction, unless it is zero, is read back from its
      summary whatever else the summary says before. *)
  Theorem loss_read_back rnd before after_ x : (forall y, pf (fmt y) = Ok (rnd y)) -> (forall y, words (fmt y) = [fmt y]) ->
    forallb (fun l => negb (has_text loss_key l)) (flat_map summary_entry before) = true -> x <> 0%R ->
    read_loss pf (prediction_summary fmt before after_ (Some x)) = Ok (rnd x).
  Proof.
    intros P W H N. rewrite read_summary; auto; unfold loss_text; destruct (Req_EM_T x 0); try contradiction; auto.
  Qed.
  (** A loss of zero is written as an unknown one, and reading it fails with the
      error of float() instead of the documented one. *)
  Theorem zero_loss_refuted before after_ : pf "None"%string = Err ValueError ->
    forallb (fun l => negb (has_text loss_key l)) (flat_map summary_entry before) = true ->
    prediction_summary fmt before after_ (Some 0%R) = prediction_summary fmt before after_ None /\
    read_loss pf (prediction_summary fmt before after_ (Some 0%R)) = Err ValueError.
  Proof.
    intros P H. assert (E : loss_text fmt (Some 0%R) = "None"%string) by (unfold loss_text; destruct (Req_EM_T 0 0); congruence).
    split; [unfold prediction_summary; now rewrite E|]. rewrite read_summary; auto; rewrite E; auto.
  Qed.
  (** A file without the entry is refused. *)
  Theorem no_loss_refused lines : forallb (fun l => negb (has_text loss_key l)) lines = true -> read_loss pf lines = Err RuntimeError.
  Proof. intros H. rewrite <- (app_nil_r lines), read_skip; auto. Qed.
End Summary.

(** ** Realisations *)
(** Names that start as model_ and a digit. *)
Definition numbered (name : string) : Prop := exists c rest, name = ("model_" ++ String c rest)%string /\ is_digit c = true.
Lemma realisation_iff name : is_realisation name = true <-> numbered name.
Proof.
  unfold is_realisation, numbered. split.
  - destruct (after "model_" name) as [[|c rest]|] eqn:E; try discriminate. intros D. apply after_inv in E. eauto.
  - intros (c & rest & -> & D). now rewrite after_app.
Qed.
Lemma is_realisation_name i : is_realisation ("model_" ++ nat_str i)%string = true.
Proof.
  unfold is_realisation. assert (E : after "model_" ("model_" ++ nat_str i)%string = Some (nat_str i)).
  { cbn [append after Ascii.eqb]. destruct (nat_str i); reflexivity. }
  rewrite E. pose proof (nat_str_nonempty i) as N. pose proof (nat_str_digits i) as D.
  destruct (nat_str i) as [|c s]; [congruence|]. cbn [all_digits] in D. now apply andb_true_iff in D.
Qed.
Section Plots.
  Context {S : Type}.
  Variable loss_of : S -> res R.
  (** The directories of a study, in the order of their numbers whatever the
      order of the listing and the other files. *)
  Theorem realisations_in_order dir (samples : list (nat * S)) others listing : samples <> [] ->
    StronglySorted lt (map fst samples) -> (forall f, In f others -> ~ numbered (fst f)) ->
    Permutation listing (map (fun s => (("model_" ++ nat_str (fst s))%string, snd s)) samples ++ others) ->
    realisations dir listing = Ok (map snd samples).
  Proof.
    intros NE SO HO P. unfold realisations.
    assert (P2 : Permutation (map (fun f => (in_dir dir (fst f), snd f)) (filter (fun f => is_realisation (fst f)) listing))
                 (map (fun f => (in_dir dir (fst f), snd f)) (step_files "model" "" samples))).
    { apply Permutation_map. etransitivity; [apply perm_filter, P|]. rewrite filter_files; [| |intros f Hf; apply not_true_is_false; rewrite realisation_iff; now apply HO].
      - unfold step_files. apply Permutation_refl'. apply map_ext. intros s. f_equal.
        assert (A0 : forall x, (x ++ "")%string = x) by (induction x as [|c x IH]; cbn [append]; [reflexivity|now rewrite IH]).
        cbn [append]. now rewrite A0.
      - intros x Hx. apply in_map_iff in Hx as (s & <- & _). apply is_realisation_name. }
    pose proof (in_dir_sorted dir "model" "" samples eq_refl SO _ P2) as E.
    set (L := map _ (filter _ listing)) in *. destruct L as [|a l] eqn:EL; [|exact E].
    apply Permutation_nil in P2. destruct samples; [congruence|discriminate].
  Qed.
  Lemma rmap_at {A} (l : list A) : forall n, (n <= length l)%nat -> rmap (at_index l) (seq 0 n) = Ok (firstn n l).
  Proof.
    assert (G : forall n a, (a + n <= length l)%nat -> rmap (at_index l) (seq a n) = Ok (firstn n (skipn a l))).
    { induction n as [|n IH]; intros a H; cbn [seq rmap]; [reflexivity|]. unfold at_index at 1.
      destruct (nth_error l a) as [x|] eqn:E; [|apply nth_error_None in E; lia]. cbn [rbind]. rewrite IH by lia. cbn [rbind].
      f_equal. clear IH. revert a H E. clear. revert l.
      induction l as [|y l IH]; intros a H E; [destruct a; discriminate|]. destruct a as [|a]; [cbn in E |- *; congruence|].
      change (skipn (Datatypes.S (Datatypes.S a)) (y :: l)) with (skipn (Datatypes.S a) l). change (skipn (Datatypes.S a) (y :: l)) with (skipn a l). cbn [nth_error] in E.
      apply IH; auto. cbn [length] in H. lia. }
    intros n H. apply (G n 0%nat). lia.
  Qed.
  Lemma rmap_at_err {A B} (l : list A) (f : A -> res B) : forall n a r, rmap (fun j => rbind (at_index l j) f) (seq a n) = Ok r ->
    (n = 0 \/ a + n <= length l)%nat.
  Proof.
    induction n as [|n IH]; intros a r H; [auto|]. right. cbn [seq rmap] in H.
    unfold at_index at 1 in H. destruct (nth_error l a) as [x|] eqn:E; cbn [rbind] in H; [|discriminate].
    assert (a < length l)%nat by (apply nth_error_Some; congruence).
    destruct (f x); cbn [rbind] in H; [|discriminate]. destruct (rmap _ _) as [r'|] eqn:Q; cbn [rbind] in H; [|discriminate].
    apply IH in Q. lia.
  Qed.
  Lemma rmap_compose {A} (l : list A) (f : A -> res R) : rmap (fun j => rbind (at_index l j) f) (seq 0 (length l)) = rmap f l.
  Proof.
    assert (G : forall m pre, l = pre ++ m -> rmap (fun j => rbind (at_index l j) f) (seq (length pre) (length m)) = rmap f m).
    { induction m as [|x m IH]; intros pre E; cbn [seq rmap length]; [reflexivity|].
      assert (AT : at_index l (length pre) = Ok x) by (unfold at_index; rewrite E, nth_error_app2, Nat.sub_diag by lia; reflexivity).
      rewrite AT. cbn [rbind]. destruct (f x); cbn [rbind]; auto.
      replace (Datatypes.S (length pre)) with (length (pre ++ [x])) by (rewrite app_length; cbn; lia).
      rewrite IH by (rewrite E, <- app_assoc; reflexivity). reflexivity. }
    apply (G l []). reflexivity.
  Qed.
  (** The losses are those of all the realisations, in order, and the asked
      number must be the number of directories. *)
  Theorem uq_losses_exact dir listing n losses : uq_losses loss_of dir listing n = Ok losses <->
    exists dirs, realisations dir listing = Ok dirs /\ n = length dirs /\ rmap loss_of dirs = Ok losses.
  Proof.
    unfold uq_losses. split.
    - destruct (realisations dir listing) as [dirs|] eqn:E; cbn [rbind]; [|discriminate].
      destruct (rmap (at_index dirs) (seq 0 n)) as [preds|] eqn:Q; cbn [rbind]; [|discriminate]. intros H.
      assert (N : (n <= length dirs)%nat).
      { assert (Q2 : rmap (fun j => rbind (at_index dirs j) Ok) (seq 0 n) = Ok preds).
        { rewrite <- Q. clear. induction (seq 0 n) as [|x t IH]; cbn [rmap]; auto. destruct (at_index dirs x); cbn [rbind]; auto. now rewrite IH. }
        apply rmap_at_err in Q2. lia. }
      rewrite rmap_at in Q by exact N. injection Q as <-.
      pose proof (rmap_at_err _ _ _ _ _ H) as L. rewrite firstn_length in L.
      assert (NE : n = length dirs).
      { destruct L as [L|L]; [|lia]. exfalso. destruct dirs; [|discriminate].
        unfold realisations in E. destruct (map _ (filter _ listing)) as [|p q] eqn:M; [discriminate|].
        destruct (sort_paths (p :: q)) as [r|] eqn:SP; cbn [rbind] in E; [|discriminate]. injection E as E.
        unfold sort_paths in SP. destruct (rmap _ (p :: q)) as [w|] eqn:RW; cbn [rbind] in SP; [|discriminate]. injection SP as <-.
        apply map_eq_nil, map_eq_nil in E. pose proof (HybridProps.isort_perm fst w) as IP. rewrite E in IP.
        apply Permutation_nil in IP. subst w. apply rmap_ok in RW. inversion RW. }
      subst n. rewrite firstn_all, rmap_compose in H. eauto.
    - intros (dirs & -> & -> & H). cbn [rbind]. rewrite rmap_at, firstn_all by lia. cbn [rbind]. now rewrite rmap_compose.
  Qed.
  (** Asking for fewer realisations than there are ends in an IndexError once
      the losses of the first ones are read. *)
  Theorem fewer_realisations_refuted dir listing n dirs l : realisations dir listing = Ok dirs -> (n < length dirs)%nat ->
    rmap loss_of (firstn n dirs) = Ok l -> uq_losses loss_of dir listing n = Err IndexError.
  Proof.
    intros E N H. unfold uq_losses. rewrite E. cbn [rbind]. rewrite rmap_at by lia. cbn [rbind].
    set (p := firstn n dirs) in *. assert (L : length p = n) by (unfold p; rewrite firstn_length; lia).
    replace (length dirs) with (length p + (length dirs - n))%nat by lia. rewrite seq_app.
    assert (AP : forall (A B : Type) (f : A -> res B) a b, rmap f (a ++ b) = rbind (rmap f a) (fun x => rbind (rmap f b) (fun y => Ok (x ++ y)))).
    { clear. intros A B f a b. induction a as [|x a IH]; cbn [app rmap rbind]; [destruct (rmap f b); reflexivity|].
      destruct (f x); cbn [rbind]; auto. rewrite IH. destruct (rmap f a); cbn [rbind]; auto. destruct (rmap f b); reflexivity. }
    rewrite AP, rmap_compose, H. cbn [rbind Nat.add].
    destruct (length dirs - n)%nat as [|k] eqn:K; [lia|]. cbn [seq rmap]. unfold at_index.
    rewrite (proj2 (nth_error_None p (length p))) by lia. reflexivity.
  Qed.
End Plots.
(** A copy of a realisation is taken for one more. *)
Theorem backup_realisation_refuted : is_realisation "model_0_old"%string = true.
Proof. reflexivity. Qed.

(** ** Time series *)
Section SeriesLaws.
  Variable close : list R -> list R -> bool.
  Lemma columns_law time : forall models tab r, columns close time tab models = Ok r -> length tab = length time ->
    length r = length time /\ Forall (fun m => length m = length time /\ close (times m) time = true) models /\
    forall k, (k < length time)%nat -> nth k r [] = nth k tab [] ++ map (fun m => snd (nth k m (0, 0, 0)%R)) models.
  Proof.
    induction models as [|m t IH]; intros tab r H L; cbn [columns] in H.
    { injection H as <-. split; auto. split; auto. intros. cbn [map]. now rewrite app_nil_r. }
    destruct (Nat.eqb_spec (length m) (length time)) as [E|]; cbn [negb] in H; [|discriminate].
    destruct (close (times m) time) eqn:C; cbn [negb] in H; [|discriminate].
    assert (LA : length (add_column tab (map snd m)) = length time).
    { unfold add_column. rewrite map_length, combine_length, map_length. lia. }
    destruct (IH _ _ H LA) as (A & B & D). split; auto. split; [constructor; auto|].
    intros k K. rewrite D by exact K. cbn [map]. unfold add_column.
    rewrite (nth_indep _ [] ((fun p : list R * R => fst p ++ [snd p]) ([], snd (0, 0, 0)%R))) by (unfold add_column in LA; lia).
    rewrite (map_nth (fun p : list R * R => fst p ++ [snd p])), combine_nth by (rewrite map_length; lia).
    cbn [fst snd]. rewrite (map_nth snd m (0, 0, 0)%R). rewrite <- app_assoc. reflexivity.
  Qed.
  (** The table of a sample: the ground truth of the first realisation, the
      shared times, and one column of predictions for each realisation. *)
  Theorem realisation_table_law models gt tab : realisation_table close models = Ok (gt, tab) ->
    exists m0 t, models = m0 :: t /\ gt = map fst m0 /\ length tab = length m0 /\
    Forall (fun m => length m = length m0 /\ close (times m) (times m0) = true) models /\
    forall k, (k < length m0)%nat -> nth k tab [] = nth k (times m0) 0%R :: map (fun m => snd (nth k m (0, 0, 0)%R)) models.
  Proof.
    unfold realisation_table. destruct models as [|m t]; [discriminate|].
    destruct (columns _ _ _ _) as [r|] eqn:E; cbn [rbind]; [|discriminate]. intros H. injection H as <- <-.
    apply columns_law in E as (A & B & D); [|now rewrite map_length]. unfold times in A at 1. rewrite map_length in A.
    exists m, t. split; auto. split; auto. split; auto. split.
    - revert B. apply Forall_impl. intros a [X Y]. unfold times in X at 1. rewrite map_length in X. auto.
    - intros k K. assert (LT : (k < length (times m))%nat) by (unfold times; now rewrite map_length). rewrite (D k LT).
      rewrite (nth_indep (map (fun t0 => [t0]) (times m)) [] [0%R]) by (now rewrite map_length).
      now rewrite (map_nth (fun t0 : R => [t0])).
  Qed.
End SeriesLaws.
(** A list of samples serves every prediction type. *)
Theorem listed_samples n_test types l : plot_types n_test types (IdList l)
  = Ok (map (fun t => (fst t, match snd t with [] => [] | _ => l end)) types).
Proof. induction types as [|(ty, labels) t IH]; cbn [plot_types map fst snd]; auto. rewrite IH. reflexivity. Qed.
(** All the samples of the test set serve the first type; a second one is refused. *)
Theorem all_samples_first n_test ty label labels : plot_types n_test [(ty, label :: labels)] AllIds = Ok [(ty, seq 0 n_test)].
Proof. reflexivity. Qed.
Theorem all_samples_second_refuted n_test ty label labels t2 more :
  plot_types n_test ((ty, label :: labels) :: t2 :: more) AllIds = Err RuntimeError.
Proof. destruct t2 as (ty2, l2). reflexivity. Qed.

(** ** Training and prediction *)
Section PerformLaws.
  Context {M Q : Type}.
  Variable trained : nat -> M.
  Variable predicted : M -> Q.
  Lemma steps_other training ty : forall n a (st : store) k, (k < a \/ a + n <= k)%nat ->
    fold_left (uq_step trained predicted training ty) (seq a n) st k = st k.
  Proof.
    induction n as [|n IH]; intros a st k H; cbn [seq fold_left]; auto. rewrite IH by lia. unfold uq_step.
    assert (E : Nat.eqb k a = false) by (apply Nat.eqb_neq; lia).
    destruct training; cbv zeta beta; rewrite ?Nat.eqb_refl; [now rewrite E|].
    destruct (st a) as [[[m|] p]|]; now rewrite ?E.
  Qed.
  Lemma steps_at training ty n (st : store) k : (k < n)%nat ->
    fold_left (uq_step trained predicted training ty) (seq 0 n) st k
    = uq_step trained predicted training ty st k k.
  Proof.
    intros H. replace n with (k + Datatypes.S (n - k - 1))%nat by lia. rewrite seq_app, fold_left_app. cbn [Nat.add seq fold_left].
    rewrite steps_other by lia.
    unfold uq_step at 1 3. destruct training; cbv zeta beta; rewrite ?Nat.eqb_refl; [reflexivity|].
    rewrite (steps_other false ty k 0 st k) by lia.
    destruct (st k) as [[[m|] p]|] eqn:E; rewrite ?Nat.eqb_refl; auto; rewrite steps_other by lia; auto.
  Qed.
  (** After training there are exactly the asked realisations, each with its own
      model and its prediction. *)
  Theorem uq_trained ty n st k : perform_uq trained predicted true ty n st k
    = if Nat.ltb k n then Some (Some (trained k), [(ty, predicted (trained k))]) else None.
  Proof.
    unfold perform_uq. destruct (Nat.ltb_spec k n) as [H|H]; [|apply steps_other; lia].
    rewrite steps_at by exact H. unfold uq_step. cbv zeta beta. rewrite !Nat.eqb_refl. cbv beta. rewrite ?Nat.eqb_refl. reflexivity.
  Qed.
  (** Without training, the models stay, the predictions of the type are those of
      the stored models, and the other types and realisations are untouched. *)
  Theorem uq_predicted ty n st k : perform_uq trained predicted false ty n st k
    = match st k with
      | Some (Some m, preds) => if Nat.ltb k n then Some (Some m, gset String.eqb preds ty (predicted m)) else st k
      | r => r
      end.
  Proof.
    unfold perform_uq. destruct (Nat.ltb_spec k n) as [H|H].
    - rewrite steps_at by exact H. unfold uq_step. cbv zeta beta. destruct (st k) as [[[m|] p]|] eqn:E; rewrite ?Nat.eqb_refl; auto.
    - rewrite steps_other by lia. destruct (st k) as [[[m|] p]|]; auto.
  Qed.
  (** A realisation that does not exist is passed over without notice. *)
  Theorem missing_realisation_refuted ty n (st : @store M Q) k : (k < n)%nat -> st k = None ->
    perform_uq trained predicted false ty n st k = None.
  Proof. intros H E. rewrite uq_predicted, E. reflexivity. Qed.
End PerformLaws.

(** ** Cases *)
Example ex_realisations : realisations "uq"%string
  [("model_10"%string, 10%nat); ("plots"%string, 0%nat); ("model_2"%string, 2%nat); ("model_0"%string, 7%nat)] = Ok [7; 2; 10]%nat.
Proof. vm_compute. reflexivity. Qed.
Example ex_summary : read_loss (fun s => if String.eqb s "None" then Err ValueError else Ok 1%R)
  (prediction_summary (fun _ => "1.0e+00"%string) [("seed"%string, SText "None"%string); ("loss_kwargs"%string, SDict [("a"%string, "b"%string)])] [] (Some 1%R)) = Ok 1%R.
Proof.
  apply (loss_read_back (fun _ => "1.0e+00"%string) _ (fun _ => 1%R)); auto.
Qed.

Print Assumptions loss_read_back.
Print Assumptions zero_loss_refuted.
Print Assumptions realisations_in_order.
Print Assumptions uq_losses_exact.
Print Assumptions fewer_realisations_refuted.
Print Assumptions realisation_table_law.
Print Assumptions uq_trained.
Print Assumptions uq_predicted.
