(** C66: the prediction procedure. *)
From Coq Require Import Reals String List Arith Lia Lra Bool.
From Verif Require Import Lib PyDict PyStr NamesProps ScalerModel ScalerSpec ScalerProps BatchFitModel BatchFitProps ModelFileModel ModelFileProps PredictModel.
Import ListNotations.
Local Open Scope R_scope.
Local Open Scope string_scope.
Local Open Scope list_scope.

(** ** Tensors of a batch *)
Lemma map_batches {A B} (g : A -> B) k fuel : forall l, batches fuel k (map g l) = map (map g) (batches fuel k l).
Proof.
  induction fuel as [|fuel IH]; intros l; [reflexivity|]. destruct l as [|a l]; [reflexivity|].
  cbn [batches]. cbn [map]. rewrite <- IH. rewrite <- firstn_map, <- skipn_map. reflexivity.
Qed.
Lemma loader_in_order k dataset : loader k (seq 0 (length dataset)) dataset = map time_collator (batches (length dataset) k dataset).
Proof.
  unfold loader. rewrite seq_length.
  transitivity (map time_collator (map (map (fun i => nth i dataset [])) (batches (length dataset) k (seq 0 (length dataset))))).
  { rewrite map_map. reflexivity. }
  rewrite <- map_batches. do 2 f_equal.
  apply (nth_ext _ _ [] []); rewrite map_length, seq_length; auto. intros i Hi.
  etransitivity; [apply (nth_map_seq (fun i => nth i dataset [])); auto|reflexivity].
Qed.
Lemma stack1_length T xs : length (stack1 T xs) = T.
Proof. unfold stack1. rewrite map_length, seq_length. reflexivity. Qed.
Lemma stack1_nth T xs t : (t < T)%nat -> nth t (stack1 T xs) [] = map (fun x => nth t x []) xs.
Proof. intros H. unfold stack1. exact (nth_map_seq (fun t => map (fun x => nth t x []) xs) T t [] H). Qed.
Lemma member_stack1 T xs j : (j < length xs)%nat -> length (nth j xs []) = T -> member j (stack1 T xs) = nth j xs [].
Proof.
  intros J L. unfold member, stack1. rewrite map_map. apply (nth_ext _ _ [] []); rewrite map_length, seq_length; auto.
  intros t Ht. etransitivity; [apply (nth_map_seq (fun t => nth j (map (fun rows => nth t rows []) xs) [])); auto|].
  rewrite (nth_indep _ [] ((fun rows : list (list R) => nth t rows []) [])) by (rewrite map_length; auto).
  rewrite (map_nth (fun rows : list (list R) => nth t rows [])). reflexivity.
Qed.
Lemma stack1_map T g xs : Forall (fun x => length x = T) xs -> map (map g) (stack1 T xs) = stack1 T (map (map g) xs).
Proof.
  intros F. unfold stack1. rewrite map_map. apply map_ext_in. intros t I. apply in_seq in I. rewrite !map_map. apply map_ext_in.
  intros x J. rewrite Forall_forall in F. specialize (F x J).
  symmetry. etransitivity; [apply (nth_indep _ [] (g [])); rewrite map_length; lia|]. apply (map_nth g).
Qed.
Lemma stack1_rows T xs n : Forall (fun x => length x = T) xs -> (forall x r, In x xs -> In r x -> length r = n) ->
  forall sl r, In sl (stack1 T xs) -> In r sl -> length r = n.
Proof.
  intros F H sl r I J. unfold stack1 in I. apply in_map_iff in I. destruct I as (t & <- & I). apply in_seq in I.
  apply in_map_iff in J. destruct J as (x & <- & J). apply (H x); auto. apply nth_In. rewrite Forall_forall in F. rewrite (F x J). lia.
Qed.
Lemma stack1_regular T xs n : Forall (fun x => length x = T) xs -> (forall x r, In x xs -> In r x -> length r = n) -> regular n (Seq (stack1 T xs)).
Proof.
  intros F H. split; [apply (stack1_rows T xs n F H)|]. exists (length xs). intros sl I. unfold stack1 in I.
  apply in_map_iff in I. destruct I as (t & <- & _). apply map_length.
Qed.
Lemma n_rows_stack1 T xs : (0 < T)%nat -> n_rows (stack1 T xs) = length xs.
Proof. intros H. unfold stack1. destruct T as [|T]; [lia|]. cbn [seq map n_rows]. apply map_length. Qed.
Lemma map_seq_nth {A B} (g : A -> B) (l : list A) d : map (fun j => g (nth j l d)) (seq 0 (length l)) = map g l.
Proof.
  apply (nth_ext _ _ (g d) (g d)); rewrite !map_length, ?seq_length; auto. intros i Hi.
  etransitivity; [apply (nth_map_seq (fun j => g (nth j l d))); auto|]. rewrite map_nth. reflexivity.
Qed.

(** ** The procedure *)
Section Props.
  Variable net : seq3 -> option seq3 -> seq3.
  Variable net1 : seq2 -> option seq2 -> seq2.
  Variable loss_function : seq2 -> seq2 -> R.
  Variable norm_in denorm_out : seq3 -> res seq3.
  Variable norm_out : seq2 -> res seq2.
  Variable gi go gn : list R -> list R.
  Variable bin bout bloss : bool.
  Variable n_in n_out : nat.
  (** The network treats the sequences of a batch independently. *)
  Hypothesis net_separable : forall T xs, (0 < T)%nat -> Forall (fun x => length x = T) xs ->
    net (stack1 T xs) None = stack1 T (map (fun x => net1 x None) xs).
  Hypothesis net_separable_hidden : forall T Th xs hs, (0 < T)%nat -> Forall (fun x => length x = T) xs ->
    length hs = length xs -> Forall (fun h => length h = Th) hs ->
    net (stack1 T xs) (Some (stack1 Th hs)) = stack1 T (map (fun xh => net1 (fst xh) (Some (snd xh))) (combine xs hs)).
  Hypothesis net1_length : forall x h, length (net1 x h) = length x.
  Hypothesis net1_rows : forall x h r, (forall u, In u x -> length u = n_in) -> In r (net1 x h) -> length r = n_out.
  (** The scalers act on each row of features (proved for the scalers of the
      code in [scaler_rowwise]). *)
  Hypothesis norm_in_rows : forall t, regular n_in (Seq t) -> norm_in t = Ok (map (map gi) t).
  Hypothesis denorm_out_rows : forall t, regular n_out (Seq t) -> denorm_out t = Ok (map (map go) t).
  Hypothesis norm_out_rows : forall x, regular n_out (Mat x) -> norm_out x = Ok (map gn x).
  Hypothesis gi_length : forall r, length r = n_in -> length (gi r) = n_in.
  Hypothesis go_length : forall r, length r = n_out -> length (go r) = n_out.

  (** What is expected for one sample. *)
  Definition input (s : sample) : seq2 := let x := tens_of s "features_in" in if bin then map gi x else x.
  Definition hidden (s : sample) : option seq2 :=
    match dget s "hidden_features_in" with Some (Tens h) => Some h | _ => None end.
  Definition raw_output (s : sample) : seq2 := net1 (input s) (hidden s).
  Definition output (s : sample) : seq2 := let y := raw_output s in if bout then map go y else y.
  Definition targets (s : sample) : seq2 := tens_of s "features_out".
  Definition loss (s : sample) : R :=
    if bloss then loss_function (map gn (output s)) (map gn (targets s)) else loss_function (output s) (targets s).
  Definition expected (s : sample) : results := {| r_out := output s; r_targets := Some (targets s); r_loss := Some (loss s) |}.

  Definition good_sample (s : sample) : Prop :=
    NoDup (map fst s)
    /\ (exists x, dget s "features_in" = Some (Tens x) /\ (0 < length x)%nat /\ forall r, In r x -> length r = n_in)
    /\ (exists y, dget s "features_out" = Some (Tens y) /\ forall r, In r y -> length r = n_out).
  (** Samples that can be batched together: same features and shapes. *)
  Definition uniform (dataset : list sample) : Prop := forall s, In s dataset -> compatible s dataset.

  Lemma raw_output_rows s r : good_sample s -> In r (raw_output s) -> length r = n_out.
  Proof.
    intros (_ & (x & E & _ & Rx) & _) I. unfold raw_output in I. apply net1_rows in I; auto. clear I r. intros u I.
    unfold input, tens_of in I. rewrite E in I. destruct bin; [|auto]. apply in_map_iff in I. destruct I as (v & <- & I). auto.
  Qed.
  Lemma batch_results_ok b : b <> [] -> Forall good_sample b -> uniform b -> exists r,
    time_collator b = Ok r /\
    batch_results net norm_in denorm_out bin bout "features_out" r = Ok (map (fun s => (output s, Some (targets s))) b).
  Proof.
    intros NE G U. destruct b as [|x rest]; [congruence|]. set (b := x :: rest) in *.
    assert (Gx : good_sample x) by (rewrite Forall_forall in G; apply G; left; auto).
    destruct Gx as (N & (xi & Ex & Tx & Rx) & (yi & Ey & Ry)).
    destruct (proj2 (collate_succeeds_iff x rest N)) as [r C].
    { apply U. left; auto. }
    exists r. split; [exact C|]. unfold time_collator in C. destruct (collate_features_ok _ _ _ _ C N) as [A B].
    assert (P : forall f rows, dget x f = Some (Tens rows) -> @dget seq3 r f = Some (stack1 (length rows) (map (fun s => tens_of s f) b))
      /\ Forall (fun t => length t = length rows) (map (fun s => tens_of s f) b)).
    { intros f rows D. apply (dget_in_iff _ _ _ N) in D. destruct (A f rows D) as [E Q]. split; [exact E|].
      apply Forall_forall. intros t I. apply in_map_iff in I. destruct I as (s & <- & I). destruct (Q s I) as (rows' & D' & L & _).
      unfold tens_of. rewrite D'. exact L. }
    destruct (P _ _ Ex) as [E1 L1]. destruct (P _ _ Ey) as [E2 L2].
    set (xs := map (fun s => tens_of s "features_in") b) in *. set (ys := map (fun s => tens_of s "features_out") b) in *.
    set (T := length xi) in *. set (Ty := length yi) in *.
    assert (RX : forall t r, In t xs -> In r t -> length r = n_in).
    { intros t r0 I J. apply in_map_iff in I. destruct I as (s & <- & I). rewrite Forall_forall in G.
      destruct (G s I) as (_ & (x' & D' & _ & R') & _). unfold tens_of in J. rewrite D' in J. auto. }
    unfold batch_results. rewrite E1.
    set (inputs := if bin then map (map gi) xs else xs).
    assert (NI : (if bin then norm_in (stack1 T xs) else Ok (stack1 T xs)) = Ok (stack1 T inputs)).
    { unfold inputs. destruct bin; [|reflexivity]. rewrite norm_in_rows; [rewrite stack1_map by auto; reflexivity|].
      apply (stack1_regular T xs); auto. }
    rewrite NI. cbn [rbind]. rewrite E2. change (String.eqb "features_out" "features_out") with true. cbn iota.
    assert (LI : Forall (fun t => length t = T) inputs).
    { unfold inputs. destruct bin; [|auto]. apply Forall_forall. intros t I. apply in_map_iff in I. destruct I as (u & <- & I).
      rewrite map_length. rewrite Forall_forall in L1. auto. }
    assert (II : inputs = map input b).
    { unfold inputs, input, xs. destruct bin; [rewrite map_map|]; reflexivity. }
    assert (NO : net (stack1 T inputs) (dget r "hidden_features_in") = stack1 T (map raw_output b)).
    { destruct (dget x "hidden_features_in") as [[h|]|] eqn:EH.
      - destruct (P _ _ EH) as [E3 L3]. rewrite E3.
        rewrite net_separable_hidden; auto; [|unfold inputs, xs; destruct bin; rewrite ?map_length; reflexivity].
        f_equal. rewrite II. clear - A EH N. 
        assert (H : forall s, In s b -> hidden s = Some (tens_of s "hidden_features_in")).
        { intros s I. apply (dget_in_iff _ _ _ N) in EH. destruct (A _ _ EH) as [_ Q]. destruct (Q s I) as (rows' & D' & _).
          unfold hidden, tens_of. rewrite D'. reflexivity. }
        clear A. revert H. generalize b as l. induction l as [|s l IH]; intros H; [reflexivity|]. cbn [map combine].
        rewrite IH by (intros; apply H; right; auto). f_equal. cbn [fst snd]. unfold raw_output. rewrite (H s (or_introl eq_refl)). reflexivity.
      - assert (E3 : @dget seq3 r "hidden_features_in" = None).
        { etransitivity; [apply B|reflexivity]. intros rows I. apply (dget_in_iff _ _ _ N) in I. congruence. }
        rewrite E3, net_separable by auto. f_equal. rewrite II, map_map. apply map_ext_in. intros s I. unfold raw_output. f_equal.
        unfold hidden. destruct (dget s "hidden_features_in") as [[h|]|] eqn:EH2; auto. exfalso.
        destruct (U s I _ _ EH2 x (or_introl eq_refl)) as (rows' & D' & _). congruence.
      - assert (E3 : @dget seq3 r "hidden_features_in" = None).
        { etransitivity; [apply B|reflexivity]. intros rows I. apply (dget_in_iff _ _ _ N) in I. congruence. }
        rewrite E3, net_separable by auto. f_equal. rewrite II, map_map. apply map_ext_in. intros s I. unfold raw_output. f_equal.
        unfold hidden. destruct (dget s "hidden_features_in") as [[h|]|] eqn:EH2; auto. exfalso.
        destruct (U s I _ _ EH2 x (or_introl eq_refl)) as (rows' & D' & _). congruence. }
    rewrite NO.
    assert (LR : forall s, In s b -> length (raw_output s) = T).
    { intros s I. unfold raw_output. rewrite net1_length. rewrite Forall_forall in LI. apply LI. rewrite II. apply in_map. auto. }
    assert (OO : (if bout then denorm_out (stack1 T (map raw_output b)) else Ok (stack1 T (map raw_output b))) = Ok (stack1 T (map output b))).
    { unfold output. destruct bout; [|reflexivity]. rewrite denorm_out_rows.
      - rewrite stack1_map; [rewrite map_map; reflexivity|]. apply Forall_forall. intros t I. apply in_map_iff in I. destruct I as (s & <- & I). auto.
      - apply stack1_regular. { apply Forall_forall. intros t I. apply in_map_iff in I. destruct I as (s & <- & I). auto. }
        intros t r0 I J. apply in_map_iff in I. destruct I as (s & <- & I). rewrite Forall_forall in G. apply (raw_output_rows s r0 (G s I) J). }
    rewrite OO. cbn [rbind]. f_equal. rewrite n_rows_stack1 by exact Tx. unfold xs at 1. rewrite map_length.
    rewrite <- (map_seq_nth (fun s => (output s, Some (targets s))) b []). apply map_ext_in. intros j I. apply in_seq in I.
    assert (IN : In (nth j b []) b) by (apply nth_In; lia).
    assert (O1 : nth j (map output b) [] = output (nth j b [])).
    { rewrite (nth_indep _ [] (output [])) by (rewrite map_length; lia). apply map_nth. }
    assert (O2 : nth j ys [] = targets (nth j b [])).
    { unfold ys. rewrite (nth_indep _ [] ((fun s => tens_of s "features_out") [])) by (rewrite map_length; lia).
      rewrite (map_nth (fun s => tens_of s "features_out")). reflexivity. }
    rewrite !member_stack1.
    - rewrite O1, O2. reflexivity.
    - unfold ys. rewrite map_length. lia.
    - rewrite Forall_forall in L2. apply L2. apply nth_In. unfold ys. rewrite map_length. lia.
    - rewrite map_length. lia.
    - rewrite O1. unfold output. destruct bout; rewrite ?map_length; apply LR; auto.
  Qed.

  Lemma sample_file_inj i j : sample_file i = sample_file j -> i = j.
  Proof.
    intros H. unfold sample_file in H. apply app_inj_s, app_inj_r in H. apply nat_str_inj. exact H.
  Qed.
  Lemma output_rows s r : good_sample s -> In r (output s) -> length r = n_out.
  Proof.
    intros G. unfold output. destruct bout; intros I; [|apply (raw_output_rows s r G I)].
    apply in_map_iff in I. destruct I as (u & <- & I). apply go_length. apply (raw_output_rows s u G I).
  Qed.
  Lemma loss_ok s : good_sample s ->
    compute_sample_prediction_loss loss_function norm_out bloss (output s) (Some (targets s)) = Ok (Some (loss s)).
  Proof.
    intros G. pose proof G as (_ & _ & (y & E & Ry)). unfold compute_sample_prediction_loss, loss. destruct bloss; [|reflexivity].
    rewrite norm_out_rows by (intros r I; apply (output_rows s r G I)). cbn [rbind].
    rewrite norm_out_rows by (intros r I; unfold targets, tens_of in I; rewrite E in I; auto). reflexivity.
  Qed.
  Definition sample_entries (i : nat) (l : list sample) : dict results :=
    map (fun p => (sample_file (fst p), expected (snd p))) (combine (seq i (length l)) l).
  Lemma sample_entries_app l1 : forall i l2, sample_entries i (l1 ++ l2) = sample_entries i l1 ++ sample_entries (i + length l1) l2.
  Proof.
    induction l1 as [|s l1 IH]; intros i l2; cbn [app length]; [rewrite Nat.add_0_r; reflexivity|].
    unfold sample_entries in *. cbn [length app seq combine map]. rewrite IH. cbn [app]. do 2 f_equal. rewrite Nat.add_succ_r. reflexivity.
  Qed.
  Lemma dset_fresh (d : dict results) k v : dget d k = None -> dset d k v = d ++ [(k, v)].
  Proof.
    induction d as [|[k' v'] d IH]; intros H; [reflexivity|]. cbn [app]. unfold dget, dset in *. cbn [gget gset] in *.
    destruct (String.eqb k k') eqn:E; [discriminate|]. rewrite E || idtac. rewrite IH by auto. reflexivity.
  Qed.
  Lemma entries_fresh l i : (forall j, In (sample_file j) (map fst l) -> (j < i)%nat) -> dget (l : dict results) (sample_file i) = None.
  Proof. intros H. apply dget_none. intros I. specialize (H i I). lia. Qed.
  Lemma store_ok l : forall st, Forall good_sample l -> (forall j, In (sample_file j) (map fst (st_files st)) -> (j < st_id st)%nat) ->
    store_results loss_function norm_out bloss (map (fun s => (output s, Some (targets s))) l) st
    = Ok {| st_losses := st_losses st ++ map loss l; st_files := st_files st ++ sample_entries (st_id st) l; st_id := st_id st + length l |}.
  Proof.
    induction l as [|s l IH]; intros st G H.
    - cbn [map store_results sample_entries length combine seq]. unfold sample_entries. cbn. rewrite !app_nil_r, Nat.add_0_r. destruct st; reflexivity.
    - inversion G; subst. cbn [map store_results]. rewrite loss_ok by auto. cbn [rbind].
      rewrite dset_fresh by (apply entries_fresh; auto). rewrite IH; auto.
      + cbn [st_losses st_files st_id]. f_equal. f_equal.
        * rewrite <- app_assoc. reflexivity.
        * rewrite <- app_assoc. reflexivity.
        * cbn [length]. lia.
      + cbn [st_files st_id]. intros j I. rewrite map_app in I. apply in_app_or in I. destruct I as [I|[I|[]]]; [specialize (H j I); lia|].
        cbn [fst] in I. apply sample_file_inj in I. lia.
  Qed.
  Lemma entries_keys i l j : In (sample_file j) (map fst (sample_entries i l)) -> (i <= j < i + length l)%nat.
  Proof.
    unfold sample_entries. rewrite map_map. cbn [fst]. intros I. apply in_map_iff in I. destruct I as ((a & s) & E & I).
    apply sample_file_inj in E. cbn [fst] in E. subst. apply in_combine_l in I. apply in_seq in I. lia.
  Qed.
  Lemma loop_ok bs : forall st, Forall (fun b => b <> [] /\ Forall good_sample b /\ uniform b) bs ->
    (forall j, In (sample_file j) (map fst (st_files st)) -> (j < st_id st)%nat) ->
    predict_loop net loss_function norm_in denorm_out norm_out bin bout bloss "features_out" (map time_collator bs) st
    = Ok {| st_losses := st_losses st ++ map loss (concat bs); st_files := st_files st ++ sample_entries (st_id st) (concat bs);
            st_id := st_id st + length (concat bs) |}.
  Proof.
    induction bs as [|b bs IH]; intros st F H.
    - cbn. unfold sample_entries. cbn. rewrite !app_nil_r, Nat.add_0_r. destruct st; reflexivity.
    - inversion F as [|? ? (NE & G & U) F']; subst. destruct (batch_results_ok b NE G U) as (r & C & B). cbn [map predict_loop].
      rewrite C. cbn [rbind]. rewrite B. cbn [rbind]. rewrite store_ok by auto. cbn [rbind]. rewrite IH; auto.
      + cbn [st_losses st_files st_id concat]. rewrite map_app, sample_entries_app, app_length, !app_assoc, Nat.add_assoc. reflexivity.
      + cbn [st_files st_id]. intros j I. rewrite map_app in I. apply in_app_or in I. destruct I as [I|I]; [specialize (H j I); lia|].
        apply entries_keys in I. lia.
  Qed.

  Notation pred := (predict net loss_function norm_in denorm_out norm_out bin bout bloss).
  Definition batchable (k : nat) (dataset : list sample) : Prop := k = 1%nat \/ uniform dataset.
  Lemma predict_eq k dataset : (0 < k)%nat -> dataset <> [] -> Forall good_sample dataset -> batchable k dataset ->
    let avg := Some (Some (lsum (map loss dataset) / INR (length dataset))) in
    pred true "features_out" k dataset = Ok (sample_entries 0 dataset, avg, summary_loss avg)
    /\ pred false "features_out" k dataset = Ok ([], avg, None).
  Proof.
    intros K NE G B. cbv zeta. unfold predict. rewrite loader_in_order.
    destruct (batches_spec k (length dataset) dataset K (le_n _)) as (E1 & E2 & _).
    assert (F : Forall (fun b => b <> [] /\ Forall good_sample b /\ uniform b) (batches (length dataset) k dataset)).
    { apply Forall_forall. intros b I. rewrite Forall_forall in E2. specialize (E2 b I).
      assert (S : forall s, In s b -> In s dataset) by (intros s J; rewrite <- E1; apply in_concat; exists b; auto).
      split; [destruct b; [cbn in E2; lia|discriminate]|]. split.
      - apply Forall_forall. intros s J. rewrite Forall_forall in G. auto.
      - destruct B as [->|U].
        + destruct b as [|s [|]]; cbn in E2; try lia. intros s' J f rows D s2 J2. cbn in J, J2. destruct J as [<-|[]]. destruct J2 as [<-|[]]. exists rows. auto.
        + intros s J f rows D s2 J2. apply (U s (S s J) f rows D s2). auto. }
    rewrite loop_ok by (auto; cbn; intros; contradiction). cbn [st_losses st_files st_id rbind app]. rewrite E1.
    assert (A : average_loss (length dataset) (map loss dataset) = Some (Some (lsum (map loss dataset) / INR (length dataset)))).
    { unfold average_loss. rewrite map_length, Nat.eqb_refl. destruct dataset as [|s d]; [congruence|]. reflexivity. }
    rewrite A. destruct dataset as [|s0 d0]; [congruence|]. split; reflexivity.
  Qed.
  Lemma fst_combine {A B} (l : list A) : forall l' : list B, length l = length l' -> map fst (combine l l') = l.
  Proof. induction l as [|a l IH]; intros [|b l'] H; cbn in *; try lia; auto. f_equal. apply IH. lia. Qed.
  (** Main theorem: for every batch size, the i-th file holds the prediction,
      the targets and the loss of the i-th sample, there are no other files and
      the average is the mean of the losses. *)
  Theorem predict_values : forall k dataset, (0 < k)%nat -> dataset <> [] -> Forall good_sample dataset -> batchable k dataset ->
    exists files summary, let avg := Some (Some (lsum (map loss dataset) / INR (length dataset))) in
    pred true "features_out" k dataset = Ok (files, avg, summary)
    /\ pred false "features_out" k dataset = Ok ([], avg, None)
    /\ (forall i, (i < length dataset)%nat -> dget files (sample_file i) = Some (expected (nth i dataset [])))
    /\ (forall f, In f (dkeys files) <-> exists i, (i < length dataset)%nat /\ f = sample_file i).
  Proof.
    intros k dataset K NE G B. destruct (predict_eq k dataset K NE G B) as [E1 E2]. do 2 eexists. cbv zeta. split; [exact E1|]. split; [exact E2|].
    assert (ND : NoDup (map fst (sample_entries 0 dataset))).
    { unfold sample_entries. rewrite map_map. cbn [fst].
      rewrite <- (map_map fst sample_file), fst_combine by (rewrite seq_length; auto).
      apply FinFun.Injective_map_NoDup; [intros i j; apply sample_file_inj|apply seq_NoDup]. }
    split.
    - intros i I. apply (in_dget _ _ _ ND). unfold sample_entries. apply in_map_iff. exists (i, nth i dataset []). split; [reflexivity|].
      replace (i, nth i dataset []) with (nth i (combine (seq 0 (length dataset)) dataset) (0%nat, [])).
      + apply nth_In. rewrite combine_length, seq_length, Nat.min_id. auto.
      + rewrite combine_nth by (rewrite seq_length; auto). f_equal. rewrite seq_nth; auto.
    - intros f. unfold dkeys, gkeys, sample_entries. rewrite map_map. cbn [fst].
      rewrite <- (map_map fst sample_file), fst_combine by (rewrite seq_length; auto). rewrite in_map_iff. split.
      + intros (i & <- & I). apply in_seq in I. exists i. split; [lia|reflexivity].
      + intros (i & I & ->). exists i. split; [reflexivity|]. apply in_seq. lia.
  Qed.
  (** The batch size does not matter. *)
  Theorem predict_batch_size : forall b k1 k2 dataset, (0 < k1)%nat -> (0 < k2)%nat -> dataset <> [] -> Forall good_sample dataset ->
    uniform dataset -> pred b "features_out" k1 dataset = pred b "features_out" k2 dataset.
  Proof.
    intros b k1 k2 dataset K1 K2 NE G U. destruct (predict_eq k1 dataset K1 NE G (or_intror U)) as [A1 A2].
    destruct (predict_eq k2 dataset K2 NE G (or_intror U)) as [B1 B2]. destruct b; [rewrite A1, B1|rewrite A2, B2]; reflexivity.
  Qed.
  (** The summary reports the average loss unless it is zero. *)
  Theorem summary_value_partial : forall k dataset, (0 < k)%nat -> dataset <> [] -> Forall good_sample dataset -> batchable k dataset ->
    lsum (map loss dataset) <> 0 ->
    exists files, pred true "features_out" k dataset
    = Ok (files, Some (Some (lsum (map loss dataset) / INR (length dataset))), Some (Some (lsum (map loss dataset) / INR (length dataset)))).
  Proof.
    intros k dataset K NE G B NZ. destruct (predict_eq k dataset K NE G B) as [E1 _]. eexists. rewrite E1. unfold summary_loss.
    destruct (Req_EM_T _ 0) as [Q|]; [exfalso|reflexivity]. apply NZ.
    assert (L : INR (length dataset) <> 0) by (apply not_0_INR; destruct dataset; [congruence|discriminate]).
    apply (Rmult_eq_reg_r (/ INR (length dataset))); [|apply Rinv_neq_0_compat; auto]. unfold Rdiv in Q. lra.
  Qed.
  Theorem perfect_predictions : forall k dataset, (0 < k)%nat -> dataset <> [] -> Forall good_sample dataset -> batchable k dataset ->
    (forall s, In s dataset -> loss s = 0) ->
    exists files, pred true "features_out" k dataset = Ok (files, Some (Some 0), None).
  Proof.
    intros k dataset K NE G B Z. destruct (predict_eq k dataset K NE G B) as [E1 _]. exists (sample_entries 0 dataset). rewrite E1.
    replace (lsum (map loss dataset) / INR (length dataset)) with 0.
    - unfold summary_loss. destruct (Req_EM_T 0 0); [reflexivity|lra].
    - assert (E : lsum (map loss dataset) = 0).
      { clear - Z. induction dataset as [|s d IH]; [reflexivity|]. cbn [map lsum]. rewrite Z by (left; auto). rewrite IH by (intros; apply Z; right; auto). lra. }
      rewrite E. unfold Rdiv. lra.
  Qed.
  (** Inputs without ground truth are refused with KeyError; an unknown nature
      of the loss is refused. *)
  Lemma first_batch_input (b : list sample) : b <> [] ->
    (forall s : sample, In s b -> NoDup (map fst s) /\ exists x, dget s "features_in" = Some (Tens x) /\ forall r, In r x -> length r = n_in) ->
    uniform b -> exists r x y, time_collator b = Ok r /\ dget r "features_in" = Some x /\ (if bin then norm_in x else Ok x) = Ok y
    /\ forall s0 rest, b = s0 :: rest ->
       (forall f rows, dget s0 f = Some (Tens rows) -> dget r f <> None) /\ (forall f, (forall rows, dget s0 f <> Some (Tens rows)) -> dget r f = None).
  Proof.
    intros NE G U. destruct b as [|x rest]; [congruence|]. set (b := x :: rest) in *.
    destruct (G x (or_introl eq_refl)) as (N & (xi & Ex & Rx)).
    destruct (proj2 (collate_succeeds_iff x rest N)) as [r C]. { apply U. left; auto. }
    pose proof C as C0. unfold time_collator in C. destruct (collate_features_ok _ _ _ _ C N) as [A B]. fold b in A, B.
    pose proof Ex as IN. apply (dget_in_iff _ _ _ N) in IN. destruct (A _ _ IN) as [E1 Q].
    exists r, (stack1 (length xi) (map (fun s => tens_of s "features_in") b)).
    assert (RG : regular n_in (Seq (stack1 (length xi) (map (fun s => tens_of s "features_in") b)))).
    { apply stack1_regular.
      - apply Forall_forall. intros t I. apply in_map_iff in I. destruct I as (s & <- & I). destruct (Q s I) as (rows' & D' & L & _).
        unfold tens_of. rewrite D'. exact L.
      - intros t r0 I J. apply in_map_iff in I. destruct I as (s & <- & I). destruct (G s I) as (_ & (x' & D' & R')).
        unfold tens_of in J. rewrite D' in J. auto. }
    exists (if bin then map (map gi) (stack1 (length xi) (map (fun s => tens_of s "features_in") b)) else stack1 (length xi) (map (fun s => tens_of s "features_in") b)).
    split; [exact C0|]. split; [exact E1|]. split; [destruct bin; [apply norm_in_rows; exact RG|reflexivity]|].
    intros s0 rest0 EQ. injection EQ as <- _. split.
    - intros f rows D. apply (dget_in_iff _ _ _ N) in D. destruct (A _ _ D) as [E _]. rewrite E. discriminate.
    - intros f D. etransitivity; [apply B|reflexivity]. intros rows I. apply (dget_in_iff _ _ _ N) in I. apply (D rows I).
  Qed.
  Lemma loop_first_error k (s0 : sample) (rest : list sample) : (0 < k)%nat ->
    (forall s : sample, In s (s0 :: rest) -> NoDup (map fst s) /\ exists x, dget s "features_in" = Some (Tens x) /\ forall r, In r x -> length r = n_in) ->
    batchable k (s0 :: rest) -> forall ln e,
    (((forall rows, dget s0 "features_out" <> Some (Tens rows)) /\ e = KeyError)
     \/ ((exists rows, dget s0 "features_out" = Some (Tens rows)) /\ ln <> "features_out" /\ e = RuntimeError)) ->
    forall hd, pred hd ln k (s0 :: rest) = Err e.
  Proof.
    intros K G B ln e W hd. unfold predict. rewrite loader_in_order.
    destruct (batches_spec k (length (s0 :: rest)) (s0 :: rest) K (le_n _)) as (E1 & E2 & _).
    assert (EB : exists b0 bs, batches (length (s0 :: rest)) k (s0 :: rest) = (s0 :: b0) :: bs).
    { destruct k; [lia|]. cbn [length batches firstn]. eauto. }
    destruct EB as (b0 & bs & EB). rewrite EB in *. cbn [map predict_loop].
    assert (S : forall s, In s (s0 :: b0) -> In s (s0 :: rest)) by (intros s J; rewrite <- E1; apply in_concat; exists (s0 :: b0); split; [left; auto|auto]).
    destruct (first_batch_input (s0 :: b0)) as (r & x & y & C & E3 & E4 & E5).
    { discriminate. } { intros s J. apply G; auto. }
    { destruct B as [->|U].
      - inversion E2 as [|? ? E3 _]; subst. destruct b0; cbn in E3; [|lia]. intros s' J f rows D s2 J2. cbn in J, J2. destruct J as [<-|[]]. destruct J2 as [<-|[]]. exists rows. auto.
      - intros s J f rows D s2 J2. apply (U s (S s J) f rows D s2). auto. }
    match goal with |- rbind (rbind ?t _) _ = _ => replace t with (Ok r) by (symmetry; exact C) end.
    cbn [rbind]. unfold batch_results. rewrite E3, E4. cbn [rbind]. destruct (E5 _ _ eq_refl) as [P1 P2].
    destruct W as [(W & ->)|((rows & W) & NL & ->)].
    - rewrite (P2 _ W). reflexivity.
    - destruct (dget r "features_out") eqn:E6; [|destruct (P1 _ _ W E6)]. rewrite (proj2 (String.eqb_neq _ _) NL). reflexivity.
  Qed.
  Theorem predict_needs_targets : forall hd ln k (s0 : sample) (rest : list sample), (0 < k)%nat ->
    (forall s : sample, In s (s0 :: rest) -> NoDup (map fst s) /\ exists x, dget s "features_in" = Some (Tens x) /\ forall r, In r x -> length r = n_in) ->
    batchable k (s0 :: rest) -> (forall rows, dget s0 "features_out" <> Some (Tens rows)) -> pred hd ln k (s0 :: rest) = Err KeyError.
  Proof. intros hd ln k s0 rest K G B W. apply loop_first_error; auto. Qed.
  Theorem predict_unknown_loss : forall hd ln k dataset, (0 < k)%nat -> dataset <> [] -> Forall good_sample dataset -> batchable k dataset ->
    ln <> "features_out" -> pred hd ln k dataset = Err RuntimeError.
  Proof.
    intros hd ln k [|s0 rest] K NE G B NL; [congruence|]. rewrite Forall_forall in G. apply loop_first_error; auto.
    - intros s I. destruct (G s I) as (N & (x & D & _ & R) & _). eauto.
    - right. destruct (G s0 (or_introl eq_refl)) as (_ & _ & (y & D & _)). eauto.
  Qed.
  (** When the normalisation inverts the denormalisation, the normalised loss
      compares the network's own output with the normalised targets. *)
  Theorem normalised_loss : forall s, good_sample s -> bloss = true -> bout = true -> (forall r, length r = n_out -> gn (go r) = r) ->
    loss s = loss_function (raw_output s) (map gn (targets s)).
  Proof.
    intros s G B1 B2 I. unfold loss, output. rewrite B1, B2. f_equal. rewrite map_map. rewrite <- (map_id (raw_output s)) at 2.
    apply map_ext_in. intros r J. apply I. apply (raw_output_rows s r G J).
  Qed.
End Props.

(** An empty data set: NaN average, and with a directory ValueError after the
    predictions. *)
Theorem predict_empty : forall net lf ni do no b1 b2 b3 ln k,
  predict net lf ni do no b1 b2 b3 false ln k [] = Ok ([], Some None, None)
  /\ predict net lf ni do no b1 b2 b3 true ln k [] = Err ValueError.
Proof. intros. split; reflexivity. Qed.
(** A sample without targets is handled by the computation of the loss. *)
Theorem loss_without_targets : forall lf no b out, compute_sample_prediction_loss lf no b out None = Ok None.
Proof. reflexivity. Qed.

(** The scalers of the code act row by row and invert each other. *)
Theorem scaler_rowwise : forall m f s n, scaler_in m f s -> invertible_scaler n s -> exists g h : list R -> list R,
  (forall t, regular n (Seq t) -> data_scaler_transform m (Seq t) f "normalize" = Ok (defined (Seq (map (map g) t))))
  /\ (forall t, regular n (Mat t) -> data_scaler_transform m (Mat t) f "normalize" = Ok (defined (Mat (map g t))))
  /\ (forall t, regular n (Seq t) -> data_scaler_transform m (Seq t) f "denormalize" = Ok (defined (Seq (map (map h) t))))
  /\ (forall t, regular n (Mat t) -> data_scaler_transform m (Mat t) f "denormalize" = Ok (defined (Mat (map h t))))
  /\ forall r, length r = n -> length (g r) = n /\ length (h r) = n /\ g (h r) = r /\ h (g r) = r.
Proof.
  intros m f s n S I.
  assert (L : forall g r, length (row_map n g r) = n) by (intros; unfold row_map; rewrite map_length, seq_length; reflexivity).
  assert (X : forall g h, (forall j x, (j < n)%nat -> g j (h j x) = x) -> forall r, length r = n -> row_map n g (row_map n h r) = r).
  { intros g h Q r LR. apply (nth_ext _ _ 0 0); [rewrite L; auto|]. intros j Hj. rewrite L in Hj. unfold row_map.
    etransitivity; [apply (nth_map_seq (fun j => g j (nth j (map (fun j0 => h j0 (nth j0 r 0)) (seq 0 n)) 0))); auto|].
    cbv beta. etransitivity; [|apply (Q j); auto]. f_equal. apply (nth_map_seq (fun j0 => h j0 (nth j0 r 0))). auto. }
  destruct s as [s|s].
  - destruct I as (<- & mu & d & E1 & E2 & ND).
    set (g := fun j x => (x - nth j mu 0) / nth j d 0). set (h := fun j x => x * nth j d 0 + nth j mu 0).
    assert (TG : forall t, regular (st_n s) t -> data_scaler_transform m t f "normalize" = Ok (defined (tmap (st_n s) g t))).
    { intros t Rt. rewrite (proj1 (transform_uses m f (Std s) t S)). unfold standard_transform. rewrite E1, E2. apply apply_features_some; auto.
      intros j x Hj. unfold standard_entry, g. destruct (Req_EM_T _ 0) as [Z|]; auto. destruct (ND j Hj Z). }
    assert (TH : forall t, regular (st_n s) t -> data_scaler_transform m t f "denormalize" = Ok (defined (tmap (st_n s) h t))).
    { intros t Rt. rewrite (proj2 (transform_uses m f (Std s) t S)). unfold standard_inverse_transform. rewrite E1, E2. apply apply_features_some; auto. }
    exists (row_map (st_n s) g), (row_map (st_n s) h).
    split; [intros t Rt; exact (TG (Seq t) Rt)|]. split; [intros t Rt; exact (TG (Mat t) Rt)|].
    split; [intros t Rt; exact (TH (Seq t) Rt)|]. split; [intros t Rt; exact (TH (Mat t) Rt)|].
    intros r LR. split; [apply L|]. split; [apply L|]. split; apply X; auto; intros j x Hj; specialize (ND j Hj); unfold g, h; field; auto.
  - destruct I as (<- & NB & a & b & E1 & E2 & ND).
    set (g := fun j x => mm_nmin s * 1 + ((mm_nmax s - mm_nmin s) * 1 / (nth j b 0 - nth j a 0)) * (x - nth j a 0)).
    set (h := fun j x => nth j a 0 + ((nth j b 0 - nth j a 0) / ((mm_nmax s - mm_nmin s) * 1)) * (x - mm_nmin s * 1)).
    assert (TG : forall t, regular (mm_n s) t -> data_scaler_transform m t f "normalize" = Ok (defined (tmap (mm_n s) g t))).
    { intros t Rt. rewrite (proj1 (transform_uses m f (Mm s) t S)). unfold minmax_transform. rewrite E1, E2. apply apply_features_some; auto.
      intros j x Hj. unfold minmax_entry, fmap, fdiv, g. destruct (Req_EM_T _ 0) as [Z|]; auto. specialize (ND j Hj). exfalso. apply ND. lra. }
    assert (TH : forall t, regular (mm_n s) t -> data_scaler_transform m t f "denormalize" = Ok (defined (tmap (mm_n s) h t))).
    { intros t Rt. rewrite (proj2 (transform_uses m f (Mm s) t S)). unfold minmax_inverse_transform. rewrite E1, E2. apply apply_features_some; auto.
      intros j x Hj. unfold minmax_inv_entry, fmap, fdiv, h. destruct (Req_EM_T _ 0) as [Z|]; auto. exfalso. apply NB. lra. }
    exists (row_map (mm_n s) g), (row_map (mm_n s) h).
    split; [intros t Rt; exact (TG (Seq t) Rt)|]. split; [intros t Rt; exact (TG (Mat t) Rt)|].
    split; [intros t Rt; exact (TH (Seq t) Rt)|]. split; [intros t Rt; exact (TH (Mat t) Rt)|].
    intros r LR. split; [apply L|]. split; [apply L|]. split; apply X; auto; intros j x Hj; specialize (ND j Hj); unfold g, h; field; split; lra.
Qed.

(** ** A concrete case: a network that doubles its inputs, scalers that
    multiply or divide by ten, two sequences of different values *)
Definition twice (r : list R) : list R := map (fun v => 2 * v) r.
Definition tenth (r : list R) : list R := map (fun v => v / 10) r.
Definition ten (r : list R) : list R := map (fun v => 10 * v) r.
Definition net_case (x : seq3) (h : option seq3) : seq3 := map (map twice) x.
Definition net1_case (x : seq2) (h : option seq2) : seq2 := map twice x.
Definition loss_case (x y : seq2) : R := Rabs (nth 0 (nth 0 x []) 0 - nth 0 (nth 0 y []) 0).
Definition norm3 (t : seq3) : res seq3 := Ok (map (map tenth) t).
Definition denorm3 (t : seq3) : res seq3 := Ok (map (map ten) t).
Definition norm2 (t : seq2) : res seq2 := Ok (map tenth t).
Definition data_case : list sample :=
  [ [("features_in", Tens [[10]; [20]]); ("features_out", Tens [[30]; [40]])];
    [("features_in", Tens [[1]; [2]]); ("features_out", Tens [[2]; [4]])] ].
Lemma net_case_separable T xs : Forall (fun x => length x = T) xs -> net_case (stack1 T xs) None = stack1 T (map (fun x => net1_case x None) xs).
Proof. intros F. unfold net_case, net1_case. apply stack1_map. auto. Qed.
Lemma net_case_hidden T Th xs hs : Forall (fun x => length x = T) xs -> length hs = length xs ->
  net_case (stack1 T xs) (Some (stack1 Th hs)) = stack1 T (map (fun xh => net1_case (fst xh) (Some (snd xh))) (combine xs hs)).
Proof.
  intros F L. unfold net_case. rewrite stack1_map by auto. f_equal. unfold net1_case.
  rewrite <- (map_map fst (map twice)), fst_combine by auto. reflexivity.
Qed.
Lemma data_case_good : Forall (good_sample 1 1) data_case.
Proof.
  unfold data_case. repeat constructor; cbn [map fst].
  all: try (intros [H|[]]; discriminate). all: try (intros []).
  all: eexists; split; [reflexivity|]; try split; cbn; try lia; intros r [<-|[<-|[]]]; reflexivity.
Qed.
Lemma data_case_uniform : uniform data_case.
Proof.
  intros s I f rows D s' I'. unfold data_case in I, I'. cbn [In] in I, I'.
  assert (K : f = "features_in" \/ f = "features_out").
  { destruct I as [<-|[<-|[]]]; apply dget_key in D; cbn in D; intuition. }
  destruct I as [<-|[<-|[]]]; destruct I' as [<-|[<-|[]]]; destruct K as [-> | ->];
    injection D as <-; eexists; (split; [reflexivity|]); split; reflexivity.
Qed.
Example predict_case : forall k, (0 < k)%nat -> exists files,
  predict net_case loss_case norm3 denorm3 norm2 true true true true "features_out" k data_case = Ok (files, Some (Some (1/2)), Some (Some (1/2)))
  /\ dget files "prediction_sample_0.pkl"
     = Some {| r_out := [[10 * (2 * (10/10))]; [10 * (2 * (20/10))]]; r_targets := Some [[30]; [40]]; r_loss := Some 1 |}.
Proof.
  intros k K. eexists. split.
  - etransitivity; [refine (proj1 (predict_eq net_case net1_case loss_case norm3 denorm3 norm2 tenth ten tenth true true true 1 1 _ _ _ _ _ _ _ _ _ k data_case K _ data_case_good (or_intror data_case_uniform)))|].
    + intros; apply net_case_separable; auto.
    + intros; apply net_case_hidden; auto.
    + intros; apply map_length.
    + intros x h r H I. unfold net1_case in I. apply in_map_iff in I. destruct I as (u & <- & I). unfold twice. rewrite map_length. auto.
    + reflexivity.
    + reflexivity.
    + reflexivity.
    + intros r H. unfold tenth. rewrite map_length. auto.
    + intros r H. unfold ten. rewrite map_length. auto.
    + discriminate.
    + cbn [map data_case length INR lsum].
      match goal with |- Ok (_, Some (Some ?v), _) = _ => replace v with (1/2) end.
      * unfold summary_loss. destruct (Req_EM_T (1/2) 0); [lra|]. reflexivity.
      * unfold loss, output, raw_output, input, targets, loss_case, net1_case, tenth, ten, twice. cbn.
        repeat match goal with |- context [Rabs ?e] => first [replace e with (-1) by lra; rewrite (Rabs_left (-1)) by lra | replace e with 0 by lra; rewrite Rabs_R0] end. lra.
  - cbn. f_equal. unfold expected. f_equal. f_equal. unfold loss. cbn. unfold loss_case. cbn.
    match goal with |- Rabs ?e = _ => replace e with (-1) by lra end. rewrite Rabs_left by lra. lra.
Qed.
Theorem predict_without_targets_refuted : exists net lf no dataset,
  (forall out, compute_sample_prediction_loss lf no false out None = Ok None)
  /\ dataset <> [] /\ predict net lf (fun t => Ok t) (fun t => Ok t) no false false false true "features_out" 1 dataset = Err KeyError.
Proof.
  exists net_case, loss_case, norm2, [ [("features_in", Tens [[1]])] ]. split; [reflexivity|]. split; [discriminate|]. reflexivity.
Qed.
Theorem zero_loss_reported_refuted : exists net lf ni do no dataset files,
  predict net lf ni do no false false false true "features_out" 1 dataset = Ok (files, Some (Some 0), None).
Proof.
  exists net_case, (fun _ _ => 0), norm3, denorm3, norm2, [ [("features_in", Tens [[1]]); ("features_out", Tens [[2]])] ]. eexists.
  unfold predict. cbn -[summary_loss Rdiv]. unfold summary_loss.
  replace ((0 + 0) / 1) with 0 by lra. destruct (Req_EM_T 0 0); [reflexivity|lra].
Qed.

Print Assumptions predict_values.
Print Assumptions predict_batch_size.
Print Assumptions scaler_rowwise.
Print Assumptions predict_needs_targets.
