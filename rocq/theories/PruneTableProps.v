(** Record, summary and plots of a data set pruning (C129). *)
From Coq Require Import String List Arith Bool QArith Reals Lia Lra Permutation.
From Verif Require Import Lib PyDict PyStr DatasetModel DatasetSpec DatasetProps PruningModel PruningProps PrunePreviewModel PrunePreviewProps PruneTableModel.
Import ListNotations.
Local Open Scope nat_scope.
Local Open Scope list_scope.

Lemma dset_new_length {V} (d : dict V) k v : dget d k = None -> length (dset d k v) = S (length d).
Proof.
  unfold dget, dset. induction d as [|[a b] d IH]; cbn; [reflexivity|]. destruct (String.eqb k a); [discriminate|]. intros H. cbn. now rewrite IH.
Qed.
Lemma dset_old_length {V} (d : dict V) k v : dget d k <> None -> length (dset d k v) = length d.
Proof.
  unfold dget, dset. induction d as [|[a b] d IH]; cbn; [congruence|]. destruct (String.eqb k a); [reflexivity|]. intros H. cbn. now rewrite IH.
Qed.
(** ** The record of the iterations *)
Section Rec.
  Context {A : Type}.
  Variables (perm : nat -> nat -> list nat) (types : list string) (loss nrmse : nat -> string -> option R) (a b : Q).
  Hypothesis HP : forall k n, Permutation (perm k n) (seq 0 n).
  Let sz : dict Q := [("training"%string, a); ("validation"%string, b)].
  Lemma testing_values_get (value : nat -> string -> option R) k (unused : list A) : forall ts d t,
    dget (fold_left (fun d t => dset d t (if String.eqb t "unused_data" && Nat.eqb (length unused) 0 then None else value k t)) ts d) t =
    if in_dec string_dec t ts then Some (if String.eqb t "unused_data" && Nat.eqb (length unused) 0 then None else value k t) else dget d t.
  Proof.
    induction ts as [|x ts IH]; intros d t; [reflexivity|]. cbn [fold_left]. rewrite IH. destruct (in_dec string_dec t ts) as [I|I].
    - destruct (in_dec string_dec t (x :: ts)) as [_|N]; [reflexivity|]. exfalso. apply N. now right.
    - destruct (string_dec x t) as [->|N].
      + rewrite dget_dset_same. destruct (in_dec string_dec t (t :: ts)) as [_|M]; [reflexivity|]. exfalso. apply M. now left.
      + rewrite dget_dset_other by exact N. destruct (in_dec string_dec t (x :: ts)) as [[M|M]|_]; [contradiction|contradiction|reflexivity].
  Qed.
  Lemma iteration_record_inv k l e (du : list A * list A) r : iteration_record (perm k) sz l e du = Ok r ->
    i_dev r = length (fst du) /\ i_unused r = length (snd du) /\ i_train r + i_valid r = length (fst du) /\ 0 < i_train r /\ 0 < i_valid r /\ i_loss r = l /\ i_nrmse r = e.
  Proof.
    unfold iteration_record. destruct (split_dataset (perm k) (length (fst du)) sz) as [subs|] eqn:E; [|discriminate]. cbn [rbind].
    destruct (split_partitions _ _ _ _ (HP k _) E) as (P1 & P2 & P3 & _). intros H.
    destruct subs as [|[k1 s1] [|[k2 s2] [|]]]; try discriminate P2. cbn in P2. injection P2 as -> ->. cbn in H. injection H as <-. cbn.
    unfold partition_of in P1. cbn in P1. rewrite app_nil_r in P1. apply Permutation_length in P1. rewrite app_length, seq_length in P1.
    inversion P3 as [|? ? N1 P3']; subst. inversion P3' as [|? ? N2 _]; subst. cbn in N1, N2.
    destruct s1; [congruence|]. destruct s2; [congruence|]. cbn in *. repeat split; lia.
  Qed.
  Lemma record_from_inv : forall (hist : list (list A * list A)) k d r, record_from perm sz types loss nrmse k hist d = Ok r ->
    (forall j, k <= j -> dget d (nat_str j) = None) ->
    length r = length d + length hist /\
    (forall j, j < k -> dget r (nat_str j) = dget d (nat_str j)) /\
    (forall i du, nth_error hist i = Some du -> exists e, dget r (nat_str (k + i)) = Some e /\
      iteration_record (perm (k + i)) sz (testing_values loss types (k + i) (snd du)) (testing_values nrmse types (k + i) (snd du)) du = Ok e).
  Proof.
    induction hist as [|du hist IH]; intros k d r H F; cbn in H.
    - injection H as <-. split; [cbn; lia|]. split; [reflexivity|]. intros [|i] du; discriminate.
    - destruct (iteration_record (perm k) sz (testing_values loss types k (snd du)) (testing_values nrmse types k (snd du)) du) as [e|] eqn:E; [|discriminate]. cbn [rbind] in H.
      assert (N : forall j, j <> k -> nat_str k <> nat_str j) by (intros j Nj Q; apply nat_str_inj in Q; congruence).
      destruct (IH (S k) (dset d (nat_str k) e) r H) as (L & O & T).
      { intros j Hj. rewrite dget_dset_other by (apply N; lia). apply F. lia. }
      split; [rewrite L, dset_new_length by (apply F; lia); cbn; lia|]. split.
      + intros j Hj. rewrite O by lia. apply dget_dset_other, N. lia.
      + intros [|i] du' X; cbn in X.
        * injection X as <-. exists e. rewrite Nat.add_0_r. split; [rewrite O by lia; apply dget_dset_same|exact E].
        * rewrite <- Nat.add_succ_comm. exact (T i du' X).
  Qed.
  (** The entry of an iteration holds the sizes of its data sets and the values
      of the testing types. *)
  Theorem record_law : forall (hist : list (list A * list A)) r, record_from perm sz types loss nrmse 0 hist [] = Ok r ->
    length r = length hist /\ forall k du, nth_error hist k = Some du -> exists e, dget r (nat_str k) = Some e /\
      i_dev e = length (fst du) /\ i_unused e = length (snd du) /\ i_train e + i_valid e = length (fst du) /\ 0 < i_train e /\ 0 < i_valid e /\
      forall t, In t types -> let shown (value : nat -> string -> option R) := if String.eqb t "unused_data" && Nat.eqb (length (snd du)) 0 then None else value k t in
        dget (i_loss e) t = Some (shown loss) /\ dget (i_nrmse e) t = Some (shown nrmse).
  Proof.
    intros hist r H. destruct (record_from_inv hist 0 [] r H (fun _ _ => eq_refl)) as (L & _ & T). split; [exact L|].
    intros k du X. destruct (T k du X) as (e & G & E). cbn [Nat.add] in *. exists e. split; [exact G|].
    destruct (iteration_record_inv _ _ _ _ _ E) as (E1 & E2 & E3 & E4 & E5 & E6 & E7). repeat split; auto.
    - rewrite E6. unfold testing_values. rewrite testing_values_get. destruct (in_dec string_dec t types); [reflexivity|contradiction].
    - rewrite E7. unfold testing_values. rewrite testing_values_get. destruct (in_dec string_dec t types); [reflexivity|contradiction].
  Qed.
End Rec.

(** ** Tables *)
Local Open Scope R_scope.
Lemma percent_ok n_full n : n_full <> 0%nat -> percent n_full n = Ok (INR n / INR n_full * 100).
Proof. intros N. unfold percent. destruct (Nat.eqb_spec n_full 0); [contradiction|reflexivity]. Qed.
Definition pct (n_full n : nat) : R := INR n / INR n_full * 100.
Section Tab.
  Variables (n_full : nat) (data : dict iter_data) (e : nat -> iter_data).
  Hypothesis N : n_full <> 0%nat.
  Hypothesis He : forall k, (k < length data)%nat -> dget data (nat_str k) = Some (e k).
  Theorem size_table_law : size_table n_full data = Ok (map (fun k => [INR k; pct n_full (i_dev (e k)); INR k; pct n_full (i_train (e k));
    INR k; pct n_full (i_valid (e k)); INR k; pct n_full (i_unused (e k))]) (seq 0 (length data))).
  Proof.
    apply rmap_all. intros k K. apply in_seq in K. unfold dlookup. rewrite He by lia. cbn [rbind]. rewrite !percent_ok by exact N. reflexivity.
  Qed.
  Lemma test_table_law t (v : nat -> option R) : (forall k, (k < length data)%nat -> dget (i_nrmse (e k)) t = Some (v k)) ->
    test_table n_full data t = Ok (map (fun k => [Some (pct n_full (i_dev (e k))); v k]) (seq 0 (length data))).
  Proof.
    intros V. apply rmap_all. intros k K. apply in_seq in K. unfold dlookup. rewrite He by lia. cbn [rbind]. rewrite !percent_ok by exact N. cbn [rbind].
    rewrite V by lia. reflexivity.
  Qed.
  Variable v : string -> nat -> option R.
  Definition known_test (t : string) : Prop := t = "in_distribution"%string \/ t = "out_distribution"%string \/ t = "unused_data"%string.
  Definition table_of (t : string) : list (list (option R)) := map (fun k => [Some (pct n_full (i_dev (e k))); v t k]) (seq 0 (length data)).
  Definition threshold_of (plotted : bool) (ratio : R) (t : string) : option R :=
    if plotted && negb (String.eqb t "unused_data") then match v t 0 with Some x => Some ((1 + ratio) * x) | None => None end else None.
  Lemma threshold_law plotted ratio t : (0 < length data)%nat -> (plotted = true -> t <> "unused_data"%string -> v t 0 <> None) ->
    threshold plotted ratio t (table_of t) = Ok (threshold_of plotted ratio t).
  Proof.
    intros L V. unfold threshold, threshold_of, table_of. destruct plotted; [|reflexivity]. destruct (String.eqb_spec t "unused_data") as [|U]; [reflexivity|].
    destruct (length data) as [|m]; [lia|]. cbn. specialize (V eq_refl U). destruct (v t 0); [reflexivity|congruence].
  Qed.
  Lemma hconcat_rows (f g : nat -> list (option R)) l : hconcat (map f l) (map g l) = map (fun k => f k ++ g k) l.
  Proof. unfold hconcat. induction l as [|x l IH]; [reflexivity|]. cbn in *. now rewrite IH. Qed.
  Definition label_of (t l : string) : Prop := (t = "in_distribution" /\ l = "In-distribution")%string \/ (t = "out_distribution" /\ l = "Out-of-distribution")%string \/ (t = "unused_data" /\ l = "Unused")%string.
  (** Plots: for each testing type its errors over the share of the full data
      set, and all of them side by side. *)
  Theorem plots_law : forall types plotted ratio, (0 < length data)%nat -> types <> [] -> Forall known_test types ->
    (forall t k, In t types -> (k < length data)%nat -> dget (i_nrmse (e k)) t = Some (v t k)) ->
    (plotted = true -> forall t, In t types -> t <> "unused_data"%string -> v t 0 <> None) ->
    exists sizes labels, plot_pruning n_full data types plotted ratio =
      Ok (sizes, map (fun t => mkPlot ("pruning_testing_convergence_" ++ t) (table_of t) (threshold_of plotted ratio t)) types,
          (labels, map (fun k => concat (map (fun t => [Some (pct n_full (i_dev (e k))); v t k]) types)) (seq 0 (length data)))) /\
      Forall2 label_of types labels.
  Proof.
    intros types plotted ratio L NE KN V T.
    assert (G : forall ts ps (f : nat -> list (option R)), incl ts types ->
      rfold (plot_type n_full data plotted ratio) ts (ps, map f (seq 0 (length data))) =
      Ok (ps ++ map (fun t => mkPlot ("pruning_testing_convergence_" ++ t) (table_of t) (threshold_of plotted ratio t)) ts,
          map (fun k => f k ++ concat (map (fun t => [Some (pct n_full (i_dev (e k))); v t k]) ts)) (seq 0 (length data)))).
    { induction ts as [|t ts IH]; intros ps f I; cbn [rfold].
      - cbn. rewrite app_nil_r. f_equal. f_equal. apply map_ext. intros k. now rewrite app_nil_r.
      - assert (It : In t types) by (apply I; now left). unfold plot_type at 1. rewrite (test_table_law t (v t)) by (intros k K; now apply V). cbn [rbind].
        change (map (fun k => [Some (pct n_full (i_dev (e k))); v t k]) (seq 0 (length data))) with (table_of t).
        rewrite threshold_law by (auto; intros P U; now apply T). cbn [rbind fst snd]. unfold table_of at 2. rewrite hconcat_rows, IH by (intros x Hx; apply I; now right).
        rewrite <- app_assoc. cbn [map app]. f_equal. f_equal. apply map_ext. intros k. cbn [concat map]. now rewrite <- app_assoc. }
    assert (D : exists labels, rmap (dlookup labels_map) types = Ok labels /\ Forall2 label_of types labels).
    { clear - KN. induction KN as [|t ts K _ (ls & E & F)]; [exists []; split; constructor|]. cbn [rmap]. unfold dlookup at 1.
      assert (X : exists l, dget labels_map t = Some l /\ label_of t l) by (destruct K as [->|[->| ->]]; eexists; (split; [reflexivity|unfold label_of; auto])). destruct X as (l & X & Y). rewrite X. cbn [rbind]. rewrite E.
      exists (l :: ls). split; [reflexivity|]. constructor; assumption. }
    destruct D as (labels & D & F). eexists. exists labels. split; [|exact F].
    unfold plot_pruning. rewrite size_table_law. cbn [rbind].
    replace (repeat [] (length data)) with (map (fun _ : nat => @nil (option R)) (seq 0 (length data))).
    2:{ clear. generalize 0%nat. induction (length data) as [|m IH]; intros s; [reflexivity|]. cbn. now rewrite IH. }
    rewrite G by (intros x Hx; exact Hx). cbn [rbind]. rewrite D. cbn [rbind fst snd app]. destruct types; [congruence|reflexivity].
  Qed.
End Tab.
(** ** A pruning and its record *)
Section Run.
  Context {A K : Type}.
  Variables (kleb : K -> K -> bool) (k0 : K).
  (** In every iteration the shares of the development and unused data sets add
      up to the full data set, and those of the training and validation data sets
      to that of the development data set; the first iteration has the full data
      set, and the development data set never grows. *)
  Theorem run_record : forall p perm perm' losses (full : list A) hist a b types loss nrmse r,
    (forall k n, Permutation (perm k n) (seq 0 n)) -> (forall k n, Permutation (perm' k n) (seq 0 n)) -> (forall k t, length (losses k t) = length t) ->
    (p_ratio_max p <= 1)%Q -> p_iter_sizes p = [("training"%string, a); ("validation"%string, b)] ->
    prune kleb k0 p perm perm' losses full = Ok hist -> record_from perm' (p_iter_sizes p) types loss nrmse 0 hist [] = Ok r ->
    length r = length hist /\ forall k, (k < length hist)%nat -> exists e, dget r (nat_str k) = Some e /\
      (i_dev e + i_unused e = length full)%nat /\ (i_train e + i_valid e = i_dev e)%nat /\
      i_dev e = sizes (p_sched p) k (length full).
  Proof.
    intros p perm perm' losses full hist a b types loss nrmse r HP HP' HL RM SZ H R. rewrite SZ in R.
    destruct (record_law perm' types loss nrmse a b HP' hist r R) as (L & T). split; [exact L|]. intros k KL.
    destruct (nth_error hist k) as [du|] eqn:E; [|apply nth_error_None in E; lia]. destruct (T k du E) as (e & G & E1 & E2 & E3 & _).
    exists e. split; [exact G|]. unfold prune in H.
    destruct (prune_rows kleb k0 p perm perm' losses HP HL RM _ _ _ _ _ H k du E) as (F1 & F2). cbv zeta in *. cbn [length] in *. repeat split; lia.
  Qed.
End Run.
(** Numbers of a row of the summary file. *)
Theorem summary_law : forall n_full k r row losses, summary_row n_full k r = Ok (row, losses) ->
  (i_dev r + i_unused r = n_full)%nat -> (i_train r + i_valid r = i_dev r)%nat ->
  nth 2 row 0 + nth 8 row 0 = 100 /\ nth 4 row 0 + nth 6 row 0 = nth 2 row 0 /\ nth 0 row 0 = INR k /\
  nth 1 row 0 = INR (i_dev r) /\ nth 3 row 0 = INR (i_train r) /\ nth 5 row 0 = INR (i_valid r) /\ nth 7 row 0 = INR (i_unused r) /\
  forall i t, nth_error ["in_distribution"; "out_distribution"; "unused_data"]%string i = Some t ->
    nth_error losses i = Some (match dget (i_loss r) t with Some x => x | None => None end).
Proof.
  intros n_full k r row losses H E1 E2. unfold summary_row, percent in H. destruct (Nat.eqb_spec n_full 0) as [|N]; [discriminate|]. cbn [rbind] in H.
  injection H as <- <-. assert (P : INR n_full <> 0) by (apply not_0_INR; exact N). cbn [nth].
  repeat split.
  - rewrite <- E1, plus_INR. rewrite <- E1, plus_INR in P. field. exact P.
  - rewrite <- E2, plus_INR. field. exact P.
  - intros [|[|[|i]]] t I; cbn in *; try discriminate; try (injection I as <-; reflexivity). destruct i; discriminate.
Qed.
(** The first iteration has no unused samples, so that the curve of the unused
    data has no first point. *)
Theorem unused_first_point : forall {A} (perm : nat -> nat -> list nat) types loss nrmse a b (hist : list (list A * list A)) r dev,
  (forall k n, Permutation (perm k n) (seq 0 n)) -> nth_error hist 0 = Some (dev, []) -> In "unused_data"%string types ->
  record_from perm [("training"%string, a); ("validation"%string, b)] types loss nrmse 0 hist [] = Ok r ->
  exists e, dget r (nat_str 0) = Some e /\ dget (i_loss e) "unused_data" = Some None /\ dget (i_nrmse e) "unused_data" = Some None.
Proof.
  intros A perm types loss nrmse a b hist r dev HP H0 I H. destruct (record_law perm types loss nrmse a b HP hist r H) as (_ & T).
  destruct (T _ _ H0) as (e & G & _ & _ & _ & _ & _ & V). exists e. split; [exact G|]. exact (V _ I).
Qed.
Definition one_iteration (v : option R) : dict iter_data := [("0"%string, mkIter 10 8 2 0 [("in_distribution"%string, Some 1)] [("in_distribution"%string, v)])].
(** Without the errors of the first iteration the threshold cannot be drawn, and
    no plot of the testing performance results although the losses are there. *)
Theorem threshold_refuted : exists data types, (forall k r, dget data k = Some r -> forall t, In t types -> exists x, dget (i_loss r) t = Some (Some x)) /\
  plot_pruning 10 data types true (1 / 10) = Err TypeError /\ exists o, plot_pruning 10 data types false (1 / 10) = Ok o.
Proof.
  exists (one_iteration None), ["in_distribution"%string]. split; [|split; [reflexivity|eexists; reflexivity]].
  intros k r. cbn. destruct (String.eqb k "0"); [|discriminate]. intros [= <-] t [<-|[]]. exists 1. reflexivity.
Qed.
(** A pruning without testing types cannot be plotted. *)
Theorem no_testing_refuted : forall n_full data e plotted ratio, n_full <> 0%nat -> (forall k, (k < length data)%nat -> dget data (nat_str k) = Some (e k)) ->
  plot_pruning n_full data [] plotted ratio = Err NameError.
Proof. intros n_full data e plotted ratio N H. unfold plot_pruning. rewrite (size_table_law n_full data e N H). reflexivity. Qed.
Example plots_case : exists sizes, plot_pruning 10 (one_iteration (Some 2)) ["in_distribution"%string] true (1 / 10) =
  Ok (sizes, [mkPlot "pruning_testing_convergence_in_distribution" [[Some (INR 10 / INR 10 * 100); Some 2]] (Some ((1 + 1 / 10) * 2))],
      (["In-distribution"%string], [[Some (INR 10 / INR 10 * 100); Some 2]])).
Proof. eexists. reflexivity. Qed.

Print Assumptions record_law.
Print Assumptions size_table_law.
Print Assumptions plots_law.
Print Assumptions run_record.
Print Assumptions summary_law.
Print Assumptions unused_first_point.
Print Assumptions threshold_refuted.
Print Assumptions no_testing_refuted.
