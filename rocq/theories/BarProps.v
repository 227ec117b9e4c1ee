(** Grouped bar charts and box plots (C136). *)
From Coq Require Import String Reals List Bool Arith Lia Lra.
From Verif Require Import Lib PyDict PlotBaseModel PlotBaseProps BarModel.
Import ListNotations.
Local Open Scope string_scope.
Local Open Scope list_scope.
Local Open Scope R_scope.

Lemma in_combine_seq {A} (l : list A) a k x : In (k, x) (combine (seq a (length l)) l) <-> (a <= k)%nat /\ nth_error l (k - a) = Some x.
Proof.
  revert a. induction l as [|y l IH]; intros a; cbn [length seq combine In].
  - split; [tauto|]. intros (_ & H). destruct (k - a)%nat; discriminate.
  - rewrite IH. split.
    + intros [E|(L & H)]; [injection E as -> ->; rewrite Nat.sub_diag; split; [lia|reflexivity]|]. split; [lia|]. replace (k - a)%nat with (S (k - S a)) by lia. exact H.
    + intros (L & H). destruct (Nat.eq_dec a k) as [->|N].
      * left. rewrite Nat.sub_diag in H. injection H as ->. reflexivity.
      * right. split; [lia|]. replace (k - a)%nat with (S (k - S a)) in H by lia. exact H.
Qed.
Section Chart.
  Variables (labels : list string) (data : dict (list R)) (width : option R).
  Let n := length labels.
  Let m := length data.
  (** The width given, or the one with which a group leaves two bars of room. *)
  Let w := match width with Some u => u | None => / (INR m + 2) end.
  Lemma w_eq : bar_width width m = w.
  Proof. unfold bar_width, w. destruct width; [reflexivity|]. unfold Rdiv. rewrite Rmult_1_l. f_equal. apply Rplus_comm. Qed.
  (** The chart is refused exactly when a data set does not have one value for
      each group, or when averages of nothing are asked for. *)
  Theorem chart_refused : forall avg e, bar_chart labels data width avg = Err e <->
    (e = RuntimeError /\ exists k v, In (k, v) data /\ length v <> n) \/
    (e = IndexError /\ (forall k v, In (k, v) data -> length v = n) /\ avg = true /\ (m = 0%nat \/ n = 0%nat)).
  Proof.
    intros avg e. unfold bar_chart. fold n m. destruct (forallb (fun kv => Nat.eqb (length (snd kv)) n) data) eqn:F; cbn [negb].
    - rewrite forallb_forall in F. assert (G : forall k v, In (k, v) data -> length v = n) by (intros k v I; apply Nat.eqb_eq; exact (F _ I)).
      destruct (avg && (Nat.eqb m 0 || Nat.eqb n 0)) eqn:B.
      + apply andb_true_iff in B as (-> & B). apply orb_true_iff in B. rewrite !Nat.eqb_eq in B. split; [intros [= <-]; right; auto|]. intros [(_ & k & v & I & N)|(-> & _)]; [elim N; eauto|reflexivity].
      + split; [discriminate|]. intros [(_ & k & v & I & N)|(_ & _ & -> & H)]; [elim N; eauto|]. cbn in B. apply orb_false_iff in B as (B1 & B2). apply Nat.eqb_neq in B1, B2. tauto.
    - assert (X : exists k v, In (k, v) data /\ length v <> n).
      { clear -F. induction data as [|[k v] l IH]; [discriminate|]. cbn in F. apply andb_false_iff in F as [F|F]; [exists k, v; split; [now left|now apply Nat.eqb_neq]|]. destruct (IH F) as (k' & v' & I & N). exists k', v'. split; [now right|exact N]. }
      split; [intros [= <-]; now left|]. intros [(-> & _)|(_ & G & _)]; [reflexivity|]. destruct X as (k & v & I & N). elim N. eauto.
  Qed.
  (** Every value of every data set has its bar, of its height, and there are no
      others; every group has its label. *)
  Theorem chart_law : forall avg c, bar_chart labels data width avg = Ok c ->
    (forall b, In b (c_bars c) <-> exists i k v x, nth_error data i = Some (k, v) /\ nth_error v (b_group b) = Some x /\ (b_group b < n)%nat /\ b_set b = k /\ b_height b = x /\
      b_left b = INR (b_group b) + INR i * w /\ b_right b = INR (b_group b) + (INR i + 1) * w) /\
    (forall x l, In (x, l) (c_ticks c) <-> exists g, nth_error labels g = Some l /\ x = INR g + w) /\
    (avg = true -> map fst (c_averages c) = map fst data /\ forall k a, In (k, a) (c_averages c) -> exists v, In (k, v) data /\ a * INR n = lsum v).
  Proof.
    intros avg c H. unfold bar_chart in H. fold n m in H. destruct (forallb (fun kv => Nat.eqb (length (snd kv)) n) data) eqn:F; cbn [negb] in H; [|discriminate].
    destruct (avg && (Nat.eqb m 0 || Nat.eqb n 0)) eqn:AV; [discriminate|]. injection H as <-. cbn [c_bars c_ticks c_averages].
    rewrite forallb_forall in F. assert (G : forall k v, In (k, v) data -> length v = n) by (intros k v I; apply Nat.eqb_eq; exact (F _ I)). rewrite w_eq. split; [|split].
    - intros b. rewrite in_flat_map. split.
      + intros ([i [k v]] & I & B). apply in_combine_seq in I as (_ & I). rewrite Nat.sub_0_r in I. cbn [fst snd] in B. unfold set_bars in B. apply in_map_iff in B as ([g x] & <- & J). apply in_combine_seq in J as (_ & J). rewrite Nat.sub_0_r in J.
        cbn [fst snd b_group b_set b_height b_left b_right]. exists i, k, v, x. repeat split; auto; try lra.
        rewrite <- (G k v) by (eapply nth_error_In; exact I). apply nth_error_Some. congruence.
      + intros (i & k & v & x & I & X & L & S & Hh & Bl & Br). exists (i, (k, v)). split; [apply in_combine_seq; rewrite Nat.sub_0_r; split; [lia|exact I]|]. cbn [fst snd]. unfold set_bars. apply in_map_iff. exists (b_group b, x). split.
        * cbn [fst snd]. destruct b as [bs bg bl br bh]; cbn [b_group b_set b_height b_left b_right] in *. subst. f_equal; lra.
        * apply in_combine_seq. rewrite Nat.sub_0_r. split; [lia|exact X].
    - intros x l. rewrite in_map_iff. split.
      + intros ([g l'] & E & I). cbn [fst snd] in E. injection E as <- ->. unfold n in I. apply in_combine_seq in I as (_ & I). rewrite Nat.sub_0_r in I. eauto.
      + intros (g & I & ->). exists (g, l). split; [reflexivity|]. unfold n. apply in_combine_seq. rewrite Nat.sub_0_r. split; [lia|exact I].
    - intros ->. cbn [andb] in AV. apply orb_false_iff in AV as (_ & N). apply Nat.eqb_neq in N. split; [rewrite map_map; reflexivity|]. intros k a I. apply in_map_iff in I as ([k' v] & E & I). cbn [fst snd] in E. injection E as -> <-.
      exists v. split; [exact I|]. unfold mean_of. rewrite (G k v I). unfold Rdiv. rewrite Rmult_assoc, Rinv_l; [ring|]. apply not_0_INR. exact N.
  Qed.
  (** Bars do not overlap: with the width of the code, and in general exactly for
      widths that fit in a group. *)
  Definition apart (b c : bar) : Prop := b_right b <= b_left c \/ b_right c <= b_left b.
  Definition place (b : bar) (i : nat) : Prop := b_left b = INR (b_group b) + INR i * w /\ b_right b = INR (b_group b) + (INR i + 1) * w.
  Lemma w_pos : width = None -> 0 < w /\ INR m * w < 1.
  Proof.
    intros E. unfold w. rewrite E. pose proof (pos_INR m). assert (P : 0 < / (INR m + 2)) by (apply Rinv_0_lt_compat; lra). assert (Q : (INR m + 2) * / (INR m + 2) = 1) by (apply Rinv_r; lra). split; nra.
  Qed.
  Lemma fits_apart b c i j : 0 < w -> INR m * w <= 1 -> place b i -> place c j -> (i < m)%nat -> (j < m)%nat -> (i, b_group b) <> (j, b_group c) -> apart b c.
  Proof.
    intros W F (B1 & B2) (C1 & C2) I J N. unfold apart. rewrite B1, B2, C1, C2. apply lt_INR in I as I', J as J'. assert (IM : INR i + 1 <= INR m) by (rewrite <- S_INR; apply le_INR; lia). assert (JM : INR j + 1 <= INR m) by (rewrite <- S_INR; apply le_INR; lia).
    pose proof (pos_INR i). pose proof (pos_INR j).
    destruct (Nat.lt_trichotomy (b_group b) (b_group c)) as [L|[L|L]].
    - left. assert (Q : INR (b_group b) + 1 <= INR (b_group c)) by (rewrite <- S_INR; apply le_INR; lia). nra.
    - rewrite L in *. destruct (Nat.lt_trichotomy i j) as [K|[K|K]]; [left|congruence|right].
      + assert (Q : INR i + 1 <= INR j) by (rewrite <- S_INR; apply le_INR; lia). nra.
      + assert (Q : INR j + 1 <= INR i) by (rewrite <- S_INR; apply le_INR; lia). nra.
    - right. assert (Q : INR (b_group c) + 1 <= INR (b_group b)) by (rewrite <- S_INR; apply le_INR; lia). nra.
  Qed.
  Theorem default_bars_apart : width = None -> forall avg ch, bar_chart labels data width avg = Ok ch -> forall b c, In b (c_bars ch) -> In c (c_bars ch) -> b <> c -> apart b c.
  Proof.
    intros E avg ch H b c B C N. destruct (chart_law avg ch H) as (L & _). apply L in B as (i & k & v & x & I & X & _ & S & Hh & B1 & B2). apply L in C as (j & k' & v' & x' & J & X' & _ & S' & Hh' & C1 & C2).
    destruct (w_pos E) as (W & F). apply (fits_apart b c i j); try assumption; try lra; try (split; assumption); try (apply nth_error_Some; congruence).
    intros Q. injection Q as Q1 Q2. apply N. subst j. rewrite I in J. injection J as <- <-. rewrite Q2 in *. rewrite X in X'. injection X' as <-. destruct b, c; cbn in *; subst. reflexivity.
  Qed.
  (** Bars which do not fit in their group cover a bar of the next group. *)
  Lemma first_past j : 0 < w -> 1 < INR j * w -> exists i, (i < j)%nat /\ INR i * w <= 1 < (INR i + 1) * w.
  Proof.
    intros W. induction j as [|j IH]; intros H; [cbn in H; lra|]. rewrite S_INR in H. destruct (Rlt_dec 1 (INR j * w)) as [L|L].
    - destruct (IH L) as (i & I & P). exists i. split; [lia|exact P].
    - exists j. split; [lia|]. split; lra.
  Qed.
  Theorem wide_bars_refuted : (2 <= n)%nat -> 0 < w -> 1 < INR m * w -> (forall k v, In (k, v) data -> length v = n) -> exists ch b c, bar_chart labels data width false = Ok ch /\ In b (c_bars ch) /\ In c (c_bars ch) /\ b <> c /\ ~ apart b c.
  Proof.
    intros N W O G. destruct (bar_chart labels data width false) as [ch|e] eqn:H.
    2:{ apply chart_refused in H as [(_ & k & v & I & Q)|(_ & _ & Q & _)]; [elim Q; eauto|discriminate]. }
    destruct (chart_law false ch H) as (L & _). destruct (first_past m W O) as (i & IM & P1 & P2).
    destruct (nth_error data i) as [[k v]|] eqn:I; [|apply nth_error_None in I; fold m in I; lia].
    destruct (nth_error data 0) as [[k' v']|] eqn:J; [|apply nth_error_None in J; fold m in J; lia].
    assert (LV : length v = n) by (eapply G, nth_error_In; exact I). assert (LV' : length v' = n) by (eapply G, nth_error_In; exact J).
    destruct (nth_error v 0) as [x|] eqn:X; [|apply nth_error_None in X; lia]. destruct (nth_error v' 1) as [x'|] eqn:X'; [|apply nth_error_None in X'; lia].
    exists ch, (mkBar k 0 (INR 0 + INR i * w) (INR 0 + (INR i + 1) * w) x), (mkBar k' 1 (INR 1 + INR 0 * w) (INR 1 + (INR 0 + 1) * w) x').
    split; [reflexivity|]. split; [apply L; exists i, k, v, x; cbn [b_group b_set b_height b_left b_right]; repeat split; auto; lia|].
    split; [apply L; exists 0%nat, k', v', x'; cbn [b_group b_set b_height b_left b_right]; repeat split; auto; lia|]. split; [intros Q; discriminate|].
    unfold apart. cbn [b_left b_right]. cbn [INR]. intros [Q|Q]; lra.
  Qed.
  (** The label of a group is under the middle of its bars only for two data sets. *)
  Theorem group_label_refuted : m <> 2%nat -> NoDup labels -> w <> 0 -> forall avg ch, bar_chart labels data width avg = Ok ch -> forall g l, nth_error labels g = Some l ->
    ~ In (INR g + INR m * w / 2, l) (c_ticks ch).
  Proof.
    intros M N W avg ch H g l G I. destruct (chart_law avg ch H) as (_ & T & _). apply T in I as (g' & G' & E).
    assert (g' = g) as ->. { rewrite NoDup_nth_error in N. apply N; [apply nth_error_Some; congruence|congruence]. }
    apply M, INR_eq. cbn [INR]. assert (Q : (INR m - 2) * w = 0) by lra. apply Rmult_integral in Q as [Q|Q]; [lra|contradiction].
  Qed.
  Theorem group_label_two : m = 2%nat -> forall avg ch, bar_chart labels data width avg = Ok ch -> forall g l, nth_error labels g = Some l -> In (INR g + INR m * w / 2, l) (c_ticks ch).
  Proof. intros M avg ch H g l G. destruct (chart_law avg ch H) as (_ & T & _). apply T. exists g. split; [exact G|]. rewrite M. cbn [INR]. lra. Qed.
End Chart.

(** ** Box plots *)
(** Every column has its box with its label, in order, in one subplot or in a
    subplot of its own; no columns in no subplots are an unbound name. *)
Definition boxes_of (cols : nat) (rows : list (list R)) (labels : option (list (option string))) (bs : list (option string * list R)) : Prop :=
  length bs = cols /\ forall k l c, nth_error bs k = Some (l, c) ->
    (match labels with Some ls => nth_error ls k = Some l | None => l = None end) /\
    length c = length rows /\ forall i r, nth_error rows i = Some r -> length r = cols -> nth_error c i = nth_error r k.
Lemma boxes_law cols rows labels ls : labels_of cols labels = Ok ls -> boxes_of cols rows labels (map (fun k => (nth k ls None, column rows k)) (seq 0 cols)).
Proof.
  intros H. split; [now rewrite map_length, seq_length|]. intros k l c E.
  assert (K : (k < cols)%nat) by (rewrite <- (seq_length cols 0), <- (map_length (fun k => (nth k ls None, column rows k))); apply nth_error_Some; congruence).
  rewrite nth_error_map in E. rewrite (nth_error_nth' _ 0%nat) in E by now rewrite seq_length. rewrite seq_nth in E by exact K. cbn in E. injection E as <- <-. split; [|split].
  - unfold labels_of in H. destruct labels as [l|].
    + destruct (Nat.eqb (length l) cols) eqn:Q; cbn in H; [|discriminate]. injection H as <-. apply Nat.eqb_eq in Q. apply nth_error_nth'. lia.
    + injection H as <-. apply nth_repeat.
  - unfold column. now rewrite map_length.
  - intros i r R L. unfold column. rewrite nth_error_map, R. cbn. symmetry. apply nth_error_nth'. lia.
Qed.
Theorem box_plots_law : forall cols rows labels, (forall l, labels = Some l -> length l = cols) ->
  (exists bs, box_plots cols rows labels false = Ok [bs] /\ boxes_of cols rows labels bs) /\
  (cols <> 0%nat -> exists bss, box_plots cols rows labels true = Ok bss /\ Forall (fun bs => length bs = 1%nat) bss /\ boxes_of cols rows labels (concat bss)).
Proof.
  intros cols rows labels L. assert (H : exists ls, labels_of cols labels = Ok ls).
  { unfold labels_of. destruct labels as [l|]; [|eauto]. rewrite (L l eq_refl), Nat.eqb_refl. cbn. eauto. }
  destruct H as (ls & H). pose proof (boxes_law cols rows labels ls H) as B. unfold box_plots. rewrite H. cbn [rbind]. split; [eauto|].
  intros N. destruct cols as [|cols]; [congruence|]. eexists. split; [reflexivity|]. split; [apply Forall_forall; intros bs I; apply in_map_iff in I as (k & <- & _); reflexivity|].
  rewrite <- flat_map_concat_map.
  replace (flat_map (fun k => [(nth k ls None, column rows k)]) (seq 0 (S cols))) with (map (fun k => (nth k ls None, column rows k)) (seq 0 (S cols))); [exact B|].
  generalize (seq 0 (S cols)). intros s. induction s as [|k s IH]; [reflexivity|]. cbn. now rewrite <- IH.
Qed.
Theorem box_plots_refused : forall cols rows labels multiple e, box_plots cols rows labels multiple = Err e <->
  (e = RuntimeError /\ exists l, labels = Some l /\ length l <> cols) \/ (e = NameError /\ (forall l, labels = Some l -> length l = cols) /\ multiple = true /\ cols = 0%nat).
Proof.
  intros cols rows labels multiple e. unfold box_plots, labels_of. destruct labels as [l|].
  - destruct (Nat.eqb (length l) cols) eqn:Q; cbn [negb rbind].
    + apply Nat.eqb_eq in Q. destruct multiple; [destruct cols as [|cols]|].
      * split; [intros [= <-]; right; repeat split; auto; intros l' [= <-]; exact Q|]. intros [(_ & l' & [= <-] & N)|(-> & _)]; [congruence|reflexivity].
      * split; [discriminate|]. intros [(_ & l' & [= <-] & N)|(_ & _ & _ & N)]; congruence.
      * split; [discriminate|]. intros [(_ & l' & [= <-] & N)|(_ & _ & N & _)]; congruence.
    + apply Nat.eqb_neq in Q. split; [intros [= <-]; left; eauto|]. intros [(-> & _)|(_ & N & _)]; [reflexivity|]. elim Q. now apply N.
  - cbn [rbind]. destruct multiple; [destruct cols as [|cols]|].
    + split; [intros [= <-]; right; repeat split; auto; discriminate|]. intros [(_ & l' & N & _)|(-> & _)]; [discriminate|reflexivity].
    + split; [discriminate|]. intros [(_ & l' & N & _)|(_ & _ & _ & N)]; discriminate.
    + split; [discriminate|]. intros [(_ & l' & N & _)|(_ & _ & N & _)]; discriminate.
Qed.
Example chart_case : exists c, bar_chart ["A"; "B"]%string [("GRU", [1; 2]); ("DARM", [3; 5])]%string None true = Ok c /\
  length (c_bars c) = 4%nat /\ In (mkBar "DARM" 1 (1 + 1 / 4) (1 + 2 / 4) 5) (c_bars c) /\ In ("DARM"%string, 4) (c_averages c).
Proof.
  eexists. split; [reflexivity|]. split; [reflexivity|]. split.
  - cbn. do 3 right. left. f_equal; lra.
  - cbn. right. left. f_equal. unfold mean_of. cbn. lra.
Qed.
Example box_case : box_plots 2 [[1; 2]; [3; 4]] (Some [Some "E"; Some "nu"]%string) true = Ok [[(Some "E"%string, [1; 3])]; [(Some "nu"%string, [2; 4])]].
Proof. reflexivity. Qed.
Print Assumptions chart_law.
Print Assumptions default_bars_apart.
Print Assumptions box_plots_law.
