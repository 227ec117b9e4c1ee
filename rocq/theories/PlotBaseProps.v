(** Plot functions: curves, ranges, labels and styles (C135). *)
From Coq Require Import String Ascii Reals List Bool Arith Lia Lra.
From Verif Require Import Lib PyDict PlotBaseModel.
Import ListNotations.
Local Open Scope string_scope.
Local Open Scope list_scope.
Local Open Scope R_scope.

(** ** Strings *)
Lemma drop_split l : exists a, l = repeat "$"%char a ++ drop_dollars l /\ hd_error (drop_dollars l) <> Some "$"%char.
Proof.
  induction l as [|c t (a & E & N)]; [exists 0%nat; split; [reflexivity|discriminate]|]. cbn [drop_dollars]. destruct (Ascii.eqb_spec c "$"%char) as [->|D].
  - exists (S a). split; [cbn; now rewrite <- E|exact N].
  - exists 0%nat. split; [reflexivity|]. cbn. congruence.
Qed.
Lemma rev_repeat {A} (x : A) n : rev (repeat x n) = repeat x n.
Proof. induction n as [|n IH]; [reflexivity|]. cbn. rewrite IH. clear. induction n as [|n IH]; cbn; [reflexivity|now rewrite IH]. Qed.
Lemma drop_hd l : hd_error l <> Some "$"%char -> drop_dollars l = l.
Proof. destruct l as [|c t]; [reflexivity|]. cbn. intros N. destruct (Ascii.eqb_spec c "$"%char); [congruence|reflexivity]. Qed.
(** Only dollar signs at the ends are removed, and all of them. *)
Definition chars := list_ascii_of_string.
Theorem tex_str_law : forall s, exists a b r, tex_str (Some s) false = Some r /\ chars s = repeat "$"%char a ++ chars r ++ repeat "$"%char b /\
  (forall t, chars r <> "$"%char :: t) /\ (forall t, chars r <> t ++ ["$"%char]).
Proof.
  intros s. unfold tex_str, strip_dollars, chars. destruct (drop_split (list_ascii_of_string s)) as (a & E & N). set (u := drop_dollars (list_ascii_of_string s)) in *.
  destruct (drop_split (rev u)) as (b & E2 & N2). set (v := drop_dollars (rev u)) in *. exists a, b, (string_of_list_ascii (rev v)). rewrite list_ascii_of_string_of_list_ascii.
  assert (U : u = rev v ++ repeat "$"%char b) by (rewrite <- (rev_involutive u), E2, rev_app_distr, rev_repeat; reflexivity).
  split; [reflexivity|]. split; [rewrite E, U; reflexivity|]. split.
  - intros t T. apply N. rewrite U, T. reflexivity.
  - intros t T. apply N2. rewrite <- (rev_involutive v), T, rev_app_distr. reflexivity.
Qed.
Theorem tex_str_latex : forall x, tex_str x true = x.
Proof. now intros [s|]. Qed.
Theorem tex_str_idempotent : forall x, tex_str (tex_str x false) false = tex_str x false.
Proof.
  intros [s|]; [|reflexivity]. destruct (tex_str_law s) as (a & b & r & -> & _ & H & T). unfold tex_str, strip_dollars. do 2 f_equal. fold chars.
  rewrite (drop_hd (chars r)) by (destruct (chars r) as [|c t] eqn:E; [discriminate|]; intros Q; injection Q as ->; exact (H t eq_refl)).
  rewrite (drop_hd (rev (chars r))).
  - rewrite rev_involutive. unfold chars. apply string_of_list_ascii_of_string.
  - destruct (rev (chars r)) as [|c t] eqn:E; [discriminate|]. intros Q. injection Q as ->. apply (T (rev t)). rewrite <- (rev_involutive (chars r)), E. reflexivity.
Qed.
(** Refuted: without LaTeX the enclosures are removed.  A formula followed by text
    keeps its second dollar sign. *)
Definition dollars (s : string) : nat := count_occ Ascii.ascii_dec (chars s) "$"%char.
Theorem enclosure_refuted : exists s r, tex_str (Some s) false = Some r /\ dollars s = 2%nat /\ dollars r = 1%nat.
Proof. exists "$t$ (s)", "t$ (s)". repeat split. Qed.

(** ** Curves *)
(** An array with an odd number of columns, or another number of labels, is
    refused; otherwise there is one curve for each pair of columns. *)
Theorem plot_xy_law : forall n rows labels ref latex, plot_xy (2 * n + 1) rows labels ref latex = Err RuntimeError /\
  (forall l, labels = Some l -> length l <> n -> plot_xy (2 * n) rows labels ref latex = Err RuntimeError) /\
  ((forall l, labels = Some l -> length l = n) -> exists cs, plot_xy (2 * n) rows labels ref latex = Ok cs /\ length cs = n /\
    forall i, (i < n)%nat -> exists c, nth_error cs i = Some c /\
      c_label c = match labels with Some l => tex_str (nth i l None) latex | None => None end /\
      length (c_points c) = length rows /\ (c_style c = Reference <-> ref = true /\ i = 0%nat) /\
      forall t, (t < length rows)%nat -> nth_error (c_points c) t = Some (nth (2 * i) (nth t rows []) None, nth (2 * i + 1) (nth t rows []) None)).
Proof.
  intros n rows labels ref latex. unfold plot_xy. replace ((2 * n + 1) mod 2)%nat with 1%nat by (rewrite Nat.add_comm, Nat.mul_comm, Nat.mod_add by lia; reflexivity).
  replace ((2 * n) mod 2)%nat with 0%nat by (rewrite Nat.mul_comm, Nat.mod_mul by lia; reflexivity). replace (2 * n / 2)%nat with n by (rewrite Nat.mul_comm, Nat.div_mul by lia; reflexivity).
  split; [reflexivity|]. split.
  - intros l -> N. cbn [Nat.eqb negb labels_of]. destruct (Nat.eqb_spec (length l) n); [contradiction|reflexivity].
  - intros L. cbn [Nat.eqb negb]. assert (LS : exists ls, labels_of n labels = Ok ls /\ forall i, (i < n)%nat -> tex_str (nth i ls None) latex = match labels with Some l => tex_str (nth i l None) latex | None => None end).
    { destruct labels as [l|]; cbn [labels_of].
      - exists l. rewrite (L l eq_refl), Nat.eqb_refl. auto.
      - exists (repeat None n). split; [reflexivity|]. intros i I. rewrite nth_repeat. reflexivity. }
    destruct LS as (ls & -> & LS). cbn [rbind]. eexists. split; [reflexivity|]. split; [rewrite map_length, seq_length; reflexivity|]. intros i I.
    rewrite nth_error_map, (nth_error_nth' (seq 0 n) 0%nat) by (rewrite seq_length; exact I). rewrite seq_nth by exact I. cbn [option_map Nat.add]. eexists. split; [reflexivity|]. cbn [c_label c_points c_style].
    split; [apply LS; exact I|]. split; [apply map_length|]. split.
    + unfold style_of. destruct ref, i; split; intros H; try discriminate; try (destruct H; discriminate); auto.
    + intros t T. rewrite nth_error_map, (nth_error_nth' rows []) by exact T. reflexivity.
Qed.
(** Curves have different styles unless they are 42 positions (or a multiple)
    apart. *)
Theorem cycle_style_iff : forall i j, cycle_style i = cycle_style j <-> (i mod 42 = j mod 42)%nat.
Proof.
  assert (D : forall k, (k mod 42 = 14 * ((k / 14) mod 3) + k mod 14)%nat).
  { intros k. replace 42%nat with (14 * 3)%nat by reflexivity. rewrite Nat.mod_mul_r by lia. lia. }
  intros i j. unfold cycle_style, n_colors, n_linestyles. split; intros H.
  - pose proof (f_equal fst H) as A. pose proof (f_equal snd H) as B. cbn [fst snd] in A, B. rewrite (D i), (D j). lia.
  - assert (Q : forall k, (k mod 42 / 14 = (k / 14) mod 3)%nat /\ ((k mod 42) mod 14 = k mod 14)%nat).
    { intros k. rewrite (D k). pose proof (Nat.mod_upper_bound k 14 ltac:(lia)). split.
      - rewrite (Nat.mul_comm 14), Nat.div_add_l by lia. rewrite (Nat.div_small (k mod 14)) by lia. lia.
      - rewrite (Nat.mul_comm 14), Nat.add_comm, Nat.mod_add by lia. apply Nat.mod_small. lia. }
    destruct (Q i) as (<- & <-). destruct (Q j) as (<- & <-). rewrite H. reflexivity.
Qed.
Theorem styles_distinct : forall ref i j, (i < 42)%nat -> (j < 42)%nat -> style_of ref i = style_of ref j -> i = j.
Proof.
  intros ref i j I J H. assert (C : forall a b, (a < 42)%nat -> (b < 42)%nat -> Cycle (fst (cycle_style a)) (snd (cycle_style a)) = Cycle (fst (cycle_style b)) (snd (cycle_style b)) -> a = b).
  { intros a b A B H'. pose proof (f_equal (fun s => match s with Cycle u v => (u, v) | Reference => (0, 0)%nat end) H') as E. cbv beta iota in E. rewrite <- !surjective_pairing in E.
    apply cycle_style_iff in E. rewrite !Nat.mod_small in E by assumption. exact E. }
  unfold style_of in H. destruct ref; [destruct i, j; try discriminate; [reflexivity|f_equal; apply C; try lia; exact H]|apply C; assumption].
Qed.
(** Refuted: every curve can be told from the others.  The curves 0 and 42 of any
    figure look the same. *)
Theorem styles_repeat_refuted : forall k, style_of false k = style_of false (k + 42) /\ k <> (k + 42)%nat.
Proof.
  intros k. split; [|lia]. unfold style_of. assert (E : cycle_style k = cycle_style (k + 42)); [|now rewrite E].
  apply cycle_style_iff. replace (k + 42)%nat with (k + 1 * 42)%nat by lia. rewrite Nat.mod_add by lia. reflexivity.
Qed.

(** ** Mean and range *)
(** Least and greatest value of a list, by membership. *)
Definition is_min (l : list R) (x : R) : Prop := In x l /\ forall y, In y l -> x <= y.
Definition is_max (l : list R) (x : R) : Prop := In x l /\ forall y, In y l -> y <= x.
Lemma min_of_is x l : is_min (x :: l) (min_of x l).
Proof.
  induction l as [|y l (I & M)]; [split; [now left|]; intros z [<-|[]]; apply Rle_refl|]. cbn [min_of fold_right]. fold (min_of x l). split.
  - assert (C : Rmin y (min_of x l) = y \/ Rmin y (min_of x l) = min_of x l) by (unfold Rmin; destruct (Rle_dec y (min_of x l)); auto); destruct C as [->| ->]; [right; now left|]. destruct I as [<-|I]; [now left|right; now right].
  - intros z [<-|[<-|Z]]; [eapply Rle_trans; [apply Rmin_r|apply M; now left]|apply Rmin_l|eapply Rle_trans; [apply Rmin_r|apply M; now right]].
Qed.
Lemma max_of_is x l : is_max (x :: l) (max_of x l).
Proof.
  induction l as [|y l (I & M)]; [split; [now left|]; intros z [<-|[]]; apply Rle_refl|]. cbn [max_of fold_right]. fold (max_of x l). split.
  - assert (C : Rmax y (max_of x l) = y \/ Rmax y (max_of x l) = max_of x l) by (unfold Rmax; destruct (Rle_dec y (max_of x l)); auto); destruct C as [->| ->]; [right; now left|]. destruct I as [<-|I]; [now left|right; now right].
  - intros z [<-|[<-|Z]]; [eapply Rle_trans; [apply M; now left|apply Rmax_r]|apply Rmax_l|eapply Rle_trans; [apply M; now right|apply Rmax_r]].
Qed.
Lemma lsum_bounds l a b : (forall y, In y l -> a <= y <= b) -> a * INR (length l) <= lsum l <= b * INR (length l).
Proof.
  induction l as [|y l IH]; intros H; [cbn; lra|]. destruct IH as (A & B); [intros; apply H; now right|]. destruct (H y (or_introl eq_refl)). cbn [length lsum]. rewrite S_INR. lra.
Qed.
Lemma mean_bounds l a b : l <> [] -> (forall y, In y l -> a <= y <= b) -> a <= mean_of l <= b.
Proof.
  intros N H. destruct (lsum_bounds l a b H) as (A & B). unfold mean_of. assert (P : 0 < INR (length l)) by (apply lt_0_INR; destruct l; [congruence|cbn; lia]).
  split; [apply (Rmult_le_reg_r (INR (length l))); [exact P|]|apply (Rmult_le_reg_r (INR (length l))); [exact P|]]; unfold Rdiv; rewrite Rmult_assoc, Rinv_l by lra; lra.
Qed.
Lemma opts_map {A} (l : list A) : opts (map Some l) = Some l.
Proof. induction l as [|x l IH]; cbn; [reflexivity|]. now rewrite IH. Qed.
(** The shaded area of the option min-max goes from the least to the greatest
    realisation and contains the mean. *)
Theorem min_max_band : forall x y l, exists m lo hi, xny_point MinMax (x :: map Some (y :: l)) = Ok (Some (mkPoint x m (Some (lo, hi)))) /\
  m * INR (length (y :: l)) = lsum (y :: l) /\ is_min (y :: l) lo /\ is_max (y :: l) hi /\ lo <= m <= hi.
Proof.
  intros x y l. destruct (min_of_is y l) as (I1 & M1) eqn:E1. clear E1. destruct (max_of_is y l) as (I2 & M2) eqn:E2. clear E2.
  assert (B : min_of y l <= mean_of (y :: l) <= max_of y l) by (apply mean_bounds; [discriminate|]; auto).
  exists (mean_of (y :: l)), (min_of y l), (max_of y l). unfold xny_point. rewrite opts_map. cbn [map]. split; [|split; [|repeat split; auto; lra]].
  - rewrite (Rabs_right (mean_of (y :: l) - min_of y l)) by lra. rewrite (Rabs_left1 (mean_of (y :: l) - max_of y l)) by lra. do 4 f_equal. f_equal; ring.
  - unfold mean_of. unfold Rdiv. rewrite Rmult_assoc, Rinv_l; [ring|]. apply not_0_INR. cbn. lia.
Qed.
(** The area of the option mean-std is symmetric, of half width 1.96 standard
    deviations; it is empty exactly for equal realisations. *)
Lemma lsum_nonneg l : (forall y, In y l -> 0 <= y) -> 0 <= lsum l.
Proof. induction l as [|y l IH]; intros H; cbn; [lra|]. apply Rplus_le_le_0_compat; [apply H; now left|apply IH; intros; apply H; now right]. Qed.
Lemma lsum_zero l : (forall y, In y l -> 0 <= y) -> lsum l = 0 -> forall y, In y l -> y = 0.
Proof.
  induction l as [|z l IH]; intros H S y I; [destruct I|]. cbn in S. assert (0 <= z) by (apply H; now left). assert (0 <= lsum l) by (apply lsum_nonneg; intros; apply H; now right).
  destruct I as [<-|I]; [lra|]. apply IH; auto; [intros; apply H; now right|lra].
Qed.
Theorem mean_std_band : forall x y l, exists m h, xny_point MeanStd (x :: map Some (y :: l)) = Ok (Some (mkPoint x m (Some (m - h, m + h)))) /\
  m * INR (length (y :: l)) = lsum (y :: l) /\ 0 <= h /\ h ^ 2 * INR (length (y :: l)) = (196 / 100) ^ 2 * lsum (map (fun z => (z - m) ^ 2) (y :: l)) /\
  (h = 0 <-> forall z, In z (y :: l) -> z = m).
Proof.
  intros x y l. set (v := y :: l). assert (P : 0 < INR (length v)) by (apply lt_0_INR; cbn; lia). exists (mean_of v), (196 / 100 * std_of v).
  assert (Q : forall w, In w (map (fun z => (z - mean_of v) ^ 2) v) -> 0 <= w) by (intros w W; apply in_map_iff in W as (z & <- & _); apply pow2_ge_0).
  assert (VN : 0 <= mean_of (map (fun z => (z - mean_of v) ^ 2) v)).
  { unfold mean_of. rewrite map_length. apply Rmult_le_pos; [apply lsum_nonneg; exact Q|]. left. now apply Rinv_0_lt_compat. }
  assert (S2 : std_of v ^ 2 * INR (length v) = lsum (map (fun z => (z - mean_of v) ^ 2) v)).
  { unfold std_of. rewrite pow2_sqrt by exact VN. unfold mean_of at 1. rewrite map_length. unfold Rdiv. rewrite Rmult_assoc, Rinv_l by lra. ring. }
  assert (SN : 0 <= std_of v) by apply sqrt_pos.
  split; [|split; [|split; [|split]]].
  - unfold xny_point. rewrite opts_map. reflexivity.
  - unfold mean_of, Rdiv. rewrite Rmult_assoc, Rinv_l by lra. ring.
  - lra.
  - rewrite Rpow_mult_distr, <- S2. ring.
  - split; intros H.
    + assert (Z : std_of v = 0) by lra. rewrite Z in S2. intros z I. assert (W : (z - mean_of v) ^ 2 = 0).
      { apply (lsum_zero _ Q); [lra|]. apply in_map_iff. exists z. auto. }
      assert (E : z - mean_of v = 0); [|lra]. apply Rsqr_0_uniq. unfold Rsqr. lra.
    + assert (Z : lsum (map (fun z => (z - mean_of v) ^ 2) v) = 0).
      { rewrite (lsum_map_ext _ (fun _ => 0)) by (intros z I; rewrite (H z I); ring). clear. induction v; cbn; lra. }
      rewrite Z in S2. assert (std_of v ^ 2 = 0) by (apply Rmult_integral in S2 as [|]; lra). assert (std_of v = 0) by (apply Rsqr_0_uniq; unfold Rsqr; lra). lra.
Qed.
(** Refuted: the mean of the available realisations is shown.  One NaN leaves the
    point out. *)
Lemma opts_none {A} (l : list (option A)) : In None l -> opts l = None.
Proof. induction l as [|[x|] l IH]; intros I; [destruct I| |reflexivity]. destruct I as [I|I]; [discriminate|]. cbn. now rewrite IH. Qed.
Theorem nan_realisation_refuted : forall rt x ys, In None ys -> xny_point rt (x :: ys) = Ok None.
Proof. intros rt x ys I. unfold xny_point. destruct ys as [|o t]; [destruct I|]. rewrite (opts_none _ I). destruct rt; reflexivity. Qed.
(** Every data array has its points and label, in order. *)
Theorem plot_xny_law : forall rt labels latex data,
  (forall l, labels = Some l -> length l <> length data -> plot_xny rt labels latex data = Err RuntimeError) /\
  forall cs, plot_xny rt labels latex data = Ok cs -> length cs = length data /\
    forall i d, nth_error data i = Some d -> exists ps, nth_error cs i = Some (match labels with Some l => tex_str (nth i l None) latex | None => None end, ps) /\ length ps = length d /\
      forall t row, nth_error d t = Some row -> exists p, nth_error ps t = Some p /\ xny_point rt row = Ok p.
Proof.
  intros rt labels latex data. unfold plot_xny. split.
  - intros l -> N. cbn [labels_of]. destruct (Nat.eqb_spec (length l) (length data)); [contradiction|reflexivity].
  - intros cs H. assert (RM : forall A B (f : A -> res B) l r, rmap f l = Ok r -> length r = length l /\ forall k x, nth_error l k = Some x -> exists y, nth_error r k = Some y /\ f x = Ok y).
    { clear. intros A B f l. induction l as [|a l IH]; intros r H; cbn [rmap] in H; [injection H as <-; split; [reflexivity|]; intros [|k] x E; discriminate|].
      destruct (f a) as [b|] eqn:F; cbn [rbind] in H; [|discriminate]. destruct (rmap f l) as [t|]; cbn [rbind] in H; [|discriminate]. injection H as <-. destruct (IH t eq_refl) as (L & N). split; [cbn; lia|].
      intros [|k] x E; cbn in *; [injection E as <-; eauto|eauto]. }
    destruct (labels_of (length data) labels) as [ls|] eqn:LO; cbn [rbind] in H; [|discriminate].
    assert (LS : forall i, (i < length data)%nat -> tex_str (nth i ls None) latex = match labels with Some l => tex_str (nth i l None) latex | None => None end).
    { intros i I. destruct labels as [l|]; cbn [labels_of] in LO; [destruct (negb _); [discriminate|]; injection LO as <-; reflexivity|]. injection LO as <-. rewrite nth_repeat. reflexivity. }
    destruct (RM _ _ _ _ _ H) as (L & N). split; [rewrite L, combine_length, seq_length; lia|]. intros i d D.
    assert (C : nth_error (combine (seq 0 (length data)) data) i = Some (i, d)).
    { clear -D. change (i, d) with ((0 + i)%nat, d). revert D. generalize 0%nat. revert i. induction data as [|q l IH]; intros [|i] a D; try discriminate; cbn; [injection D as ->; now rewrite Nat.add_0_r|]. rewrite (IH i (S a) D). do 2 f_equal. lia. }
    destruct (N i _ C) as ([lab ps] & E & F). cbn [fst snd] in F. destruct (rmap (xny_point rt) d) as [qs|] eqn:Q; cbn [rbind] in F; [|discriminate]. injection F as <- <-.
    exists qs. rewrite E, LS by (apply nth_error_Some; congruence). split; [reflexivity|]. destruct (RM _ _ _ _ _ Q) as (L2 & N2). split; [exact L2|exact N2].
Qed.
Example tex_case : tex_str (Some "$\sigma$") false = Some "\sigma" /\ tex_str (Some "$$a$b$") false = Some "a$b".
Proof. split; reflexivity. Qed.
Example xny_case : exists p, xny_point MinMax [Some 0; Some 1; Some 2; Some 6] = Ok (Some p) /\ p_mean p = 3 /\ p_band p = Some (1, 6).
Proof.
  destruct (min_max_band (Some 0) 1 [2; 6]) as (m & lo & hi & E & M & (I1 & L1) & (I2 & L2) & _). exists (mkPoint (Some 0) m (Some (lo, hi))). split; [exact E|]. cbn [p_mean p_band].
  assert (lo = 1) by (pose proof (L1 1 (or_introl eq_refl)); destruct I1 as [<-|[<-|[<-|[]]]]; lra).
  assert (hi = 6) by (pose proof (L2 6 ltac:(cbn; auto)); destruct I2 as [<-|[<-|[<-|[]]]]; lra). subst. split; [cbn in M; lra|reflexivity].
Qed.
Example xy_case : plot_xy 4 [[Some 0; Some 1; Some 2; None]] (Some [Some "$a$"; None]) true false =
  Ok [mkCurve (Some "a") [(Some 0, Some 1)] Reference; mkCurve None [(Some 2, None)] (Cycle 0 0)].
Proof. reflexivity. Qed.

Print Assumptions tex_str_law.
Print Assumptions tex_str_latex.
Print Assumptions tex_str_idempotent.
Print Assumptions enclosure_refuted.
Print Assumptions plot_xy_law.
Print Assumptions cycle_style_iff.
Print Assumptions styles_distinct.
Print Assumptions styles_repeat_refuted.
Print Assumptions min_max_band.
Print Assumptions mean_std_band.
Print Assumptions nan_realisation_refuted.
Print Assumptions plot_xny_law.
