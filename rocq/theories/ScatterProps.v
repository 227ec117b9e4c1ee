(** Scatter plots, curves in space and histograms (C139). *)
From Coq Require Import String Reals List Bool Arith Lia Lra.
From Verif Require Import Lib PyDict PlotBaseModel PlotBaseProps ScatterModel.
Import ListNotations.
Local Open Scope list_scope.

Definition labels_fit (n : nat) (labels : option (list (option string))) : Prop := forall l, labels = Some l -> length l = n.
Definition label_at (labels : option (list (option string))) (i : nat) : option string := match labels with Some l => nth i l None | None => None end.
Lemma labels_of_fit n labels : labels_fit n labels -> exists ls, labels_of n labels = Ok ls /\ length ls = n /\ forall i, nth i ls None = label_at labels i.
Proof.
  intros F. unfold labels_of, label_at. destruct labels as [l|].
  - rewrite (F l eq_refl), Nat.eqb_refl. exists l. split; [reflexivity|]. split; [now apply F|reflexivity].
  - exists (repeat None n). split; [reflexivity|]. split; [apply repeat_length|]. intros i. apply nth_repeat.
Qed.
Lemma labels_of_unfit n labels : ~ labels_fit n labels -> labels_of n labels = Err RuntimeError.
Proof.
  intros F. unfold labels_of. destruct labels as [l|]; [|elim F; discriminate]. destruct (Nat.eqb_spec (length l) n) as [E|E]; [|reflexivity]. elim F. intros l' Q. now injection Q as <-.
Qed.
(** ** Curves in space *)
Theorem xyz_refused : forall cols rows labels latex, (exists n, cols = 3 * n /\ labels_fit n labels) \/ plot_xyz cols rows labels latex = Err RuntimeError.
Proof.
  intros cols rows labels latex. unfold plot_xyz. destruct (Nat.eqb_spec (cols mod 3) 0) as [E|E]; cbn [negb]; [|now right].
  assert (C : cols = 3 * (cols / 3)) by (pose proof (Nat.div_mod cols 3); lia).
  destruct labels as [l|]; [|left; exists (cols / 3); split; [exact C|discriminate]].
  destruct (Nat.eq_dec (length l) (cols / 3)) as [L|L]; [left; exists (cols / 3); split; [exact C|]; intros l' Q; now injection Q as <-|].
  right. rewrite labels_of_unfit; [reflexivity|]. intros F. apply L. now apply F.
Qed.
Theorem xyz_law : forall n rows labels latex, labels_fit n labels -> exists cs, plot_xyz (3 * n) rows labels latex = Ok cs /\ length cs = n /\
  forall i, i < n -> exists ps, nth_error cs i = Some (tex_str (label_at labels i) latex, ps) /\ length ps = length rows /\
  forall k r, nth_error rows k = Some r -> nth_error ps k = Some (nth (3 * i) r None, nth (3 * i + 1) r None, nth (3 * i + 2) r None).
Proof.
  intros n rows labels latex F. unfold plot_xyz. rewrite Nat.mul_comm, Nat.mod_mul, Nat.div_mul by lia. cbn [Nat.eqb negb]. destruct (labels_of_fit n labels F) as (ls & -> & L & H). cbn [rbind].
  eexists. split; [reflexivity|]. split; [now rewrite map_length, seq_length|]. intros i I. rewrite nth_error_map, (nth_error_nth' _ 0) by now rewrite seq_length. rewrite seq_nth by exact I. cbn [option_map Nat.add].
  eexists. split; [rewrite H; reflexivity|]. split; [now rewrite map_length|]. intros k r K. rewrite nth_error_map, K. reflexivity.
Qed.
(** ** Scatter plots *)
(** Without error bars (the default) nothing is drawn, whatever the data. *)
Theorem scatter_default_refuted : forall rt labels latex data, labels_fit (length data) labels -> scatter_xny false rt labels latex data = Ok [].
Proof.
  intros rt labels latex data F. unfold scatter_xny. destruct (labels_of_fit _ _ F) as (ls & -> & _ & _). cbn [rbind].
  generalize (combine (seq 0 (length data)) data). intros l.
  assert (X : exists ss, rmap (fun _ : nat * list (list (option R)) => @Ok (list (option string * list (option point))) []) l = Ok ss /\ concat ss = []).
  { induction l as [|x l (ss & E & C)]; [exists []; split; reflexivity|]. exists ([] :: ss). cbn [rmap rbind]. rewrite E. split; [reflexivity|exact C]. }
  destruct X as (ss & E & C). rewrite E. cbn [rbind]. now rewrite C.
Qed.
(** With error bars, every data array is a series with its label, and every bar of
    min-max goes from the least to the greatest realisation of its point. *)
Definition bar_of (row : list R) (p : option point) : Prop :=
  exists x y l m lo hi, row = x :: y :: l /\ p = Some (mkPoint (Some x) m (Some (lo, hi))) /\ (m * INR (length (y :: l)) = lsum (y :: l))%R /\ is_min (y :: l) lo /\ is_max (y :: l) hi /\ (lo <= m <= hi)%R.
Lemma rows_bars (rows : list (list R)) : Forall (fun r => 2 <= length r) rows -> exists ps, rmap (xny_point MinMax) (map (map Some) rows) = Ok ps /\ Forall2 bar_of rows ps.
Proof.
  induction 1 as [|r rows L F (ps & E & H)]; [exists []; split; [reflexivity|constructor]|]. destruct r as [|x [|y l]]; cbn in L; [lia|lia|].
  destruct (min_max_band (Some x) y l) as (m & lo & hi & E1 & H1). exists (Some (mkPoint (Some x) m (Some (lo, hi))) :: ps). change (map (map Some) ((x :: y :: l) :: rows)) with ((Some x :: map Some (y :: l)) :: map (map Some) rows).
  cbn [rmap]. rewrite E1. cbn [rbind]. rewrite E. cbn [rbind]. split; [reflexivity|]. constructor; [|exact H]. exists x, y, l, m, lo, hi. tauto.
Qed.
Theorem scatter_bars : forall labels latex (data : list (list (list R))), labels_fit (length data) labels -> Forall (Forall (fun r => 2 <= length r)) data ->
  exists ss, scatter_xny true MinMax labels latex (map (map (map Some)) data) = Ok ss /\ length ss = length data /\
  forall i rows, nth_error data i = Some rows -> exists ps, nth_error ss i = Some (tex_str (label_at labels i) latex, ps) /\ Forall2 bar_of rows ps.
Proof.
  intros labels latex data F W. unfold scatter_xny. rewrite map_length. destruct (labels_of_fit _ _ F) as (ls & -> & _ & H). cbn [rbind].
  assert (X : forall s, exists sss, rmap (fun id : nat * list (list (option R)) => rbind (rmap (xny_point MinMax) (snd id)) (fun ps => Ok [(tex_str (nth (fst id) ls None) latex, ps)])) (combine (seq s (length data)) (map (map (map Some)) data)) = Ok sss /\
    length (concat sss) = length data /\ forall i rows, nth_error data i = Some rows -> exists ps, nth_error (concat sss) i = Some (tex_str (label_at labels (s + i)) latex, ps) /\ Forall2 bar_of rows ps).
  { clear F. induction W as [|rows data R1 W IH]; intros s; [exists []; split; [reflexivity|]; split; [reflexivity|intros [|i] ? Q; discriminate]|].
    destruct (rows_bars rows R1) as (ps & E & B). destruct (IH (S s)) as (sss & E2 & L & N). cbn [length seq map combine rmap fst snd]. rewrite E. cbn [rbind]. rewrite E2. cbn [rbind]. eexists. split; [reflexivity|]. cbn [concat app length]. split; [now rewrite L|].
    intros [|i] rows' Q.
    - injection Q as <-. exists ps. cbn [nth_error]. rewrite Nat.add_0_r, H. split; auto.
    - rewrite Nat.add_succ_r. apply (N i rows' Q). }
  destruct (X 0) as (sss & E & L & N). rewrite E. cbn [rbind]. exists (concat sss). auto.
Qed.
(** ** Histograms *)
(** Every data set has its histogram and other numbers of labels are refused, but no
    histogram has its label, even when there is a legend. *)
Theorem histogram_law : forall data labels, (labels_fit (length data) labels -> exists hs leg, plot_histogram data labels = Ok (hs, leg) /\ map snd hs = data /\ (leg = true <-> exists i, label_at labels i <> None)) /\
  (~ labels_fit (length data) labels -> plot_histogram data labels = Err RuntimeError).
Proof.
  intros data labels. unfold plot_histogram. split; intros F; [|now rewrite labels_of_unfit].
  destruct (labels_of_fit _ _ F) as (ls & -> & L & H). cbn [rbind]. eexists. eexists. split; [reflexivity|]. split; [rewrite map_map; cbn; apply map_id|].
  rewrite negb_true_iff, <- not_true_iff_false, forallb_forall. split.
  - intros N. assert (X : exists x, In x ls /\ x <> None).
    { clear -N. induction ls as [|x ls IH]; [elim N; intros y []|]. destruct x as [x|]; [exists (Some x); split; [now left|discriminate]|]. destruct IH as (y & I & Y); [|exists y; split; [now right|exact Y]]. intros Q. apply N. intros y [<-|I]; [reflexivity|now apply Q]. }
    destruct X as (x & I & Nx). apply (In_nth _ _ None) in I as (i & _ & E). exists i. rewrite <- H, E. exact Nx.
  - intros (i & N) Q. rewrite <- H in N. destruct (nth_in_or_default i ls None) as [I|E]; [|congruence]. specialize (Q _ I). destruct (nth i ls None); [discriminate|congruence].
Qed.
Theorem histogram_label_refuted : forall data labels hs leg, plot_histogram data labels = Ok (hs, leg) -> forall l d, In (l, d) hs -> l = None.
Proof.
  intros data labels hs leg. unfold plot_histogram. destruct (labels_of (length data) labels) as [ls|e]; cbn [rbind]; intros E; [|discriminate]. injection E as <- _. intros l d I. apply in_map_iff in I as (x & Q & _). congruence.
Qed.
Example histogram_case : plot_histogram [[1%R]; [2%R; 3%R]] (Some [Some "a"; Some "b"]%string) = Ok ([(None, [1%R]); (None, [2%R; 3%R])], true).
Proof. reflexivity. Qed.
Example scatter_case : exists ps, scatter_xny true MinMax None true [[[Some 1%R; Some 2%R; Some 4%R]]] = Ok [(None, [Some ps])] /\ p_x ps = Some 1%R /\ p_mean ps = 3%R.
Proof. eexists. split; [reflexivity|]. split; [reflexivity|]. cbn. unfold mean_of. cbn. lra. Qed.
Example xyz_case : plot_xyz 3 [[Some 1%R; Some 2%R; None]] (Some [Some "p"]%string) true = Ok [(Some "p"%string, [(Some 1%R, Some 2%R, None)])].
Proof. reflexivity. Qed.
Print Assumptions scatter_bars.
Print Assumptions histogram_law.
