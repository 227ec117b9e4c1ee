(** Plots of training histories (C131). *)
From Coq Require Import String Reals List Arith Bool ZArith Lia Lra.
From Verif Require Import Lib PyDict FinderTrainModel FinderTrainProps TrainPlotModel.
Import ListNotations.
Local Open Scope string_scope.
Local Open Scope list_scope.
Local Open Scope R_scope.

(** A point is drawn where both columns have a value; the curve of a history has
    one point for each epoch with a value. *)
Definition drawn (x y : history) (p : R * R) : Prop := exists k, nth_error x k = Some (Some (fst p)) /\ nth_error y k = Some (Some (snd p)).
Definition curve_of (h : history) (p : R * R) : Prop := exists k, fst p = INR k /\ nth_error h k = Some (Some (snd p)).
(** Columns 2i and 2i + 1 *)
Definition curve_in (f : figure) (i : nat) (p : R * R) : Prop :=
  exists x y, nth_error (f_columns f) (2 * i) = Some x /\ nth_error (f_columns f) (2 * i + 1) = Some y /\ drawn x y p.
Definition log_history (h h' : history) : Prop :=
  Forall2 (fun a b => forall v, b = Some v <-> exists u, a = Some u /\ 0 < u /\ v = ln u) h h'.

Lemma padded_some m h k v : nth_error (padded m h) k = Some (Some v) <-> nth_error h k = Some (Some v).
Proof.
  unfold padded. destruct (Nat.lt_ge_cases k (length h)) as [L|L].
  - now rewrite nth_error_app1.
  - rewrite nth_error_app2 by exact L. split.
    + intros H. apply nth_error_In in H. apply repeat_spec in H. discriminate.
    + intros H. apply nth_error_None in L. congruence.
Qed.
Lemma epochs_some n k v : nth_error (epochs n) k = Some (Some v) <-> (k < n)%nat /\ v = INR k.
Proof.
  unfold epochs. rewrite nth_error_map. destruct (Nat.lt_ge_cases k n) as [L|L].
  - assert (E : nth_error (seq 0 n) k = Some k) by (rewrite (nth_error_nth' _ 0%nat) by (rewrite seq_length; exact L); rewrite seq_nth by exact L; reflexivity).
    rewrite E. cbn. split; [intros [= <-]; auto|intros [_ ->]; reflexivity].
  - assert (E : nth_error (seq 0 n) k = None) by (apply nth_error_None; rewrite seq_length; exact L). rewrite E. cbn. split; [discriminate|lia].
Qed.
Lemma drawn_epochs m h p : drawn (padded m (epochs (length h))) (padded m h) p <-> curve_of h p.
Proof.
  unfold drawn, curve_of. split; intros (k & H).
  - destruct H as [A B]. rewrite padded_some in A, B. apply epochs_some in A as [_ A]. exists k. auto.
  - destruct H as [A B]. exists k. rewrite !padded_some, epochs_some. repeat split; auto. apply nth_error_Some. congruence.
Qed.
Lemma log_value_spec h : log_history h (map log_value h).
Proof.
  induction h as [|a h IH]; [constructor|]. constructor; [|exact IH]. intros v. unfold log_value. destruct a as [u|].
  - destruct (Rlt_dec 0 u) as [P|P]; split.
    + intros [= <-]. exists u. auto.
    + intros (u' & [= <-] & _ & ->). reflexivity.
    + discriminate.
    + intros (u' & [= <-] & Q & _). contradiction.
  - split; [discriminate|]. intros (u & E & _). discriminate.
Qed.
Lemma flat_pair {A B} (f g : A -> B) l i a : nth_error l i = Some a ->
  nth_error (flat_map (fun x => [f x; g x]) l) (2 * i) = Some (f a) /\ nth_error (flat_map (fun x => [f x; g x]) l) (2 * i + 1) = Some (g a).
Proof.
  revert i. induction l as [|x l IH]; intros [|i] H; try discriminate.
  - injection H as ->. split; reflexivity.
  - replace (2 * S i)%nat with (S (S (2 * i))) by lia. replace (S (S (2 * i)) + 1)%nat with (S (S (2 * i + 1))) by lia. apply (IH i H).
Qed.
Lemma flat_pair_length {A B} (f g : A -> B) l : length (flat_map (fun x => [f x; g x]) l) = (2 * length l)%nat.
Proof. induction l as [|x l IH]; [reflexivity|]. cbn [flat_map app length]. lia. Qed.
(** The loss figure: one labelled curve for each process, in order, of its values
    by epoch; columns of one length, and all epochs within the axis. *)
Theorem loss_figure_law : forall hs, hs <> [] -> exists f, loss_figure false hs = Ok f /\ f_labels f = map fst hs /\
  length (f_columns f) = (2 * length hs)%nat /\ Forall (fun c => length c = f_xmax f) (f_columns f) /\
  (forall i name h, nth_error hs i = Some (name, h) -> (forall p, curve_in f i p <-> curve_of h p) /\ (length h <= f_xmax f)%nat).
Proof.
  intros hs N. unfold loss_figure. destruct hs as [|kv hs]; [congruence|]. set (l := kv :: hs) in *. eexists. split; [reflexivity|]. cbn [f_labels f_columns f_xmax].
  assert (M : forall name h, In (name, h) l -> (length h <= max_epochs l)%nat).
  { intros name h I. unfold max_epochs. assert (F : Forall (fun k => (k <= list_max (map (fun kv : string * history => length (snd kv)) l))%nat) (map (fun kv : string * history => length (snd kv)) l)) by (apply list_max_le; lia).
    rewrite Forall_forall in F. apply F. change (length h) with (length (snd (name, h))). apply (in_map (fun kv : string * history => length (snd kv))). exact I. }
  split; [reflexivity|]. split; [|split].
  - apply (flat_pair_length (fun kv : string * history => padded (max_epochs l) (epochs (length (snd kv)))) (fun kv => padded (max_epochs l) (snd kv))).
  - apply Forall_forall. intros c I. apply in_flat_map in I as ([name h] & I & J). specialize (M name h I). cbn [snd In] in J.
    assert (G : forall c : history, length c = length h -> length (padded (max_epochs l) c) = max_epochs l) by (intros c' Lc; unfold padded; rewrite app_length, repeat_length, Lc; lia).
    destruct J as [<-|[<-|[]]]; apply G; [unfold epochs; rewrite map_length; apply seq_length|reflexivity].
  - intros i name h E. split; [|apply (M name), (nth_error_In _ _ E)]. intros p.
    destruct (flat_pair (fun kv : string * history => padded (max_epochs l) (epochs (length (snd kv)))) (fun kv => padded (max_epochs l) (snd kv)) l i _ E) as [A B].
    unfold curve_in. cbn [f_columns]. rewrite <- (drawn_epochs (max_epochs l)). split.
    + intros (x & y & X & Y & D). pose proof (eq_trans (eq_sym X) A) as X'. pose proof (eq_trans (eq_sym Y) B) as Y'. injection X' as ->. injection Y' as ->. exact D.
    + intros D. eexists. eexists. split; [exact A|]. split; [exact B|]. exact D.
Qed.
Lemma loss_figure_form b hs : hs <> [] -> loss_figure b hs = Ok (mkFig (map fst hs)
  (flat_map (fun kv => [padded (max_epochs hs) (epochs (length (snd kv))); padded (max_epochs hs) (if b then map log_value (snd kv) else snd kv)]) hs) (max_epochs hs)).
Proof. destruct hs; [congruence|reflexivity]. Qed.
(** With the logarithm: the figure of the histories of the logarithms. *)
Theorem loss_figure_log : forall hs, exists hs', Forall2 (fun a b => fst a = fst b /\ log_history (snd a) (snd b)) hs hs' /\ loss_figure true hs = loss_figure false hs'.
Proof.
  intros hs. exists (map (fun kv => (fst kv, map log_value (snd kv))) hs). split.
  - induction hs as [|[n h] hs IH]; constructor; [split; [reflexivity|apply log_value_spec]|exact IH].
  - destruct hs as [|kv hs]; [reflexivity|]. set (l := kv :: hs). rewrite (loss_figure_form true l) by discriminate.
    rewrite (loss_figure_form false) by discriminate.
    assert (M : max_epochs (map (fun kv => (fst kv, map log_value (snd kv))) l) = max_epochs l).
    { unfold max_epochs. rewrite map_map. f_equal. apply map_ext. intros [n h]. cbn. apply map_length. }
    rewrite M. f_equal. f_equal.
    + rewrite map_map. apply map_ext. reflexivity.
    + generalize (max_epochs l). intros m. clear. generalize l. clear. intros l. induction l as [|[n h] l IH]; [reflexivity|]. cbn [map flat_map fst snd]. rewrite map_length, IH. reflexivity.
Qed.
(** Loss and learning rate: refused exactly for other lengths (the rates of one
    training are all numbers or all lists). *)
Definition uniform (lrs : list lr_entry) : Prop := (forall e, In e lrs -> exists r, e = Rate r) \/ (forall e, In e lrs -> exists r, e = RateList r).
(** There is a figure exactly when there is a history to show. *)
Theorem loss_figure_shown : forall is_log hs, (exists f, loss_figure is_log hs = Ok f) <-> hs <> [].
Proof.
  intros is_log hs. unfold loss_figure. destruct hs as [|kv hs]; split; intros H; [destruct H; discriminate|congruence|discriminate|eauto].
Qed.
Theorem loss_lr_law : forall losses lrs, uniform lrs ->
  (length lrs <> length losses -> loss_lr_figure false losses lrs = Err RuntimeError) /\
  (length lrs = length losses -> exists f g, loss_lr_figure false losses lrs = Ok (f, g) /\
    (forall p, curve_in f 0 p <-> curve_of losses p) /\
    (forall p, curve_in g 0 p <-> exists k r, (nth_error lrs k = Some (Rate r) \/ nth_error lrs k = Some (RateList r)) /\ p = (INR k, r))).
Proof.
  intros losses lrs U. unfold loss_lr_figure. split; intros L.
  - apply Nat.eqb_neq in L. rewrite L. reflexivity.
  - rewrite L, Nat.eqb_refl. cbn [negb]. assert (Q : rate_column lrs = Ok (map (fun e => Some (rate_value e)) lrs)).
    { unfold rate_column. destruct U as [U|U].
      - assert (F : forallb is_rate lrs = true) by (apply forallb_forall; intros e I; destruct (U e I) as [r ->]; reflexivity). now rewrite F.
      - assert (F : forallb (fun e => negb (is_rate e)) lrs = true) by (apply forallb_forall; intros e I; destruct (U e I) as [r ->]; reflexivity). rewrite F, orb_true_r. reflexivity. }
    rewrite Q. cbn [rbind]. eexists. eexists. split; [reflexivity|].
    assert (D : forall h (f : figure) n, f_columns f = [epochs n; h] -> n = length h -> forall p, curve_in f 0 p <-> curve_of h p).
    { intros h f n C -> p. unfold curve_in. rewrite C. cbn [Nat.mul Nat.add nth_error]. split.
      - intros (x & y & [= <-] & [= <-] & k & A & B). apply epochs_some in A as [_ A]. exists k. auto.
      - intros (k & A & B). exists (epochs (length h)), h. split; [reflexivity|]. split; [reflexivity|]. exists k. rewrite epochs_some. repeat split; auto. apply nth_error_Some. congruence. }
    split; intros p.
    + apply (D losses _ (length losses)); reflexivity.
    + rewrite (D (map (fun e => Some (rate_value e)) lrs) _ (length losses)) by (cbn; try reflexivity; now rewrite map_length). unfold curve_of. split.
      * intros (k & A & B). rewrite nth_error_map in B. destruct (nth_error lrs k) as [[r|r]|] eqn:E; [| |discriminate]; injection B as B; exists k, r; (split; [auto|]); destruct p; cbn in *; congruence.
      * intros (k & r & H & ->). exists k. split; [reflexivity|]. rewrite nth_error_map. destruct H as [->| ->]; reflexivity.
Qed.
(** Parameters: every parameter has its own file, curve and bounds; a parameter
    without bounds raises KeyError. *)
Lemma append_inj a b c : (a ++ b)%string = (a ++ c)%string -> b = c.
Proof. induction a as [|x a IH]; cbn; intros H; [exact H|]. injection H as H. auto. Qed.
Lemma keys_files (filename : string) (hist : dict history) (bounds : dict (R * R)) l : parameter_figures filename hist bounds = Ok l ->
  Forall2 (fun kv o => fst o = (filename ++ "_" ++ fst kv)%string /\ dget bounds (fst kv) = Some (snd (snd o)) /\ f_columns (fst (snd o)) = [epochs (length (snd kv)); snd kv]) hist l.
Proof.
  unfold parameter_figures. revert l. induction hist as [|[n h] hist IH]; intros l H; cbn [rmap] in H.
  - injection H as <-. constructor.
  - cbn [fst snd] in H. unfold dlookup in H. destruct (dget bounds n) as [b|] eqn:B; cbn [rbind] in H; [|discriminate].
    fold (parameter_figures filename hist bounds) in IH. match type of H with context [rmap ?f hist] => destruct (rmap f hist) as [t|] eqn:E end; cbn [rbind] in H; [|discriminate].
    injection H as <-. constructor; [cbn; auto|]. apply IH. exact E.
Qed.
Theorem parameter_figures_law : forall filename hist bounds, NoDup (map fst hist) -> (forall n, In n (map fst hist) -> dget bounds n <> None) ->
  exists l, parameter_figures filename hist bounds = Ok l /\ NoDup (map fst l) /\
  forall n h, In (n, h) hist -> exists f b, In ((filename ++ "_" ++ n)%string, (f, b)) l /\ dget bounds n = Some b /\ forall p, curve_in f 0 p <-> curve_of h p.
Proof.
  intros filename hist bounds N B.
  assert (X : exists l, parameter_figures filename hist bounds = Ok l).
  { unfold parameter_figures. clear N. induction hist as [|[n h] hist IH]; [exists []; reflexivity|]. destruct IH as [l E]; [intros m I; apply B; now right|].
    cbn [rmap fst snd]. destruct (dget bounds n) as [b|] eqn:G; [|exfalso; apply (B n); [now left|exact G]]. assert (D : dlookup bounds n = Ok b) by (unfold dlookup; now rewrite G). rewrite D. cbn [rbind]. rewrite E. eexists. reflexivity. }
  destruct X as [l E]. exists l. split; [exact E|]. apply keys_files in E. split.
  - assert (M : map fst l = map (fun n => (filename ++ "_" ++ n)%string) (map fst hist)) by (clear N B; induction E as [|kv o hist l (A & _) F IH]; [reflexivity|cbn; rewrite A, IH; reflexivity]).
    rewrite M. clear -N. induction N as [|n t I N IH]; cbn; constructor; auto. intros C. apply in_map_iff in C as (m & Q & J). apply append_inj in Q. injection Q as Q. congruence.
  - clear N B. intros n h I. induction E as [|kv [o [f b]] hist l (A & D & C) F IH]; [destruct I|]. destruct I as [->|I].
    + cbn [fst snd] in *. subst o. exists f, b. split; [now left|]. split; [exact D|]. intros p. unfold curve_in. rewrite C. cbn [Nat.mul Nat.add nth_error]. split.
      * intros (x & y & [= <-] & [= <-] & k & P & Q). apply epochs_some in P as [_ P]. exists k. auto.
      * intros (k & P & Q). exists (epochs (length h)), h. split; [reflexivity|]. split; [reflexivity|]. exists k. rewrite epochs_some. repeat split; auto. apply nth_error_Some. congruence.
    + destruct (IH I) as (f' & b' & J & K). exists f', b'. split; [now right|exact K].
Qed.
Theorem unbounded_parameter_refuted : forall filename hist bounds n, In n (map fst hist) -> dget bounds n = None -> parameter_figures filename hist bounds = Err KeyError.
Proof.
  intros filename hist bounds n I G. unfold parameter_figures. induction hist as [|[m h] hist IH]; [destruct I|]. cbn [rmap fst snd].
  destruct (dget bounds m) as [b|] eqn:E; [assert (D : dlookup bounds m = Ok b) by (unfold dlookup; now rewrite E)|assert (D : dlookup bounds m = Err KeyError) by (unfold dlookup; now rewrite E)];
    rewrite D; cbn [rbind]; [|reflexivity]. destruct I as [I|I]; [cbn in I; congruence|]. rewrite (IH I). reflexivity.
Qed.
(** The plots of a saved training show its losses, validation losses and rates. *)
Theorem standard_plots_law : forall n nature type tr lt lrs va, uniform lrs -> length lrs = length tr ->
  exists a f g, standard_plots (Some (save_loss_history n nature type tr lt (Some lrs) va)) = Ok (a, (f, g)) /\
  f_labels a = ("Training" :: match va with Some _ => ["Validation"] | None => [] end)%string /\
  (forall p, curve_in a 0 p <-> curve_of (map item_value tr) p) /\
  (forall v, va = Some v -> forall p, curve_in a 1 p <-> curve_of (map item_value v) p) /\
  (forall p, curve_in f 0 p <-> curve_of (map item_value tr) p) /\
  (forall p, curve_in g 0 p <-> exists k r, (nth_error lrs k = Some (Rate r) \/ nth_error lrs k = Some (RateList r)) /\ p = (INR k, r)).
Proof.
  intros n nature type tr lt lrs va U L. unfold standard_plots. rewrite loss_record_roundtrip, lr_record_roundtrip. cbn [rbind snd].
  set (hs := ("Training"%string, map item_value tr) :: _). destruct (loss_figure_law hs ltac:(discriminate)) as (a & A & B & _ & _ & C). rewrite A. cbn [rbind].
  destruct (loss_lr_law (map item_value tr) lrs U) as [_ H]. destruct H as (f & g & F & G1 & G2); [now rewrite map_length|]. rewrite F. cbn [rbind].
  exists a, f, g. split; [reflexivity|]. split; [rewrite B; unfold hs; destruct va; reflexivity|]. split; [apply (C 0%nat "Training"%string); reflexivity|].
  split; [|split; assumption]. intros v ->. apply (C 1%nat "Validation"%string). reflexivity.
Qed.
(** A record without rates has no plots, not even of its losses. *)
Theorem plots_without_rates_refuted : forall n nature type tr lt va, standard_plots (Some (save_loss_history n nature type tr lt None va)) = Err RuntimeError.
Proof.
  intros. unfold standard_plots. rewrite loss_record_roundtrip. destruct (lr_record_missing n nature type tr lt va) as [-> _]. reflexivity.
Qed.
Example history_case : loss_figure false [("Training"%string, [Some 3; Some 2]); ("Validation"%string, [None; Some 5; Some 4])] =
  Ok (mkFig ["Training"; "Validation"]%string [[Some 0; Some 1; None]; [Some 3; Some 2; None]; [Some 0; Some 1; Some (1 + 1)]; [None; Some 5; Some 4]] 3).
Proof. reflexivity. Qed.

Print Assumptions loss_figure_law.
Print Assumptions loss_figure_log.
Print Assumptions loss_lr_law.
Print Assumptions parameter_figures_law.
Print Assumptions unbounded_parameter_refuted.
Print Assumptions standard_plots_law.
Print Assumptions plots_without_rates_refuted.
