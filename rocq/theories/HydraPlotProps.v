(** Properties of the optimization jobs and their history (HydraPlotModel). *)
From Coq Require Import Reals String Ascii List Bool Arith ZArith Lia Lra Permutation Sorted.
Import ListNotations.
From Verif Require Import Lib PyStr PyDict TextLines HybridModel HybridProps HistoryProps LinksFileProps UqModel UqProps ConvPlotModel ConvPlotProps HydraPlotModel.
Local Open Scope list_scope.

(** ** Objective *)
Theorem objective_value process b p x : job_objective process true b p = Ok x <->
  (process = "training"%string /\ x = b) \/ (process = "training-testing"%string /\ p = Some x).
Proof.
  unfold job_objective. destruct (String.eqb_spec process "training") as [->|N1]; cbn [orb].
  - split; [intros H; injection H as <-; now left|]. intros [[_ ->]|[H _]]; [reflexivity|discriminate].
  - destruct (String.eqb_spec process "training-testing") as [->|N2]; split.
    + destruct p; intros H; [injection H as <-; now right|discriminate].
    + intros [[H _]|[_ ->]]; [discriminate|reflexivity].
    + discriminate.
    + intros [[H _]|[H _]]; contradiction.
Qed.
(** Without early stopping no job ends. *)
Theorem no_early_stopping_refuted process b p : process = "training"%string \/ process = "training-testing"%string ->
  job_objective process false b p = Err NameError.
Proof. intros [->| ->]; reflexivity. Qed.

(** ** Job summary *)
Definition silent (metric : string) (e : string * sval) : Prop := forallb (fun x => negb (has_text metric x)) (summary_entry e) = true.
Section Reading.
  Variable pf : string -> res R.
  Lemma read_metric_skip metric pre l : forallb (fun x => negb (has_text metric x)) pre = true ->
    read_metric pf metric (pre ++ l) = read_metric pf metric l.
  Proof.
    induction pre as [|x pre IH]; cbn [forallb app]; auto. intros H. apply andb_true_iff in H as [H1 H2].
    cbn [read_metric]. apply negb_true_iff in H1. rewrite H1. auto.
  Qed.
  Lemma silent_all metric es : Forall (silent metric) es -> forallb (fun x => negb (has_text metric x)) (flat_map summary_entry es) = true.
  Proof.
    induction 1 as [|e es H _ IH]; [reflexivity|]. cbn [flat_map]. rewrite forallb_app, IH. unfold silent in H. rewrite H. reflexivity.
  Qed.
  Lemma gset_entries (d : list (string * sval)) k v e : In e (gset String.eqb d k v) -> e = (k, v) \/ In e d.
  Proof.
    induction d as [|[k' v'] d IH]; cbn; [intros [H|[]]; now left|]. destruct (String.eqb k k') eqn:Q; cbn.
    - intros [H|H]; [left|now right; right]. apply String.eqb_eq in Q. now subst k'.
    - intros [H|H]; [now right; left|]. destruct (IH H); [now left|now right; right].
  Qed.
  Lemma fold_entries cfg : forall d e, In e (fold_left (fun d (e : string * sval) => gset String.eqb d (fst e) (snd e)) cfg d) -> In e cfg \/ In e d.
  Proof.
    induction cfg as [|c cfg IH]; intros d e H; [now right|]. cbn [fold_left] in H. apply IH in H as [H|H]; [now left; right|].
    apply gset_entries in H as [->|H]; [left; left; now destruct c|now right].
  Qed.
  Lemma gset_new (d : list (string * sval)) k v : ~ In k (map fst d) -> gset String.eqb d k v = d ++ [(k, v)].
  Proof.
    induction d as [|[k' v'] d IH]; cbn; intros H; [reflexivity|]. destruct (String.eqb_spec k k') as [->|N]; [exfalso; apply H; now left|].
    rewrite IH; [reflexivity|]. intros G. apply H. now right.
  Qed.
  Lemma silent_key v : ~ silent "objective" ("objective"%string, v).
  Proof. destruct v; unfold silent; cbn; discriminate. Qed.
  (** The objective is read back from the summary of its job whatever the
      configuration, if none of it mentions an objective. *)
  Theorem job_objective_read_back sweeper optimizer cfg text : Forall (silent "objective") cfg ->
    silent "objective" ("sweeper"%string, SText sweeper) -> silent "objective" ("sweeper_optimizer"%string, SText optimizer) ->
    words text = [text] -> read_metric pf "objective" (job_summary sweeper optimizer cfg text) = pf text.
  Proof.
    intros F S1 S2 W. unfold job_summary, job_summary_data.
    set (d := fold_left _ cfg _).
    assert (D : Forall (silent "objective") d).
    { apply Forall_forall. intros e H. apply fold_entries in H as [H|H]; [rewrite Forall_forall in F; now apply F|].
      apply gset_entries in H as [->|H]; [exact S2|]. apply gset_entries in H as [->|[]]; exact S1. }
    assert (K : ~ In "objective"%string (map fst d)).
    { intros H. apply in_map_iff in H as ([k v] & E & H). cbn in E. subst k. rewrite Forall_forall in D. exact (silent_key v (D _ H)). }
    rewrite gset_new by exact K. unfold summary_lines. rewrite flat_map_app.
    change (job_title :: dashes (String.length job_title) :: flat_map summary_entry d ++ flat_map summary_entry [("objective"%string, SText text)])
      with ([job_title; dashes (String.length job_title)] ++ (flat_map summary_entry d ++ flat_map summary_entry [("objective"%string, SText text)])).
    rewrite read_metric_skip by reflexivity. rewrite read_metric_skip by (now apply silent_all).
    cbn [flat_map summary_entry snd fst app read_metric]. change (has_text "objective" EmptyString) with false.
    change (has_text "objective" (quote ++ "objective" ++ quote ++ ":  " ++ text)%string) with true. cbv iota.
    change (quote ++ "objective" ++ quote ++ ":  " ++ text)%string with ((quote ++ "objective" ++ quote ++ ": ") ++ String " " text)%string.
    rewrite last_words by exact W. rewrite words_space, W. destruct (words _); reflexivity.
  Qed.
  (** A parameter whose name contains that of the metric is read in its place. *)
  Theorem similar_name_refuted x text : words x = [x] ->
    read_metric pf "objective" (job_summary "BasicSweeper" "None" [("objective_weight"%string, SText x)] text) = pf x.
  Proof.
    intros W. unfold job_summary, job_summary_data, summary_lines. cbn [fold_left gset fst snd String.eqb Ascii.eqb Bool.eqb].
    change (flat_map summary_entry _) with (flat_map summary_entry [("sweeper"%string, SText "BasicSweeper"); ("sweeper_optimizer"%string, SText "None")]
      ++ (EmptyString :: (quote ++ "objective_weight" ++ quote ++ ":  " ++ x)%string :: flat_map summary_entry [("objective"%string, SText text)])).
    match goal with |- read_metric _ _ (?a :: ?b :: ?c ++ ?d) = _ => change (a :: b :: c ++ d) with ((a :: b :: c) ++ d) end.
    rewrite read_metric_skip by (vm_compute; reflexivity). cbn [read_metric]. change (has_text "objective" EmptyString) with false.
    change (has_text "objective" (quote ++ "objective_weight" ++ quote ++ ":  " ++ x)%string) with true. cbv iota.
    change (quote ++ "objective_weight" ++ quote ++ ":  " ++ x)%string with ((quote ++ "objective_weight" ++ quote ++ ": ") ++ String " " x)%string.
    rewrite last_words by exact W. rewrite words_space, W. destruct (words _); reflexivity.
  Qed.

  (** ** History *)
  Lemma job_key_nat n : job_key (nat_str n) = Z.of_nat n.
  Proof. unfold job_key. now rewrite int_of_nat_str. Qed.
  Lemma jobs_sorted n : forall a, StronglySorted (fun x y => (job_key x < job_key y)%Z) (map nat_str (seq a n)).
  Proof.
    induction n as [|n IH]; intros a; cbn [seq map]; constructor; [apply IH|]. apply Forall_forall. intros y H. apply in_map_iff in H as (k & <- & H).
    apply in_seq in H. rewrite !job_key_nat. lia.
  Qed.
  Lemma loop_runs metric d ms : forall hist,
    (forall i m, nth_error ms i = Some m -> exists lines, summaries d (nat_str (length hist + i)) = Some lines /\ read_metric pf metric lines = Ok m) ->
    jobs_loop pf metric d (map nat_str (seq (length hist) (length ms))) hist = Ok (hist ++ ms).
  Proof.
    induction ms as [|m ms IH]; intros hist H; cbn [length seq map jobs_loop]; [now rewrite app_nil_r|].
    rewrite int_of_nat_str. cbn [rbind]. rewrite Nat.eqb_refl. destruct (H 0%nat m eq_refl) as (lines & E1 & E2). rewrite Nat.add_0_r in E1.
    rewrite E1, E2. cbn [rbind]. replace (S (length hist)) with (length (hist ++ [m])) by (rewrite app_length; cbn; lia).
    rewrite IH; [now rewrite <- app_assoc|]. intros i m' Hm. destruct (H (S i) m' Hm) as (l' & F1 & F2). exists l'. split; [|exact F2].
    rewrite app_length. cbn [length]. now replace (length hist + 1 + i)%nat with (length hist + S i)%nat by lia.
  Qed.
  (** The history has the metrics of the jobs in the order of their numbers,
      whatever the order of the directory and its other entries. *)
  Theorem history_law metric d ms : ms <> [] -> Permutation (filter is_job (listing d)) (map nat_str (seq 0 (length ms))) ->
    (forall i m, nth_error ms i = Some m -> exists lines, summaries d (nat_str i) = Some lines /\ read_metric pf metric lines = Ok m) ->
    history pf metric (Some d) = Ok ms.
  Proof.
    intros N P H. unfold history, job_dirs. rewrite (isort_unique job_key _ _ P (jobs_sorted _ 0)).
    destruct (map nat_str (seq 0 (length ms))) as [|a l] eqn:E; [destruct ms; [contradiction|discriminate]|]. rewrite <- E.
    exact (loop_runs metric d ms [] H).
  Qed.
  Lemma loop_sound metric d names : forall hist h, jobs_loop pf metric d names hist = Ok h ->
    exists ms, h = hist ++ ms /\ length ms = length names /\ map int_of names = map Ok (seq (length hist) (length ms)) /\
    forall i m, nth_error ms i = Some m -> exists lines, summaries d (nat_str (length hist + i)) = Some lines /\ read_metric pf metric lines = Ok m.
  Proof.
    induction names as [|name t IH]; intros hist h H; cbn [jobs_loop] in H.
    - injection H as <-. exists []. rewrite app_nil_r. repeat split. intros i m G. destruct i; discriminate.
    - destruct (int_of name) as [j|e] eqn:J; [|discriminate]. cbn [rbind] in H. destruct (Nat.eqb_spec j (length hist)) as [->|]; [|discriminate].
      destruct (summaries d (nat_str (length hist))) as [lines|] eqn:E1; [|discriminate]. destruct (read_metric pf metric lines) as [m|e] eqn:E2; [|discriminate].
      cbn [rbind] in H. apply IH in H as (ms & -> & L & M & G). exists (m :: ms). rewrite <- app_assoc. split; [reflexivity|].
      rewrite app_length in *. cbn [length] in *. split; [now rewrite L|]. split.
      + cbn [map seq]. rewrite J, M. now rewrite Nat.add_1_r.
      + intros [|i] m' Hm; cbn in Hm.
        * injection Hm as <-. exists lines. now rewrite Nat.add_0_r.
        * destruct (G i m' Hm) as (l' & F1 & F2). exists l'. split; [|exact F2]. now replace (length hist + S i)%nat with (length hist + 1 + i)%nat by lia.
  Qed.
  (** A history is complete: the numbers of the job directories are 0, 1, 2, ...
      and every one has its metric. *)
  Theorem history_complete metric d h : history pf metric (Some d) = Ok h -> h <> [] /\
    Permutation (map int_of (filter is_job (listing d))) (map Ok (seq 0 (length h))) /\
    forall i m, nth_error h i = Some m -> exists lines, summaries d (nat_str i) = Some lines /\ read_metric pf metric lines = Ok m.
  Proof.
    unfold history. destruct (job_dirs d) as [|a l] eqn:E; [discriminate|]. rewrite <- E. intros H. apply loop_sound in H as (ms & -> & L & M & G).
    cbn [app length] in *. split; [intros ->; rewrite E in L; discriminate|]. split; [|exact G]. rewrite <- M. apply Permutation_map, Permutation_sym, isort_perm.
  Qed.
  Theorem missing_job_refused metric d name k : In name (listing d) -> is_job name = true -> int_of name = Ok k ->
    (length (filter is_job (listing d)) <= k)%nat -> exists e, history pf metric (Some d) = Err e.
  Proof.
    intros I J K L. destruct (history pf metric (Some d)) as [h|e] eqn:H; [exfalso|now exists e]. apply history_complete in H as (_ & P & _).
    assert (Q : In (Ok k) (map Ok (seq 0 (length h)))).
    { rewrite <- P, <- K. apply in_map. apply filter_In. now split. }
    apply in_map_iff in Q as (k' & Q & R). injection Q as ->. apply in_seq in R. apply Permutation_length in P. rewrite !map_length, seq_length in P. lia.
  Qed.
  (** ** Best job *)
  Lemma best_fold t : forall pre j v i, i = length pre -> nth_error pre j = Some v -> Forall (fun x => v <= x)%R pre -> (forall k x, nth_error pre k = Some x -> (k < j)%nat -> v < x)%R ->
    let b := fst (fold_left (fun b y => let '((j, v), i) := b in (if Rlt_dec y v then (i, y) else (j, v), S i)) t ((j, v), i)) in
    nth_error (pre ++ t) (fst b) = Some (snd b) /\ Forall (fun x => snd b <= x)%R (pre ++ t) /\ (forall k x, nth_error (pre ++ t) k = Some x -> (k < fst b)%nat -> snd b < x)%R.
  Proof.
    induction t as [|y t IH]; intros pre j v i Hi Hj F G; cbn [fold_left].
    - rewrite app_nil_r. cbn. repeat split; assumption.
    - assert (A : pre ++ y :: t = (pre ++ [y]) ++ t) by (now rewrite <- app_assoc). rewrite A.
      destruct (Rlt_dec y v) as [Q|Q]; apply IH.
      + rewrite app_length. cbn. lia.
      + subst i. rewrite nth_error_app2 by lia. now rewrite Nat.sub_diag.
      + apply Forall_app. split; [|constructor; [lra|constructor]]. refine (Forall_impl _ _ F); cbn; intros; lra.
      + intros k x E L. subst i. rewrite nth_error_app1 in E by exact L. apply nth_error_In in E. rewrite Forall_forall in F. specialize (F x E). lra.
      + rewrite app_length. cbn. lia.
      + rewrite nth_error_app1; [exact Hj|]. apply nth_error_Some. congruence.
      + apply Forall_app. split; [exact F|]. constructor; [lra|constructor].
      + intros k x E L. apply (G k x); [|exact L]. rewrite nth_error_app1 in E; [exact E|]. assert (j < length pre)%nat by (apply nth_error_Some; congruence). lia.
  Qed.
  (** The best job has the least metric, and is the first one with it. *)
  Theorem best_job hist j v : best_of hist = Some (j, v) ->
    nth_error hist j = Some v /\ Forall (fun x => v <= x)%R hist /\ (forall k x, nth_error hist k = Some x -> (k < j)%nat -> v < x)%R.
  Proof.
    destruct hist as [|x t]; cbn [best_of]; [discriminate|]. intros H. injection H as H.
    pose proof (best_fold t [x] 0%nat x 1%nat eq_refl eq_refl) as B. cbv zeta in B. rewrite H in B. cbn [app fst snd] in B. apply B.
    - constructor; [lra|constructor].
    - intros k y _ L. lia.
  Qed.
  (** ** Plot *)
  Definition running_min (h best : list R) : Prop := length best = length h /\ forall i b, nth_error best i = Some b ->
    In b (firstn (S i) h) /\ Forall (fun x => b <= x)%R (firstn (S i) h).
  Lemma best_runs h : forall pre b0, In b0 pre -> Forall (fun x => b0 <= x)%R pre -> exists best, best_so_far b0 (map Some h) = Ok best /\ length best = length h /\
    forall i b, nth_error best i = Some b -> In b (pre ++ firstn (S i) h) /\ Forall (fun x => b <= x)%R (pre ++ firstn (S i) h).
  Proof.
    induction h as [|x h IH]; intros pre b0 I F; cbn [map best_so_far].
    - exists []. repeat split; destruct i; discriminate.
    - set (b := if Rlt_dec x b0 then x else b0).
      assert (Ib : In b (pre ++ [x])) by (unfold b; destruct (Rlt_dec x b0); apply in_or_app; [right; now left|now left]).
      assert (Fb : Forall (fun y => b <= y)%R (pre ++ [x])).
      { apply Forall_app. unfold b. destruct (Rlt_dec x b0) as [Q|Q]; (split; [|constructor; [lra|constructor]]); [|exact F]. refine (Forall_impl _ _ F); cbn; intros; lra. }
      destruct (IH (pre ++ [x]) b Ib Fb) as (best & E & L & G). exists (b :: best). cbv zeta. fold b. rewrite E. cbn [rbind]. split; [reflexivity|]. split; [cbn; lia|].
      intros [|i] b' H; cbn in H.
      + injection H as <-. cbn [firstn]. now split.
      + specialize (G i b' H). rewrite <- app_assoc in G. exact G.
  Qed.
  Lemma hist_nonempty metric d h : history pf metric d = Ok h -> h <> [].
  Proof. destruct d as [d|]; [|discriminate]. intros H. now apply history_complete in H as [N _]. Qed.
  Lemma assign_own (h : list R) : assign_slice (length h) h = Ok h.
  Proof. destruct h as [|x [|y t]]; [reflexivity|reflexivity|]. cbn [assign_slice]. now rewrite Nat.eqb_refl. Qed.
  (** The plot of one process: its jobs, their metrics and the best so far. *)
  Theorem one_process_plot metric label d h : history pf metric d = Ok h -> exists best,
    history_plot pf metric [(label, d)] = Ok ([(map Some (seq 0 (length h)), map Some h)], best) /\ running_min h best.
  Proof.
    intros H. pose proof (hist_nonempty _ _ _ H) as N. unfold history_plot, data_columns. cbn [rmap snd]. rewrite H. cbn [rbind map fold_right last rmap].
    rewrite assign_own. cbn [rbind]. unfold column. rewrite Nat.max_0_r, Nat.sub_diag. cbn [repeat]. rewrite !app_nil_r.
    destruct h as [|x t]; [contradiction|]. cbn [map].
    destruct (best_runs (x :: t) [x] x) as (best & E & L & G); [now left|constructor; [lra|constructor]|].
    cbn [map] in E. rewrite E. cbn [rbind]. exists best. split; [reflexivity|]. split; [exact L|]. intros i b Hb. destruct (G i b Hb) as [G1 G2].
    cbn [app] in G1, G2. split.
    - destruct G1 as [<-|G1]; [cbn; now left|exact G1].
    - inversion G2. assumption.
  Qed.
  (** Two processes with the same number of jobs are both drawn with the metrics
      of the second. *)
  Theorem last_history_refuted metric l1 d1 h1 l2 d2 h2 : history pf metric d1 = Ok h1 -> history pf metric d2 = Ok h2 -> length h1 = length h2 ->
    exists best, history_plot pf metric [(l1, d1); (l2, d2)] =
      Ok ([(map Some (seq 0 (length h1)), map Some h2); (map Some (seq 0 (length h2)), map Some h2)], best) /\ running_min h2 best.
  Proof.
    intros H1 H2 L. pose proof (hist_nonempty _ _ _ H2) as N. unfold history_plot, data_columns. cbn [rmap snd]. rewrite H1, H2. cbn [rbind map fold_right last rmap].
    rewrite L, assign_own. cbn [rbind]. unfold column. rewrite Nat.max_0_r, Nat.max_id, Nat.sub_diag. cbn [repeat]. rewrite !app_nil_r.
    destruct h2 as [|x t]; [contradiction|]. cbn [map].
    destruct (best_runs (x :: t) [x] x) as (best & E & L' & G); [now left|constructor; [lra|constructor]|].
    cbn [map] in E. rewrite E. cbn [rbind]. exists best. split; [reflexivity|]. split; [exact L'|]. intros i b Hb. destruct (G i b Hb) as [G1 G2].
    cbn [app] in G1, G2. split.
    - destruct G1 as [<-|G1]; [cbn; now left|exact G1].
    - inversion G2. assumption.
  Qed.
  (** With different numbers of jobs there is no plot, unless the last process
      has a single job. *)
  Theorem uneven_processes_refuted metric l1 d1 h1 l2 d2 h2 : history pf metric d1 = Ok h1 -> history pf metric d2 = Ok h2 ->
    length h1 <> length h2 -> length h2 <> 1%nat -> history_plot pf metric [(l1, d1); (l2, d2)] = Err ValueError.
  Proof.
    intros H1 H2 L L1. unfold history_plot, data_columns. cbn [rmap snd]. rewrite H1, H2. cbn [rbind map fold_right last rmap].
    assert (E : assign_slice (length h1) h2 = Err ValueError).
    { destruct h2 as [|x [|y t]]; [|contradiction (L1 eq_refl)|]; unfold assign_slice; destruct (Nat.eqb_spec (length (x :: y :: t)) (length h1)) as [Q|Q] || destruct (Nat.eqb_spec (@length R []) (length h1)) as [Q|Q];
        try reflexivity; exfalso; apply L; now rewrite Q. }
    rewrite E. reflexivity.
  Qed.
End Reading.

(** ** Cases *)
Example ex_history : let s x := [("""objective"":  " ++ x)%string] in
  let d := Optim ["10"; "multirun.yaml"; "2"; "0"; "1"]%string (fun n => if String.eqb n "10" then None else Some (s n)) in
  let pf x := Ok (match x with "0"%string => 3 | "1"%string => 1 | _ => 2 end)%R in
  job_dirs d = ["0"; "1"; "2"; "10"]%string /\ history pf "objective" (Some d) = Err RuntimeError /\
  history pf "objective" (Some (Optim ["2"; "0"; "x"; "1"]%string (summaries d))) = Ok [3; 1; 2]%R.
Proof. repeat split. Qed.
Example ex_best : best_of [3; 1; 2; 1]%R = Some (1%nat, 1%R).
Proof. cbn. repeat (destruct (Rlt_dec _ _); try (exfalso; lra)). reflexivity. Qed.
Example ex_objective : job_objective "training-testing" true 1 (Some 2%R) = Ok 2%R /\ job_objective "training-testing" true 1 None = Err TypeError
  /\ job_objective "testing" true 1 None = Err RuntimeError.
Proof. repeat split. Qed.

Print Assumptions objective_value.
Print Assumptions no_early_stopping_refuted.
Print Assumptions job_objective_read_back.
Print Assumptions similar_name_refuted.
Print Assumptions history_law.
Print Assumptions history_complete.
Print Assumptions missing_job_refused.
Print Assumptions best_job.
Print Assumptions one_process_plot.
Print Assumptions last_history_refuted.
Print Assumptions uneven_processes_refuted.
