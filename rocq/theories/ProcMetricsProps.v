(** Mean prediction metrics of several processes (C141). *)
From Coq Require Import Reals String List Bool Arith ZArith Lia.
From Verif Require Import Lib ScalerModel PyDict PyStr MetricsModel HybridModel MeanMetricsModel MeanMetricsProps MeanFileProps ProcMetricsModel.
Import ListNotations.
Local Open Scope string_scope.

Section spec.
  Variables X D : Type.
  Variable show : X -> shown.
  Variable compute : D -> res (nat * dict (list X)).
  (** The text of one process and of a list of processes. *)
  Definition entry := (string * (nat * dict (list X)))%type.
  Definition block_text (e : entry) : string :=
    nl ("> Process: " ++ fst e) ++ nl ("    > n_sample = " ++ nat_str (fst (snd e)))
    ++ fold_right (fun m t => nl (metric_line show m) ++ t) "" (snd (snd e)) ++ nl (nl "").
  Fixpoint blocks_text (l : list entry) : string := match l with [] => "" | e :: t => block_text e ++ blocks_text t end.
  Definition title : string := nl ("Mean prediction metrics" ++ nl ("-----------------------" ++ nl "")).
  (** The file after appending the processes: a title only for a new file. *)
  Definition appended (old : option string) (l : list entry) : option string :=
    match l, old with [], _ => old | _, Some t => Some (t ++ blocks_text l) | _, None => Some (title ++ blocks_text l) end.
  (** Each process has the metrics of its own directory. *)
  Definition own (p : string * D) (e : entry) : Prop := fst p = fst e /\ compute (snd p) = Ok (snd e).

  Lemma app_assoc_s a b c : ((a ++ b) ++ c = a ++ (b ++ c))%string.
  Proof. induction a as [|x a IH]; cbn; [reflexivity|]. rewrite IH. reflexivity. Qed.
  Lemma app_empty_s a : (a ++ "" = a)%string.
  Proof. induction a as [|x a IH]; cbn; [reflexivity|]. rewrite IH. reflexivity. Qed.
  Lemma write_app a b : write_lines (a ++ b)%list = write_lines a ++ write_lines b.
  Proof. unfold write_lines. induction a as [|x a IH]; cbn; [reflexivity|]. rewrite IH, app_assoc_s. reflexivity. Qed.
  Lemma format_text label n results : write_lines (format_mean_metrics_results show n results label) = block_text (label, (n, results)).
  Proof.
    unfold format_mean_metrics_results, block_text. cbn [fst snd]. rewrite !write_app.
    assert (M : write_lines (map (fun m => nl (metric_line show m)) results) = fold_right (fun m t => nl (metric_line show m) ++ t) "" results).
    { unfold write_lines. induction results as [|m r IH]; [reflexivity|]. cbn [map fold_right]. rewrite IH. reflexivity. }
    rewrite M. unfold write_lines. cbn [fold_right]. rewrite !app_empty_s, !app_assoc_s. reflexivity.
  Qed.
  Lemma appended_cons old e l : appended old (e :: l) = appended (appended old [e]) l.
  Proof. destruct old, l; cbn [appended blocks_text]; rewrite ?app_empty_s, ?app_assoc_s; reflexivity. Qed.
  Lemma save_existing s n r label : save_process show Existing s n r label = Ok (mkOutside (appended (o_file s) [(label, (n, r))]) (o_out s)).
  Proof.
    unfold save_process, write_mean_metrics_results_file. destruct (o_file s) as [t|]; cbn [rbind appended blocks_text].
    - rewrite app_empty_s, format_text. reflexivity.
    - unfold write_lines at 1. cbn [fold_right]. change (fold_right append "" ?l) with (write_lines l).
      rewrite format_text, app_empty_s. reflexivity.
  Qed.
  Lemma dset_new {V} (d : dict V) k v : ~ In k (dkeys d) -> dset d k v = (d ++ [(k, v)])%list.
  Proof.
    unfold dset, dkeys, gkeys. induction d as [|[a b] d IH]; cbn; [reflexivity|]. intros N.
    destruct (String.eqb_spec k a) as [->|E]; [tauto|]. rewrite IH by tauto. reflexivity.
  Qed.
  Definition left (sv disp : bool) (s : outside) (l : list entry) : outside :=
    mkOutside (if sv then appended (o_file s) l else o_file s) (if disp then o_out s ++ blocks_text l else o_out s).
  Lemma left_nil sv disp s : left sv disp s [] = s.
  Proof. destruct s; unfold left; cbn. destruct sv, disp; rewrite ?app_empty_s; reflexivity. Qed.
  Definition can_save (sv : bool) (d : saving_dir) : Prop := sv = true -> d = Existing.
  Lemma loop_step label d rest sd sv disp acc s e : can_save sv sd -> compute d = Ok e ->
    process_loop show compute ((label, d) :: rest) sd sv disp acc s
    = process_loop show compute rest sd sv disp (dset acc label e) (left sv disp s [(label, e)]).
  Proof.
    intros C E. destruct e as [n r]. cbn [process_loop]. rewrite E. unfold left.
    destruct sv; [rewrite (C eq_refl), save_existing|]; (destruct disp; cbn [print_text o_file o_out blocks_text]; [unfold print_text; cbn [o_file o_out]; rewrite format_text, app_empty_s|destruct s]; reflexivity).
  Qed.
  Lemma left_cons sv disp s e l : left sv disp (left sv disp s [e]) l = left sv disp s (e :: l).
  Proof.
    unfold left. cbn [o_file o_out]. f_equal; [destruct sv; [symmetry; apply appended_cons|reflexivity]|].
    destruct disp; [|reflexivity]. cbn [blocks_text]. rewrite app_empty_s, app_assoc_s. reflexivity.
  Qed.
  Lemma loop_prefix sd sv disp ds es rest acc s : can_save sv sd -> Forall2 own ds es -> NoDup (map fst acc ++ map fst ds)%list ->
    process_loop show compute (ds ++ rest)%list sd sv disp acc s
    = process_loop show compute rest sd sv disp (acc ++ es)%list (left sv disp s es).
  Proof.
    intros C F. revert acc s. induction F as [|[label d] [label' e] ds es [O1 O2] F IH]; intros acc s ND.
    - cbn [app]. rewrite app_nil_r, left_nil. reflexivity.
    - cbn [fst snd] in O1, O2. subst label'. cbn [app]. rewrite (loop_step _ _ _ _ _ _ _ _ e C O2).
      assert (Nk : ~ In label (map fst acc)).
      { intros I. cbn [map fst] in ND. apply NoDup_remove_2 in ND. apply ND, in_or_app. left; exact I. }
      rewrite dset_new by exact Nk. rewrite IH.
      + rewrite <- app_assoc. cbn [app]. rewrite left_cons. reflexivity.
      + rewrite map_app, <- app_assoc. exact ND.
  Qed.
  Definition start (disp : bool) (s : outside) : outside := if disp then mkOutside (o_file s) (o_out s ++ title) else s.
  Lemma compute_loop dirs sd sv disp s : compute_processes show compute dirs sd sv disp s = process_loop show compute dirs sd sv disp [] (start disp s).
  Proof. unfold compute_processes, start. destruct disp; reflexivity. Qed.

  (** Every process has the number of samples and metrics of its own directory,
      in the order of the processes; with saving, one block for each of them is
      added to the file (a new file has a title), what was there is kept;
      with display the title and the same blocks are shown. *)
  Theorem processes_law : forall dirs es sd sv disp s, NoDup (map fst dirs) -> can_save sv sd -> Forall2 own dirs es ->
    exists s', compute_processes show compute dirs sd sv disp s = (Ok es, s')
      /\ o_file s' = (if sv then appended (o_file s) es else o_file s)
      /\ o_out s' = (if disp then o_out s ++ title ++ blocks_text es else o_out s).
  Proof.
    intros dirs es sd sv disp s ND C F. rewrite compute_loop.
    pose proof (loop_prefix sd sv disp dirs es [] [] (start disp s) C F ND) as E. rewrite app_nil_r in E. rewrite E.
    cbn [process_loop app]. eexists. split; [reflexivity|]. unfold left, start. destruct sv, disp; cbn [o_file o_out]; rewrite ?app_assoc_s; auto.
  Qed.
  (** With a new file, the display shows exactly the content of the file. *)
  Theorem display_is_file : forall dirs es s, dirs <> [] -> NoDup (map fst dirs) -> Forall2 own dirs es -> o_file s = None -> o_out s = "" ->
    exists text, compute_processes show compute dirs Existing true true s = (Ok es, mkOutside (Some text) text).
  Proof.
    intros dirs es s N ND F E1 E2. destruct (processes_law dirs es Existing true true s ND (fun _ => eq_refl) F) as [[f o] [E [Q1 Q2]]].
    cbn in Q1, Q2. rewrite E1 in Q1. rewrite E2 in Q2. exists (title ++ blocks_text es). rewrite E. f_equal. subst f o.
    destruct es as [|e es]; [inversion F; subst; congruence|]. reflexivity.
  Qed.
  (** The first process that fails decides the error; the blocks of the processes
      before it stay in the file and nothing of the later ones is added. *)
  Theorem failing_process : forall ds es label d rest e sd sv disp s, NoDup (map fst (ds ++ (label, d) :: rest)%list) -> can_save sv sd ->
    Forall2 own ds es -> compute d = Err e ->
    exists s', compute_processes show compute (ds ++ (label, d) :: rest)%list sd sv disp s = (Err e, s')
      /\ o_file s' = (if sv then appended (o_file s) es else o_file s)
      /\ o_out s' = (if disp then o_out s ++ title ++ blocks_text es else o_out s).
  Proof.
    intros ds es label d rest e sd sv disp s ND C F E. rewrite compute_loop.
    rewrite (loop_prefix sd sv disp ds es _ [] (start disp s) C F).
    - cbn [process_loop]. rewrite E. eexists. split; [reflexivity|]. unfold left, start. destruct sv, disp; cbn [o_file o_out]; rewrite ?app_assoc_s; auto.
    - rewrite map_app in ND. cbn [map app]. clear - ND. induction (map fst ds) as [|a l IH]; [constructor|].
      cbn in ND. inversion ND; subst. constructor; [intros I; apply H1, in_or_app; left; exact I|apply IH; assumption].
  Qed.
  (** Saving without a directory (the default) or in a missing one is refused at
      the first process, after its metrics were computed, and no file is made. *)
  Theorem saving_refused : forall label d rest n r sd disp s, sd <> Existing -> compute d = Ok (n, r) ->
    exists s', compute_processes show compute ((label, d) :: rest) sd true disp s
      = (Err (match sd with NoDir => TypeError | _ => RuntimeError end), s') /\ o_file s' = o_file s.
  Proof.
    intros label d rest n r sd disp s N E. rewrite compute_loop. cbn [process_loop]. rewrite E.
    destruct sd; [| |congruence]; cbn; (eexists; split; [reflexivity|]); destruct disp; reflexivity.
  Qed.
End spec.
Arguments block_text {X}. Arguments blocks_text {X}. Arguments appended {X}. Arguments own {X D}.

(** The processes of prediction directories: the mean metrics of C89. *)
Theorem processes_metrics : forall show m metrics (ps : list (string * (directory * list sample))) sd sv disp s,
  NoDup (map fst ps) -> can_save sv sd -> (forall x, In x metrics -> known_mean x) ->
  (forall label d l, In (label, (d, l)) ps -> samples_of m d l /\ l <> []) ->
  exists results s', compute_processes_prediction_metrics show (map (fun p => (fst p, fst (snd p))) ps) metrics sd sv disp s = (Ok results, s')
    /\ map fst results = map fst ps
    /\ forall label d l, In (label, (d, l)) ps -> exists r, dget results label = Some (length l, r)
       /\ forall x, In x metrics -> exists vs, dget r x = Some vs /\ length vs = m /\ forall j, (j < m)%nat -> mean_spec x l j (nth j vs None).
Proof.
  intros show m metrics ps sd sv disp s ND C K H.
  pose (Q := fun (p : string * (directory * list sample)) (e : entry num) => fst p = fst e /\
     compute_directory_prediction_metrics (fst (snd p)) metrics = Ok (snd e) /\ fst (snd e) = length (snd (snd p)) /\
     forall x, In x metrics -> exists vs, dget (snd (snd e)) x = Some vs /\ length vs = m /\ forall j, (j < m)%nat -> mean_spec x (snd (snd p)) j (nth j vs None)).
  assert (E : exists es, Forall2 Q ps es).
  { clear ND. induction ps as [|[label [d l]] ps IH]; [exists []; constructor|].
    destruct IH as [es F]; [intros; eapply H; right; eassumption|].
    destruct (H label d l (or_introl eq_refl)) as [S N]. destruct (directory_metrics_values m d l metrics S N K) as [r [E [V _]]].
    exists ((label, (length l, r)) :: es). constructor; [|exact F]. repeat split; cbn; auto. }
  destruct E as [es F].
  destruct (processes_law num directory show (fun d => compute_directory_prediction_metrics d metrics)
    (map (fun p => (fst p, fst (snd p))) ps) es sd sv disp s) as [s' [E _]].
  - rewrite map_map. exact ND.
  - exact C.
  - clear - F. induction F as [|p e ps es [A [B _]] F IH]; cbn [map]; constructor; [split; [exact A|exact B]|exact IH].
  - exists es, s'. split; [exact E|]. 
    assert (M : map fst es = map fst ps) by (clear - F; induction F as [|p e ps es [A _] F IH]; cbn; [reflexivity|rewrite IH, A; reflexivity]).
    split; [exact M|]. intros label d l I.
    assert (Z : exists e, In e es /\ Q (label, (d, l)) e).
    { clear - F I. induction F as [|p e ps es A F IH]; [destruct I|]. destruct I as [->|I]; [exists e; split; [left; reflexivity|exact A]|].
      destruct (IH I) as [e' [I' A']]. exists e'. split; [right; exact I'|exact A']. }
    destruct Z as [[lb [n r]] [Ie [A [_ [L V]]]]]. cbn [fst snd] in *. subst lb n. exists r. split; [|exact V].
    apply in_dget; [unfold dkeys, gkeys; rewrite M; exact ND|exact Ie].
Qed.

(** Computed again after the predictions have changed, the file still gives the
    metrics of the first time to every reader. *)
Theorem updated_metrics_refuted : exists (old new : nat -> res (nat * dict (list (option nat)))) s1 s2,
  snd (compute_processes show_opt old [("n10", 0%nat)] Existing true false (mkOutside None "")) = s1
  /\ snd (compute_processes show_opt new [("n10", 0%nat)] Existing true false s1) = s2
  /\ new 0%nat = Ok (3%nat, [("rmse", [Some 2%nat])])
  /\ forall n_sample r, read_mean_metrics_results_file (o_file s2) n_sample = Ok r -> r = [("rmse", [(500000000%Z, (-8)%Z)])].
Proof.
  exists (fun _ => Ok (3%nat, [("rmse", [Some 5%nat])])), (fun _ => Ok (3%nat, [("rmse", [Some 2%nat])])).
  pose (l := [{| b_label := "n10"; b_n := 3; b_results := [("rmse", [Some 5%nat])] |};
     {| b_label := "n10"; b_n := 3; b_results := [("rmse", [Some 2%nat])] |}]).
  eexists. eexists. split; [reflexivity|]. split; [reflexivity|]. split; [reflexivity|].
  assert (G : Forall (good_block show_opt) l).
  { repeat constructor; try discriminate; try (intros [H|[]]; discriminate); try (cbn; tauto);
      intros m x [<-|[]] [<-|[]]; repeat split; discriminate. }
  intros n r Q. destruct (mean_file_round_trip show_opt l n ltac:(discriminate) G) as [text [E' Q']].
  vm_compute in E'. injection E' as <-. vm_compute o_file in Q. rewrite Q' in Q.
  assert (P : find (chosen n) l = Some {| b_label := "n10"; b_n := 3; b_results := [("rmse", [Some 5%nat])] |} \/ find (chosen n) l = None).
  { unfold l. cbn [find]. unfold chosen. cbn [b_n]. destruct n as [k|]; [|left; reflexivity]. destruct (Nat.eqb 3 k); auto. }
  destruct P as [P|P]; rewrite P in Q; [|discriminate]. injection Q as <-. vm_compute. reflexivity.
Qed.
(** With its default saving directory a call with saving always fails. *)
Theorem default_saving_refuted : forall show metrics label d n r s,
  compute_directory_prediction_metrics d metrics = Ok (n, r) ->
  compute_processes_prediction_metrics show [(label, d)] metrics NoDir true false s = (Err TypeError, s).
Proof. intros show metrics label d n r s E. unfold compute_processes_prediction_metrics, compute_processes. cbn [process_loop]. rewrite E. reflexivity. Qed.

Example processes_case : exists s', compute_processes show_opt
    (fun k => if Nat.eqb k 7 then Err RuntimeError else Ok (k, [("rmse", [Some (k + 1)%nat])]))
    [("n10", 3%nat); ("n20", 4%nat); ("n40", 7%nat); ("n80", 5%nat)] Existing true true (mkOutside None "") = (Err RuntimeError, s')
  /\ o_file s' = Some (o_out s') /\ read_mean_metrics_results_file (o_file s') (Some 4%nat) = Ok [("rmse", [(500000000%Z, (-8)%Z)])]
  /\ read_mean_metrics_results_file (o_file s') (Some 5%nat) = Err RuntimeError.
Proof. eexists. split; [reflexivity|]. split; [|split]; vm_compute; reflexivity. Qed.

Print Assumptions processes_law.
Print Assumptions display_is_file.
Print Assumptions failing_process.
Print Assumptions saving_refused.
Print Assumptions processes_metrics.
Print Assumptions updated_metrics_refuted.
Print Assumptions default_saving_refuted.
