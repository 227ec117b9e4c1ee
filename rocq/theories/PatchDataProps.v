(** Random material patches and the data set of their local paths: directories,
    stored patches, node data files, and why no data set is ever built (C109). *)
From Coq Require Import String Ascii List Bool Arith ZArith Lia Permutation Sorting.Sorted.
From Verif Require Import Lib PyStr PyDict HybridModel HybridProps HistoryModel HistoryProps PatchDataModel.
Import ListNotations.
Local Open Scope string_scope.
Local Open Scope list_scope.

Lemma app_cancel_l (a b c : string) : (a ++ b)%string = (a ++ c)%string -> b = c.
Proof. apply app_inj_s. Qed.
Lemma patch_dir_names name n : NoDup (map (patch_dir_name name n) (seq 0 n)).
Proof.
  unfold patch_dir_name. destruct (Nat.ltb_spec 1 n) as [H|H].
  - apply FinFun.Injective_map_NoDup; [|apply seq_NoDup]. intros i j E. apply app_inj_s in E. cbn in E. injection E as E.
    now apply nat_str_inj.
  - destruct n as [|[|n]]; [constructor| |lia]. cbn. constructor; [intros []|constructor].
Qed.

Section Generation.
  Context {P D V : Type}.
  Variable make : nat -> P.
  Variable simulate : P -> res (sim_out D V).
  Notation gen_loop := (gen_loop make simulate).
  Notation generate := (generate make simulate).
  Notation dget := (gget String.eqb).

  (** The patch of number i: the stored one or a new one *)
  Definition source (load : bool) (name : string) (n : nat) (dirs : patches P D V) (i : nat) (p : P) : Prop :=
    if load then exists e, dget dirs (patch_dir_name name n i) = Some e /\ pd_patch e = Some p else p = make i.
  (** The directory of a patch after its simulation *)
  Definition filled (keep : bool) (p : P) (out : sim_out D V) : patch_dir P D V :=
    mkPatchDir (if keep then Some p else None) (Some [("random_specimen", out)]).

  Lemma gen_loop_law name n load save is : forall dirs dirs' outs, NoDup (map (patch_dir_name name n) is) ->
    gen_loop name n load save is dirs = Ok (dirs', outs) ->
    Forall2 (fun i out => exists p, source load name n dirs i p /\ simulate p = Ok out /\
      dget dirs' (patch_dir_name name n i) = Some (filled (load || save) p out)) is outs /\
    (forall k, ~ In k (map (patch_dir_name name n) is) -> dget dirs' k = dget dirs k).
  Proof.
    induction is as [|i is IH]; intros dirs dirs' outs ND H; cbn [PatchDataModel.gen_loop] in H.
    - injection H as <- <-. split; [constructor|reflexivity].
    - cbn [map] in ND. apply NoDup_cons_iff in ND as [Ni ND].
      destruct (gen_patch make simulate name n load save i dirs) as [[d1 out]|] eqn:G; [|discriminate]. cbn [rbind fst snd] in H.
      destruct (gen_loop name n load save is d1) as [[d2 outs2]|] eqn:L; [|discriminate]. cbn [rbind fst snd] in H. injection H as <- <-.
      apply (IH d1) in L; [|exact ND]. destruct L as [L1 L2].
      assert (G2 : exists p, source load name n dirs i p /\ simulate p = Ok out /\
                 d1 = gset String.eqb dirs (patch_dir_name name n i) (filled (load || save) p out)).
      { unfold gen_patch in G. destruct load; cbn [orb].
        - destruct (dget dirs (patch_dir_name name n i)) as [e|] eqn:E; [|discriminate].
          destruct (pd_patch e) as [p|] eqn:Ep; [|discriminate]. cbn [rbind] in G.
          destruct (simulate p) as [o|] eqn:Eo; [|discriminate]. cbn [rbind] in G. injection G as <- <-.
          exists p. split; [exists e; auto|]. split; [exact Eo|]. unfold filled. now destruct save.
        - cbn [rbind] in G. destruct (simulate (make i)) as [o|] eqn:Eo; [|discriminate]. cbn [rbind] in G. injection G as <- <-.
          exists (make i). split; [reflexivity|]. split; [exact Eo|]. reflexivity. }
      destruct G2 as [p [S1 [S2 ->]]]. split.
      + constructor.
        * exists p. split; [exact S1|]. split; [exact S2|]. rewrite L2 by exact Ni. apply (gget_gset_same String.eqb String.eqb_eq).
        * clear - L1 Ni. revert L1. set (Q := fun i out => _). intros L1.
          assert (W : forall l m, (forall j, In j l -> patch_dir_name name n j <> patch_dir_name name n i) ->
             Forall2 Q l m -> Forall2 (fun i0 out => exists p0, source load name n dirs i0 p0 /\ simulate p0 = Ok out /\
               dget d2 (patch_dir_name name n i0) = Some (filled (load || save) p0 out)) l m).
          { intros l m Hn F. induction F as [|j o l m Hq F IHF]; constructor.
            - destruct Hq as [q [Q1 [Q2 Q3]]]. exists q. split; [|split; assumption].
              unfold source in *. destruct load; [|exact Q1].
              rewrite (gget_gset_other String.eqb String.eqb_eq) in Q1; [exact Q1|]. intros E. apply (Hn j); [now left|now symmetry].
            - apply IHF. intros; apply Hn; now right. }
          apply W; [|exact L1]. intros j Hj E. apply Ni. rewrite <- E. now apply in_map.
      + intros k Hk. cbn [map In] in Hk. rewrite L2 by tauto. apply (gget_gset_other String.eqb String.eqb_eq). tauto.
  Qed.

  (** Every patch is simulated in its own directory, and no other directory is
      touched. *)
  Theorem generated_patches name n load save dirs dirs' outs :
    generate name n load save (Some dirs) = Ok (dirs', outs) ->
    Forall2 (fun i out => exists p, source load name n dirs i p /\ simulate p = Ok out /\
      dget dirs' (patch_dir_name name n i) = Some (filled (load || save) p out)) (seq 0 n) outs /\
    (forall k, ~ In k (map (patch_dir_name name n) (seq 0 n)) -> dget dirs' k = dget dirs k).
  Proof. intros H. apply (gen_loop_law name n load save (seq 0 n) dirs dirs' outs); [apply patch_dir_names|exact H]. Qed.

  Lemma gen_loop_succeeds name n load save is : forall dirs, NoDup (map (patch_dir_name name n) is) ->
    (forall i, In i is -> exists p out, source load name n dirs i p /\ simulate p = Ok out) ->
    exists r, gen_loop name n load save is dirs = Ok r.
  Proof.
    induction is as [|i is IH]; intros dirs ND H; [eexists; reflexivity|].
    cbn [map] in ND. apply NoDup_cons_iff in ND as [Ni ND]. cbn [PatchDataModel.gen_loop].
    destruct (H i (or_introl eq_refl)) as [p [out [S1 S2]]].
    assert (G : gen_patch make simulate name n load save i dirs
              = Ok (gset String.eqb dirs (patch_dir_name name n i) (filled (load || save) p out), out)).
    { unfold gen_patch. unfold source in S1. destruct load; cbn [orb].
      - destruct S1 as [e [-> ->]]. cbn [rbind]. rewrite S2. cbn [rbind]. unfold filled. now destruct save.
      - subst p. cbn [rbind]. rewrite S2. reflexivity. }
    rewrite G. cbn [rbind fst snd].
    destruct (IH (gset String.eqb dirs (patch_dir_name name n i) (filled (load || save) p out)) ND) as [[d2 o2] E].
    { intros j Hj. destruct (H j (or_intror Hj)) as [q [o [Q1 Q2]]]. exists q, o. split; [|exact Q2].
      unfold source in *. destruct load; [|exact Q1]. rewrite (gget_gset_other String.eqb String.eqb_eq); [exact Q1|].
      intros E. apply Ni. rewrite E. now apply in_map. }
    rewrite E. eexists. reflexivity.
  Qed.
  Lemma forall2_nth {A B} (R : A -> B -> Prop) l m : Forall2 R l m -> forall i a, nth_error l i = Some a -> exists b, nth_error m i = Some b /\ R a b.
  Proof. induction 1 as [|x y l m Hr F IH]; intros [|i] a E; try discriminate; cbn in *; [injection E as <-; eauto|eauto]. Qed.
  Lemma forall2_det {A B} (R S : A -> B -> Prop) l : forall m m', (forall a b b', R a b -> S a b' -> b = b') -> Forall2 R l m -> Forall2 S l m' -> m = m'.
  Proof.
    induction l as [|x l IH]; intros m m' H F G; inversion F; inversion G; subst; [reflexivity|]. f_equal; [now apply (H x)|now apply IH].
  Qed.
  Lemma forall2_in {A B} (R : A -> B -> Prop) l m : Forall2 R l m -> forall a, In a l -> exists b, In b m /\ R a b.
  Proof. induction 1 as [|x y l m Hr F IH]; intros a []; [subst; exists y; split; [now left|exact Hr]|]. destruct (IH a H) as [b [B1 B2]]. exists b. split; [now right|exact B2]. Qed.

End Generation.

Section Loading.
  Context {P D V : Type}.
  Variables make make' : nat -> P.
  Variable simulate : P -> res (sim_out D V).
  Notation generate := (generate make simulate).
  Notation dget := (gget String.eqb).
  (** Stored patches are simulated again with the same results, whatever the
      generator does the second time. *)
  Theorem stored_patches_again name n save (dirs dirs1 : patches P D V) outs :
    generate name n false true (Some dirs) = Ok (dirs1, outs) ->
    exists dirs2, PatchDataModel.generate make' simulate name n true save (Some dirs1) = Ok (dirs2, outs) /\
      forall k, dget dirs2 k = dget dirs1 k.
  Proof.
    intros H. destruct (generated_patches _ _ _ _ _ _ _ _ _ H) as [F O]. cbn [orb source] in F.
    assert (E : exists r, PatchDataModel.generate make' simulate name n true save (Some dirs1) = Ok r).
    { apply gen_loop_succeeds; [apply patch_dir_names|].
      intros i Hi. destruct (forall2_in _ _ _ F i Hi) as [out [_ [p [-> [S2 S3]]]]]. exists (make i), out. split; [|exact S2].
      eexists. split; [exact S3|reflexivity]. }
    destruct E as [[dirs2 outs2] E]. exists dirs2.
    destruct (generated_patches _ _ _ _ _ _ _ _ _ E) as [L1 L2]. cbn [orb source] in L1.
    assert (X : outs2 = outs).
    { refine (forall2_det _ _ _ _ _ _ L1 F). intros a b b' [p [[e [A1 A2]] [A3 _]]] [q [-> [B1 B2]]].
      rewrite B2 in A1. injection A1 as <-. cbn in A2. injection A2 as <-. congruence. }
    subst outs2. split; [exact E|]. intros k.
    destruct (in_dec string_dec k (map (patch_dir_name name n) (seq 0 n))) as [Hk|Hk]; [|now apply L2].
    apply in_map_iff in Hk as [i [<- Hi]]. apply In_nth_error in Hi as [a Ha].
    destruct (forall2_nth _ _ _ L1 a i Ha) as [o [O1 [p [[e [A1 A2]] [A3 A4]]]]].
    destruct (forall2_nth _ _ _ F a i Ha) as [o' [O1' [q [-> [B1 B2]]]]]. rewrite A4, B2.
    rewrite B2 in A1. injection A1 as <-. cbn in A2. injection A2 as <-. congruence.
  Qed.

  (** Patches that were not saved cannot be loaded. *)
  Theorem unsaved_patches_refused name n save (dirs dirs1 : patches P D V) outs : (0 < n)%nat ->
    generate name n false false (Some dirs) = Ok (dirs1, outs) ->
    PatchDataModel.generate make' simulate name n true save (Some dirs1) = Err RuntimeError.
  Proof.
    intros Hn H. destruct (generated_patches _ _ _ _ _ _ _ _ _ H) as [F _]. destruct n as [|n]; [lia|]. cbn [seq] in F.
    cbn [PatchDataModel.generate seq PatchDataModel.gen_loop].
    inversion F as [|i o l m [p [_ [_ E]]] _]; subst. unfold gen_patch. rewrite E. reflexivity.
  Qed.
End Loading.

(** ** Node data files *)
Lemma splitext_none s : has_char dot s = false -> splitext_root s = s.
Proof.
  induction s as [|c s IH]; cbn; [reflexivity|]. intros H. apply orb_false_iff in H as [H1 H2].
  rewrite H1 || (rewrite Ascii.eqb_sym in H1; rewrite H1). cbn. now rewrite IH.
Qed.
Section NodeFiles.
  Context {V : Type} (d0 : V).
  (** Node, coordinates, displacements and reactions of a row of a simulation:
      columns 1, 4 to 6, 7 to 9 and 16 to 18. *)
  Definition node_row (r : list V) : list V :=
    firstn 1 r ++ firstn 3 (skipn 3 r) ++ firstn 3 (skipn 6 r) ++ firstn 3 (skipn 15 r).
  Lemma node_row_law r : List.length r = 18 -> map (fun c => nth c r d0) csv_columns = node_row r.
  Proof. intros H. do 18 (destruct r as [|? r]; [discriminate|]). destruct r; [reflexivity|discriminate]. Qed.
  Definition well_formed (f : frame V) : Prop := f_cols f = 18 /\ forall r, In r (f_rows f) -> List.length r = 18.

  (** The files written are numbered from zero in the order of the steps of the
      simulation and hold the selected columns of every node. *)
  Theorem node_files_written extra sim mid dir (steps : list (nat * frame V)) others listing :
    has_char dot sim = false -> StronglySorted lt (map fst steps) ->
    (forall s, In s steps -> well_formed (snd s)) ->
    (forall f, In f others -> ~ exists a, fst f = (sim ++ a ++ ".nodedata")%string) ->
    Permutation listing (step_files (sim ++ mid)%string ".nodedata" steps ++ others) ->
    node_csv d0 extra sim dir listing
    = Ok (map (fun tf => (hist_name sim (fst tf), snd tf)) (combine (seq 0 (List.length steps))
        (map (fun s => mkFrame (10 + List.length extra) (map (fun r => node_row r ++ extra) (f_rows (snd s)))) steps))).
  Proof.
    intros Hd Hk Hf Ho HP. unfold node_csv. rewrite splitext_none by exact Hd.
    rewrite (node_data_in_time_order sim mid dir steps others listing) by assumption. cbn [rbind]. rewrite map_length.
    set (k := 10 + List.length extra). generalize 0. clear - Hf k. induction steps as [|s steps IH]; intros a; [reflexivity|].
    cbn [map List.length seq combine rmap fst snd].
    assert (E : csv_frame d0 extra (snd s) = Ok (mkFrame k (map (fun r => node_row r ++ extra) (f_rows (snd s))))).
    { destruct (Hf s (or_introl eq_refl)) as [F1 F2]. unfold csv_frame. rewrite F1. cbn [Nat.eqb negb]. do 2 f_equal.
      apply map_ext_in. intros r Hr. now rewrite node_row_law by now apply F2. }
    rewrite E. cbn [rbind]. rewrite IH by (intros; apply Hf; now right). reflexivity.
  Qed.
  (** A file with another number of columns is refused. *)
  Theorem node_file_refused extra sim dir listing files f : collect (splitext_root sim) dir listing = Ok files ->
    In f files -> f_cols f <> 18 -> node_csv d0 extra sim dir listing = Err RuntimeError.
  Proof.
    intros C Hf Hc. unfold node_csv. rewrite C. cbn [rbind]. clear C. generalize 0.
    induction files as [|g files IH]; intros a; [destruct Hf|]. cbn [List.length seq combine rmap fst snd].
    destruct Hf as [->|Hf].
    - unfold csv_frame at 1. destruct (Nat.eqb_spec (f_cols f) 18); [contradiction|]. reflexivity.
    - unfold csv_frame at 1. destruct (Nat.eqb (f_cols g) 18); [|reflexivity]. cbn [negb rbind]. rewrite IH by exact Hf. reflexivity.
  Qed.
End NodeFiles.

(** ** Data set *)
Lemma sort_paths_in {A} (l : list (string * A)) r : sort_paths l = Ok r -> Permutation r l.
Proof.
  unfold sort_paths. destruct (rmap _ l) as [kl|] eqn:E; [|discriminate]. cbn [rbind]. intros H. injection H as <-.
  etransitivity; [apply Permutation_map, isort_perm|]. apply rmap_ok in E.
  replace l with (map snd kl); [reflexivity|]. induction E as [|f kf l kl Hk F IH]; [reflexivity|]. cbn [map]. rewrite IH. f_equal.
  destruct (path_key (fst f)); [|discriminate]. cbn [rbind] in Hk. injection Hk as <-. reflexivity.
Qed.
Lemma slength_app (a b : string) : String.length (a ++ b) = String.length a + String.length b.
Proof. induction a as [|c a IH]; cbn; [reflexivity|]. now rewrite IH. Qed.
Lemma is_patch_dir_self name : is_patch_dir name name = false.
Proof.
  unfold is_patch_dir. destruct (after (name ++ "_") name) as [r|] eqn:E; [|reflexivity]. apply after_inv in E.
  exfalso. apply (f_equal String.length) in E. rewrite !slength_app in E. cbn in E. lia.
Qed.
Lemma is_patch_dir_number name i : is_patch_dir name (name ++ "_" ++ nat_str i) = true.
Proof.
  unfold is_patch_dir. rewrite (app_assoc_s name "_" (nat_str i)), after_app. rewrite nat_str_digits, andb_true_r.
  pose proof (nat_str_nonempty i). destruct (String.eqb_spec (nat_str i) ""); [contradiction|reflexivity].
Qed.

Section Dirs.
  Context {P D V : Type}.
  (** The directories of two or more patches are found in the order of their
      numbers, whatever the order of the directory and its other entries. *)
  Theorem patches_found name dir (entries : list (patch_dir P D V)) others listing : 2 <= List.length entries ->
    (forall f, In f others -> is_patch_dir name (fst f) = false) ->
    Permutation listing (map (fun ie => (patch_dir_name name (List.length entries) (fst ie), snd ie))
                             (combine (seq 0 (List.length entries)) entries) ++ others) ->
    analysis_dirs name dir (Some listing) = Ok entries.
  Proof.
    intros Hn Ho HP. set (n := List.length entries) in *. set (steps := combine (seq 0 n) entries) in *.
    assert (E : map (fun ie => (patch_dir_name name n (fst ie), snd ie)) steps = step_files name "" steps).
    { unfold step_files, patch_dir_name. destruct (Nat.ltb_spec 1 n); [|lia]. apply map_ext. intros [i e]. cbn [fst snd].
      now rewrite app_nil_s. }
    rewrite E in HP.
    assert (L : map fst steps = seq 0 n /\ map snd steps = entries).
    { unfold steps. clear - n. subst n. generalize 0. induction entries as [|e l IH]; intros a; [split; reflexivity|].
      cbn [List.length seq combine map fst snd]. destruct (IH (S a)) as [-> ->]. split; reflexivity. }
    destruct L as [L1 L2].
    assert (Q : Permutation (filter (fun f => is_patch_dir name (fst f)) listing) (step_files name "" steps)).
    { etransitivity; [apply perm_filter, HP|]. rewrite (filter_files (is_patch_dir name)); [reflexivity| |exact Ho].
      intros x Hx. unfold step_files in Hx. apply in_map_iff in Hx as [s [<- _]]. cbn [fst]. rewrite app_nil_s. apply is_patch_dir_number. }
    pose proof (Permutation_length Q) as Ql. unfold step_files in Ql. rewrite map_length in Ql.
    rewrite <- (map_length snd steps), L2 in Ql. fold n in Ql.
    unfold analysis_dirs. destruct listing as [|l0 listing]; [cbn in Ql; lia|]. rewrite map_length, Ql.
    destruct (Nat.eqb_spec n 0); [lia|].
    rewrite (in_dir_sorted dir name "" steps); [now rewrite L2|reflexivity| |].
    - rewrite L1. clear. generalize 0. induction n as [|n IH]; intros a; [constructor|]. cbn. constructor; [apply IH|].
      apply Forall_forall. intros x Hx. apply in_seq in Hx. lia.
    - now apply Permutation_map.
  Qed.
  Lemma nothing_found name dir (listing : patches P D V) : (forall f, In f listing -> is_patch_dir name (fst f) = false) ->
    analysis_dirs name dir (Some listing) = Err RuntimeError.
  Proof.
    intros H. unfold analysis_dirs. destruct listing as [|l0 l]; [reflexivity|].
    pose proof (filter_files (is_patch_dir name) [] (l0 :: l)) as F. cbn [app] in F. rewrite F; [reflexivity|intros x []|exact H].
  Qed.
  (** The directory of a single patch has no number and is never found. *)
  Theorem single_patch_refuted name dir (e : patch_dir P D V) others listing :
    (forall f, In f others -> is_patch_dir name (fst f) = false) ->
    Permutation listing ((patch_dir_name name 1 0, e) :: others) ->
    analysis_dirs name dir (Some listing) = Err RuntimeError.
  Proof.
    intros Ho HP. apply nothing_found. intros f Hf. apply (Permutation_in f HP) in Hf as [<-|Hf]; [|now apply Ho].
    apply is_patch_dir_self.
  Qed.
End Dirs.

Section Build.
  Context {P D V A : Type} (d0 : V) (to_int : V -> Z) (to32 : V -> V) (n_dim : nat) (n_node : D -> nat).
  Variable local_paths : D -> history (V := V) -> res (list A).
  Notation patch_samples := (patch_samples (P := P) d0 to_int to32 n_dim n_node local_paths).
  Notation build := (build (P := P) d0 to_int to32 n_dim n_node local_paths).

  Lemma history_nonempty name dir (files : list (string * frame V)) frames : history_paths name dir (Some files) = Ok frames ->
    frames <> [] /\ forall f, In f frames -> In f (map snd files).
  Proof.
    unfold history_paths. set (found := map _ (filter _ files)). destruct (Nat.eqb_spec (List.length found) 0) as [|N]; [discriminate|].
    destruct (sort_paths found) as [l|] eqn:E; [|discriminate]. cbn [rbind]. intros H. injection H as <-. apply sort_paths_in in E. split.
    - clearbody found. apply Permutation_length in E. rewrite <- E in N. destruct l; [now destruct N|discriminate].
    - intros f Hf. apply in_map_iff in Hf as [x [<- Hx]]. apply (Permutation_in x E) in Hx. unfold found in Hx.
      apply in_map_iff in Hx as [y [<- Hy]]. apply filter_In in Hy as [Hy _]. cbn [snd]. now apply in_map.
  Qed.
  Lemma node_csv_cols extra name dir listing files : node_csv d0 extra name dir listing = Ok files ->
    forall f, In f (map snd files) -> f_cols f = 10 + List.length extra.
  Proof.
    unfold node_csv. destruct (collect _ _ _) as [fs|]; [|discriminate]. cbn [rbind]. generalize (combine (seq 0 (List.length fs)) fs). intros l H.
    apply rmap_ok in H. induction H as [|tf nf l files Hq F IH]; intros f Hf; [destruct Hf|]. destruct Hf as [<-|Hf]; [|now apply IH].
    unfold csv_frame in Hq. destruct (Nat.eqb (f_cols (snd tf)) 18); [|discriminate]. cbn [negb rbind] in Hq. injection Hq as <-. reflexivity.
  Qed.
  Lemma numerical_refused n frames : frames <> [] -> (forall f, In f frames -> f_cols f = 10) ->
    numerical_data to_int to32 n_dim n frames = Err RuntimeError.
  Proof.
    intros N H. destruct frames as [|f frames]; [contradiction|]. unfold numerical_data. cbn [rmap]. unfold load_frame at 1.
    destruct (negb (Nat.eqb (List.length (f_rows f)) n)); [reflexivity|]. rewrite H by (now left). reflexivity.
  Qed.
  (** No data set is ever built: the node data are written without the three
      columns of boundary flags that their reader requires. *)
  Theorem no_dataset_refuted name dir dirs samples : build [] name dir dirs <> Ok samples.
  Proof.
    unfold PatchDataModel.build. destruct (analysis_dirs name dir dirs) as [l|] eqn:E; [|discriminate]. cbn [rbind].
    assert (N : l <> []).
    { unfold analysis_dirs in E. destruct dirs as [[|x dirs]|]; try discriminate. revert E. set (found := map _ (filter _ _)).
      destruct (Nat.eqb_spec (List.length found) 0) as [|N]; [discriminate|]. destruct (sort_paths found) as [r|] eqn:Es; [|discriminate].
      cbn [rbind]. intros H. injection H as <-. apply sort_paths_in in Es. apply Permutation_length in Es. rewrite <- Es in N. destruct r; [now destruct N|discriminate]. }
    destruct l as [|e l]; [contradiction|]. cbn [rmap].
    assert (X : forall s, patch_samples [] name dir e <> Ok s).
    { intros s. unfold PatchDataModel.patch_samples. destruct (pd_sims e) as [sims|]; [|discriminate].
      destruct (gget String.eqb sims name) as [[d nodes]|]; [|discriminate].
      destruct (node_csv d0 [] name dir nodes) as [files|] eqn:Ef; [|discriminate]. cbn [rbind].
      destruct (history_paths name dir (Some files)) as [frames|] eqn:Eh; [|discriminate]. cbn [rbind].
      apply history_nonempty in Eh as [Hn Hi]. rewrite numerical_refused; [discriminate|exact Hn|].
      intros f Hf. apply (node_csv_cols _ _ _ _ _ Ef). now apply Hi. }
    destruct (patch_samples [] name dir e) as [s|] eqn:Es; [|discriminate]. now destruct (X s).
  Qed.

  (** A patch simulated as the generator does under any other name has no input
      file for the builder. *)
  Theorem other_name_refuted extra name dir (p : option P) out : name <> "random_specimen" ->
    patch_samples extra name dir (mkPatchDir p (Some [(written_name, out)])) = Err RuntimeError.
  Proof.
    intros N. unfold PatchDataModel.patch_samples. cbn [pd_sims gget]. unfold written_name.
    destruct (String.eqb_spec name "random_specimen"); [contradiction|]. reflexivity.
  Qed.

  (** With the three columns the data set is the concatenation of the local
      paths of the patches, in order, computed from the displacements and
      reactions of their simulations in the order of time. *)
  Definition simulated_history (flags : list V) (steps : list (nat * frame V)) : history (V := V) :=
    mkHistory (map (fun s => map (fun r => map to32 (firstn n_dim (skipn 6 r))) (f_rows (snd s))) steps)
              (map (fun s => map (fun r => map to32 (firstn n_dim (skipn 15 r))) (f_rows (snd s))) steps)
              (map (fun s => map (fun _ => map to_int (firstn n_dim (map to32 flags))) (f_rows (snd s))) steps)
              (seq 0 (List.length steps)).
  Lemma firstn_map {X Y} (f : X -> Y) n l : firstn n (map f l) = map f (firstn n l).
  Proof. revert l. induction n as [|n IH]; intros [|x l]; cbn; try reflexivity. now rewrite IH. Qed.
  Lemma row_slices (r flags : list V) : List.length r = 18 -> List.length flags = 3 -> n_dim <= 3 ->
    slice 4 n_dim (map to32 (node_row r ++ flags)) = map to32 (firstn n_dim (skipn 6 r)) /\
    slice 7 n_dim (map to32 (node_row r ++ flags)) = map to32 (firstn n_dim (skipn 15 r)) /\
    slice 10 n_dim (map to32 (node_row r ++ flags)) = firstn n_dim (map to32 flags).
  Proof.
    intros H Hf Hd. do 18 (destruct r as [|? r]; [discriminate|]). destruct r; [|discriminate].
    destruct flags as [|? [|? [|? [|? ?]]]]; try discriminate.
    destruct n_dim as [|[|[|[|k]]]]; [| | | |lia]; repeat split; reflexivity.
  Qed.
  Theorem patch_local_paths flags name mid dir d p (steps : list (nat * frame V)) others listing (sims : list (string * sim_out D V)) :
    List.length flags = 3 -> n_dim <= 3 -> has_char dot name = false -> steps <> [] -> StronglySorted lt (map fst steps) ->
    (forall s, In s steps -> well_formed (snd s) /\ List.length (f_rows (snd s)) = n_node d) ->
    (forall f, In f others -> ~ exists a, fst f = (name ++ a ++ ".nodedata")%string) ->
    Permutation listing (step_files (name ++ mid)%string ".nodedata" steps ++ others) ->
    gget String.eqb sims name = Some (d, listing) ->
    patch_samples flags name dir (mkPatchDir p (Some sims)) = local_paths d (simulated_history flags steps).
  Proof.
    intros Hfl Hnd Hdot Hne Hk Hf Ho HP Hg. unfold PatchDataModel.patch_samples. cbn [pd_sims]. rewrite Hg.
    rewrite (node_files_written d0 flags name mid dir steps others listing); [|assumption|assumption|intros s Hs; now apply Hf|assumption|assumption].
    cbn [rbind]. set (frames := map _ steps).
    rewrite (history_in_time_order name dir frames []).
    - cbn [rbind]. unfold numerical_data.
      rewrite (rmap_all _ frames (fun f => map (map to32) (f_rows f))).
      + cbn [rbind]. f_equal. unfold simulated_history. unfold frames. rewrite !map_map, map_length. cbn [f_rows].
        assert (W : forall s r, In s steps -> In r (f_rows (snd s)) -> List.length r = 18).
        { intros s r Hs Hr. destruct (Hf s Hs) as [[_ W] _]. now apply W. }
        f_equal; apply map_ext_in; intros s Hs; rewrite !map_map; apply map_ext_in; intros r Hr;
          destruct (row_slices r flags (W s r Hs Hr) Hfl Hnd) as [R1 [R2 R3]]; [exact R1|exact R2|]. now rewrite R3.
      + intros f Hfr. unfold frames in Hfr. apply in_map_iff in Hfr as [s [<- Hs]]. unfold load_frame. cbn [f_rows f_cols].
        rewrite map_length. destruct (Hf s Hs) as [_ ->]. rewrite Nat.eqb_refl. cbn [negb]. rewrite Hfl. reflexivity.
    - unfold frames. destruct steps; [contradiction|discriminate].
    - intros f [].
    - rewrite app_nil_r. unfold frames. rewrite map_length. reflexivity.
  Qed.
  Theorem dataset_otherwise flags name dir entries samples others listing : 2 <= List.length entries ->
    Forall2 (fun e s => patch_samples flags name dir e = Ok s) entries samples ->
    (forall f, In f others -> is_patch_dir name (fst f) = false) ->
    Permutation listing (map (fun ie => (patch_dir_name name (List.length entries) (fst ie), snd ie))
                             (combine (seq 0 (List.length entries)) entries) ++ others) ->
    build flags name dir (Some listing) = Ok (concat samples).
  Proof.
    intros Hn F Ho HP. unfold PatchDataModel.build. rewrite (patches_found name dir entries others listing) by assumption. cbn [rbind].
    assert (E : rmap (patch_samples flags name dir) entries = Ok samples).
    { clear - F. induction F as [|e s l m Hs F IH]; [reflexivity|]. cbn [rmap]. rewrite Hs. cbn [rbind]. now rewrite IH. }
    now rewrite E.
  Qed.
  (** A patch name with a dot: the files are named without what follows the dot
      and the reader does not find them. *)
  Theorem dotted_name_refuted flags (e : patch_dir P D V) d f : pd_sims e = Some [("plate.v2", (d, [("plate.v2_0.nodedata", f)]))] -> f_cols f = 18 ->
    patch_samples flags "plate.v2" "data" e = Err RuntimeError.
  Proof.
    intros H Hc. unfold PatchDataModel.patch_samples. rewrite H. cbn [gget]. rewrite String.eqb_refl.
    unfold node_csv. change (splitext_root "plate.v2") with "plate".
    assert (C : collect "plate" "data" [("plate.v2_0.nodedata", f)] = Ok [f]) by reflexivity. rewrite C. cbn [rbind List.length seq combine rmap fst snd].
    unfold csv_frame. rewrite Hc. reflexivity.
  Qed.
End Build.

(** ** Case: two patches, listed out of order, with two steps numbered 1 and 3 *)
Definition ex_row (u : nat) : list nat := [1; 0; 0; 5; 5; 5; u; u + 1; u + 2; 0; 0; 0; 0; 0; 0; u + 7; u + 8; u + 9].
Definition ex_dir (u : nat) : patch_dir nat nat nat :=
  mkPatchDir None (Some [("random_specimen", (1,
    [("random_specimen_10.nodedata", mkFrame 18 [ex_row (u + 50)]); ("random_specimen_9.nodedata", mkFrame 18 [ex_row u]);
     ("random_specimen.info", mkFrame 3 [])]))]).
Example ex_build :
  build 0 Z.of_nat (fun v => v) 3 (fun d => d) (fun _ h => Ok [h_disps h; h_forces h]) [0; 0; 0] "random_specimen" "dir"
    (Some [("random_specimen_1", ex_dir 200); ("notes", mkPatchDir None None); ("random_specimen_0", ex_dir 100)])
  = Ok [[[[100; 101; 102]]; [[150; 151; 152]]]; [[[107; 108; 109]]; [[157; 158; 159]]];
        [[[200; 201; 202]]; [[250; 251; 252]]]; [[[207; 208; 209]]; [[257; 258; 259]]]] /\
  build 0 Z.of_nat (fun v => v) 3 (fun d => d) (fun _ h => Ok [h_disps h; h_forces h]) [] "random_specimen" "dir"
    (Some [("random_specimen_1", ex_dir 200); ("notes", mkPatchDir None None); ("random_specimen_0", ex_dir 100)])
  = Err RuntimeError.
Proof. split; vm_compute; reflexivity. Qed.
Example ex_generate :
  generate (fun i => i + 40) (fun p => Ok (p, [("a", mkFrame p [[p]])])) "plate" 2 false true (Some [("notes", mkPatchDir None None)])
  = Ok ([("notes", mkPatchDir None None);
         ("plate_0", mkPatchDir (Some 40) (Some [("random_specimen", (40, [("a", mkFrame 40 [[40]])]))]));
         ("plate_1", mkPatchDir (Some 41) (Some [("random_specimen", (41, [("a", mkFrame 41 [[41]])]))]))],
        [(40, [("a", mkFrame 40 [[40]])]); (41, [("a", mkFrame 41 [[41]])])]).
Proof. reflexivity. Qed.

Print Assumptions generated_patches.
Print Assumptions stored_patches_again.
Print Assumptions unsaved_patches_refused.
Print Assumptions node_files_written.
Print Assumptions node_file_refused.
Print Assumptions patches_found.
Print Assumptions single_patch_refuted.
Print Assumptions no_dataset_refuted.
Print Assumptions other_name_refuted.
Print Assumptions patch_local_paths.
Print Assumptions dataset_otherwise.
Print Assumptions dotted_name_refuted.
