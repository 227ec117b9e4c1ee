(** Links simulations: paths and parameters of the input file, outcome of a run,
    results in time order (C85). *)
From Coq Require Import String Ascii List Bool Arith ZArith Lia Permutation Sorting.Sorted.
From Verif Require Import Lib PyStr PyDict HybridModel HybridProps TextLines SpecimenModel HistoryModel HistoryProps NamesModel NamesProps LinksResultsModel.
Import ListNotations.
Local Open Scope string_scope.
Local Open Scope list_scope.

(** ** Input data file *)
(** Without overwriting, the path is not that of an existing file; otherwise, or
    when it is free, it is the path asked for. *)
Theorem input_file_fresh f directory filename is_overwrite :
  exists p, input_file_path f directory filename is_overwrite = Some p /\
    (is_overwrite = false -> ~ In p (files f)) /\
    ((is_overwrite = true \/ ~ In (directory ++ "/" ++ filename ++ ".dat")%string (files f)) ->
       p = (directory ++ "/" ++ filename ++ ".dat")%string).
Proof.
  unfold input_file_path, NamesModel.join.
  replace ((directory ++ "/" ++ filename) ++ ".dat")%string with (directory ++ "/" ++ filename ++ ".dat")%string
    by (rewrite !app_assoc_s; reflexivity).
  set (p := (directory ++ "/" ++ filename ++ ".dat")%string).
  assert (M : isfile f p = true <-> In p (files f)).
  { unfold isfile, mem. rewrite existsb_exists. split; [intros [x [H E]]; apply String.eqb_eq in E; now subst|].
    intros H. exists p. split; [exact H|apply String.eqb_refl]. }
  destruct (isfile f p) eqn:E.
  - destruct is_overwrite; cbn [negb andb].
    + exists p. split; [reflexivity|]. split; [discriminate|reflexivity].
    + destruct (new_file_path_fresh f p) as [r [H1 [H2 _]]]. exists r. split; [exact H1|]. split; [intros _; exact H2|].
      intros [Q|Q]; [discriminate|]. now destruct Q; apply M.
  - cbn [andb]. exists p. split; [reflexivity|]. split; [intros _ Q; apply M in Q; discriminate|reflexivity].
Qed.

Section Parameters.
  Context {V : Type} (of_text : string -> V) (one : V).
  Definition known_params : list string :=
    ["title"; "large_strain_formulation"; "analysis_type"; "solution_algorithm"; "solver"; "parallel_solver"; "vtk_output";
     "Node_Data_Output"; "Global_Data_Output"].
  Definition known_analysis : list string := ["plane_stress"; "plane_strain"; "axisymmetric"; "tridimensional"].
  Lemma default_params_keys strain analysis d : default_params of_text one strain analysis = Ok d -> dkeys d = known_params.
  Proof. unfold default_params. destruct (analysis_code analysis); [|discriminate]. cbn [rbind]. intros H. injection H as <-. reflexivity. Qed.
  Lemma merge_keys (g : dict V) : forall d, dkeys (fold_left (fun d kv => match dget d (fst kv) with Some _ => dset d (fst kv) (snd kv) | None => d end) g d) = dkeys d.
  Proof.
    induction g as [|[k v] g IH]; intros d; [reflexivity|]. cbn [fold_left fst snd]. rewrite IH.
    destruct (dget d k) as [w|] eqn:E; [|reflexivity]. apply (gkeys_gset_mem String.eqb String.eqb_eq). now apply dget_key in E.
  Qed.
  Lemma merge_get (g : dict V) : NoDup (dkeys g) -> forall d k, In k (dkeys d) ->
    dget (fold_left (fun d kv => match dget d (fst kv) with Some _ => dset d (fst kv) (snd kv) | None => d end) g d) k
    = match dget g k with Some v => Some v | None => dget d k end.
  Proof.
    induction g as [|[a v] g IH]; intros N d k H; [reflexivity|]. cbn [fold_left fst snd].
    apply NoDup_cons_iff in N as [N1 N2].
    assert (Hd : In k (dkeys (match dget d a with Some _ => dset d a v | None => d end))).
    { destruct (dget d a) eqn:E; [|exact H]. apply (gkeys_in_gset String.eqb String.eqb_eq). now right. }
    rewrite IH by assumption. change (dget ((a, v) :: g) k) with (if String.eqb k a then Some v else dget g k).
    destruct (String.eqb_spec k a) as [<-|Q].
    - destruct (dget g k) as [w|] eqn:G; [apply dget_key in G; contradiction|].
      destruct (dget d k) as [w|] eqn:D; [apply dget_dset_same|]. destruct (dget_some_in d k H) as [w W]. congruence.
    - destruct (dget g k) as [w|]; [reflexivity|]. destruct (dget d a); [apply dget_dset_other; congruence|reflexivity].
  Qed.
  (** The parameters of the input file are the known ones, each with the given
      value or else its default; the analysis type must be known. *)
  Theorem input_params_law strain analysis given :
    match given with Some g => NoDup (dkeys g) | None => True end ->
    match default_params of_text one strain analysis with
    | Ok d => In analysis known_analysis /\ dkeys d = known_params /\
        exists r, input_params of_text one strain analysis given = Ok r /\ dkeys r = known_params /\
          forall k, In k known_params ->
            dget r k = match given with Some g => match dget g k with Some v => Some v | None => dget d k end | None => dget d k end
    | Err e => e = NameError /\ ~ In analysis known_analysis /\ input_params of_text one strain analysis given = Err NameError
    end.
  Proof.
    intros N. unfold input_params. destruct (default_params of_text one strain analysis) as [d|e] eqn:D.
    - pose proof (default_params_keys _ _ _ D) as K. split; [|split; [exact K|]].
      + unfold default_params, analysis_code in D. unfold known_analysis.
        repeat (match type of D with context [String.eqb analysis ?s] => destruct (String.eqb_spec analysis s) as [->|] end); [cbn; tauto..|discriminate].
      + cbn [rbind]. destruct given as [g|].
        * eexists. split; [reflexivity|]. rewrite merge_keys. split; [exact K|]. intros k Hk. apply merge_get; [exact N|]. now rewrite K.
        * exists d. repeat split; assumption.
    - assert (Q : e = NameError /\ ~ In analysis known_analysis); [|destruct Q as [-> Q]; repeat split; assumption].
      unfold default_params, analysis_code in D. unfold known_analysis.
      repeat (match type of D with context [String.eqb analysis ?s] => destruct (String.eqb_spec analysis s) as [->|] end); try discriminate D.
      cbn [rbind] in D. injection D as <-. split; [reflexivity|]. cbn. intuition congruence.
  Qed.
  (** The defaults say what the problem is. *)
  Theorem default_params_problem strain analysis d : default_params of_text one strain analysis = Ok d ->
    dget d "large_strain_formulation" = Some (of_text (if String.eqb strain "infinitesimal" then "OFF" else "ON")) /\
    exists c, dget d "analysis_type" = Some (of_text c) /\
      In (analysis, c) [("plane_stress", "1"); ("plane_strain", "2"); ("axisymmetric", "3"); ("tridimensional", "6")].
  Proof.
    unfold default_params, analysis_code. intros D. 
    repeat (match type of D with context [String.eqb analysis ?s] => destruct (String.eqb_spec analysis s) as [->|] end);
      cbn [rbind] in D; try discriminate D; injection D as <-; (split; [reflexivity|]; eexists; split; [reflexivity|cbn; tauto]).
  Qed.
End Parameters.
Theorem check_phases_iff mesh phases : 
  (check_phases mesh phases = Ok tt <-> incl mesh phases) /\ (check_phases mesh phases = Err RuntimeError <-> ~ incl mesh phases).
Proof.
  unfold check_phases.
  assert (B : forallb (fun p => existsb (Z.eqb p) phases) mesh = true <-> incl mesh phases).
  { rewrite forallb_forall. split; intros H x Hx; specialize (H x Hx).
    - apply existsb_exists in H as [y [Hy E]]. apply Z.eqb_eq in E. now subst.
    - apply existsb_exists. exists x. split; [exact H|apply Z.eqb_refl]. }
  destruct (forallb _ mesh); split; split; intros H; try discriminate; try reflexivity; try (now apply B).
  - exfalso. apply H. now apply B.
  - exfalso. apply B in H. discriminate.
  - intros Q. apply B in Q. discriminate.
Qed.

(** ** Outcome of a run *)
Lemma starts_with_inv p s : starts_with p s = true -> exists r, s = (p ++ r)%string.
Proof.
  revert s. induction p as [|c p IH]; intros s H; [now exists s|]. destruct s as [|d s]; [discriminate|]. cbn in H.
  apply andb_prop in H as [E H]. apply Ascii.eqb_eq in E. subst. destruct (IH s H) as [r ->]. now exists r.
Qed.
Lemma contains_iff p s : contains p s = true <-> exists a b, s = (a ++ p ++ b)%string.
Proof.
  split.
  - induction s as [|c s IH]; cbn [contains]; intros H.
    + rewrite orb_false_r in H. apply starts_with_inv in H as [r ->]. now exists "", r.
    + apply orb_prop in H as [H|H].
      * apply starts_with_inv in H as [r ->]. now exists "", r.
      * destruct (IH H) as [a [b ->]]. now exists (String c a), b.
  - intros [a [b ->]]. induction a as [|c a IH].
    + cbn [append]. destruct (p ++ b)%string eqn:E; cbn [contains]; rewrite <- E, starts_with_app; reflexivity.
    + cbn [append contains]. rewrite IH. apply orb_true_r.
Qed.
(** Success is reported exactly when the screen file found after the run has a
    line with the message; without directory or file the run fails. *)
Theorem run_success exec w :
  match exec w with
  | Some (Some lines) => exists b, run_links exec w = Ok b /\
      (b = true <-> exists l x y, In l lines /\ l = (x ++ "Program L I N K S successfully completed." ++ y)%string)
  | _ => run_links exec w = Err RuntimeError
  end.
Proof.
  unfold run_links. destruct (exec w) as [[lines|]|]; [|reflexivity..]. eexists. split; [reflexivity|]. rewrite existsb_exists. split.
  - intros [l [Hl H]]. apply contains_iff in H as [x [y E]]. now exists l, x, y.
  - intros [l [x [y [Hl E]]]]. exists l. split; [exact Hl|]. apply contains_iff. now exists x, y.
Qed.
(** The outcome may be that of an earlier run: a binary that does nothing
    succeeds on the output of a successful simulation. *)
Theorem run_stale_refuted : exists old, run_links (fun w => w) (Some (Some old)) = Ok true /\ run_links (fun w => w) None = Err RuntimeError.
Proof. exists ["header"; "  Program L I N K S successfully completed.  "]. split; vm_compute; reflexivity. Qed.

(** ** Results *)
Lemma is_result_iff sim ext name : is_result sim ext name = true <-> exists a, name = (sim ++ a ++ ext)%string.
Proof.
  unfold is_result. split.
  - destruct (after sim name) as [r|] eqn:E; [|discriminate]. intros H. apply after_inv in E. apply ends_with_inv in H as [a ->]. eauto.
  - intros [a ->]. rewrite after_app. apply ends_with_app.
Qed.
Lemma result_key_name pre n e : has_char dot e = false -> result_key (pre ++ "_" ++ nat_str n ++ String dot e)%string = Ok (Z.of_nat n).
Proof.
  intros H. unfold result_key.
  replace (pre ++ "_" ++ nat_str n ++ String dot e)%string with ((pre ++ String "_" (nat_str n)) ++ String dot e)%string
    by (rewrite <- !app_assoc_s; reflexivity).
  rewrite splitext_app by exact H. rewrite split_on_app.
  rewrite (split_on_none "_" (nat_str n)) by (apply digits_no_char; [reflexivity|apply nat_str_digits]).
  rewrite last_last. apply py_int_str.
Qed.
Lemma sorted_files_law {A} sim mid e ext (steps : list (nat * A)) others listing : ext = String dot e -> has_char dot e = false ->
  StronglySorted lt (map fst steps) ->
  (forall f, In f others -> ~ exists a, fst f = (sim ++ a ++ ext)%string) ->
  Permutation listing (step_files (sim ++ mid)%string ext steps ++ others) ->
  sorted_files sim ext listing = Ok (map snd steps).
Proof.
  intros -> He Hk Ho P. unfold sorted_files.
  assert (F : Permutation (filter (fun f => is_result sim (String dot e) (fst f)) listing) (step_files (sim ++ mid)%string (String dot e) steps)).
  { etransitivity; [apply perm_filter, P|]. rewrite filter_files; [reflexivity| |].
    - intros x Hx. apply in_map_iff in Hx as [s [<- _]]. apply is_result_iff. exists (mid ++ "_" ++ nat_str (fst s))%string.
      cbn [fst]. rewrite <- !app_assoc_s. reflexivity.
    - intros x Hx. destruct (is_result sim (String dot e) (fst x)) eqn:Q; [|reflexivity]. apply is_result_iff in Q. now destruct (Ho x Hx). }
  set (files := filter _ listing) in *.
  set (key := fun f : string * A => match result_key (fst f) with Ok z => z | Err _ => 0%Z end).
  assert (K : forall f, In f files -> result_key (fst f) = Ok (key f)).
  { intros f Hf. apply (Permutation_in _ F) in Hf. apply in_map_iff in Hf as [s [<- _]]. unfold key. cbn [fst].
    now rewrite result_key_name. }
  rewrite (rmap_all _ files (fun f => (key f, snd f))) by (intros f Hf; rewrite (K f Hf); reflexivity). cbn [rbind]. f_equal.
  rewrite <- (isort_map (fun f => (key f, snd f)) fst files). rewrite map_map. cbn [fst snd].
  assert (U : isort key files = step_files (sim ++ mid)%string (String dot e) steps).
  { apply isort_unique; [exact F|]. rewrite <- (map_id (step_files _ _ steps)). apply steps_sorted; [exact Hk|].
    intros s _. unfold key. cbn [fst]. now rewrite result_key_name. }
  change (fun x : string * A => key x) with key. rewrite U. unfold step_files. rewrite map_map. reflexivity.
Qed.

Section Tables.
  Context {V : Type}.
  (** A table with [n] rows and [m] columns *)
  Definition table (n m : nat) (rows : list (list V)) : Prop := List.length rows = n /\ forall r, In r rows -> List.length r = m.
  Lemma table_rect n m rows : table n m rows -> 1 <= n ->
    forallb (fun x => Nat.eqb (List.length x) (List.length (hd [] rows))) rows = true /\ List.length (hd [] rows) = m.
  Proof.
    intros [L R] N. assert (H0 : List.length (hd [] rows) = m) by (destruct rows as [|r t]; [cbn in L; lia|apply R; now left]).
    split; [|exact H0]. apply forallb_forall. intros x Hx. rewrite H0, (R x Hx). apply Nat.eqb_refl.
  Qed.
  Lemma read_table n m rows : table n m rows -> 2 <= n -> 2 <= m -> genfromtxt rows = Ok (A2 rows).
  Proof.
    intros T N M. destruct (table_rect n m rows T ltac:(lia)) as [F H0]. destruct T as [L R].
    destruct rows as [|r [|r2 t]]; [cbn in L; lia|cbn in L; lia|]. cbn [hd] in *. unfold genfromtxt. rewrite F. cbn [negb].
    destruct r as [|a [|b r]]; [cbn in H0; lia|cbn in H0; lia|reflexivity].
  Qed.
  Lemma read_row m r : List.length r = m -> 2 <= m -> genfromtxt [r] = Ok (A1 (V := V) r).
  Proof.
    intros L M. unfold genfromtxt. cbn [forallb]. rewrite Nat.eqb_refl. cbn [andb negb].
    destruct r as [|a [|b r]]; [cbn in L; lia|cbn in L; lia|reflexivity].
  Qed.
  Lemma broadcast_table n m rows : table n m rows -> broadcast n m (A2 rows) = Ok rows.
  Proof.
    intros [L R]. unfold broadcast. rewrite L, Nat.eqb_refl. cbn [negb].
    replace (forallb _ rows) with true; [reflexivity|]. symmetry. apply forallb_forall. intros r Hr. rewrite (R r Hr). apply Nat.eqb_refl.
  Qed.
  (** The node data are the tables of the files in time order, for at least two
      nodes and two features. *)
  Theorem node_results_law sim mid n m (steps : list (nat * list (list V))) others listing :
    2 <= n -> 2 <= m -> steps <> [] -> (forall s, In s steps -> table n m (snd s)) ->
    StronglySorted lt (map fst steps) ->
    (forall f, In f others -> ~ exists a, fst f = (sim ++ a ++ ".nodedata")%string) ->
    Permutation listing (step_files (sim ++ mid)%string ".nodedata" steps ++ others) ->
    node_results sim listing = Ok (Some (map snd steps)).
  Proof.
    intros N M Ne T Hk Ho P. unfold node_results. rewrite (sorted_files_law sim mid "nodedata" ".nodedata" steps others listing) by (assumption || reflexivity).
    cbn [rbind]. destruct steps as [|[t0 f0] rest]; [contradiction|]. set (steps := (t0, f0) :: rest) in *.
    assert (T0 : table n m f0) by (apply (T (t0, f0)); now left).
    change (map snd steps) with (f0 :: map snd rest). cbn iota.
    rewrite (read_table n m f0) by assumption. cbn [rbind]. destruct (table_rect n m f0 T0 ltac:(lia)) as [_ ->].
    destruct T0 as [-> _]. change (f0 :: map snd rest) with (map snd steps).
    rewrite (rmap_all _ (map snd steps) (fun f => f)).
    - cbn [rbind]. now rewrite map_id.
    - intros f Hf. apply in_map_iff in Hf as [s [<- Hs]]. rewrite (read_table n m) by auto. cbn [rbind]. now apply broadcast_table, T.
  Qed.
  (** The node data read here are those collected for the specimen history. *)
  Theorem results_agree_with_history sim mid dir n m (steps : list (nat * list (list V))) others listing :
    2 <= n -> 2 <= m -> steps <> [] -> (forall s, In s steps -> table n m (snd s)) ->
    StronglySorted lt (map fst steps) ->
    (forall f, In f others -> ~ exists a, fst f = (sim ++ a ++ ".nodedata")%string) ->
    Permutation listing (step_files (sim ++ mid)%string ".nodedata" steps ++ others) ->
    exists data, collect sim dir listing = Ok data /\ node_results sim listing = Ok (Some data).
  Proof.
    intros N M Ne T Hk Ho P. exists (map snd steps). split; [now apply (node_data_in_time_order sim mid dir steps others)|].
    now apply (node_results_law sim mid n m steps others).
  Qed.
  (** The global data are the rows of the files in time order. *)
  Theorem global_results_law sim mid m (steps : list (nat * list V)) others listing :
    1 <= m -> steps <> [] -> (forall s, In s steps -> List.length (snd s) = m) ->
    StronglySorted lt (map fst steps) ->
    (forall f, In f others -> ~ exists a, fst f = (sim ++ a ++ ".globaldata")%string) ->
    Permutation listing (step_files (sim ++ mid)%string ".globaldata" (map (fun s => (fst s, [snd s])) steps) ++ others) ->
    global_results sim listing = Ok (Some (map (fun s => [snd s]) steps)).
  Proof.
    intros M Ne T Hk Ho P. unfold global_results.
    rewrite (sorted_files_law sim mid "globaldata" ".globaldata" (map (fun s => (fst s, [snd s])) steps) others listing);
      [|reflexivity|reflexivity|now rewrite map_map|assumption|assumption].
    rewrite map_map. cbn [rbind snd].
    assert (G : forall r : list V, List.length r = m -> exists a, genfromtxt [r] = Ok a /\ atleast_1d a = A1 r).
    { intros r L. destruct (Nat.eq_dec m 1) as [->|Q].
      - destruct r as [|v [|? ?]]; try discriminate L. exists (A0 v). split; reflexivity.
      - exists (A1 r). split; [apply (read_row m); [exact L|lia]|reflexivity]. }
    destruct steps as [|[t0 r0] rest]; [contradiction|]. set (steps := (t0, r0) :: rest) in *.
    change (map (fun x : nat * list V => [snd x]) steps) with ([r0] :: map (fun x : nat * list V => [snd x]) rest). cbn iota.
    destruct (G r0) as [a0 [E0 E1]]; [apply (T (t0, r0)); now left|]. rewrite E0. cbn [rbind]. rewrite E1. cbn [arr_len].
    assert (L0 : List.length r0 = m) by (apply (T (t0, r0)); now left). rewrite L0.
    change ([r0] :: map (fun x : nat * list V => [snd x]) rest) with (map (fun x : nat * list V => [snd x]) steps).
    rewrite (rmap_all _ (map (fun x : nat * list V => [snd x]) steps) (fun f => f)).
    - cbn [rbind]. now rewrite map_id.
    - intros f Hf. apply in_map_iff in Hf as [s [<- Hs]]. destruct (G (snd s) (T s Hs)) as [a [Ea1 Ea2]]. rewrite Ea1. cbn [rbind]. rewrite Ea2.
      unfold broadcast. now rewrite (T s Hs), Nat.eqb_refl.
  Qed.
  (** Without results files there are no results. *)
  Theorem no_results sim (listing : list (string * list (list V))) :
    (forall f, In f listing -> ~ exists a, fst f = (sim ++ a ++ ".nodedata")%string) ->
    (forall f, In f listing -> ~ exists a, fst f = (sim ++ a ++ ".globaldata")%string) ->
    node_results sim listing = Ok None /\ global_results sim listing = Ok None.
  Proof.
    intros H1 H2. split.
    - unfold node_results. rewrite (sorted_files_law sim "" "nodedata" ".nodedata" [] listing listing); [reflexivity|reflexivity|reflexivity|constructor|exact H1|reflexivity].
    - unfold global_results. rewrite (sorted_files_law sim "" "globaldata" ".globaldata" [] listing listing); [reflexivity|reflexivity|reflexivity|constructor|exact H2|reflexivity].
  Qed.

  (** *** Clauses that fail *)
  (** The data of a single node cannot be read. *)
  Theorem single_node_refuted sim (row : list V) t : 2 <= List.length row ->
    node_results sim [((sim ++ "_" ++ nat_str t ++ ".nodedata")%string, [row])] = Err IndexError.
  Proof.
    intros L. unfold node_results.
    rewrite (sorted_files_law sim "" "nodedata" ".nodedata" [(t, [row])] []);
      [|reflexivity|reflexivity|repeat constructor|intros f []|unfold step_files; cbn [map fst snd app]; rewrite app_nil_s; reflexivity].
    cbn [rbind map snd]. rewrite (read_row (List.length row)) by auto. reflexivity.
  Qed.
  (** A later file with one row, cut off say, is not refused: its row is taken
      for every node. *)
  Theorem truncated_file_refuted sim (a b c : list V) : 2 <= List.length a -> List.length b = List.length a -> List.length c = List.length a ->
    node_results sim [((sim ++ "_0.nodedata")%string, [a; b]); ((sim ++ "_1.nodedata")%string, [c])] = Ok (Some [[a; b]; [c; c]]).
  Proof.
    intros L Lb Lc. unfold node_results.
    rewrite (sorted_files_law sim "" "nodedata" ".nodedata" [(0, [a; b]); (1, [c])] []);
      [|reflexivity|reflexivity|repeat constructor|intros f []|unfold step_files; cbn [map fst snd app]; rewrite app_nil_s; reflexivity].
    cbn [rbind map snd].
    assert (T : table 2 (List.length a) [a; b]) by (split; [reflexivity|intros r [<-|[<-|[]]]; auto]).
    rewrite (read_table 2 (List.length a) [a; b]) by (assumption || lia). cbn [rbind hd List.length rmap].
    rewrite (read_table 2 (List.length a) [a; b]) by (assumption || lia). cbn [rbind]. rewrite broadcast_table by exact T. cbn [rbind].
    rewrite (read_row (List.length a)) by assumption. cbn [rbind]. unfold broadcast. rewrite Lc, Nat.eqb_refl. reflexivity.
  Qed.
End Tables.
(** With a path that ends in a slash the name of the simulation is lost, and the
    results of other simulations are read. *)
Theorem trailing_slash_refuted : simulation_name "out/bar" = "bar" /\ simulation_name "out/bar/" = "" /\
  node_results "bar" [("foo_0.nodedata", [[1; 2]; [3; 4]])] = Ok None /\
  node_results "" [("foo_0.nodedata", [[1; 2]; [3; 4]])] = Ok (Some [[[1; 2]; [3; 4]]]).
Proof. repeat split; vm_compute; reflexivity. Qed.

(** ** Cases *)
Example results_case :
  node_results "bar" [("bar_nodes_10.nodedata", [[1; 2]; [3; 4]]); ("bar.dat", []); ("bar_nodes_9.nodedata", [[5; 6]; [7; 8]])]
  = Ok (Some [[[5; 6]; [7; 8]]; [[1; 2]; [3; 4]]]) /\
  global_results "bar" [("bar_10.globaldata", [[4]]); ("bar_2.globaldata", [[3]])] = Ok (Some [[[3]]; [[4]]]) /\
  node_results "bar" [("bar.nodedata", [[1; 2]; [3; 4]])] = Err ValueError.
Proof. repeat split; vm_compute; reflexivity. Qed.
Example params_case :
  input_params (fun s => s) "1" "finite" "plane_strain" (Some [("solver", "MUMPS"); ("unknown", "x")])
  = Ok [("title", "Links input data file generated automatically."); ("large_strain_formulation", "ON"); ("analysis_type", "2");
        ("solution_algorithm", "2"); ("solver", "MUMPS"); ("parallel_solver", "1"); ("vtk_output", "None");
        ("Node_Data_Output", "Node_Data_Output"); ("Global_Data_Output", "Global_Data_Output")].
Proof. vm_compute. reflexivity. Qed.

Print Assumptions input_file_fresh.
Print Assumptions input_params_law.
Print Assumptions default_params_problem.
Print Assumptions check_phases_iff.
Print Assumptions run_success.
Print Assumptions run_stale_refuted.
Print Assumptions node_results_law.
Print Assumptions results_agree_with_history.
Print Assumptions global_results_law.
Print Assumptions no_results.
Print Assumptions single_node_refuted.
Print Assumptions truncated_file_refuted.
Print Assumptions trailing_slash_refuted.
