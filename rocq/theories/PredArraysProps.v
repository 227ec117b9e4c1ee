(** Arrays of predictions and ground truth. *)
From Coq Require Import Reals String Ascii List Arith Bool ZArith Lia Lra Permutation Sorted.
From Verif Require Import Lib PyDict PyStr TextLines MetricsModel MetricsProps HybridModel HybridProps MeanMetricsModel MeanMetricsProps PredArraysModel.
Import ListNotations.
Local Open Scope list_scope.

(** The feature of component [i] *)
Definition feature (ty : string) (f : pfile) (i : nat) : option nat :=
  if String.eqb ty "acc_p_strain" then f_order f else Some i.
Definition known_type (ty : string) : Prop := ty = "stress_comps"%string \/ ty = "acc_p_strain"%string \/ ty = "p_strain_comps"%string.
Definition count (ty : string) (labels : list string) : nat := if String.eqb ty "acc_p_strain" then 1%nat else length labels.
(** Ground truth and prediction of component [i] in a file *)
Definition truth (ty : string) (i : nat) (f : pfile) : list R :=
  match feature ty f i, f_targets f with Some j, Some t => nth j t [] | _, _ => [] end.
Definition guess (ty : string) (i : nat) (f : pfile) : list R :=
  match feature ty f i with Some j => nth j (f_out f) [] | None => [] end.
(** A file with the ground truth and prediction of [n] components, of the same
    number of time steps *)
Definition ready (ty : string) (n : nat) (f : pfile) : Prop :=
  forall i, (i < n)%nat -> exists j t, feature ty f i = Some j /\ f_targets f = Some t /\ (j < length t)%nat /\ (j < length (f_out f))%nat
    /\ length (nth j t []) = length (nth j (f_out f) []).

Lemma col_ok l j : (j < length l)%nat -> col l j = Ok (nth j l []).
Proof. intros H. unfold col. rewrite (nth_error_nth' l [] H). reflexivity. Qed.
Lemma nth_firstn (l : list (list R)) n i : (i < n)%nat -> nth i (firstn n l) [] = nth i l [].
Proof.
  revert n i. induction l as [|x l IH]; intros n i H; [rewrite firstn_nil; reflexivity|].
  destruct n; [lia|]. destruct i; [reflexivity|]. cbn. apply IH. lia.
Qed.
Lemma component_ok ty n i f : ready ty n f -> (i < n)%nat -> component ty n i f = Ok (truth ty i f, guess ty i f)
  /\ length (truth ty i f) = length (guess ty i f).
Proof.
  intros Rd I. destruct (Rd i I) as [j [t [Fj [Ft [L1 [L2 L3]]]]]].
  unfold component, truth, guess. rewrite Fj, Ft. unfold feature in Fj. split; [|exact L3].
  destruct (String.eqb ty "acc_p_strain").
  - rewrite Fj, (col_ok _ _ L2). cbn [rbind]. rewrite (col_ok _ _ L1). reflexivity.
  - injection Fj as <-. unfold cols_slice. rewrite !col_ok by (rewrite firstn_length; lia). cbn [rbind].
    rewrite !nth_firstn by exact I. reflexivity.
Qed.
Definition rows_of (ty : string) (i : nat) (f : pfile) : list (R * R) := combine (truth ty i f) (guess ty i f).
Lemma sample_rows_ok ty n f : ready ty n f -> sample_rows ty n f = Ok (map (fun i => rows_of ty i f) (seq 0 n)).
Proof.
  intros Rd. unfold sample_rows. apply rmap_all. intros i I. apply in_seq in I.
  destruct (component_ok ty n i f Rd) as [E L]; [lia|]. rewrite E. cbn [rbind]. unfold paired. cbn [fst snd].
  rewrite L, Nat.eqb_refl. reflexivity.
Qed.
Lemma append_rows_nth n (g h : nat -> list (R * R)) :
  append_rows (map g (seq 0 n)) (map h (seq 0 n)) = map (fun i => g i ++ h i) (seq 0 n).
Proof. unfold append_rows. rewrite combine_map_seq, map_map. reflexivity. Qed.
Lemma pred_file_number id : sample_number (pred_file id) = Some id.
Proof. exact (sample_name_found id). Qed.
Lemma in_files_ids d id f : In (pred_file id, f) d -> in_ids id (files_ids d) = true.
Proof.
  intros I. apply existsb_exists. exists id. split; [|apply Nat.eqb_refl]. apply in_flat_map.
  exists (pred_file id, f). split; [exact I|]. cbn [fst]. rewrite pred_file_number. left. reflexivity.
Qed.
Lemma load_ok d id f : NoDup (map fst d) -> In (pred_file id, f) d -> load_sample d id = Ok f.
Proof.
  intros ND I. unfold load_sample.
  assert (E : find (fun e => String.eqb (pred_file id) (fst e)) d = Some (pred_file id, f)); [|rewrite E; reflexivity].
  induction d as [|[a g] d IH]; [destruct I|]. cbn [find fst]. cbn [map fst] in ND. inversion ND as [|? ? NI ND']; subst.
  destruct I as [Q|I]; [injection Q as -> ->; rewrite String.eqb_refl; reflexivity|].
  destruct (String.eqb_spec (pred_file id) a) as [<-|]; [exfalso; apply NI; apply (in_map fst) in I; exact I|auto].
Qed.
Lemma n_components_ok ty labels : known_type ty -> n_components ty labels = Ok (count ty labels).
Proof. intros [->|[->| ->]]; reflexivity. Qed.
Lemma repeat_seq {A} (x : A) n : repeat x n = map (fun _ => x) (seq 0 n).
Proof. generalize 0%nat. induction n as [|n IH]; intros k; [reflexivity|]. cbn. rewrite (IH (S k)). reflexivity. Qed.
Lemma files_nonempty d : files_ids d <> [] -> (Nat.eqb (length d) 0 || Nat.eqb (length (files_ids d)) 0) = false.
Proof.
  intros N. destruct d as [|e d]; [exfalso; apply N; reflexivity|]. cbn [length Nat.eqb orb].
  destruct (files_ids (e :: d)); [congruence|reflexivity].
Qed.
Lemma add_samples d ty n todo (file : nat -> pfile) : NoDup (map fst d) ->
  (forall id, In id todo -> In (pred_file id, file id) d /\ ready ty n (file id)) ->
  forall g, rfold (add_sample d ty n) todo (map g (seq 0 n))
    = Ok (map (fun i => g i ++ concat (map (fun id => rows_of ty i (file id)) todo)) (seq 0 n)).
Proof.
  intros ND. induction todo as [|id todo IH]; intros H g; cbn [rfold map concat].
  - f_equal. apply map_ext. intros i. rewrite app_nil_r. reflexivity.
  - destruct (H id (or_introl eq_refl)) as [I Rd]. unfold add_sample at 1.
    rewrite (in_files_ids d id _ I), (load_ok d id _ ND I). cbn [rbind]. rewrite (sample_rows_ok ty n _ Rd). cbn [rbind].
    rewrite append_rows_nth. rewrite IH by (intros; apply H; right; auto). f_equal. apply map_ext. intros i. rewrite app_assoc. reflexivity.
Qed.
(** Each array collates, sample by sample in the requested order and time by
    time, the ground truth and the prediction of its component. *)
Theorem prediction_arrays_law : forall (d : pdir) ty labels todo (file : nat -> pfile), NoDup (map fst d) -> files_ids d <> [] -> known_type ty ->
  (forall id, In id todo -> In (pred_file id, file id) d /\ ready ty (count ty labels) (file id)) ->
  build_prediction_data_arrays (Some d) ty labels (Ids todo)
  = Ok (map (fun i => concat (map (fun id => combine (truth ty i (file id)) (guess ty i (file id))) todo)) (seq 0 (count ty labels))).
Proof.
  intros d ty labels todo file ND NE K H. unfold build_prediction_data_arrays.
  rewrite (files_nonempty d NE), (n_components_ok ty labels K). cbn [rbind].
  rewrite repeat_seq, (add_samples d ty _ todo file ND H). reflexivity.
Qed.
Lemma all_ids (d : pdir) ty labels : build_prediction_data_arrays (Some d) ty labels All = build_prediction_data_arrays (Some d) ty labels (Ids (files_ids d)).
Proof. reflexivity. Qed.
Definition is_prediction (e : string * pfile) : bool := match sample_number (fst e) with Some _ => true | None => false end.
(** All samples: the prediction files of the directory, each once and in the
    order it is listed, and no other file. *)
Theorem prediction_arrays_all : forall (d : pdir) ty labels, NoDup (map fst d) -> filter is_prediction d <> [] -> known_type ty ->
  (forall e k, In e d -> sample_number (fst e) = Some k -> fst e = pred_file k /\ ready ty (count ty labels) (snd e)) ->
  build_prediction_data_arrays (Some d) ty labels All
  = Ok (map (fun i => concat (map (fun e => combine (truth ty i (snd e)) (guess ty i (snd e))) (filter is_prediction d))) (seq 0 (count ty labels))).
Proof.
  intros d ty labels ND NE K H. rewrite all_ids.
  set (file := fun id => match load_sample d id with Ok f => f | Err _ => {| f_out := []; f_targets := None; f_order := None |} end).
  assert (LK : forall e k, In e d -> sample_number (fst e) = Some k -> file k = snd e /\ In (pred_file k, snd e) d).
  { intros [a f] k I E. destruct (H _ k I E) as [N _]. cbn [fst snd] in *. subst a. unfold file. rewrite (load_ok d k f ND I). auto. }
  assert (FI : files_ids d <> []).
  { intros Z. apply NE. destruct (filter is_prediction d) as [|e l] eqn:F; [reflexivity|]. exfalso.
    assert (I : In e (filter is_prediction d)) by (rewrite F; left; auto). apply filter_In in I as [I P]. unfold is_prediction in P.
    destruct (sample_number (fst e)) as [k|] eqn:E; [|discriminate]. destruct (LK e k I E) as [_ J]. apply in_files_ids in J. rewrite Z in J. discriminate. }
  etransitivity; [apply (prediction_arrays_law d ty labels (files_ids d) file ND FI K)|].
  2:{ f_equal. apply map_ext. intros i. f_equal.
    assert (LK' : forall e k, In e d -> sample_number (fst e) = Some k -> file k = snd e) by (intros; apply LK; auto).
    clear - LK'. revert LK'. generalize file. intros g LK. unfold files_ids. induction d as [|e d IH]; [reflexivity|]. cbn [flat_map filter].
    specialize (IH (fun x k I => LK x k (or_intror I))). unfold is_prediction at 1.
    destruct (sample_number (fst e)) as [k|] eqn:E; cbn [app map]; [|exact IH].
    rewrite (LK e k (or_introl eq_refl) E), IH. reflexivity. }
  - intros id I. unfold files_ids in I. apply in_flat_map in I as [e [Ie Q]]. destruct (sample_number (fst e)) as [k|] eqn:E; [|destruct Q].
    destruct Q as [<-|[]]. destruct (LK e k Ie E) as [-> J]. split; [exact J|apply (H e k Ie E)].
Qed.
Lemma files_ids_perm d d' : Permutation d d' -> Permutation (files_ids d) (files_ids d').
Proof.
  unfold files_ids. induction 1 as [|x a a' H IH|x y a|a a1 a2 H1 IH1 H2 IH2]; cbn [flat_map]; auto.
  - apply Permutation_app_head, IH.
  - rewrite !app_assoc. apply Permutation_app_tail, Permutation_app_comm.
  - eapply Permutation_trans; eauto.
Qed.
(** Another order of the directory only reorders the points of an array. *)
Theorem prediction_arrays_order : forall (d d' : pdir) ty labels (file : nat -> pfile), Permutation d d' -> NoDup (map fst d) -> files_ids d <> [] -> known_type ty ->
  (forall id, In id (files_ids d) -> In (pred_file id, file id) d /\ ready ty (count ty labels) (file id)) ->
  exists a a', build_prediction_data_arrays (Some d) ty labels All = Ok a /\ build_prediction_data_arrays (Some d') ty labels All = Ok a'
    /\ length a = length a' /\ forall i, Permutation (nth i a []) (nth i a' []).
Proof.
  intros d d' ty labels file P ND NE K H.
  assert (PF := files_ids_perm d d' P).
  assert (NE' : files_ids d' <> []) by (intros Z; rewrite Z in PF; apply Permutation_sym, Permutation_nil in PF; contradiction).
  rewrite (all_ids d), (all_ids d').
  rewrite (prediction_arrays_law d ty labels (files_ids d) file ND NE K H).
  rewrite (prediction_arrays_law d' ty labels (files_ids d') file).
  - eexists. eexists. split; [reflexivity|]. split; [reflexivity|]. split; [rewrite !map_length; reflexivity|].
    intros i. destruct (Nat.lt_ge_cases i (count ty labels)) as [L|L].
    + set (g := fun i => concat (map (fun id => combine (truth ty i (file id)) (guess ty i (file id))) (files_ids d))).
      set (g' := fun i => concat (map (fun id => combine (truth ty i (file id)) (guess ty i (file id))) (files_ids d'))).
      rewrite (nth_indep _ [] (g 0%nat)) by (rewrite map_length, seq_length; exact L).
      rewrite (nth_indep (map _ _) [] (g' 0%nat)) by (rewrite map_length, seq_length; exact L).
      rewrite !map_nth, !seq_nth by exact L. unfold g, g'. cbn [Nat.add].
      clear - PF. induction PF as [|x a a' Q IH|x y a|a a1 a2 Q1 IH1 Q2 IH2]; cbn [map concat]; auto.
      * apply Permutation_app_head, IH.
      * rewrite !app_assoc. apply Permutation_app_tail, Permutation_app_comm.
      * eapply Permutation_trans; eauto.
    + rewrite !nth_overflow by (rewrite map_length, seq_length; exact L). constructor.
  - apply (Permutation_NoDup (Permutation_map fst P)), ND.
  - exact NE'.
  - exact K.
  - intros id I. destruct (H id) as [A B]; [apply (Permutation_in id (Permutation_sym PF)); exact I|]. split; [apply (Permutation_in _ P); exact A|exact B].
Qed.
(** The mean squared difference of the two columns of an array is the mean of
    those of its samples, for samples of one length. *)
Theorem prediction_arrays_mse : forall ty i todo (file : nat -> pfile) n, todo <> [] -> (0 < n)%nat ->
  (forall id, In id todo -> length (truth ty i (file id)) = n /\ length (guess ty i (file id)) = n) ->
  spec_mse (concat (map (fun id => combine (truth ty i (file id)) (guess ty i (file id))) todo))
  = mean_of (fun id => spec_mse (combine (truth ty i (file id)) (guess ty i (file id)))) todo.
Proof.
  intros ty i todo file n N P H. unfold spec_mse at 1. unfold mean_of.
  set (b := fun id => combine (truth ty i (file id)) (guess ty i (file id))) in *.
  assert (LB : forall id, In id todo -> length (b id) = n).
  { intros id I. destruct (H id I) as [A B]. unfold b. rewrite combine_length. lia. }
  rewrite (concat_len (map b todo) n), map_length.
  2:{ apply Forall_forall. intros c Ic. apply in_map_iff in Ic as [id [<- I]]. auto. }
  rewrite mult_INR. assert (I1 := length_pos todo N). assert (I2 : (0 < INR n)%R) by (apply lt_0_INR; exact P).
  change (map (fun id => combine (truth ty i (file id)) (guess ty i (file id))) todo) with (map b todo).
  assert (E : (lsum (map (fun id => spec_mse (b id)) todo) = lsum (map (fun p => (fst p - snd p) * (fst p - snd p)) (concat (map b todo))) / INR n)%R).
  { clear - LB I2. induction todo as [|id todo IH]; cbn [map concat lsum]; [unfold Rdiv; ring|].
    rewrite map_app, lsum_app, IH by (intros; apply LB; right; auto). unfold spec_mse at 1, mean_of. rewrite LB by (left; auto). unfold Rdiv. ring. }
  change (map (fun id => spec_mse (combine (truth ty i (file id)) (guess ty i (file id)))) todo) with (map (fun id => spec_mse (b id)) todo).
  rewrite E. generalize (lsum (map (fun p => ((fst p - snd p) * (fst p - snd p))%R) (concat (map b todo)))). intros X.
  field. split; lra.
Qed.

(** ** Requests that fail *)
Theorem prediction_arrays_refused : forall (d : pdir) ty labels ids0,
  build_prediction_data_arrays None ty labels ids0 = Err RuntimeError
  /\ build_prediction_data_arrays (Some d) ty labels OtherIds = Err RuntimeError
  /\ (files_ids d = [] -> build_prediction_data_arrays (Some d) ty labels ids0 = Err RuntimeError)
  /\ (~ known_type ty -> build_prediction_data_arrays (Some d) ty labels ids0 = Err RuntimeError)
  /\ (forall id rest, ~ In id (files_ids d) -> build_prediction_data_arrays (Some d) ty labels (Ids (id :: rest)) = Err RuntimeError).
Proof.
  intros d ty labels ids0. split; [destruct ids0; reflexivity|]. split; [reflexivity|].
  assert (E : ~ known_type ty -> n_components ty labels = Err RuntimeError).
  { intros U. unfold n_components. destruct (String.eqb_spec ty "stress_comps") as [->|N1]; [exfalso; apply U; left; auto|].
    destruct (String.eqb_spec ty "acc_p_strain") as [->|N2]; [exfalso; apply U; right; left; auto|].
    destruct (String.eqb_spec ty "p_strain_comps") as [->|N3]; [exfalso; apply U; right; right; auto|reflexivity]. }
  split; [|split].
  - intros Z. unfold build_prediction_data_arrays. rewrite Z. cbn [length Nat.eqb]. rewrite orb_true_r. destruct ids0; reflexivity.
  - intros U. unfold build_prediction_data_arrays. rewrite (E U). cbn [rbind]. destruct ids0; [| |reflexivity]; destruct (_ || _); reflexivity.
  - intros id rest NI. unfold build_prediction_data_arrays. destruct (_ || _); [reflexivity|].
    unfold n_components. destruct (String.eqb ty "stress_comps"); [|destruct (String.eqb ty "acc_p_strain"); [|destruct (String.eqb ty "p_strain_comps"); [|reflexivity]]];
      cbn [rbind rfold]; unfold add_sample at 1; (destruct (in_ids id (files_ids d)) eqn:B; [exfalso; apply NI; apply existsb_exists in B as [x [I Q]]; apply Nat.eqb_eq in Q; subst; exact I|reflexivity]).
Qed.
(** predict() (prediction.py:236-262) stores the output features, the targets
    and the loss, and no order of the components. *)
Definition written_by_predict (f : pfile) : Prop := f_order f = None.
(** Accumulated plastic strains can therefore never be collated. *)
Theorem acc_p_strain_refuted : forall (d : pdir) labels id rest f, NoDup (map fst d) -> In (pred_file id, f) d -> written_by_predict f ->
  build_prediction_data_arrays (Some d) "acc_p_strain" labels (Ids (id :: rest)) = Err KeyError.
Proof.
  intros d labels id rest f ND I W. unfold build_prediction_data_arrays.
  assert (NE : files_ids d <> []).
  { pose proof (in_files_ids d id f I) as B. intros Z. rewrite Z in B. discriminate. }
  rewrite (files_nonempty d NE). cbn [n_components String.eqb Ascii.eqb Bool.eqb rbind rfold]. unfold add_sample at 1.
  rewrite (in_files_ids d id f I), (load_ok d id f ND I). cbn [rbind]. unfold sample_rows. cbn [seq rmap]. unfold component. cbn [String.eqb Ascii.eqb Bool.eqb].
  unfold written_by_predict in W. rewrite W. reflexivity.
Qed.
(** Without ground truth the error is not the one announced: the missing tensor
    is indexed before the check. *)
Theorem no_ground_truth_refuted : forall (d : pdir) labels id rest f, NoDup (map fst d) -> In (pred_file id, f) d -> f_targets f = None -> labels <> [] ->
  build_prediction_data_arrays (Some d) "stress_comps" labels (Ids (id :: rest)) = Err TypeError.
Proof.
  intros d labels id rest f ND I W NL. unfold build_prediction_data_arrays.
  assert (NE : files_ids d <> []).
  { pose proof (in_files_ids d id f I) as B. intros Z. rewrite Z in B. discriminate. }
  rewrite (files_nonempty d NE). cbn [n_components String.eqb Ascii.eqb Bool.eqb rbind rfold]. unfold add_sample at 1.
  rewrite (in_files_ids d id f I), (load_ok d id f ND I). cbn [rbind]. unfold sample_rows. destruct labels as [|a labels]; [congruence|].
  cbn [length seq rmap]. unfold component. cbn [String.eqb Ascii.eqb Bool.eqb]. rewrite W. reflexivity.
Qed.
(** A file whose number has leading zeros is counted but not found. *)
Theorem leading_zero_refuted : exists d f, d = [("prediction_sample_007.pkl"%string, f)] /\ files_ids d = [7%nat]
  /\ build_prediction_data_arrays (Some d) "stress_comps" ["11"]%string All = Err RuntimeError.
Proof. eexists. exists {| f_out := [[1%R]]; f_targets := Some [[1%R]]; f_order := None |}. repeat split. Qed.

(** ** Time series *)
Lemma component_order ty n i o f : ty <> "acc_p_strain"%string -> component ty n i (with_order o f) = component ty n i f.
Proof. intros N. unfold component. rewrite (proj2 (String.eqb_neq _ _) N). reflexivity. Qed.
Lemma series_order ty fs : ty <> "acc_p_strain"%string -> forall n i first a, series_columns ty n i first (same_order fs) a = series_columns ty n i first fs a.
Proof.
  intros N. unfold same_order. destruct (rev fs) as [|l t]; [reflexivity|]. generalize (f_order l). intros o n i.
  induction fs as [|f fs IH]; intros first a; [reflexivity|]. cbn [map series_columns]. rewrite component_order by exact N.
  destruct (component ty n i f) as [p|]; [|reflexivity]. cbn [rbind]. destruct (if first then add_column a (fst p) else Ok a) as [a1|]; [|reflexivity].
  cbn [rbind]. destruct (add_column a1 (snd p)); [|reflexivity]. cbn [rbind]. apply IH.
Qed.
Lemma guesses_added ty n i fs : forall a k, (exists b t, a = b :: t /\ length b = k) ->
  (forall f, In f fs -> ready ty n f /\ length (guess ty i f) = k) -> (i < n)%nat ->
  series_columns ty n i false fs a = Ok (a ++ map (guess ty i) fs).
Proof.
  induction fs as [|f fs IH]; intros a k [b [t [Ea Lb]]] H I; cbn [series_columns map]; [rewrite app_nil_r; reflexivity|].
  destruct (H f (or_introl eq_refl)) as [Rd Lg]. destruct (component_ok ty n i f Rd I) as [E _]. rewrite E. cbn [rbind snd].
  subst a. unfold add_column. rewrite Lb, Lg, Nat.eqb_refl. cbn [rbind].
  rewrite (IH ((b :: t) ++ [guess ty i f]) k); [rewrite <- app_assoc; reflexivity| |intros; apply H; right; auto|exact I].
  exists b, (t ++ [guess ty i f]). auto.
Qed.
Lemma series_ok ty n i time fs f0 rest : fs = f0 :: rest -> (i < n)%nat ->
  (forall f, In f fs -> ready ty n f /\ length (guess ty i f) = length time) ->
  series_columns ty n i true fs [time] = Ok (time :: truth ty i f0 :: map (guess ty i) fs).
Proof.
  intros -> I H. cbn [series_columns]. destruct (H f0 (or_introl eq_refl)) as [Rd Lg]. destruct (component_ok ty n i f0 Rd I) as [E L].
  rewrite E. cbn [rbind fst snd]. unfold add_column at 1. rewrite L, Lg, Nat.eqb_refl. cbn [rbind app]. unfold add_column at 1.
  rewrite Lg, Nat.eqb_refl. cbn [rbind app].
  rewrite (guesses_added ty n i rest _ (length time)); [reflexivity|eauto|intros; apply H; right; auto|exact I].
Qed.
Lemma max_in l : forall k, (exists x, In x (k :: l) /\ x = fold_left Nat.max l k).
Proof.
  induction l as [|y l IH]; intros k; cbn [fold_left]; [exists k; split; [left|]; reflexivity|].
  destruct (IH (Nat.max k y)) as [x [I E]]. exists x. split; [|exact E]. destruct I as [<-|I]; [|right; right; exact I].
  destruct (Nat.max_spec k y) as [[_ ->]|[_ ->]]; [right; left|left]; reflexivity.
Qed.
(** For every component, the array of every requested sample and of no other:
    the times, the ground truth of the first model, and the prediction of every
    model in their order. *)
Theorem time_series_law : forall models times ty labels todo (file : pdir -> nat -> pfile), models <> [] -> todo <> [] ->
  ty = "stress_comps"%string \/ ty = "p_strain_comps"%string ->
  (forall d, In d models -> NoDup (map fst d)) -> (forall id, In id todo -> (id < length times)%nat) ->
  (forall d id, In d models -> In id todo -> In (pred_file id, file d id) d /\ ready ty (length labels) (file d id)
     /\ forall i, (i < length labels)%nat -> length (guess ty i (file d id)) = length (nth id times [])) ->
  exists r, time_series_data models times ty labels (Ids todo) = Ok r /\ length r = length labels
    /\ forall i, (i < length labels)%nat -> forall id,
       (In id todo -> dget (nth i r []) (nat_str id)
          = Some (nth id times [] :: truth ty i (file (hd [] models) id) :: map (fun d => guess ty i (file d id)) models))
       /\ (~ In id todo -> dget (nth i r []) (nat_str id) = None).
Proof.
  intros models times ty labels todo file NM NT K ND LT H.
  destruct models as [|d0 models]; [congruence|]. clear NM. set (ms := d0 :: models) in *.
  unfold time_series_data.
  assert (C : (match Ids todo with All => Ok tt | OtherIds => Err RuntimeError | Ids [] => Err ValueError
      | Ids (k :: l) => if Nat.leb (length times) (fold_left Nat.max l k) then Err RuntimeError else Ok tt end : res unit) = Ok tt).
  { destruct todo as [|k l]; [congruence|]. destruct (max_in l k) as [x [I E]]. specialize (LT x I).
    rewrite (proj2 (Nat.leb_gt _ _)) by lia. reflexivity. }
  rewrite C. cbn [rbind]. fold ms. unfold ms at 1.
  assert (I0 : exists id0, In id0 todo) by (destruct todo as [|k l]; [congruence|exists k; left; auto]). destruct I0 as [id0 I0].
  assert (NE : files_ids d0 <> []).
  { intros Z. destruct (H d0 id0 (or_introl eq_refl) I0) as [A _]. pose proof (in_files_ids d0 id0 _ A) as B. rewrite Z in B. discriminate. }
  rewrite (files_nonempty d0 NE). clear C NT I0 id0.
  assert (NC : n_components ty labels = Ok (length labels)) by (destruct K as [->| ->]; reflexivity).
  rewrite NC. cbn [rbind]. set (n := length labels) in *.
  assert (NA : ty <> "acc_p_strain"%string) by (destruct K as [->| ->]; discriminate).
  set (arr := fun i id => nth id times [] :: truth ty i (file d0 id) :: map (fun d => guess ty i (file d id)) ms).
  assert (Z : forall todo', (forall id, In id todo' -> In id todo) -> forall g : nat -> dict (list (list R)),
    rfold (add_series ms times ty n) todo' (map g (seq 0 n))
    = Ok (map (fun i => fold_left (fun acc id => dset acc (nat_str id) (arr i id)) todo' (g i)) (seq 0 n))).
  { induction todo' as [|id rest IH]; intros SUB g; cbn [rfold fold_left]; [reflexivity|].
    assert (I : In id todo) by (apply SUB; left; auto). unfold add_series at 1.
    rewrite (nth_error_nth' times [] (LT id I)).
    change (hd [] ms) with d0. rewrite (in_files_ids d0 id _ (proj1 (H d0 id (or_introl eq_refl) I))).
    rewrite (rmap_all (fun d => load_sample d id) ms (fun d => file d id)).
    2:{ intros d Id. apply load_ok; [apply ND, Id|apply (H d id Id I)]. }
    cbn [rbind].
    rewrite (rmap_all _ (seq 0 n) (fun i => arr i id)).
    2:{ intros i Ii. apply in_seq in Ii. rewrite series_order by exact NA. unfold ms at 1. cbn [map].
        rewrite (series_ok ty n i (nth id times []) _ (file d0 id) (map (fun d => file d id) models) eq_refl).
        - unfold arr. unfold ms. cbn [map]. rewrite map_map. reflexivity.
        - lia.
        - intros f If. change (file d0 id :: map (fun d => file d id) models) with (map (fun d => file d id) ms) in If.
          apply in_map_iff in If as [d [<- Id]]. destruct (H d id Id I) as [_ [A B]]. split; [exact A|apply B; lia]. }
    cbn [rbind]. rewrite combine_map_seq, map_map. cbn [fst snd].
    apply (IH (fun x Ix => SUB x (or_intror Ix)) (fun i => dset (g i) (nat_str id) (arr i id))). }
  rewrite repeat_seq, (Z todo (fun _ I => I)).
  eexists. split; [reflexivity|]. split; [rewrite map_length, seq_length; reflexivity|]. intros i Ii id.
  set (G := fun i => fold_left (fun acc id => dset acc (nat_str id) (arr i id)) todo []).
  rewrite (nth_indep _ [] (G 0%nat)) by (rewrite map_length, seq_length; exact Ii).
  rewrite (map_nth G), seq_nth by exact Ii. unfold G. cbn [Nat.add].
  assert (W : forall l acc, (In id l -> dget (fold_left (fun acc id => dset acc (nat_str id) (arr i id)) l acc) (nat_str id) = Some (arr i id))
     /\ (~ In id l -> dget (fold_left (fun acc id => dset acc (nat_str id) (arr i id)) l acc) (nat_str id) = dget acc (nat_str id))).
  { induction l as [|x l IH]; intros acc; cbn [fold_left]; [split; [intros []|reflexivity]|].
    destruct (IH (dset acc (nat_str x) (arr i x))) as [A B]. split.
    - intros J. destruct (in_dec Nat.eq_dec id l) as [J'|J']; [auto|]. destruct J as [->|J]; [|contradiction].
      rewrite B by exact J'. apply dget_dset_same.
    - intros NJ. rewrite B by (intros J; apply NJ; right; exact J). apply dget_dset_other. intros E. apply nat_str_inj in E. apply NJ. left. exact E. }
  destruct (W todo []) as [A B]. split; [exact A|]. intros NI. rewrite B by exact NI. reflexivity.
Qed.

(** ** Model samples *)
Definition model_dir (k : nat) : string := ("model_" ++ nat_str k)%string.
Lemma last_digits_all s : forall cur found, all_digits s = true -> last_digits s cur found = if String.eqb (cur ++ s) "" then found else (cur ++ s)%string.
Proof.
  induction s as [|c s IH]; intros cur found A; cbn [last_digits].
  - rewrite app_nil_s. reflexivity.
  - cbn in A. apply andb_prop in A as [A1 A2]. rewrite A1, IH by exact A2. rewrite <- app_assoc_s. reflexivity.
Qed.
Lemma model_dir_number k : is_model_dir (model_dir k) = true /\ model_number (model_dir k) = k.
Proof.
  split.
  - unfold is_model_dir, model_dir. rewrite drop_prefix_app, (take_digits_all _ (nat_str_digits k)).
    rewrite (proj2 (String.eqb_neq _ _) (nat_str_nonempty k)). reflexivity.
  - unfold model_number, model_dir.
    change (last_digits ("model_" ++ nat_str k) "" "") with (last_digits (nat_str k) "" "").
    rewrite last_digits_all by apply nat_str_digits. cbn [append]. rewrite (proj2 (String.eqb_neq _ _) (nat_str_nonempty k)).
    rewrite int_of_nat_str. reflexivity.
Qed.
(** The model samples are used once each in the order of their numbers, if all
    directories are named after them. *)
Theorem model_samples_in_order : forall uq, NoDup (map fst uq) ->
  (forall e, In e uq -> is_model_dir (fst e) = true -> exists k, fst e = model_dir k) ->
  Permutation (model_samples uq) (filter (fun e => is_model_dir (fst e)) uq)
  /\ StronglySorted (fun a b => (model_number (fst a) < model_number (fst b))%nat) (model_samples uq).
Proof.
  intros uq ND H. unfold model_samples. set (l := filter (fun e => is_model_dir (fst e)) uq). split; [apply isort_perm|].
  pose proof (isort_sorted (fun e : string * pdir => Z.of_nat (model_number (fst e))) l) as S.
  assert (N : NoDup (map fst (isort (fun e : string * pdir => Z.of_nat (model_number (fst e))) l))).
  { apply (Permutation_NoDup (Permutation_map fst (Permutation_sym (isort_perm _ l)))).
    unfold l. clear - ND. induction uq as [|e uq IH]; cbn [filter map] in *; [constructor|]. inversion ND; subst.
    destruct (is_model_dir (fst e)); [|auto]. cbn [map]. constructor; [|auto]. intros I. apply H1. apply in_map_iff in I as [x [<- I]].
    apply filter_In in I. apply in_map, I. }
  assert (M : forall e, In e (isort (fun e : string * pdir => Z.of_nat (model_number (fst e))) l) -> exists k, fst e = model_dir k).
  { intros e I. apply (Permutation_in e (isort_perm _ l)) in I. apply filter_In in I. apply H; apply I. }
  revert S N M. generalize (isort (fun e : string * pdir => Z.of_nat (model_number (fst e))) l). clear. intros l S N M.
  induction S as [|a l S IH F]; constructor.
  - inversion N; subst. apply IH; [assumption|intros; apply M; right; auto].
  - rewrite Forall_forall in *. intros x I. specialize (F x I). cbn [map] in N. inversion N as [|? ? NI N']; subst.
    destruct (M a (or_introl eq_refl)) as [k Ek]. destruct (M x (or_intror I)) as [k' Ek'].
    assert (k <> k') by (intros ->; apply NI; rewrite Ek, <- Ek'; apply in_map, I).
    rewrite Ek, Ek' in *. rewrite (proj2 (model_dir_number k)), (proj2 (model_dir_number k')) in *. lia.
Qed.
Lemma isort_strict {A} (key : A -> Z) l l' : Permutation l l' -> StronglySorted (fun a b => (key a < key b)%Z) l' -> isort key l = l'.
Proof.
  intros P S.
  assert (N : NoDup (map key (isort key l))).
  { apply (Permutation_NoDup (Permutation_map key (Permutation_sym (Permutation_trans (isort_perm key l) P)))).
    clear - S. induction S as [|a l S IH F]; cbn [map]; constructor; [|exact IH]. intros I. apply in_map_iff in I as [x [E I]].
    rewrite Forall_forall in F. specialize (F x I). lia. }
  apply (sorted_perm_unique (fun a b => (key a < key b)%Z)); [lia| |exact S|exact (Permutation_trans (isort_perm key l) P)].
  pose proof (isort_sorted key l) as T. revert N T. generalize (isort key l). clear. intros l N T.
  induction T as [|a l T IH F]; constructor; cbn [map] in N; inversion N as [|? ? NI N']; subst; [auto|].
  rewrite Forall_forall in *. intros x I. specialize (F x I). assert (key a <> key x) by (intros E; apply NI; rewrite E; apply in_map, I). lia.
Qed.
(** In whatever order the directory is listed, the time series are those of the
    models 0, 1, ... in their order. *)
Theorem time_series_of_models : forall uq others (D : nat -> pdir) m dir times ty labels ids0,
  Permutation uq (others ++ map (fun k => (model_dir k, D k)) (seq 0 m)) -> (forall e, In e others -> is_model_dir (fst e) = false) ->
  build_time_series (Some uq) dir times ty labels ids0 = time_series_data (map D (seq 0 m)) times ty labels ids0.
Proof.
  intros uq others D m dir times ty labels ids0 P O. cbn [build_time_series].
  enough (E : model_samples uq = map (fun k => (model_dir k, D k)) (seq 0 m)) by (rewrite E, map_map; reflexivity).
  unfold model_samples.
  assert (PF : Permutation (filter (fun e => is_model_dir (fst e)) uq) (map (fun k => (model_dir k, D k)) (seq 0 m))).
  { eapply Permutation_trans; [apply (filter_perm _ _ _ P)|]. rewrite filter_app.
    assert (E1 : filter (fun e => is_model_dir (fst e)) others = []).
    { clear - O. induction others as [|e l IH]; [reflexivity|]. cbn [filter]. rewrite (O e (or_introl eq_refl)). apply IH. intros x I. apply O. right. exact I. }
    rewrite E1. cbn [app]. clear. generalize 0%nat. induction m as [|m IH]; intros k; cbn [seq map filter fst]; [constructor|].
    rewrite (proj1 (model_dir_number k)). apply perm_skip. apply IH. }
  apply isort_strict; [exact PF|]. clear. generalize 0%nat. induction m as [|m IH]; intros k; cbn [seq map]; constructor; [apply IH|].
  apply Forall_forall. intros e I. apply in_map_iff in I as [j [<- I]]. apply in_seq in I. cbn [fst].
  rewrite (proj2 (model_dir_number k)), (proj2 (model_dir_number j)). lia.
Qed.
(** A copy of a model directory counts as a further model sample. *)
Theorem model_copy_refuted : exists d uq, uq = [(model_dir 0, d); ("model_0_backup"%string, d)] /\ length (model_samples uq) = 2%nat.
Proof. exists []. eexists. split; reflexivity. Qed.

(** ** Concrete cases *)
Open Scope R_scope.
Definition case_file (a b : R) : pfile := {| f_out := [[a; b]; [0; 0]]; f_targets := Some [[1; 2]; [0; 1]]; f_order := None |}.
Definition case_dir (a : R) : pdir := [(pred_file 10, case_file a 5); ("summary.dat"%string, case_file 0 0); (pred_file 2, case_file a 7)].
Example arrays_case : build_prediction_data_arrays (Some (case_dir 3)) "stress_comps" ["11"; "22"]%string All
  = Ok [[(1, 3); (2, 5); (1, 3); (2, 7)]; [(0, 0); (1, 0); (0, 0); (1, 0)]].
Proof. reflexivity. Qed.
Example series_case : build_time_series (Some [(model_dir 10, case_dir 6); ("log"%string, []); (model_dir 2, case_dir 3)]) None [[]; []; [0; 1]]
    "stress_comps" ["11"]%string (Ids [2%nat])
  = Ok [[("2"%string, [[0; 1]; [1; 2]; [3; 7]; [6; 7]])]].
Proof. reflexivity. Qed.

Print Assumptions prediction_arrays_law.
Print Assumptions prediction_arrays_order.
Print Assumptions time_series_law.
Print Assumptions model_samples_in_order.
