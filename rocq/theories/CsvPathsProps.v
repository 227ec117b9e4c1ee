(** Strain paths written to tables and data sets read from tables (C122). *)
From Coq Require Import String Ascii Reals List Arith Bool ZArith Lia Lra Permutation Sorted.
From Verif Require Import Lib PyStr PyDict MatrixModel HardeningModel HybridModel HybridProps NoiseModel ResponseModel ResponseSetProps FileFindModel FileFindProps CsvPathsModel.
From Verif Require NoiseProps HistoryModel HistoryProps.
Import ListNotations.
Local Open Scope string_scope.
Local Open Scope list_scope.

(** ** Export *)
(** The columns of the components of the strain: TIME E11 E22 E33 E12 E23 E13 *)
Definition strain_col (n_dim j : nat) : nat := if Nat.eqb n_dim 2 then nth j [1; 2; 4]%nat 0%nat else S j.
Definition path_ok (n_dim n_time : nat) (p : list R * list (list R)) : Prop :=
  length (fst p) = n_time /\ length (snd p) = n_time /\ forall e, In e (snd p) -> length e = (if Nat.eqb n_dim 2 then 3%nat else 6%nat).
(** A table of a path: its times, its strain components in their columns, and
    zeros in all others. *)
Definition table_of (n_dim n_time : nat) (p : list R * list (list R)) (d : frame) : Prop :=
  fr_cols d = 13%nat /\ length (fr_rows d) = n_time /\
  forall t, (t < n_time)%nat -> let r := nth t (fr_rows d) [] in
    length r = 13%nat /\ nth 0 r 0%R = nth t (fst p) 0%R /\
    (forall j, (j < (if Nat.eqb n_dim 2 then 3 else 6))%nat -> nth (strain_col n_dim j) r 0%R = nth j (nth t (snd p) []) 0%R) /\
    (forall c, (1 <= c)%nat -> (forall j, (j < (if Nat.eqb n_dim 2 then 3 else 6))%nat -> c <> strain_col n_dim j) -> nth c r 0%R = 0%R).

Lemma export_frame_ok n_dim n_time p : path_ok n_dim n_time p <-> exists d, export_frame n_dim n_time p = Ok d.
Proof.
  unfold path_ok, export_frame, n_strain. split.
  - intros (A & B & C). rewrite A, Nat.eqb_refl. cbn [negb]. rewrite B, Nat.eqb_refl. cbn [andb].
    replace (forallb _ (snd p)) with true; [cbn [negb]; eexists; reflexivity|]. symmetry. apply forallb_forall. intros e I. apply Nat.eqb_eq. auto.
  - intros (d & E). destruct (Nat.eqb_spec (length (fst p)) n_time) as [A|]; [|discriminate]. cbn [negb] in E.
    destruct (Nat.eqb_spec (length (snd p)) n_time) as [B|]; [|discriminate]. cbn [andb] in E.
    destruct (forallb _ (snd p)) eqn:F; [|discriminate]. split; [exact A|]. split; [exact B|]. intros e I. rewrite forallb_forall in F. now apply Nat.eqb_eq, F.
Qed.
Lemma nth_repeat0 c n : nth c (repeat 0%R n) 0%R = 0%R.
Proof. revert c. induction n as [|n IH]; intros [|c]; cbn; auto. Qed.
Theorem export_frame_law : forall n_dim n_time p d, export_frame n_dim n_time p = Ok d -> path_ok n_dim n_time p /\ table_of n_dim n_time p d.
Proof.
  intros n_dim n_time p d E. assert (K : path_ok n_dim n_time p) by (apply export_frame_ok; eauto). split; [exact K|].
  destruct K as (A & B & C). unfold export_frame, n_strain in E. rewrite A, B, !Nat.eqb_refl in E. cbn [negb andb] in E.
  destruct (forallb _ (snd p)); [|discriminate]. cbn [negb] in E. injection E as <-. unfold table_of. cbn [fr_cols fr_rows].
  split; [reflexivity|]. split; [rewrite map_length, combine_length; lia|]. intros t Ht.
  rewrite (nth_indep _ [] (export_row n_dim 0 [])) by (rewrite map_length, combine_length; lia).
  change (export_row n_dim 0 []) with ((fun te : R * list R => export_row n_dim (fst te) (snd te)) (0%R, [])).
  rewrite map_nth. rewrite combine_nth by congruence. cbn [fst snd].
  assert (L : length (nth t (snd p) []) = if (n_dim =? 2)%nat then 3%nat else 6%nat) by (apply C, nth_In; lia).
  set (e := nth t (snd p) []) in *. set (x := nth t (fst p) 0%R). clearbody e x. unfold export_row, strain_col.
  destruct (n_dim =? 2)%nat.
  - destruct e as [|a [|b [|c [|? ?]]]]; try discriminate L. cbn [length app repeat nth]. split; [reflexivity|]. split; [reflexivity|]. split.
    + intros j Hj. destruct j as [|[|[|j]]]; [reflexivity..|lia].
    + intros c' Hc N. destruct c' as [|[|[|[|[|c']]]]]; try lia; [exfalso; apply (N 0%nat); [lia|reflexivity]|exfalso; apply (N 1%nat); [lia|reflexivity]|reflexivity|exfalso; apply (N 2%nat); [lia|reflexivity]|].
      do 9 (destruct c' as [|c']; [reflexivity|]). reflexivity.
  - cbn [length nth]. rewrite app_length, repeat_length, L. split; [reflexivity|]. split; [reflexivity|]. split.
    + intros j Hj. rewrite app_nth1 by lia. reflexivity.
    + intros c' Hc N. destruct c' as [|c']; [lia|]. cbn [nth]. destruct (Nat.lt_ge_cases c' 6) as [H|H]; [exfalso; apply (N c' H); reflexivity|].
      rewrite app_nth2 by lia. apply nth_repeat0.
Qed.

(** ** Names *)
Lemma csv_name_form base i : csv_name base i = (base ++ "_path" ++ String "_" (nat_str i ++ ".csv"))%string.
Proof. reflexivity. Qed.
Lemma csv_name_inj base i j : csv_name base i = csv_name base j -> i = j.
Proof.
  intros E. assert (P := f_equal HistoryModel.path_key E). rewrite !csv_name_form in P.
  rewrite <- !app_assoc_str in P. rewrite !HistoryProps.path_key_name in P by reflexivity. injection P. lia.
Qed.
Lemma last_int_name a i b : HistoryModel.no_digit b = true -> last_int (a ++ String "_" (nat_str i ++ b)) = Some i.
Proof. intros H. unfold last_int. rewrite HistoryProps.last_number_name by exact H. now rewrite int_of_nat_str. Qed.
(** The names taken for response files: anything may follow the extension. *)
Theorem response_pattern_iff : forall base s, search (response_pattern base) s = true <->
  exists d e, d <> "" /\ all_digits d = true /\ s = (base ++ "_" ++ d ++ ".csv" ++ e)%string.
Proof.
  intros base s. rewrite search_iff. unfold response_pattern. cbn [p_body p_start p_end]. split.
  - intros (a & b & c & -> & L & HA & _). rewrite HA by reflexivity. apply lang_cat in L as (u & v & -> & Lu & Lv). apply lang_lit in Lu. subst u.
    apply lang_cat in Lv as (d & w & -> & Ld & Lw). apply lang_lit in Lw. subst w. apply lang_digits in Ld as [N D]. exists d, c. split; [exact N|]. split; [exact D|].
    rewrite !app_assoc_str. reflexivity.
  - intros (d & e & N & D & ->). exists "", ((base ++ "_") ++ d ++ ".csv")%string, e. split; [rewrite !app_assoc_str; reflexivity|]. split; [|split; [reflexivity|discriminate]].
    apply lang_cat. eexists; eexists. split; [reflexivity|]. split; [now apply lang_lit|]. apply lang_cat. eexists; eexists. split; [reflexivity|].
    split; [apply lang_digits; auto|now apply lang_lit].
Qed.
Theorem exported_name_matches : forall base i, search (response_pattern (base ++ "_path")) (csv_name base i) = true.
Proof.
  intros base i. apply response_pattern_iff. exists (nat_str i), "". split; [apply nat_str_nonempty|]. split; [apply nat_str_digits|].
  unfold csv_name. rewrite !app_assoc_str. reflexivity.
Qed.

(** ** Exported directories *)
Lemma dset_new {V} (d : dict V) k v : ~ In k (dkeys d) -> dset d k v = d ++ [(k, v)].
Proof.
  unfold dset, dkeys. induction d as [|[k' v'] d IH]; cbn; intros N; [reflexivity|].
  destruct (String.eqb_spec k k') as [<-|]; [exfalso; auto|]. rewrite IH by tauto. reflexivity.
Qed.
Lemma export_paths_app n_dim n_time base : forall paths i files out, (forall k, In k (dkeys files) -> exists j, (j < i)%nat /\ k = csv_name base j) ->
  export_paths n_dim n_time base i paths files = Ok out -> exists ds, out = files ++ ds /\
    map fst ds = map (csv_name base) (seq i (length paths)) /\ Forall2 (fun p f => export_frame n_dim n_time p = Ok (snd f)) paths ds.
Proof.
  induction paths as [|p paths IH]; intros i files out W E; cbn [export_paths] in E.
  - injection E as <-. exists []. rewrite app_nil_r. split; [reflexivity|]. split; [reflexivity|constructor].
  - destruct (export_frame n_dim n_time p) as [d|] eqn:F; cbn [rbind] in E; [|discriminate].
    rewrite dset_new in E. 2: { intros I. destruct (W _ I) as (j & L & Q). apply csv_name_inj in Q. lia. }
    apply IH in E as (ds & -> & N & G).
    + exists ((csv_name base i, d) :: ds). rewrite <- app_assoc. split; [reflexivity|]. split; [|now constructor].
      cbn [map fst length seq]. now rewrite N.
    + unfold dkeys, gkeys. intros k I. rewrite map_app in I. apply in_app_or in I as [I|[<-|[]]]; [|exists i; split; [lia|reflexivity]].
      destruct (W k I) as (j & L & Q). exists j. split; [lia|exact Q].
Qed.
(** The files of the exported paths: one for each path, in order, named by its
    number, with its table. *)
Theorem exported_files : forall n_dim n_time base paths,
  (forall files, export_paths n_dim n_time base 0 paths [] = Ok files ->
     map fst files = map (csv_name base) (seq 0 (length paths)) /\ Forall2 (fun p f => path_ok n_dim n_time p /\ table_of n_dim n_time p (snd f)) paths files) /\
  ((forall p, In p paths -> path_ok n_dim n_time p) -> exists files, export_paths n_dim n_time base 0 paths [] = Ok files).
Proof.
  intros n_dim n_time base paths. split.
  - intros files E. apply export_paths_app in E as (ds & -> & N & F); [|intros k []]. split; [exact N|]. clear N.
    induction F; constructor; auto. now apply export_frame_law.
  - intros H. assert (G : forall i files, exists out, export_paths n_dim n_time base i paths files = Ok out).
    { induction paths as [|p paths IH]; intros i files; cbn [export_paths]; [eauto|].
      destruct (proj1 (export_frame_ok n_dim n_time p) (H p (or_introl eq_refl))) as (d & ->). cbn [rbind]. apply IH. intros; apply H; now right. }
    apply G.
Qed.

(** ** Reading back *)
(** The table after the stresses were computed: the first seven columns are the
    exported ones, and some stress of the problem is not zero. *)
Definition completed (n_dim : nat) (f g : string * frame) : Prop :=
  fst g = fst f /\ fr_cols (snd g) = 13%nat /\ length (fr_rows (snd g)) = length (fr_rows (snd f)) /\
  (forall t c, (c < 7)%nat -> nth c (nth t (fr_rows (snd g)) []) 0%R = nth c (nth t (fr_rows (snd f)) []) 0%R) /\
  exists p, reads (comp_cols n_dim 7) (snd g) p /\ stressed p.
Definition same_path (n_dim : nat) (cos : list comp) (p : list R * list (list R)) (g : string * frame) (s : sample) : Prop :=
  sm_order s = cos /\ sm_time s = fst p /\ sm_strain s = snd p /\ reads (comp_cols n_dim 7) (snd g) (sm_stress s).

Lemma read_completed n_dim cos n_time p f g : path_ok n_dim n_time p -> table_of n_dim n_time p (snd f) -> completed n_dim f g ->
  exists s, read_sample n_dim cos (snd g) = Ok (Some s) /\ same_path n_dim cos p g s.
Proof.
  intros (A & B & C) (W & L & T) (_ & W' & L' & F & q & RQ & SQ). unfold read_sample. rewrite W'. cbn [Nat.eqb negb].
  pose proof (columns_reads (comp_cols n_dim 7) (snd g)) as RS. rewrite (reads_unique _ _ _ _ RQ RS), <- stress_cols_spec in SQ. apply null_path_spec in SQ. cbn [sm_stress]. rewrite SQ.
  eexists. split; [reflexivity|]. unfold same_path. cbn [sm_order sm_time sm_strain sm_stress]. split; [reflexivity|]. split; [|split].
  - apply (nth_ext _ _ 0%R 0%R); [rewrite map_length; lia|]. intros t Ht. rewrite map_length in Ht.
    rewrite (nth_indep _ 0%R ((fun r => nth 0 r 0%R) [])) by (rewrite map_length; lia). rewrite (map_nth (fun r => nth 0 r 0%R)).
    rewrite F by lia. apply T. lia.
  - pose proof (columns_reads (strain_cols n_dim) (snd g)) as (RL & R). apply (nth_ext _ _ [] []); [lia|]. intros t Ht.
    destruct (R t Ht) as (R1 & R2). assert (Ht' : (t < n_time)%nat) by lia. destruct (T t Ht') as (_ & _ & T2 & _).
    assert (LE : length (nth t (snd p) []) = if (n_dim =? 2)%nat then 3%nat else 6%nat) by (apply C, nth_In; lia).
    assert (LS : length (strain_cols n_dim) = if (n_dim =? 2)%nat then 3%nat else 6%nat) by (unfold strain_cols; destruct (n_dim =? 2)%nat; reflexivity).
    apply (nth_ext _ _ 0%R 0%R); [congruence|]. intros j Hj. unfold NoiseProps.at_ in R2. rewrite R2 by lia.
    assert (Hj' : (j < (if (n_dim =? 2)%nat then 3 else 6))%nat) by lia.
    rewrite <- T2 by exact Hj'. assert (Q : nth j (strain_cols n_dim) 0%nat = strain_col n_dim j).
    { unfold strain_cols, strain_col. destruct (n_dim =? 2)%nat; [reflexivity|]. rewrite seq_nth by lia. reflexivity. }
    rewrite Q. apply F. unfold strain_col. destruct (n_dim =? 2)%nat; [|lia]. destruct j as [|[|[|j]]]; cbn; lia.
  - rewrite stress_cols_spec. exact RS.
Qed.

Definition in_dir (dir : string) (f : string * frame) : string * frame := ((dir ++ "/" ++ fst f)%string, snd f).
Lemma in_dir_int dir base i d : last_int (fst (in_dir dir (csv_name base i, d))) = Some i.
Proof.
  unfold in_dir. cbn [fst]. rewrite csv_name_form.
  replace (dir ++ "/" ++ base ++ "_path" ++ String "_" (nat_str i ++ ".csv"))%string with ((dir ++ "/" ++ base ++ "_path") ++ String "_" (nat_str i ++ ".csv"))%string
    by (rewrite !app_assoc_str; reflexivity).
  now apply last_int_name.
Qed.
Lemma keys_sorted dir base : forall (l : list (string * frame)) i, map fst l = map (csv_name base) (seq i (length l)) ->
  StronglySorted (fun a b => (file_key last_int a < file_key last_int b)%Z) (map (in_dir dir) l).
Proof.
  induction l as [|[n d] l IH]; intros i E; cbn [map length seq] in *; constructor; injection E as -> E.
  - now apply (IH (S i)).
  - apply Forall_forall. intros x I. apply in_map_iff in I as ([m e] & <- & I).
    assert (J : In m (map fst l)) by (apply in_map_iff; exists (m, e); auto). rewrite E in J. apply in_map_iff in J as (j & <- & J). apply in_seq in J.
    unfold file_key. rewrite !in_dir_int. lia.
Qed.
Lemma filter_none {A} (f : A -> bool) l : (forall x, In x l -> f x = false) -> filter f l = [].
Proof. induction l as [|x l IH]; intros H; [reflexivity|]. cbn. rewrite (H x (or_introl eq_refl)). apply IH. intros; apply H; now right. Qed.
Lemma filter_full {A} (f : A -> bool) l : (forall x, In x l -> f x = true) -> filter f l = l.
Proof. induction l as [|x l IH]; intros H; [reflexivity|]. cbn. rewrite (H x (or_introl eq_refl)). f_equal. apply IH. intros; apply H; now right. Qed.

(** The paths of the exported files come back, in the order of their numbers and
    whatever the order and the other entries of the directory, once each table
    has its stresses. *)
Theorem completed_paths_read : forall n_dim n_time cos dir base paths files tables others listing,
  export_paths n_dim n_time base 0 paths [] = Ok files -> paths <> [] ->
  Forall2 (completed n_dim) files tables -> Permutation listing (tables ++ others) ->
  (forall f, In f others -> search (response_pattern (base ++ "_path")) (fst f) = false) ->
  exists ds, read_csv n_dim cos dir (base ++ "_path") (Some listing) = Ok (ds, dataset_name "ss_paths_dataset" (length paths) true) /\
    length ds = length paths /\
    forall i, (i < length paths)%nat -> exists g s, nth_error tables i = Some g /\ nth_error ds i = Some s /\ same_path n_dim cos (nth i paths ([], [])) g s.
Proof.
  intros n_dim n_time cos dir base paths files tables others listing E NE CF P O.
  destruct (exported_files n_dim n_time base paths) as [X _]. destruct (X files E) as (N & F). clear X E.
  assert (NT : map fst tables = map fst files).
  { clear - CF. induction CF as [|f g fs gs H _ IH]; [reflexivity|]. cbn. destruct H as (-> & _). now f_equal. }
  assert (LF : length files = length paths) by (apply (f_equal (@length _)) in N; now rewrite !map_length, seq_length in N).
  assert (LT : length tables = length paths) by (apply (f_equal (@length _)) in NT; rewrite !map_length in NT; lia).
  assert (SRT : isort (file_key last_int) (response_files dir (base ++ "_path") listing) = map (in_dir dir) tables).
  { apply HistoryProps.isort_unique.
    - unfold response_files. apply (Permutation_map (in_dir dir)). etransitivity; [apply HistoryProps.perm_filter, P|]. rewrite filter_app.
      rewrite (filter_none _ others) by exact O. rewrite app_nil_r. rewrite filter_full; [reflexivity|].
      intros x I. assert (J : In (fst x) (map fst tables)) by now apply in_map. rewrite NT, N in J. apply in_map_iff in J as (i & <- & _). apply exported_name_matches.
    - apply (keys_sorted dir base tables 0). rewrite NT, N, LT. reflexivity. }
  assert (SRT2 : isort (file_key last_int) (map (in_dir dir) tables) = map (in_dir dir) tables).
  { apply HistoryProps.isort_unique; [reflexivity|]. apply (keys_sorted dir base tables 0). rewrite NT, N, LT. reflexivity. }
  assert (RD : exists ds, rmap (fun f => read_sample n_dim cos (snd f)) (map (in_dir dir) tables) = Ok (map Some ds) /\ length ds = length paths /\
    forall i, (i < length paths)%nat -> exists g s, nth_error tables i = Some g /\ nth_error ds i = Some s /\ same_path n_dim cos (nth i paths ([], [])) g s).
  { clear - F CF. revert tables CF. induction F as [|p f ps fs (K & T) _ IH]; intros tables CF; inversion CF as [|? g ? gs C CF']; subst.
    - exists []. split; [reflexivity|]. split; [reflexivity|]. cbn. intros; lia.
    - destruct (IH gs CF') as (ds & R & L & H). destruct (read_completed n_dim cos n_time p f g K T C) as (s & RS & SP).
      exists (s :: ds). cbn [map rmap]. change (snd (in_dir dir g)) with (snd g). rewrite RS. cbn [rbind]. rewrite R. cbn [rbind]. split; [reflexivity|].
      split; [cbn; lia|]. intros [|i] Hi; [exists g, s; auto|]. cbn [length] in Hi. cbn [nth_error nth]. apply H. lia. }
  destruct RD as (ds & R & L & H). exists ds. split; [|split; [exact L|exact H]].
  unfold read_csv. rewrite SRT. unfold gen_from_csv. cbn [negb]. rewrite SRT2.
  replace (forallb _ (map (in_dir dir) tables)) with true.
  2: { symmetry. apply forallb_forall. intros x I. apply in_map_iff in I as ([n d] & <- & I).
       assert (J : In n (map fst tables)) by (apply in_map_iff; exists (n, d); auto). rewrite NT, N in J. apply in_map_iff in J as (i & <- & _). now rewrite in_dir_int. }
  cbn [negb]. rewrite R. cbn [rbind]. rewrite map_length, LT.
  destruct (Nat.eqb_spec (length paths) 0) as [Z|NZ]; [destruct paths; [contradiction|discriminate]|].
  replace (flat_map _ (map Some ds)) with ds by (clear; induction ds as [|s ds IH]; [reflexivity|]; cbn; now f_equal).
  unfold average_time. rewrite L. destruct (Nat.eqb_spec (length paths) 0) as [|_]; [contradiction|]. cbn [rbind]. now rewrite L.
Qed.

(** ** What fails *)
(** The exported files themselves have no stress: no data set can be read from
    them. *)
Theorem exported_alone_refuted : forall n_dim n_time cos dir base paths files,
  export_paths n_dim n_time base 0 paths [] = Ok files -> read_csv n_dim cos dir (base ++ "_path") (Some files) = Err ZeroDivisionError.
Proof.
  intros n_dim n_time cos dir base paths files E. destruct (exported_files n_dim n_time base paths) as [X _]. destruct (X files E) as (N & F). clear X E.
  unfold read_csv. rewrite csv_no_stress_refuted; [reflexivity|].
  intros g I. apply (Permutation_in _ (isort_perm _ _)) in I. unfold response_files in I. apply in_map_iff in I as (f & <- & I). apply filter_In in I as [I _].
  cbn [snd fst]. assert (G : exists p, path_ok n_dim n_time p /\ table_of n_dim n_time p (snd f)).
  { clear - F I. induction F as [|p f' ps fs H _ IH]; [destruct I|]. destruct I as [<-|I]; eauto. }
  destruct G as (p & _ & (W & L & T)). split; [exact W|]. split.
  - intros q (RL & R) (r & x & Ir & Ix & B). cbn [snd] in RL, R. destruct (In_nth _ _ [] Ir) as (t & Ht & <-). destruct (In_nth _ _ 0%R Ix) as (j & Hj & <-).
    destruct (R t Ht) as (R1 & R2). unfold NoiseProps.at_ in R2. rewrite R2 in B by lia. destruct (T t ltac:(lia)) as (_ & _ & _ & Z).
    assert (C : (7 <= nth j (comp_cols n_dim 7) 0%nat)%nat).
    { rewrite R1 in Hj. unfold comp_cols in *. destruct (n_dim =? 2)%nat; cbn [map length seq] in *; do 6 (destruct j as [|j]; [cbn; lia|]); cbn in Hj; lia. }
    rewrite Z in B.
    + rewrite Rabs_R0 in B. lra.
    + lia.
    + intros k Hk Q. unfold strain_col in Q. destruct (n_dim =? 2)%nat; [|lia]. destruct k as [|[|[|k]]]; cbn in Q; lia.
  - assert (J : In (fst f) (map fst files)) by now apply in_map. rewrite N in J. apply in_map_iff in J as (i & Q & _). exists i.
    destruct f as [n d]. cbn [fst] in *. subst n. exact (in_dir_int dir base i d).
Qed.
(** A backup copy of a table, with any further extension, is read as well. *)
Theorem backup_table_refuted : forall base i e, search (response_pattern (base ++ "_path")) (csv_name base i ++ e) = true.
Proof.
  intros base i e. apply response_pattern_iff. exists (nat_str i), e. split; [apply nat_str_nonempty|]. split; [apply nat_str_digits|].
  unfold csv_name. rewrite !app_assoc_str. reflexivity.
Qed.
Definition ex_e : list (list R) := [[0;0;0;0;0;0]%R; [1;0;0;2;0;0]%R].
Definition ex_paths : list (list R * list (list R)) := [([0;1]%R, ex_e); ([0;2]%R, ex_e); ([0;3]%R, ex_e)].
Definition ex_row (t s : R) (e : list R) : list R := t :: e ++ [s;0;0;0;0;0]%R.
Definition ex_filled (t s : R) : frame := Frame 13 [ex_row 0 0 [0;0;0;0;0;0]%R; ex_row t s [1;0;0;2;0;0]%R].
Lemma small0 : rleb (Rabs 0) (1 / 100000000) = true.
Proof. rewrite Rabs_R0. unfold HardeningModel.rleb. destruct (Rle_dec 0 (1 / 100000000)); [reflexivity|lra]. Qed.
Lemma large5 : rleb (Rabs 5) (1 / 100000000) = false.
Proof. rewrite Rabs_right by lra. unfold HardeningModel.rleb. destruct (Rle_dec 5 (1 / 100000000)); [lra|reflexivity]. Qed.
Theorem backup_read_twice_refuted : exists ds, read_csv 3 order_sym_3d "d" "c_path" (Some [("c_path_0.csv", ex_filled 1 5); ("c_path_0.csv.bak", ex_filled 1 5)]) = Ok (ds, "ss_paths_dataset_n2.pkl") /\ length ds = 2%nat.
Proof.
  unfold read_csv, gen_from_csv, read_sample, null_path. cbn. rewrite ?small0, ?large5. cbn. eexists. split; reflexivity.
Qed.
(** A table without stresses is left out, and the later samples move up: sample
    1 of the data set is path 2. *)
Theorem sample_number_refuted : exists ds, read_csv 3 order_sym_3d "d" "c_path"
    (Some [("c_path_0.csv", ex_filled 1 5); ("c_path_1.csv", ex_filled 2 0); ("c_path_2.csv", ex_filled 3 5)]) = Ok (ds, "ss_paths_dataset_n2.pkl") /\
  map sm_time ds = [[0; 1]; [0; 3]]%R.
Proof.
  unfold read_csv, gen_from_csv, read_sample, null_path. cbn. rewrite ?small0, ?large5. cbn. eexists. split; reflexivity.
Qed.
(** A missing directory *)
Theorem read_csv_missing : forall n_dim cos dir base, read_csv n_dim cos dir base None = Err RuntimeError.
Proof. reflexivity. Qed.

(** Ten paths and more: path 10 follows path 9 and not path 1. *)
Example ex_order : isort (file_key last_int) (response_files "d" "c_path" [("c_path_10.csv", ex_filled 1 5); ("notes.txt", ex_filled 1 5); ("c_path_9.csv", ex_filled 1 5); ("c_path_1.csv", ex_filled 1 5)])
  = [("d/c_path_1.csv", ex_filled 1 5); ("d/c_path_9.csv", ex_filled 1 5); ("d/c_path_10.csv", ex_filled 1 5)].
Proof. vm_compute. reflexivity. Qed.
Example ex_completed : exists files, export_paths 3 2 "c" 0 ex_paths [] = Ok files /\
  Forall2 (completed 3) files [("c_path_0.csv", ex_filled 1 5); ("c_path_1.csv", ex_filled 2 5); ("c_path_2.csv", ex_filled 3 5)].
Proof.
  eexists. split; [reflexivity|].
  assert (G : forall n t, completed 3 (n, Frame 13 [export_row 3 0 [0;0;0;0;0;0]%R; export_row 3 t [1;0;0;2;0;0]%R]) (n, ex_filled t 5)).
  { intros n t. split; [reflexivity|]. split; [reflexivity|]. split; [reflexivity|]. split.
    - intros [|[|[|k]]] c Hc; do 7 (destruct c as [|c]; [reflexivity|]); lia.
    - eexists. split; [apply columns_reads|]. exists [5;0;0;0;0;0]%R, 5%R. split; [cbn; auto|]. split; [cbn; auto|]. rewrite Rabs_right by lra. lra. }
  repeat constructor; apply G.
Qed.
Print Assumptions completed_paths_read.
Print Assumptions exported_alone_refuted.
Print Assumptions export_frame_law.
Print Assumptions response_pattern_iff.
