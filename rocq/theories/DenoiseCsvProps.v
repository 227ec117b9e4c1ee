(** Properties of the denoising of displacement files (DenoiseCsvModel). *)
From Coq Require Import String Reals List Bool Arith ZArith Lia Lra Sorting.Permutation Sorting.Sorted.
From Verif Require Import Lib PyDict HybridModel HybridProps HistoryProps NoiseModel NoiseProps DenoiseModel DenoiseProps DenoiseCsvModel.
Import ListNotations.
Local Open Scope list_scope.

(** Specification: the history of a component (a column of the files) of a node. *)
Definition history (files : dict frame) (names : list string) (j c : nat) : list R :=
  map (fun x => match dget files x with Some d => cell d j c | None => 0%R end) names.
Definition displacement (c : nat) : bool := (Nat.leb 4 c && Nat.ltb c 7)%bool.

Lemma rows_nth T cols t : t < T -> nth t (rows T cols) [] = map (fun c => nth t c 0%R) cols.
Proof.
  intros H. unfold rows. set (F := fun t => map (fun c : list R => nth t c 0%R) cols). rewrite (nth_indep _ [] (F 0)) by now rewrite map_length, seq_length.
  now rewrite (map_nth F), seq_nth by exact H.
Qed.
Lemma zeros_nth {A} (l : list A) c : nth c (map (fun _ => 0%R) l) 0%R = 0%R.
Proof. revert c. induction l as [|a l IH]; intros [|c]; cbn; auto. Qed.
Lemma node_denoised m ker n hist out : kernel_of m = Some ker -> 1 <= length ker -> denoise_node m n hist = Ok out ->
  length out = length hist /\ forall t, t < length hist -> length (nth t out []) = 3 /\ forall c, c < 3 ->
    nth c (nth t out []) 0%R = (if Nat.eqb t 0 then 0 else nth t (Nat.iter n (filter1 ker) (map (fun r => nth c r 0) hist)) 0)%R.
Proof.
  intros K L H. unfold denoise_node in H. rewrite (denoise_features _ _ _ _ K) in H. cbn [rbind] in H.
  match type of H with Ok ?x = _ => assert (Q : out = x) by congruence end. clear H. subst out.
  set (cols := map (Nat.iter n (filter1 ker)) (columns hist)).
  assert (LR : length (rows (length hist) cols) = length hist) by (unfold rows; now rewrite map_length, seq_length).
  assert (N : forall t, t < length hist -> nth t (rows (length hist) cols) [] = map (fun c => nth t c 0%R) cols) by (intros; now apply rows_nth).
  destruct (rows (length hist) cols) as [|r0 rest] eqn:E; [split; [exact LR|intros t Ht; exfalso; cbn [length] in LR; lia]|].
  split; [exact LR|]. intros t Ht. specialize (N t Ht). unfold null_first.
  assert (C3 : length cols = 3) by (unfold cols, columns; now rewrite !map_length, seq_length).
  destruct t as [|t].
  - cbn [nth] in *. rewrite map_length, N, map_length. split; [exact C3|]. intros c Hc. cbn [Nat.eqb]. apply zeros_nth.
  - cbn [nth Nat.eqb] in *. rewrite N, map_length. split; [exact C3|]. intros c Hc. unfold cols, columns. rewrite !map_map.
    set (F := fun i => nth (S t) (Nat.iter n (filter1 ker) (map (fun r => nth i r 0%R) hist)) 0%R). rewrite (nth_indep _ 0%R (F 0)) by now rewrite map_length, seq_length.
    now rewrite (map_nth F), seq_nth by exact Hc.
Qed.
Lemma set_disps_row r v c : length r = 10 -> length v = 3 -> c < 10 -> length (set_disps r v) = 10 /\ nth c (set_disps r v) 0%R = if displacement c then nth (c - 4) v 0%R else nth c r 0%R.
Proof.
  intros Lr Lv Hc. do 11 (destruct r as [|? r]; try discriminate). do 4 (destruct v as [|? v]; try discriminate). split; [reflexivity|].
  do 10 (destruct c as [|c]; [reflexivity|]). lia.
Qed.
Lemma disps_nth r c : length r = 10 -> c < 3 -> nth c (disps r) 0%R = nth (4 + c) r 0%R.
Proof. intros Lr Hc. do 11 (destruct r as [|? r]; try discriminate). do 3 (destruct c as [|c]; [reflexivity|]). lia. Qed.
Lemma Forall2_nth_error {A B} (P : A -> B -> Prop) l r : Forall2 P l r -> forall t a, nth_error l t = Some a -> exists b, nth_error r t = Some b /\ P a b.
Proof. induction 1 as [|a b l r H F IH]; intros [|t] x E; cbn in *; try discriminate; [injection E as <-; eauto|eauto]. Qed.
Lemma Forall2_len {A B} (P : A -> B -> Prop) l r : Forall2 P l r -> length l = length r.
Proof. induction 1; cbn; congruence. Qed.
Lemma nth_error_combine {A B} (l : list A) (r : list B) t a b : nth_error l t = Some a -> nth_error r t = Some b -> nth_error (combine l r) t = Some (a, b).
Proof. revert r t. induction l as [|x l IH]; intros [|y r] [|t]; cbn; try discriminate; [congruence|auto]. Qed.
Lemma combine_nth' {A B} (l : list A) (r : list B) t a b : t < length l -> t < length r -> nth t (combine l r) (a, b) = (nth t l a, nth t r b).
Proof. revert r t. induction l as [|x l IH]; intros [|y r] [|t]; cbn; intros H1 H2; try lia; [reflexivity|apply IH; lia]. Qed.

(** Every file of a time step is written again under its name; only the
    displacements change. They vanish at the first step and are, afterwards, the
    repeatedly filtered history of the same node and component. *)
Theorem denoised_law m ker n files names out : kernel_of m = Some ker -> 1 <= length ker -> (forall x d, dget files x = Some d -> table d) ->
  denoised_files m n files names = Ok out ->
  map fst out = names /\ forall t x, nth_error names t = Some x -> exists d d', dget files x = Some d /\ nth_error out t = Some (x, d') /\
    table d' /\ length (fr_rows d') = length (fr_rows d) /\ forall j c, j < length (fr_rows d) -> c < 10 ->
    cell d' j c = if displacement c then (if Nat.eqb t 0 then 0%R else nth t (Nat.iter n (filter1 ker) (history files names j c)) 0%R) else cell d j c.
Proof.
  intros K L T H. unfold denoised_files in H. destruct (rmap (load_frame files) names) as [frames|] eqn:E; [|discriminate]. cbn [rbind] in H.
  pose proof (rmap_ok _ _ _ E) as F. destruct (stackable frames) eqn:S; [|discriminate]. cbn [negb] in H.
  set (nn := match frames with [] => 0 | d :: _ => length (fr_rows d) end) in *.
  destruct (rmap _ (seq 0 nn)) as [hists|] eqn:G; [|discriminate]. cbn [rbind] in H. injection H as <-. pose proof (rmap_ok _ _ _ G) as FG.
  assert (LF : length names = length frames) by (now apply Forall2_len in F).
  assert (SH : forall d, In d frames -> length (fr_rows d) = nn).
  { intros d I. unfold nn. destruct frames as [|d0 rest]; [contradiction|]. destruct I as [<-|I]; [reflexivity|]. cbn in S. rewrite forallb_forall in S. now apply Nat.eqb_eq, S. }
  assert (LH : length hists = nn) by (apply Forall2_len in FG; now rewrite seq_length in FG).
  assert (LD : forall x d, load_frame files x = Ok d -> dget files x = Some d /\ table d).
  { intros x d Q. unfold load_frame in Q. destruct (dget files x) as [e|] eqn:De; [|discriminate]. destruct (Nat.eqb (fr_cols e) 10); [|discriminate]. injection Q as <-. split; [reflexivity|]. exact (T _ _ De). }
  split.
  - rewrite map_map. cbn. clear - LF. rewrite <- (map_id names) at 2. revert frames LF. generalize 0. induction names as [|x names IH]; intros s [|d frames] LF; cbn in *; try discriminate; [reflexivity|]. f_equal. apply IH. lia.
  - intros t x Hx. destruct (Forall2_nth_error _ _ _ F t x Hx) as (d & Hd & Q). apply LD in Q as [Q Td]. exists d, (denoised_frame d t hists). split; [exact Q|].
    assert (Lt : t < length frames) by (apply nth_error_Some; congruence).
    split.
    { rewrite nth_error_map. erewrite nth_error_combine; [|exact Hx|eapply nth_error_combine; [|exact Hd]]. 2: { rewrite nth_error_nth' with (d := 0) by now rewrite seq_length. now rewrite seq_nth. } reflexivity. }
    assert (Ld : length (fr_rows d) = nn) by (apply SH; now apply nth_error_In in Hd).
    assert (R : forall j, j < nn -> nth j (fr_rows (denoised_frame d t hists)) [] = set_disps (nth j (fr_rows d) []) (nth t (nth j hists []) [])).
    { intros j Hj. cbn [denoised_frame fr_rows]. set (f := fun p : list R * list (list R) => set_disps (fst p) (nth t (snd p) [])).
      rewrite (nth_indep _ [] (f ([], []))) by (rewrite map_length, combine_length; lia). rewrite map_nth, combine_nth' by lia. reflexivity. }
    assert (W : forall j, j < nn -> length (nth j (fr_rows d) []) = 10) by (intros j Hj; apply Td, nth_In; lia).
    assert (N : forall j, j < nn -> length (nth t (nth j hists []) []) = 3 /\ forall c, c < 3 -> nth c (nth t (nth j hists []) []) 0%R =
       (if Nat.eqb t 0 then 0%R else nth t (Nat.iter n (filter1 ker) (history files names j (4 + c))) 0%R)).
    { intros j Hj. destruct (Forall2_nth_error _ _ _ FG j j) as (h & Hh & Dh). { rewrite nth_error_nth' with (d := 0) by now rewrite seq_length. now rewrite seq_nth. }
      rewrite (nth_error_nth _ _ [] Hh). destruct (node_denoised _ _ _ _ _ K L Dh) as [_ V]. unfold node_hist in V. rewrite map_length in V. destruct (V t Lt) as [V1 V2]. split; [exact V1|].
      intros c Hc. rewrite (V2 c Hc), map_map. replace (history files names j (4 + c)) with (map (fun x0 => nth c (disps (nth j (fr_rows x0) [])) 0%R) frames); [reflexivity|].
      unfold history. assert (X : forall l r, Forall2 (fun a b => load_frame files a = Ok b) l r -> (forall b, In b r -> In b frames) -> map (fun x0 => nth c (disps (nth j (fr_rows x0) [])) 0%R) r = map (fun x0 => match dget files x0 with Some d0 => cell d0 j (4 + c) | None => 0%R end) l).
      { induction 1 as [|a b l r Hab F' IH]; intros Sub; cbn; [reflexivity|]. f_equal; [|apply IH; intros; apply Sub; now right]. apply LD in Hab as [-> Tb]. unfold cell. apply disps_nth; [|exact Hc]. apply Tb, nth_In. rewrite (SH b); [exact Hj|]. apply Sub. now left. }
      now apply X. }
    assert (LR : length (fr_rows (denoised_frame d t hists)) = nn) by (cbn; rewrite map_length, combine_length; lia).
    split; [split; [cbn; apply Td|]|].
    + intros r I. apply (In_nth _ _ []) in I as (j & Hj & <-). rewrite LR in Hj. rewrite R by exact Hj. apply (set_disps_row _ _ 0); [now apply W|now apply N|lia].
    + split; [lia|]. intros j c Hj Hc. rewrite Ld in Hj. unfold cell. rewrite R by exact Hj. destruct (set_disps_row (nth j (fr_rows d) []) (nth t (nth j hists []) []) c (W j Hj) (proj1 (N j Hj)) Hc) as [_ ->].
      destruct (displacement c) eqn:D; [|reflexivity]. unfold displacement in D. apply andb_true_iff in D as [D1 D2]. apply Nat.leb_le in D1. apply Nat.ltb_lt in D2.
      rewrite (proj2 (N j Hj) (c - 4)) by lia. now replace (4 + (c - 4)) with c by lia.
Qed.
(** It succeeds exactly for frames of ten columns with the same nodes, at least one. *)
Theorem denoised_iff m ker n files names : kernel_of m = Some ker ->
  ((exists out, denoised_files m n files names = Ok out) <->
   names <> [] /\ exists n_node, forall x, In x names -> exists d, dget files x = Some d /\ fr_cols d = 10 /\ length (fr_rows d) = n_node).
Proof.
  intros K. split.
  - intros [out H]. unfold denoised_files in H. destruct (rmap (load_frame files) names) as [frames|] eqn:E; [|discriminate]. cbn [rbind] in H. pose proof (rmap_ok _ _ _ E) as F.
    destruct (stackable frames) eqn:S; [|discriminate]. destruct frames as [|d0 rest]; [discriminate|]. split; [intros ->; inversion F|]. exists (length (fr_rows d0)). intros x I.
    apply In_nth_error in I as [t I]. destruct (Forall2_nth_error _ _ _ F t x I) as (d & Hd & Q). exists d. unfold load_frame in Q. destruct (dget files x) as [e|]; [|discriminate]. destruct (Nat.eqb_spec (fr_cols e) 10) as [C|]; [|discriminate]. injection Q as <-.
    split; [reflexivity|]. split; [exact C|]. apply nth_error_In in Hd. destruct Hd as [<-|Hd]; [reflexivity|]. cbn in S. rewrite forallb_forall in S. now apply Nat.eqb_eq, S.
  - intros [N (nn & A)]. unfold denoised_files.
    assert (E : exists frames, rmap (load_frame files) names = Ok frames /\ (forall d, In d frames -> length (fr_rows d) = nn) /\ length frames = length names).
    { clear N. induction names as [|x names IH]; [exists []; split; [reflexivity|split; [intros ? []|reflexivity]]|]. destruct (A x (or_introl eq_refl)) as (d & D & C & Ln). destruct IH as (fs & Qf & B & Lf); [intros; apply A; now right|].
      exists (d :: fs). cbn [rmap]. unfold load_frame at 1. rewrite D, C. cbn [Nat.eqb negb rbind]. rewrite Qf. cbn. split; [reflexivity|]. split; [intros e [<-|I]; auto|lia]. }
    destruct E as (frames & -> & B & Lf). cbn [rbind]. destruct frames as [|d0 rest]; [destruct names; [congruence|discriminate]|].
    replace (stackable (d0 :: rest)) with true. 2: { symmetry. cbn. apply forallb_forall. intros e I. apply Nat.eqb_eq. rewrite (B e), (B d0); [reflexivity|now left|now right]. }
    cbn [negb]. rewrite (rmap_all _ _ (fun j => null_first (rows (length (node_hist (d0 :: rest) j)) (map (Nat.iter n (filter1 ker)) (columns (node_hist (d0 :: rest) j)))))).
    + cbn [rbind]. eauto.
    + intros j _. unfold denoise_node. rewrite (denoise_features _ _ _ _ K). reflexivity.
Qed.
(** The whole script: the data directory stays, the files are those of the time
    steps in their order. *)
Theorem denoise_csv_law tstep files m n name : name <> ""%string -> name <> "."%string ->
  exists names, denoise_csv tstep (Some files) (DenoiseParams (Some m) (Some n) (Some name)) = (Some files, denoised_files m n files names) /\
    Permutation names (filter (fun x => match tstep x with Some _ => true | None => false end) (dkeys files)) /\
    StronglySorted (fun a b => (step_of tstep a <= step_of tstep b)%Z) names.
Proof.
  intros N1 N2. exists (step_files tstep (dkeys files)). split; [|apply step_files_spec]. unfold denoise_csv. cbn [dp_method dp_cycles dp_dirname].
  destruct (String.eqb_spec name ""); [congruence|]. destruct (String.eqb_spec name "."); [congruence|]. reflexivity.
Qed.
(** Whatever the order of the directory, if the steps are distinct. *)
Lemma dget_in {V} (d : dict V) k v : NoDup (dkeys d) -> (dget d k = Some v <-> In (k, v) d).
Proof.
  induction d as [|[a b] d IH]; intros N; cbn; [split; [discriminate|tauto]|]. inversion N as [|? ? N1 N2]; subst. change (gget String.eqb d k) with (dget d k) in *. destruct (String.eqb_spec k a) as [->|D].
  - split; [intros Q; injection Q as <-; now left|]. intros [Q|I]; [now injection Q as <-|]. exfalso. apply N1. apply in_map_iff. exists (a, v). now split.
  - rewrite (IH N2). split; [tauto|]. intros [Q|I]; [congruence|exact I].
Qed.
Lemma dget_perm {V} (d d' : dict V) k : NoDup (dkeys d) -> Permutation d d' -> dget d k = dget d' k.
Proof.
  intros N P. assert (N' : NoDup (dkeys d')) by (eapply Permutation_NoDup; [apply (Permutation_map fst P)|exact N]).
  destruct (dget d k) as [v|] eqn:E.
  - symmetry. apply dget_in; [exact N'|]. eapply Permutation_in; [exact P|]. now apply dget_in.
  - destruct (dget d' k) as [v|] eqn:E'; [|reflexivity]. apply dget_in in E'; [|exact N']. apply (Permutation_in _ (Permutation_sym P)) in E'. apply dget_in in E'; [congruence|exact N].
Qed.
Lemma filter_perm {A} (f : A -> bool) l l' : Permutation l l' -> Permutation (filter f l) (filter f l').
Proof.
  induction 1 as [|x l l' P IH|x y l|l1 l2 l3 P1 IH1 P2 IH2]; cbn; [constructor|destruct (f x); [now constructor|exact IH]| |now transitivity (filter f l2)].
  destruct (f x), (f y); try reflexivity. apply perm_swap.
Qed.
Lemma strictly {A} (key : A -> Z) l : NoDup l -> (forall x y, In x l -> In y l -> key x = key y -> x = y) -> StronglySorted (fun a b => (key a <= key b)%Z) l -> StronglySorted (fun a b => (key a < key b)%Z) l.
Proof.
  intros N D S. induction S as [|a l S IH F]; constructor.
  - apply IH; [now inversion N|]. intros x y Ix Iy. apply D; now right.
  - rewrite Forall_forall in *. intros y I. specialize (F y I). assert (key a <> key y); [|lia]. intros Q. apply D in Q; [|now left|now right]. subst. now inversion N.
Qed.
Theorem denoise_any_order tstep files files' p : NoDup (dkeys files) -> (forall x y k, In x (dkeys files) -> In y (dkeys files) -> tstep x = Some k -> tstep y = Some k -> x = y) ->
  Permutation files files' -> snd (denoise_csv tstep (Some files) p) = snd (denoise_csv tstep (Some files') p).
Proof.
  intros N D P. unfold denoise_csv. destruct (dp_method p) as [m|]; [|reflexivity]. destruct (dp_cycles p) as [n|]; [|reflexivity]. destruct (dp_dirname p) as [name|]; [|reflexivity].
  destruct (_ || _)%bool; [reflexivity|]. cbn [snd].
  assert (E : step_files tstep (dkeys files) = step_files tstep (dkeys files')).
  { set (ok := fun x => match tstep x with Some _ => true | None => false end).
    destruct (step_files_spec tstep (dkeys files')) as [P' S']. unfold step_files at 1. apply isort_unique.
    - transitivity (filter ok (dkeys files')); [|symmetry; exact P']. apply filter_perm. exact (Permutation_map fst P).
    - apply strictly; [| |exact S'].
      + eapply Permutation_NoDup; [symmetry; exact P'|]. apply NoDup_filter. eapply Permutation_NoDup; [exact (Permutation_map fst P)|exact N].
      + assert (In' : forall x, In x (step_files tstep (dkeys files')) -> In x (dkeys files) /\ exists k, tstep x = Some k).
        { intros x I. apply (Permutation_in _ P') in I. apply filter_In in I as [I J]. split; [eapply Permutation_in; [symmetry; exact (Permutation_map fst P)|exact I]|]. destruct (tstep x); [eauto|discriminate]. }
        intros x y Ix Iy Q. apply In' in Ix as [Ix [k Kx]]. apply In' in Iy as [Iy [k' Ky]]. unfold step_of in Q. rewrite Kx, Ky in Q. apply Nat2Z.inj in Q. subst k'. exact (D x y k Ix Iy Kx Ky). }
  rewrite E. unfold denoised_files. f_equal.
  assert (X : forall l, rmap (load_frame files) l = rmap (load_frame files') l); [|now rewrite X].
  induction l as [|x l IH]; cbn; [reflexivity|]. rewrite IH. unfold load_frame. now rewrite (dget_perm files files' x N P).
Qed.
(** Moving averages stay, after the first step, between the bounds of the noisy
    displacements, and keep affine stretches away from their ends. *)
Theorem denoised_range w n files names out t x d' j c lo hi : 1 <= w -> (forall x d, dget files x = Some d -> table d) ->
  denoised_files (Moving_average w) n files names = Ok out -> nth_error out t = Some (x, d') -> 0 < t -> j < length (fr_rows d') -> 4 <= c < 7 ->
  (forall v, In v (history files names j c) -> (lo <= v <= hi)%R) -> (lo <= cell d' j c <= hi)%R.
Proof.
  intros Hw T H Ht Pt Hj Hc B. destruct (denoised_law (Moving_average w) (mean_kernel w) n files names out eq_refl ltac:(rewrite mean_len; exact Hw) T H) as [Nm V].
  assert (Hx : nth_error names t = Some x) by (rewrite <- Nm, nth_error_map, Ht; reflexivity). destruct (V t x Hx) as (d & e & _ & He & _ & Lr & C). rewrite Ht in He. injection He as <-.
  rewrite (C j c) by lia. unfold displacement. replace (Nat.leb 4 c && Nat.ltb c 7)%bool with true by (symmetry; apply andb_true_iff; split; [apply Nat.leb_le|apply Nat.ltb_lt]; lia).
  replace (Nat.eqb t 0) with false by (symmetry; apply Nat.eqb_neq; lia).
  apply (moving_average_range w n [history files names j c] _ lo hi Hw (denoise_features (Moving_average w) _ n _ eq_refl) 0 B). cbn [map nth]. apply nth_In.
  rewrite denoise_iter_len by (rewrite mean_len; exact Hw). unfold history. rewrite map_length. apply nth_error_Some. congruence.
Qed.
Theorem denoised_affine h n files names out t x d' j c a b lo hi : (forall x d, dget files x = Some d -> table d) ->
  denoised_files (Moving_average (2 * h + 1)) n files names = Ok out -> nth_error out t = Some (x, d') -> 0 < t -> j < length (fr_rows d') -> 4 <= c < 7 ->
  hi < length names -> (forall i, lo <= i <= hi -> nth i (history files names j c) 0%R = (a + b * INR i)%R) ->
  lo + n * h <= t -> t + n * h <= hi -> cell d' j c = (a + b * INR t)%R.
Proof.
  intros T H Ht Pt Hj Hc Hhi A T1 T2. destruct (denoised_law (Moving_average (2 * h + 1)) (mean_kernel (2 * h + 1)) n files names out eq_refl ltac:(rewrite mean_len; lia) T H) as [Nm V].
  assert (Hx : nth_error names t = Some x) by (rewrite <- Nm, nth_error_map, Ht; reflexivity). destruct (V t x Hx) as (d & e & _ & He & _ & Lr & C). rewrite Ht in He. injection He as <-.
  rewrite (C j c) by lia. unfold displacement. replace (Nat.leb 4 c && Nat.ltb c 7)%bool with true by (symmetry; apply andb_true_iff; split; [apply Nat.leb_le|apply Nat.ltb_lt]; lia).
  replace (Nat.eqb t 0) with false by (symmetry; apply Nat.eqb_neq; lia).
  apply (moving_average_affine h n [history files names j c] [Nat.iter n (filter1 (mean_kernel (2 * h + 1))) (history files names j c)] 0 a b lo hi); cbn [nth length]; try lia; try assumption.
  - exact (denoise_features (Moving_average (2 * h + 1)) _ n _ eq_refl).
  - unfold history. now rewrite map_length.
Qed.
(** A displacement without noise, linear in time, does not reach its last value:
    the window is filled with copies of it. *)
Theorem last_displacement_refuted (a b : R) T : b <> 0%R -> 2 <= T ->
  nth (T - 1) (filter1 (mean_kernel 3) (map (fun i => a + b * INR i)%R (seq 0 T))) 0%R = (a + b * INR (T - 1) - b / 3)%R.
Proof.
  intros Hb HT. rewrite filter1_value by (rewrite ?mean_len, ?map_length, ?seq_length; lia). unfold window_sum. rewrite mean_len, map_length, seq_length.
  assert (N : forall i, i < T -> nth i (map (fun i => a + b * INR i)%R (seq 0 T)) 0%R = (a + b * INR i)%R).
  { intros i Hi. set (f := fun i => (a + b * INR i)%R). rewrite (nth_indep _ 0%R (f 0)) by now rewrite map_length, seq_length. now rewrite map_nth, seq_nth. }
  cbn [rsum mean_kernel repeat nth Nat.div Nat.divmod fst snd INR]. change (3 / 2) with 1.
  replace (Nat.min (T - 1) (T - 1 + 0 - 1)) with (T - 2) by lia. replace (Nat.min (T - 1) (T - 1 + 1 - 1)) with (T - 1) by lia. replace (Nat.min (T - 1) (T - 1 + 2 - 1)) with (T - 1) by lia.
  rewrite !N by lia. replace (T - 1) with (S (T - 2)) by lia. rewrite S_INR. field.
Qed.
(** The initial displacement is lost, with any filter. *)
Theorem initial_displacement_refuted m ker n files x d j c : kernel_of m = Some ker -> 1 <= length ker -> table d -> fr_cols d = 10 -> j < length (fr_rows d) -> 4 <= c < 7 -> cell d j c <> 0%R ->
  dget files x = Some d -> (forall x d, dget files x = Some d -> table d) -> exists d', denoised_files m n files [x] = Ok [(x, d')] /\ cell d' j c = 0%R.
Proof.
  intros K L Td Cd Hj Hc Nz Hx T. destruct (proj2 (denoised_iff m ker n files [x] K)) as [out H].
  { split; [discriminate|]. exists (length (fr_rows d)). intros y [<-|[]]. now exists d. }
  destruct (denoised_law m ker n files [x] out K L T H) as [Nm V]. destruct (V 0 x eq_refl) as (e & d' & He & Hd & _ & _ & C). rewrite Hx in He. injection He as <-. exists d'.
  destruct out as [|[y f] [|? ?]]; cbn in Nm, Hd; try discriminate. injection Hd as -> ->. split; [exact H|]. rewrite (C j c) by lia. unfold displacement.
  replace (Nat.leb 4 c && Nat.ltb c 7)%bool with true by (symmetry; apply andb_true_iff; split; [apply Nat.leb_le|apply Nat.ltb_lt]; lia). reflexivity.
Qed.
(** With an empty name, or a dot, the data are removed. *)
Theorem denoise_keeps_data_refuted tstep files m n name : name = ""%string \/ name = "."%string ->
  denoise_csv tstep (Some files) (DenoiseParams (Some m) (Some n) (Some name)) = (Some [], Err ValueError).
Proof. intros [->| ->]; reflexivity. Qed.
(** The default parameters are refused, as is an unknown method. *)
Theorem default_denoise_refused tstep files : denoise_csv tstep (Some files) (DenoiseParams None None None) = (Some files, Err KeyError).
Proof. reflexivity. Qed.
Theorem unknown_denoise_refused n files names : (exists x d, In x names /\ dget files x = Some d /\ fr_rows d <> []) -> exists e, denoised_files Unknown_method n files names = Err e.
Proof.
  intros (x & d & I & D & Nz). unfold denoised_files. destruct (rmap (load_frame files) names) as [frames|] eqn:E; cbn [rbind]; [|eauto]. pose proof (rmap_ok _ _ _ E) as F.
  destruct (stackable frames) eqn:S; cbn [negb]; [|eauto]. destruct frames as [|d0 rest]; [discriminate|].
  apply In_nth_error in I as [t I]. destruct (Forall2_nth_error _ _ _ F t x I) as (d1 & Hd & Q). unfold load_frame in Q. rewrite D in Q. destruct (negb _); [discriminate|]. injection Q as <-.
  assert (Ln : length (fr_rows d) = length (fr_rows d0)). { apply nth_error_In in Hd. destruct Hd as [<-|Hd]; [reflexivity|]. cbn in S. rewrite forallb_forall in S. now apply Nat.eqb_eq, S. }
  destruct (length (fr_rows d0)) as [|k] eqn:L0; [destruct (fr_rows d); [congruence|discriminate]|]. cbn. eauto.
Qed.
(** Two simulations in one directory are taken for one history. *)
Theorem two_simulations_refuted : exists tstep files d, tstep "a_tstep_1.csv"%string = Some 1 /\ tstep "b_tstep_1.csv"%string = Some 1 /\
  step_files tstep (dkeys (V := frame) files) = ["a_tstep_0.csv"; "b_tstep_0.csv"; "a_tstep_1.csv"; "b_tstep_1.csv"]%string /\
  snd (denoise_csv tstep (Some files) (DenoiseParams (Some (Moving_average 1)) (Some 0) (Some "denoised"%string))) = Ok d /\
  exists f, dget d "b_tstep_0.csv"%string = Some f /\ cell f 0 4 = 7%R.
Proof.
  exists (fun x => if String.eqb x "a_tstep_1.csv" || String.eqb x "b_tstep_1.csv" then Some 1 else Some 0)%bool.
  exists [("a_tstep_0.csv"%string, Frame 10 [repeat 0%R 10]); ("b_tstep_0.csv"%string, Frame 10 [repeat 7%R 10]); ("a_tstep_1.csv"%string, Frame 10 [repeat 1%R 10]); ("b_tstep_1.csv"%string, Frame 10 [repeat 8%R 10])].
  eexists. split; [reflexivity|]. split; [reflexivity|]. split; [reflexivity|]. split; [reflexivity|]. eexists. split; reflexivity.
Qed.
(** The figure shows the node of the label, and for the label 0 the last one. *)
Theorem plotted_node_law n_node label i : (1 <= label)%Z -> (plotted_node n_node label = Ok i <-> (Z.of_nat i = label - 1)%Z /\ i < n_node).
Proof.
  intros H. unfold plotted_node. destruct (0 <=? label - 1)%Z eqn:A; [|apply Z.leb_gt in A; lia]. apply Z.leb_le in A. cbn [andb]. replace (label - 1 <? 0)%Z with false by (symmetry; apply Z.ltb_ge; lia). cbn [andb].
  destruct (label - 1 <? Z.of_nat n_node)%Z eqn:B; [apply Z.ltb_lt in B|apply Z.ltb_ge in B].
  - split; [intros Q; injection Q as <-; rewrite Z2Nat.id by lia; lia|]. intros [Q _]. f_equal. lia.
  - split; [discriminate|]. lia.
Qed.
Theorem plotted_label_zero_refuted n_node : 0 < n_node -> plotted_node n_node 0 = Ok (n_node - 1).
Proof.
  intros H. unfold plotted_node. change (0 - 1)%Z with (-1)%Z. cbn [Z.leb Z.compare andb Z.ltb]. replace (- Z.of_nat n_node <=? -1)%Z with true by (symmetry; apply Z.leb_le; lia). f_equal. lia.
Qed.

(** ** A case: two nodes, three steps out of order in the directory *)
Example ex_denoise : exists d0 d1 d2,
  denoise_csv (fun x => if String.eqb x "s_tstep_0.csv" then Some 0 else if String.eqb x "s_tstep_1.csv" then Some 1 else if String.eqb x "s_tstep_10.csv" then Some 10 else None)
    (Some [("s_tstep_10.csv"%string, Frame 10 [repeat 3%R 10]); ("notes.txt"%string, Frame 0 []); ("s_tstep_0.csv"%string, Frame 10 [repeat 6%R 10]); ("s_tstep_1.csv"%string, Frame 10 [repeat 0%R 10])])
    (DenoiseParams (Some (Moving_average 3)) (Some 1) (Some "denoised"%string)) =
  (Some [("s_tstep_10.csv"%string, Frame 10 [repeat 3%R 10]); ("notes.txt"%string, Frame 0 []); ("s_tstep_0.csv"%string, Frame 10 [repeat 6%R 10]); ("s_tstep_1.csv"%string, Frame 10 [repeat 0%R 10])],
   Ok [("s_tstep_0.csv"%string, d0); ("s_tstep_1.csv"%string, d1); ("s_tstep_10.csv"%string, d2)]) /\
  cell d0 0 4 = 0%R /\ cell d0 0 3 = 6%R /\ cell d1 0 5 = 3%R /\ cell d2 0 6 = 2%R.
Proof. do 3 eexists. split; [reflexivity|]. unfold cell. cbn. repeat split; lra. Qed.

Print Assumptions denoised_law.
Print Assumptions denoised_iff.
Print Assumptions denoise_csv_law.
Print Assumptions denoise_any_order.
Print Assumptions denoised_range.
Print Assumptions denoised_affine.
Print Assumptions last_displacement_refuted.
Print Assumptions initial_displacement_refuted.
Print Assumptions denoise_keeps_data_refuted.
Print Assumptions default_denoise_refused.
Print Assumptions unknown_denoise_refused.
Print Assumptions two_simulations_refuted.
Print Assumptions plotted_node_law.
Print Assumptions plotted_label_zero_refuted.
