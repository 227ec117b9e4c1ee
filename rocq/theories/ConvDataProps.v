(** Conversion of data set files between formats (C120). *)
From Coq Require Import String Ascii List Bool Arith Lia.
From Verif Require Import Lib PyStr PyDict FileFindModel FileFindProps ConvDataModel.
Import ListNotations.
Local Open Scope string_scope.
Local Open Scope list_scope.

Lemma path_eqb_iff a b : path_eqb a b = true <-> a = b.
Proof.
  unfold path_eqb. rewrite andb_true_iff, !String.eqb_eq. destruct a as [a1 a2], b as [b1 b2]. cbn. split; [intros [-> ->]; reflexivity|].
  intros E. injection E as -> ->. auto.
Qed.
Lemma path_dec (a b : path) : {a = b} + {a <> b}.
Proof. destruct (path_eqb a b) eqn:E; [left|right; intros C; apply path_eqb_iff in C; congruence]. now apply path_eqb_iff. Qed.

(** ** Names *)
Lemma digits_split a b s t : all_digits a = true -> all_digits b = true -> (a ++ String "." s)%string = (b ++ String "." t)%string -> a = b /\ s = t.
Proof.
  revert b. induction a as [|c a IH]; intros [|d b]; cbn; intros Ha Hb E.
  - injection E as E. auto.
  - injection E as E1 E2. subst d. discriminate Hb.
  - injection E as E1 E2. subst c. discriminate Ha.
  - injection E as E1 E2. subst d. apply andb_prop in Ha as [_ Ha]. apply andb_prop in Hb as [_ Hb]. destruct (IH b Ha Hb E2) as [-> ->]. auto.
Qed.
Lemma dataset_name_inj base n m : dataset_name base n true = dataset_name base m true -> n = m.
Proof.
  unfold dataset_name. rewrite !app_assoc_str. intros E. apply app_inj_s in E. cbn in E. injection E as E.
  destruct (digits_split _ _ _ _ (nat_str_digits n) (nat_str_digits m) E) as [Q _]. now apply nat_str_inj.
Qed.
Lemma sample_name_inj i j : sample_name i = sample_name j -> i = j.
Proof.
  unfold sample_name. intros E. apply app_inj_s in E. destruct (digits_split _ _ _ _ (nat_str_digits i) (nat_str_digits j) E) as [Q _]. now apply nat_str_inj.
Qed.
Lemma sample_not_dataset i n : sample_name i <> dataset_name basename n true.
Proof. unfold sample_name, dataset_name, basename. cbn. intros E. discriminate E. Qed.

(** The names taken for data sets: the prefix, digits and the extension, possibly
    with one newline at the end. *)
Theorem converted_names s : search conv_pattern s = true <->
  exists d e, d <> "" /\ all_digits d = true /\ (e = "" \/ e = String newline "") /\ s = (basename ++ "_n" ++ d ++ ".pkl" ++ e)%string.
Proof.
  rewrite search_iff. unfold conv_pattern. cbn [p_start p_end p_body]. split.
  - intros (a & b & e & -> & Hb & Ha & He). rewrite (Ha eq_refl). apply lang_cat in Hb as (u & v & -> & H1 & H2). apply lang_lit in H1. subst u.
    apply lang_cat in H2 as (d & w & -> & H3 & H4). apply lang_digits in H3 as [N D]. apply lang_lit in H4. subst w. exists d, e.
    split; [exact N|]. split; [exact D|]. split; [now apply He|]. sapp.
  - intros (d & e & N & D & He & ->). exists "", (basename ++ "_n" ++ d ++ ".pkl")%string, e. split; [sapp|]. split; [|split; auto].
    apply lang_cat. exists (basename ++ "_n")%string, (d ++ ".pkl")%string. split; [sapp|]. split; [now apply lang_lit|].
    apply lang_cat. exists d, ".pkl". split; [reflexivity|]. split; [now apply lang_digits|now apply lang_lit].
Qed.
Theorem saved_is_source n : search conv_pattern (dataset_name basename n true) = true.
Proof.
  apply converted_names. exists (nat_str n), "". split; [apply nat_str_nonempty|]. split; [apply nat_str_digits|]. split; [now left|].
  unfold dataset_name. sapp.
Qed.
(** The lists written by the script are never read back by it. *)
Theorem list_not_source n : search conv_pattern (dataset_name "ss_paths_list" n true) = false.
Proof.
  destruct (search conv_pattern (dataset_name "ss_paths_list" n true)) eqn:E; [|reflexivity]. apply converted_names in E as (d & e & _ & _ & _ & Q).
  unfold dataset_name, basename in Q. cbn in Q. discriminate Q.
Qed.

Section Conv.
Context {S : Type}.
Implicit Types fs : fsys S.

(** ** Specification: the samples held in a data set file *)
Definition holds fs (p : path) (l : list S) : Prop :=
  exists c, fs p = Some c /\
  match c with
  | CList k | CMem k => k = l
  | CSubset parent idx => Forall2 (fun i s => nth_error parent i = Some s) idx l
  | CFiles _ ps => Forall2 (fun q s => fs q = Some (CSample s)) ps l
  | CSample _ | COther => False
  end.

Lemma write_same fs p c : write fs p c p = Some c.
Proof. unfold write. now rewrite (proj2 (path_eqb_iff p p) eq_refl). Qed.
Lemma write_other fs p c q : q <> p -> write fs p c q = fs q.
Proof. intros N. unfold write. destruct (path_eqb q p) eqn:E; [apply path_eqb_iff in E; contradiction|reflexivity]. Qed.

Lemma rmap_iff {A B} (f : A -> res B) l r : rmap f l = Ok r <-> Forall2 (fun a b => f a = Ok b) l r.
Proof.
  split; [apply rmap_ok|]. intros H. induction H as [|a b l r E H IH]; cbn; [reflexivity|]. now rewrite E, IH.
Qed.
Lemma F2_iff {A B} (P Q : A -> B -> Prop) l r : (forall a b, P a b <-> Q a b) -> Forall2 P l r <-> Forall2 Q l r.
Proof. intros E. split; intros H; induction H as [|a b l r H1 H2 IH]; constructor; auto; now apply E. Qed.
Lemma F2_len {A B} (P : A -> B -> Prop) l r : Forall2 P l r -> length l = length r.
Proof. intros H. induction H; cbn; congruence. Qed.
Theorem samples_read fs p l : holds fs p l <-> exists c, fs p = Some c /\ samples_of fs c = Ok l.
Proof.
  unfold holds. split; intros (c & E & H); exists c; (split; [exact E|]); destruct c as [k|k|parent idx|d ps|s|]; cbn [samples_of] in *.
  - now subst.
  - now subst.
  - apply rmap_iff. revert H. apply F2_iff. intros i s. unfold sample_at. destruct (nth_error parent i); split; congruence.
  - apply rmap_iff. revert H. apply F2_iff. intros q s. unfold sample_in. destruct (fs q) as [[]|]; split; congruence.
  - contradiction.
  - contradiction.
  - congruence.
  - congruence.
  - apply rmap_iff in H. revert H. apply F2_iff. intros i s. unfold sample_at. destruct (nth_error parent i); split; congruence.
  - apply rmap_iff in H. revert H. apply F2_iff. intros q s. unfold sample_in. destruct (fs q) as [[]|]; split; congruence.
  - discriminate.
  - discriminate.
Qed.
Lemma holds_fun fs p l k : holds fs p l -> holds fs p k -> l = k.
Proof. rewrite !samples_read. intros (c & E & H) (d & F & K). congruence. Qed.

(** Data sets are not changed by writing files that are neither theirs nor one of
    the samples. *)
Lemma holds_kept fs fs' p l : fs' p = fs p -> (forall q s, fs q = Some (CSample s) -> fs' q = Some (CSample s)) -> holds fs p l -> holds fs' p l.
Proof.
  intros E K (c & F & H). exists c. split; [congruence|]. destruct c; try contradiction; auto. clear F. induction H as [|q s ps l H1 H2 IH]; constructor; auto.
Qed.

(** ** Conversion to in-memory data sets *)
Definition well_named fs (walk : list path) : Prop :=
  forall p, In p walk -> search conv_pattern (snd p) = true -> exists l, holds fs p l /\ snd p = dataset_name basename (length l) true.

Lemma convert_memory_one fs p l : holds fs p l -> snd p = dataset_name basename (length l) true ->
  convert_one ToMemory fs p = Ok (write fs p (CMem l)).
Proof.
  intros H N. apply samples_read in H as (c & E & F). unfold convert_one. rewrite E, F. cbn [rbind]. unfold save. rewrite <- N. now destruct p.
Qed.
Theorem converted_to_memory fs walk : well_named fs walk ->
  exists fs', convert_dataset ToMemory fs walk = Ok fs' /\
    (forall p l, In p walk -> search conv_pattern (snd p) = true -> holds fs p l -> fs' p = Some (CMem l)) /\
    (forall q, ~ (In q walk /\ search conv_pattern (snd q) = true) -> fs' q = fs q).
Proof.
  intros W. assert (W': forall p, In p (sources walk) -> exists l, holds fs p l /\ snd p = dataset_name basename (length l) true).
  { intros p Hp. apply filter_In in Hp as [H1 H2]. auto. }
  assert (G: exists fs', convert_dataset ToMemory fs walk = Ok fs' /\
    (forall p l, In p (sources walk) -> holds fs p l -> fs' p = Some (CMem l)) /\ (forall q, ~ In q (sources walk) -> fs' q = fs q)).
  { unfold convert_dataset. revert W'. generalize (sources walk). clear W walk. intros srcs. revert fs. induction srcs as [|p srcs IH]; intros fs W.
    - exists fs. split; [reflexivity|]. split; [intros p l []|auto].
    - destruct (W p (or_introl eq_refl)) as (l & H & N). cbn [convert_all]. rewrite (convert_memory_one fs p l H N). cbn [rbind].
      assert (K: forall q k, holds fs q k -> holds (write fs p (CMem l)) q k).
      { intros q k Hq. destruct (path_dec q p) as [->|Nq].
        - rewrite (holds_fun _ _ _ _ Hq H). exists (CMem l). split; [apply write_same|reflexivity].
        - apply holds_kept with (fs := fs); [now apply write_other| |exact Hq]. intros r s Er. rewrite write_other; [exact Er|]. intros ->.
          destruct H as (c & F & G). rewrite Er in F. injection F as <-. exact G. }
      destruct (IH (write fs p (CMem l))) as (fs' & E & H1 & H2).
      { intros q Hq. destruct (W q (or_intror Hq)) as (k & Hk & Nk). exists k. split; [now apply K|exact Nk]. }
      exists fs'. split; [exact E|]. split.
      + intros q k [<-|Hq] Hk; [|apply H1; auto]. rewrite (holds_fun _ _ _ _ Hk H). destruct (in_dec path_dec p srcs) as [I|I].
        * apply H1; [exact I|]. exists (CMem l). split; [apply write_same|reflexivity].
        * rewrite (H2 p I). apply write_same.
      + intros q Nq. rewrite H2 by (intros I; apply Nq; now right). apply write_other. intros ->. apply Nq. now left. }
  destruct G as (fs' & E & H1 & H2). exists fs'. split; [exact E|]. split.
  - intros p l Hp Hs. apply H1. now apply filter_In.
  - intros q Nq. apply H2. intros I. apply Nq. now apply filter_In in I.
Qed.
(** A second conversion changes nothing. *)
Theorem converted_again fs walk fs' : well_named fs walk -> convert_dataset ToMemory fs walk = Ok fs' ->
  exists fs2, convert_dataset ToMemory fs' walk = Ok fs2 /\ forall q, fs2 q = fs' q.
Proof.
  intros W E. destruct (converted_to_memory fs walk W) as (fs1 & E1 & H1 & H2). rewrite E in E1. injection E1 as <-.
  assert (W2: well_named fs' walk).
  { intros p Hp Hs. destruct (W p Hp Hs) as (l & Hl & N). exists l. split; [|exact N]. exists (CMem l). split; [now apply H1|reflexivity]. }
  destruct (converted_to_memory fs' walk W2) as (fs2 & E2 & K1 & K2). exists fs2. split; [exact E2|]. intros q.
  destruct (in_dec path_dec q walk) as [I|I]; [|apply K2; tauto]. destruct (search conv_pattern (snd q)) eqn:Es; [|apply K2; intros [_ C]; congruence].
  destruct (W q I Es) as (l & Hl & N). rewrite (H1 q l I Es Hl). apply K1; auto. exists (CMem l). split; [now apply H1|reflexivity].
Qed.
(** Refuted: conversion keeps the samples of every file. A file whose name does
    not give its number of samples is converted into the file that has this
    number, which loses its own samples, whatever the order of the files. *)
Theorem misnamed_dataset_refuted fs d k (l1 l2 : list S) : k <> length l1 -> length l2 = length l1 -> l1 <> l2 ->
  let p1 := (d, dataset_name basename k true) in
  let p2 := (d, dataset_name basename (length l1) true) in
  fs p1 = Some (CMem l1) -> fs p2 = Some (CMem l2) ->
  forall walk, walk = [p1; p2] \/ walk = [p2; p1] ->
  exists fs', convert_dataset ToMemory fs walk = Ok fs' /\ fs' p2 = Some (CMem l1) /\ forall q, q <> p2 -> fs' q = fs q.
Proof.
  intros Nk El Nl p1 p2 F1 F2 walk W. assert (N: p1 <> p2) by (intros C; apply (f_equal snd) in C; apply dataset_name_inj in C; contradiction).
  assert (S1: search conv_pattern (snd p1) = true) by apply saved_is_source. assert (S2: search conv_pattern (snd p2) = true) by apply saved_is_source.
  assert (C1: forall g : fsys S, g p1 = Some (CMem l1) -> convert_one ToMemory g p1 = Ok (write g p2 (CMem l1))).
  { intros g Eg. unfold convert_one. rewrite Eg. reflexivity. }
  assert (C2: forall (g : fsys S) l, length l = length l1 -> g p2 = Some (CMem l) -> convert_one ToMemory g p2 = Ok (write g p2 (CMem l))).
  { intros g l Q Eg. unfold convert_one. rewrite Eg. cbn. unfold save. now rewrite Q. }
  unfold convert_dataset. destruct W as [-> | ->]; unfold sources; cbn [filter]; rewrite S1, S2; cbn [convert_all].
  - rewrite (C1 fs F1). cbn [rbind]. rewrite (C2 _ l1 eq_refl (write_same _ _ _)). cbn [rbind]. eexists. split; [reflexivity|].
    split; [apply write_same|]. intros q Nq. now rewrite !write_other by exact Nq.
  - rewrite (C2 fs l2 El F2). cbn [rbind]. rewrite C1 by (rewrite write_other by exact N; exact F1). cbn [rbind]. eexists. split; [reflexivity|].
    split; [apply write_same|]. intros q Nq. now rewrite !write_other by exact Nq.
Qed.

(** ** Conversion to lists *)
Definition list_path (p : path) (l : list S) : path := (fst p, dataset_name "ss_paths_list" (length l) true).
Theorem converted_to_lists fs walk : well_named fs walk ->
  (forall d n s, fs (d, dataset_name "ss_paths_list" n true) <> Some (CSample s)) ->
  exists fs', convert_dataset ToList fs walk = Ok fs' /\
    (forall p l, In p walk -> search conv_pattern (snd p) = true -> holds fs p l -> fs' (list_path p l) = Some (CList l)) /\
    (forall q, (forall p l, In p walk -> search conv_pattern (snd p) = true -> holds fs p l -> q <> list_path p l) -> fs' q = fs q).
Proof.
  intros W L. assert (W': forall p, In p (sources walk) -> search conv_pattern (snd p) = true /\ exists l, holds fs p l /\ snd p = dataset_name basename (length l) true).
  { intros p Hp. apply filter_In in Hp as [H1 H2]. auto. }
  assert (G: exists fs', convert_dataset ToList fs walk = Ok fs' /\
    (forall p l, In p (sources walk) -> holds fs p l -> fs' (list_path p l) = Some (CList l)) /\
    (forall q, (forall p l, In p (sources walk) -> holds fs p l -> q <> list_path p l) -> fs' q = fs q)).
  { unfold convert_dataset. revert W' L. generalize (sources walk). clear W walk. intros srcs. revert fs. induction srcs as [|p srcs IH]; intros fs W L.
    - exists fs. split; [reflexivity|]. split; [intros p l []|auto].
    - destruct (W p (or_introl eq_refl)) as (Sp & l & H & N). cbn [convert_all].
      assert (E1: convert_one ToList fs p = Ok (write fs (list_path p l) (CList l))).
      { pose proof H as H'. apply samples_read in H' as (c & E & F). unfold convert_one. rewrite E, F. reflexivity. }
      rewrite E1. cbn [rbind]. set (g := write fs (list_path p l) (CList l)).
      assert (Nsrc: forall q k, search conv_pattern (snd q) = true -> q <> list_path p k).
      { intros q k Sq ->. unfold list_path in Sq. cbn [snd] in Sq. now rewrite list_not_source in Sq. }
      assert (K: forall q k, search conv_pattern (snd q) = true -> (holds fs q k <-> holds g q k)).
      { intros q k Sq. assert (Q: g q = fs q) by (apply write_other; auto). split; intros Hq.
        - apply holds_kept with (fs := fs); [exact Q| |exact Hq]. intros r s Er. unfold g. rewrite write_other; [exact Er|]. intros ->. now apply L in Er.
        - apply holds_kept with (fs := g); [now symmetry| |exact Hq]. intros r s Er. unfold g in Er. destruct (path_dec r (list_path p l)) as [->|Nr];
            [rewrite write_same in Er; discriminate|now rewrite write_other in Er by exact Nr]. }
      destruct (IH g) as (fs' & E & H1 & H2).
      { intros q Hq. destruct (W q (or_intror Hq)) as (Sq & k & Hk & Nk). split; [exact Sq|]. exists k. split; [now apply K|exact Nk]. }
      { intros d n s C. unfold g in C. destruct (path_dec (d, dataset_name "ss_paths_list" n true) (list_path p l)) as [Q|Q].
        - rewrite Q, write_same in C. discriminate.
        - rewrite write_other in C by exact Q. now apply L in C. }
      exists fs'. split; [exact E|]. split.
      + intros q k [<-|Hq] Hk.
        * rewrite <- (holds_fun _ _ _ _ H Hk). destruct (in_dec path_dec p srcs) as [I|I]; [apply H1; [exact I|]; now apply (proj1 (K p l Sp))|].
          rewrite H2; [apply write_same|]. intros r m Hr Hm C. destruct (W r (or_intror Hr)) as (Sr & m' & Hm' & Nm). apply (proj2 (K r m Sr)) in Hm.
          rewrite <- (holds_fun _ _ _ _ Hm Hm') in Nm. apply I. pose proof (f_equal fst C) as C1. pose proof (f_equal snd C) as C2. unfold list_path in C1, C2. cbn [fst snd] in C1, C2. apply (dataset_name_inj "ss_paths_list") in C2.
          destruct p as [p1 p2], r as [r1 r2]. cbn [fst snd] in *. rewrite C1, N, C2, <- Nm. exact Hr.
        * apply H1; [exact Hq|]. apply K; [|exact Hk]. now destruct (W q (or_intror Hq)).
      + intros q Nq. rewrite H2.
        * apply write_other. apply Nq; [now left|exact H].
        * intros r m Hr Hm. apply Nq; [now right|]. apply K; [|exact Hm]. now destruct (W r (or_intror Hr)). }
  destruct G as (fs' & E & H1 & H2). exists fs'. split; [exact E|]. split.
  - intros p l Hp Hs. apply H1. now apply filter_In.
  - intros q Nq. apply H2. intros p l Hp. apply filter_In in Hp as [I1 I2]. now apply Nq.
Qed.
(** The sources are left as they are by the conversion to lists. *)
Theorem list_sources_kept fs walk fs' : well_named fs walk -> (forall d n s, fs (d, dataset_name "ss_paths_list" n true) <> Some (CSample s)) ->
  convert_dataset ToList fs walk = Ok fs' -> forall q, search conv_pattern (snd q) = true -> fs' q = fs q.
Proof.
  intros W L E q Sq. destruct (converted_to_lists fs walk W L) as (g & E' & _ & H). rewrite E in E'. injection E' as <-. apply H.
  intros p l _ _ _ ->. unfold list_path in Sq. cbn [snd] in Sq. now rewrite list_not_source in Sq.
Qed.
(** Refuted: a shared list can be converted back. In a directory that holds only
    lists nothing is converted. *)
Theorem lists_not_converted_back_refuted f fs ns d : convert_dataset f fs (map (fun n => (d, dataset_name "ss_paths_list" n true)) ns) = Ok fs.
Proof.
  unfold convert_dataset, sources. replace (filter _ _) with (@nil path); [reflexivity|]. induction ns as [|n ns IH]; [reflexivity|]. cbn [map filter].
  cbn [snd]. now rewrite list_not_source.
Qed.
(** An unknown format is refused only if there is something to convert. *)
Theorem unknown_format fs walk : well_named fs walk ->
  convert_dataset OtherFormat fs walk = if existsb (fun p => search conv_pattern (snd p)) walk then Err RuntimeError else Ok fs.
Proof.
  intros W. unfold convert_dataset, sources. induction walk as [|p walk IH]; [reflexivity|]. cbn [filter existsb].
  destruct (search conv_pattern (snd p)) eqn:E.
  - cbn. destruct (W p (or_introl eq_refl) E) as (l & H & _). apply samples_read in H as (c & F & G). unfold convert_one. now rewrite F, G.
  - cbn. apply IH. intros q Hq. apply W. now right.
Qed.

(** ** Conversion to file backed data sets *)
Lemma write_samples_other fs d l : forall i q, (forall j, i <= j < i + length l -> q <> (d, sample_name j)) -> write_samples fs d i l q = fs q.
Proof.
  revert fs. induction l as [|s l IH]; intros fs i q N; cbn [write_samples]; [reflexivity|]. rewrite IH.
  - apply write_other. apply N. cbn. lia.
  - intros j Hj. apply N. cbn. lia.
Qed.
Lemma write_samples_nth fs d l : forall i j s, nth_error l j = Some s -> write_samples fs d i l (d, sample_name (i + j)) = Some (CSample s).
Proof.
  revert fs. induction l as [|s l IH]; intros fs i j s' E; [destruct j; discriminate|]. cbn [write_samples]. destruct j as [|j]; cbn in E.
  - injection E as ->. rewrite Nat.add_0_r. rewrite write_samples_other; [apply write_same|]. intros j Hj C. apply (f_equal snd) in C. apply sample_name_inj in C. lia.
  - replace (i + Datatypes.S j) with (1 + i + j) by lia. now apply IH.
Qed.
Lemma F2_seq {A B} (P : A -> B -> Prop) (f : nat -> A) l : forall i, (forall j s, nth_error l j = Some s -> P (f (i + j)) s) -> Forall2 P (map f (seq i (length l))) l.
Proof.
  induction l as [|s l IH]; intros i H; cbn; [constructor|]. constructor.
  - specialize (H 0 s eq_refl). now rewrite Nat.add_0_r in H.
  - apply IH. intros j t E. specialize (H (1 + j) t E). replace (Datatypes.S i + j) with (i + (1 + j)) by lia. exact H.
Qed.
Theorem file_backed_samples fs d name (l : list S) : fs (d, name) = Some (CMem l) ->
  let p := (d, dataset_name basename (length l) true) in
  exists fs', to_tsdataset fs (d, name) = Ok fs' /\ holds fs' p l /\ fs' p = Some (CFiles d (map (fun i => (d, sample_name i)) (seq 0 (length l)))) /\
    (forall i, i < length l -> exists s, nth_error l i = Some s /\ fs' (d, sample_name i) = Some (CSample s)) /\
    (forall q, q <> p -> (forall i, i < length l -> q <> (d, sample_name i)) -> fs' q = fs q).
Proof.
  intros F p. unfold to_tsdataset. rewrite F. cbn [fst]. set (g := write_samples fs d 0 l). set (ps := map _ _).
  assert (Lp: length ps = length l) by (unfold ps; now rewrite map_length, seq_length).
  assert (G: forall i s, nth_error l i = Some s -> g (d, sample_name i) = Some (CSample s)) by (intros i s E; now apply (write_samples_nth fs d l 0 i s)).
  assert (C: file_dataset g d ps = Ok (CFiles d ps)).
  { unfold file_dataset. replace (forallb _ ps) with true; [reflexivity|]. symmetry. apply forallb_forall. intros q Hq. apply in_map_iff in Hq as (i & <- & Hi).
    apply in_seq in Hi. destruct (nth_error l i) as [s|] eqn:E; [|apply nth_error_None in E; lia]. rewrite (G i s E). apply String.eqb_refl. }
  rewrite C. cbn [rbind]. rewrite Lp. unfold save. fold p. eexists. split; [reflexivity|].
  assert (Ns: forall i, (d, sample_name i) <> p) by (intros i Q; apply (f_equal snd) in Q; now apply sample_not_dataset in Q).
  split; [|split; [apply write_same|split]].
  - exists (CFiles d ps). split; [apply write_same|]. unfold ps. apply F2_seq. intros j s E. rewrite write_other by apply Ns. now apply G.
  - intros i Hi. destruct (nth_error l i) as [s|] eqn:E; [|apply nth_error_None in E; lia]. exists s. split; [reflexivity|]. rewrite write_other by apply Ns. now apply G.
  - intros q Nq Nqs. rewrite write_other by exact Nq. apply write_samples_other. intros j Hj. apply Nqs. lia.
Qed.
(** Converting back gives the data set in memory again. *)
Theorem file_backed_back fs d (l : list S) : let p := (d, dataset_name basename (length l) true) in
  fs p = Some (CMem l) -> exists fs1 fs2, to_tsdataset fs p = Ok fs1 /\ convert_dataset ToMemory fs1 [p] = Ok fs2 /\ fs2 p = fs p.
Proof.
  intros p F. destruct (file_backed_samples fs d _ l F) as (fs1 & E1 & H & _). fold p in H.
  assert (W: well_named fs1 [p]) by (intros q [<-|[]] _; exists l; split; [exact H|reflexivity]).
  destruct (converted_to_memory fs1 [p] W) as (fs2 & E2 & K & _). exists fs1, fs2. split; [exact E1|]. split; [exact E2|]. rewrite F. apply K; [now left|apply saved_is_source|exact H].
Qed.
(** Refuted: the script can be run again. It replaces its own source, and a file
    backed data set is refused. *)
Theorem file_backed_again_refuted fs d (l : list S) : let p := (d, dataset_name basename (length l) true) in
  fs p = Some (CMem l) -> exists fs1, to_tsdataset fs p = Ok fs1 /\ to_tsdataset fs1 p = Err RuntimeError.
Proof.
  intros p F. destruct (file_backed_samples fs d _ l F) as (fs1 & E1 & _ & C & _). exists fs1. split; [exact E1|]. unfold to_tsdataset. fold p in C. now rewrite C.
Qed.
(** Only data sets of samples in memory are converted, and a data set with a
    sample file that holds no sample cannot be read. *)
Theorem file_backed_only fs p : (forall l, fs p <> Some (CMem l)) -> to_tsdataset (S := S) fs p = Err RuntimeError.
Proof. intros H. unfold to_tsdataset. destruct (fs p) as [[]|] eqn:E; try reflexivity. exfalso. now apply (H l). Qed.
Theorem sample_file_missing fs d ps : Exists (fun q => forall s, fs q <> Some (CSample s)) ps -> samples_of (S := S) fs (CFiles d ps) = Err RuntimeError.
Proof.
  intros H. cbn [samples_of]. induction H as [q ps H|q ps H IH]; cbn [rmap].
  - unfold sample_in at 1. destruct (fs q) as [[]|] eqn:E; try reflexivity. exfalso. now apply (H s).
  - rewrite IH. unfold sample_in. destruct (fs q) as [[]|]; reflexivity.
Qed.
(** Refuted: every converted data set keeps its samples. Two data sets of one
    directory share the names of the sample files, so that the smaller data set
    takes the first samples of the other. *)
Theorem shared_samples_refuted fs d (l1 l2 : list S) : length l1 < length l2 ->
  let p1 := (d, dataset_name basename (length l1) true) in
  let p2 := (d, dataset_name basename (length l2) true) in
  fs p1 = Some (CMem l1) -> fs p2 = Some (CMem l2) ->
  exists fs1 fs2, to_tsdataset fs p1 = Ok fs1 /\ to_tsdataset fs1 p2 = Ok fs2 /\ holds fs1 p1 l1 /\ holds fs2 p2 l2 /\ holds fs2 p1 (firstn (length l1) l2).
Proof.
  intros Lt p1 p2 F1 F2. assert (N: p2 <> p1) by (intros C; apply (f_equal snd) in C; apply dataset_name_inj in C; lia).
  assert (Ns: forall i n, (d, dataset_name basename n true) <> (d, sample_name i)) by (intros i n Q; apply (f_equal snd) in Q; symmetry in Q; now apply sample_not_dataset in Q).
  destruct (file_backed_samples fs d _ l1 F1) as (fs1 & E1 & H1 & C1 & _ & K1). fold p1 in E1, H1, C1, K1.
  assert (F2': fs1 p2 = Some (CMem l2)) by (rewrite K1; [exact F2|exact N|intros i _; apply Ns]).
  destruct (file_backed_samples fs1 d _ l2 F2') as (fs2 & E2 & H2 & _ & S2 & K2). fold p2 in E2, H2, K2.
  exists fs1, fs2. split; [exact E1|]. split; [exact E2|]. split; [exact H1|]. split; [exact H2|].
  eexists. split; [rewrite K2; [exact C1|intros C; now apply N|intros i _; apply Ns]|]. cbn beta iota.
  replace (length l1) with (length (firstn (length l1) l2)) at 1 by (rewrite firstn_length; lia). apply F2_seq. intros j s E. cbn [plus].
  assert (Hj: j < length l1) by (pose proof (nth_error_Some (firstn (length l1) l2) j) as Q; rewrite E in Q; rewrite firstn_length in Q; assert (j < min (length l1) (length l2)) by (apply Q; discriminate); lia).
  destruct (S2 j ltac:(lia)) as (t & Et & Ft). rewrite Ft. f_equal. f_equal.
  assert (Q: nth_error (firstn (length l1) l2) j = nth_error l2 j).
  { clear - Hj. revert Hj. generalize (length l1). revert j. induction l2 as [|a l2 IH]; intros j n Hj; [now rewrite firstn_nil|]. destruct n as [|n]; [lia|]. cbn [firstn].
    destruct j as [|j]; [reflexivity|]. cbn. apply IH. lia. }
  rewrite Q in E. congruence.
Qed.

(** ** Moved data sets *)
(** The new paths are found exactly when all the sample files are in the new
    directory, and then keep the order and the file names. *)
Theorem rebased_paths fs d ps qs : rebase fs d ps = Ok qs <-> qs = map (fun p => (d, snd p)) ps /\ forall p, In p ps -> fs (d, snd p) <> None.
Proof.
  revert qs. induction ps as [|p ps IH]; intros qs; cbn [rebase].
  - split; [intros E; injection E as <-; split; [reflexivity|intros p []]|intros [-> _]; reflexivity].
  - destruct (fs (d, snd p)) as [c|] eqn:E.
    + destruct (rebase fs d ps) as [r|e] eqn:R; cbn [rbind].
      * destruct (proj1 (IH r) eq_refl) as [-> K]. split.
        -- intros Q. injection Q as <-. split; [reflexivity|]. intros q [<-|Hq]; [congruence|auto].
        -- intros [-> _]. reflexivity.
      * split; [discriminate|]. intros [-> K]. assert (C: Err e = Ok (map (fun p => (d, snd p)) ps)) by (apply IH; split; [reflexivity|intros q Hq; apply K; now right]). discriminate C.
    + split; [discriminate|]. intros [_ K]. exfalso. apply (K p); [now left|exact E].
Qed.
(** Refuted: the internal directory of a moved data set can be updated. The
    update never succeeds, and it changes nothing when it does not fail. *)
Theorem moved_dataset_refuted fs p stored ps d : fs p = Some (CFiles stored ps) -> stored <> d -> update_internal_directory true fs p d = Err TypeError.
Proof. intros E N. unfold update_internal_directory. cbn. rewrite E. now apply String.eqb_neq in N as ->. Qed.
Theorem update_is_identity b fs p d fs' : update_internal_directory b fs p d = Ok fs' -> fs' = fs /\ exists ps, fs p = Some (CFiles d ps).
Proof.
  unfold update_internal_directory. destruct b; cbn; [|discriminate]. destruct (fs p) as [[| | |st ps| |]|]; try discriminate.
  destruct (String.eqb st d) eqn:E; [|discriminate]. apply String.eqb_eq in E. subst. intros Q. injection Q as <-. split; [reflexivity|eauto].
Qed.
End Conv.

(** ** Examples *)
Definition example_fs : fsys nat := fun p =>
  if path_eqb p ("a", "ss_paths_dataset_n2.pkl") then Some (CSubset [10; 20; 30] [2; 0]) else
  if path_eqb p ("b", "ss_paths_dataset_n1.pkl") then Some (CList [7]) else None.
Definition example_walk : list path := [("a", "ss_paths_dataset_n2.pkl"); ("a", "loss.pkl"); ("b", "ss_paths_dataset_n1.pkl")].
Example convert_example : match convert_dataset ToMemory example_fs example_walk with
  | Ok fs => map fs example_walk = [Some (CMem [30; 10]); None; Some (CMem [7])] | Err _ => False end.
Proof. vm_compute. reflexivity. Qed.
Example convert_example_named : well_named example_fs example_walk.
Proof.
  intros p [<-|[<-|[<-|[]]]] H.
  - exists [30; 10]. split; [|vm_compute; reflexivity]. eexists. split; [vm_compute; reflexivity|]. cbn. repeat constructor.
  - vm_compute in H. discriminate.
  - exists [7]. split; [|vm_compute; reflexivity]. eexists. split; [vm_compute; reflexivity|]. reflexivity.
Qed.
Example file_backed_example :
  let fs := write (fun _ => None) ("a", "ss_paths_dataset_n2.pkl") (CMem [5; 6]) in
  match to_tsdataset fs ("a", "ss_paths_dataset_n2.pkl") with
  | Ok g => g ("a", "ss_response_path_1.pt") = Some (CSample 6) /\
      g ("a", "ss_paths_dataset_n2.pkl") = Some (CFiles "a" [("a", "ss_response_path_0.pt"); ("a", "ss_response_path_1.pt")])
  | Err _ => False end.
Proof. vm_compute. auto. Qed.

Print Assumptions file_backed_only.
Print Assumptions sample_file_missing.
Print Assumptions converted_to_memory.
Print Assumptions misnamed_dataset_refuted.
Print Assumptions converted_to_lists.
Print Assumptions shared_samples_refuted.
Print Assumptions file_backed_back.
Print Assumptions rebased_paths.
