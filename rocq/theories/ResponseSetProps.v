(** C77, C78: data sets of material responses and noisy data sets. *)
From Coq Require Import String Reals List Arith Bool Lia Lra ZArith Sorted Permutation.
From Verif Require Import Lib PyDict MatrixModel MatrixSpec MatrixProofs HardeningModel HybridModel HybridProps DenoiseModel
  NoiseModel NoiseProps RcModel RcProps FeaturesSpec ResponseModel ResponseProps.
Import ListNotations.
Local Open Scope list_scope.
Local Open Scope R_scope.

Lemma Forall2_weaken {A B} (P Q : A -> B -> Prop) l l' : (forall a b, P a b -> Q a b) -> Forall2 P l l' -> Forall2 Q l l'.
Proof. intros H F. induction F; constructor; auto. Qed.

(** ** Random strain paths *)
(** The accepted names. *)
Theorem known_names : (forall t, known_path_type t = true <-> t = "random" \/ t = "proportional")%string /\
  forall m, known_model m = true <-> In m ["elastic"; "von_mises"; "drucker_prager"; "lou_zhang_yoon"]%string.
Proof.
  split.
  - intros t. unfold known_path_type. destruct (String.eqb_spec t "random"), (String.eqb_spec t "proportional"); cbn [orb]; split; auto; try discriminate. intros [|]; contradiction.
  - intros m. unfold known_model. rewrite existsb_exists. split.
    + intros (x & I & Q). apply String.eqb_eq in Q. subst x. exact I.
    + intros I. exists m. split; [exact I|apply String.eqb_refl].
Qed.

Section Draws.
  Variable n_dim : nat.
  Variable cos : list comp.
  Variable su : T2 -> rc_state -> rc_state.
  Variable init : rc_state.
  Variable feats : list (string * nat).
  Variable noisy : bool.
  Variable draw : nat -> list comp * list R * list (list R).
  Notation resp q := (compute_stress_path n_dim cos su init feats noisy (fst (fst (draw q))) (snd (draw q))).
  (** a drawn path with a response, and one on which the model fails *)
  Definition succeeds (q : nat) (o : path_out) : Prop := resp q = Ok o /\ po_fail o = false.
  Definition fails (q : nat) : Prop := exists o, resp q = Ok o /\ po_fail o = true.
  (** the sample of a drawn path *)
  Definition is_sample (q : nat) (s : sample) : Prop := exists o, succeeds q o /\
    sm_order s = fst (fst (draw q)) /\ sm_time s = snd (fst (draw q)) /\ sm_strain s = snd (draw q) /\
    sm_stress s = po_stress o /\ sm_state s = po_state o /\ sm_strain_noise s = None /\ sm_stress_noise s = None.
  Notation run := (trials n_dim cos su init feats noisy draw).

  Lemma trials_ok : forall left q s q', run left q = Ok (s, q') <->
    exists j, (j < left)%nat /\ q' = S (q + j) /\ (forall i, (i < j)%nat -> fails (q + i)) /\
      exists o, succeeds (q + j) o /\ s = sample_of (draw (q + j)) o.
  Proof.
    induction left as [|left IH]; intros q s q'; cbn [trials]; unfold material_response.
    - split; [|intros (j & Hj & _); lia]. destruct (resp q); cbn [rbind]; discriminate.
    - destruct (resp q) as [o|e] eqn:R; cbn [rbind].
      + destruct (po_fail o) eqn:F.
        * rewrite IH. split.
          -- intros (j & Hj & -> & FA & o' & SU & ->). exists (S j). replace (q + S j)%nat with (S q + j)%nat by lia. split; [lia|]. split; auto. split; [|eauto].
             intros [|i] Hi; [rewrite Nat.add_0_r; exists o; auto|]. replace (q + S i)%nat with (S q + i)%nat by lia. apply FA. lia.
          -- intros ([|j] & Hj & -> & FA & o' & SU & ->).
             { rewrite Nat.add_0_r in SU. destruct SU as (SU & SF). congruence. }
             exists j. replace (S q + j)%nat with (q + S j)%nat by lia. split; [lia|]. split; auto. split; [|eauto].
             intros i Hi. replace (S q + i)%nat with (q + S i)%nat by lia. apply FA. lia.
        * split.
          -- intros H. injection H as <- <-. exists 0%nat. rewrite Nat.add_0_r. split; [lia|]. split; auto. split; [intros; lia|]. exists o. split; auto. split; auto.
          -- intros ([|j] & Hj & -> & FA & o' & SU & ->).
             { rewrite Nat.add_0_r in *. destruct SU as (SU & SF). congruence. }
             destruct (FA 0%nat ltac:(lia)) as (o2 & Q1 & Q2). rewrite Nat.add_0_r in Q1. congruence.
      + split; [discriminate|]. intros ([|j] & Hj & -> & FA & o' & SU & ->).
        * rewrite Nat.add_0_r in SU. destruct SU. congruence.
        * destruct (FA 0%nat ltac:(lia)) as (o2 & Q1 & Q2). rewrite Nat.add_0_r in Q1. congruence.
  Qed.
  Lemma trials_exhausted : forall left q, (forall i, (i < left)%nat -> fails (q + i)) -> (exists o, resp (q + left) = Ok o) -> run left q = Err RuntimeError.
  Proof.
    induction left as [|left IH]; intros q F (o & L); cbn [trials]; unfold material_response.
    - rewrite Nat.add_0_r in L. rewrite L. reflexivity.
    - destruct (F 0%nat ltac:(lia)) as (o' & Q1 & Q2). rewrite Nat.add_0_r in Q1. rewrite Q1. cbn [rbind]. rewrite Q2. apply IH.
      + intros i Hi. replace (S q + i)%nat with (q + S i)%nat by lia. apply F. lia.
      + exists o. replace (S q + left)%nat with (q + S left)%nat by lia. auto.
  Qed.
  Lemma generated : forall n q ds, generate_samples n_dim cos su init feats noisy draw n q = Ok ds ->
    exists js, length js = n /\ length ds = n /\ StronglySorted lt js /\
      (forall k, (k < n)%nat -> (q <= nth k js 0)%nat /\ is_sample (nth k js 0%nat) (nth k ds (sample_of (draw 0) {| po_stress := []; po_state := []; po_fail := false |}))) /\
      (forall i, (q <= i)%nat -> ~ In i js -> (exists j, In j js /\ (i < j)%nat) -> fails i).
  Proof.
    induction n as [|n IH]; intros q ds H; cbn [generate_samples] in H.
    - injection H as <-. exists []. repeat split; [constructor|intros; lia..|]. intros i _ _ (j & [] & _).
    - destruct (run max_path_trials q) as [[s q']|] eqn:T; cbn [rbind fst snd] in H; [|discriminate].
      destruct (generate_samples n_dim cos su init feats noisy draw n q') as [l|] eqn:G; cbn [rbind] in H; [|discriminate]. injection H as <-.
      apply trials_ok in T. destruct T as (j & Hj & -> & FA & o & SU & ->).
      destruct (IH _ _ G) as (js & L1 & L2 & SS & EV & DI).
      assert (GE : forall x, In x js -> (S (q + j) <= x)%nat).
      { intros x I. destruct (In_nth _ _ 0%nat I) as (k & Hk & <-). apply EV. lia. }
      exists ((q + j)%nat :: js). cbn [length]. split; [lia|]. split; [lia|]. split; [|split].
      + constructor; auto. apply Forall_forall. intros x I. specialize (GE x I). lia.
      + intros [|k] Hk; cbn [nth]; [|destruct (EV k ltac:(lia)); split; [lia|auto]]. split; [lia|]. exists o. split; auto. repeat split.
      + intros i Hi NI (x & [<-|I] & Hx).
        * replace i with (q + (i - q))%nat by lia. apply FA. lia.
        * destruct (le_lt_dec i (q + j)) as [LE|GT].
          { destruct (Nat.eq_dec i (q + j)) as [->|NE]; [exfalso; apply NI; left; auto|]. replace i with (q + (i - q))%nat by lia. apply FA. lia. }
          apply DI; [lia|intros Q; apply NI; right; auto|eauto].
  Qed.

  (** The data set has one sample per successful draw, in order: the only draws
      left out are those on which the model fails. *)
  Theorem dataset_first_successes : forall n type model ds,
    generate_response_dataset n_dim cos su init feats noisy draw n type model = Ok ds ->
    (1 <= n)%nat /\ length ds = n /\
    exists js, length js = n /\ StronglySorted lt js /\
      (forall k s, nth_error ds k = Some s -> exists q, nth_error js k = Some q /\ is_sample q s) /\
      (forall i, ~ In i js -> (exists j, In j js /\ (i < j)%nat) -> fails i).
  Proof.
    intros n type model ds. unfold generate_response_dataset.
    destruct (known_path_type type); cbn [negb]; [|discriminate]. destruct (known_model model); cbn [negb]; [|discriminate].
    destruct (generate_samples _ _ _ _ _ _ _ n 0) as [l|] eqn:G; cbn [rbind]; [|discriminate]. unfold average_time.
    destruct (Nat.eqb_spec n 0); [discriminate|]. intros H. injection H as <-. destruct (generated _ _ _ G) as (js & L1 & L2 & SS & EV & DI).
    split; [lia|]. split; auto. exists js. split; auto. split; auto. split.
    - intros k s N. assert (Hk : (k < n)%nat) by (rewrite <- L2; apply nth_error_Some; congruence).
      exists (nth k js 0%nat). split; [apply nth_error_nth'; lia|]. destruct (EV k Hk) as (_ & P). rewrite (nth_error_nth _ _ _ N) in P. exact P.
    - intros i NI Q. apply DI; auto. lia.
  Qed.
  (** All draws successful: the data set is that of the first draws. *)
  Theorem dataset_all_successful : forall n type model (out : nat -> path_out), (1 <= n)%nat ->
    known_path_type type = true -> known_model model = true -> (forall q, (q < n)%nat -> succeeds q (out q)) ->
    generate_response_dataset n_dim cos su init feats noisy draw n type model = Ok (map (fun q => sample_of (draw q) (out q)) (seq 0 n)).
  Proof.
    intros n type model out Hn KT KM SU. unfold generate_response_dataset. rewrite KT, KM. cbn [negb].
    assert (G : forall m q, (q + m = n)%nat -> generate_samples n_dim cos su init feats noisy draw m q = Ok (map (fun q => sample_of (draw q) (out q)) (seq q m))).
    { induction m as [|m IH]; intros q Q; [reflexivity|]. cbn [generate_samples seq map].
      replace (run max_path_trials q) with (Ok (sample_of (draw q) (out q), S q)).
      - cbn [rbind fst snd]. rewrite IH by lia. reflexivity.
      - symmetry. apply trials_ok. exists 0%nat. rewrite Nat.add_0_r. unfold max_path_trials. split; [lia|]. split; auto. split; [intros; lia|].
        exists (out q). split; auto. apply SU. lia. }
    rewrite (G n 0%nat) by lia. cbn [rbind]. unfold average_time. destruct (Nat.eqb_spec n 0); [lia|reflexivity].
  Qed.
  (** Ten failures in a row stop the generation, even if the next draw would
      succeed. *)
  Theorem dataset_ten_failures : forall n type model o, (1 <= n)%nat -> known_path_type type = true -> known_model model = true ->
    (forall i, (i < 10)%nat -> fails i) -> resp 10%nat = Ok o ->
    generate_response_dataset n_dim cos su init feats noisy draw n type model = Err RuntimeError.
  Proof.
    intros n type model o Hn KT KM F L. unfold generate_response_dataset. rewrite KT, KM. cbn [negb].
    destruct n as [|n]; [lia|]. cbn [generate_samples]. rewrite (trials_exhausted max_path_trials 0); [reflexivity|exact F|exists o; exact L].
  Qed.
  Theorem dataset_unknown_names : forall n type model,
    ~ (type = "random" \/ type = "proportional")%string \/ ~ In model ["elastic"; "von_mises"; "drucker_prager"; "lou_zhang_yoon"]%string ->
    generate_response_dataset n_dim cos su init feats noisy draw n type model = Err RuntimeError.
  Proof.
    intros n type model H'.
    assert (H : known_path_type type = false \/ known_model model = false).
    { destruct H' as [H|H]; [left|right].
      - destruct (known_path_type type) eqn:Q; auto. exfalso. apply H, known_names. exact Q.
      - destruct (known_model model) eqn:Q; auto. exfalso. apply H, known_names. exact Q. }
    unfold generate_response_dataset. destruct (known_path_type type); [|reflexivity]. destruct H as [H|H]; [discriminate|].
    rewrite H. reflexivity.
  Qed.
  (** An empty data set cannot be generated. *)
  Theorem dataset_empty_refuted : forall type model, known_path_type type = true -> known_model model = true ->
    generate_response_dataset n_dim cos su init feats noisy draw 0 type model = Err ZeroDivisionError.
  Proof. intros type model KT KM. unfold generate_response_dataset. rewrite KT, KM. reflexivity. Qed.

  (** *** Responses of a given data set of strain paths *)
  Notation again := (gen_from_strain_dataset n_dim cos su init feats noisy).
  Theorem strain_dataset_law : forall l model ds, again (Some l) model = Ok ds ->
    known_model model = true /\ l <> [] /\
    Forall2 (fun s s' => sm_order s' = sm_order s /\ sm_time s' = sm_time s /\ sm_strain s' = sm_strain s /\
      exists o, compute_stress_path n_dim cos su init feats noisy (sm_order s) (sm_strain s) = Ok o /\ po_fail o = false /\
        sm_stress s' = po_stress o /\ sm_state s' = po_state o) l ds.
  Proof.
    intros l model ds. unfold gen_from_strain_dataset. destruct (known_model model); cbn [negb]; [|discriminate].
    destruct (rmap _ l) as [r|] eqn:M; cbn [rbind]; [|discriminate]. unfold average_time. intros H.
    destruct l as [|s0 l0]; [discriminate|]. cbn [length Nat.eqb] in H. injection H as <-. split; auto. split; [discriminate|].
    apply rmap_ok in M. eapply Forall2_weaken; [|exact M]. intros s s' E. cbn beta in E. unfold response_of_sample, material_response in E. cbn [fst snd] in E.
    destruct (compute_stress_path _ _ _ _ _ _ (sm_order s) (sm_strain s)) as [o|] eqn:C; cbn [rbind] in E; [|discriminate].
    destruct (po_fail o) eqn:F; [discriminate|]. injection E as <-. repeat split; auto. exists o. repeat split; auto.
  Qed.
  (** A failing path fails the whole data set. *)
  Theorem strain_dataset_failure : forall a s b o model, known_model model = true ->
    (forall s', In s' a -> exists o', compute_stress_path n_dim cos su init feats noisy (sm_order s') (sm_strain s') = Ok o') ->
    compute_stress_path n_dim cos su init feats noisy (sm_order s) (sm_strain s) = Ok o -> po_fail o = true ->
    again (Some (a ++ s :: b)) model = Err RuntimeError.
  Proof.
    intros a s b o model KM A C F. unfold gen_from_strain_dataset. rewrite KM. cbn [negb].
    replace (rmap (response_of_sample n_dim cos su init feats noisy) (a ++ s :: b)) with (Err (A := list sample) RuntimeError); [reflexivity|].
    symmetry. induction a as [|x a IH]; cbn [app rmap]; unfold response_of_sample at 1, material_response; cbn [fst snd].
    - rewrite C. cbn [rbind]. rewrite F. reflexivity.
    - destruct (A x (or_introl eq_refl)) as (o' & ->). cbn [rbind]. destruct (po_fail o'); [reflexivity|]. cbn [rbind].
      rewrite IH by (intros; apply A; right; auto). reflexivity.
  Qed.
  (** Generating the responses of a generated data set gives it back. *)
  Theorem regenerate_same : forall n type model ds,
    generate_response_dataset n_dim cos su init feats noisy draw n type model = Ok ds -> again (Some ds) model = Ok ds.
  Proof.
    intros n type model ds G. assert (KM : known_model model = true).
    { unfold generate_response_dataset in G. destruct (known_path_type type); [|discriminate]. destruct (known_model model); [auto|discriminate]. }
    destruct (dataset_first_successes n type model ds G) as (Hn & L & js & _ & _ & EV & _).
    unfold gen_from_strain_dataset. rewrite KM. cbn [negb].
    replace (rmap (response_of_sample n_dim cos su init feats noisy) ds) with (Ok ds).
    - cbn [rbind]. unfold average_time. destruct (Nat.eqb_spec (length ds) 0); [lia|reflexivity].
    - symmetry. rewrite <- (map_id ds) at 2. apply rmap_all. intros s I. destruct (In_nth_error _ _ I) as (k & N).
      destruct (EV k s N) as (q & _ & o & (C & F) & P1 & P2 & P3 & P4 & P5 & P6 & P7).
      unfold response_of_sample, material_response. cbn [fst snd]. rewrite P1, P3, C. cbn [rbind]. rewrite F. f_equal.
      unfold sample_of. cbn [fst snd]. rewrite <- P4, <- P5, P2. destruct s as [so sti sst sss ssa sn1 sn2]. simpl in *. subst. reflexivity.
  Qed.
End Draws.

(** ** Tables *)
(** A path with a stress component above the tolerance of the comparison. *)
Definition stressed (p : list (list R)) : Prop := exists r x, In r p /\ In x r /\ 1 / 100000000 < Rabs x.
Lemma null_path_spec p : null_path p = false <-> stressed p.
Proof.
  unfold null_path. split.
  - intros H. destruct (forallb_forall (forallb (fun x => rleb (Rabs x) (1 / 100000000))) p) as (_ & G).
    assert (E : existsb (fun r => negb (forallb (fun x => rleb (Rabs x) (1 / 100000000)) r)) p = true).
    { clear G. induction p as [|r p IH]; [discriminate|]. cbn in *. destruct (forallb _ r); [auto|reflexivity]. }
    apply existsb_exists in E. destruct E as (r & I & E). apply negb_true_iff in E.
    assert (X : existsb (fun x => negb (rleb (Rabs x) (1 / 100000000))) r = true).
    { clear - E. induction r as [|x r IH]; [discriminate|]. cbn in *. destruct (rleb (Rabs x) (1 / 100000000)); [auto|reflexivity]. }
    apply existsb_exists in X. destruct X as (x & IX & X). exists r, x. split; auto. split; auto. unfold rleb in X.
    destruct (Rle_dec (Rabs x) (1 / 100000000)); [discriminate|lra].
  - intros (r & x & I & IX & L). destruct (forallb _ p) eqn:E; auto. rewrite forallb_forall in E. specialize (E r I). rewrite forallb_forall in E.
    specialize (E x IX). unfold rleb in E. destruct (Rle_dec (Rabs x) (1 / 100000000)); [lra|discriminate].
Qed.
Section Table.
  Variable n_dim : nat.
  Variable cos : list comp.
  Variable last_int : string -> option nat.
  (** the columns of the strain and of the stress components: all six in
      three dimensions, those in the plane in two *)
  Definition comp_cols (first : nat) : list nat := if Nat.eqb n_dim 2 then [first; first + 1; first + 3]%nat else map (fun k => (first + k)%nat) (seq 0 6).
  Definition reads (cols : list nat) (d : frame) (p : list (list R)) : Prop :=
    length p = length (fr_rows d) /\ forall t, (t < length p)%nat -> length (nth t p []) = length cols /\
      forall j, (j < length cols)%nat -> at_ p t j = nth (nth j cols 0%nat) (nth t (fr_rows d) []) 0.
  Lemma columns_reads cols d : reads cols d (columns cols d).
  Proof.
    unfold reads, columns, at_. rewrite map_length. split; auto. intros t Ht.
    set (g := fun r : list R => map (fun c : nat => nth c r 0) cols).
    rewrite (nth_indep _ [] (g [])) by (rewrite map_length; auto). rewrite (map_nth g). unfold g. rewrite map_length. split; auto.
    intros j Hj. rewrite (nth_indep _ 0 ((fun c => nth c (nth t (fr_rows d) []) 0) 0%nat)) by (rewrite map_length; auto).
    rewrite (map_nth (fun c => nth c (nth t (fr_rows d) []) 0)). reflexivity.
  Qed.
  Lemma strain_cols_spec : strain_cols n_dim = comp_cols 1. Proof. unfold strain_cols, comp_cols. destruct (n_dim =? 2); reflexivity. Qed.
  Lemma stress_cols_spec : stress_cols n_dim = comp_cols 7. Proof. unfold stress_cols, comp_cols. destruct (n_dim =? 2); reflexivity. Qed.
  (** a sample is read from a table *)
  Definition read_from (f : string * frame) (s : sample) : Prop :=
    sm_order s = cos /\ sm_time s = map (fun r => nth 0 r 0) (fr_rows (snd f)) /\
    reads (comp_cols 1) (snd f) (sm_strain s) /\ reads (comp_cols 7) (snd f) (sm_stress s) /\
    sm_state s = [] /\ stressed (sm_stress s).
  (** the table has no stress above the tolerance *)
  Definition unstressed (f : string * frame) : Prop := forall p, reads (comp_cols 7) (snd f) p -> ~ stressed p.
  (** the samples of a list of tables: one for each table with stresses, in order *)
  Inductive samples_of : list (string * frame) -> list sample -> Prop :=
  | so_nil : samples_of [] []
  | so_keep f s l ds : read_from f s -> samples_of l ds -> samples_of (f :: l) (s :: ds)
  | so_drop f l ds : unstressed f -> samples_of l ds -> samples_of (f :: l) ds.
  Lemma reads_unique cols d p p' : reads cols d p -> reads cols d p' -> p = p'.
  Proof.
    intros (L & H) (L' & H'). apply (nth_ext _ _ [] []); [congruence|]. intros t Ht. destruct (H t Ht) as (A & B). destruct (H' t ltac:(lia)) as (A' & B').
    apply (nth_ext _ _ 0 0); [congruence|]. intros j Hj. unfold at_ in *. rewrite B, B' by lia. reflexivity.
  Qed.
  Lemma read_samples : forall l r, rmap (fun f => read_sample n_dim cos (snd f)) l = Ok r ->
    (forall f, In f l -> fr_cols (snd f) = 13%nat) /\
    samples_of l (flat_map (fun o : option sample => match o with Some s => [s] | None => [] end) r).
  Proof.
    induction l as [|f l IH]; intros r H; [injection H as <-; split; [intros f []|constructor]|]. cbn [rmap] in H.
    destruct (read_sample n_dim cos (snd f)) as [o|] eqn:E; cbn [rbind] in H; [|discriminate].
    destruct (rmap _ l) as [r'|]; cbn [rbind] in H; [|discriminate]. injection H as <-. destruct (IH r' eq_refl) as (W & S).
    unfold read_sample in E. destruct (Nat.eqb_spec (fr_cols (snd f)) 13) as [Q|]; cbn [negb] in E; [|discriminate].
    split; [intros g [<-|I]; auto|]. cbn [flat_map]. injection E as <-.
    pose proof (columns_reads (stress_cols n_dim) (snd f)) as RS. pose proof (columns_reads (strain_cols n_dim) (snd f)) as RE.
    match goal with |- context [null_path ?p] => destruct (null_path p) eqn:N end; cbn [app].
    - apply so_drop; auto. intros p RP SP. rewrite <- stress_cols_spec in RP. rewrite (reads_unique _ _ _ _ RP RS) in SP.
      apply null_path_spec in SP. cbn [sm_stress] in N. congruence.
    - apply so_keep; auto. apply null_path_spec in N. unfold read_from.
      rewrite <- stress_cols_spec, <- strain_cols_spec. repeat split; auto; try apply RE; try apply RS; auto.
  Qed.

  (** The data set of a directory of tables: the tables in the order of the
      numbers of their names, without those with no stress. *)
  Theorem csv_dataset_law : forall files dir ds, gen_from_csv n_dim cos last_int files true dir = Ok ds ->
    ds <> [] /\ (forall f, In f files -> fr_cols (snd f) = 13%nat /\ exists k, last_int (fst f) = Some k) /\
    exists sorted, Permutation sorted files /\
      StronglySorted (fun f g => forall a b, last_int (fst f) = Some a -> last_int (fst g) = Some b -> (a <= b)%nat) sorted /\ samples_of sorted ds.
  Proof.
    intros files dir ds. unfold gen_from_csv. cbn [negb].
    destruct (forallb _ files) eqn:D; cbn [negb]; [|discriminate].
    destruct (rmap _ (isort (file_key last_int) files)) as [r|] eqn:M; cbn [rbind]; [|discriminate].
    destruct (length files =? 0)%nat; [discriminate|]. unfold average_time.
    set (kept := flat_map _ r). destruct (Nat.eqb_spec (length kept) 0) as [|NE]; [discriminate|]. intros H. injection H as <-.
    split; [intros Q; rewrite Q in NE; apply NE; reflexivity|]. destruct (read_samples _ _ M) as (W & S). split.
    - intros f I. split; [apply W; eapply Permutation_in; [apply Permutation_sym, isort_perm|exact I]|].
      rewrite forallb_forall in D. specialize (D f I). destruct (last_int (fst f)); [eauto|discriminate].
    - exists (isort (file_key last_int) files). split; [apply isort_perm|]. split; [|exact S].
      pose proof (isort_sorted (file_key last_int) files) as SS. clear - SS. induction SS as [|x l SS IH F]; constructor; auto.
      eapply Forall_impl; [|exact F]. intros g G a b A B. unfold file_key in G. rewrite A, B in G. lia.
  Qed.
  (** Some table has stresses: the data set is read. *)
  Theorem csv_dataset_read : forall files dir f, In f files -> ~ unstressed f ->
    (forall g, In g files -> fr_cols (snd g) = 13%nat /\ exists k, last_int (fst g) = Some k) ->
    exists ds, gen_from_csv n_dim cos last_int files true dir = Ok ds.
  Proof.
    intros files dir f I NU H. unfold gen_from_csv. cbn [negb].
    replace (forallb _ files) with true.
    2: { symmetry. apply forallb_forall. intros g Ig. destruct (H g Ig) as (_ & k & ->). reflexivity. }
    cbn [negb].
    assert (M : exists r, rmap (fun g => read_sample n_dim cos (snd g)) (isort (file_key last_int) files) = Ok r).
    { assert (W : forall g, In g (isort (file_key last_int) files) -> fr_cols (snd g) = 13%nat).
      { intros g Ig. apply H. eapply Permutation_in; [apply isort_perm|exact Ig]. }
      revert W. generalize (isort (file_key last_int) files). induction l as [|g l IH]; intros W; [exists []; reflexivity|]. cbn [rmap].
      destruct IH as (r & E); [intros; apply W; right; auto|]. unfold read_sample at 1. rewrite (W g (or_introl eq_refl)). cbn [Nat.eqb negb rbind]. rewrite E. eexists. reflexivity. }
    destruct M as (r & M). rewrite M. cbn [rbind].
    destruct files as [|f0 files'] eqn:EF; [destruct I|]. rewrite <- EF in *. replace (length files =? 0)%nat with false by (rewrite EF; reflexivity).
    destruct (read_samples _ _ M) as (_ & S). set (kept := flat_map _ r) in *. unfold average_time.
    destruct kept as [|k0 kept'] eqn:EK; [|eexists; reflexivity]. exfalso. apply NU.
    assert (G : forall l ds, samples_of l ds -> ds = [] -> forall g, In g l -> unstressed g).
    { intros l ds SO. induction SO; intros E g Ig; [destruct Ig|discriminate|]. destruct Ig as [<-|Ig]; auto. }
    apply (G _ _ S eq_refl). eapply Permutation_in; [apply Permutation_sym, isort_perm|exact I].
  Qed.
  (** Data sets are never written to files. *)
  Theorem csv_to_files_refuted : forall files dir, gen_from_csv n_dim cos last_int files false (Some dir) = Err NameError.
  Proof. reflexivity. Qed.
  (** A directory without stresses fails with a division by zero. *)
  Theorem csv_no_stress_refuted : forall files dir,
    (forall g, In g files -> fr_cols (snd g) = 13%nat /\ unstressed g /\ exists k, last_int (fst g) = Some k) ->
    gen_from_csv n_dim cos last_int files true dir = Err ZeroDivisionError.
  Proof.
    intros files dir H. unfold gen_from_csv. cbn [negb].
    replace (forallb _ files) with true.
    2: { symmetry. apply forallb_forall. intros g Ig. destruct (H g Ig) as (_ & _ & k & ->). reflexivity. }
    cbn [negb].
    assert (M : forall l, (forall g, In g l -> In g files) -> exists r, rmap (fun g => read_sample n_dim cos (snd g)) l = Ok r /\
       flat_map (fun o : option sample => match o with Some s => [s] | None => [] end) r = []).
    { induction l as [|g l IH]; intros W; [exists []; split; reflexivity|]. cbn [rmap].
      destruct IH as (r & E & Z); [intros; apply W; right; auto|]. destruct (H g (W g (or_introl eq_refl))) as (Q & U & _).
      unfold read_sample at 1. rewrite Q. cbn [Nat.eqb negb rbind]. rewrite E.
      assert (N : null_path (columns (stress_cols n_dim) (snd g)) = true).
      { destruct (null_path _) eqn:N; auto. apply null_path_spec in N. exfalso. apply (U _ (columns_reads (comp_cols 7) (snd g))).
        rewrite <- stress_cols_spec. exact N. }
      cbn [sm_stress]. rewrite N. cbn [rbind]. exists (None :: r). split; [reflexivity|exact Z]. }
    destruct (M (isort (file_key last_int) files)) as (r & -> & Z).
    { intros g Ig. eapply Permutation_in; [apply isort_perm|exact Ig]. }
    cbn [rbind]. rewrite Z. destruct (length files =? 0)%nat; reflexivity.
  Qed.
  Theorem csv_bad_name : forall files dir f, In f files -> last_int (fst f) = None ->
    gen_from_csv n_dim cos last_int files true dir = Err AttributeError.
  Proof.
    intros files dir f I N. unfold gen_from_csv. cbn [negb]. destruct (forallb _ files) eqn:D; [|reflexivity].
    rewrite forallb_forall in D. specialize (D f I). rewrite N in D. discriminate.
  Qed.
End Table.

(** ** Noisy data sets *)
Lemma madd_at T n a b : shape T n a -> shape T n b -> shape T n (madd a b) /\
  forall t j, (t < T)%nat -> (j < n)%nat -> at_ (madd a b) t j = at_ a t j + at_ b t j.
Proof.
  revert T b. induction a as [|ra a IH]; intros T b (L & W) (L' & W').
  - destruct b; [|cbn in *; lia]. cbn in L. subst T. split; [split; [reflexivity|intros r []]|]. intros; lia.
  - destruct b as [|rb b]; [cbn in *; lia|]. destruct T as [|T]; [discriminate|].
    assert (LA : length ra = n) by (apply W; left; auto). assert (LB : length rb = n) by (apply W'; left; auto).
    destruct (IH T b) as ((S1 & S2) & V); [split; [cbn in L; lia|intros; apply W; right; auto]|split; [cbn in L'; lia|intros; apply W'; right; auto]|].
    assert (LR : length (map (fun q : R * R => fst q + snd q) (combine ra rb)) = n) by (rewrite map_length, combine_length; lia).
    split.
    + split; [cbn; rewrite <- S1; reflexivity|]. intros r [<-|I]; [exact LR|apply S2; exact I].
    + intros [|t] j Ht Hj; unfold at_ in *; [|apply V; [lia|auto]]. cbn [madd combine map nth fst snd].
      rewrite (nth_indep _ 0 (0 + 0)) by lia. rewrite (map_nth (fun q : R * R => fst q + snd q) (combine ra rb) (0, 0)), combine_nth by lia. reflexivity.
Qed.
Lemma zero_first_at T n a : shape T n a -> shape T n (zero_first a) /\
  forall t j, (t < T)%nat -> (j < n)%nat -> at_ (zero_first a) t j = if Nat.eqb t 0 then 0 else at_ a t j.
Proof.
  intros (L & W). destruct a as [|r a]; [cbn in L; subst T; split; [split; [reflexivity|intros r []]|intros; lia]|].
  cbn [zero_first]. split.
  - split; [exact L|]. intros q [<-|I]; [rewrite repeat_length; apply W; left; auto|apply W; right; auto].
  - intros [|t] j Ht Hj; [|reflexivity]. unfold at_. cbn. apply nth_repeat.
Qed.
Lemma shape_ext T n a b : shape T n a -> shape T n b -> (forall t j, (t < T)%nat -> (j < n)%nat -> at_ a t j = at_ b t j) -> a = b.
Proof.
  intros (L & W) (L' & W') H. apply (nth_ext _ _ [] []); [congruence|]. intros t Ht. apply (nth_ext _ _ 0 0).
  - rewrite W, W'; auto; apply nth_In; lia.
  - intros j Hj. apply H; [lia|]. rewrite W in Hj; auto. apply nth_In. lia.
Qed.

Section Noise.
  Variables unif gauss : nat -> R.
  Variable n_dim : nat.
  Variable cos : list comp.
  Variable su : T2 -> rc_state -> rc_state.
  Variable init : rc_state.
  Variable feats : list (string * nat).
  Notation resp s strain := (compute_stress_path n_dim cos su init feats true (sm_order s) strain).

  (** homoscedastic noise on the strains themselves *)
  Definition plain_noise (c : noise_settings) : Prop :=
    ns_variability c = "homoscedastic"%string /\ ns_scaler c = None /\ ns_denoise c = false.
  (** the strain path has one column per component *)
  Definition well_shaped (s : sample) : Prop := shape (length (sm_strain s)) (length (sm_order s)) (sm_strain s).
  (** A noisy sample of a sample: the strains plus a noise that is null at the
      first time and otherwise the noise drawn from position k; the stresses are
      the response to the noisy strains. *)
  Definition noisy_of (e : nat -> nat -> R) (s s' : sample) : Prop :=
    sm_order s' = sm_order s /\ sm_time s' = sm_time s /\ shape (length (sm_strain s)) (length (sm_order s)) (sm_strain s') /\
    (forall t j, (t < length (sm_strain s))%nat -> (j < length (sm_order s))%nat ->
       at_ (sm_strain s') t j = at_ (sm_strain s) t j + (if Nat.eqb t 0 then 0 else e t j)) /\
    (exists ns, sm_strain_noise s' = Some ns /\ shape (length (sm_strain s)) (length (sm_order s)) ns /\
       forall t j, (t < length (sm_strain s))%nat -> (j < length (sm_order s))%nat -> at_ (sm_strain s') t j = at_ (sm_strain s) t j + at_ ns t j) /\
    (exists o, resp s (sm_strain s') = Ok o /\ po_fail o = false /\ sm_stress s' = po_stress o /\ sm_state s' = po_state o) /\
    sm_stress_noise s' = Some (msub (sm_stress s') (sm_stress s)).

  Section Law.
    Variable c : noise_settings.
    Hypothesis PN : plain_noise c.
    Variable F : nat -> nat -> nat -> nat -> R.  (* number of columns, position, time, column *)
    Variable step : nat -> nat -> nat.
    Hypothesis GEN : forall T n k, exists path, generate_noise_path unif gauss (ns_generator c) T n "homoscedastic" None k = Ok (path, (k + step T n)%nat) /\
      shape T n path /\ forall t j, (t < T)%nat -> (j < n)%nat -> at_ path t j = F n k t j.
    Lemma noisy_trial_plain s nz q r : well_shaped s -> noisy_trial unif gauss n_dim cos su init feats c s nz q = Ok r ->
      exists noise strain o, r = (noise, strain, o, nz, (q + step (length (sm_strain s)) (length (sm_order s)))%nat) /\
        shape (length (sm_strain s)) (length (sm_order s)) noise /\ strain = madd (sm_strain s) noise /\
        (forall t j, (t < length (sm_strain s))%nat -> (j < length (sm_order s))%nat -> at_ noise t j = if Nat.eqb t 0 then 0 else F (length (sm_order s)) q t j) /\
        resp s strain = Ok o.
    Proof.
      intros WS H. destruct PN as (V & SC & DN). unfold noisy_trial, het_weights in H. rewrite V in H. cbn [String.eqb Ascii.eqb Bool.eqb rbind fst snd] in H.
      destruct (GEN (length (sm_strain s)) (length (sm_order s)) q) as (path & E & SH & AT). rewrite E in H. cbn [rbind fst snd] in H.
      unfold noisy_strain in H. rewrite SC, DN in H. cbn [rbind] in H. destruct (zero_first_at _ _ _ SH) as (SZ & AZ).
      destruct (resp s (madd (sm_strain s) (zero_first path))) as [o|] eqn:C; cbn [rbind] in H; [|discriminate]. injection H as <-.
      exists (zero_first path), (madd (sm_strain s) (zero_first path)), o. repeat (split; auto).
      intros t j Ht Hj. rewrite AZ by auto. destruct (Nat.eqb_spec t 0); auto.
    Qed.
    Lemma noisy_trials_plain : forall left s nz q s' nz' q', well_shaped s ->
      noisy_trials unif gauss n_dim cos su init feats c left s nz q = Ok (s', nz', q') ->
      nz' = nz /\ exists m, (m < left)%nat /\ let k := (q + m * step (length (sm_strain s)) (length (sm_order s)))%nat in
        q' = (k + step (length (sm_strain s)) (length (sm_order s)))%nat /\ noisy_of (F (length (sm_order s)) k) s s'.
    Proof.
      induction left as [|left IH]; intros s nz q s' nz' q' WS H; cbn [noisy_trials] in H;
        (destruct (noisy_trial unif gauss n_dim cos su init feats c s nz q) as [r|] eqn:T; cbn [rbind] in H; [|discriminate]);
        destruct (noisy_trial_plain s nz q r WS T) as (noise & strain & o & -> & SN & -> & AN & C); [discriminate|].
      destruct (po_fail o) eqn:PF.
      - destruct (IH _ _ _ _ _ _ WS H) as (-> & m & Hm & Q & N). split; auto. exists (S m). split; [lia|]. cbv zeta in *. split; [lia|].
        replace (q + S m * step (length (sm_strain s)) (length (sm_order s)))%nat
          with (q + step (length (sm_strain s)) (length (sm_order s)) + m * step (length (sm_strain s)) (length (sm_order s)))%nat by lia. exact N.
      - injection H as <- <- <-. split; auto. exists 0%nat. split; [lia|]. cbv zeta. rewrite Nat.mul_0_l, Nat.add_0_r. split; auto.
        destruct (madd_at _ _ _ _ WS SN) as (SM & AM). unfold noisy_of. cbn [sm_order sm_time sm_strain sm_stress sm_state sm_strain_noise sm_stress_noise].
        repeat (split; [reflexivity|]). split; [exact SM|]. split; [intros t j Ht Hj; rewrite AM, AN by auto; reflexivity|].
        split; [exists noise; repeat split; auto; apply SN|]. split; [exists o; auto|reflexivity].
    Qed.
    (** Every sample of the noisy data set is a noisy sample of the sample at the
        same place of the noiseless data set. *)
    Theorem noisy_dataset_law : forall l nz q ds, (forall s, In s l -> well_shaped s) ->
      generate_noisy_dataset unif gauss n_dim cos su init feats c l nz q = Ok ds ->
      l <> [] /\ Forall2 (fun s s' => exists k, noisy_of (F (length (sm_order s)) k) s s') l ds.
    Proof.
      intros l nz q ds WS. unfold generate_noisy_dataset.
      destruct (noisy_samples unif gauss n_dim cos su init feats c l nz q) as [r|] eqn:N; cbn [rbind]; [|discriminate].
      unfold average_time. intros H. split; [intros ->; discriminate|]. destruct (length l =? 0)%nat; [discriminate|]. injection H as <-.
      revert nz q r N. induction l as [|s l IH]; intros nz q r N; [injection N as <-; constructor|]. cbn [noisy_samples] in N.
      destruct (noisy_trials unif gauss n_dim cos su init feats c max_path_trials s nz q) as [[[s' nz'] q']|] eqn:T; cbn [rbind fst snd] in N; [|discriminate].
      destruct (noisy_samples unif gauss n_dim cos su init feats c l nz' q') as [rest|] eqn:T'; cbn [rbind] in N; [|discriminate]. injection N as <-.
      constructor; [|eapply IH; [intros; apply WS; right; auto|exact T']].
      destruct (noisy_trials_plain _ _ _ _ _ _ _ (WS s (or_introl eq_refl)) T) as (_ & m & _ & _ & P). eauto.
    Qed.
    (** A null noise gives back the strains and the responses. *)
    Theorem noisy_dataset_null : (forall n k t j, F n k t j = 0) -> forall l nz q,
      l <> [] -> (forall s, In s l -> well_shaped s /\ exists o, resp s (sm_strain s) = Ok o /\ po_fail o = false /\ sm_stress s = po_stress o /\ sm_state s = po_state o) ->
      exists ds, generate_noisy_dataset unif gauss n_dim cos su init feats c l nz q = Ok ds /\
        Forall2 (fun s s' => sm_order s' = sm_order s /\ sm_time s' = sm_time s /\ sm_strain s' = sm_strain s /\ sm_stress s' = sm_stress s /\ sm_state s' = sm_state s) l ds.
    Proof.
      intros Z l nz q NE H. unfold generate_noisy_dataset.
      assert (G : forall nz q, exists ds, noisy_samples unif gauss n_dim cos su init feats c l nz q = Ok ds /\
        Forall2 (fun s s' => sm_order s' = sm_order s /\ sm_time s' = sm_time s /\ sm_strain s' = sm_strain s /\ sm_stress s' = sm_stress s /\ sm_state s' = sm_state s) l ds).
      { clear nz q NE. induction l as [|s l IH]; intros nz q; [exists []; split; [reflexivity|constructor]|].
        destruct (H s (or_introl eq_refl)) as (WS & o & C & PF & E1 & E2). cbn [noisy_samples].
        assert (T : exists noise, noisy_trial unif gauss n_dim cos su init feats c s nz q = Ok (noise, sm_strain s, o, nz, (q + step (length (sm_strain s)) (length (sm_order s)))%nat)).
        { destruct PN as (V & SC & DN). unfold noisy_trial, het_weights. rewrite V. cbn [String.eqb Ascii.eqb Bool.eqb rbind fst snd].
          destruct (GEN (length (sm_strain s)) (length (sm_order s)) q) as (path & E & SH & AT). rewrite E. cbn [rbind fst snd].
          unfold noisy_strain. rewrite SC, DN. cbn [rbind]. destruct (zero_first_at _ _ _ SH) as (SZ & AZ). destruct (madd_at _ _ _ _ WS SZ) as (SM & AM).
          exists (zero_first path). replace (madd (sm_strain s) (zero_first path)) with (sm_strain s).
          - rewrite C. reflexivity.
          - apply (shape_ext _ _ _ _ WS SM). intros t j Ht Hj. rewrite AM, AZ, AT, Z by auto. destruct (t =? 0)%nat; lra. }
        destruct T as (noise & T). unfold max_path_trials. cbn [noisy_trials]. rewrite T. cbn [rbind]. rewrite PF. cbn [rbind fst snd].
        destruct (IH (fun s' I => H s' (or_intror I)) nz (q + step (length (sm_strain s)) (length (sm_order s)))%nat) as (ds & -> & F2). cbn [rbind].
        eexists. split; [reflexivity|]. constructor; auto. }
      destruct (G nz q) as (ds & -> & F2). cbn [rbind]. exists ds. split; auto. unfold average_time. destruct l; [congruence|reflexivity].
    Qed.
  End Law.

  (** The law of the uniform and of the Gaussian generator. *)
  Theorem noisy_uniform : forall c amp l nz q ds, plain_noise c -> uniform amp (ns_generator c) -> (forall s, In s l -> well_shaped s) ->
    generate_noisy_dataset unif gauss n_dim cos su init feats c l nz q = Ok ds ->
    Forall2 (fun s s' => exists k, noisy_of (fun t j => Rabs amp * (unif (pos (length (sm_order s)) k t j) - 1 / 2)) s s') l ds.
  Proof.
    intros c amp l nz q ds PN U WS G.
    destruct (noisy_dataset_law c PN (fun n k t j => Rabs amp * (unif (pos n k t j) - 1 / 2)) (fun T n => (T * n)%nat)) with (l := l) (nz := nz) (q := q) (ds := ds) as (_ & H); auto.
    intros T n k. apply noise_uniform. exact U.
  Qed.
  Theorem noisy_gaussian : forall c std l nz q ds, plain_noise c -> gaussian std (ns_generator c) -> not_spiked (ns_generator c) -> 0 <= std ->
    (forall s, In s l -> well_shaped s) -> generate_noisy_dataset unif gauss n_dim cos su init feats c l nz q = Ok ds ->
    Forall2 (fun s s' => exists k, noisy_of (fun t j => std * gauss (pos (length (sm_order s)) k t j)) s s') l ds.
  Proof.
    intros c std l nz q ds PN U NS P WS G.
    destruct (noisy_dataset_law c PN (fun n k t j => std * gauss (pos n k t j)) (fun T n => (T * n)%nat)) with (l := l) (nz := nz) (q := q) (ds := ds) as (_ & H); auto.
    intros T n k. apply noise_gaussian; auto.
  Qed.
  (** Uniform noise stays within half the amplitude. *)
  Theorem noisy_uniform_bounded : forall c amp l nz q ds, plain_noise c -> uniform amp (ns_generator c) -> (forall q, 0 <= unif q <= 1) -> (forall s, In s l -> well_shaped s) ->
    generate_noisy_dataset unif gauss n_dim cos su init feats c l nz q = Ok ds ->
    Forall2 (fun s s' => nth 0 (sm_strain s') [] = nth 0 (sm_strain s) [] /\
      forall t j, (t < length (sm_strain s))%nat -> (j < length (sm_order s))%nat -> Rabs (at_ (sm_strain s') t j - at_ (sm_strain s) t j) <= Rabs amp / 2) l ds.
  Proof.
    intros c amp l nz q ds PN U B WS G. pose proof (noisy_uniform c amp l nz q ds PN U WS G) as H.
    assert (WS2 : forall s, In s l -> well_shaped s) by auto. clear G WS. induction H as [|s s' l ds (k & N) H IH]; constructor; [|apply IH; intros; apply WS2; right; auto].
    destruct N as (_ & _ & SH & V & _). split.
    - destruct (WS2 s (or_introl eq_refl)) as (L & W). destruct SH as (L' & W').
      destruct (sm_strain s) as [|r st] eqn:ES; [destruct (sm_strain s'); [reflexivity|discriminate]|]. rewrite <- ES in *.
      assert (L0 : (0 < length (sm_strain s))%nat) by (rewrite ES; cbn; lia).
      apply (nth_ext _ _ 0 0); [rewrite (W' (nth 0 (sm_strain s') [])), (W (nth 0 (sm_strain s) [])) by (apply nth_In; lia); reflexivity|].
      intros j Hj. rewrite (W' (nth 0 (sm_strain s') [])) in Hj by (apply nth_In; lia).
      specialize (V 0%nat j L0 Hj). unfold at_ in V. cbn [Nat.eqb] in V. lra.
    - intros t j Ht Hj. rewrite V by auto. pose proof (Rabs_pos amp). specialize (B (pos (length (sm_order s)) k t j)).
      destruct (t =? 0)%nat; [replace (_ + 0 - _) with 0 by ring; rewrite Rabs_R0; lra|].
      replace (at_ (sm_strain s) t j + Rabs amp * (unif (pos (length (sm_order s)) k t j) - 1 / 2) - at_ (sm_strain s) t j)
        with (Rabs amp * (unif (pos (length (sm_order s)) k t j) - 1 / 2)) by ring.
      apply Rabs_le. split; nra.
  Qed.
  (** The denoised strains start at the clean strain (without a scaler). *)
  Theorem denoised_first_row : forall c s noise p, ns_scaler c = None -> ns_denoise c = true -> noisy_strain c (sm_strain s) noise = Ok p ->
    nth 0 p [] = nth 0 (sm_strain s) [].
  Proof.
    intros c s noise p SC DN. unfold noisy_strain. rewrite SC, DN. destruct (denoise_rows _) as [d|]; cbn [rbind]; [|discriminate].
    destruct d; [discriminate|]. intros H. injection H as <-. reflexivity.
  Qed.
  (** The heteroscedastic noise of an imported generator fails. *)
  Theorem noisy_heteroscedastic_import_refuted : forall c s l nz q, ns_variability c = "heteroscedastic"%string -> ns_is_main c = false ->
    generate_noisy_dataset unif gauss n_dim cos su init feats c (s :: l) nz q = Err NameError.
  Proof.
    intros c s l nz q V M. unfold generate_noisy_dataset. cbn [noisy_samples]. unfold max_path_trials. cbn [noisy_trials].
    unfold noisy_trial, het_weights. rewrite V, M. reflexivity.
  Qed.
End Noise.

(** ** Counterexamples: one component, the stress is the strain increment *)
Definition one_order : list comp := [(1, 1)%nat].
Definition one_sample (strain : list (list R)) : sample :=
  {| sm_order := one_order; sm_time := map (fun _ => 0) strain; sm_strain := strain; sm_stress := []; sm_state := [];
     sm_strain_noise := None; sm_stress_noise := None |}.
Definition one_settings (amp : R) (variability : string) (den : bool) sc : noise_settings :=
  {| ns_generator := NoiseGen (Some "uniform"%string) (Some [("amp"%string, amp)]); ns_variability := variability; ns_denoise := den;
     ns_scaler := sc; ns_is_main := true |}.
Notation one_noisy amp v den sc := (generate_noisy_dataset (fun _ => 1) (fun _ => 0) 1 one_order plain_su plain_init [] (one_settings amp v den sc)).
Lemma one_path strain : (forall r, In r strain -> length r = 1%nat) -> exists o, compute_stress_path 1 one_order plain_su plain_init [] true one_order strain = Ok o /\ po_fail o = false.
Proof.
  intros W. destruct strain as [|r0 rest] eqn:ES; [eexists; split; reflexivity|].
  assert (SO1 : sym_order 1 one_order).
  { split; [repeat constructor; cbn; tauto|]. split; [intros c [<-|[]]; unfold comp_in; cbn; lia|].
    split; [intros i j Hi Hj; left; left; f_equal; lia|]. intros i j N [Q|[]] [Q'|[]]. congruence. }
  destruct (stress_path_law 1 one_order plain_su plain_init [] true one_order SO1 SO1) with (A := fun _ : string => true) (rows := strain) (E := tensors one_order strain)
    as (o & E & F & _).
  - intros e e' s Q. unfold plain_su. rewrite (Q 0%nat 0%nat) by lia. reflexivity.
  - constructor.
  - intros k Hk. apply vbuild_reads; auto. apply W. rewrite <- ES. apply nth_In. auto.
  - intros k ((H1 & _) & _). destruct k as [|k]; [lia|]. eexists. split; reflexivity.
  - intros k f _ [].
  - right. right. intros f [].
  - rewrite ES. cbn. lia.
  - exists o. rewrite <- ES. split; auto. destruct (po_fail o); auto. destruct (proj1 F eq_refl) as (k & Hk & Q). destruct k as [|k]; [lia|]. discriminate.
Qed.
Lemma one_generated amp v den sc s nz q noise g nz' q' strain :
  het_weights 1 (one_settings amp v den sc) s nz = Ok (g, nz') ->
  generate_noise_path (fun _ => 1) (fun _ => 0) (ns_generator (one_settings amp v den sc)) (length (sm_strain s)) (length (sm_order s)) v g q = Ok (noise, q') ->
  noisy_strain (one_settings amp v den sc) (sm_strain s) (zero_first noise) = Ok strain -> (forall r, In r strain -> length r = 1%nat) -> sm_order s = one_order ->
  exists s', noisy_trials (fun _ => 1) (fun _ => 0) 1 one_order plain_su plain_init [] (one_settings amp v den sc) max_path_trials s nz q = Ok (s', nz', q') /\
    sm_strain s' = strain /\ sm_strain_noise s' = Some (zero_first noise).
Proof.
  intros H G N W O. destruct (one_path strain W) as (o & C & PF). unfold max_path_trials. cbn [noisy_trials]. unfold noisy_trial. rewrite H. cbn [rbind fst snd].
  cbn [ns_variability one_settings] in *. rewrite G. cbn [rbind fst snd]. rewrite N. cbn [rbind]. rewrite O, C. cbn [rbind]. rewrite PF. eexists. split; [reflexivity|]. split; reflexivity.
Qed.
Ltac leq := repeat match goal with
  | |- Ok _ = Ok _ => apply f_equal | |- Some _ = Some _ => apply f_equal | |- (_, _) = (_, _) => apply f_equal2 | |- cons _ _ = cons _ _ => apply f_equal2
  | |- nil = nil => reflexivity | |- @eq R _ _ => first [lra | field; lra] | |- @eq nat _ _ => lia end.
Definition halves : (list (list R) -> list (list R)) * (list (list R) -> list (list R)) :=
  (map (map (fun x => x / 2)), map (map (fun x => 2 * x))).
Lemma halves_inverse p : snd halves (fst halves p) = p.
Proof.
  unfold halves. cbn [fst snd]. rewrite map_map. rewrite <- (map_id p) at 2. apply map_ext. intros r. rewrite map_map. rewrite <- (map_id r) at 2.
  apply map_ext. intros x. field.
Qed.
(** With a scaler the stored strain noise is not the difference between the
    noisy and the noiseless strains. *)
Theorem noisy_scaler_noise_refuted : exists s s' ns,
  (forall p, snd halves (fst halves p) = p) /\ one_noisy 2 "homoscedastic"%string false (Some halves) [s] None 0 = Ok [s'] /\
  sm_strain_noise s' = Some ns /\ at_ (sm_strain s') 1 0 - at_ (sm_strain s) 1 0 = 2 * at_ ns 1 0 /\ at_ ns 1 0 <> 0.
Proof.
  set (s := one_sample [[0]; [4]]).
  destruct (one_generated 2 "homoscedastic" false (Some halves) s None 0 [[1]; [1]] None None 2 [[0]; [6]]) as (s' & T & E1 & E2).
  - reflexivity.
  - cbn. unfold hom_noise, param. cbn. unfold grid, np_uniform. cbn. rewrite (Rabs_right 2) by lra. leq.
  - unfold noisy_strain. cbn. unfold halves. cbn. leq.
  - intros r [<-|[<-|[]]]; reflexivity.
  - reflexivity.
  - exists s, s', (zero_first [[1]; [1]]). split; [exact halves_inverse|].
    split; [unfold generate_noisy_dataset; cbn [noisy_samples]; rewrite T; reflexivity|]. split; [exact E2|].
    rewrite E1. unfold at_. cbn. split; lra.
Qed.
(** With a scaler the denoised strains start at the normalised strain. *)
Theorem denoised_scaler_refuted : exists s s',
  one_noisy 0 "homoscedastic"%string true (Some halves) [s] None 0 = Ok [s'] /\ nth 0 (sm_strain s) [] = [2] /\ nth 0 (sm_strain s') [] = [1].
Proof.
  set (s := one_sample [[2]; [2]; [2]; [2]; [2]; [2]]).
  destruct (denoise_rows [[2]; [2]; [2]; [2]; [2]; [2]]) as [d|] eqn:ED; [|discriminate].
  assert (LD : length d = 6%nat /\ forall r, In r d -> length r = 1%nat).
  { unfold denoise_rows, denoise in ED. cbn [Nat.iter length nth seq map rbind] in ED. injection ED as <-. split; [reflexivity|].
    intros r I. repeat (destruct I as [<-|I]; [reflexivity|]). destruct I. }
  destruct LD as (LD & LR). destruct d as [|d0 d]; [discriminate|].
  destruct (one_generated 0 "homoscedastic" true (Some halves) s None 0 [[0]; [0]; [0]; [0]; [0]; [0]] None None 6 ([1] :: d)) as (s' & T & E1 & E2).
  - reflexivity.
  - cbn. unfold hom_noise, param. cbn. unfold grid, np_uniform. cbn. rewrite Rabs_R0. leq.
  - unfold noisy_strain. cbn [ns_scaler ns_denoise one_settings].
    replace (snd halves (madd (fst halves (sm_strain s)) (zero_first [[0]; [0]; [0]; [0]; [0]; [0]]))) with [[2]; [2]; [2]; [2]; [2]; [2]] by (cbn; leq).
    rewrite ED. cbn [rbind]. replace (nth 0 (fst halves (sm_strain s)) []) with [1] by (cbn; leq). reflexivity.
  - intros r [<-|I]; [reflexivity|]. apply LR. right. auto.
  - reflexivity.
  - exists s, s'. split; [unfold generate_noisy_dataset; cbn [noisy_samples]; rewrite T; reflexivity|]. split; [reflexivity|]. rewrite E1. reflexivity.
Qed.
(** The normaliser of heteroscedastic noise is that of the first path of the
    data set: the noise of a path depends on the paths before it. *)
Theorem noisy_normaliser_refuted : exists s1 s2 a b b',
  one_noisy 2 "heteroscedastic"%string false None [s2] None 0 = Ok [b] /\
  one_noisy 2 "heteroscedastic"%string false None [s1; s2] None 0 = Ok [a; b'] /\
  at_ (sm_strain b) 1 0 = 6 /\ at_ (sm_strain b') 1 0 = 7.
Proof.
  set (s1 := one_sample [[0]; [2]]). set (s2 := one_sample [[0]; [4]]).
  assert (NORM : forall x, 0 <= x -> compute_norm_path 1 [[0]; [x]] one_order = Ok [0; x]).
  { intros x Hx. unfold compute_norm_path. cbn. unfold frobenius, set2. cbn. rewrite ?Rplus_0_l, ?Rplus_0_r. rewrite !sqrt_square by lra. reflexivity. }
  assert (HW0 : forall x, 0 < x -> het_weights 1 (one_settings 2 "heteroscedastic" false None) (one_sample [[0]; [x]]) None = Ok (Some [0; 1], Some x)).
  { intros x Hx. unfold het_weights. cbn [ns_variability ns_is_main one_settings String.eqb Ascii.eqb Bool.eqb negb sm_strain sm_order one_sample].
    rewrite NORM by lra. cbn [rbind np_max]. rewrite Rmax_right by lra. destruct (Req_EM_T x 0); [lra|]. cbn. leq. }
  assert (HW1 : het_weights 1 (one_settings 2 "heteroscedastic" false None) s2 (Some 2) = Ok (Some [0; 2], Some 2)).
  { unfold het_weights. cbn [ns_variability ns_is_main one_settings String.eqb Ascii.eqb Bool.eqb negb sm_strain sm_order one_sample s2].
    rewrite NORM by lra. cbn [rbind]. destruct (Req_EM_T 2 0); [lra|]. cbn. leq. }
  assert (GN : forall w q, generate_noise_path (fun _ => 1) (fun _ => 0) (ns_generator (one_settings 2 "heteroscedastic" false None)) 2 1 "heteroscedastic" (Some [0; w]) q
     = Ok ([[1]; [1 + w]], (q + 4)%nat)).
  { intros w q. cbn. unfold het_step, param. cbn. rewrite (Rabs_right 2) by lra. unfold np_uniform. cbn. leq. }
  destruct (one_generated 2 "heteroscedastic" false None s2 None 0 [[1]; [1 + 1]] (Some [0; 1]) (Some 4) 4 [[0]; [6]]) as (b & TB & EB & _).
  { apply HW0. lra. } { apply GN. } { unfold noisy_strain. cbn. leq. } { intros r [<-|[<-|[]]]; reflexivity. } { reflexivity. }
  destruct (one_generated 2 "heteroscedastic" false None s1 None 0 [[1]; [1 + 1]] (Some [0; 1]) (Some 2) 4 [[0]; [4]]) as (a & TA & EA & _).
  { apply HW0. lra. } { apply GN. } { unfold noisy_strain. cbn. leq. } { intros r [<-|[<-|[]]]; reflexivity. } { reflexivity. }
  destruct (one_generated 2 "heteroscedastic" false None s2 (Some 2) 4 [[1]; [1 + 2]] (Some [0; 2]) (Some 2) 8 [[0]; [7]]) as (b' & TB' & EB' & _).
  { exact HW1. } { apply GN. } { unfold noisy_strain. cbn. leq. } { intros r [<-|[<-|[]]]; reflexivity. } { reflexivity. }
  exists s1, s2, a, b, b'. unfold generate_noisy_dataset. cbn [noisy_samples]. rewrite TB, TA. cbn [rbind fst snd]. rewrite TB'. cbn [rbind fst snd].
  split; [reflexivity|]. split; [reflexivity|]. rewrite EB, EB'. split; reflexivity.
Qed.

(** ** Cases *)
(** The first drawn path fails, the second and the third do not. *)
Definition brittle_su (e : T2) (s : rc_state) : rc_state :=
  {| rc_vars := [("stress_mf"%string, [2 * e 0%nat 0%nat])]; rc_fail := rltb 5 (e 0%nat 0%nat) |}.
Definition ex_draw (q : nat) : list comp * list R * list (list R) := (one_order, [0; 1], [[0]; [if Nat.eqb q 0 then 9 else INR q]]).
Example ex_dataset : exists ds,
  generate_response_dataset 1 one_order brittle_su plain_init [] false ex_draw 2 "random" "elastic" = Ok ds /\
  map sm_strain ds = [[[0]; [1]]; [[0]; [2]]] /\ map sm_stress ds = [[[0]; [2]]; [[0]; [4]]] /\
  gen_from_strain_dataset 1 one_order brittle_su plain_init [] false (Some ds) "elastic" = Ok ds.
Proof.
  set (o0 := {| po_stress := [[0]; [0]]; po_state := []; po_fail := true |}).
  assert (R : forall x, compute_stress_path 1 one_order brittle_su plain_init [] false one_order [[0]; [x]]
     = Ok (if rltb 5 (x - 0) then o0 else {| po_stress := [[0]; [1 / 1 * (2 * (x - 0))]]; po_state := []; po_fail := false |})).
  { intros x. cbn. unfold set2. cbn. destruct (rltb 5 (x - 0)); [reflexivity|]. cbn. unfold set2. cbn. reflexivity. }
  assert (G : generate_response_dataset 1 one_order brittle_su plain_init [] false ex_draw 2 "random" "elastic"
     = Ok [sample_of (ex_draw 1) {| po_stress := [[0]; [2]]; po_state := []; po_fail := false |}; sample_of (ex_draw 2) {| po_stress := [[0]; [4]]; po_state := []; po_fail := false |}]).
  { unfold generate_response_dataset. cbn [known_path_type known_model]. change (known_path_type "random") with true. change (known_model "elastic") with true. cbn [negb].
    cbn [generate_samples]. unfold max_path_trials. cbn [trials]. unfold material_response, ex_draw. cbn [fst snd Nat.eqb INR]. rewrite !R.
    replace (rltb 5 (9 - 0)) with true by (symmetry; apply rltb_true; lra). cbn [rbind po_fail o0]. replace (rltb 5 (1 - 0)) with false by (symmetry; apply rltb_false; lra).
    cbn [rbind po_fail fst snd trials]. unfold material_response, ex_draw. cbn [fst snd Nat.eqb INR]. rewrite !R. replace (rltb 5 (1 + 1 - 0)) with false by (symmetry; apply rltb_false; lra).
    cbn [rbind po_fail fst snd]. unfold average_time. cbn [Nat.eqb]. do 2 f_equal; [|f_equal]; unfold sample_of; f_equal; cbn; leq. }
  eexists. split; [exact G|]. split; [cbn; leq|]. split; [reflexivity|]. apply (regenerate_same _ _ _ _ _ _ _ _ _ _ _ G).
Qed.
(** Three tables; the second has no stress. *)
Definition ex_last (f : string) : option nat := if String.eqb f "p_2.csv" then Some 2%nat else if String.eqb f "p_3.csv" then Some 3%nat else Some 10%nat.
Definition ex_table (t s : R) : frame := Frame 13 [[t; 0; 0; 0; 0; 0; 0; s; 0; 0; 0; 0; 0]].
Example ex_csv : exists ds,
  gen_from_csv 3 order_sym_3d ex_last [("p_10.csv", ex_table 10 1); ("p_3.csv", ex_table 3 0); ("p_2.csv", ex_table 2 5)]%string true None = Ok ds /\
  map sm_time ds = [[2]; [10]] /\ map sm_stress ds = [[[5; 0; 0; 0; 0; 0]]; [[1; 0; 0; 0; 0; 0]]].
Proof.
  assert (Z : rleb (Rabs 0) (1 / 100000000) = true) by (rewrite Rabs_R0; unfold rleb; destruct (Rle_dec 0 (1 / 100000000)); [reflexivity|lra]).
  assert (N : forall x, 1 <= x -> rleb (Rabs x) (1 / 100000000) = false) by (intros x Hx; rewrite Rabs_right by lra; unfold rleb; destruct (Rle_dec x (1 / 100000000)); [lra|reflexivity]).
  unfold gen_from_csv. cbn [negb]. unfold read_sample, null_path. cbn.
  rewrite ?Z, ?(N 5), ?(N 1) by lra. cbn. eexists. split; [reflexivity|]. split; reflexivity.
Qed.
Print Assumptions dataset_first_successes.
Print Assumptions regenerate_same.
Print Assumptions csv_dataset_law.
Print Assumptions noisy_dataset_null.
Print Assumptions noisy_uniform_bounded.
Print Assumptions noisy_normaliser_refuted.
