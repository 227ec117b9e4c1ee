(** Properties of the scripts on directories of case studies (CaseDirsModel). *)
From Coq Require Import String Ascii List Bool Arith Lia.
From Verif Require Import Lib PyStr PyDict FileFindModel FileFindProps CaseDirsModel.
Import ListNotations.
Local Open Scope string_scope.
Local Open Scope list_scope.

(** Specification: a path strictly beneath a directory. *)
Definition under (p q : fpath) : Prop := exists rest, rest <> [] /\ q = p ++ rest.
Definition apart (p q : fpath) : Prop := forall r s, p ++ r <> q ++ s.

Lemma strip_some p q r : strip p q = Some r <-> q = p ++ r.
Proof.
  revert q. induction p as [|a p IH]; intros q; cbn [strip app]; [split; congruence|].
  destruct q as [|b q]; [split; discriminate|]. destruct (String.eqb_spec a b) as [->|N]; [rewrite IH; split; congruence|]. split; congruence.
Qed.
Lemma beneath_iff p q : beneath p q = true <-> under p q.
Proof.
  unfold beneath, under. destruct (strip p q) as [r|] eqn:E.
  - apply strip_some in E. destruct r as [|h t].
    + split; [discriminate|]. intros (rest & N & Q). rewrite E in Q. apply app_inv_head in Q. congruence.
    + split; [intros _; exists (h :: t); split; [discriminate|exact E]|reflexivity].
  - split; [discriminate|]. intros (rest & N & Q). apply strip_some in Q. congruence.
Qed.
Lemma beneath_not p q : beneath p q = false <-> ~ under p q.
Proof. rewrite <- beneath_iff. destruct (beneath p q); split; congruence. Qed.
Lemma under_dec p q : {under p q} + {~ under p q}.
Proof. destruct (beneath p q) eqn:E; [left; now apply beneath_iff|right; now apply beneath_not]. Qed.

Section Fs.
  Context {C : Type}.
  Implicit Types fs : files C.
  Lemma isdir_iff p fs : isdir p fs = true <-> exists q c, In (q, c) fs /\ under p q.
  Proof.
    unfold isdir. rewrite existsb_exists. split.
    - intros ([q c] & I & B). exists q, c. split; [exact I|now apply beneath_iff].
    - intros (q & c & I & U). exists (q, c). split; [exact I|now apply beneath_iff].
  Qed.
  Lemma rmtree_in p fs fs' : rmtree p fs = Some fs' -> forall q c, In (q, c) fs' <-> In (q, c) fs /\ ~ under p q.
  Proof.
    unfold rmtree. destruct (isdir p fs); [|discriminate]. intros H q c. injection H as <-. rewrite filter_In. cbn. rewrite negb_true_iff, beneath_not. reflexivity.
  Qed.
  Lemma listdir_in p fs names : listdir p fs = Some names -> forall n, In n names <-> exists t c, In (p ++ n :: t, c) fs.
  Proof.
    unfold listdir. destruct (isdir p fs); [|discriminate]. intros H n. injection H as <-. rewrite nodup_In, in_flat_map. split.
    - intros ([q c] & I & J). cbn in J. destruct (strip p q) as [[|h t]|] eqn:E; try contradiction. destruct J as [->|[]]. apply strip_some in E. subst q. now exists t, c.
    - intros (t & c & I). exists (p ++ n :: t, c). split; [exact I|]. cbn. replace (strip p (p ++ n :: t)) with (Some (n :: t)) by (symmetry; now apply strip_some). now left.
  Qed.
  Lemma listdir_some p fs : isdir p fs = true <-> exists names, listdir p fs = Some names.
  Proof. unfold listdir. destruct (isdir p fs); split; eauto; [discriminate|]. intros [x H]. discriminate. Qed.

  (** A loop of steps, each of which removes some paths. *)
  Lemma removal_loop {X} (f : X -> files C -> option (files C)) (gone : X -> fpath -> Prop) (l : list X) :
    (forall x fs fs', f x fs = Some fs' -> forall q c, In (q, c) fs' <-> In (q, c) fs /\ ~ gone x q) ->
    forall fs fs', for_all_of f l fs = Some fs' -> forall q c, In (q, c) fs' <-> In (q, c) fs /\ forall x, In x l -> ~ gone x q.
  Proof.
    intros S. induction l as [|x l IH]; intros fs fs' H q c; cbn in H.
    - injection H as <-. cbn. split; [intros I; split; [exact I|tauto]|tauto].
    - destruct (f x fs) as [fs1|] eqn:E; [|discriminate]. rewrite (IH _ _ H), (S _ _ _ E). cbn. split.
      + intros [[I N] A]. split; [exact I|]. intros y [<-|J]; auto.
      + intros [I A]. split; [split; [exact I|apply A; now left]|]. intros y J. apply A. now right.
  Qed.

  (** Plots are removed from the data sets, and nothing else. *)
  Theorem plots_removed cases fs fs' : for_all_of remove_plots cases fs = Some fs' -> forall q c,
    In (q, c) fs' <-> In (q, c) fs /\ ~ exists case ds, In case cases /\
      In ds ["1_training_dataset"; "2_validation_dataset"; "5_testing_id_dataset"; "6_testing_od_dataset"] /\ under (case ++ [ds; "plots"]) q.
  Proof.
    change ["1_training_dataset"; "2_validation_dataset"; "5_testing_id_dataset"; "6_testing_od_dataset"] with dataset_types.
    intros H q c. rewrite (removal_loop remove_plots (fun case q => exists ds, In ds dataset_types /\ under (case ++ [ds; "plots"]) q) cases) with (fs := fs); [|clear|exact H].
    - split; intros [I N]; (split; [exact I|]).
      + intros (case & ds & J1 & J2 & U). apply (N case J1). now exists ds.
      + intros case J (ds & J2 & U). apply N. now exists case, ds.
    - intros case fs fs' H q c. unfold remove_plots in H. destruct (listdir case fs) as [names|] eqn:L; [|discriminate].
      match type of H with for_all_of ?f _ _ = _ => rewrite (removal_loop f (fun n q => In n dataset_types /\ under (case ++ [n; "plots"]) q) names) with (fs := fs); [| |exact H] end.
      + split; intros [I N]; (split; [exact I|]).
        * intros (ds & J & (rest & Nr & ->)). apply (N ds); [|split; [exact J|now exists rest]]. apply (listdir_in _ _ _ L). exists ("plots" :: rest), c. now rewrite <- app_assoc in I.
        * intros n _ [J U]. apply N. now exists n.
      + clear. intros n fs fs' H q c. destruct (existsb (String.eqb n) dataset_types) eqn:E.
        * apply existsb_exists in E as (x & J & Q). apply String.eqb_eq in Q. subst x. destruct (isdir _ fs) eqn:D.
          -- rewrite (rmtree_in _ _ _ H). tauto.
          -- injection H as <-. split; [|tauto]. intros I. split; [exact I|]. intros [_ U]. assert (isdir (case ++ [n; "plots"]) fs = true); [|congruence]. apply isdir_iff. now exists q, c.
        * injection H as <-. split; [|tauto]. intros I. split; [exact I|]. intros [J _]. assert (existsb (String.eqb n) dataset_types = true); [|congruence]. apply existsb_exists. exists n. split; [exact J|apply String.eqb_refl].
  Qed.
  (** Models and predictions are removed, and nothing else. *)
  Theorem models_removed cases fs fs' : for_all_of remove_models cases fs = Some fs' -> forall q c,
    In (q, c) fs' <-> In (q, c) fs /\ ~ exists case d, In case cases /\ In d ["3_model"; "7_prediction"] /\ under (case ++ [d]) q.
  Proof.
    intros H q c. rewrite (removal_loop remove_models (fun case q => exists d, In d ["3_model"; "7_prediction"] /\ under (case ++ [d]) q) cases) with (fs := fs); [|clear|exact H].
    - split; intros [I N]; (split; [exact I|]).
      + intros (case & d & J1 & J2 & U). apply (N case J1). now exists d.
      + intros case J (d & J2 & U). apply N. now exists case, d.
    - intros case fs fs' H q c. unfold remove_models in H. destruct (listdir case fs) as [names|] eqn:L; [|discriminate].
      match type of H with for_all_of ?f _ _ = _ => rewrite (removal_loop f (fun n q => In n ["3_model"; "7_prediction"] /\ under (case ++ [n]) q) names) with (fs := fs); [| |exact H] end.
      + split; intros [I N]; (split; [exact I|]).
        * intros (d & J & (rest & Nr & ->)). apply (N d); [|split; [exact J|now exists rest]]. apply (listdir_in _ _ _ L). exists rest, c. now rewrite <- app_assoc in I.
        * intros n _ [J U]. apply N. now exists n.
      + clear. intros n fs fs' H q c. destruct (existsb (String.eqb n) remove_dirnames) eqn:E.
        * apply existsb_exists in E as (x & J & Q). apply String.eqb_eq in Q. subst x. rewrite (rmtree_in _ _ _ H). unfold remove_dirnames in J. tauto.
        * injection H as <-. split; [|tauto]. intros I. split; [exact I|]. intros [J _]. assert (existsb (String.eqb n) remove_dirnames = true); [|congruence]. apply existsb_exists. exists n. split; [exact J|apply String.eqb_refl].
  Qed.

  (** Specification: the file of the prediction of a sample. *)
  Definition sample_file (is_uq : bool) (case q : fpath) : Prop :=
    exists mid digits tail, q = case ++ (if is_uq then "uncertainty_quantification" else "7_prediction") :: mid ++ [("prediction_sample_" ++ digits ++ ".pkl" ++ tail)%string] /\
      digits <> "" /\ all_digits digits = true /\ (tail = "" \/ tail = String newline "").
  Lemma sample_pattern_iff s : search sample_pattern s = true <->
    exists digits tail, s = ("prediction_sample_" ++ digits ++ ".pkl" ++ tail)%string /\ digits <> "" /\ all_digits digits = true /\ (tail = "" \/ tail = String newline "").
  Proof.
    rewrite search_iff. cbn [p_body p_start p_end sample_pattern]. split.
    - intros (a & b & c & -> & L & A & B). apply lang_cat in L as (u & v & -> & L1 & L2). apply lang_lit in L1. apply lang_cat in L2 as (d & e & -> & L3 & L4). apply lang_lit in L4. apply lang_digits in L3 as [N D].
      subst u e. rewrite (A eq_refl). exists d, c. split; [cbn [append]; now rewrite !app_assoc_str|]. split; [exact N|]. split; [exact D|]. apply B. reflexivity.
    - intros (d & t & -> & N & D & T). exists "", ("prediction_sample_" ++ d ++ ".pkl")%string, t. split; [cbn [append]; now rewrite !app_assoc_str|].
      split; [|split; [reflexivity|intros _; exact T]]. apply lang_cat. exists "prediction_sample_", (d ++ ".pkl")%string. split; [reflexivity|]. split; [now apply lang_lit|].
      apply lang_cat. exists d, ".pkl". split; [reflexivity|]. split; [now apply lang_digits|now apply lang_lit].
  Qed.
  Lemma is_sample_iff is_uq case q : is_sample case is_uq q = true <-> sample_file is_uq case q.
  Proof.
    unfold is_sample, sample_file, prediction_dirname. set (d := if is_uq then _ else _). destruct (strip (case ++ [d]) q) as [r|] eqn:E.
    - apply strip_some in E. rewrite <- app_assoc in E. cbn [app] in E. destruct r as [|h t].
      + split; [discriminate|]. intros (mid & g & u & Q & _). rewrite E in Q. apply app_inv_head in Q. injection Q as Q. symmetry in Q. now apply app_eq_nil in Q as [_ Q].
      + rewrite sample_pattern_iff. assert (X : h :: t = removelast (h :: t) ++ [last (h :: t) ""]) by (apply app_removelast_last; discriminate). split.
        * intros (g & u & S & H). exists (removelast (h :: t)), g, u. split; [|exact H]. rewrite <- S, <- X. exact E.
        * intros (mid & g & u & Q & H). exists g, u. split; [|exact H]. rewrite E in Q. apply app_inv_head in Q. injection Q as Q. rewrite Q. apply last_last.
    - split; [discriminate|]. intros (mid & g & u & Q & _). assert (strip (case ++ [d]) q = Some (mid ++ [("prediction_sample_" ++ g ++ ".pkl" ++ u)%string])); [|congruence].
      apply strip_some. rewrite Q. now rewrite <- app_assoc.
  Qed.
  Lemma sample_listed is_uq case fs names q c : listdir case fs = Some names -> In (q, c) fs -> sample_file is_uq case q -> existsb (String.eqb (prediction_dirname is_uq)) names = true.
  Proof.
    intros L I (mid & g & u & -> & _). apply existsb_exists. exists (prediction_dirname is_uq). split; [|apply String.eqb_refl]. apply (listdir_in _ _ _ L). unfold prediction_dirname. eauto.
  Qed.
  (** The files of sample predictions are removed at every depth, and nothing else. *)
  Theorem samples_removed is_uq cases fs fs' : for_all_of (remove_samples is_uq) cases fs = Some fs' -> forall q c,
    In (q, c) fs' <-> In (q, c) fs /\ ~ exists case, In case cases /\ sample_file is_uq case q.
  Proof.
    intros H q c. rewrite (removal_loop (remove_samples is_uq) (fun case q => sample_file is_uq case q) cases) with (fs := fs); [|clear|exact H].
    - split; intros [I N]; (split; [exact I|]); [intros (case & J & U); now apply (N case J)|]. intros case J U. apply N. now exists case.
    - intros case fs fs' H q c. unfold remove_samples in H. destruct (listdir case fs) as [names|] eqn:L; [|discriminate]. destruct (existsb _ names) eqn:E.
      + injection H as <-. rewrite filter_In. cbn. rewrite negb_true_iff. rewrite <- is_sample_iff. destruct (is_sample case is_uq q); intuition discriminate.
      + injection H as <-. split; [|tauto]. intros I. split; [exact I|]. intros U. now rewrite (sample_listed _ _ _ _ _ _ L I U) in E.
  Qed.
  (** Dumping again keeps the files; only predictions move to the processor. *)
  Theorem samples_redumped is_uq to_cpu case fs fs' : redump_samples is_uq to_cpu case fs = Some fs' ->
    fs' = map (fun f => if is_sample case is_uq (fst f) then (fst f, to_cpu (snd f)) else f) fs /\ map fst fs' = map fst fs.
  Proof.
    unfold redump_samples. destruct (listdir case fs) as [names|] eqn:L; [|discriminate]. intros H.
    assert (E : fs' = map (fun f => if is_sample case is_uq (fst f) then (fst f, to_cpu (snd f)) else f) fs).
    { destruct (existsb _ names) eqn:E; injection H as <-; [reflexivity|]. rewrite <- (map_id fs) at 1. apply map_ext_in. intros [q c] I. cbn.
      destruct (is_sample case is_uq q) eqn:S; [|reflexivity]. apply is_sample_iff in S. now rewrite (sample_listed _ _ _ _ _ _ L I S) in E. }
    split; [exact E|]. rewrite E, map_map. apply map_ext. intros [q c]. cbn. now destruct (is_sample case is_uq q).
  Qed.

  (** ** Copies *)
  Lemma replace_tree_in src dst fs fs' : apart src dst -> replace_tree src dst fs = Some fs' -> forall q c,
    In (q, c) fs' <-> (exists rest, rest <> [] /\ q = dst ++ rest /\ In (src ++ rest, c) fs) \/ (In (q, c) fs /\ ~ under dst q).
  Proof.
    intros A H q c. unfold replace_tree in H. assert (E : exists fs1, (forall q c, In (q, c) fs1 <-> In (q, c) fs /\ ~ under dst q) /\ copytree src dst fs1 = Some fs').
    { destruct (isdir dst fs) eqn:D.
      - destruct (rmtree dst fs) as [fs1|] eqn:R; [|discriminate]. exists fs1. split; [now apply rmtree_in|exact H].
      - exists fs. split; [|exact H]. intros q0 c0. split; [|tauto]. intros I. split; [exact I|]. intros U. assert (isdir dst fs = true); [|congruence]. apply isdir_iff. eauto. }
    destruct E as (fs1 & F1 & H1). unfold copytree in H1. destruct (isdir dst fs1); [discriminate|]. destruct (isdir src fs1); [|discriminate]. injection H1 as <-.
    rewrite in_app_iff, F1, in_flat_map. split.
    - intros [I|([q0 c0] & I & J)]; [now right|]. left. cbn in J. destruct (strip src q0) as [[|h t]|] eqn:S; try contradiction. destruct J as [J|[]]. injection J as <- <-. apply strip_some in S. subst q0.
      exists (h :: t). split; [discriminate|]. split; [reflexivity|]. now apply F1 in I.
    - intros [(rest & N & -> & I)|I]; [|now left]. right. exists (src ++ rest, c). split.
      + apply F1. split; [exact I|]. intros (r & _ & Q). now apply (A rest r).
      + cbn. replace (strip src (src ++ rest)) with (Some rest) by (symmetry; now apply strip_some). destruct rest as [|h t]; [congruence|now left].
  Qed.
  Lemma copies_in {X} (src dst : X -> fpath) (l : list X) :
    (forall x y, In x l -> In y l -> apart (src x) (dst y)) -> forall fs fs', for_all_of (fun x => replace_tree (src x) (dst x)) l fs = Some fs' ->
    (forall x y r s, In x l -> In y l -> dst x ++ r = dst y ++ s -> x = y \/ r = [] \/ s = []) -> (forall x y, In x l -> In y l -> length (dst x) = length (dst y)) ->
    forall q c, In (q, c) fs' <-> (exists x rest, In x l /\ rest <> [] /\ q = dst x ++ rest /\ In (src x ++ rest, c) fs) \/ (In (q, c) fs /\ forall x, In x l -> ~ under (dst x) q).
  Proof.
    induction l as [|x l IH]; intros A fs fs' H B L q c; cbn [for_all_of] in H.
    - injection H as <-. split; [intros I; right; split; [exact I|intros x []]|]. intros [(x & r & [] & _)|[I _]]. exact I.
    - destruct (replace_tree (src x) (dst x) fs) as [fs1|] eqn:E; [|discriminate].
      pose proof (replace_tree_in _ _ _ _ (A x x (or_introl eq_refl) (or_introl eq_refl)) E) as F.
      rewrite (IH (fun a b Ia Ib => A a b (or_intror Ia) (or_intror Ib)) fs1 fs' H (fun a b r s Ia Ib => B a b r s (or_intror Ia) (or_intror Ib)) (fun a b Ia Ib => L a b (or_intror Ia) (or_intror Ib))).
      split.
      + intros [(y & r & J & N & -> & I)|[I U]].
        * left. exists y, r. split; [now right|]. split; [exact N|]. split; [reflexivity|]. apply F in I as [(r' & _ & Q & _)|[I _]]; [|exact I]. exfalso. exact (A y x (or_intror J) (or_introl eq_refl) r r' Q).
        * apply F in I as [(r & N & -> & I)|[I V]]; [left; exists x, r; split; [now left|]; now repeat split|]. right. split; [exact I|]. intros y [<-|J]; auto.
      + intros [(y & r & [<-|J] & N & -> & I)|[I U]].
        * destruct (existsb (fun y => beneath (dst y) (dst x ++ r)) l) eqn:X1.
          -- apply existsb_exists in X1 as (y & J & V). apply beneath_iff in V as (s & Ns & Q). destruct (B x y r s (or_introl eq_refl) (or_intror J) Q) as [Exy|[->| ->]]; try congruence. subst y.
             left. exists x, r. split; [exact J|]. split; [exact N|]. split; [reflexivity|]. apply F. right. split; [exact I|]. intros (s' & _ & Q'). exact (A x x (or_introl eq_refl) (or_introl eq_refl) r s' Q').
          -- right. split; [apply F; left; now exists r|]. intros y J V. assert (existsb (fun y => beneath (dst y) (dst x ++ r)) l = true); [|congruence]. apply existsb_exists. exists y. split; [exact J|now apply beneath_iff].
        * left. exists y, r. split; [exact J|]. split; [exact N|]. split; [reflexivity|]. apply F. right. split; [exact I|]. intros (s & _ & Q). exact (A y x (or_intror J) (or_introl eq_refl) r s Q).
        * right. split; [apply F; right; split; [exact I|]; apply U; now left|]. intros y J. apply U. now right.
  Qed.
  Lemma apart_app p q a b : apart p q -> apart (p ++ a) (q ++ b).
  Proof. intros A r s Q. rewrite <- !app_assoc in Q. exact (A _ _ Q). Qed.
  (** The noisy data sets of the first data set are regrouped by noise, files and
      contents, for every size; whatever lies elsewhere stays. *)
  Theorem noise_regrouped src dest fs fs' datasets noises : apart src dest -> dataset_names src fs = Some datasets -> noise_names src fs = Some noises ->
    build_noise src dest fs = Some fs' -> forall q c, In (q, c) fs' <->
      (exists noise ds rest, In noise noises /\ In ds datasets /\ rest <> [] /\ q = dest ++ [noise; ds] ++ rest /\ In (src ++ [ds; noise] ++ rest, c) fs) \/
      (In (q, c) fs /\ forall noise ds, In noise noises -> In ds datasets -> ~ under (dest ++ [noise; ds]) q).
  Proof.
    intros A D N H q c. unfold build_noise in H. rewrite D, N in H.
    assert (H' : for_all_of (fun x => replace_tree (src ++ [snd x; fst x]) (dest ++ [fst x; snd x])) (list_prod noises datasets) fs = Some fs').
    { rewrite <- H. clear. generalize fs. induction (list_prod noises datasets) as [|[n d] l IH]; intros f; cbn; [reflexivity|]. destruct (replace_tree _ _ f); [apply IH|reflexivity]. }
    rewrite (copies_in (fun x => src ++ [snd x; fst x]) (fun x => dest ++ [fst x; snd x]) (list_prod noises datasets)) with (fs := fs); [| |exact H'| |].
    - split.
      + intros [([n d] & r & J & Nr & -> & I)|[I U]].
        * left. apply in_prod_iff in J as [J1 J2]. exists n, d, r. cbn [fst snd] in *. rewrite <- app_assoc in I. split; [exact J1|]. split; [exact J2|]. split; [exact Nr|]. split; [now rewrite <- app_assoc|exact I].
        * right. split; [exact I|]. intros n d J1 J2. exact (U (n, d) (proj2 (in_prod_iff _ _ _ _) (conj J1 J2))).
      + intros [(n & d & r & J1 & J2 & Nr & -> & I)|[I U]].
        * left. exists (n, d), r. split; [now apply in_prod|]. split; [exact Nr|]. cbn [fst snd]. rewrite <- !app_assoc. now split.
        * right. split; [exact I|]. intros [n d] J. apply in_prod_iff in J as [J1 J2]. now apply U.
    - intros [n d] [n' d'] _ _. now apply apart_app.
    - intros [n d] [n' d'] r s _ _ Q. cbn [fst snd] in Q. rewrite <- !app_assoc in Q. apply app_inv_head in Q. cbn in Q. injection Q as -> -> _. now left.
    - intros [n d] [n' d'] _ _. now rewrite !app_length.
  Qed.
  (** The shared testing data set replaces that of every size and noise. *)
  Theorem testing_shared src dest test basename fs fs' datasets noises : apart test dest -> dataset_names src fs = Some datasets -> noise_names src fs = Some noises ->
    share_testing src dest test basename fs = Some fs' -> forall q c, In (q, c) fs' <->
      (exists noise ds rest, In noise noises /\ In ds datasets /\ rest <> [] /\ q = dest ++ [noise; ds; basename] ++ rest /\ In (test ++ rest, c) fs) \/
      (In (q, c) fs /\ forall noise ds, In noise noises -> In ds datasets -> ~ under (dest ++ [noise; ds; basename]) q).
  Proof.
    intros A D N H q c. unfold share_testing in H. rewrite D, N in H.
    assert (H' : for_all_of (fun x => replace_tree test (dest ++ [fst x; snd x; basename])) (list_prod noises datasets) fs = Some fs').
    { rewrite <- H. clear. generalize fs. induction (list_prod noises datasets) as [|[n d] l IH]; intros f; cbn; [reflexivity|]. destruct (replace_tree _ _ f); [apply IH|reflexivity]. }
    rewrite (copies_in (fun _ => test) (fun x => dest ++ [fst x; snd x; basename]) (list_prod noises datasets)) with (fs := fs); [| |exact H'| |].
    - split.
      + intros [([n d] & r & J & Nr & -> & I)|[I U]].
        * left. apply in_prod_iff in J as [J1 J2]. exists n, d, r. cbn [fst snd] in *. split; [exact J1|]. split; [exact J2|]. split; [exact Nr|]. split; [now rewrite <- app_assoc|exact I].
        * right. split; [exact I|]. intros n d J1 J2. exact (U (n, d) (proj2 (in_prod_iff _ _ _ _) (conj J1 J2))).
      + intros [(n & d & r & J1 & J2 & Nr & -> & I)|[I U]].
        * left. exists (n, d), r. split; [now apply in_prod|]. split; [exact Nr|]. cbn [fst snd]. rewrite <- !app_assoc. now split.
        * right. split; [exact I|]. intros [n d] J. apply in_prod_iff in J as [J1 J2]. now apply U.
    - intros [n d] [n' d'] _ _. rewrite <- (app_nil_r test). now apply apart_app.
    - intros [n d] [n' d'] r s _ _ Q. cbn [fst snd] in Q. rewrite <- !app_assoc in Q. apply app_inv_head in Q. cbn in Q. injection Q as -> -> _. now left.
    - intros [n d] [n' d'] _ _. now rewrite !app_length.
  Qed.
  (** No data set: the first one is asked for all the same. *)
  Theorem no_dataset_refused src dest fs : dataset_names src fs = Some [] -> build_noise src dest fs = None.
  Proof. intros H. unfold build_noise, noise_names. now rewrite H. Qed.
End Fs.

(** Only the noise of the first data set listed is looked for: that of another
    one is left behind, and one that another lacks stops the script. *)
Theorem noise_of_first_refuted {C} (c : C) :
  (exists fs fs' : files C, build_noise ["src"] ["dest"] fs = Some fs' /\ In (["src"; "n20"; "noise_high"; "a"], c) fs /\ ~ exists c', In (["dest"; "noise_high"; "n20"; "a"], c') fs') /\
  (exists fs : files C, dataset_names ["src"] fs = Some ["n10"; "n20"] /\ build_noise ["src"] ["dest"] fs = None).
Proof.
  split.
  - exists [(["src"; "n10"; "noise_low"; "a"], c); (["src"; "n20"; "noise_low"; "a"], c); (["src"; "n20"; "noise_high"; "a"], c)]. eexists. split; [reflexivity|]. split; [right; right; now left|].
    intros [c' H]. cbn in H. repeat destruct H as [H|H]; try discriminate. contradiction.
  - exists [(["src"; "n10"; "noise_low"; "a"], c); (["src"; "n20"; "noise_high"; "a"], c)]. split; reflexivity.
Qed.

(** ** Names of the subsets *)
Lemma append_empty_r s : (s ++ "")%string = s.
Proof. induction s; cbn; congruence. Qed.
(** With an absolute path the subsets lie beside the data set. *)
Theorem absolute_subset_path d base key n : subset_path ("/" ++ d) ("/" ++ d ++ "/" ++ base) key n = ("/" ++ d ++ "/" ++ base ++ "_" ++ key ++ "_n" ++ nat_str n ++ ".pkl")%string.
Proof. unfold subset_path, join. cbn [append starts_with]. rewrite Ascii.eqb_refl. cbn [andb starts_with]. f_equal. rewrite !app_assoc_str. cbn [append]. now rewrite ?app_assoc_str. Qed.
(** With a relative path they are looked for in a directory of the directory. *)
Theorem relative_subset_path_refuted d base key n : d <> "" -> starts_with "/" d = false -> ends_slash d = false ->
  subset_path d (d ++ "/" ++ base) key n = (d ++ "/" ++ (d ++ "/" ++ base ++ "_" ++ key ++ "_n" ++ nat_str n ++ ".pkl"))%string.
Proof.
  intros N S E. unfold subset_path, join. destruct d as [|ch d]; [congruence|]. rewrite E, orb_false_r.
  match goal with |- context [if starts_with ?a ?b then _ else _] => assert (Q : starts_with a b = false) by (cbn [append starts_with] in *; exact S); rewrite Q end.
  cbn [String.eqb]. f_equal. f_equal. rewrite !app_assoc_str. cbn [append]. now rewrite ?app_assoc_str.
Qed.

(** ** Paths of an element *)
Lemma first_part {A} (d : A) l r : map (fun i => nth i (l ++ r) d) (seq 0 (length l)) = l.
Proof.
  induction l as [|a l IH]; cbn; [reflexivity|]. f_equal. rewrite <- seq_shift, map_map. exact IH.
Qed.
(** With every element stored, the indices of an element are those of its Gauss
    points; they cut the data set without overlap. *)
Theorem element_paths_own {A} (d : A) (els : list (list A)) n_gauss e : Forall (fun l => length l = n_gauss) els -> 1 <= e <= length els ->
  map (fun i => nth i (concat els) d) (element_path_indices e n_gauss) = nth (e - 1) els [].
Proof.
  intros F [L U]. unfold element_path_indices. replace (e * n_gauss - (e - 1) * n_gauss) with n_gauss by nia. set (k := e - 1). assert (K : k < length els) by lia. clearbody k. clear e L U.
  revert k K. induction F as [|l els H F IH]; intros k K; cbn in K; [lia|]. destruct k as [|k]; cbn [concat nth Nat.mul].
  - rewrite <- H. apply first_part.
  - rewrite <- (IH k) by lia. replace (n_gauss + k * n_gauss) with (n_gauss + k * n_gauss) by lia. clear IH.
    generalize (k * n_gauss). intros m. assert (G : forall j m, map (fun i => nth i (l ++ concat els) d) (seq (n_gauss + m) j) = map (fun i => nth i (concat els) d) (seq m j)).
    { induction j as [|j IHj]; intros m'; cbn; [reflexivity|]. f_equal; [rewrite app_nth2 by lia; f_equal; lia|]. rewrite <- (IHj (S m')). now replace (n_gauss + S m') with (S (n_gauss + m')) by lia. }
    apply G.
Qed.
(** With a selection of elements (the second and the third of the mesh, say) they
    are those of another one, or past the end of the data set. *)
Theorem element_paths_selected_refuted {A} (d : A) n_gauss (l2 l3 : list A) : length l2 = n_gauss -> length l3 = n_gauss ->
  map (fun i => nth i (concat [l2; l3]) d) (element_path_indices 2 n_gauss) = l3 /\ forall i, In i (element_path_indices 3 n_gauss) -> length (concat [l2; l3]) <= i.
Proof.
  intros H1 H2. split; [exact (element_paths_own d [l2; l3] n_gauss 2 ltac:(repeat constructor; assumption) ltac:(cbn; lia))|].
  intros i J. unfold element_path_indices in J. apply in_seq in J. cbn [concat]. rewrite !app_length. cbn. lia.
Qed.

(** ** Cases *)
Example ex_clean : let fs := [(["c"; "1_training_dataset"; "plots"; "a.pdf"], 1); (["c"; "1_training_dataset"; "data.pkl"], 2); (["c"; "3_model"; "m.pt"], 3);
    (["c"; "7_prediction"; "set_0"; "prediction_sample_12.pkl"], 4); (["c"; "7_prediction"; "summary.dat"], 5); (["c"; "plots"; "b.pdf"], 6)] in
  option_map (map snd) (for_all_of remove_plots [["c"]] fs) = Some [2; 3; 4; 5; 6] /\ option_map (map snd) (for_all_of remove_models [["c"]] fs) = Some [1; 2; 6] /\
  option_map (map snd) (for_all_of (remove_samples false) [["c"]] fs) = Some [1; 2; 3; 5; 6] /\ option_map (map snd) (for_all_of (remove_samples true) [["c"]] fs) = Some [1; 2; 3; 4; 5; 6] /\
  option_map (map snd) (redump_samples false (fun x => x + 100) ["c"] fs) = Some [1; 2; 3; 104; 5; 6] /\ for_all_of remove_plots [["d"]] fs = None.
Proof. repeat split. Qed.
Example ex_indices : element_path_indices 6 8 = seq 40 8.
Proof. reflexivity. Qed.

Print Assumptions plots_removed.
Print Assumptions models_removed.
Print Assumptions samples_removed.
Print Assumptions samples_redumped.
Print Assumptions noise_regrouped.
Print Assumptions testing_shared.
Print Assumptions no_dataset_refused.
Print Assumptions noise_of_first_refuted.
Print Assumptions absolute_subset_path.
Print Assumptions relative_subset_path_refuted.
Print Assumptions element_paths_own.
Print Assumptions element_paths_selected_refuted.
