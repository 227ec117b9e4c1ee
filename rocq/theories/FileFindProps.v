(** Search of files by regular expressions (C111). *)
From Coq Require Import String Ascii List Bool Arith Lia Permutation.
From Verif Require Import Lib PyStr PyDict FileFindModel.
Import ListNotations.
Local Open Scope string_scope.
Local Open Scope list_scope.

(** ** Specification: the language of an expression *)
Inductive lang : rx -> string -> Prop :=
| LEmpty : lang REmpty ""
| LClass p c : p c = true -> lang (RClass p) (String c "")
| LCat a b s t : lang a s -> lang b t -> lang (RCat a b) (s ++ t)
| LAltL a b s : lang a s -> lang (RAlt a b) s
| LAltR a b s : lang b s -> lang (RAlt a b) s
| LStar0 a : lang (RStar a) ""
| LStarS a s t : lang a s -> lang (RStar a) t -> lang (RStar a) (s ++ t).

Lemma app_assoc_str (a b c : string) : ((a ++ b) ++ c)%string = (a ++ (b ++ c))%string.
Proof. now rewrite <- app_assoc_s. Qed.
Ltac sapp := repeat (first [rewrite app_assoc_str | progress simpl]); reflexivity.
Lemma nullable_iff r : nullable r = true <-> lang r "".
Proof.
  induction r as [| |p|a IHa b IHb|a IHa b IHb|a IHa]; cbn.
  - split; intros H; [discriminate|inversion H].
  - split; intros H; [constructor|reflexivity].
  - split; intros H; [discriminate|inversion H].
  - split; intros H.
    + apply andb_prop in H as [H1 H2]. change "" with ("" ++ "")%string. constructor; [now apply IHa|now apply IHb].
    + inversion H as [| |x y s t H1 H2 E1 E2| | | |]; subst. destruct s; [|discriminate]. cbn in E2. subst t. apply andb_true_iff. split; [now apply IHa|now apply IHb].
  - split; intros H.
    + apply orb_prop in H as [H|H]; [apply LAltL; now apply IHa|apply LAltR; now apply IHb].
    + apply orb_true_iff. inversion H; subst; [left; now apply IHa|right; now apply IHb].
  - split; intros H; [constructor|reflexivity].
Qed.
Lemma deriv_iff c r : forall s, lang (deriv c r) s <-> lang r (String c s).
Proof.
  induction r as [| |p|a IHa b IHb|a IHa b IHb|a IHa]; intros s; cbn [deriv].
  - split; intros H; inversion H.
  - split; intros H; inversion H.
  - destruct (p c) eqn:E; split; intros H; inversion H; subst; try congruence; constructor; exact E.
  - assert (G : lang (RCat (deriv c a) b) s \/ (nullable a = true /\ lang (deriv c b) s) <-> lang (RCat a b) (String c s)).
    { split.
      - intros [H|[N H]].
        + inversion H as [| |x y u v H1 H2| | | |]; subst. apply IHa in H1. change (String c (u ++ v)) with (String c u ++ v)%string. now constructor.
        + apply nullable_iff in N. apply IHb in H. change (String c s) with ("" ++ String c s)%string. now constructor.
      - intros H. inversion H as [| |x y u v H1 H2 E1 E2| | | |]; subst. destruct u as [|d u]; cbn in E2.
        + subst v. right. split; [now apply nullable_iff|now apply IHb].
        + injection E2 as -> <-. left. constructor; [now apply IHa|exact H2]. }
    rewrite <- G. destruct (nullable a) eqn:N.
    + split; intros H.
      * inversion H; subst; [now left|right; now split].
      * destruct H as [H|[_ H]]; [now apply LAltL|now apply LAltR].
    + split; intros H; [now left|]. destruct H as [H|[H _]]; [exact H|discriminate].
  - split; intros H; inversion H; subst; [apply LAltL|apply LAltR|apply LAltL|apply LAltR]; try (now apply IHa); now apply IHb.
  - split; intros H.
    + inversion H as [| |x y u v H1 H2| | | |]; subst. apply IHa in H1. change (String c (u ++ v)) with (String c u ++ v)%string. now constructor.
    + remember (RStar a) as r eqn:Er. remember (String c s) as w eqn:Ew. revert Ew. induction H as [| | | | | |x u v H1 _ H2 IH]; try discriminate.
      injection Er as ->. intros Ew. destruct u as [|d u]; cbn in Ew; [now apply IH|]. injection Ew as -> <-. constructor; [now apply IHa|exact H2].
Qed.
Theorem full_match_iff r s : full_match r s = true <-> lang r s.
Proof. revert r. induction s as [|c s IH]; intros r; cbn; [apply nullable_iff|]. rewrite IH. apply deriv_iff. Qed.

(** Languages of the building blocks *)
Lemma lang_cat a b s : lang (RCat a b) s <-> exists u v, s = (u ++ v)%string /\ lang a u /\ lang b v.
Proof. split; [intros H; inversion H; subst; eauto|]. intros (u & v & -> & H1 & H2). now constructor. Qed.
Lemma lang_class p s : lang (RClass p) s <-> exists c, p c = true /\ s = String c "".
Proof. split; [intros H; inversion H; subst; eauto|]. intros (c & H & ->). now constructor. Qed.
Lemma lang_empty s : lang REmpty s <-> s = "".
Proof. split; [intros H; now inversion H|intros ->; constructor]. Qed.
Lemma lang_lit l s : lang (rlit l) s <-> s = l.
Proof.
  revert s. induction l as [|c l IH]; intros s; cbn [rlit]; [apply lang_empty|]. rewrite lang_cat. split.
  - intros (u & v & -> & H1 & H2). apply lang_class in H1 as (d & E & ->). apply Ascii.eqb_eq in E. subst d. apply IH in H2. now subst.
  - intros ->. exists (String c ""), l. split; [reflexivity|]. split; [constructor; apply Ascii.eqb_refl|now apply IH].
Qed.
Lemma lang_any s : lang (RStar any_char) s.
Proof. induction s as [|c s IH]; [constructor|]. change (String c s) with (String c "" ++ s)%string. constructor; [now constructor|exact IH]. Qed.
Lemma lang_star_digits s : lang (RStar (RClass is_digit)) s <-> all_digits s = true.
Proof.
  split.
  - intros H. remember (RStar (RClass is_digit)) as r eqn:Er. induction H as [| | | | | |x u v H1 _ H2 IH]; try discriminate; [reflexivity|].
    injection Er as ->. apply lang_class in H1 as (c & E & ->). cbn. rewrite E. now apply IH.
  - induction s as [|c s IH]; [constructor|]. cbn. intros H. apply andb_prop in H as [H1 H2]. change (String c s) with (String c "" ++ s)%string.
    constructor; [now constructor|now apply IH].
Qed.
Lemma lang_digits s : lang rdigits s <-> s <> "" /\ all_digits s = true.
Proof.
  unfold rdigits. rewrite lang_cat. split.
  - intros (u & v & -> & H1 & H2). apply lang_class in H1 as (c & E & ->). apply lang_star_digits in H2. cbn. rewrite E. split; [discriminate|exact H2].
  - intros [N H]. destruct s as [|c s]; [contradiction|]. cbn in H. apply andb_prop in H as [H1 H2]. exists (String c ""), s.
    split; [reflexivity|]. split; [now constructor|now apply lang_star_digits].
Qed.
(** re.search: some part of the name is in the language of the body, at the
    anchors if there are any. *)
Theorem search_iff p s : search p s = true <-> exists a b c, s = (a ++ b ++ c)%string /\ lang (p_body p) b /\
  (p_start p = true -> a = "") /\ (p_end p = true -> c = "" \/ c = String newline "").
Proof.
  unfold search. rewrite full_match_iff, lang_cat. split.
  - intros (a & bc & -> & Ha & H). apply lang_cat in H as (b & c & -> & Hb & Hc). exists a, b, c. split; [reflexivity|]. split; [exact Hb|]. split.
    + intros E. rewrite E in Ha. now apply lang_empty.
    + intros E. rewrite E in Hc. inversion Hc as [| | |x y u H1|x y u H1| |]; subst; [left; now apply lang_empty|right].
      apply lang_class in H1 as (d & Ed & ->). apply Ascii.eqb_eq in Ed. now subst.
  - intros (a & b & c & -> & Hb & Ha & Hc). exists a, (b ++ c)%string. split; [reflexivity|]. split.
    + destruct (p_start p); [rewrite Ha by reflexivity; constructor|apply lang_any].
    + apply lang_cat. exists b, c. split; [reflexivity|]. split; [exact Hb|]. destruct (p_end p); [|apply lang_any].
      destruct Hc as [->| ->]; [reflexivity|apply LAltL; constructor|apply LAltR; constructor; apply Ascii.eqb_refl].
Qed.

(** ** Search of a file *)
(** The result: the first entry that the first successful pattern accepts. *)
Theorem find_file_law ps listing f : find_pattern ps listing = Some f <->
  exists before p after l1 l2, ps = before ++ p :: after /\ listing = l1 ++ f :: l2 /\
    search p f = true /\ (forall x, In x l1 -> search p x = false) /\ (forall q x, In q before -> In x listing -> search q x = false).
Proof.
  induction ps as [|p ps IH]; cbn [find_pattern].
  - split; [discriminate|]. intros (b & p & a & l1 & l2 & E & _). now destruct b.
  - destruct (find (search p) listing) as [g|] eqn:E.
    + assert (D : exists l1 l2, listing = l1 ++ g :: l2 /\ search p g = true /\ (forall x, In x l1 -> search p x = false)).
      { clear - E. induction listing as [|x l IHl]; [discriminate|]. cbn in E. destruct (search p x) eqn:Ex.
        - injection E as <-. exists [], l. split; [reflexivity|]. split; [exact Ex|intros y []].
        - destruct (IHl E) as (l1 & l2 & -> & H1 & H2). exists (x :: l1), l2. split; [reflexivity|]. split; [exact H1|].
          intros y [->|Hy]; [exact Ex|now apply H2]. }
      destruct D as (l1 & l2 & -> & D1 & D2). split.
      * intros H. injection H as <-. exists [], p, ps, l1, l2. split; [reflexivity|]. split; [reflexivity|]. split; [exact D1|]. split; [exact D2|intros q x []].
      * intros (b & q & a & m1 & m2 & E1 & E2 & E3 & E4 & E5). destruct b as [|r b]; injection E1 as <- ->.
        -- f_equal. revert m1 E2 E4. clear - D1 D2 E3. induction l1 as [|x l1 IHl]; intros [|y m1] E2 E4; cbn in E2.
           ++ now injection E2.
           ++ injection E2 as -> _. rewrite E4 in D1 by (now left). discriminate.
           ++ injection E2 as -> _. rewrite D2 in E3 by (now left). discriminate.
           ++ injection E2 as -> E2. apply (IHl (fun x H => D2 x (or_intror H)) m1 E2). intros z Hz. apply E4. now right.
        -- exfalso. rewrite (E5 p g) in D1; [discriminate|now left|]. apply in_or_app. right. now left.
    + assert (N : forall x, In x listing -> search p x = false) by (intros x Hx; now apply (find_none (search p) listing)).
      rewrite IH. split.
      * intros (b & q & a & l1 & l2 & -> & -> & H1 & H2 & H3). exists (p :: b), q, a, l1, l2. repeat split; try assumption.
        intros z x [->|Hr] Hx; [now apply N|now apply H3].
      * intros (b & q & a & l1 & l2 & E1 & -> & H1 & H2 & H3). destruct b as [|r b]; injection E1 as -> ->.
        -- rewrite N in H1; [discriminate|]. apply in_or_app. right. now left.
        -- exists b, q, a, l1, l2. repeat split; try assumption. intros z x Hz Hx. apply H3; [now right|exact Hx].
Qed.
Theorem file_not_found ps listing : find_pattern ps listing = None <-> forall p f, In p ps -> In f listing -> search p f = false.
Proof.
  induction ps as [|p ps IH]; cbn [find_pattern]; [split; [intros _ q f []|reflexivity]|]. destruct (find (search p) listing) as [g|] eqn:E.
  - split; [discriminate|]. intros H. apply find_some in E as [E1 E2]. rewrite (H p g) in E2; [discriminate|now left|exact E1].
  - rewrite IH. split.
    + intros H q f [->|Hq] Hf; [now apply (find_none (search q) listing)|now apply H].
    + intros H q f Hq Hf. apply H; [now right|exact Hf].
Qed.
(** A file that alone matches is found whatever the order of the directory. *)
Theorem only_file_found p f listing : In f listing -> search p f = true -> (forall g, In g listing -> search p g = true -> g = f) ->
  find_pattern [p] listing = Some f.
Proof.
  intros Hi Hs Hu. cbn [find_pattern]. destruct (find (search p) listing) as [g|] eqn:E.
  - apply find_some in E as [E1 E2]. f_equal. now apply Hu.
  - apply (find_none _ _ E) in Hi. congruence.
Qed.
(** Refusals *)
Theorem find_file_refused regex listing : find_file regex listing = Err RuntimeError <-> listing = None \/ regex = OtherArg.
Proof. unfold find_file. destruct listing as [l|]; [|tauto]. destruct regex; split; intros H; try discriminate; try tauto; destruct H as [H|H]; discriminate. Qed.

(** ** Data set files *)
(** The names accepted in the scripts: any character may precede pkl. *)
Theorem script_pattern_names base s : search (script_pattern base) s = true <->
  exists d c e, d <> "" /\ all_digits d = true /\ c <> newline /\ (e = "" \/ e = String newline "") /\
    s = (base ++ "_n" ++ d ++ String c "pkl" ++ e)%string.
Proof.
  rewrite search_iff. unfold script_pattern. cbn [p_start p_end p_body]. split.
  - intros (a & b & e & -> & Hb & Ha & He). rewrite (Ha eq_refl) in *. apply lang_cat in Hb as (u & v & -> & H1 & H2). apply lang_lit in H1. subst u.
    apply lang_cat in H2 as (d & w & -> & H1 & H2). apply lang_digits in H1 as [D1 D2]. apply lang_cat in H2 as (x & y & -> & H1 & H2).
    apply lang_lit in H2. subst y. apply lang_class in H1 as (c & Ec & ->). apply negb_true_iff in Ec. apply Ascii.eqb_neq in Ec.
    exists d, c, e. split; [exact D1|]. split; [exact D2|]. split; [exact Ec|]. split; [now apply He|]. sapp.
  - intros (d & c & e & D1 & D2 & Ec & He & ->). exists "", (base ++ "_n" ++ d ++ String c "pkl")%string, e.
    split; [sapp|]. split; [|split; [reflexivity|intros _; exact He]].
    apply lang_cat. exists (base ++ "_n")%string, (d ++ String c "pkl")%string. split; [sapp|]. split; [now apply lang_lit|].
    apply lang_cat. exists d, (String c "pkl"). split; [reflexivity|]. split; [now apply lang_digits|].
    apply lang_cat. exists (String c ""), "pkl". split; [reflexivity|]. split; [constructor; apply negb_true_iff; now apply Ascii.eqb_neq|now apply lang_lit].
Qed.
(** The names accepted in the pipeline: anything before and after. *)
Theorem pipeline_pattern_names base s : search (pipeline_pattern base) s = true <->
  exists a d e, d <> "" /\ all_digits d = true /\ s = (a ++ base ++ "_n" ++ d ++ ".pkl" ++ e)%string.
Proof.
  rewrite search_iff. unfold pipeline_pattern. cbn [p_start p_end p_body]. split.
  - intros (a & b & e & -> & Hb & _ & _). apply lang_cat in Hb as (u & v & -> & H1 & H2). apply lang_lit in H1. subst u.
    apply lang_cat in H2 as (d & w & -> & H1 & H2). apply lang_digits in H1 as [D1 D2]. apply lang_lit in H2. subst w.
    exists a, d, e. split; [exact D1|]. split; [exact D2|]. sapp.
  - intros (a & d & e & D1 & D2 & ->). exists a, (base ++ "_n" ++ d ++ ".pkl")%string, e. split; [sapp|].
    split; [|split; discriminate]. apply lang_cat. exists (base ++ "_n")%string, (d ++ ".pkl")%string. split; [sapp|].
    split; [now apply lang_lit|]. apply lang_cat. exists d, ".pkl". split; [reflexivity|]. split; [now apply lang_digits|now apply lang_lit].
Qed.
(** A saved data set is found, by both patterns, if no other file matches. *)
Theorem saved_dataset_matches base n :
  search (script_pattern base) (dataset_name base n true) = true /\ search (pipeline_pattern base) (dataset_name base n true) = true.
Proof.
  unfold dataset_name. split.
  - apply script_pattern_names. exists (nat_str n), "."%char, "". split; [apply nat_str_nonempty|]. split; [apply nat_str_digits|].
    split; [discriminate|]. split; [now left|]. sapp.
  - apply pipeline_pattern_names. exists "", (nat_str n), "". split; [apply nat_str_nonempty|]. split; [apply nat_str_digits|]. sapp.
Qed.
Theorem saved_dataset_found base n listing listing' :
  (forall f, In f listing -> search (pipeline_pattern base) f = true -> f = dataset_name base n true) ->
  Permutation listing' (save_in (dataset_name base n true) listing) ->
  find_dataset base (Some listing') = Ok (dataset_name base n true).
Proof.
  intros H HP. unfold find_dataset, find_file.
  assert (I : forall g, In g listing' <-> In g listing \/ g = dataset_name base n true).
  { intros g. assert (J : In g listing' <-> In g (save_in (dataset_name base n true) listing)) by (split; apply Permutation_in; [exact HP|now apply Permutation_sym]).
    rewrite J. unfold save_in. destruct (existsb _ listing) eqn:E.
    - apply existsb_exists in E as [x [Hx E]]. apply String.eqb_eq in E. subst x. split; [tauto|]. intros [G| ->]; assumption.
    - rewrite in_app_iff. cbn. split; intros [G|G]; auto; destruct G as [G|[]]; auto. }
  rewrite (only_file_found _ (dataset_name base n true)); [reflexivity| | |].
  - apply I. now right.
  - apply saved_dataset_matches.
  - intros g Hg Hs. apply I in Hg as [Hg|Hg]; [now apply H|exact Hg].
Qed.
(** Without the number of samples the file is not found. *)
Theorem unnumbered_dataset_refused base : (forall a d e, ("" ++ base ++ ".pkl")%string <> (a ++ base ++ "_n" ++ d ++ ".pkl" ++ e)%string) ->
  find_dataset base (Some [dataset_name base 0 false]) = Err RuntimeError.
Proof.
  intros H. unfold find_dataset, find_file. cbn [find_pattern find].
  destruct (search (pipeline_pattern base) (dataset_name base 0 false)) eqn:E; [|reflexivity]. exfalso.
  apply pipeline_pattern_names in E as (a & d & e & _ & _ & E). unfold dataset_name in E. rewrite app_nil_s in E. now apply (H a d e).
Qed.
Lemma slength_app2 (a b : string) : String.length (a ++ b) = String.length a + String.length b.
Proof. induction a as [|c a IH]; cbn; [reflexivity|]. now rewrite IH. Qed.
Theorem unnumbered_dataset_lost base : find_dataset base (Some [dataset_name base 0 false]) = Err RuntimeError.
Proof.
  apply unnumbered_dataset_refused. intros a d e E. apply (f_equal String.length) in E. rewrite !slength_app2 in E. cbn in E. lia.
Qed.
(** Saving again with another number of samples leaves the old file, and which of
    the two is found depends on the order of the directory. *)
Theorem stale_dataset_refuted base n m : n <> m -> exists listing1 listing2,
  Permutation listing1 (save_in (dataset_name base m true) (save_in (dataset_name base n true) [])) /\ Permutation listing2 listing1 /\
  find_dataset base (Some listing1) = Ok (dataset_name base n true) /\ find_dataset base (Some listing2) = Ok (dataset_name base m true).
Proof.
  intros N. exists [dataset_name base n true; dataset_name base m true], [dataset_name base m true; dataset_name base n true].
  assert (D : dataset_name base m true <> dataset_name base n true).
  { unfold dataset_name. intros E. rewrite !app_assoc_str in E. apply app_inj_s in E. cbn in E. injection E as E. apply N. symmetry. apply nat_str_inj.
    revert E. generalize (nat_str_digits m) (nat_str_digits n). generalize (nat_str m) (nat_str n). clear.
    induction s as [|c s IH]; intros [|d t] D1 D2 E; cbn in *; try reflexivity.
    - injection E as <- _. apply andb_prop in D2 as [D2 _]. discriminate.
    - injection E as -> _. apply andb_prop in D1 as [D1 _]. discriminate.
    - injection E as -> E. apply andb_prop in D1 as [_ D1]. apply andb_prop in D2 as [_ D2]. f_equal. now apply IH. }
  split; [|split].
  - unfold save_in. cbn. destruct (String.eqb_spec (dataset_name base m true) (dataset_name base n true)); [contradiction|]. reflexivity.
  - apply perm_swap.
  - unfold find_dataset, find_file. cbn [find_pattern find]. destruct (saved_dataset_matches base n) as [_ ->].
    destruct (saved_dataset_matches base m) as [_ ->]. split; reflexivity.
Qed.
(** A backup or a renamed copy is taken for the data set in the pipeline; a file
    without the dot in the scripts. *)
Theorem backup_dataset_refuted base n a e : search (pipeline_pattern base) (a ++ dataset_name base n true ++ e) = true.
Proof.
  apply pipeline_pattern_names. exists a, (nat_str n), e. split; [apply nat_str_nonempty|]. split; [apply nat_str_digits|].
  unfold dataset_name. sapp.
Qed.
Theorem dotless_dataset_refuted base n : search (script_pattern base) (base ++ "_n" ++ nat_str n ++ "_pkl") = true.
Proof.
  apply script_pattern_names. exists (nat_str n), "_"%char, "". split; [apply nat_str_nonempty|]. split; [apply nat_str_digits|].
  split; [discriminate|]. split; [now left|]. reflexivity.
Qed.

(** ** Case *)
Example ex_find :
  find_file (Patterns [mkPattern true (rlit "summary.dat") true; script_pattern "ss"])
            (Some ["notes"; "ss_n12.pkl.bak"; "ss_n7.pkl"; "ss_n30.pkl"]) = Ok (Some "ss_n7.pkl")
  /\ find_dataset "ss" (Some ["notes"; "ss_n12.pkl.bak"; "ss_n7.pkl"]) = Ok "ss_n12.pkl.bak"
  /\ find_file (Patterns [script_pattern "ss"]) (Some ["ss_n.pkl"; "ss_nx.pkl"; "sss_n1.pkl"]) = Ok None.
Proof. repeat split; vm_compute; reflexivity. Qed.

Print Assumptions full_match_iff.
Print Assumptions search_iff.
Print Assumptions find_file_law.
Print Assumptions file_not_found.
Print Assumptions only_file_found.
Print Assumptions find_file_refused.
Print Assumptions script_pattern_names.
Print Assumptions pipeline_pattern_names.
Print Assumptions saved_dataset_found.
Print Assumptions unnumbered_dataset_lost.
Print Assumptions stale_dataset_refuted.
Print Assumptions backup_dataset_refuted.
Print Assumptions dotless_dataset_refuted.
