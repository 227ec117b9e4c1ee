(** The file of mean prediction metrics, and the convergence data. *)
From Coq Require Import Reals String Ascii List Arith Bool ZArith Lia Sorted.
From Verif Require Import Lib HardeningModel ScalerModel PyDict PyStr TextLines MetricsModel HybridModel HybridProps MeanMetricsModel MeanMetricsProps.
Import ListNotations.
Local Open Scope string_scope.

(** ** Characters *)
Fixpoint sall (P : ascii -> bool) (s : string) : bool :=
  match s with EmptyString => true | String c t => P c && sall P t end.
Lemma sall_app P a b : sall P (a ++ b) = sall P a && sall P b.
Proof. induction a as [|c a IH]; cbn; [reflexivity|]. rewrite IH, andb_assoc. reflexivity. Qed.
Lemma sall_imp (P Q : ascii -> bool) s : (forall c, P c = true -> Q c = true) -> sall P s = true -> sall Q s = true.
Proof. intros I. induction s as [|c s IH]; cbn; [reflexivity|]. intros H. apply andb_prop in H as [H1 H2]. rewrite (I c H1), IH; auto. Qed.
Lemma sall_no (P : ascii -> bool) c s : P c = false -> sall P s = true -> has_char c s = false.
Proof.
  intros N. induction s as [|d s IH]; cbn; [reflexivity|]. intros H. apply andb_prop in H as [H1 H2].
  rewrite (IH H2), orb_false_r. destruct (Ascii.eqb_spec d c) as [->|]; congruence.
Qed.
Lemma sall_digits s : all_digits s = sall is_digit s.
Proof. induction s as [|c s IH]; cbn; [reflexivity|]. rewrite IH. reflexivity. Qed.
Definition num_char (c : ascii) : bool := is_digit c || Ascii.eqb c "." || Ascii.eqb c "e" || Ascii.eqb c "+" || Ascii.eqb c "-".
Definition line_char (c : ascii) : bool :=
  is_word c || Ascii.eqb c " " || Ascii.eqb c ">" || Ascii.eqb c ":" || Ascii.eqb c "[" || Ascii.eqb c "]" || Ascii.eqb c ","
  || Ascii.eqb c "." || Ascii.eqb c "+" || Ascii.eqb c "-".
Lemma num_line c : num_char c = true -> line_char c = true.
Proof. destruct c as [[] [] [] [] [] [] [] []]; cbv; auto. Qed.
Lemma digit_num c : is_digit c = true -> num_char c = true.
Proof. unfold num_char. intros ->. reflexivity. Qed.
Lemma word_line c : is_word c = true -> line_char c = true.
Proof. unfold line_char. intros ->. reflexivity. Qed.
Lemma spaces_line k : sall line_char (spaces k) = true.
Proof. induction k; cbn; auto. Qed.
Lemma num_nonblank s : sall num_char s = true -> s <> "" -> strip s = s /\ blank s = false.
Proof.
  intros H N.
  assert (S : forall c, num_char c = true -> is_space c = false) by (intros [[] [] [] [] [] [] [] []]; cbv; auto).
  assert (B : forall t, sall num_char t = true -> t <> "" -> blank t = false).
  { intros [|c t]; [congruence|]. cbn. intros Q _. apply andb_prop in Q as [Q _]. rewrite (S c Q). reflexivity. }
  split; [|auto]. unfold strip.
  assert (L : lstrip s = s).
  { destruct s as [|c s]; [reflexivity|]. cbn in *. apply andb_prop in H as [H _]. rewrite (S c H). reflexivity. }
  rewrite L. clear L N. induction s as [|c s IH]; [reflexivity|].
  cbn [rstrip]. rewrite B by (auto; discriminate). f_equal. apply IH. cbn in H. apply andb_prop in H as [_ H]. exact H.
Qed.

(** ** Numbers *)
(** The digits Python prints for a finite number *)
Definition finite (s : shown) : Prop :=
  match s with
  | SNum _ lead frac _ ex => all_digits lead = true /\ lead <> "" /\ all_digits frac = true /\ all_digits ex = true /\ ex <> ""
  | _ => False
  end.
(** The number printed: mantissa and exponent of ten *)
Definition decimal (s : shown) : number :=
  match s with
  | SNum neg lead frac eneg ex =>
    (signed neg (digits_val (lead ++ frac)), (signed eneg (digits_val ex) - Z.of_nat (String.length frac))%Z)
  | _ => (0%Z, 0%Z)
  end.
Lemma sign_num b p : sall num_char p = true -> sall num_char (sign b p) = true.
Proof. destruct b; auto. Qed.
Lemma show_num s : finite s -> sall num_char (show_str s) = true /\ show_str s <> "".
Proof.
  destruct s as [neg lead frac eneg ex| |]; cbn [finite]; try contradiction. intros [A [B [C [D E]]]]. cbn [show_str]. split.
  - rewrite !sall_app. rewrite !sall_digits in *.
    rewrite (sign_num neg "" eq_refl), (sign_num eneg "+" eq_refl).
    rewrite (sall_imp is_digit num_char lead digit_num A), (sall_imp is_digit num_char frac digit_num C), (sall_imp is_digit num_char ex digit_num D). reflexivity.
  - destruct neg, lead; cbn; discriminate || congruence.
Qed.
Lemma parse_show s : finite s -> parse_number (show_str s) = Some (Ok (decimal s)).
Proof.
  destruct s as [neg lead frac eneg ex| |]; cbn [finite]; try contradiction. intros [A [B [C [D E]]]].
  set (tl := "e" ++ sign eneg "+" ++ ex).
  assert (M : drop_minus (show_str (SNum neg lead frac eneg ex)) = (neg, lead ++ String "." (frac ++ tl))).
  { unfold tl. cbn [show_str]. destruct neg; cbn [sign append drop_minus]; [reflexivity|].
    destruct lead as [|c lead]; [congruence|]. cbn [append drop_minus]. cbn in A. apply andb_prop in A as [A _].
    destruct (Ascii.eqb_spec c "-") as [->|]; [discriminate|reflexivity]. }
  unfold parse_number. rewrite M.
  rewrite (take_digits_app lead "." _ A eq_refl), (skip_digits_app lead "." _ A eq_refl).
  rewrite Ascii.eqb_refl. unfold tl. cbn [append].
  rewrite (take_digits_app frac "e" _ C eq_refl), (skip_digits_app frac "e" _ C eq_refl).
  rewrite Ascii.eqb_refl.
  assert (NE : String.eqb (lead ++ frac) "" = false) by (destruct lead; [congruence|reflexivity]).
  rewrite NE. cbn [decimal]. destruct ex as [|c ex]; [congruence|].
  destruct eneg; cbn [sign append Ascii.eqb Bool.eqb]; rewrite D; reflexivity.
Qed.

(** ** One line *)
Lemma pad_strip k s : sall num_char s = true -> s <> "" -> strip (pad_left k s) = s /\ blank (pad_left k s) = false.
Proof.
  intros H N. destruct (num_nonblank s H N) as [S B]. unfold pad_left. split.
  - unfold strip. rewrite lstrip_blank by apply blank_spaces. exact S.
  - rewrite blank_app, B. apply andb_false_r.
Qed.
Lemma pad_space k s : sall num_char s = true -> s <> "" -> strip (String " " (pad_left k s)) = s /\ blank (String " " (pad_left k s)) = false.
Proof.
  intros H N. destruct (pad_strip k s H N) as [S B]. split; [exact S|]. cbn [blank]. rewrite B. reflexivity.
Qed.
Lemma pad_line k s : sall num_char s = true -> sall line_char (pad_left k s) = true.
Proof. intros H. unfold pad_left. rewrite sall_app, spaces_line. apply (sall_imp num_char line_char); auto using num_line. Qed.
Section values.
  Context {X : Type} (show : X -> shown).
  Definition padded (x : X) : string := pad_left 15 (show_str (show x)).
  Definition body (l : list X) : string := join ", " (map padded l).
  Definition field_char (c : ascii) : bool := num_char c || Ascii.eqb c " ".
  Lemma padded_field x : finite (show x) -> sall field_char (padded x) = true.
  Proof.
    intros F. destruct (show_num _ F) as [H _]. unfold padded, pad_left. rewrite sall_app.
    replace (sall field_char (spaces _)) with true; [|symmetry; generalize (15 - String.length (show_str (show x)))%nat; intros k; induction k; auto].
    apply (sall_imp num_char field_char); [intros c Hc; unfold field_char; rewrite Hc; reflexivity|exact H].
  Qed.
  Lemma parse_entries_ok l pre : (forall x, In x l -> finite (show x)) -> (pre = "" \/ pre = " ") ->
    parse_entries (map (fun x => pre ++ padded x) l) = Some (Ok (map (fun x => decimal (show x)) l)).
  Proof.
    intros F P. induction l as [|x l IH]; [reflexivity|]. cbn [map parse_entries].
    rewrite IH by (intros; apply F; right; auto). destruct (show_num _ (F x (or_introl eq_refl))) as [H N].
    assert (Q : strip (pre ++ padded x) = show_str (show x) /\ blank (pre ++ padded x) = false).
    { destruct P as [->| ->]; [apply (pad_strip 15 _ H N)|apply (pad_space 15 _ H N)]. }
    destruct Q as [Q1 Q2]. rewrite Q1, Q2, parse_show by (apply F; left; auto). reflexivity.
  Qed.
  Lemma body_fields l : (forall x, In x l -> finite (show x)) ->
    parse_entries (split_on "," (body l)) = Some (Ok (map (fun x => decimal (show x)) l)).
  Proof.
    intros F. destruct l as [|x l]; [reflexivity|]. unfold body. cbn [map].
    assert (NC : forall y, In y (x :: l) -> has_char "," (padded y) = false).
    { intros y I. apply (sall_no field_char); [reflexivity|]. apply padded_field. auto. }
    destruct (split_join "," (padded x) (map padded l)) as [E|E]; [apply NC; left; auto| | |discriminate].
    - apply forallb_forall. intros y I. apply in_map_iff in I as [z [<- I]]. rewrite NC by (right; auto). reflexivity.
    - rewrite E, map_map. cbn [parse_entries]. pose proof (parse_entries_ok l " " (fun y I => F y (or_intror I)) (or_intror eq_refl)) as R.
      destruct (show_num _ (F x (or_introl eq_refl))) as [H N]. destruct (pad_strip 15 _ H N) as [Q1 Q2].
      unfold padded at 1 2. rewrite Q1, Q2, parse_show by (apply F; left; auto). cbn [append] in R. rewrite R. reflexivity.
  Qed.
  Lemma body_char l : (forall x, In x l -> finite (show x)) -> has_char "]" (body l) = false /\ sall line_char (body l) = true.
  Proof.
    intros F. assert (S : forall c, field_char c = true -> line_char c = true).
    { intros c. unfold field_char. destruct (num_char c) eqn:E; [intros _; auto using num_line|]. cbn [orb]. intros Q. apply Ascii.eqb_eq in Q. subst. reflexivity. }
    split.
    - apply has_char_join; [reflexivity|]. apply forallb_forall. intros y I. apply in_map_iff in I as [z [<- I]].
      rewrite (sall_no field_char "]"); [reflexivity|reflexivity|]. apply padded_field. auto.
    - unfold body. induction l as [|x [|y l] IH]; [reflexivity| |].
      + cbn [map join]. apply (sall_imp field_char line_char); auto. apply padded_field. apply F. left. reflexivity.
      + change (join ", " (map padded (x :: y :: l))) with (padded x ++ ", " ++ join ", " (map padded (y :: l))).
        rewrite !sall_app, IH by (intros; apply F; right; auto).
        rewrite (sall_imp field_char line_char) by (auto; apply padded_field; apply F; left; auto). reflexivity.
  Qed.
  Lemma before_bracket_app a b : has_char "]" a = false -> before_bracket (a ++ String "]" b) = Some a.
  Proof.
    induction a as [|c a IH]; cbn; [reflexivity|]. intros H. apply orb_false_iff in H as [H1 H2]. rewrite H1, IH by exact H2. reflexivity.
  Qed.
  Lemma take_word_app w c t : sall is_word w = true -> is_word c = false -> take_word (w ++ String c t) = (w, String c t).
  Proof.
    intros H N. induction w as [|d w IH]; cbn [append take_word]; [rewrite N; reflexivity|].
    cbn in H. apply andb_prop in H as [H1 H2]. rewrite H1, IH by exact H2. reflexivity.
  Qed.
  Definition named (m : string * list X) : Prop := sall is_word (fst m) = true /\ fst m <> "".
  Lemma parse_line m : named m -> (forall x, In x (snd m) -> finite (show x)) ->
    parse_metric (metric_line show m) = Some (Ok (fst m, map (fun x => decimal (show x)) (snd m))).
  Proof.
    intros [W N] F. destruct m as [w l]. cbn [fst snd] in *. unfold metric_line, parse_metric. cbn [fst snd].
    change (join ", " (map (fun x => pad_left 15 (show_str (show x))) l)) with (body l).
    change (lstrip ("    > " ++ w ++ ": [" ++ body l ++ "]")) with (">" ++ " " ++ w ++ ": [" ++ body l ++ "]").
    rewrite drop_prefix_app.
    assert (L : lstrip (" " ++ w ++ ": [" ++ body l ++ "]") = w ++ String ":" (" [" ++ body l ++ "]")).
    { change (lstrip (" " ++ w ++ ": [" ++ body l ++ "]")) with (lstrip (w ++ String ":" (" [" ++ body l ++ "]"))).
      destruct w as [|c w]; [congruence|]. cbn [append lstrip]. cbn in W. apply andb_prop in W as [W _].
      assert (is_space c = false) as -> by (clear - W; destruct c as [[] [] [] [] [] [] [] []]; cbv in *; congruence). reflexivity. }
    rewrite L, take_word_app by (try reflexivity; exact W).
    rewrite (proj2 (String.eqb_neq w "") N).
    change (drop_prefix ":" (String ":" (" [" ++ body l ++ "]"))) with (Some (" [" ++ body l ++ "]")).
    cbv iota beta. change (drop_prefix "[" (lstrip (" [" ++ body l ++ "]"))) with (Some (body l ++ "]")). cbv iota beta.
    destruct (body_char l F) as [B _]. rewrite before_bracket_app by exact B. rewrite body_fields by exact F. reflexivity.
  Qed.
  Lemma line_chars m : named m -> (forall x, In x (snd m) -> finite (show x)) -> sall line_char (metric_line show m) = true.
  Proof.
    intros [W N] F. unfold metric_line. rewrite !sall_app.
    change (join ", " (map (fun x => pad_left 15 (show_str (show x))) (snd m))) with (body (snd m)).
    rewrite (proj2 (body_char _ F)), (sall_imp is_word line_char _ word_line W). reflexivity.
  Qed.
End values.

(** ** The lines of the file *)
Lemma search_ci_has x p s : has_ci x p = true -> search_ci p s = true -> has_ci x s = true.
Proof.
  intros Hp. induction s as [|c s IH]; cbn [search_ci]; intros H.
  - destruct (drop_ci p "") eqn:E; [|discriminate]. exact (drop_ci_has x p "" s E Hp).
  - destruct (drop_ci p (String c s)) eqn:E; [exact (drop_ci_has x p _ _ E Hp)|].
    cbn [has_ci]. rewrite IH by exact H. apply orb_true_r.
Qed.
Lemma line_char_no_eq s : sall line_char s = true -> search_ci "n_sample =" s = false /\ has_char newline s = false.
Proof.
  intros H. split; [|apply (sall_no line_char); auto]. destruct (search_ci "n_sample =" s) eqn:E; [|reflexivity].
  exfalso. assert (Q : has_ci "=" s = false).
  { clear E. induction s as [|c s IH]; [reflexivity|]. cbn in *. apply andb_prop in H as [H1 H2]. rewrite (IH H2), orb_false_r.
    clear - H1. destruct c as [[] [] [] [] [] [] [] []]; cbv in *; congruence. }
  rewrite (search_ci_has "=" "n_sample =" s eq_refl E) in Q. discriminate.
Qed.
Lemma metric_line_plain {X} (show : X -> shown) m : section_end (metric_line show m) = false /\ blank (metric_line show m) = false.
Proof. split; reflexivity. Qed.
Definition stack_lines (l : list string) : string := write_lines (map nl l).
Lemma write_lines_app a b : write_lines (a ++ b) = write_lines a ++ write_lines b.
Proof. induction a as [|x a IH]; [reflexivity|]. cbn [app]. unfold write_lines in *. cbn [fold_right]. rewrite IH. apply app_assoc_s. Qed.
Lemma split_lines l : (forall x, In x l -> has_char newline x = false) -> split_on newline (stack_lines l) = "" :: l.
Proof.
  induction l as [|x l IH] using rev_ind; intros H; [reflexivity|].
  unfold stack_lines in *. rewrite map_app, write_lines_app. cbn [map].
  change (write_lines [nl x]) with (String newline (x ++ "")). rewrite app_nil_s, split_on_app, IH.
  - rewrite (split_on_none newline x) by (apply H; apply in_or_app; right; left; auto). reflexivity.
  - intros y I. apply H. apply in_or_app. left. exact I.
Qed.

Section file.
  Context {X : Type} (show : X -> shown).
  (** What one call writes: label, number of samples and metrics *)
  Record block := { b_label : string; b_n : nat; b_results : list (string * list X) }.
  Definition block_lines (b : block) : list string :=
    ("> Process: " ++ b_label b) :: ("    > n_sample = " ++ nat_str (b_n b)) :: (map (metric_line show) (b_results b) ++ ["";""])%list.
  (** Successive calls on one file that did not exist *)
  Fixpoint write_all (old : option string) (l : list block) : res (option string) :=
    match l with
    | [] => Ok old
    | b :: rest => rbind (write_mean_metrics_results_file show true old (b_n b) (b_results b) (b_label b) false)
                     (fun t => write_all (Some t) rest)
    end.
  Definition head_lines : list string := ["Mean prediction metrics"; "-----------------------"; ""].
  Lemma format_lines b : write_lines (format_mean_metrics_results show (b_n b) (b_results b) (b_label b)) = stack_lines (block_lines b).
  Proof.
    assert (W : forall a l, write_lines (a :: l) = a ++ write_lines l) by reflexivity.
    unfold format_mean_metrics_results, stack_lines, block_lines. cbn [map app]. rewrite map_app, map_map. rewrite !W, !write_lines_app. reflexivity.
  Qed.
  Lemma stack_app a b : stack_lines (a ++ b) = stack_lines a ++ stack_lines b.
  Proof. unfold stack_lines. rewrite map_app. apply write_lines_app. Qed.
  Lemma write_all_lines l : l <> [] -> write_all None l = Ok (Some (stack_lines (head_lines ++ concat (map block_lines l)))).
  Proof.
    intros N. destruct l as [|b l]; [congruence|]. clear N. cbn [write_all]. unfold write_mean_metrics_results_file.
    assert (E : write_lines (header :: format_mean_metrics_results show (b_n b) (b_results b) (b_label b)) = stack_lines (head_lines ++ block_lines b)).
    { rewrite stack_app, <- format_lines. reflexivity. }
    rewrite E. cbn [rbind map concat]. generalize (block_lines b). intros bl. clear E b.
    assert (Z : forall l pre, write_all (Some (stack_lines pre)) l = Ok (Some (stack_lines (pre ++ concat (map block_lines l))))).
    { clear bl l. induction l as [|b l IH]; intros pre; cbn [write_all map concat]; [rewrite app_nil_r; reflexivity|].
      unfold write_mean_metrics_results_file. cbn [rbind]. rewrite format_lines, <- stack_app, IH, app_assoc. reflexivity. }
    rewrite Z, app_assoc. reflexivity.
  Qed.

  (** A label on one line that does not itself look like the number of samples *)
  Definition plain_label (s : string) : Prop := has_char newline s = false /\ search_ci "n_sample =" ("> Process: " ++ s) = false.
  Definition good_block (b : block) : Prop :=
    plain_label (b_label b) /\ b_results b <> [] /\ NoDup (map fst (b_results b)) /\ Forall named (b_results b)
    /\ (forall m x, In m (b_results b) -> In x (snd m) -> finite (show x)).
  Definition printed (b : block) : list (string * list number) :=
    map (fun m => (fst m, map (fun x => decimal (show x)) (snd m))) (b_results b).

  Lemma n_line k : search_ci "n_sample =" ("    > n_sample = " ++ nat_str k) = true
    /\ n_sample_of ("    > n_sample = " ++ nat_str k) = Some k /\ has_char newline ("    > n_sample = " ++ nat_str k) = false.
  Proof.
    split; [reflexivity|]. split.
    - change (n_sample_of ("    > n_sample = " ++ nat_str k)) with (match n_sample_here ("n_sample = " ++ nat_str k) with
        Some n => Some n | None => n_sample_of ("_sample = " ++ nat_str k) end).
      assert (E : n_sample_here ("n_sample = " ++ nat_str k) = Some k); [|rewrite E; reflexivity].
      unfold n_sample_here. change ("n_sample = " ++ nat_str k) with ("n_sample" ++ (" = " ++ nat_str k)). rewrite drop_prefix_app.
      change (lstrip (" = " ++ nat_str k)) with ("=" ++ (" " ++ nat_str k)). rewrite drop_prefix_app.
      change (lstrip (" " ++ nat_str k)) with (lstrip (nat_str k)). rewrite lstrip_digits by apply nat_str_digits.
      rewrite take_digits_all by apply nat_str_digits. rewrite int_of_nat_str. reflexivity.
    - rewrite has_char_app, (digits_no_char newline (nat_str k)) by (try reflexivity; apply nat_str_digits). reflexivity.
  Qed.
  Lemma dset_new {V} (d : dict V) k v : ~ In k (map fst d) -> dset d k v = (d ++ [(k, v)])%list.
  Proof.
    induction d as [|[a b] d IH]; cbn; intros N; [reflexivity|].
    destruct (String.eqb_spec k a) as [->|]; [exfalso; apply N; left; auto|].
    f_equal. apply IH. intros I. apply N. right. exact I.
  Qed.
  Lemma read_metrics n_sample ms rest : forall acc, NoDup (map fst acc ++ map fst ms) -> Forall named ms ->
    (forall m x, In m ms -> In x (snd m) -> finite (show x)) ->
    read_loop n_sample true acc (map (metric_line show) ms ++ "" :: rest)
    = Ok (acc ++ map (fun m => (fst m, map (fun x => decimal (show x)) (snd m))) ms)%list.
  Proof.
    induction ms as [|m ms IH]; intros acc ND NM F; cbn [map app].
    - cbn. rewrite app_nil_r. reflexivity.
    - inversion NM as [|? ? N1 N2]; subst. cbn [read_loop].
      assert (Fm : forall x, In x (snd m) -> finite (show x)) by (intros x; apply F; left; auto).
      rewrite (proj1 (line_char_no_eq _ (line_chars show m N1 Fm))).
      destruct (metric_line_plain show m) as [P1 P2]. rewrite P1, P2. cbn [orb].
      rewrite parse_line by auto. cbn [rbind fst snd].
      cbn [map] in ND. pose proof (NoDup_remove_2 _ _ _ ND) as NI.
      rewrite dset_new by (intros I; apply NI; apply in_or_app; left; exact I).
      rewrite IH; [rewrite <- app_assoc; reflexivity| |exact N2|intros; eapply F; [right; eassumption|eassumption]].
      rewrite map_app, <- app_assoc. exact ND.
  Qed.
  Lemma skip_block n_sample b rest acc : good_block b -> n_sample <> Some (b_n b) -> n_sample <> None ->
    read_loop n_sample false acc (block_lines b ++ rest) = read_loop n_sample false acc rest.
  Proof.
    intros [[L1 L2] [_ [_ [NM F]]]] N1 N2. unfold block_lines. cbn [app read_loop]. rewrite L2.
    destruct (n_line (b_n b)) as [Q1 [Q2 _]]. rewrite Q1, Q2. destruct n_sample as [n|]; [|congruence].
    assert (Nat.eqb (b_n b) n || false = false) as -> by (rewrite orb_false_r; apply Nat.eqb_neq; congruence).
    revert NM F. generalize (b_results b). intros ms NM F. clear - NM F.
    induction NM as [|m ms N1 NM IH]; cbn [map app read_loop].
    - reflexivity.
    - rewrite (proj1 (line_char_no_eq _ (line_chars show m N1 (fun x => F m x (or_introl eq_refl))))).
      apply IH. intros; eapply F; [right; eassumption|eassumption].
  Qed.
  Lemma take_block n_sample b rest : good_block b -> n_sample = Some (b_n b) \/ n_sample = None ->
    read_loop n_sample false [] (block_lines b ++ rest) = Ok (printed b).
  Proof.
    intros [[L1 L2] [NE [ND [NM F]]]] Q. unfold block_lines. cbn [app read_loop]. rewrite L2.
    destruct (n_line (b_n b)) as [Q1 [Q2 _]]. rewrite Q1, Q2.
    assert (match n_sample with None => true | Some n => Nat.eqb (b_n b) n || false end = true) as ->.
    { destruct Q as [->| ->]; [rewrite Nat.eqb_refl|]; reflexivity. }
    rewrite <- app_assoc. cbn [app]. rewrite read_metrics by auto. reflexivity.
  Qed.
  Lemma block_no_newline b : good_block b -> forall x, In x (block_lines b) -> has_char newline x = false.
  Proof.
    intros [[L1 L2] [_ [_ [NM F]]]] x [<-|[<-|I]].
    - rewrite has_char_app, L1. reflexivity.
    - apply (n_line (b_n b)).
    - apply in_app_or in I as [I|[<-|[<-|[]]]]; try reflexivity. apply in_map_iff in I as [m [<- I]].
      rewrite Forall_forall in NM. apply line_char_no_eq, line_chars; eauto.
  Qed.
  Definition chosen (n_sample : option nat) (b : block) : bool := match n_sample with None => true | Some n => Nat.eqb (b_n b) n end.
  (** Reading back what was written by any number of calls: the metrics printed
      for the first process with the requested number of samples, or an error
      if there is none. *)
  Theorem mean_file_round_trip : forall l n_sample, l <> [] -> Forall good_block l ->
    exists text, write_all None l = Ok (Some text)
      /\ read_mean_metrics_results_file (Some text) n_sample
         = match find (chosen n_sample) l with Some b => Ok (printed b) | None => Err RuntimeError end.
  Proof.
    intros l n N G. exists (stack_lines (head_lines ++ concat (map block_lines l))). split; [apply write_all_lines, N|].
    unfold read_mean_metrics_results_file. rewrite split_lines.
    2:{ intros x I. apply in_app_or in I as [[<-|[<-|[<-|[]]]]|I]; try reflexivity.
        apply in_concat in I as [c [Ic I]]. apply in_map_iff in Ic as [b [<- Ib]]. rewrite Forall_forall in G. apply (block_no_newline b); auto. }
    change (read_loop n false [] ("" :: head_lines ++ concat (map block_lines l)))
      with (read_loop n false [] (concat (map block_lines l))).
    clear N. induction G as [|b l Gb G IH]; [reflexivity|]. cbn [map concat find].
    destruct (chosen n b) eqn:C.
    - rewrite take_block; [|exact Gb|destruct n as [k|]; [left; cbn in C; apply Nat.eqb_eq in C; congruence|right; reflexivity]].
      cbn [rbind]. destruct (printed b) eqn:E; [|reflexivity]. destruct Gb as [_ [NE _]]. unfold printed in E. destruct (b_results b); [congruence|discriminate].
    - destruct n as [k|]; [|discriminate]. cbn in C. apply Nat.eqb_neq in C. rewrite skip_block; [exact IH|exact Gb|congruence|discriminate].
  Qed.
End file.
Arguments block : clear implicits.

(** ** What cannot be read *)
Definition show_opt (x : option nat) : shown :=
  match x with Some n => SNum false (nat_str n) "00000000" false "00" | None => SNan end.
(** A mean that is NaN is written but cannot be read. *)
Theorem nan_metric_refuted : exists text,
  write_mean_metrics_results_file show_opt true None 3 [("rmse", [Some 1%nat]); ("nrmse", [None])] "n10" false = Ok text
  /\ read_mean_metrics_results_file (Some text) (Some 3%nat) = Err AttributeError
  /\ read_mean_metrics_results_file (Some text) None = Err AttributeError.
Proof. eexists. split; [reflexivity|]. split; vm_compute; reflexivity. Qed.
(** Two processes tested on the same number of samples: no request returns the
    metrics of the second. *)
Theorem same_size_refuted : exists text, write_all show_opt None
    [{| b_label := "n10"; b_n := 3; b_results := [("rmse", [Some 5%nat])] |};
     {| b_label := "n20"; b_n := 3; b_results := [("rmse", [Some 2%nat])] |}] = Ok (Some text)
  /\ forall n_sample r, read_mean_metrics_results_file (Some text) n_sample = Ok r -> r = [("rmse", [(500000000%Z, (-8)%Z)])].
Proof.
  pose (l := [{| b_label := "n10"; b_n := 3; b_results := [("rmse", [Some 5%nat])] |};
     {| b_label := "n20"; b_n := 3; b_results := [("rmse", [Some 2%nat])] |}]).
  assert (G : Forall (good_block show_opt) l).
  { repeat constructor; try discriminate; try (intros [H|[]]; discriminate); try (cbn; tauto);
      intros m x [<-|[]] [<-|[]]; repeat split; discriminate. }
  assert (E : exists text, write_all show_opt None l = Ok (Some text)) by (eexists; reflexivity).
  destruct E as [text E]. exists text. split; [exact E|]. intros n r R.
  destruct (mean_file_round_trip show_opt l n ltac:(discriminate) G) as [text' [E' Q]]. rewrite E in E'. injection E' as <-.
  rewrite Q in R.
  assert (P : find (chosen n) l = Some {| b_label := "n10"; b_n := 3; b_results := [("rmse", [Some 5%nat])] |} \/ find (chosen n) l = None).
  { unfold l. cbn [find]. unfold chosen. cbn [b_n]. destruct n as [k|]; [|left; reflexivity]. destruct (Nat.eqb 3 k); auto. }
  destruct P as [P|P]; rewrite P in R; [|discriminate]. injection R as <-. vm_compute. reflexivity.
Qed.
(** A label that contains the keyword stops the reader. *)
Theorem label_refuted : exists text,
  write_mean_metrics_results_file show_opt true None 3 [("rmse", [Some 1%nat])] "low n_sample = few" false = Ok text
  /\ read_mean_metrics_results_file (Some text) (Some 3%nat) = Err AttributeError.
Proof. eexists. split; [reflexivity|]. vm_compute. reflexivity. Qed.
Example round_trip_case : exists text, write_all show_opt None
    [{| b_label := "n10"; b_n := 3; b_results := [("rmse", [Some 5%nat; Some 7%nat]); ("nrmse", [Some 1%nat; Some 2%nat])] |};
     {| b_label := "n20"; b_n := 12; b_results := [("rmse", [Some 2%nat])] |}] = Ok (Some text)
  /\ read_mean_metrics_results_file (Some text) (Some 12%nat) = Ok [("rmse", [(200000000%Z, (-8)%Z)])].
Proof. eexists. split; [reflexivity|]. vm_compute. reflexivity. Qed.

(** ** Convergence data *)
Definition process_name (k : nat) : string := "n" ++ nat_str k.
Lemma process_size k : training_size (process_name k) = Ok k.
Proof.
  unfold training_size, process_name. cbn [append].
  rewrite (take_digits_all _ (nat_str_digits k)), (skip_digits_all _ (nat_str_digits k)).
  rewrite (proj2 (String.eqb_neq _ _) (nat_str_nonempty k)). cbn [Ascii.eqb Bool.eqb andb negb orb String.eqb]. apply int_of_nat_str.
Qed.
(** For processes named after their training set sizes: one row per process, in
    increasing order of the size, with the size and the value of each feature. *)
Theorem convergence_rows : forall (ps : list (nat * process_results)) metric m, ps <> [] -> NoDup (map fst ps) ->
  (forall k p, In (k, p) ps -> exists vs, dget (snd p) metric = Some vs /\ length vs = m) ->
  exists rows sizes, convergence_data (map (fun p => (process_name (fst p), snd p)) ps) metric = Ok rows
    /\ Permutation.Permutation sizes (map fst ps) /\ StronglySorted lt sizes /\ length rows = length sizes
    /\ forall i p vs, (i < length sizes)%nat -> In (nth i sizes 0%nat, p) ps -> dget (snd p) metric = Some vs ->
       nth i rows [] = map (fun v => (INR (nth i sizes 0%nat), v)) vs.
Proof.
  intros ps metric m N ND H. unfold convergence_data.
  assert (K : dkeys (map (fun p => (process_name (fst p), snd p)) ps) = map process_name (map fst ps)).
  { unfold dkeys, gkeys. rewrite !map_map. reflexivity. }
  assert (Z : rmap training_size (dkeys (map (fun p => (process_name (fst p), snd p)) ps)) = Ok (map fst ps)).
  { rewrite K. generalize (map fst ps). intros l. induction l as [|k l IH]; [reflexivity|]. cbn [map rmap]. rewrite process_size. cbn [rbind]. rewrite IH. reflexivity. }
  rewrite Z. cbn [rbind]. set (sorted := isort Z.of_nat (map fst ps)).
  assert (P : Permutation.Permutation sorted (map fst ps)) by apply isort_perm.
  assert (NDP : NoDup (dkeys (map (fun p => (process_name (fst p), snd p)) ps))).
  { rewrite K. apply FinFun.Injective_map_NoDup; [|exact ND]. intros a b E. unfold process_name in E. cbn in E. injection E as E. apply nat_str_inj, E. }
  set (row := fun k => match find (fun q => Nat.eqb (fst q) k) ps with Some q => match dget (snd (snd q)) metric with Some vs => vs | None => [] end | None => [] end).
  assert (RW : forall k p, In (k, p) ps -> dget (snd p) metric = Some (row k) /\ length (row k) = m).
  { intros k p I. destruct (H k p I) as [vs [D L]].
    assert (E : find (fun q => Nat.eqb (fst q) k) ps = Some (k, p)).
    { clear - I ND. induction ps as [|[a q] ps IH]; [destruct I|]. cbn [find fst]. cbn [map fst] in ND. inversion ND as [|? ? NI ND']; subst.
      destruct I as [Q|I]; [injection Q as -> ->; rewrite Nat.eqb_refl; reflexivity|].
      destruct (Nat.eqb_spec a k) as [->|]; [exfalso; apply NI; apply (in_map fst) in I; exact I|auto]. }
    unfold row. rewrite E. cbn [snd]. rewrite D. auto. }
  assert (SP : forall k, In k sorted -> exists p, In (k, p) ps).
  { intros k I. apply (Permutation.Permutation_in k P) in I. apply in_map_iff in I as [[a p] [<- I]]. exists p. exact I. }
  assert (R : rmap (fun k => rbind (dlookup (map (fun p => (process_name (fst p), snd p)) ps) ("n" ++ nat_str k)) (fun p => dlookup (snd p) metric)) sorted = Ok (map row sorted)).
  { apply rmap_all. intros k I. destruct (SP k I) as [p Ip]. unfold dlookup at 1.
    rewrite (in_dget _ _ p NDP).
    - cbn [rbind]. unfold dlookup. rewrite (proj1 (RW k p Ip)). reflexivity.
    - apply in_map_iff. exists (k, p). split; [reflexivity|exact Ip]. }
  rewrite R. cbn [rbind].
  assert (V : vstack (map row sorted) = Ok (map row sorted)).
  { assert (LM : forall r, In r (map row sorted) -> length r = m).
    { intros r I. apply in_map_iff in I as [k [<- I]]. destruct (SP k I) as [p Ip]. apply (RW k p Ip). }
    unfold vstack. destruct (map row sorted) as [|r0 t] eqn:E.
    - exfalso. apply map_eq_nil in E. rewrite E in P. apply Permutation.Permutation_nil in P. apply map_eq_nil in P. congruence.
    - rewrite (proj2 (forallb_forall _ _)); [reflexivity|]. intros x I. apply Nat.eqb_eq. rewrite (LM x I), (LM r0) by (left; auto). reflexivity. }
  rewrite V. cbn [rbind].
  exists (map (fun p => map (fun v => (INR (fst p), v)) (snd p)) (combine sorted (map row sorted))), sorted.
  assert (C : map (fun p => map (fun v => (INR (fst p), v)) (snd p)) (combine sorted (map row sorted)) = map (fun k => map (fun v => (INR k, v)) (row k)) sorted).
  { generalize sorted. intros l. clear. induction l as [|k l IH]; [reflexivity|]. cbn [map combine]. rewrite IH. reflexivity. }
  split; [reflexivity|]. split; [exact P|]. split.
  { pose proof (isort_sorted Z.of_nat (map fst ps)) as S. fold sorted in S.
    assert (NS : NoDup sorted) by (apply (Permutation.Permutation_NoDup (Permutation.Permutation_sym P)); exact ND).
    clear - S NS. induction S as [|a l S IH F]; constructor; inversion NS; subst; auto.
    rewrite Forall_forall in *. intros x I. specialize (F x I). assert (a <> x) by (intros ->; contradiction). lia. }
  rewrite C. split; [apply map_length|]. intros i p vs I Ip D.
  rewrite (nth_indep _ [] (map (fun v => (INR 0, v)) (row 0%nat))) by (rewrite map_length; exact I).
  rewrite (map_nth (fun k => map (fun v => (INR k, v)) (row k))).
  destruct (RW _ _ Ip) as [Q _]. rewrite D in Q. injection Q as Q. rewrite <- Q. reflexivity.
Qed.
(** A process with any other name stops the function. *)
Theorem convergence_other_process : forall label ps metric,
  training_size label = Err AttributeError -> In label (dkeys ps) -> (forall k, In k (dkeys ps) -> k = label \/ exists n, k = process_name n) ->
  convergence_data ps metric = Err AttributeError.
Proof.
  intros label ps metric E I A. unfold convergence_data.
  assert (Z : rmap training_size (dkeys ps) = Err AttributeError).
  { revert I A. generalize (dkeys ps). intros l. induction l as [|k l IH]; intros I A; [destruct I|]. cbn [rmap].
    destruct (A k (or_introl eq_refl)) as [->|[n ->]].
    - rewrite E. reflexivity.
    - rewrite process_size. cbn [rbind]. destruct I as [I|I]; [rewrite <- I, process_size in E; discriminate|].
      rewrite IH; [reflexivity|exact I|]. intros y Iy. apply A. right. exact Iy. }
  rewrite Z. reflexivity.
Qed.
(** The documentation says that such processes are left out. *)
Theorem convergence_skip_refuted : exists ps rest, ps = (("best", (3%nat, [("rmse", [Some 1%R])])) :: rest)
  /\ (exists rows, convergence_data rest "rmse" = Ok rows) /\ convergence_data ps "rmse" = Err AttributeError.
Proof.
  eexists. exists [("n10", (3%nat, [("rmse", [Some 1%R])]))]. split; [reflexivity|]. split; [eexists; reflexivity|].
  apply (convergence_other_process "best"); [reflexivity|left; reflexivity|]. intros k [<-|[<-|[]]]; [left|right; exists 10%nat]; reflexivity.
Qed.
Example convergence_case : convergence_data [("n100", (3%nat, [("rmse", [Some 1%R])])); ("n20", (3%nat, [("rmse", [Some 2%R])]))] "rmse"
  = Ok [[(INR 20, Some 2%R)]; [(INR 100, Some 1%R)]].
Proof. reflexivity. Qed.

Print Assumptions mean_file_round_trip.
Print Assumptions convergence_rows.
