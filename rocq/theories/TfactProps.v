(** C103: the history of the total load factor read from a Links input file. *)
From Coq Require Import String Ascii List Bool Arith ZArith Reals Lia Lra.
From Verif Require Import Lib PyDict PyStr TextLines HardeningModel StrainPathModel StrainPathProps LinksFileProps LinksLoadModel LinksLoadProps InpLinksProps TfactModel.
Import ListNotations.
Local Open Scope list_scope.
Local Open Scope R_scope.

Section TfactProofs.
Variable pf : string -> res R.

(** ** Specification *)
(** a line that gives the load factor [d], alone or after the arc length column *)
Definition row (line : string) (d : R) : Prop :=
  search_kw "INCREMENTS" line = false /\ section_end line = false /\
  ((exists a b c, words line = [a; b; c] /\ pf a = Ok d) \/ (exists a b c e, words line = [a; b; c; e] /\ pf b = Ok d)).
Definition silent (line : string) : Prop := search_kw "INCREMENTS" line = false.
Definition stops (rest : list string) : Prop :=
  match rest with [] => True | line :: _ => silent line /\ (section_end line = true \/ blank line = true) end.

(** ** Reading *)
Lemma drop_suffix : forall s, search_kw "Number_of_Increments" s = true -> search_kw "INCREMENTS" s = true.
Proof.
  intros s H. revert H. induction s as [|c s IH]; intros H; [discriminate|].
  change (search_kw "INCREMENTS" (String c s)) with (match drop_ci "INCREMENTS" (String c s) with Some rest => at_boundary rest | None => false end || search_kw "INCREMENTS" s)%bool.
  change (search_kw "Number_of_Increments" (String c s)) with (match drop_ci "Number_of_Increments" (String c s) with Some rest => at_boundary rest | None => false end || search_kw "Number_of_Increments" s)%bool in H.
  apply orb_prop in H. destruct H as [H|H]; [|rewrite (IH H); apply orb_true_r].
  apply orb_true_iff. right. clear IH.
  assert (G : forall q r t, drop_ci (q ++ "INCREMENTS")%string t = Some r -> at_boundary r = true -> search_kw "INCREMENTS" t = true).
  { induction q as [|a q IH]; intros r t E B.
    - cbn [append] in E. destruct t as [|x t]; [discriminate|].
      change (search_kw "INCREMENTS" (String x t)) with (match drop_ci "INCREMENTS" (String x t) with Some rest => at_boundary rest | None => false end || search_kw "INCREMENTS" t)%bool.
      rewrite E, B. reflexivity.
    - cbn [append drop_ci] in E. destruct t as [|x t]; [discriminate|]. destruct (Ascii.eqb (lower x) (lower a)); [|discriminate].
      change (search_kw "INCREMENTS" (String x t)) with (match drop_ci "INCREMENTS" (String x t) with Some rest => at_boundary rest | None => false end || search_kw "INCREMENTS" t)%bool.
      rewrite (IH r t E B). apply orb_true_r. }
  destruct (drop_ci "Number_of_Increments" (String c s)) as [r|] eqn:E; [|discriminate].
  change "Number_of_Increments"%string with (String "N" ("umber_of_" ++ "Increments"))%string in E. cbn [drop_ci] in E.
  destruct (Ascii.eqb (lower c) (lower "N")); [|discriminate].
  apply (G "umber_of_"%string r s); [|exact H]. revert E. clear. cbn [append]. 
  intros E. etransitivity; [|exact E]. clear E.
  repeat (destruct s as [|? s]; cbn [drop_ci]; [reflexivity|]; match goal with |- context[Ascii.eqb ?u ?v] => let w := eval compute in v in change v with w; destruct (Ascii.eqb u w); [|reflexivity] end).
  reflexivity.
Qed.
Lemma silent_number : forall line, silent line -> search_kw "Number_of_Increments" line = false.
Proof. intros line H. destruct (search_kw "Number_of_Increments" line) eqn:E; [|reflexivity]. apply drop_suffix in E. unfold silent in H. congruence. Qed.

Lemma scan_skip : forall pre rest, Forall silent pre -> scan pf (pre ++ rest) None = scan pf rest None.
Proof.
  induction pre as [|l pre IH]; intros rest H; [reflexivity|]. apply Forall_cons_iff in H. destruct H as [Hl H].
  cbn [app scan]. rewrite (silent_number l Hl). unfold silent in Hl. rewrite Hl. apply IH. exact H.
Qed.
Lemma scan_stop : forall rest h, stops rest -> scan pf rest (Some h) = Ok (Some h).
Proof.
  intros [|l rest] h H; [reflexivity|]. cbn [stops] in H. destruct H as [Hl H]. cbn [scan]. rewrite (silent_number l Hl). unfold silent in Hl. rewrite Hl.
  destruct H as [-> | ->]; [reflexivity|]. now rewrite orb_true_r.
Qed.

(** the arrays once the factors [g] are stored and [r] rows are left *)
Definition grown (n : Z) (g : list R) (r : nat) : hist :=
  mkH n (0 :: g ++ repeat 0 r) (map (load_at g) (seq 0 (S (length g))) ++ repeat 0 r) (S (length g)).
Lemma load_history_snoc : forall g d, map (load_at (g ++ [d])) (seq 0 (S (length (g ++ [d])))) = map (load_at g) (seq 0 (S (length g))) ++ [load_at g (length g) + d].
Proof.
  intros g d. rewrite app_length. cbn [length]. replace (S (length g + 1)) with (S (length g) + 1)%nat by lia. rewrite seq_app, map_app. f_equal.
  - apply map_ext_in. intros k Hk. apply in_seq in Hk. apply load_app_l. lia.
  - cbn [seq map]. f_equal. rewrite load_app_r by lia. rewrite (load_all g (length g)) by lia. replace (0 + S (length g) - length g)%nat with 1%nat by lia. cbn [load_at firstn total]. unfold load_at. simpl. ring.
Qed.
Lemma row_words : forall line d, row line d -> blank line = false /\
  rbind (match length (words line) with 3%nat => pf (nth 0 (words line) EmptyString) | 4%nat => pf (nth 1 (words line) EmptyString) | _ => Err RuntimeError end) (fun d' : R => Ok d') = Ok d.
Proof.
  intros line d [_ [_ [[a [b [c [E P]]]]|[a [b [c [e [E P]]]]]]]]; (split; [apply words_blank; rewrite E; discriminate|]); rewrite E; cbn [length nth]; rewrite P; reflexivity.
Qed.
Lemma store_grown : forall n g r line d, row line d -> store pf (grown n g (S r)) line = Ok (grown n (g ++ [d]) r).
Proof.
  intros n g r line d H. destruct (row_words _ _ H) as [_ E]. unfold store.
  destruct (match length (words line) with 3%nat => _ | 4%nat => _ | _ => _ end) as [d'|]; [|discriminate]. cbn [rbind] in *. injection E as ->.
  unfold grown at 1 2. cbn [h_inc h_d h_t h_n length]. rewrite app_length, repeat_length.
  replace (Nat.ltb (S (length g)) (S (length g + S r))) with true by (symmetry; apply Nat.ltb_lt; lia). f_equal. unfold grown.
  cbn [h_inc h_d h_t h_n]. assert (Ls : length (map (load_at g) (seq 0 (S (length g)))) = S (length g)) by now rewrite map_length, seq_length.
  f_equal.
  - cbn [upd]. f_equal. cbn [repeat]. rewrite <- app_assoc. cbn [app]. clear. induction g as [|x g IH]; [reflexivity|]. cbn [app length upd]. now rewrite IH.
  - rewrite load_history_snoc, <- app_assoc. cbn [app repeat].
    rewrite app_nth1 by lia. replace (nth (S (length g) - 1) (map (load_at g) (seq 0 (S (length g)))) 0) with (load_at g (length g)).
    2:{ rewrite (nth_indep _ 0 (load_at g 0)) by lia. rewrite map_nth, seq_nth by lia. f_equal. lia. }
    revert Ls. generalize (map (load_at g) (seq 0 (S (length g)))). generalize (load_at g (length g) + d). intros y l <-. clear. induction l as [|x l IH]; [reflexivity|]. cbn [app length upd]. now rewrite IH.
  - rewrite app_length. cbn [length]. f_equal. lia.
Qed.
Lemma store_full : forall n g line d, row line d -> store pf (grown n g 0) line = Err IndexError.
Proof.
  intros n g line d H. destruct (row_words _ _ H) as [_ E]. unfold store.
  destruct (match length (words line) with 3%nat => _ | 4%nat => _ | _ => _ end) as [d'|]; [|discriminate]. cbn [rbind].
  unfold grown at 1 2. cbn [h_inc h_d length repeat]. rewrite app_nil_r. now rewrite Nat.ltb_irrefl.
Qed.
Lemma scan_rows : forall rows f n g r rest, Forall2 row rows f -> (length f <= r)%nat ->
  scan pf (rows ++ rest) (Some (grown n g r)) = scan pf rest (Some (grown n (g ++ f) (r - length f))).
Proof.
  induction rows as [|line rows IH]; intros f n g r rest H Hr; inversion H as [|? d ? f' Hd Hf]; subst.
  - cbn [app length]. now rewrite app_nil_r, Nat.sub_0_r.
  - destruct r as [|r]; [cbn in Hr; lia|]. cbn [app scan]. pose proof Hd as [Hs [He _]]. rewrite (silent_number line Hs), Hs, He, (proj1 (row_words _ _ Hd)). cbn [orb].
    rewrite (store_grown n g r line d Hd). cbn [rbind]. rewrite (IH f') by (try assumption; cbn in Hr; lia). now rewrite <- app_assoc.
Qed.

Definition header (line : string) (n : nat) : Prop :=
  search_kw "Number_of_Increments" line = false /\ search_kw "INCREMENTS" line = true /\ second_int line = Ok (Z.of_nat n).
Lemma scan_header : forall line n rest st, header line n -> scan pf (line :: rest) st = scan pf rest (Some (grown (Z.of_nat n) [] n)).
Proof.
  intros line n rest st [H1 [H2 H3]]. cbn [scan]. rewrite H1, H2, H3. cbn [rbind]. unfold zeros_hist.
  replace (Z.ltb (Z.of_nat n + 1) 0) with false by (symmetry; apply Z.ltb_ge; lia). cbn [rbind].
  replace (Z.to_nat (Z.of_nat n + 1)) with (S n) by lia. do 3 f_equal.
Qed.
Lemma lsum_total : forall l, lsum l = total l.
Proof. induction l as [|x l IH]; [reflexivity|]. simpl. now rewrite IH. Qed.

(** ** C103 *)
(** a section with as many increments as announced: the total after k increments
    is the sum of the first k factors, at time k/n; the accumulated factor is the
    sum of their absolute values *)
Theorem tfact_read : forall pre line rows rest n f, Forall silent pre -> header line n -> Forall2 row rows f -> length f = n -> stops rest ->
  exists t, read_tfact pf (pre ++ line :: rows ++ rest) = Ok t /\
    t_inc t = 0 :: f /\ length (t_hist t) = S n /\
    (forall k, (k <= n)%nat -> nth k (t_hist t) (0, 0) = (INR k / INR n, load_at f k)) /\
    t_acc t = total (map Rabs f).
Proof.
  intros pre line rows rest n f Hp Hh Hr Hl Hs. unfold read_tfact. rewrite scan_skip by exact Hp. rewrite (scan_header _ n) by exact Hh.
  rewrite (scan_rows _ f) by (try assumption; lia). rewrite (scan_stop _ _ Hs). cbn [rbind app]. replace (n - length f)%nat with 0%nat by lia.
  unfold grown. cbn [h_d h_t repeat]. rewrite !app_nil_r. eexists. split; [reflexivity|]. cbn [t_inc t_hist t_acc].
  assert (Lt : length (map (load_at f) (seq 0 (S (length f)))) = S n) by (rewrite map_length, seq_length; lia). rewrite Lt.
  repeat split.
  - rewrite combine_length, StrainPathProps.linspace_len, Lt. lia.
  - intros k Hk. rewrite combine_nth by (now rewrite StrainPathProps.linspace_len, Lt). f_equal.
    + rewrite StrainPathProps.linspace_nth by lia. replace (S n - 1)%nat with n by lia. unfold Rdiv. ring.
    + rewrite (nth_indep _ 0 (load_at f 0)) by lia. rewrite map_nth, seq_nth by lia. f_equal.
  - rewrite lsum_total. simpl. rewrite Rabs_R0. ring.
Qed.

(** fewer increments than announced: the totals of the missing increments are
    zero, not the total reached *)
Theorem tfact_missing_rows_refuted : forall pre line rows rest n f, Forall silent pre -> header line n -> Forall2 row rows f -> (length f < n)%nat -> stops rest ->
  exists t, read_tfact pf (pre ++ line :: rows ++ rest) = Ok t /\
    (forall k, (k <= length f)%nat -> nth k (t_hist t) (0, 0) = (INR k / INR n, load_at f k)) /\
    (forall k, (length f < k <= n)%nat -> nth k (t_hist t) (0, 0) = (INR k / INR n, 0)).
Proof.
  intros pre line rows rest n f Hp Hh Hr Hl Hs. unfold read_tfact. rewrite scan_skip by exact Hp. rewrite (scan_header _ n) by exact Hh.
  rewrite (scan_rows _ f) by (try assumption; lia). rewrite (scan_stop _ _ Hs). cbn [rbind app].
  eexists. split; [reflexivity|]. unfold grown. cbn [h_d h_t t_hist]. set (l := map (load_at f) (seq 0 (S (length f)))).
  assert (Ll : length l = S (length f)) by (unfold l; now rewrite map_length, seq_length).
  assert (Lt : length (l ++ repeat 0 (n - length f)) = S n) by (rewrite app_length, repeat_length; lia). rewrite Lt.
  assert (T : forall k, (k <= n)%nat -> nth k (StrainPathModel.linspace 0 1 (S n)) 0 = INR k / INR n).
  { intros k Hk. rewrite StrainPathProps.linspace_nth by lia. replace (S n - 1)%nat with n by lia. unfold Rdiv. ring. }
  split; intros k Hk; (rewrite combine_nth by (now rewrite StrainPathProps.linspace_len, Lt)); (f_equal; [apply T; lia|]).
  - rewrite app_nth1 by lia. unfold l. rewrite (nth_indep _ 0 (load_at f 0)) by (fold l; lia). rewrite map_nth, seq_nth by lia. f_equal.
  - rewrite app_nth2 by lia. apply nth_repeat.
Qed.

(** more increments than announced are refused *)
Theorem tfact_extra_rows : forall pre line rows rest n f, Forall silent pre -> header line n -> Forall2 row rows f -> (n < length f)%nat ->
  read_tfact pf (pre ++ line :: rows ++ rest) = Err IndexError.
Proof.
  intros pre line rows rest n f Hp Hh Hr Hl. unfold read_tfact. rewrite scan_skip by exact Hp. rewrite (scan_header _ n) by exact Hh.
  rewrite <- (firstn_skipn n f) in Hr. apply Forall2_app_inv_r in Hr.
  destruct Hr as [r1 [r2 [H1 [H2 ->]]]]. rewrite <- app_assoc, (scan_rows r1 (firstn n f)) by (try assumption; rewrite firstn_length; lia).
  rewrite firstn_length, Nat.min_l, Nat.sub_diag by lia. cbn [app].
  destruct (skipn n f) as [|d f'] eqn:E. { apply (f_equal (@length R)) in E. rewrite skipn_length in E. cbn in E. lia. }
  inversion H2 as [|line' ? r2' ? Hd ?]; subst. cbn [app scan]. pose proof Hd as [Hs [He _]]. rewrite (silent_number line' Hs), Hs, He, (proj1 (row_words _ _ Hd)). cbn [orb].
  rewrite (store_full _ _ line' d Hd). reflexivity.
Qed.

(** no keyword, no history *)
Theorem tfact_no_section : forall lines, Forall silent lines -> read_tfact pf lines = Err NameError.
Proof. intros lines H. unfold read_tfact. rewrite <- (app_nil_r lines), scan_skip by exact H. reflexivity. Qed.

(** any line with the word is taken for the header, also a title or a comment *)
Theorem tfact_comment_refuted : forall pre line rest, Forall silent pre -> search_kw "INCREMENTS" line = true ->
  (length (words line) <= 1)%nat \/ (exists w, nth_error (words line) 1 = Some w /\ py_int w = Err ValueError) ->
  read_tfact pf (pre ++ line :: rest) = Err IndexError \/ read_tfact pf (pre ++ line :: rest) = Err ValueError.
Proof.
  intros pre line rest Hp Hk Hw. unfold read_tfact. rewrite scan_skip by exact Hp. cbn [scan]. rewrite Hk. unfold even_hist, second_int.
  destruct Hw as [Hw|[w [-> ->]]]; [|right; destruct (search_kw "Number_of_Increments" line); reflexivity].
  apply nth_error_None in Hw. rewrite Hw. left. destruct (search_kw "Number_of_Increments" line); reflexivity.
Qed.

(** Number_of_Increments: even steps up to a total of one *)
Theorem tfact_even : forall pre line rest n, Forall silent pre -> search_kw "Number_of_Increments" line = true -> second_int line = Ok (Z.of_nat n) ->
  (n = 0%nat -> read_tfact pf (pre ++ line :: rest) = Err ZeroDivisionError) /\
  ((0 < n)%nat -> exists t, read_tfact pf (pre ++ line :: rest) = Ok t /\ length (t_hist t) = S n /\
     (forall k, (k <= n)%nat -> nth k (t_hist t) (0, 0) = (INR k / INR n, INR k / INR n)) /\ t_acc t = 1).
Proof.
  intros pre line rest n Hp Hk Hn. unfold read_tfact. rewrite scan_skip by exact Hp. cbn [scan]. rewrite Hk. unfold even_hist. rewrite Hn. cbn [rbind].
  unfold zeros_hist. replace (Z.ltb (Z.of_nat n + 1) 0) with false by (symmetry; apply Z.ltb_ge; lia). cbn [rbind]. split.
  - intros ->. reflexivity.
  - intros H0. replace (Z.eqb (Z.of_nat n) 0) with false by (symmetry; apply Z.eqb_neq; lia).
    replace (Z.ltb (Z.of_nat n) 0) with false by (symmetry; apply Z.ltb_ge; lia). cbn [rbind]. rewrite Nat2Z.id. eexists. split; [reflexivity|].
    cbn [t_hist t_acc h_d h_t]. assert (P : 0 < INR n) by (apply lt_0_INR; lia).
    assert (R : forall x k, lsum (repeat x k) = INR k * x).
    { intros x k. induction k as [|k IH]; [simpl; ring|]. cbn [repeat lsum]. rewrite IH, S_INR. ring. }
    set (h := map _ (seq 0 (S n))). assert (Lh : length h = S n) by (unfold h; now rewrite map_length, seq_length). rewrite Lh. repeat split.
    + rewrite combine_length, StrainPathProps.linspace_len, Lh. lia.
    + intros k Hkn. rewrite combine_nth by (now rewrite StrainPathProps.linspace_len, Lh). f_equal.
      * rewrite StrainPathProps.linspace_nth by lia. replace (S n - 1)%nat with n by lia. unfold Rdiv. ring.
      * unfold h. rewrite (nth_indep _ 0 (lsum (repeat (1 / INR n) 0))) by (fold h; lia).
        rewrite (map_nth (fun k => lsum (repeat (1 / INR n) k))), seq_nth by lia. rewrite R. cbn [Nat.add]. field. lra.
    + cbn [map lsum]. rewrite Rabs_R0. assert (M : forall x k, map Rabs (repeat x k) = repeat (Rabs x) k) by (intros x k; induction k as [|k IH]; [reflexivity|]; cbn [repeat map]; now rewrite IH).
      rewrite M, R, Rabs_pos_eq; [field; lra|]. apply Rlt_le, Rdiv_lt_0_compat; lra.
Qed.
End TfactProofs.

(** ** The files written by the simulator *)
Lemma tf_app_nil : forall s, (s ++ EmptyString)%string = s.
Proof. induction s as [|c s IH]; [reflexivity|]. cbn [append]. now rewrite IH. Qed.
Section Written.
Variables (fmt : R -> string) (pf : string -> res R) (rnd : R -> R) (tol iters : string).
(** the printed factors are single words without the letter i, read back rounded *)
Hypothesis fmt_word : forall x, exists w, words (fmt x) = [w] /\ pf w = Ok (rnd x).
Hypothesis fmt_plain : forall x, has_ci "i" (fmt x) = false.
Hypothesis tol_word : words tol = [tol] /\ has_ci "i" tol = false.
Hypothesis iters_word : words iters = [iters] /\ has_ci "i" iters = false.

Lemma increment_row : forall d, row pf (increment_line fmt tol iters d) (rnd d).
Proof.
  intros d. unfold increment_line. destruct (fmt_word d) as [w [Hw Hp]]. split; [|split].
  - apply (search_kw_absent "i"); [reflexivity|]. rewrite !has_ci_app, fmt_plain, (proj2 tol_word), (proj2 iters_word). reflexivity.
  - reflexivity.
  - right. exists "1.0"%string, w, tol, iters. split; [|exact Hp].
    change ("1.0 " ++ fmt d ++ " " ++ tol ++ " " ++ iters)%string with ("1.0" ++ String " " (fmt d ++ String " " (tol ++ String " " iters)))%string.
    rewrite !words_space, Hw, (proj1 tol_word), (proj1 iters_word). reflexivity.
Qed.
Lemma increments_header : forall n, header ("INCREMENTS " ++ nat_str n)%string n.
Proof.
  intros n. split; [|split].
  - apply (search_kw_absent "_"); [reflexivity|]. rewrite has_ci_app, nat_no_ci by reflexivity. reflexivity.
  - reflexivity.
  - unfold second_int. change ("INCREMENTS " ++ nat_str n)%string with ("INCREMENTS" ++ String " " (nat_str n))%string. rewrite words_space, words_nat. cbn [words is_space app nth_error].
    pose proof (py_int_nat EmptyString n EmptyString eq_refl eq_refl) as P. cbn [append] in P. rewrite tf_app_nil in P. exact P.
Qed.

(** the history read from the file of a loading is the loading, with its factors
    as printed *)
Theorem tfact_of_written : forall fit t n_inc n_reverse draws n f,
  links_loading fit IncrementList t n_inc n_reverse draws = Ok (ListedLoading n f) ->
  exists h, read_tfact pf (loading_lines fmt tol iters (ListedLoading n f)) = Ok h /\
    t_inc h = 0 :: map rnd f /\ length (t_hist h) = S n_inc /\
    forall k, (k <= n_inc)%nat -> nth k (t_hist h) (0, 0) = (INR k / INR n_inc, load_at (map rnd f) k).
Proof.
  intros fit t n_inc n_reverse draws n f H. destruct (load_count _ _ _ _ _ _ _ _ H) as [-> Hf].
  destruct (tfact_read pf [""%string] ("INCREMENTS " ++ nat_str n_inc)%string (map (increment_line fmt tol iters) f) [] n_inc (map rnd f)) as [h [E [H1 [H2 [H3 _]]]]].
  - constructor; [reflexivity|constructor].
  - apply increments_header.
  - clear H Hf. induction f as [|d f IH]; constructor; [apply increment_row|exact IH].
  - now rewrite map_length.
  - exact I.
  - exists h. rewrite app_nil_r in E. split; [exact E|]. split; [exact H1|]. split; [exact H2|exact H3].
Qed.
Theorem tfact_of_even : forall n, (0 < n)%nat ->
  exists h, read_tfact pf (loading_lines fmt tol iters (EvenLoading n)) = Ok h /\
    forall k, (k <= n)%nat -> nth k (t_hist h) (0, 0) = (INR k / INR n, INR k / INR n).
Proof.
  intros n Hn. destruct (tfact_even pf [""%string] ("Number_of_Increments " ++ nat_str n)%string [""; "CONVERGENCE_TOLERANCE"; tol]%string n) as [_ H].
  - constructor; [reflexivity|constructor].
  - reflexivity.
  - unfold second_int. change ("Number_of_Increments " ++ nat_str n)%string with ("Number_of_Increments" ++ String " " (nat_str n))%string. rewrite words_space, words_nat.
    replace (words "Number_of_Increments") with ["Number_of_Increments"%string] by (vm_compute; reflexivity). cbn [app nth_error].
    pose proof (py_int_nat EmptyString n EmptyString eq_refl eq_refl) as P. cbn [append] in P. rewrite tf_app_nil in P. exact P.
  - destruct (H Hn) as [h [E [_ [H3 _]]]]. exists h. split; [exact E|exact H3].
Qed.
End Written.

(** ** Scaling *)
Theorem scaled_history : forall h s, map fst (scale_tfact_hist h s) = map fst h /\ map snd (scale_tfact_hist h s) = map (Rmult s) (map snd h) /\
  (forall s', scale_tfact_hist (scale_tfact_hist h s) s' = scale_tfact_hist h (s' * s)) /\ scale_tfact_hist h 1 = h /\
  (s <> 0 -> scale_tfact_hist (scale_tfact_hist h s) (/ s) = h).
Proof.
  intros h s. unfold scale_tfact_hist. repeat split.
  - rewrite map_map. reflexivity.
  - rewrite !map_map. reflexivity.
  - intros s'. rewrite map_map. apply map_ext. intros p. cbn [fst snd]. f_equal. ring.
  - rewrite <- (map_id h) at 2. apply map_ext. intros [a b]. cbn [fst snd]. f_equal. ring.
  - intros Hs. rewrite map_map, <- (map_id h) at 1. rewrite map_id. rewrite <- (map_id h) at 2. apply map_ext. intros [a b]. cbn [fst snd]. f_equal. field. exact Hs.
Qed.

(** ** Examples *)
Example tfact_case : forall pf, pf "0.5"%string = Ok (1/2) -> pf "-0.25"%string = Ok (-1/4) ->
  exists t, read_tfact pf ["TITLE"; "INCREMENTS 2"; "1.0 0.5 1e-6 6"; "-0.25 1e-6 6"; ""; "NODES"]%string = Ok t /\
    nth 1 (t_hist t) (0, 0) = (INR 1 / INR 2, 1/2 + 0) /\ nth 2 (t_hist t) (0, 0) = (INR 2 / INR 2, 1/2 + (-1/4 + 0)).
Proof.
  intros pf H1 H2.
  destruct (tfact_read pf ["TITLE"]%string "INCREMENTS 2"%string ["1.0 0.5 1e-6 6"; "-0.25 1e-6 6"]%string [""; "NODES"]%string 2 [1/2; -1/4]) as [t [E [_ [_ [Hk _]]]]].
  - repeat constructor.
  - repeat split; vm_compute; reflexivity.
  - constructor; [|constructor; [|constructor]].
    + split; [vm_compute; reflexivity|]. split; [vm_compute; reflexivity|]. right. exists "1.0"%string, "0.5"%string, "1e-6"%string, "6"%string. split; [vm_compute; reflexivity|exact H1].
    + split; [vm_compute; reflexivity|]. split; [vm_compute; reflexivity|]. left. exists "-0.25"%string, "1e-6"%string, "6"%string. split; [vm_compute; reflexivity|exact H2].
  - reflexivity.
  - split; [vm_compute; reflexivity|right; reflexivity].
  - exists t. split; [exact E|]. split; [exact (Hk 1%nat ltac:(lia))|exact (Hk 2%nat ltac:(lia))].
Qed.
Example tfact_comment_case : forall pf, read_tfact pf ["Small load increments"; "INCREMENTS 1"; "1.0 1.0 1e-6 6"]%string = Err ValueError.
Proof. reflexivity. Qed.

Print Assumptions tfact_read.
Print Assumptions tfact_missing_rows_refuted.
Print Assumptions tfact_extra_rows.
Print Assumptions tfact_no_section.
Print Assumptions tfact_comment_refuted.
Print Assumptions tfact_even.
Print Assumptions tfact_of_written.
Print Assumptions tfact_of_even.
Print Assumptions scaled_history.
