(** Mean prediction metrics of a directory. *)
From Coq Require Import Reals String Ascii List Arith Bool ZArith Lia Lra Permutation.
From Verif Require Import Lib HardeningModel ScalerModel PyDict PyStr TextLines MetricsModel MetricsProps HybridModel HybridProps MeanMetricsModel.
Import ListNotations.
Local Open Scope R_scope.
Local Open Scope list_scope.

(** ** Names of the prediction files *)
Lemma drop_prefix_app p s : drop_prefix p (p ++ s)%string = Some s.
Proof. induction p; cbn; [reflexivity|]. rewrite Ascii.eqb_refl. exact IHp. Qed.
Lemma drop_prefix_some p s t : drop_prefix p s = Some t -> s = (p ++ t)%string.
Proof.
  revert s. induction p as [|a p IH]; intros s; cbn; [intros [= ->]; reflexivity|].
  destruct s as [|b s]; [discriminate|]. destruct (Ascii.eqb_spec a b) as [->|]; [|discriminate].
  intros E. rewrite (IH _ E). reflexivity.
Qed.
Lemma take_digits_app s c t : all_digits s = true -> is_digit c = false -> take_digits (s ++ String c t)%string = s.
Proof.
  induction s as [|d s IH]; cbn; intros A B; [rewrite B; reflexivity|].
  apply andb_prop in A. destruct A as [A1 A2]. rewrite A1, IH by auto. reflexivity.
Qed.
Lemma take_digits_all s : all_digits s = true -> take_digits s = s.
Proof. induction s as [|d s IH]; cbn; intros A; [reflexivity|]. apply andb_prop in A. destruct A as [A1 A2]. rewrite A1, IH by auto. reflexivity. Qed.
Lemma skip_digits_all s : all_digits s = true -> skip_digits s = EmptyString.
Proof. induction s as [|d s IH]; cbn; intros A; [reflexivity|]. apply andb_prop in A. destruct A as [A1 A2]. rewrite A1. auto. Qed.
Definition sample_name (n : nat) : string := ("prediction_sample_" ++ nat_str n ++ ".pkl")%string.
(** The file written for sample [n] is found, with its number. *)
Theorem sample_name_found : forall n, sample_number (sample_name n) = Some n.
Proof.
  intros n. unfold sample_number, sample_name. rewrite drop_prefix_app.
  rewrite (skip_digits_app (nat_str n) "." "pkl") by (try reflexivity; apply nat_str_digits).
  change (nat_str n ++ ".pkl")%string with (nat_str n ++ String "." "pkl")%string.
  rewrite take_digits_app by (try reflexivity; apply nat_str_digits).
  change (negb (Ascii.eqb "." newline) && pkl_end "pkl") with true. cbv beta iota.
  rewrite int_of_nat_str. reflexivity.
Qed.
(** A name without the dot is taken for another sample, and a name with leading
    zeros is a second file of the same sample. *)
Theorem sample_name_refuted : exists a b, a <> sample_name 1 /\ sample_number a = Some 1%nat
  /\ b <> sample_name 7 /\ sample_number b = Some 7%nat.
Proof. exists "prediction_sample_12pkl"%string, "prediction_sample_007.pkl"%string. repeat split; discriminate. Qed.

(** ** Means *)
Definition sample := (list (list R) * list (list R))%type.
(** A directory entry with the results of a sample of [m] features *)
Definition holds (m : nat) (f : pickled) (s : sample) : Prop :=
  exists d n_time, f = Results d /\ complete d (fst s) (snd s) n_time /\ length (fst s) = m.
Definition rmse_of (s : sample) (j : nat) : R := sqrt (spec_mse (combine (nth j (fst s) []) (nth j (snd s) []))).
Definition mav_of (s : sample) (j : nat) : R := mean_of Rabs (nth j (snd s) []).
(** The samples of a directory: the entries that are prediction files *)
Definition is_sample_file (e : string * pickled) : bool := match sample_number (fst e) with Some _ => true | None => false end.
Definition samples_of (m : nat) (d : directory) (l : list sample) : Prop :=
  Forall2 (holds m) (map snd (filter is_sample_file d)) l.

Definition rmse_row (s : sample) : list num := map (fun j => Some (rmse_of s j)) (seq 0 (length (fst s))).
Definition mav_row (s : sample) : list num := map (fun j => Some (mav_of s j)) (seq 0 (length (fst s))).
Definition nratio (s : sample) (j : nat) : num := fdiv (rmse_of s j) (mav_of s j).
Definition metric_row (metric : string) (s : sample) : list num :=
  if String.eqb metric "rmse" then rmse_row s else map (nratio s) (seq 0 (length (fst s))).
Definition known_mean (metric : string) : Prop := metric = "rmse"%string \/ metric = "nrmse"%string.

Lemma sample_metrics m f s : holds m f s -> exists r, compute_prediction_metrics (Some f) ["rmse"; "mav_gt"]%string = Ok r
  /\ dlookup r "rmse" = Ok (rmse_row s) /\ dlookup r "mav_gt" = Ok (mav_row s).
Proof.
  intros [d [n [-> [C L]]]].
  assert (C' := C). destruct C' as [A _].
  unfold compute_prediction_metrics, get_sample_n_features, rget. rewrite A. cbn [rbind metrics_loop].
  change (known_metric "rmse") with true. change (known_metric "mav_gt") with true. cbv iota.
  rewrite !(features_loop_spec _ _ _ _ _ _ C) by (try reflexivity; intros i I; apply in_seq in I; lia).
  cbn [rbind]. eexists. split; [reflexivity|]. split; reflexivity.
Qed.
Lemma combine_map_seq {A B C} (f : A -> B) (g : A -> C) l : combine (map f l) (map g l) = map (fun a => (f a, g a)) l.
Proof. induction l; cbn; congruence. Qed.
Lemma metric_of_sample_ok metric s : known_mean metric -> metric_of_sample metric (rmse_row s) (mav_row s) = Ok (metric_row metric s).
Proof.
  intros [-> | ->]; cbn; [reflexivity|]. unfold tdiv, rmse_row, mav_row, metric_row. cbn [String.eqb Ascii.eqb Bool.eqb].
  rewrite combine_map_seq, map_map. reflexivity.
Qed.

Definition times (x : string) (l : list string) : nat := count_occ string_dec l x.
Lemma collect_metrics metrics s : (forall x, In x metrics -> known_mean x) -> forall acc,
  (forall x, In x metrics -> exists l, dget acc x = Some l) ->
  exists acc', rfold (collect_metric (rmse_row s) (mav_row s)) metrics acc = Ok acc'
    /\ forall x, dget acc' x = match dget acc x with Some l => Some (l ++ repeat (metric_row x s) (times x metrics)) | None => None end.
Proof.
  induction metrics as [|m rest IH]; intros K acc P; cbn [rfold].
  - exists acc. split; [reflexivity|]. intros x. cbn. destruct (dget acc x); [rewrite app_nil_r|]; reflexivity.
  - destruct (P m (or_introl eq_refl)) as [l El]. unfold collect_metric at 1.
    rewrite metric_of_sample_ok by (apply K; left; auto). cbn [rbind]. unfold dlookup at 1. rewrite El. cbn [rbind].
    destruct (IH (fun x I => K x (or_intror I)) (dset acc m (l ++ [metric_row m s]))) as [acc' [E Q]].
    { intros x I. destruct (string_dec m x) as [->|N]; [rewrite dget_dset_same; eauto|].
      rewrite dget_dset_other by auto. apply P. right. exact I. }
    exists acc'. split; [exact E|]. intros x. rewrite Q. unfold times. cbn [count_occ].
    destruct (string_dec m x) as [->|N].
    + rewrite dget_dset_same, El. rewrite <- app_assoc. reflexivity.
    + rewrite dget_dset_other by auto. reflexivity.
Qed.
Definition gathered (metrics : list string) (x : string) (l : list sample) : list (list num) :=
  concat (map (fun s => repeat (metric_row x s) (times x metrics)) l).
Lemma collect_samples m metrics files l : (forall x, In x metrics -> known_mean x) -> Forall2 (holds m) files l ->
  forall acc, (forall x, In x metrics -> exists v, dget acc x = Some v) ->
  exists acc', rfold (collect_sample metrics) files acc = Ok acc'
    /\ forall x, dget acc' x = match dget acc x with Some v => Some (v ++ gathered metrics x l) | None => None end.
Proof.
  intros K. induction 1 as [|f s files l H F IH]; intros acc P; cbn [rfold].
  - exists acc. split; [reflexivity|]. intros x. unfold gathered. cbn. destruct (dget acc x); [rewrite app_nil_r|]; reflexivity.
  - destruct (sample_metrics m f s H) as [r [E1 [E2 E3]]]. unfold collect_sample at 1. rewrite E1. cbn [rbind]. rewrite E2. cbn [rbind]. rewrite E3. cbn [rbind].
    destruct (collect_metrics metrics s K acc P) as [acc1 [E Q]]. rewrite E. cbn [rbind].
    destruct (IH acc1) as [acc2 [E4 Q4]].
    { intros x I. rewrite Q. destruct (P x I) as [v ->]. eauto. }
    exists acc2. split; [exact E4|]. intros x. rewrite Q4, Q. destruct (dget acc x); [|reflexivity].
    unfold gathered. cbn [map concat]. rewrite app_assoc. reflexivity.
Qed.
Lemma empty_collection_get metrics x : dget (empty_collection metrics) x = if in_dec string_dec x metrics then Some [] else None.
Proof.
  unfold empty_collection.
  assert (Z : forall l (d : dict (list (list num))), dget (fold_left (fun d m => dset d m []) l d) x = if in_dec string_dec x l then Some [] else dget d x).
  { induction l as [|y l IH]; intros d; cbn [fold_left]; [reflexivity|]. rewrite IH.
    destruct (in_dec string_dec x l) as [I|I]; destruct (in_dec string_dec x (y :: l)) as [J|J]; auto.
    - exfalso. apply J. right. exact I.
    - destruct J as [->|J]; [apply dget_dset_same|contradiction].
    - apply dget_dset_other. intros ->. apply J. left. reflexivity. }
  rewrite Z. reflexivity.
Qed.
(** The mean of a column of copies *)
Lemma nsum_app a b : nsum (a ++ b) = nadd (nsum a) (nsum b).
Proof.
  unfold nsum. induction a as [|x a IH]; cbn [app fold_right].
  - destruct (fold_right nadd (Some 0) b); cbn [nadd]; [rewrite Rplus_0_l|]; reflexivity.
  - rewrite IH. destruct x, (fold_right nadd (Some 0) a), (fold_right nadd (Some 0) b); cbn; try reflexivity. f_equal. ring.
Qed.
Lemma nsum_repeat v k : nsum (repeat (Some v) k) = Some (INR k * v).
Proof. induction k as [|k IH]; [cbn; f_equal; ring|]. cbn [repeat]. unfold nsum in *. cbn [fold_right]. rewrite IH. cbn [nadd]. f_equal. rewrite S_INR. ring. Qed.
Lemma nsum_none l : In None l -> nsum l = None.
Proof. induction l as [|x l IH]; [intros []|]. intros [->|I]; cbn; [reflexivity|]. unfold nsum in IH. rewrite (IH I). destruct x; reflexivity. Qed.
Lemma gathered_column metrics x l j : map (fun r => nth j r None) (gathered metrics x l)
  = concat (map (fun s => repeat (nth j (metric_row x s) None) (times x metrics)) l).
Proof.
  unfold gathered. rewrite concat_map, map_map. f_equal. apply map_ext. intros s.
  generalize (times x metrics). intros k. induction k as [|k IH]; [reflexivity|]; cbn [repeat map]; rewrite IH; reflexivity.
Qed.
Lemma metric_row_nth x s j : (j < length (fst s))%nat ->
  nth j (metric_row x s) None = if String.eqb x "rmse" then Some (rmse_of s j) else nratio s j.
Proof.
  intros J. unfold metric_row, rmse_row. destruct (String.eqb x "rmse").
  - rewrite (nth_indep _ None (Some (rmse_of s 0))) by (rewrite map_length, seq_length; exact J).
    rewrite (map_nth (fun j => Some (rmse_of s j))), seq_nth by exact J. reflexivity.
  - rewrite (nth_indep _ None (nratio s 0)) by (rewrite map_length, seq_length; exact J).
    rewrite (map_nth (nratio s)), seq_nth by exact J. reflexivity.
Qed.
Lemma metric_row_len x s : length (metric_row x s) = length (fst s).
Proof. unfold metric_row, rmse_row. destruct (String.eqb x "rmse"); rewrite map_length, seq_length; reflexivity. Qed.
Lemma nmean_nonempty l v n : nsum l = Some v -> length l = n -> (0 < n)%nat -> nmean l = Some (v / INR n).
Proof. intros S L P. unfold nmean. destruct l; [cbn in L; lia|]. rewrite S, L. reflexivity. Qed.
Lemma mean_copies (f : sample -> R) l k : l <> [] -> (0 < k)%nat ->
  nmean (concat (map (fun s => repeat (Some (f s)) k) l)) = Some (mean_of f l).
Proof.
  intros N K. rewrite (nmean_nonempty _ (INR k * lsum (map f l)) (length l * k)).
  - f_equal. unfold mean_of. rewrite mult_INR.
    assert (0 < INR k) by (apply lt_0_INR; lia). pose proof (length_pos l N). field. lra.
  - clear N. induction l as [|s l IH]; cbn [map concat lsum]; [cbn; f_equal; ring|].
    rewrite nsum_app, nsum_repeat, IH. cbn [nadd]. f_equal. ring.
  - clear. induction l as [|s l IH]; [reflexivity|]. cbn [map concat]. etransitivity; [apply app_length|]. rewrite repeat_length. cbn [length Nat.mul]. f_equal. exact IH.
  - destruct l; [congruence|]. cbn. lia.
Qed.
Lemma mean_none (f : sample -> num) l k : (0 < k)%nat -> (exists s, In s l /\ f s = None) ->
  nmean (concat (map (fun s => repeat (f s) k) l)) = None.
Proof.
  intros K [s [I E]]. unfold nmean. destruct (concat _) as [|y t] eqn:C; [reflexivity|].
  rewrite <- C. rewrite nsum_none; [reflexivity|]. apply in_concat. exists (repeat (f s) k). split.
  - apply in_map_iff. exists s. auto.
  - rewrite E. destruct k; [lia|]. left. reflexivity.
Qed.

(** The mean, over the samples of the directory, of the metric of one feature;
    [None] is NaN. *)
Definition mean_spec (x : string) (l : list sample) (j : nat) (v : num) : Prop :=
  if String.eqb x "rmse" then v = Some (mean_of (fun s => rmse_of s j) l)
  else ((forall s, In s l -> mav_of s j <> 0) -> v = Some (mean_of (fun s => rmse_of s j / mav_of s j) l))
       /\ ((exists s, In s l /\ mav_of s j = 0) -> v = None).

Lemma stack_gathered m metrics x l : (forall s, In s l -> length (fst s) = m) -> l <> [] -> In x metrics ->
  exists vs, stack_mean (gathered metrics x l) = Ok vs /\ length vs = m /\ forall j, (j < m)%nat -> mean_spec x l j (nth j vs None).
Proof.
  intros M N I.
  assert (K : (0 < times x metrics)%nat) by (apply count_occ_In; exact I).
  assert (R : forall r, In r (gathered metrics x l) -> length r = m).
  { intros r Ir. unfold gathered in Ir. apply in_concat in Ir. destruct Ir as [c [Ic Irc]].
    apply in_map_iff in Ic. destruct Ic as [s [<- Is]]. apply repeat_spec in Irc. subst r. rewrite metric_row_len. auto. }
  unfold stack_mean. destruct (gathered metrics x l) as [|r0 t] eqn:G.
  { exfalso. destruct l as [|s l]; [congruence|]. unfold gathered in G. cbn in G. destruct (times x metrics); [lia|discriminate]. }
  rewrite (R r0) by (left; auto).
  replace (forallb _ (r0 :: t)) with true.
  2:{ symmetry. apply forallb_forall. intros y Iy. apply Nat.eqb_eq. auto. }
  rewrite <- G. eexists. split; [reflexivity|]. split; [rewrite map_length, seq_length; reflexivity|].
  intros j J. rewrite (nth_indep _ None (nmean (map (fun x0 : list num => nth 0 x0 None) (gathered metrics x l)))) by (rewrite map_length, seq_length; exact J).
  rewrite (map_nth (fun j => nmean (map (fun r => nth j r None) (gathered metrics x l)))), seq_nth by exact J. cbn [Nat.add].
  rewrite gathered_column. unfold mean_spec.
  assert (E : map (fun s => repeat (nth j (metric_row x s) None) (times x metrics)) l
    = map (fun s => repeat (if String.eqb x "rmse" then Some (rmse_of s j) else nratio s j) (times x metrics)) l).
  { apply map_ext_in. intros s Is. rewrite metric_row_nth by (rewrite M; auto). reflexivity. }
  rewrite E. destruct (String.eqb x "rmse").
  - apply mean_copies; auto.
  - split.
    + intros NZ. rewrite (map_ext_in _ (fun s => repeat (Some (rmse_of s j / mav_of s j)) (times x metrics))).
      * apply (mean_copies (fun s => rmse_of s j / mav_of s j)); auto.
      * intros s Is. unfold nratio. rewrite fdiv_some by auto. reflexivity.
    + intros [s [Is Z]]. apply mean_none; auto. exists s. split; [exact Is|]. unfold nratio, fdiv. destruct (Req_EM_T _ _); congruence.
Qed.
Lemma holds_len m files l : Forall2 (holds m) files l -> forall s, In s l -> length (fst s) = m.
Proof. induction 1 as [|f s files l H F IH]; intros t I; [destruct I|]. destruct I as [<-|I]; [destruct H as [d [n [_ [_ H]]]]; exact H|auto]. Qed.
Lemma F2_len {A B} (P : A -> B -> Prop) a b : Forall2 P a b -> length a = length b.
Proof. induction 1; cbn; congruence. Qed.

(** The number of samples and, for every requested metric and no other, the mean
    over all samples of the directory, feature by feature. The order of the
    listing, repeated metrics and other files of the directory do not matter. *)
Theorem directory_metrics_values : forall m d l metrics, samples_of m d l -> l <> [] ->
  (forall x, In x metrics -> known_mean x) ->
  exists r, compute_directory_prediction_metrics d metrics = Ok (length l, r)
    /\ (forall x, In x metrics -> exists vs, dget r x = Some vs /\ length vs = m
          /\ forall j, (j < m)%nat -> mean_spec x l j (nth j vs None))
    /\ (forall x, ~ In x metrics -> dget r x = None).
Proof.
  intros m d l metrics S N K.
  unfold compute_directory_prediction_metrics, get_samples_prediction_files.
  destruct d as [|e d]; [inversion S; subst; congruence|]. remember (e :: d) as dd eqn:Edd. clear Edd e d.
  change (filter (fun e => match sample_number (fst e) with Some _ => true | None => false end) dd) with (filter is_sample_file dd).
  cbn [rbind fst]. unfold compute_mean_prediction_metrics.
  unfold samples_of in S. set (files := map snd (filter is_sample_file dd)) in *.
  destruct (collect_samples m metrics files l K S (empty_collection metrics)) as [acc [E Q]].
  { intros x I. rewrite empty_collection_get. destruct (in_dec string_dec x metrics); [eauto|contradiction]. }
  rewrite E. cbn [rbind].
  assert (G : forall x, In x metrics -> dget acc x = Some (gathered metrics x l)).
  { intros x I. rewrite Q, empty_collection_get. destruct (in_dec string_dec x metrics); [reflexivity|contradiction]. }
  assert (W : forall todo r0, incl todo metrics -> exists r, rfold (mean_metric acc) todo r0 = Ok r
    /\ forall x, (In x todo -> exists vs, dget r x = Some vs /\ stack_mean (gathered metrics x l) = Ok vs)
              /\ (~ In x todo -> dget r x = dget r0 x)).
  { induction todo as [|y todo IH]; intros r0 IN; cbn [rfold].
    - exists r0. split; [reflexivity|]. intros x. split; [intros []|reflexivity].
    - assert (Iy : In y metrics) by (apply IN; left; auto).
      destruct (stack_gathered m metrics y l (holds_len m files l S) N Iy) as [vs [Ev _]].
      unfold mean_metric at 1. unfold dlookup. rewrite (G y Iy). cbn [rbind]. rewrite Ev. cbn [rbind].
      destruct (IH (dset r0 y vs)) as [r [Er Qr]]; [intros z Iz; apply IN; right; exact Iz|].
      exists r. split; [exact Er|]. intros x. destruct (Qr x) as [Q1 Q2]. split.
      + intros I. destruct (in_dec string_dec x todo) as [J|J]; [auto|]. destruct I as [<-|I]; [|contradiction].
        exists vs. split; [|exact Ev]. rewrite Q2 by exact J. apply dget_dset_same.
      + intros NI. rewrite Q2 by (intros J; apply NI; right; exact J). apply dget_dset_other. intros ->. apply NI. left. reflexivity. }
  destruct (W metrics [] (incl_refl _)) as [r [Er Qr]]. exists r. rewrite Er. cbn [rbind]. rewrite (F2_len _ _ _ S).
  split; [reflexivity|]. split.
  - intros x I. destruct (proj1 (Qr x) I) as [vs [D Ev]]. exists vs. split; [exact D|].
    destruct (stack_gathered m metrics x l (holds_len m files l S) N I) as [vs' [Ev' P]]. rewrite Ev in Ev'. injection Ev' as <-. exact P.
  - intros x NI. rewrite (proj2 (Qr x) NI). reflexivity.
Qed.

(** The order in which the system lists the files does not matter. *)
Lemma mean_perm {A} (f : A -> R) l l' : Permutation l l' -> mean_of f l = mean_of f l'.
Proof.
  intros P. unfold mean_of. rewrite (Permutation_length P). f_equal.
  induction P; cbn; lra.
Qed.
Lemma F2_perm {A B} (P : A -> B -> Prop) a a' : Permutation a a' -> forall b, Forall2 P a b -> exists b', Permutation b b' /\ Forall2 P a' b'.
Proof.
  induction 1 as [|x a a' H IH|x y a|a a1 a2 H1 IH1 H2 IH2]; intros b F.
  - inversion F; subst. exists []. auto.
  - inversion F as [|? z ? b0 Pz Fb]; subst. destruct (IH b0 Fb) as [b' [Q F']]. exists (z :: b'). split; [constructor; auto|constructor; auto].
  - inversion F as [|? z ? b0 Pz Fb]; subst. inversion Fb as [|? w ? b1 Pw Fb1]; subst. exists (w :: z :: b1). split; [apply perm_swap|]. repeat constructor; auto.
  - destruct (IH1 b F) as [b1 [Q1 F1]]. destruct (IH2 b1 F1) as [b2 [Q2 F2]]. exists b2. split; [eapply Permutation_trans; eauto|auto].
Qed.
Lemma filter_perm {A} (f : A -> bool) l l' : Permutation l l' -> Permutation (filter f l) (filter f l').
Proof.
  induction 1 as [|x a a' H IH|x y a|a a1 a2 H1 IH1 H2 IH2]; cbn; auto.
  - destruct (f x); auto.
  - destruct (f x), (f y); auto. apply perm_swap.
  - eapply Permutation_trans; eauto.
Qed.
Theorem directory_order_irrelevant : forall m d d' l metrics, Permutation d d' -> samples_of m d l -> l <> [] ->
  (forall x, In x metrics -> known_mean x) ->
  exists n r r', compute_directory_prediction_metrics d metrics = Ok (n, r)
    /\ compute_directory_prediction_metrics d' metrics = Ok (n, r') /\ forall x, dget r x = dget r' x.
Proof.
  intros m d d' l metrics P S N K.
  assert (PF : Permutation (map snd (filter is_sample_file d)) (map snd (filter is_sample_file d'))) by (apply Permutation_map, filter_perm, P).
  destruct (F2_perm _ _ _ PF l S) as [l' [PL S']].
  assert (N' : l' <> []) by (intros ->; apply Permutation_sym, Permutation_nil in PL; congruence).
  destruct (directory_metrics_values m d l metrics S N K) as [r [E [Q1 Q2]]].
  destruct (directory_metrics_values m d' l' metrics S' N' K) as [r' [E' [Q1' Q2']]].
  exists (length l), r, r'. split; [exact E|]. split; [rewrite (Permutation_length PL); exact E'|].
  intros x. destruct (in_dec string_dec x metrics) as [I|I]; [|rewrite Q2, Q2' by auto; reflexivity].
  destruct (Q1 x I) as [vs [D [L V]]]. destruct (Q1' x I) as [vs' [D' [L' V']]]. rewrite D, D'. f_equal.
  apply (@nth_ext num vs vs' None None); [transitivity m; [exact L|symmetry; exact L']|]. intros j J. assert (J0 : (j < m)%nat) by (rewrite <- L; exact J). clear J. rename J0 into J. pose proof (V j J) as A. pose proof (V' j J) as B.
  unfold mean_spec in A, B. destruct (String.eqb x "rmse").
  - rewrite A, B. f_equal. apply mean_perm, PL.
  - destruct A as [A1 A2]. destruct B as [B1 B2].
    destruct (Forall_Exists_dec (fun s => mav_of s j <> 0) (fun s => match Req_EM_T (mav_of s j) 0 with left e => right (fun n => n e) | right n => left n end) l) as [F|F].
    + rewrite Forall_forall in F. rewrite A1 by exact F. rewrite B1.
      * f_equal. apply mean_perm, PL.
      * intros s Is. apply F. apply (Permutation_in s (Permutation_sym PL)). exact Is.
    + apply Exists_exists in F. destruct F as [s [Is Z]].
      assert (Z' : mav_of s j = 0) by (destruct (Req_dec (mav_of s j) 0); [assumption|exfalso; auto]).
      rewrite A2 by (exists s; auto). rewrite B2; [reflexivity|]. exists s. split; [apply (Permutation_in s PL); exact Is|exact Z'].
Qed.

(** One unknown metric is refused as soon as there is a sample. *)
Theorem unknown_mean_refused : forall m d l metrics x, samples_of m d l -> l <> [] -> In x metrics -> ~ known_mean x ->
  compute_directory_prediction_metrics d metrics = Err RuntimeError.
Proof.
  intros m d l metrics x S N I U.
  unfold compute_directory_prediction_metrics, get_samples_prediction_files.
  destruct d as [|e d]; [inversion S; subst; congruence|]. remember (e :: d) as dd eqn:Edd. clear Edd e d.
  change (filter (fun e => match sample_number (fst e) with Some _ => true | None => false end) dd) with (filter is_sample_file dd).
  cbn [rbind fst]. unfold compute_mean_prediction_metrics.
  unfold samples_of in S. inversion S as [|f s files l0 H F EF EL]; subst; [congruence|]. cbn [rfold].
  destruct (sample_metrics m f s H) as [r [E1 [E2 E3]]]. unfold collect_sample at 1. rewrite E1. cbn [rbind]. rewrite E2. cbn [rbind]. rewrite E3. cbn [rbind].
  assert (Z : forall todo acc, In x todo -> (forall y, In y todo -> exists v, dget acc y = Some v) ->
     rfold (collect_metric (rmse_row s) (mav_row s)) todo acc = Err RuntimeError).
  { induction todo as [|y todo IH]; intros acc J P; [destruct J|]. cbn [rfold]. unfold collect_metric at 1.
    destruct (string_dec y "rmse") as [->|N1]; [|destruct (string_dec y "nrmse") as [->|N2]].
    - rewrite metric_of_sample_ok by (left; reflexivity). cbn [rbind]. destruct (P "rmse"%string (or_introl eq_refl)) as [v Ev]. unfold dlookup. rewrite Ev. cbn [rbind].
      destruct J as [<-|J]; [exfalso; apply U; left; reflexivity|]. apply IH; [exact J|]. intros y Iy.
      destruct (string_dec "rmse" y) as [<-|NE]; [rewrite dget_dset_same; eauto|rewrite dget_dset_other by auto; apply P; right; exact Iy].
    - rewrite metric_of_sample_ok by (right; reflexivity). cbn [rbind]. destruct (P "nrmse"%string (or_introl eq_refl)) as [v Ev]. unfold dlookup. rewrite Ev. cbn [rbind].
      destruct J as [<-|J]; [exfalso; apply U; right; reflexivity|]. apply IH; [exact J|]. intros y Iy.
      destruct (string_dec "nrmse" y) as [<-|NE]; [rewrite dget_dset_same; eauto|rewrite dget_dset_other by auto; apply P; right; exact Iy].
    - unfold metric_of_sample. rewrite (proj2 (String.eqb_neq _ _) N1), (proj2 (String.eqb_neq _ _) N2). reflexivity. }
  rewrite Z; [reflexivity|exact I|]. intros y Iy. rewrite empty_collection_get. destruct (in_dec string_dec y metrics); [eauto|contradiction].
Qed.
(** With no prediction file in a directory that is not empty there is no error:
    any metric, known or not, is returned as an empty tensor of 0 samples. *)
Theorem no_samples_refuted : exists d, d <> [] /\ (forall e, In e d -> sample_number (fst e) = None)
  /\ compute_directory_prediction_metrics d ["rmse"; "accuracy"]%string = Ok (0%nat, [("rmse", []); ("accuracy", [])]%string).
Proof.
  exists [("prediction_metrics"%string, NotADict)]. split; [discriminate|]. split; [|reflexivity].
  intros e [<-|[]]. reflexivity.
Qed.
(** One sample whose ground truth of a feature is null makes the mean of that
    feature NaN, whatever the other samples. *)
Theorem nrmse_null_sample : forall m d l metrics j s, samples_of m d l -> (forall x, In x metrics -> known_mean x) ->
  In "nrmse"%string metrics -> (j < m)%nat -> In s l -> Forall (fun t => t = 0) (nth j (snd s) []) ->
  exists r vs, compute_directory_prediction_metrics d metrics = Ok (length l, r) /\ dget r "nrmse" = Some vs /\ nth j vs None = None.
Proof.
  intros m d l metrics j s S K I J Is Z.
  assert (N : l <> []) by (intros ->; destruct Is).
  destruct (directory_metrics_values m d l metrics S N K) as [r [E [Q _]]]. destruct (Q _ I) as [vs [D [L V]]].
  exists r, vs. split; [exact E|]. split; [exact D|].
  destruct (V j J) as [_ B]. apply B. exists s. split; [exact Is|]. unfold mav_of, mean_of.
  replace (lsum (map Rabs (nth j (snd s) []))) with 0; [unfold Rdiv; ring|].
  induction Z as [|t l0 Ht Z IH]; cbn; [reflexivity|]. rewrite <- IH, Ht, Rabs_R0. ring.
Qed.

(** A directory of two samples of one feature and another file *)
Definition two_samples : directory :=
  [(sample_name 1, Results [("features_out", Tensor2 [[2; 2]]); ("targets", Tensor2 [[1; 1]])]%string);
   ("notes.txt"%string, NotADict);
   (sample_name 0, Results [("features_out", Tensor2 [[4; 4]]); ("targets", Tensor2 [[1; 1]])]%string)].
Example directory_case : exists r vs, compute_directory_prediction_metrics two_samples ["rmse"; "nrmse"]%string = Ok (2%nat, r)
  /\ dget r "rmse" = Some vs /\ nth 0 vs None = Some 2.
Proof.
  destruct (directory_metrics_values 1 two_samples [([[2; 2]], [[1; 1]]); ([[4; 4]], [[1; 1]])] ["rmse"; "nrmse"]%string) as [r [E [Q _]]].
  - unfold samples_of, two_samples. cbn [filter is_sample_file fst]. unfold is_sample_file. cbn [fst]. rewrite !sample_name_found.
    change (sample_number "notes.txt") with (@None nat). cbn [map snd].
    repeat constructor; eexists; exists 2%nat; (split; [reflexivity|]); repeat split; try lia; repeat constructor.
  - discriminate.
  - intros x [<-|[<-|[]]]; [left|right]; reflexivity.
  - destruct (Q "rmse"%string (or_introl eq_refl)) as [vs [D [_ V]]]. exists r, vs. split; [exact E|]. split; [exact D|].
    specialize (V 0%nat ltac:(lia)). unfold mean_spec in V. cbn [String.eqb Ascii.eqb Bool.eqb] in V. rewrite V. f_equal.
    unfold mean_of. cbn [map lsum length]. unfold rmse_of, spec_mse, mean_of. cbn [fst snd nth combine map lsum length].
    replace (((2 - 1) * (2 - 1) + ((2 - 1) * (2 - 1) + 0)) / INR 2) with (1 * 1) by (simpl; field).
    replace (((4 - 1) * (4 - 1) + ((4 - 1) * (4 - 1) + 0)) / INR 2) with (3 * 3) by (simpl; field).
    rewrite !sqrt_square by lra. simpl. field.
Qed.

Print Assumptions directory_metrics_values.
Print Assumptions directory_order_irrelevant.
Print Assumptions nrmse_null_sample.
