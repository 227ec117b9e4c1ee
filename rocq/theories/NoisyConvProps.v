(** Convergence plots of models trained on noisy data (C123). *)
From Coq Require Import String Reals List Bool Arith Lia Lra.
From Verif Require Import Lib PyDict ConvPlotModel ConvPlotProps NoisyConvModel.
Import ListNotations.
Local Open Scope list_scope.

Lemma nth_error_eq {A} (l : list A) : forall l', (forall i, nth_error l i = nth_error l' i) -> l = l'.
Proof.
  induction l as [|a l IH]; intros [|b l'] H; [reflexivity|specialize (H 0%nat); discriminate H|specialize (H 0%nat); discriminate H|].
  assert (E := H 0%nat). cbn in E. injection E as <-. f_equal. apply IH. intros i. exact (H (S i)).
Qed.
Lemma every2_row s : forall v rest, v <> [] -> every2 (tl (data_row (s, v)) ++ firstn 1 rest) = v.
Proof.
  unfold data_row. cbn [fst snd]. induction v as [|a v IH]; intros rest N; [contradiction|]. cbn [flat_map app tl].
  destruct v as [|b v]; [cbn; destruct rest; reflexivity|]. cbn [flat_map app tl] in *. cbn [every2]. f_equal. apply IH. discriminate.
Qed.
Lemma data_row_length s v : length (data_row (s, v)) = (2 * length v)%nat.
Proof. unfold data_row. cbn [fst snd]. induction v; cbn in *; lia. Qed.
Lemma skipn_concat {A} (blocks : list (list A)) w : (forall b, In b blocks -> length b = w) -> forall i, (i <= length blocks)%nat ->
  skipn (w * i) (concat blocks) = concat (skipn i blocks).
Proof.
  induction blocks as [|b blocks IH]; intros H i Hi; cbn [length] in Hi; [replace i with 0%nat by lia; rewrite Nat.mul_0_r; reflexivity|].
  destruct i as [|i]; [rewrite Nat.mul_0_r; reflexivity|]. cbn [concat skipn]. replace (w * S i)%nat with (length b + w * i)%nat by (rewrite (H b (or_introl eq_refl)); lia).
  rewrite <- IH by (try lia; intros; apply H; now right). rewrite skipn_app. rewrite skipn_all2 by lia. cbn [app]. f_equal. lia.
Qed.
(** The values of noise case i in a row of all cases are its losses. *)
Lemma case_values_row n i (es : list (nat * list R)) e : (0 < n)%nat -> (forall x, In x es -> length (snd x) = n) -> nth_error es i = Some e ->
  case_values n i (concat (map data_row es)) = snd e.
Proof.
  intros Hn H E. unfold case_values. assert (Hi : (i < length es)%nat) by (apply nth_error_Some; congruence).
  replace (1 + 2 * n * i)%nat with ((2 * n) * i + 1)%nat by lia.
  replace (skipn (2 * n * i + 1) (concat (map data_row es))) with (skipn 1 (skipn (2 * n * i) (concat (map data_row es)))).
  2: { clear. generalize (concat (map data_row es)). generalize (2 * n * i)%nat. intros k l. revert l. induction k as [|k IH]; intros l; [reflexivity|].
       destruct l as [|a l]; [reflexivity|]. cbn [skipn Nat.add]. apply IH. }
  rewrite skipn_concat; [|intros b I; apply in_map_iff in I as ([s v] & <- & I); rewrite data_row_length; specialize (H _ I); cbn in H; lia|rewrite map_length; lia].
  assert (S : exists rest, skipn i es = e :: rest).
  { clear - E. revert i E. induction es as [|a es IH]; intros [|i] E; try discriminate; [injection E as ->; eexists; reflexivity|]. cbn. now apply IH. }
  destruct S as (rest & S). rewrite skipn_map, S. cbn [map concat]. destruct e as [s v]. cbn [snd].
  assert (L : length v = n) by (apply (H (s, v)); eapply nth_error_In; exact E).
  assert (NV : v <> []) by (intros ->; cbn in L; lia).
  assert (T : skipn 1 (data_row (s, v) ++ concat (map data_row rest)) = tl (data_row (s, v)) ++ concat (map data_row rest)).
  { destruct v; [contradiction|]. reflexivity. }
  rewrite T. rewrite firstn_app. assert (LT : length (tl (data_row (s, v))) = (2 * n - 1)%nat).
  { pose proof (data_row_length s v) as Q. destruct v; [contradiction|]. cbn in *. lia. }
  rewrite LT. rewrite firstn_all2 by lia. replace (2 * n - (2 * n - 1))%nat with 1%nat by lia. now apply every2_row.
Qed.
Lemma chunks_flat {A B} (f : A -> list B) m : forall cases, (forall c, In c cases -> length (f c) = m) ->
  map (fun i => firstn m (skipn (i * m) (flat_map f cases))) (seq 0 (length cases)) = map f cases.
Proof.
  induction cases as [|c cases IH]; intros H; [reflexivity|]. cbn [length seq map flat_map]. f_equal.
  - cbn [Nat.mul skipn]. rewrite firstn_app. rewrite (H c (or_introl eq_refl)), Nat.sub_diag. cbn [firstn]. rewrite app_nil_r. apply firstn_all2. rewrite (H c (or_introl eq_refl)). lia.
  - rewrite <- IH by (intros; apply H; now right). rewrite <- seq_shift, map_map. apply map_ext. intros i. cbn [Nat.mul].
    rewrite skipn_app, (H c (or_introl eq_refl)). rewrite skipn_all2 by (rewrite (H c (or_introl eq_refl)); lia). cbn [app]. do 2 f_equal. lia.
Qed.
Lemma flat_len {A B} (f : A -> list B) m cases : (forall c, In c cases -> length (f c) = m) -> length (flat_map f cases) = (length cases * m)%nat.
Proof. induction cases as [|c cases IH]; intros H; [reflexivity|]. cbn [flat_map length]. rewrite app_length, IH, (H c (or_introl eq_refl)) by (intros; apply H; now right). reflexivity. Qed.

Lemma seq_map {A B} (F : nat -> B) (G : A -> B) : forall l, (forall t s, nth_error l t = Some s -> F t = G s) -> map F (seq 0 (length l)) = map G l.
Proof.
  intros l H. apply nth_error_eq. intros t. rewrite !nth_error_map. destruct (nth_error l t) as [s|] eqn:E.
  - assert (t < length l)%nat by (apply nth_error_Some; congruence). rewrite (nth_error_nth' _ 0%nat) by (rewrite seq_length; lia). rewrite seq_nth by lia. cbn. f_equal. now apply H.
  - apply nth_error_None in E. replace (nth_error (seq 0 (length l)) t) with (@None nat); [reflexivity|]. symmetry. apply nth_error_None. rewrite seq_length. lia.
Qed.
Lemma combine_nth_error {A B} (l : list A) : forall (l' : list B) i a b, nth_error l i = Some a -> nth_error l' i = Some b -> nth_error (combine l l') i = Some (a, b).
Proof.
  induction l as [|x l IH]; intros [|y l'] [|i] a b Ha Hb; try discriminate; [injection Ha as ->; injection Hb as ->; reflexivity|]. cbn in *. now apply IH.
Qed.
Lemma seq_combine {A B C} (l : list A) (l' : list B) (G : A -> B -> C) (F : nat -> C) : length l = length l' ->
  (forall i a b, nth_error l i = Some a -> nth_error l' i = Some b -> F i = G a b) -> map F (seq 0 (length l)) = map (fun p => G (fst p) (snd p)) (combine l l').
Proof.
  intros L H. replace (length l) with (length (combine l l')) by (rewrite combine_length; lia). apply seq_map. intros t [a b] E.
  assert (T : (t < length l)%nat) by (assert (t < length (combine l l'))%nat by (apply nth_error_Some; congruence); rewrite combine_length in *; lia).
  destruct (nth_error l t) as [a'|] eqn:Ea; [|apply nth_error_None in Ea; lia]. destruct (nth_error l' t) as [b'|] eqn:Eb; [|apply nth_error_None in Eb; lia].
  rewrite (combine_nth_error _ _ _ _ _ Ea Eb) in E. injection E as -> ->. cbn. now apply H.
Qed.
Lemma hstack_grid {A B} (row : A -> B -> list R) c0 cases sizes :
  hstack (map (fun c => map (row c) sizes) (c0 :: cases)) = map (fun s => concat (map (fun c => row c s) (c0 :: cases))) sizes.
Proof.
  unfold hstack. replace (length (nth 0 (map (fun c => map (row c) sizes) (c0 :: cases)) [])) with (length sizes) by (cbn; now rewrite map_length).
  apply seq_map. intros t s E. f_equal. rewrite map_map. apply map_ext. intros c. apply nth_error_nth. rewrite nth_error_map, E. reflexivity.
Qed.

Section Grid.
  Context {A B : Type}.
  (** training size found and losses of the realisations of a model *)
  Variable found : A * B -> nat.
  Variable losses : A * B -> list R.
  Variables (c0 : A) (cases : list A) (s0 : B) (sizes : list B).
  Variable labels : list string.
  Variable n : nat.
  Let all := model_dirs (c0 :: cases) (s0 :: sizes).
  Hypothesis pos : (0 < n)%nat.
  Hypothesis even : forall c s, In c (c0 :: cases) -> In s (s0 :: sizes) -> length (losses (c, s)) = n.
  Hypothesis labelled : length labels = length (c0 :: cases).

  Lemma table_grid : uq_loss_table (map found all) (map losses all) = Ok (map (fun d => (found d, losses d)) all).
  Proof.
    assert (NE : map losses all <> []) by (unfold all, model_dirs; cbn; discriminate).
    destruct (uq_rows (map found all) (map losses all) n NE) as (t & E & P).
    - apply Forall_forall. intros l I. apply in_map_iff in I as ([c s] & <- & I). unfold all, model_dirs in I. apply in_flat_map in I as (c' & Ic & I).
      apply in_map_iff in I as (s' & Q & Is). injection Q as -> ->. now apply even.
    - rewrite !map_length. lia.
    - rewrite E. f_equal. apply nth_error_eq. intros i. rewrite nth_error_map. destruct (nth_error t i) as [[s l]|] eqn:T.
      + apply P in T as [T1 T2]. rewrite !nth_error_map in *. destruct (nth_error all i) as [d|]; [|discriminate]. cbn in *. congruence.
      + destruct (nth_error all i) as [d|] eqn:D; [|reflexivity]. exfalso. assert (X : nth_error t i = Some (found d, losses d)) by (apply P; rewrite !nth_error_map, D; split; reflexivity). congruence.
  Qed.
  Lemma last_realisations : length (last (map losses all) []) = n.
  Proof.
    assert (I : In (last (map losses all) []) (map losses all)).
    { assert (NE : map losses all <> []) by (unfold all, model_dirs; cbn; discriminate). destruct (exists_last NE) as (l & x & ->). rewrite last_last. apply in_or_app. right. now left. }
    apply in_map_iff in I as ([c s] & <- & I). unfold all, model_dirs in I. apply in_flat_map in I as (c' & Ic & I).
    apply in_map_iff in I as (s' & Q & Is). injection Q as -> ->. now apply even.
  Qed.
  (** The curve of each noise case shows, under its label, mean and range of the
      losses of its own models, at the sizes found for the first noise case. *)
  Theorem noise_curves : forall rt, noise_figure rt (length (c0 :: cases)) labels (map found all) (map losses all) =
    Ok (map (fun p => (snd p, map (fun s => (INR (found (c0, s)), error_bar rt (losses (fst p, s)))) (s0 :: sizes))) (combine (c0 :: cases) labels)).
  Proof.
    intros rt. unfold noise_figure, data_rows. rewrite table_grid. cbn [rbind].
    set (row := fun c s => data_row (found (c, s), losses (c, s))).
    assert (RW : map data_row (map (fun d => (found d, losses d)) all) = flat_map (fun c => map (row c) (s0 :: sizes)) (c0 :: cases)).
    { unfold all, model_dirs. rewrite map_map. rewrite !flat_map_concat_map, concat_map, map_map. f_equal. apply map_ext. intros c. rewrite map_map. reflexivity. }
    rewrite RW. unfold np_split.
    assert (LR : length (flat_map (fun c => map (row c) (s0 :: sizes)) (c0 :: cases)) = (length (c0 :: cases) * length (s0 :: sizes))%nat).
    { apply flat_len. intros; now rewrite map_length. }
    rewrite LR. replace (length (c0 :: cases) =? 0)%nat with false by reflexivity.
    rewrite Nat.mul_comm, Nat.mod_mul by (cbn; lia). cbn [Nat.eqb negb]. rewrite Nat.div_mul by (cbn; lia).
    rewrite (chunks_flat (fun c => map (row c) (s0 :: sizes)) (length (s0 :: sizes)) (c0 :: cases)) by (intros; now rewrite map_length).
    cbn [rbind]. rewrite last_realisations. rewrite labelled, Nat.eqb_refl. cbn [negb]. destruct (Nat.eqb_spec n 0) as [|_]; [lia|]. f_equal.
    rewrite hstack_grid. rewrite (seq_combine (c0 :: cases) labels (fun c l => (l, map (fun s => (INR (found (c0, s)), error_bar rt (losses (c, s)))) (s0 :: sizes)))
      (fun i => (nth i labels ""%string, map (fun r => (nth 0 r 0%R, error_bar rt (case_values n i r))) (map (fun s => concat (map (fun c => row c s) (c0 :: cases))) (s0 :: sizes))))).
    - apply map_ext. intros [c l]. reflexivity.
    - symmetry. exact labelled.
    - intros i c l Ec El. f_equal; [now apply nth_error_nth|]. rewrite map_map. apply map_ext_in. intros s Is. f_equal.
      + cbn [map concat]. unfold row at 1, data_row. cbn [fst snd]. assert (L := even c0 s (or_introl eq_refl) Is). destruct (losses (c0, s)) as [|x v]; [cbn in L; lia|]. reflexivity.
      + f_equal. replace (map (fun c1 => row c1 s) (c0 :: cases)) with (map data_row (map (fun c1 => (found (c1, s), losses (c1, s))) (c0 :: cases))) by (rewrite map_map; reflexivity).
        rewrite (case_values_row n i _ (found (c, s), losses (c, s))); [reflexivity|exact pos| |rewrite nth_error_map, Ec; reflexivity].
        intros x Ix. apply in_map_iff in Ix as (c1 & <- & Ic). cbn [snd]. now apply even.
  Qed.
  (** With the same size of the data set in every noise case each curve is right. *)
  Theorem noise_curves_right : forall rt, (forall c s, In c (c0 :: cases) -> In s (s0 :: sizes) -> found (c, s) = found (c0, s)) ->
    exists fig, noise_figure rt (length (c0 :: cases)) labels (map found all) (map losses all) = Ok fig /\ length fig = length (c0 :: cases) /\
    forall i c l, nth_error (c0 :: cases) i = Some c -> nth_error labels i = Some l ->
      exists pts, nth_error fig i = Some (l, pts) /\ length pts = length (s0 :: sizes) /\
      forall t s, nth_error (s0 :: sizes) t = Some s -> nth_error pts t = Some (INR (found (c, s)), error_bar rt (losses (c, s))).
  Proof.
    intros rt Same. eexists. split; [apply noise_curves|]. split; [rewrite map_length, combine_length, labelled; lia|].
    intros i c l Ec El. eexists. rewrite nth_error_map, (combine_nth_error _ _ _ _ _ Ec El). cbn [option_map fst snd]. split; [reflexivity|]. split; [now rewrite map_length|].
    intros t s Es. rewrite nth_error_map, Es. cbn [option_map]. rewrite (Same c s); [reflexivity| |]; eapply nth_error_In; eassumption.
  Qed.
End Grid.

(** A number of models that is no multiple of the number of noise cases is refused. *)
Theorem uneven_noise_cases : forall rt k labels sizes losses rows, uq_loss_table sizes losses = Ok rows -> k <> 0%nat ->
  Nat.modulo (length rows) k <> 0%nat -> noise_figure rt k labels sizes losses = Err ValueError.
Proof.
  intros rt k labels sizes losses rows E K M. unfold noise_figure, data_rows. rewrite E. cbn [rbind]. unfold np_split. rewrite map_length.
  destruct (Nat.eqb_spec k 0); [contradiction|]. destruct (Nat.eqb_spec (Nat.modulo (length rows) k) 0); [contradiction|]. reflexivity.
Qed.
(** The labels must be as many as the noise cases. *)
Theorem noise_labels_checked : forall rt k labels sizes losses fig, noise_figure rt k labels sizes losses = Ok fig -> length labels = k /\ map fst fig = labels.
Proof.
  intros rt k labels sizes losses fig E. unfold noise_figure in E. destruct (data_rows sizes losses) as [rows|]; [|discriminate]. cbn [rbind] in E.
  destruct (np_split k rows) as [parts|]; [|discriminate]. cbn [rbind] in E. destruct (Nat.eqb_spec (length labels) k) as [L|]; [|discriminate].
  cbn [negb] in E. destruct (Nat.eqb _ 0); [discriminate|]. injection E as <-. split; [exact L|]. rewrite map_map. cbn [fst]. subst k.
  transitivity (map (fun x : string => x) labels); [|apply map_id]. apply seq_map. intros t s T. now apply nth_error_nth.
Qed.
(** The sizes of the data sets of the other noise cases are ignored: two models
    trained on 10 and 99 paths are drawn at 10. *)
Theorem first_sizes_refuted : forall rt l1 l2, exists fig, noise_figure rt 2 ["a"; "b"]%string [10; 99]%nat [[l1]; [l2]] = Ok fig /\
  nth_error fig 1 = Some ("b"%string, [(INR 10, error_bar rt [l2])]) /\ INR 10 <> INR 99.
Proof.
  intros rt l1 l2. eexists. split; [reflexivity|]. split; [reflexivity|]. intros H. apply INR_eq in H. discriminate H.
Qed.
(** Models listed by size, then by noise case, give curves that mix the cases
    without an error. *)
Theorem mixed_cases_refuted : forall rt a1 a2 b1 b2, exists fig,
  noise_figure rt 2 ["a"; "b"]%string [10; 10; 20; 20]%nat [[a1]; [b1]; [a2]; [b2]] = Ok fig /\
  nth_error fig 0 = Some ("a"%string, [(INR 10, error_bar rt [a1]); (INR 10, error_bar rt [b1])]).
Proof. intros. eexists. split; reflexivity. Qed.
Example two_cases : noise_figure MinMax 2 ["none"; "high"]%string [10; 20; 10; 20]%nat [[1; 3]; [1; 1]; [5; 7]; [2; 4]]%R =
  Ok [("none"%string, [(INR 10, error_bar MinMax [1; 3]%R); (INR 20, error_bar MinMax [1; 1]%R)]);
      ("high"%string, [(INR 10, error_bar MinMax [5; 7]%R); (INR 20, error_bar MinMax [2; 4]%R)])].
Proof. reflexivity. Qed.

Print Assumptions noise_curves.
Print Assumptions noise_curves_right.
Print Assumptions uneven_noise_cases.
Print Assumptions noise_labels_checked.
Print Assumptions first_sizes_refuted.
Print Assumptions mixed_cases_refuted.
