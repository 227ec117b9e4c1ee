(** Comparison of material models and of predictions on one path (C121). *)
From Coq Require Import String Reals List Arith Bool Lia.
From Verif Require Import Lib PyDict MatrixModel RcModel ResponseModel CompareModel.
Import ListNotations.
Local Open Scope list_scope.

(** ** Columns *)
Lemma comp_eqb_iff a b : comp_eqb a b = true <-> a = b.
Proof.
  unfold comp_eqb. rewrite andb_true_iff, !Nat.eqb_eq. destruct a as [a1 a2], b as [b1 b2]. cbn. split; [intros [-> ->]; reflexivity|].
  intros E. injection E as -> ->. auto.
Qed.
Theorem comp_index_iff order c k : comp_index order c = Ok k <-> nth_error order k = Some c /\ forall j, j < k -> nth_error order j <> Some c.
Proof.
  revert k. induction order as [|d order IH]; intros k; cbn [comp_index].
  - split; [discriminate|]. intros [E _]. destruct k; discriminate.
  - destruct (comp_eqb d c) eqn:E.
    + apply comp_eqb_iff in E. subst d. split.
      * intros Q. injection Q as <-. split; [reflexivity|]. intros j Hj. lia.
      * intros [Q N]. destruct k as [|k]; [reflexivity|]. exfalso. apply (N 0); [lia|reflexivity].
    + assert (Nd: d <> c) by (intros C; apply comp_eqb_iff in C; congruence). destruct (comp_index order c) as [m|e] eqn:F; cbn [rbind].
      * destruct (proj1 (IH m) eq_refl) as [H1 H2]. split.
        -- intros Q. injection Q as <-. split; [exact H1|]. intros [|j] Hj; cbn; [congruence|]. apply H2. lia.
        -- intros [Q N]. destruct k as [|k]; cbn in Q; [congruence|]. f_equal. f_equal. assert (G: Ok m = Ok k); [|congruence]. apply IH. split; [exact Q|].
           intros j Hj. apply (N (S j)). lia.
      * split; [discriminate|]. intros [Q N]. destruct k as [|k]; cbn in Q; [congruence|]. assert (G: Err e = Ok k); [|discriminate G]. apply IH. split; [exact Q|].
        intros j Hj. apply (N (S j)). lia.
Qed.
Lemma rmap_all2 {A B} (f : A -> res B) l r : rmap f l = Ok r <-> Forall2 (fun a b => f a = Ok b) l r.
Proof. split; [apply rmap_ok|]. intros H. induction H as [|a b l r E H IH]; cbn; [reflexivity|]. now rewrite E, IH. Qed.
Lemma all2_len {A B} (P : A -> B -> Prop) l r : Forall2 P l r -> length l = length r.
Proof. intros H. induction H; cbn; congruence. Qed.
Lemma all2_nth {A B} (P : A -> B -> Prop) l r d e : Forall2 P l r -> forall k, k < length l -> P (nth k l d) (nth k r e).
Proof. intros H. induction H as [|a b l r H1 H2 IH]; intros [|k] Hk; cbn in *; try lia; auto. apply IH. lia. Qed.
Theorem column_iff m k y : column m k = Ok y <-> Forall2 (fun r x => nth_error r k = Some x) m y.
Proof.
  unfold column. rewrite rmap_all2. split; intros H; induction H as [|r x m y H1 H2 IH]; constructor; auto; destruct (nth_error r k); congruence.
Qed.
(** A column has one value for each time, or a single value shown at all times. *)
Theorem fill_iff n c y : fill n c = Ok y <-> (length c = n /\ y = c) \/ (length c <> n /\ exists x, c = [x] /\ y = repeat x n).
Proof.
  unfold fill. destruct (Nat.eqb_spec (length c) n) as [L|L].
  - split; [intros [= <-]; left; auto|intros [[_ ->]|[N _]]; [reflexivity|contradiction]].
  - destruct c as [|x [|x' c]]; cbn [length Nat.eqb nth].
    + split; [discriminate|intros [[N _]|(_ & x & E & _)]; [contradiction|discriminate]].
    + split; [intros [= <-]; right; split; [exact L|exists x; auto]|intros [[N _]|(_ & z & [= <-] & ->)]; [contradiction|reflexivity]].
    + split; [discriminate|intros [[N _]|(_ & z & E & _)]; [contradiction|discriminate]].
Qed.

Section Compare.
  Variable n_dim : nat.
  Variable cos : list comp.
  Variable order : list comp.
  Variable times : list R.
  Variable strains : list (list R).
  Notation predict := (predict n_dim cos order strains).
  Notation predictions := (predictions n_dim cos order strains).
  Notation columns := (columns order times).
  Notation compare_models := (compare_models n_dim cos order times strains).

  (** The predictions are those of the models, under their names, in order. *)
  Theorem compare_predictions_iff models ps : predictions models = Ok ps <-> Forall2 (fun m p => fst p = fst m /\ predict (snd m) = Ok (snd p)) models ps.
  Proof.
    revert ps. induction models as [|[name m] models IH]; intros ps; cbn [CompareModel.predictions].
    - split; [intros E; injection E as <-; constructor|intros H; inversion H; reflexivity].
    - split.
      + intros E. destruct (predict m) as [p|] eqn:P; cbn [rbind] in E; [|discriminate]. destruct (predictions models) as [qs|] eqn:Q; cbn [rbind] in E; [|discriminate].
        injection E as <-. constructor; [auto|]. now apply IH.
      + intros H. inversion H as [|a [nm p] l qs [H1 H2] H3]; subst. cbn in *. subst nm. rewrite H2. cbn [rbind]. apply IH in H3. now rewrite H3.
  Qed.
  (** ** Specification: the curve of a component of a stress path *)
  Definition component_of (p : list (list R)) (c : comp) (y : list R) : Prop :=
    length y = length times /\
    exists k, nth_error order k = Some c /\ (forall j, j < k -> nth_error order j <> Some c) /\
      forall t, t < length times -> nth_error (nth t p []) k = Some (nth t y 0%R).

  Theorem columns_law c ps cs : columns c ps = Ok cs ->
    length cs = 2 * length ps /\
    forall i name p, nth_error ps i = Some (name, p) -> length p = length times ->
      nth_error cs (2 * i) = Some times /\ exists y, nth_error cs (2 * i + 1) = Some y /\ component_of p c y.
  Proof.
    revert cs. induction ps as [|[nm q] ps IH]; intros cs E; cbn [CompareModel.columns] in E.
    - injection E as <-. split; [reflexivity|]. intros [|i] name p H; discriminate H.
    - destruct (comp_index order c) as [k|] eqn:K; cbn [rbind] in E; [|discriminate]. destruct (column q k) as [y|] eqn:Y; cbn [rbind] in E; [|discriminate].
      destruct (fill (length times) y) as [z|] eqn:Z; cbn [rbind] in E; [|discriminate]. destruct (columns c ps) as [ds|] eqn:D; cbn [rbind] in E; [|discriminate].
      injection E as <-. destruct (IH ds eq_refl) as [L H]. split; [cbn; lia|]. intros [|i] name p Hp Lp.
      + cbn in Hp. injection Hp as <- <-. cbn. split; [reflexivity|]. exists z. split; [reflexivity|]. apply column_iff in Y. pose proof (all2_len _ _ _ Y) as Ly.
        assert (z = y) as ->. { unfold fill in Z. assert (Q: length y = length times) by congruence. rewrite Q, Nat.eqb_refl in Z. congruence. }
        split; [congruence|]. exists k. apply comp_index_iff in K as [K1 K2]. split; [exact K1|]. split; [exact K2|]. intros t Ht.
        apply (all2_nth _ _ _ [] 0%R Y). lia.
      + cbn in Hp. destruct (H i name p Hp Lp) as (H1 & H2). replace (2 * S i) with (S (S (2 * i))) by lia. replace (S (S (2 * i)) + 1) with (S (S (2 * i + 1))) by lia. auto.
  Qed.

  (** The figures show, component by component, the times and the stress of every
      model under its name, then those of the reference. *)
  Definition all_paths (ps : dict (list (list R))) (ref : option (list (list R))) : dict (list (list R)) :=
    ps ++ match ref with Some r => [("reference"%string, r)] | None => [] end.
  Lemma dset_append {V} (d : dict V) k v : ~ In k (map fst d) -> dset d k v = d ++ [(k, v)].
  Proof.
    unfold dset. induction d as [|[j w] d IH]; cbn; intros N; [reflexivity|]. destruct (String.eqb k j) eqn:E; [apply String.eqb_eq in E; subst; tauto|]. now rewrite IH by tauto.
  Qed.
  Theorem compared_figures models ref ps figs : predictions models = Ok ps -> ~ In "reference"%string (map fst models) -> compare_models models ref = Ok figs ->
    map (fun f => fst (fst f)) figs = cos /\
    forall c labels cs, In (c, labels, cs) figs ->
      labels = map fst models ++ (match ref with Some _ => ["reference"%string] | None => [] end) /\ length cs = 2 * length labels /\
      forall i name p, nth_error (all_paths ps ref) i = Some (name, p) -> length p = length times ->
        nth_error labels i = Some name /\ nth_error cs (2 * i) = Some times /\ exists y, nth_error cs (2 * i + 1) = Some y /\ component_of p c y.
  Proof.
    intros P N E. unfold CompareModel.compare_models in E. rewrite P in E. cbn [rbind] in E. apply compare_predictions_iff in P.
    assert (Nm: map fst ps = map fst models) by (clear - P; induction P as [|[a x] [b y] l r [H1 H2] H3 IH]; cbn in *; congruence).
    assert (R': exists figs', rbind (add_reference models ps ref) (figures cos order times) = Ok figs' /\ figs' = figs /\ add_reference models ps ref = Ok (all_paths ps ref)).
    { destruct (add_reference models ps ref) as [qs|] eqn:Q; cbn [rbind] in E; [|discriminate]. destruct (figures cos order times qs) as [fs|] eqn:F; cbn [rbind] in E; [|discriminate].
      exists fs. cbn [rbind]. split; [exact F|]. split.
      - destruct (Nat.eqb n_dim 3); [destruct models|]; congruence.
      - unfold all_paths. unfold add_reference in Q. destruct ref as [r|]; [|injection Q as <-; now rewrite app_nil_r]. destruct models as [|m ms]; [discriminate|].
        injection Q as <-. f_equal. apply dset_append. now rewrite Nm. }
    destruct R' as (figs' & F & -> & A). rewrite A in F. cbn [rbind] in F. unfold figures in F. apply rmap_all2 in F. split.
    - clear - F. induction F as [|c f l r H1 H2 IH]; [reflexivity|]. cbn. rewrite IH. destruct (columns c (all_paths ps ref)); cbn [rbind] in H1; [|discriminate]. injection H1 as <-. reflexivity.
    - intros c labels cs I. assert (G: exists c', rbind (columns c' (all_paths ps ref)) (fun cs => Ok (c', map fst (all_paths ps ref), cs)) = Ok (c, labels, cs)).
      { clear - F I. induction F as [|a b l r H1 H2 IH]; [destruct I|]. destruct I as [<-|I]; [eauto|auto]. }
      destruct G as (c' & G). destruct (columns c' (all_paths ps ref)) as [ds|] eqn:D; cbn [rbind] in G; [|discriminate]. injection G as <- <- <-.
      apply columns_law in D as [L H]. split; [unfold all_paths; rewrite map_app, Nm; destruct ref; reflexivity|]. split; [now rewrite map_length|].
      intros i name p Hp Lp. split; [apply map_nth_error with (f := fst) in Hp; exact Hp|]. now apply (H i name p).
  Qed.
  (** The comparison succeeds when there is a model and every path has one row per
      time with all the components. *)
  Definition full (p : list (list R)) : Prop := length p = length times /\ forall r, In r p -> length r = length order.
  Lemma comp_index_some c : In c order -> exists k, comp_index order c = Ok k /\ k < length order.
  Proof.
    induction order as [|d l IH]; [intros []|]. intros I. cbn [comp_index]. destruct (comp_eqb d c) eqn:E; [exists 0; cbn; split; [reflexivity|lia]|].
    destruct I as [->|I]; [rewrite (proj2 (comp_eqb_iff c c) eq_refl) in E; discriminate|]. destruct (IH I) as (k & F & L). rewrite F. cbn. exists (S k). split; [reflexivity|lia].
  Qed.
  Lemma columns_some c ps : In c order -> (forall name p, In (name, p) ps -> full p) -> exists cs, columns c ps = Ok cs.
  Proof.
    intros I F. destruct (comp_index_some c I) as (k & K & L). induction ps as [|[nm q] ps IH]; cbn [CompareModel.columns]; [eauto|]. rewrite K. cbn [rbind].
    destruct (F nm q (or_introl eq_refl)) as [L1 L2].
    assert (Y: exists y, column q k = Ok y /\ length y = length q).
    { unfold column. exists (map (fun r => nth k r 0%R) q). split; [|apply map_length]. apply rmap_all. intros r Hr. rewrite (nth_error_nth' r 0%R); [reflexivity|]. rewrite (L2 r Hr). exact L. }
    destruct Y as (y & Y & Ly). rewrite Y. cbn [rbind]. unfold fill. rewrite Ly, L1, Nat.eqb_refl. cbn [rbind].
    destruct IH as (cs & ->); [intros name p Hp; apply (F name p); now right|]. cbn [rbind]. eauto.
  Qed.
  Lemma dset_in {V} (d : dict V) k v x : In x (dset d k v) -> x = (k, v) \/ In x d \/ exists w, In (k, w) d.
  Proof.
    unfold dset. induction d as [|[j w] d IH]; cbn; [intros [<-|[]]; auto|]. destruct (String.eqb k j) eqn:E.
    - apply String.eqb_eq in E. subst. intros [<-|H]; auto.
    - intros [<-|H]; [auto|]. destruct (IH H) as [H1|[H1|(w' & H1)]]; eauto.
  Qed.
  Theorem comparison_succeeds models ref ps : models <> [] -> predictions models = Ok ps -> (forall c, In c cos -> In c order) ->
    (forall name p, In (name, p) ps -> full p) -> (forall r, ref = Some r -> full r) -> exists figs, compare_models models ref = Ok figs.
  Proof.
    intros NE P O F FR. unfold CompareModel.compare_models. rewrite P. cbn [rbind].
    assert (G: exists qs, add_reference models ps ref = Ok qs /\ forall name p, In (name, p) qs -> full p).
    { unfold add_reference. destruct ref as [r|]; [|eauto]. destruct models as [|m ms]; [contradiction|]. eexists. split; [reflexivity|]. intros name p I.
      assert (D: (name, p) = ("reference"%string, r) \/ In (name, p) ps).
      { clear - I. unfold dset in I. induction ps as [|[j w] d IH]; cbn [gset] in I; [destruct I as [I|[]]; auto|]. destruct (String.eqb "reference" j) eqn:E; cbn [In] in I.
        - destruct I as [I|I]; [apply String.eqb_eq in E; subst j; left; congruence|right; now right].
        - destruct I as [I|I]; [right; now left|]. destruct (IH I) as [C|C]; [now left|right; now right]. }
      destruct D as [D|D]; [injection D as _ ->; now apply FR|now apply (F name)]. }
    destruct G as (qs & Q & FQ). rewrite Q. cbn [rbind].
    assert (S: exists figs, figures cos order times qs = Ok figs).
    { unfold figures. clear - FQ O. revert O. generalize (map fst qs). intros labels O. induction cos as [|c l IH]; [exists []; reflexivity|]. cbn [rmap].
      destruct (columns_some c qs (O c (or_introl eq_refl)) FQ) as (cs & ->). cbn [rbind]. destruct IH as (figs & ->); [intros x Hx; apply O; now right|]. cbn [rbind]. eauto. }
    destruct S as (figs & ->). cbn [rbind]. destruct models; [contradiction|]. destruct (Nat.eqb n_dim 3); eauto.
  Qed.
  (** Refuted: the reference can be shown alone, and an empty comparison is
      possible in three dimensions. *)
  Theorem reference_alone_refuted r : compare_models [] (Some r) = Err NameError.
  Proof. reflexivity. Qed.
  Theorem no_models_refuted : n_dim = 3 -> compare_models [] None = Err NameError.
  Proof.
    intros H. unfold CompareModel.compare_models. cbn [CompareModel.predictions rbind add_reference]. unfold figures.
    assert (E: rmap (fun c => rbind (columns c []) (fun cs => Ok (c, map fst ([] : dict (list (list R))), cs))) cos = Ok (map (fun c => (c, [], [])) cos)) by (now apply rmap_all).
    rewrite E. cbn [rbind]. now rewrite H.
  Qed.
  (** Refuted: every model is shown. A model named reference is replaced by the
      reference data, in its place. *)
  Lemma dset_replace {V} (d1 d2 : dict V) k u v : ~ In k (map fst d1) -> dset (d1 ++ (k, u) :: d2) k v = d1 ++ (k, v) :: d2.
  Proof.
    unfold dset. induction d1 as [|[j w] d IH]; cbn; intros N; [now rewrite String.eqb_refl|]. destruct (String.eqb k j) eqn:E; [apply String.eqb_eq in E; subst; tauto|]. now rewrite IH by tauto.
  Qed.
  Theorem model_named_reference_refuted ms1 m ms2 ps1 p ps2 r : predictions ms1 = Ok ps1 -> predict m = Ok p -> predictions ms2 = Ok ps2 ->
    ~ In "reference"%string (map fst ms1) ->
    compare_models (ms1 ++ ("reference"%string, m) :: ms2) (Some r) =
      rbind (figures cos order times (ps1 ++ ("reference"%string, r) :: ps2)) (fun figs => Ok figs).
  Proof.
    intros P1 P P2 N. assert (E: predictions (ms1 ++ ("reference"%string, m) :: ms2) = Ok (ps1 ++ ("reference"%string, p) :: ps2)).
    { apply compare_predictions_iff. apply Forall2_app; [now apply compare_predictions_iff|]. constructor; [auto|now apply compare_predictions_iff]. }
    unfold CompareModel.compare_models. rewrite E. cbn [rbind]. unfold add_reference.
    assert (Nm: map fst ps1 = map fst ms1) by (apply compare_predictions_iff in P1; clear - P1; induction P1 as [|[a x] [b y] l q [H1 H2] H3 IH]; cbn in *; congruence).
    destruct (ms1 ++ ("reference"%string, m) :: ms2) as [|x l] eqn:X; [destruct ms1; discriminate|]. cbn [rbind]. rewrite dset_replace by (now rewrite Nm).
    destruct (figures cos order times (ps1 ++ ("reference"%string, r) :: ps2)); cbn [rbind]; [|reflexivity]. now destruct (Nat.eqb n_dim 3).
  Qed.
  (** Refuted: the curves shown are predictions. After a failed state update the
      rest of the stress path is zero, and it is shown like the others. *)
  Lemma set_row_keeps m t v m' j : set_row m t v = Ok m' -> j <> t -> nth j m' [] = nth j m [].
  Proof.
    unfold set_row. intros E Nj. destruct (Nat.ltb t (length m)) eqn:L; cbn [negb] in E; [|discriminate]. apply Nat.ltb_lt in L.
    assert (G: exists x, m' = upd m t x) by (destruct (Nat.eqb (length v) _); [|destruct (Nat.eqb (length v) 1); [|discriminate]]; injection E as <-; eauto).
    destruct G as (x & ->). rewrite nth_upd by exact L. destruct (Nat.eqb j t) eqn:Q; [apply Nat.eqb_eq in Q; contradiction|reflexivity].
  Qed.
  Lemma loop_keeps su : forall rows t s old o o', stress_loop n_dim cos su [] false order t s old rows o = Ok o' -> po_fail o = false -> po_fail o' = true ->
    exists k, t <= k < t + length rows /\ forall j, k <= j -> nth j (po_stress o') [] = nth j (po_stress o) [].
  Proof.
    induction rows as [|r rows IH]; intros t s old o o' E F F'; cbn [stress_loop] in E; [injection E as <-; congruence|].
    destruct (build_tensor n_dim order old true) as [e1|] eqn:B1; cbn [rbind] in E; [|discriminate].
    destruct (build_tensor n_dim order r true) as [e2|] eqn:B2; cbn [rbind] in E; [|discriminate]. cbv zeta in E.
    set (s' := su (fun i j => (e2 i j - e1 i j)%R) s) in *. destruct (rc_fail s') eqn:FS.
    - injection E as <-. exists t. cbn [po_stress length]. split; [lia|reflexivity].
    - destruct (dlookup (rc_vars s') "stress_mf") as [mf|] eqn:D; cbn [rbind] in E; [|discriminate].
      destruct (get_tensor_from_mf2 mf n_dim cos true) as [st|] eqn:G; cbn [rbind] in E; [|discriminate].
      destruct (store_tensor n_dim order st) as [sr|] eqn:ST; cbn [rbind] in E; [|discriminate].
      destruct (set_row (po_stress o) t sr) as [m|] eqn:SR; cbn [rbind] in E; [|discriminate]. cbn [rfold rbind] in E.
      destruct (IH _ _ _ _ _ E eq_refl F') as (k & Hk & H). exists k. cbn [length]. split; [lia|]. intros j Hj. rewrite (H j Hj). cbn [po_stress].
      apply (set_row_keeps _ _ _ _ _ SR). lia.
  Qed.
  Theorem failed_model_refuted m o : compute_stress_path n_dim cos (m_su m) (m_init m) [] false order strains = Ok o -> po_fail o = true ->
    predict m = Ok (po_stress o) /\
    exists k, 1 <= k < length strains /\ forall j, k <= j < length strains -> nth j (po_stress o) [] = repeat 0%R (length order).
  Proof.
    intros E F. split; [unfold CompareModel.predict; now rewrite E|]. unfold compute_stress_path in E. cbn [fold_left] in E. destruct strains as [|r rest] eqn:ES; [injection E as <-; discriminate F|].
    apply loop_keeps in E; auto. destruct E as (k & Hk & H). exists k. split; [cbn [length]; lia|]. intros j Hj. rewrite H by lia. cbn [po_stress]. unfold np_zeros.
    rewrite (nth_indep _ [] (repeat 0%R (length order))) by (rewrite repeat_length; lia). apply nth_repeat.
  Qed.
End Compare.

(** ** Predictions of models *)
Section Predictions.
  Variable times : list R.
  Theorem curve_iff m i c : curve times m i = Ok c <-> map fst c = times /\ Forall2 (fun r xy => nth_error r i = Some (snd xy)) m c.
  Proof.
    unfold curve. split.
    - destruct (column m i) as [y|] eqn:Y; cbn [rbind]; [|discriminate]. unfold stack. destruct (Nat.eqb (length times) (length y)) eqn:L; [|discriminate].
      intros E. injection E as <-. apply Nat.eqb_eq in L. apply column_iff in Y. split.
      + clear Y. revert y L. induction times as [|t l IH]; intros [|x y] L; cbn in *; try lia; [reflexivity|]. now rewrite IH by lia.
      + revert m Y L. revert times. induction y as [|x y IH]; intros [|t l] m Y L; cbn in *; try lia; inversion Y; subst; constructor; auto.
    - intros [T H]. assert (Y: column m i = Ok (map snd c)) by (apply column_iff; clear T; induction H; cbn; constructor; auto). rewrite Y. cbn [rbind].
      unfold stack. rewrite map_length, <- T, map_length, Nat.eqb_refl. f_equal. clear. induction c as [|[a b] c IH]; cbn; [reflexivity|]. now rewrite IH.
  Qed.
  Definition model_curves (models : dict (list (list R))) (i : nat) (cs : dict (list (R * R))) : Prop :=
    Forall2 (fun nm nc => fst nc = fst nm /\ curve times (snd nm) i = Ok (snd nc)) models cs.
  Lemma dset_after {V} (pre old : dict V) k v : ~ In k (map fst pre) -> dset (pre ++ old) k v = pre ++ dset old k v.
  Proof.
    unfold dset. induction pre as [|[j w] d IH]; cbn; intros N; [reflexivity|]. destruct (String.eqb k j) eqn:E; [apply String.eqb_eq in E; subst; tauto|]. now rewrite IH by tauto.
  Qed.
  Lemma sets_law models i : forall pre old sets, NoDup (map fst models) -> (forall x, In x (map fst models) -> ~ In x (map fst pre)) ->
    old = [] \/ map fst old = map fst models ->
    rfold (fun sets nm => rbind (curve times (snd nm) i) (fun c => Ok (dset sets (fst nm) c))) models (pre ++ old) = Ok sets ->
    exists cs, sets = pre ++ cs /\ model_curves models i cs.
  Proof.
    induction models as [|[name p] models IH]; intros pre old sets ND D O E; cbn [rfold] in E.
    - injection E as <-. exists old. split; [reflexivity|]. destruct O as [-> |O]; [constructor|]. destruct old; [constructor|discriminate O].
    - cbn [fst snd] in E. destruct (curve times p i) as [c|] eqn:C; cbn [rbind] in E; [|discriminate]. cbn [map fst] in ND, D. inversion ND as [|? ? NI ND']; subst.
      assert (N: ~ In name (map fst pre)) by (apply D; now left). rewrite dset_after in E by exact N.
      assert (Q: exists old', pre ++ dset old name c = (pre ++ [(name, c)]) ++ old' /\ (old' = [] \/ map fst old' = map fst models)).
      { destruct O as [-> |O]; [exists []; cbn; rewrite app_nil_r; auto|]. destruct old as [|[j w] old]; [discriminate O|]. cbn in O. injection O as O1 O2. subst j.
        exists old. unfold dset. cbn. rewrite String.eqb_refl, <- app_assoc. auto. }
      destruct Q as (old' & Q & O'). rewrite Q in E. apply IH in E; auto.
      + destruct E as (cs & -> & H). exists ((name, c) :: cs). split; [now rewrite <- app_assoc|]. constructor; auto.
      + intros x Hx. rewrite map_app. cbn. intros I. apply in_app_or in I as [I|[<-|[]]]; [|contradiction]. now apply (D x (or_intror Hx)).
  Qed.
  (** Every figure shows the component of the ground truth and then of every
      model, under its label, in order. *)
  Theorem predicted_curves n stress_path models l : NoDup (map fst models) -> ~ In "Ground-truth"%string (map fst models) ->
    plot_models times n stress_path true models = Ok l ->
    length l = n /\ forall i, i < n -> exists c cs, nth_error l i = Some (("Ground-truth"%string, c) :: cs) /\ curve times stress_path i = Ok c /\ model_curves models i cs.
  Proof.
    intros ND NG. unfold plot_models.
    assert (G: forall m a sets l, (sets = [] \/ exists c cs, sets = ("Ground-truth"%string, c) :: cs /\ map fst cs = map fst models) ->
      component_sets times (Some stress_path) models (seq a m) sets = Ok l ->
      length l = m /\ forall i, i < m -> exists c cs, nth_error l i = Some (("Ground-truth"%string, c) :: cs) /\ curve times stress_path (a + i) = Ok c /\ model_curves models (a + i) cs).
    { induction m as [|m IH]; intros a sets k SS E; cbn [seq component_sets] in E; [injection E as <-; split; [reflexivity|intros i Hi; lia]|].
      destruct (sets_after times (Some stress_path) models a sets) as [sets'|] eqn:A; cbn [rbind] in E; [|discriminate].
      destruct (component_sets times (Some stress_path) models (seq (S a) m) sets') as [k'|] eqn:K; cbn [rbind] in E; [|discriminate]. injection E as <-.
      unfold sets_after in A. destruct (curve times stress_path a) as [c|] eqn:C; cbn [rbind] in A; [|discriminate].
      assert (Q: exists old, dset sets "Ground-truth" c = [("Ground-truth"%string, c)] ++ old /\ (old = [] \/ map fst old = map fst models)).
      { destruct SS as [-> |(c0 & cs & -> & M)]; [exists []; auto|exists cs; auto]. }
      destruct Q as (old & Q & O). rewrite Q in A. apply sets_law in A; auto; [|intros x Hx [<-|[]]; contradiction]. destruct A as (cs & -> & H).
      assert (M: map fst cs = map fst models) by (clear - H; induction H as [|x y u v [H1 H2] H3 IH]; cbn; congruence).
      destruct (IH (S a) _ _ (or_intror (ex_intro _ c (ex_intro _ cs (conj eq_refl M)))) K) as [L P]. split; [cbn; now rewrite L|]. intros [|i] Hi.
      - exists c, cs. rewrite Nat.add_0_r. auto.
      - destruct (P i ltac:(lia)) as (c' & cs' & P1 & P2 & P3). exists c', cs'. replace (a + S i) with (S a + i) by lia. auto. }
    intros E. destruct (G n 0 [] l (or_introl eq_refl) E) as [L P]. split; [exact L|]. intros i Hi. exact (P i Hi).
  Qed.
  (** Refuted: the ground truth is shown whatever the labels. A model with its
      label takes its place in every figure. *)
  Theorem label_ground_truth_refuted n stress_path p l : plot_models times n stress_path true [("Ground-truth"%string, p)] = Ok l ->
    length l = n /\ forall i, i < n -> exists c, nth_error l i = Some [("Ground-truth"%string, c)] /\ curve times p i = Ok c.
  Proof.
    unfold plot_models.
    assert (G: forall m a sets l, (sets = [] \/ exists c, sets = [("Ground-truth"%string, c)]) ->
      component_sets times (Some stress_path) [("Ground-truth"%string, p)] (seq a m) sets = Ok l ->
      length l = m /\ forall i, i < m -> exists c, nth_error l i = Some [("Ground-truth"%string, c)] /\ curve times p (a + i) = Ok c).
    { induction m as [|m IH]; intros a sets k SS E; cbn [seq component_sets] in E; [injection E as <-; split; [reflexivity|intros i Hi; lia]|].
      destruct (sets_after times (Some stress_path) _ a sets) as [sets'|] eqn:A; cbn [rbind] in E; [|discriminate].
      destruct (component_sets times (Some stress_path) _ (seq (S a) m) sets') as [k'|] eqn:K; cbn [rbind] in E; [|discriminate]. injection E as <-.
      unfold sets_after in A. destruct (curve times stress_path a) as [c|] eqn:C; cbn [rbind] in A; [|discriminate]. cbn [rfold fst snd] in A.
      destruct (curve times p a) as [c'|] eqn:C'; cbn [rbind] in A; [|discriminate].
      assert (sets' = [("Ground-truth"%string, c')]) as ->. { destruct SS as [-> |(c0 & ->)]; cbn in A; congruence. }
      destruct (IH (S a) _ _ (or_intror (ex_intro _ c' eq_refl)) K) as [L P]. split; [cbn; now rewrite L|]. intros [|i] Hi.
      - exists c'. rewrite Nat.add_0_r. auto.
      - destruct (P i ltac:(lia)) as (d & P1 & P2). exists d. replace (a + S i) with (S a + i) by lia. auto. }
    intros E. destruct (G n 0 [] l (or_introl eq_refl) E) as [L P]. split; [exact L|]. intros i Hi. exact (P i Hi).
  Qed.
  (** A prediction without one of the components or with another number of times
      is refused. *)
  Theorem narrow_prediction_refused n stress_path models name p r i l : NoDup (map fst models) -> ~ In "Ground-truth"%string (map fst models) ->
    In (name, p) models -> (In r p /\ i < n /\ length r <= i) \/ (0 < n /\ length p <> length times) ->
    plot_models times n stress_path true models <> Ok l.
  Proof.
    intros ND NG I H E. destruct (predicted_curves n stress_path models l ND NG E) as [_ P].
    assert (C: forall j, j < n -> exists c, curve times p j = Ok c).
    { intros j Hj. destruct (P j Hj) as (_ & cs & _ & _ & M). clear - I M. induction M as [|a b u v [H1 H2] H3 IH]; [destruct I|]. destruct I as [->|I]; [eauto|auto]. }
    destruct H as [(Hr & Hi & L)|(Hn & L)].
    - destruct (C i Hi) as (c & E'). apply curve_iff in E' as [_ F]. clear - F Hr L. induction F as [|a b u v H1 H2 IH]; [destruct Hr|]. destruct Hr as [->|Hr]; [|auto].
      apply nth_error_None in L. congruence.
    - destruct (C 0 Hn) as (c & E'). apply curve_iff in E' as [T F]. apply all2_len in F. apply L. rewrite F, <- T. now rewrite map_length.
  Qed.
End Predictions.

(** ** Examples *)
Example comparison_columns : columns [(1, 1); (2, 2); (1, 2)]%nat [0; 1]%R (1, 2)%nat [("a"%string, [[0; 0; 0]; [5; 6; 7]]); ("b"%string, [[0; 0; 0]; [1; 2; 3]])]%R
  = Ok [[0; 1]; [0; 7]; [0; 1]; [0; 3]]%R.
Proof. reflexivity. Qed.
Example prediction_figures : plot_models [0; 1]%R 2 [[0; 0]; [1; 2]]%R true [("m"%string, [[3; 4]; [5; 6]]%R)] =
  Ok [[("Ground-truth"%string, [(0, 0); (1, 1)]); ("m"%string, [(0, 3); (1, 5)])]; [("Ground-truth"%string, [(0, 0); (1, 2)]); ("m"%string, [(0, 4); (1, 6)])]]%R.
Proof. reflexivity. Qed.
(** a model whose every state update fails is shown with zero stress *)
Example failed_model_example : compare_models 2 [(1, 1)]%nat [(1, 1)]%nat [0; 1]%R [[0]; [1]]%R
  [("bad"%string, Model (fun _ s => {| rc_vars := rc_vars s; rc_fail := true |}) {| rc_vars := []; rc_fail := false |})] None
  = Ok [((1, 1)%nat, ["bad"%string], [[0; 1]; [0; 0]]%R)].
Proof. reflexivity. Qed.

Print Assumptions fill_iff.
Print Assumptions compared_figures.
Print Assumptions comparison_succeeds.
Print Assumptions failed_model_refuted.
Print Assumptions predicted_curves.
Print Assumptions narrow_prediction_refused.
