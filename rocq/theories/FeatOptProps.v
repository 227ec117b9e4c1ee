(** Properties of the features options (FeatOptModel). *)
From Coq Require Import String Reals List Bool Arith Lia Lra.
From Verif Require Import Lib PyDict MatrixModel DatasetModel DatasetSpec DatasetProps FeaturesModel FeaturesProps FeatOptModel.
Import ListNotations.
Local Open Scope string_scope.
Local Open Scope list_scope.

(** The row of a path at a time. *)
Definition row (s : sample fval) (label : string) (t : nat) (r : list R) : Prop :=
  exists rows, dget s label = Some (Path rows) /\ nth_error rows t = Some r.
Definition vrow (v : fval) (t : nat) (r : list R) : Prop := exists rows, v = Path rows /\ nth_error rows t = Some r.

Lemma rmap_forall2 {A B} (f : A -> res B) l l' : rmap f l = Ok l' -> Forall2 (fun a b => f a = Ok b) l l'.
Proof.
  revert l'. induction l as [|a l IH]; intros l' H; cbn in H; [injection H as <-; constructor|].
  destruct (f a) eqn:E; [|discriminate]. cbn in H. destruct (rmap f l); [|discriminate]. cbn in H. injection H as <-. constructor; auto.
Qed.
Lemma nth_error_nth_len {A} (l : list A) t d : t < length l -> nth_error l t = Some (nth t l d).
Proof. intros H. now apply nth_error_nth'. Qed.

Lemma dget_rows s labels vs : Forall2 (fun l v => dlookup s l = Ok v) labels vs -> forall rss, Forall2 (fun v rs => as_rows v = Ok rs) vs rss ->
  Forall2 (fun l rs => dget s l = Some (Path rs)) labels rss.
Proof.
  induction 1 as [|l v labels vs H _ IH]; intros rss G; inversion G as [|? rs ? rss' E G']; subst; constructor; [|now apply IH].
  apply dlookup_ok in H. destruct v; [|discriminate]. cbn in E. now injection E as ->.
Qed.
Lemma rows_at s labels rss t n : Forall2 (fun l rs => dget s l = Some (Path rs)) labels rss -> Forall (fun rs => length rs = n) rss -> t < n ->
  Forall2 (fun l x => row s l t x) labels (map (fun rs => nth t rs []) rss).
Proof.
  induction 1 as [|l rs labels rss H _ IH]; intros F T; cbn; constructor; inversion F; subst; [|now apply IH].
  exists rs. split; [exact H|]. now apply nth_error_nth_len.
Qed.
Lemma rows_at_unique s labels rss t xs : Forall2 (fun l rs => dget s l = Some (Path rs)) labels rss ->
  Forall2 (fun l x => row s l t x) labels xs -> xs = map (fun rs => nth t rs []) rss.
Proof.
  intros H. revert xs. induction H as [|l rs labels rss H _ IH]; intros xs G; inversion G as [|? x ? xs' (rows & E & N) G']; subst; [reflexivity|].
  cbn. f_equal; [|now apply IH]. rewrite H in E. injection E as <-. symmetry. now apply nth_error_nth.
Qed.
(** A concatenated path: at each time, the rows one after the other. *)
Lemma cat_row labels s v : cat_value tcat labels s = Ok v -> forall t r, vrow v t r <-> exists xs, Forall2 (fun l x => row s l t x) labels xs /\ r = concat xs.
Proof.
  destruct labels as [|a [|b labels]]; cbn [cat_value]; [discriminate| |].
  - intros H t r. apply dlookup_ok in H. split.
    + intros (rows & -> & N). exists [r]. split; [|cbn; now rewrite app_nil_r]. constructor; [|constructor]. now exists rows.
    + intros (xs & F & ->). inversion F as [|? x ? ? (rows & E & N) F']; subst. inversion F'; subst. rewrite H in E. injection E as ->. exists rows. split; [reflexivity|]. cbn. now rewrite app_nil_r.
  - intros H. set (labs := a :: b :: labels) in *. destruct (rmap (dlookup s) labs) as [vs|] eqn:E; [|discriminate]. cbn [rbind] in H. unfold tcat in H.
    destruct (rmap as_rows vs) as [rss|] eqn:Er; [|discriminate]. cbn [rbind] in H. destruct rss as [|r0 rest]; [discriminate|].
    destruct (forallb _ rest) eqn:Ef; [|discriminate]. injection H as <-.
    pose proof (dget_rows s labs vs (rmap_forall2 _ _ _ E) _ (rmap_forall2 _ _ _ Er)) as D.
    assert (L : Forall (fun rs => length rs = length r0) (r0 :: rest)).
    { constructor; [reflexivity|]. rewrite forallb_forall in Ef. apply Forall_forall. intros x I. now apply Nat.eqb_eq, Ef. }
    intros t r. split.
    + intros (rows & Q & N). injection Q as <-. assert (T : t < length r0).
      { rewrite nth_error_map in N. destruct (nth_error (seq 0 (length r0)) t) eqn:Et; [|discriminate].
        assert (H : t < length (seq 0 (length r0))) by (apply nth_error_Some; congruence). now rewrite seq_length in H. }
      exists (map (fun rs => nth t rs []) (r0 :: rest)). split; [now apply (rows_at s labs _ t (length r0))|].
      rewrite nth_error_map in N. rewrite (nth_error_nth_len _ _ 0) in N by now rewrite seq_length. rewrite seq_nth in N by exact T. cbn [option_map] in N. now injection N as <-.
    + intros (xs & F & ->). pose proof (rows_at_unique _ _ _ _ _ D F) as ->. eexists. split; [reflexivity|].
      assert (T : t < length r0). { subst labs. inversion D as [|? ? ? ? D1 _]; subst. inversion F as [|? ? ? ? (rows & E1 & N) _]; subst. rewrite D1 in E1. injection E1 as <-. apply nth_error_Some. congruence. }
      rewrite nth_error_map, (nth_error_nth_len _ _ 0) by now rewrite seq_length. now rewrite seq_nth by exact T.
Qed.
Lemma radd_row a b t : same_shape a b = true -> forall r, nth_error (radd a b) t = Some r <->
  exists x y, nth_error a t = Some x /\ nth_error b t = Some y /\ length x = length y /\ r = map (fun q => fst q + snd q)%R (combine x y).
Proof.
  unfold same_shape, radd. destruct (list_eq_dec _ _ _) as [E|]; [|discriminate]. intros _. revert b t E.
  induction a as [|x a IH]; intros [|y b] t E; try discriminate; cbn in E.
  - intros r. destruct t; (split; [discriminate|]); intros (x & y & H & _); discriminate.
  - injection E as E1 E2. destruct t as [|t]; cbn; [|now apply IH]. intros r. split.
    + intros H. injection H as <-. now exists x, y.
    + intros (x' & y' & H1 & H2 & _ & ->). injection H1 as ->. injection H2 as ->. reflexivity.
Qed.
(** A difference of paths. *)
Lemma diff_row s v a b : a <> b -> sum_value 1%R tscale tsum [(a, 1%R); (b, (-1)%R)] [a; b] s = Ok v -> forall t r,
  vrow v t r <-> exists x y, row s a t x /\ row s b t y /\ length x = length y /\ r = map (fun q => fst q - snd q)%R (combine x y).
Proof.
  intros N H t r. cbn [sum_value rmap] in H. unfold weight in H.
  destruct (dlookup s a) as [va|] eqn:Ea; [|discriminate]. destruct (dlookup s b) as [vb|] eqn:Eb; [|discriminate].
  apply dlookup_ok in Ea, Eb. cbn [rbind] in H.
  assert (Wa : dget [(a, 1%R); (b, (-1)%R)] a = Some 1%R) by (unfold dget; cbn; now rewrite String.eqb_refl).
  assert (Wb : dget [(a, 1%R); (b, (-1)%R)] b = Some (-1)%R).
  { unfold dget. cbn. destruct (String.eqb_spec a b); [contradiction|]. destruct (String.eqb_spec b a); [congruence|]. now rewrite String.eqb_refl. }
  rewrite ?Wa, ?Wb in H. unfold tsum in H. destruct va as [ra|]; [|discriminate]. destruct vb as [rb|]; [|discriminate]. cbn [tscale rmap as_rows rbind] in H.
  cbn [forallb andb] in H. rewrite andb_true_r in H. destruct (same_shape _ _) eqn:Es; [|discriminate]. cbn [fold_left] in H. injection H as <-.
  unfold vrow. transitivity (nth_error (radd (map (map (Rmult 1)) ra) (map (map (Rmult (-1))) rb)) t = Some r).
  { split; [intros (rows & Q & M); now injection Q as <-|]. intros M. eexists. now split. }
  rewrite (radd_row _ _ _ Es). split.
  - intros (x & y & H1 & H2 & L & ->). rewrite nth_error_map in H1, H2. destruct (nth_error ra t) as [x0|] eqn:N1; [|discriminate]. destruct (nth_error rb t) as [y0|] eqn:N2; [|discriminate].
    cbn in H1, H2. injection H1 as <-. injection H2 as <-. rewrite !map_length in L. exists x0, y0. split; [now exists ra|]. split; [now exists rb|]. split; [exact L|].
    clear - L. revert y0 L. induction x0 as [|p x0 IH]; intros [|q y0] L; try discriminate; [reflexivity|]. cbn. injection L as L. f_equal; [lra|now apply IH].
  - intros (x & y & (r1 & D1 & N1) & (r2 & D2 & N2) & L & ->). rewrite Ea in D1. rewrite Eb in D2. injection D1 as <-. injection D2 as <-.
    exists (map (Rmult 1) x), (map (Rmult (-1)) y). rewrite !nth_error_map, N1, N2, !map_length. repeat split; [exact L|].
    clear - L. revert y L. induction x as [|p x IH]; intros [|q y] L; try discriminate; [reflexivity|]. cbn. injection L as L. f_equal; [lra|now apply IH].
Qed.
Lemma one_row s v a : sum_value 1%R tscale tsum [(a, 1%R)] [a] s = Ok v -> forall t r, vrow v t r <-> row s a t r.
Proof.
  intros H t r. cbn in H. destruct (dlookup s a) as [x|] eqn:E; [|discriminate]. apply dlookup_ok in E. cbn in H.
  assert (W : weight 1%R [(a, 1%R)] a = 1%R) by (unfold weight, dget; cbn; now rewrite String.eqb_refl). rewrite W in H. injection H as <-.
  assert (M : forall l, map (Rmult 1) l = l) by (intros l; rewrite <- (map_id l) at 2; apply map_ext; intros; lra). split.
  - intros (rows & Q & N). destruct x as [rx|]; [|discriminate]. cbn in Q. injection Q as <-. exists rx. split; [exact E|]. rewrite nth_error_map in N.
    destruct (nth_error rx t); [|discriminate]. cbn in N. now rewrite M in N.
  - intros (rows & Q & N). rewrite E in Q. injection Q as ->. exists (map (map (Rmult 1)) rows). split; [reflexivity|]. rewrite nth_error_map, N. cbn. now rewrite M.
Qed.

Section Effects.
  Variable d : dset_t.
  Hypothesis Hd : distinct_samples d.
  Hypothesis Hp : persistent d.
  Lemma then_ok r f st : then_ r f = (st, None) -> exists st1, r = (st1, None) /\ f st1 = (st, None).
  Proof. destruct r as [st1 [e|]]; cbn; [discriminate|]. intros H. now exists st1. Qed.
  Definition feature_value (b : fbuild) (labels : list string) (s : sample fval) : res fval :=
    match b with Cat => cat_value tcat labels s | Sum ws => sum_value 1%R tscale tsum ws labels s end.
  Lemma build_effect b new labels st st' : build_feature b d new labels st = (st', None) -> forall i l, locate d i = Some l ->
    exists v, feature_value b labels (st l) = Ok v /\ st' l = dset (st l) new v.
  Proof.
    intros H i l Hl. destruct b as [|ws]; cbn [build_feature feature_value] in *; [unfold concatenate in H|unfold sum_features in H]; destruct (check_labels d st labels); try discriminate.
    - destruct (edit_all_effect d _ Hd Hp st st' H) as [E _]. specialize (E i l Hl). unfold set_and_pop in E. destruct (cat_value tcat labels (st l)) as [v|]; [|discriminate].
      cbn in E. injection E as <-. now exists v.
    - destruct (edit_all_effect d _ Hd Hp st st' H) as [E _]. specialize (E i l Hl). unfold set_and_pop in E. destruct (sum_value 1%R tscale tsum ws labels (st l)) as [v|]; [|discriminate].
      cbn in E. injection E as <-. now exists v.
  Qed.
  Lemma strain_effect label st st' s0 order : getitem d st 0 = Some s0 -> dget s0 "strain_comps_order" = Some (Order order) ->
    add_strain_features d label st = (st', None) -> forall i l, locate d i = Some l ->
    exists rows feat, dget (st l) "strain_path" = Some (Path rows) /\
      Forall2 (fun r v => compute_strain_feature r label (infer_n_dim order) order = Ok v) rows feat /\ st' l = dset (st l) label (Path feat).
  Proof.
    intros G O H i l Hl. unfold add_strain_features, add_features in H. rewrite G in H. destruct (dget s0 "strain_path"); [|discriminate]. rewrite O in H.
    destruct (negb _); [discriminate|]. destruct (edit_all_effect d _ Hd Hp st st' H) as [E _]. specialize (E i l Hl). unfold feature_edit in E.
    destruct (dget (st l) "strain_path") as [[rows|]|]; try discriminate. destruct (map_res _ rows) as [feat|] eqn:M; [|discriminate]. injection E as <-.
    exists rows, feat. split; [reflexivity|]. split; [now apply map_res_ok|reflexivity].
  Qed.
End Effects.

(** Specification: the rows of the features of each option. *)
Definition invariant_row (order : list comp) (s : sample fval) (t : nat) (r : list R) : Prop :=
  exists e i1 i2, row s "strain_path" t e /\ compute_strain_feature e "i1_strain" (infer_n_dim order) order = Ok i1 /\
    compute_strain_feature e "i2_strain" (infer_n_dim order) order = Ok i2 /\ r = e ++ i1 ++ i2.
Definition plastic_row (s : sample fval) (t : nat) (r : list R) : Prop :=
  exists e el, row s "strain_path" t e /\ row s "e_strain_mf" t el /\ length e = length el /\ r = map (fun q => fst q - snd q)%R (combine e el).
Definition joined_row (labels : list string) (s : sample fval) (t : nat) (r : list R) : Prop :=
  exists xs, Forall2 (fun l x => row s l t x) labels xs /\ r = concat xs.
Definition option_rows (order : list comp) : list (string * ((sample fval -> nat -> list R -> Prop) * (sample fval -> nat -> list R -> Prop))) :=
  let stress s t r := row s "stress_path" t r in
  let strain s t r := row s "strain_path" t r in
  [("strain_to_stress", (strain, stress)); ("strain_i1_i2_to_stress", (invariant_row order, stress)); ("strain_to_p_strain", (strain, plastic_row));
   ("strain_i1_i2_to_p_strain", (invariant_row order, plastic_row)); ("stress_acc_p_strain", (strain, joined_row ["stress_path"; "acc_p_strain"]));
   ("strain_vf_to_stress", (joined_row ["strain_path"; "vf_path"], stress));
   ("strain_temperature_composition_to_stress", (joined_row ["strain_path"; "temperature_hist"; "composition_hist"], stress))].

Lemma row_dset_same s k v t r : row (dset s k v) k t r <-> vrow v t r.
Proof. unfold row, vrow. rewrite dget_dset_same. split; intros (rows & H & N); exists rows; (split; [congruence|exact N]). Qed.
Lemma row_dset_other s k k' v t r : k <> k' -> row (dset s k v) k' t r <-> row s k' t r.
Proof. intros H. unfold row. now rewrite dget_dset_other. Qed.
Lemma single_row s l t r : joined_row [l] s t r <-> row s l t r.
Proof.
  split.
  - intros (xs & F & ->). inversion F as [|? x ? ? H F']; subst. inversion F'; subst. cbn. now rewrite app_nil_r.
  - intros H. exists [r]. split; [constructor; [exact H|constructor]|]. cbn. now rewrite app_nil_r.
Qed.
Lemma joined_ext labels s s' t r : (forall l, In l labels -> dget s' l = dget s l) -> joined_row labels s' t r <-> joined_row labels s t r.
Proof.
  intros H. assert (G : forall s s' : sample fval, (forall l, In l labels -> dget s' l = dget s l) -> forall xs, Forall2 (fun l x => row s l t x) labels xs -> Forall2 (fun l x => row s' l t x) labels xs).
  { clear. intros s s' H xs F. induction F as [|l x labels xs (rows & D & N) _ IH]; constructor; [|apply IH; intros; apply H; now right]. exists rows. split; [|exact N]. rewrite H by now left. exact D. }
  split; intros (xs & F & ->); exists xs; (split; [|reflexivity]); [apply (G s' s)|apply (G s s')]; auto. intros l I. symmetry. auto.
Qed.

Section Main.
  Variable d : dset_t.
  Hypothesis Hd : distinct_samples d.
  Hypothesis Hp : persistent d.
  (** A features option gives every sample, at every time, the rows of its
      description, and changes no path of the data. *)
  Theorem features_option_effect name order fin fout o hidden st st' s0 :
    In (name, (fin, fout)) (option_rows order) -> foption_of name = Ok o ->
    getitem d st 0 = Some s0 -> dget s0 "strain_comps_order" = Some (Order order) ->
    prepare o hidden d st = (st', None) -> forall i l, locate d i = Some l ->
    (forall t r, row (st' l) "features_in" t r <-> fin (st l) t r) /\
    (forall t r, row (st' l) "features_out" t r <-> fout (st l) t r) /\
    (forall k, ~ In k ["features_in"; "features_out"; "hidden_features_in"; "i1_strain"; "i2_strain"] -> dget (st' l) k = dget (st l) k).
  Proof.
    intros I Ho G O H i l Hl. unfold prepare in H.
    apply then_ok in H as (st1 & H1 & H). apply then_ok in H as (st2 & H2 & H). apply then_ok in H as (st3 & H3 & H4).
    destruct (build_effect d Hd Hp _ _ _ _ _ H2 i l Hl) as (v2 & V2 & E2). destruct (build_effect d Hd Hp _ _ _ _ _ H3 i l Hl) as (v3 & V3 & E3).
    unfold add_feature in H4. destruct (edit_all_effect d _ Hd Hp _ _ H4) as [E4 _]. specialize (E4 i l Hl). injection E4 as E4. rewrite <- E4, E3.
    assert (R_in : forall t r, row (dset (dset (st2 l) "features_out" v3) "hidden_features_in" (Path hidden)) "features_in" t r <-> vrow v2 t r).
    { intros t r. rewrite !row_dset_other by discriminate. rewrite E2. apply row_dset_same. }
    assert (R_out : forall t r, row (dset (dset (st2 l) "features_out" v3) "hidden_features_in" (Path hidden)) "features_out" t r <-> vrow v3 t r).
    { intros t r. rewrite row_dset_other by discriminate. apply row_dset_same. }
    assert (K : forall k, ~ In k ["features_in"; "features_out"; "hidden_features_in"] ->
      dget (dset (dset (st2 l) "features_out" v3) "hidden_features_in" (Path hidden)) k = dget (st1 l) k).
    { intros k Nk. assert (k <> "features_in" /\ k <> "features_out" /\ k <> "hidden_features_in") as (A & B & C) by (repeat split; intros ->; apply Nk; cbn; tauto).
      rewrite !dget_dset_other by congruence. rewrite E2. now rewrite dget_dset_other by congruence. }
    assert (K2 : forall k, k <> "features_in" -> dget (st2 l) k = dget (st1 l) k) by (intros k Nk; rewrite E2; now rewrite dget_dset_other by congruence).
    clear H2 H3 H4 E4 E3.
    assert (INV : add_all d ["i1_strain"; "i2_strain"] st = (st1, None) ->
      (forall k, ~ In k ["i1_strain"; "i2_strain"] -> dget (st1 l) k = dget (st l) k) /\
      (forall t r, joined_row ["strain_path"; "i1_strain"; "i2_strain"] (st1 l) t r <-> invariant_row order (st l) t r)).
    { clear - Hd Hp G O Hl. intros H1. cbn [add_all] in H1. apply then_ok in H1 as (sa & A1 & H1). apply then_ok in H1 as (sb & A2 & H1). injection H1 as ->.
      destruct (strain_effect d Hd Hp _ _ _ _ _ G O A1 i l Hl) as (rows & f1 & D1 & F1 & S1).
      assert (G' : exists s1, getitem d sa 0 = Some s1 /\ dget s1 "strain_comps_order" = Some (Order order)).
      { unfold getitem in G |- *. destruct (locate d 0) as [l0|] eqn:L0; [|discriminate]. cbn in G. injection G as <-. exists (sa l0). split; [reflexivity|].
        destruct (strain_effect d Hd Hp "i1_strain" st sa (st l0) order) with (i := 0%nat) (l := l0) as (? & ? & _ & _ & ->); [unfold getitem; now rewrite L0|exact O|exact A1|exact L0|].
        now rewrite dget_dset_other by discriminate. }
      destruct G' as (s1 & G1 & O1). destruct (strain_effect d Hd Hp _ _ _ _ _ G1 O1 A2 i l Hl) as (rows' & f2 & D2 & F2 & S2).
      rewrite S1, dget_dset_other, D1 in D2 by discriminate. injection D2 as <-. split.
      { intros k Nk. rewrite S2, S1, !dget_dset_other; [reflexivity| |]; intros <-; apply Nk; cbn; tauto. }
      assert (FN : forall f lab t x, Forall2 (fun r v => compute_strain_feature r lab (infer_n_dim order) order = Ok v) rows f ->
        nth_error f t = Some x <-> exists e, nth_error rows t = Some e /\ compute_strain_feature e lab (infer_n_dim order) order = Ok x).
      { clear. intros f lab t x F. revert t. induction F as [|e v rows f C _ IH]; intros [|t]; cbn.
        - split; [discriminate|intros (? & ? & _); discriminate].
        - split; [discriminate|intros (? & ? & _); discriminate].
        - split; [intros Q; injection Q as <-; now exists e|]. intros (e' & Q & C'). injection Q as <-. congruence.
        - apply IH. }
      intros t r. unfold joined_row. split.
      - intros (xs & F & ->). inversion F as [|? e ? ? (ra & Da & Na) F']; subst. inversion F' as [|? x1 ? ? (rb & Db & Nb) F'']; subst. inversion F'' as [|? x2 ? ? (rc & Dc & Nc) F3]; subst. inversion F3; subst.
        rewrite S2 in Da, Db, Dc. rewrite dget_dset_same in Dc. injection Dc as <-. rewrite dget_dset_other in Da, Db by discriminate. rewrite S1 in Da, Db. rewrite dget_dset_same in Db. injection Db as <-.
        rewrite dget_dset_other in Da by discriminate. rewrite D1 in Da. injection Da as <-.
        apply (FN f1 "i1_strain" t x1 F1) in Nb as (e1 & Ne1 & C1). apply (FN f2 "i2_strain" t x2 F2) in Nc as (e2 & Ne2 & C2).
        rewrite Na in Ne1, Ne2. injection Ne1 as <-. injection Ne2 as <-. exists e, x1, x2. split; [now exists rows|]. split; [exact C1|]. split; [exact C2|]. cbn. now rewrite app_nil_r.
      - intros (e & i1 & i2 & (ra & Da & Na) & C1 & C2 & ->). rewrite D1 in Da. injection Da as <-. exists [e; i1; i2]. split; [|cbn; now rewrite app_nil_r].
        constructor; [exists rows; split; [rewrite S2, S1, !dget_dset_other by discriminate; exact D1|exact Na]|].
        constructor; [exists f1; split; [rewrite S2, dget_dset_other, S1, dget_dset_same by discriminate; reflexivity|]; apply (FN f1 "i1_strain" t i1 F1); now exists e|].
        constructor; [exists f2; split; [rewrite S2, dget_dset_same; reflexivity|]; apply (FN f2 "i2_strain" t i2 F2); now exists e|constructor]. }
    assert (NOINV : add_all d [] st = (st1, None) -> st1 = st) by (cbn; congruence).
    assert (Wide : (forall k, ~ In k ["i1_strain"; "i2_strain"] -> dget (st1 l) k = dget (st l) k) ->
      forall k, ~ In k ["features_in"; "features_out"; "hidden_features_in"; "i1_strain"; "i2_strain"] ->
      dget (dset (dset (st2 l) "features_out" v3) "hidden_features_in" (Path hidden)) k = dget (st l) k).
    { intros W k Nk. rewrite K by (intros Ik; apply Nk; cbn in *; tauto). apply W. intros Ik. apply Nk. cbn in *. tauto. }
    assert (CatOut : forall labels, cat_value tcat labels (st2 l) = Ok v3 -> ~ In "features_in" labels ->
      forall t r, vrow v3 t r <-> joined_row labels (st1 l) t r).
    { intros labels C Nf t r. rewrite (cat_row _ _ _ C). apply joined_ext. intros k Ik. apply K2. intros ->. contradiction. }
    assert (SumOut : sum_value 1%R tscale tsum [("strain_path", 1%R); ("e_strain_mf", (-1)%R)] ["strain_path"; "e_strain_mf"] (st2 l) = Ok v3 ->
      forall t r, vrow v3 t r <-> plastic_row (st1 l) t r).
    { intros C t r. rewrite (diff_row (st2 l) v3 "strain_path" "e_strain_mf" ltac:(discriminate) C). unfold plastic_row, row. now rewrite !K2 by discriminate. }
    assert (PL : (forall k, ~ In k ["i1_strain"; "i2_strain"] -> dget (st1 l) k = dget (st l) k) -> forall t r, plastic_row (st1 l) t r <-> plastic_row (st l) t r).
    { intros W t r. unfold plastic_row, row. rewrite !W; [reflexivity| |]; cbn; intuition discriminate. }
    assert (SR : (forall k, ~ In k ["i1_strain"; "i2_strain"] -> dget (st1 l) k = dget (st l) k) -> forall t r, row (st1 l) "stress_path" t r <-> row (st l) "stress_path" t r).
    { intros W t r. unfold row. rewrite W; [reflexivity|]. cbn. intuition discriminate. }
    cbn [option_rows In] in I.
    repeat destruct I as [I|I]; try contradiction; injection I as <- <- <-; cbn in Ho; injection Ho as <-; cbn [new_strain in_build in_list out_build out_list feature_value] in *;
      (split; [|split]);
      try (intros t r; rewrite R_in); try (intros t r; rewrite R_out);
      try (apply NOINV in H1; subst st1); try (apply INV in H1 as [W J]);
      try (apply Wide; first [exact W|reflexivity]);
      try (rewrite (cat_row _ _ _ V2));
      try first [ apply single_row | apply (one_row _ _ _ V2) | apply J | reflexivity
                | rewrite (CatOut _ V3) by (cbn; intuition discriminate); rewrite ?single_row; first [reflexivity | now apply SR]
                | rewrite (SumOut V3); first [reflexivity | now apply PL] ].
  Qed.
End Main.

(** The widths of the features in three dimensions are those given to the model:
    of strains and stresses of six components and scalar paths. *)
Definition wide (s : sample fval) (label : string) (k : nat) : Prop := forall t r, row s label t r -> length r = k.
Definition label_width (label : string) : nat :=
  if existsb (String.eqb label) ["strain_path"; "stress_path"; "e_strain_mf"] then 6 else 1.
Lemma joined_width labels s t r : (forall l, In l labels -> wide s l (label_width l)) -> joined_row labels s t r -> length r = fold_right Nat.add 0 (map label_width labels).
Proof.
  intros W (xs & F & ->). induction F as [|l x labels xs H _ IH]; [reflexivity|]. cbn. rewrite app_length, IH by (intros; apply W; now right). rewrite (W l ltac:(now left) t x H). reflexivity.
Qed.
Lemma invariant_width e label n order v : compute_strain_feature e label n order = Ok v -> length v = 1.
Proof.
  unfold compute_strain_feature. destruct (build_from_comps n order e); [|discriminate]. cbn [rbind]. destruct (String.eqb label "i1_strain"); destruct (String.eqb label "i2_strain"); destruct (negb (Nat.eqb n 3)); intros H; try discriminate; now injection H as <-.
Qed.
Theorem features_option_widths d (Hd : distinct_samples d) (Hp : persistent d) name order rows o hidden st st' s0 :
  In (name, rows) (option_rows order) -> foption_of name = Ok o -> getitem d st 0 = Some s0 -> dget s0 "strain_comps_order" = Some (Order order) ->
  prepare o hidden d st = (st', None) -> forall i l, locate d i = Some l -> (forall label, wide (st l) label (label_width label)) ->
  wide (st' l) "features_in" (n_features_in o) /\ wide (st' l) "features_out" (n_features_out o).
Proof.
  intros I Ho G O H i l Hl W. destruct rows as [fin fout]. destruct (features_option_effect d Hd Hp name order fin fout o hidden st st' s0 I Ho G O H i l Hl) as (A & B & _).
  assert (WI : forall t r, invariant_row order (st l) t r -> length r = 8).
  { intros t r (e & i1 & i2 & R1 & C1 & C2 & ->). rewrite !app_length, (invariant_width _ _ _ _ _ C1), (invariant_width _ _ _ _ _ C2), (W "strain_path" t e R1). reflexivity. }
  assert (WP : forall t r, plastic_row (st l) t r -> length r = 6).
  { intros t r (e & el & R1 & _ & L & ->). rewrite map_length, combine_length, <- L, Nat.min_id. exact (W "strain_path" t e R1). }
  unfold wide. split; intros t r Hr; [apply A in Hr|apply B in Hr]; clear A B; cbn [option_rows In] in I;
    repeat destruct I as [I|I]; try contradiction; injection I as <- <- <-; cbn in Ho; injection Ho as <-; cbn [n_features_in n_features_out];
    first [now apply (W "strain_path" t) | now apply (W "stress_path" t) | now apply (WI t) | now apply (WP t) | rewrite (joined_width _ _ _ _ (fun lab _ => W lab) Hr); reflexivity].
Qed.
(** In two dimensions the strain has fewer components: whatever the data set, the
    width of the input features of the first option is not that of the model. *)
Theorem plane_features_refuted d (Hd : distinct_samples d) (Hp : persistent d) order o hidden st st' s0 :
  foption_of "strain_to_stress" = Ok o -> getitem d st 0 = Some s0 -> dget s0 "strain_comps_order" = Some (Order order) ->
  prepare o hidden d st = (st', None) -> forall i l, locate d i = Some l -> wide (st l) "strain_path" 3 -> (exists t r, row (st l) "strain_path" t r) ->
  ~ wide (st' l) "features_in" (n_features_in o).
Proof.
  intros Ho G O H i l Hl W (t & r & Hr) N.
  destruct (features_option_effect d Hd Hp "strain_to_stress" order _ _ o hidden st st' s0 (or_introl eq_refl) Ho G O H i l Hl) as (A & _ & _).
  pose proof (W t r Hr) as L. specialize (N t r (proj2 (A t r) Hr)). cbn in Ho. injection Ho as <-. cbn in N. lia.
Qed.
(** Unknown options are refused; the known ones are those described. *)
Theorem features_option_known name order : (exists o, foption_of name = Ok o) <-> In name (map fst (option_rows order)).
Proof.
  unfold foption_of. cbn [option_rows map fst]. split.
  - intros [o H]. repeat match type of H with context [String.eqb name ?s] => destruct (String.eqb_spec name s) as [->|]; [cbn; tauto|] end. discriminate.
  - intros I. repeat destruct I as [<-|I]; try contradiction; eexists; reflexivity.
Qed.
(** The exponential schedule goes from the initial to the final learning rate,
    decreasing, in the given number of epochs. *)
Theorem schedule_reaches_end lr_init lr_end n : (0 < lr_end)%R -> (0 < lr_init)%R -> 0 < n -> rate_after lr_init lr_end n n = lr_end /\ rate_after lr_init lr_end n 0 = lr_init.
Proof.
  intros He Hi Hn. unfold rate_after, gamma. split; [|cbn; lra].
  assert (P : (0 < lr_end / lr_init)%R) by (apply Rdiv_lt_0_compat; assumption).
  rewrite <- Rpower_pow by apply exp_pos. rewrite Rpower_mult. replace (1 / INR n * INR n)%R with 1%R by (field; apply not_0_INR; lia).
  rewrite Rpower_1 by exact P. field. lra.
Qed.
Theorem schedule_decreases lr_init lr_end n k : (0 < lr_end < lr_init)%R -> 0 < n -> (rate_after lr_init lr_end n (S k) < rate_after lr_init lr_end n k)%R.
Proof.
  intros [He Hi] Hn. unfold rate_after. assert (G : (0 < gamma lr_init lr_end n < 1)%R).
  { split; [apply exp_pos|]. unfold gamma, Rpower. apply Rlt_le_trans with (exp 0); [apply exp_increasing|rewrite exp_0; lra].
    assert (L : (ln (lr_end / lr_init) < 0)%R). { rewrite <- ln_1. apply ln_increasing; [apply Rdiv_lt_0_compat; lra|]. apply (Rmult_lt_reg_r lr_init); [lra|]. field_simplify; lra. }
    assert (I : (0 < 1 / INR n)%R) by (apply Rdiv_lt_0_compat; [lra|apply lt_0_INR; lia]). nra. }
  cbn. assert (0 < gamma lr_init lr_end n ^ k)%R by (apply pow_lt; lra). assert (0 < lr_init)%R by lra. set (p := (gamma lr_init lr_end n ^ k)%R) in *. set (g := gamma lr_init lr_end n) in *.
  assert (g * p < p)%R by nra. nra.
Qed.

(** ** Cases *)
Example ex_options : let st := fun l : loc => if Nat.eqb (snd l) 0 then [("strain_path", Path [[1; 2]; [3; 4]]); ("e_strain_mf", Path [[1; 0]; [1; 1]]); ("stress_path", Path [[5]; [6]]); ("vf_path", Path [[7]; [8]])]%R else [] in
  let run name := rbind (foption_of name) (fun o => match prepare o [] (Mem [0]) st with (st', None) => Ok (dget (st' (true, 0)) "features_in", dget (st' (true, 0)) "features_out") | (_, Some e) => Err e end) in
  run "strain_to_stress" = Ok (Some (Path [[1; 2]; [3; 4]]), Some (Path [[5]; [6]]))%R /\
  run "strain_vf_to_stress" = Ok (Some (Path [[1; 2; 7]; [3; 4; 8]]), Some (Path [[5]; [6]]))%R /\
  run "stress_acc_p_strain" = Err RuntimeError /\ run "unknown" = Err RuntimeError.
Proof. repeat split. Qed.

(** The prediction batch is the whole data set up to 512 samples, and never
    larger than either. *)
Theorem predict_batch_bounds : forall d, (0 < dlen d)%nat ->
  (0 < predict_batch_size d <= dlen d)%nat /\ (predict_batch_size d <= 512)%nat /\ ((dlen d <= 512)%nat -> predict_batch_size d = dlen d).
Proof. intros d H. unfold predict_batch_size. repeat split; lia. Qed.

Print Assumptions features_option_effect.
Print Assumptions features_option_widths.
Print Assumptions plane_features_refuted.
Print Assumptions features_option_known.
Print Assumptions schedule_reaches_end.
Print Assumptions schedule_decreases.
Print Assumptions predict_batch_bounds.
