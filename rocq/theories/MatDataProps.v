(** Generation and assembly of material data sets: theorems. *)
From Coq Require Import Reals String Ascii List Bool Arith ZArith Lia Lra Permutation.
Import ListNotations.
From Verif Require Import Lib PyStr PyDict HardeningModel HardeningProps ThermoParModel ThermoParProps MatDataModel.
Local Open Scope list_scope.
Local Open Scope R_scope.

(** ** Integer parts *)
Lemma int_part_is x z : IZR z <= x < IZR z + 1 -> Int_part x = z.
Proof.
  intros [A B]. destruct (base_Int_part x) as [C D].
  assert (IZR (Int_part x) < IZR z + 1) by lra. assert (IZR z < IZR (Int_part x) + 1) by lra.
  rewrite <- plus_IZR in *. apply lt_IZR in H, H0. lia.
Qed.
Lemma ztrunc_nonneg x : 0 <= x -> IZR (ztrunc x) <= x < IZR (ztrunc x) + 1.
Proof. intros H. unfold ztrunc. destruct (Rlt_dec x 0); [lra|]. destruct (base_Int_part x). lra. Qed.
Lemma ztrunc_neg x : x < 0 -> (ztrunc x <= 0)%Z.
Proof.
  intros H. unfold ztrunc. destruct (Rlt_dec x 0); [|lra]. destruct (base_Int_part (- x)).
  assert (-1 < IZR (Int_part (- x))) by lra. apply lt_IZR in H2. lia.
Qed.
Lemma ztrunc_ge x z : (1 <= z)%Z -> (z <= ztrunc x)%Z <-> IZR z <= x.
Proof.
  intros Z1. destruct (Rlt_le_dec x 0) as [N|N].
  - pose proof (ztrunc_neg x N). pose proof (IZR_le _ _ Z1). split; [lia|lra].
  - destruct (ztrunc_nonneg x N) as [A B]. split.
    + intros H. apply IZR_le in H. lra.
    + intros H. assert (Q : IZR z < IZR (ztrunc x) + 1) by lra. rewrite <- plus_IZR in Q. apply lt_IZR in Q. lia.
Qed.
(** Number of random strain paths among n with ratio r: the i-th sample
    (counted from zero) is random exactly when i + 1 <= n r. *)
Lemma random_index n r i : (Z.of_nat i <? ztrunc (INR n * r))%Z = true <-> INR (S i) <= INR n * r.
Proof.
  rewrite Z.ltb_lt, (INR_IZR_INZ (S i)). rewrite <- ztrunc_ge by lia. split; lia.
Qed.

Lemma md_len {A B} (P : A -> B -> Prop) a b : Forall2 P a b -> length a = length b.
Proof. induction 1; cbn [length]; congruence. Qed.

(** ** Ratios *)
Definition ratio_ok (n : nat) (r : R) : Prop := 1 <= INR n * r < INR n.
Lemma ratio_test n r : (ztrunc (INR n * r) <? 1)%Z || (Z.of_nat n - ztrunc (INR n * r) <? 1)%Z = false <-> ratio_ok n r.
Proof.
  unfold ratio_ok. rewrite orb_false_iff, !Z.ltb_ge. split; intros [A B].
  - apply ztrunc_ge in A; [|lia]. split; [lra|].
    destruct (Rlt_le_dec (INR n * r) (INR n)) as [L|L]; auto. exfalso.
    rewrite (INR_IZR_INZ n) in L at 1. destruct (Nat.eq_dec n 0) as [->|]; [simpl in A; lra|].
    apply ztrunc_ge in L; lia.
  - split; [apply ztrunc_ge; [lia|lra]|].
    destruct (Z_le_gt_dec 1 (Z.of_nat n - ztrunc (INR n * r))); auto. exfalso.
    assert (Q : (Z.of_nat n <= ztrunc (INR n * r))%Z) by lia. destruct (Nat.eq_dec n 0) as [->|]; [simpl in A; lra|].
    apply ztrunc_ge in Q; [|lia]. rewrite <- INR_IZR_INZ in Q. lra.
Qed.
Lemma default_ratio_bad n : ~ ratio_ok n 1.
Proof. unfold ratio_ok. lra. Qed.

(** Ratios are accepted exactly when every type has one which leaves at least
    one random and one proportional strain path. *)
Theorem ratios_accepted types d : forall d',
  check_ratios types d = Ok d' <->
  d' = d /\ forall ty n, In (ty, n) types -> exists r, rget d ty = Some r /\ ratio_ok n r.
Proof.
  induction types as [|(ty, n) t IH]; intros d'; cbn [check_ratios].
  { split; [intros H; injection H as <-; split; auto; intros ? ? []|intros [-> _]; reflexivity]. }
  destruct (rget d ty) as [r|] eqn:E; cbv zeta.
  - rewrite E. pose proof (ratio_test n r) as RT.
    destruct (ztrunc (INR n * r) <? 1)%Z; [|destruct (Z.of_nat n - ztrunc (INR n * r) <? 1)%Z]; cbn [orb] in RT.
    1,2: split; [discriminate|intros [_ H]; exfalso; destruct (H ty n (or_introl eq_refl)) as (r' & E' & K);
         rewrite E in E'; injection E' as <-; apply RT in K; discriminate].
    rewrite IH. split; intros [-> H]; split; auto.
    + intros ty' n' [Q|Q]; [injection Q as <- <-; exists r; split; auto; now apply RT|now apply H].
    + intros ty' n' Q. apply H. now right.
  - assert (G : rget (gset String.eqb d ty 1) ty = Some 1).
    { unfold rget. apply (gget_gset_same String.eqb String.eqb_eq). }
    rewrite G. pose proof (ratio_test n 1) as RT. pose proof (default_ratio_bad n) as DB.
    destruct (ztrunc (INR n * 1) <? 1)%Z; [|destruct (Z.of_nat n - ztrunc (INR n * 1) <? 1)%Z]; cbn [orb] in RT.
    1,2: split; [discriminate|intros [_ H]; exfalso; destruct (H ty n (or_introl eq_refl)) as (r' & E' & K); congruence].
    exfalso. tauto.
Qed.
Lemma ratios_refused_kind types : forall d e, check_ratios types d = Err e -> e = RuntimeError.
Proof.
  induction types as [|(ty, n) t IH]; intros d e; cbn [check_ratios]; [discriminate|]. cbv zeta.
  destruct (_ <? 1)%Z; [congruence|]. destruct (_ <? 1)%Z; [congruence|]. apply IH.
Qed.

(** ** Trials *)
Lemma trial_loop_law fails : forall fuel k m, (fuel + k = 11)%nat ->
  trial_loop fuel k fails = Ok m <->
  (k < m <= 10)%nat /\ fails m = false /\ forall j, (k < j < m)%nat -> fails j = true.
Proof.
  induction fuel as [|fuel IH]; intros k m H; cbn [trial_loop].
  { split; [discriminate|lia]. }
  destruct (Nat.ltb_spec max_trials (S k)) as [L|L]; unfold max_trials in L.
  { split; [discriminate|lia]. }
  destruct (fails (S k)) eqn:F.
  - rewrite IH by lia. split; intros (A & B & C); (split; [|split; auto]).
    + lia.
    + intros j Hj. destruct (Nat.eq_dec j (S k)) as [->|]; auto. apply C. lia.
    + destruct (Nat.eq_dec m (S k)) as [->|]; [congruence|lia].
    + intros j Hj. apply C. lia.
  - split.
    + intros Q. injection Q as <-. split; [lia|]. split; auto. lia.
    + intros (A & B & C). f_equal. destruct (Nat.eq_dec m (S k)); auto. rewrite C in F by lia. discriminate.
Qed.
(** A sample is obtained at its first successful trial, within ten trials. *)
Theorem trials_law fails m : trial_loop 11 0 fails = Ok m <->
  (1 <= m <= 10)%nat /\ fails m = false /\ forall j, (1 <= j < m)%nat -> fails j = true.
Proof. rewrite trial_loop_law by reflexivity. split; intros (A & B & C); (split; [lia|split; auto]); intros; apply C; lia. Qed.
Lemma trials_exist fails : (exists m, trial_loop 11 0 fails = Ok m) <-> exists m, (1 <= m <= 10)%nat /\ fails m = false.
Proof.
  split; [intros [m M]; apply trials_law in M; exists m; tauto|].
  intros (m & A & B).
  assert (G : forall b, (b <= 10)%nat -> (exists m, (1 <= m <= b)%nat /\ fails m = false) ->
    exists m, (1 <= m <= b)%nat /\ fails m = false /\ forall j, (1 <= j < m)%nat -> fails j = true).
  { induction b as [|b IH]; intros Hb (q & Q1 & Q2); [lia|].
    destruct (existsb (fun j => negb (fails j)) (seq 1 b)) eqn:E.
    - apply existsb_exists in E as (j & J1 & J2). apply in_seq in J1. apply negb_true_iff in J2.
      destruct IH as (x & X1 & X2); [lia|exists j; split; [lia|auto]|]. exists x. split; [lia|auto].
    - exists (S b).
      assert (ALL : forall j, (1 <= j < S b)%nat -> fails j = true).
      { intros j Hj. destruct (fails j) eqn:F; auto. exfalso.
        assert (existsb (fun j => negb (fails j)) (seq 1 b) = true); [|congruence].
        apply existsb_exists. exists j. rewrite in_seq, F. split; [lia|reflexivity]. }
      split; [lia|]. split; auto. destruct (Nat.eq_dec q (S b)) as [->|]; auto. rewrite ALL in Q2 by lia. discriminate. }
  destruct (G 10%nat ltac:(lia)) as (x & X); [eauto|]. exists x. now apply trials_law.
Qed.

(** ** The generated data sets *)
(** What is asked of the data set of a type around the grid values t and c. *)
Definition near_grid (l : list R) (j : nat) (x : R) : Prop :=
  nth (j - 1) l 0 <= x <= nth (Nat.min (j + 1) (length l - 1)) l 0.
Definition dflt_sample : msample := {| ms_kind := RandomPath; ms_temp := 0; ms_comp := 0 |}.
Definition proper_set (temps comps : list R) (jt jc : nat) (ty : string) (n : nat) (r : R) (l : list msample) : Prop :=
  length l = n /\
  forall i, (i < n)%nat -> let s := nth i l dflt_sample in
    (ms_kind s = RandomPath <-> INR (S i) <= INR n * r) /\
    if (String.eqb ty "validation" || String.eqb ty "testing_id")%string
    then near_grid temps jt (ms_temp s) /\ near_grid comps jc (ms_comp s)
    else ms_temp s = nth jt temps 0 /\ ms_comp s = nth jc comps 0.

Section Generated.
  Variable ut uc : nat -> string -> nat -> R.
  Variable fails : nat -> string -> nat -> nat -> bool.
  Variable base : option bool.
  Variable model : string.
  Variable temps comps : list R.
  Hypothesis UT : forall k ty i, 0 <= ut k ty i <= 1.
  Hypothesis UC : forall k ty i, 0 <= uc k ty i <= 1.

  Lemma gen_type_proper d k jt jc tn e : increasing temps -> increasing comps ->
    (jt < length temps)%nat -> (jc < length comps)%nat ->
    gen_type ut uc fails model temps comps d k (nth jt temps 0) (nth jc comps 0) tn = Ok e ->
    fst e = (fst tn ++ "_dataset")%string /\
    proper_set temps comps jt jc (fst tn) (snd tn) (match rget d (fst tn) with Some r => r | None => 1 end) (snd e).
  Proof.
    intros It Ic Ht Hc. destruct tn as (ty, n). unfold gen_type. cbn [fst snd].
    set (r := match rget d ty with Some r => r | None => 1 end).
    destruct (rmap _ (seq 0 n)) as [l|] eqn:E; cbn [rbind]; [|discriminate]. intros Q. injection Q as <-. cbn [fst snd].
    split; auto. apply rmap_ok in E.
    assert (LN : length l = n). { clear -E. apply md_len in E. rewrite seq_length in E. auto. }
    split; auto. intros i Hi. cbv zeta.
    assert (G : gen_sample ut uc fails model temps comps k (nth jt temps 0) (nth jc comps 0) ty (ztrunc (INR n * r)) i
                = Ok (nth i l dflt_sample)).
    { clear - E Hi LN. revert l E LN. assert (forall m a l, Forall2 (fun a b =>
        gen_sample ut uc fails model temps comps k (nth jt temps 0) (nth jc comps 0) ty (ztrunc (INR n * r)) a = Ok b) (seq a m) l ->
        forall i, (i < m)%nat -> gen_sample ut uc fails model temps comps k (nth jt temps 0) (nth jc comps 0) ty (ztrunc (INR n * r)) (a + i)
          = Ok (nth i l dflt_sample)).
      { induction m as [|m IH]; intros a l F j Hj; [lia|]. cbn [seq] in F. inversion F; subst.
        destruct j as [|j]; [rewrite Nat.add_0_r; auto|]. cbn [nth]. rewrite <- Nat.add_succ_comm. apply IH; auto. lia. }
      intros l E _. apply (H n 0%nat l E i Hi). }
    unfold gen_sample in G. cbv zeta in G.
    destruct (get_model_parameters _ _ _); cbn [rbind] in G; [|discriminate].
    destruct (trial_loop _ _ _); cbn [rbind] in G; [|discriminate].
    injection G as G. rewrite <- G. cbn [ms_kind ms_temp ms_comp]. split.
    - rewrite <- random_index. destruct (_ <? _)%Z; split; auto; discriminate.
    - unfold effective, is_neighbour_type. destruct (_ || _)%bool; [|auto].
      split; apply draw_between_neighbours; auto.
  Qed.

  (** Storing directories with distinct names keeps them all. *)
  Lemma key_eqb_spec a b : key_eqb a b = true <-> a = b.
  Proof.
    destruct a as (a1, a2), b as (b1, b2). unfold key_eqb. cbn [fst snd]. rewrite andb_true_iff, !Z.eqb_eq.
    split; [intros [-> ->]; reflexivity|intros H; injection H; auto].
  Qed.
  Lemma gset_fresh (tr : tree) k v : ~ In k (map fst tr) -> gset key_eqb tr k v = tr ++ [(k, v)].
  Proof.
    induction tr as [|(a, b) t IH]; intros N; cbn [gset app]; auto.
    destruct (key_eqb k a) eqn:E; [apply key_eqb_spec in E; subst; exfalso; apply N; now left|].
    rewrite IH; auto. intros Q. apply N. now right.
  Qed.
  Lemma store_distinct (l : tree) : NoDup (map fst l) -> store_pairs l = l.
  Proof.
    intros N. unfold store_pairs.
    assert (G : forall (l acc : tree), NoDup (map fst (acc ++ l)) ->
      fold_left (fun tr kd => gset key_eqb tr (fst kd) (snd kd)) l acc = acc ++ l).
    { clear. induction l as [|(k, v) l IH]; intros acc N; cbn [fold_left fst snd]; [now rewrite app_nil_r|].
      assert (F : ~ In k (map fst acc)).
      { rewrite map_app in N. cbn [map fst] in N. apply NoDup_remove_2 in N. intros Q. apply N, in_or_app. now left. }
      rewrite gset_fresh by exact F. rewrite IH; rewrite <- app_assoc; auto. }
    apply (G l []). exact N.
  Qed.
  Lemma store_keys (l : tree) : forall k, In k (map fst (store_pairs l)) -> In k (map fst l).
  Proof.
    unfold store_pairs.
    assert (G : forall (l acc : tree) k, In k (map fst (fold_left (fun tr kd => gset key_eqb tr (fst kd) (snd kd)) l acc)) ->
      In k (map fst acc) \/ In k (map fst l)).
    { clear. induction l as [|(a, v) l IH]; intros acc k H; cbn [fold_left fst snd map] in *; [auto|]. cbn [In].
      apply IH in H as [H|H]; [|tauto]. 
      assert (W : forall tr : tree, In k (map fst (gset key_eqb tr a v)) -> In k (map fst tr) \/ a = k).
      { clear. induction tr as [|(x, y) t IH]; cbn [gset map fst In]; [tauto|].
        destruct (key_eqb a x); cbn [map fst In]; [tauto|]. intros [->|H]; [tauto|]. apply IH in H. tauto. }
      apply W in H. tauto. }
    intros k H. apply G in H as [[]|H]. exact H.
  Qed.
  Lemma store_nodup (l : tree) : NoDup (map fst (store_pairs l)).
  Proof.
    unfold store_pairs. assert (G : forall (l acc : tree), NoDup (map fst acc) ->
      NoDup (map fst (fold_left (fun tr kd => gset key_eqb tr (fst kd) (snd kd)) l acc))).
    { clear. induction l as [|(a, v) l IH]; intros acc H; cbn [fold_left fst snd]; auto. apply IH.
      induction acc as [|(x, y) t IHt]; cbn [gset map fst]; [constructor; auto; constructor|].
      cbn [map fst] in H. apply NoDup_cons_iff in H as [H1 H2].
      destruct (key_eqb a x) eqn:E; cbn [map fst]; [constructor; auto|]. constructor; [|auto].
      intros Q. assert (W : forall tr : tree, In x (map fst (gset key_eqb tr a v)) -> In x (map fst tr) \/ a = x).
      { clear. induction tr as [|(p, q) t IH]; cbn [gset map fst In]; [tauto|].
        destruct (key_eqb a p); cbn [map fst In]; [tauto|]. intros [->|H]; [tauto|]. apply IH in H. tauto. }
      apply W in Q as [Q|Q]; auto. subst. rewrite (proj2 (key_eqb_spec x x) eq_refl) in E. discriminate. }
    apply G. constructor.
  Qed.

  Lemma nodup_prod {A B} (a : list A) (b : list B) : NoDup a -> NoDup b -> NoDup (list_prod a b).
  Proof.
    intros HA HB. induction HA as [|x a N _ IH]; cbn [list_prod]; [constructor|].
    assert (G : forall b' : list B, NoDup b' -> NoDup (map (fun y : B => (x, y)) b' ++ list_prod a b)).
    { intros b' HB'. induction HB' as [|y b' M _ IHb]; cbn [map app]; auto. constructor; auto.
      intros Q. apply in_app_or in Q as [Q|Q].
      - apply in_map_iff in Q as (z & E & Q). injection E as ->. contradiction.
      - apply in_prod_iff in Q as [Q _]. contradiction. }
    apply G. exact HB.
  Qed.
  Lemma prod_keys (a b : list R) : map (fun p => (hund (fst p), hund (snd p))) (list_prod a b) = list_prod (map hund a) (map hund b).
  Proof.
    induction a as [|x a IH]; cbn [list_prod map]; auto. rewrite map_app, IH, !map_map. reflexivity.
  Qed.
  Lemma enum_snd {A} (l : list A) : map snd (enumerate l) = l.
  Proof.
    unfold enumerate. generalize 0%nat. induction l as [|x l IH]; intros k; cbn [length seq combine map snd]; auto. f_equal. apply IH.
  Qed.
  Lemma gen_pairs_keys d types l : forall ps,
    rmap (gen_pair ut uc fails base model temps comps d types) ps = Ok l ->
    map fst l = map (fun p => (hund (fst p), hund (snd p))) (map snd ps).
  Proof.
    intros ps H. apply rmap_ok in H. induction H as [|(k, (t, c)) kd ps l H _ IH]; cbn [map fst snd]; auto.
    rewrite IH. f_equal. unfold gen_pair in H. destruct base as [[|]|]; try discriminate.
    destruct (rmap _ types); cbn [rbind] in H; [|discriminate]. injection H as <-. reflexivity.
  Qed.

  (** Directory names tell the grid values apart. *)
  Definition distinct_names (l : list R) : Prop := NoDup (map hund l).

  Lemma generate_inv types d tr : generate ut uc fails base model temps comps types d = Ok tr ->
    check_ratios types d = Ok d /\
    exists l, rmap (gen_pair ut uc fails base model temps comps d types) (enumerate (list_prod temps comps)) = Ok l /\
      tr = store_pairs l.
  Proof.
    unfold generate. destruct (check_ratios types d) as [d'|] eqn:E; cbn [rbind]; [|discriminate].
    pose proof (proj1 (proj1 (ratios_accepted types d d') E)) as ->. split; auto.
    destruct (rmap _ _) as [l|]; cbn [rbind] in *; [|discriminate]. injection H as <-. eauto.
  Qed.

  Lemma generate_all types d tr : distinct_names temps -> distinct_names comps ->
    generate ut uc fails base model temps comps types d = Ok tr ->
    Forall2 (fun kp kd => gen_pair ut uc fails base model temps comps d types kp = Ok kd)
      (enumerate (list_prod temps comps)) tr /\ NoDup (map fst tr).
  Proof.
    intros Dt Dc H. apply generate_inv in H as (_ & l & E & ->).
    assert (N : NoDup (map fst l)).
    { rewrite (gen_pairs_keys _ _ _ _ E), enum_snd, prod_keys. now apply nodup_prod. }
    rewrite store_distinct by exact N. split; auto. now apply rmap_ok.
  Qed.

  (** Every pair of grid values has a directory with one proper data set for
      every type, and there are no other directories. *)
  Theorem generated_sets types d tr jt jc : distinct_names temps -> distinct_names comps ->
    increasing temps -> increasing comps -> (jt < length temps)%nat -> (jc < length comps)%nat ->
    generate ut uc fails base model temps comps types d = Ok tr ->
    length tr = (length temps * length comps)%nat /\
    exists sets, gget key_eqb tr (hund (nth jt temps 0), hund (nth jc comps 0)) = Some sets /\
      Forall2 (fun tn e => fst e = (fst tn ++ "_dataset")%string /\
        exists r, rget d (fst tn) = Some r /\ proper_set temps comps jt jc (fst tn) (snd tn) r (snd e)) types sets.
  Proof.
    intros Dt Dc It Ic Ht Hc H. pose proof (generate_inv _ _ _ H) as (CR & _).
    destruct (generate_all _ _ _ Dt Dc H) as (F & N). split.
    { apply md_len in F. rewrite <- F. unfold enumerate. rewrite combine_length, seq_length, prod_length. lia. }
    assert (P : In (nth jt temps 0, nth jc comps 0) (map snd (enumerate (list_prod temps comps)))).
    { rewrite enum_snd. apply in_prod; now apply nth_In. }
    apply in_map_iff in P as ((k, tc) & E & P). cbn [snd] in E. subst tc.
    assert (Q : exists kd, In kd tr /\ gen_pair ut uc fails base model temps comps d types (k, (nth jt temps 0, nth jc comps 0)) = Ok kd).
    { clear -F P. induction F as [|a b la lb H F IH]; [destruct P|]. destruct P as [->|P]; [exists b; split; [now left|auto]|].
      destruct (IH P) as (kd & A & B). exists kd. split; [now right|auto]. }
    destruct Q as (kd & A & G). unfold gen_pair in G. destruct base as [[|]|]; try discriminate.
    destruct (rmap _ types) as [sets|] eqn:E; cbn [rbind] in G; [|discriminate]. injection G as <-.
    exists sets. split; [apply (in_gget key_eqb key_eqb_spec); auto|].
    apply rmap_ok in E. clear - E CR UT UC It Ic Ht Hc. pose proof (proj2 (proj1 (ratios_accepted _ _ _) CR)) as RA.
    clear CR. induction E as [|tn e types sets H _ IH]; constructor.
    - apply gen_type_proper in H; auto. destruct H as [H1 H2]. split; auto.
      destruct (RA (fst tn) (snd tn)) as (r & R1 & _); [left; now destruct tn|]. exists r. rewrite R1 in H2. auto.
    - apply IH. intros ty n Q. apply RA. now right.
  Qed.

  (** Generation succeeds whenever the grid is admissible, the ratios leave
      samples of both types and every sample has a success in ten trials. *)
  Theorem generate_succeeds types d : base = Some true -> model = "von_mises"%string ->
    (forall y, In y temps -> 25 <= y <= 625) -> (forall y, In y comps -> 0 <= y <= 1) ->
    (forall ty n, In (ty, n) types -> exists r, rget d ty = Some r /\ ratio_ok n r) ->
    (forall k ty i, exists m, (1 <= m <= 10)%nat /\ fails k ty i m = false) ->
    exists tr, generate ut uc fails base model temps comps types d = Ok tr.
  Proof.
    intros -> -> Bt Bc RA TR. unfold generate.
    rewrite (proj2 (ratios_accepted types d d) (conj eq_refl RA)). cbn [rbind].
    assert (W : forall {A B} (f : A -> res B) l, (forall a, In a l -> exists b, f a = Ok b) -> exists r, rmap f l = Ok r).
    { clear. intros A B f. induction l as [|a l IH]; intros H; cbn [rmap]; [eauto|].
      destruct (H a (or_introl eq_refl)) as (b & ->). cbn [rbind].
      destruct IH as (r & ->); [intros x X; apply H; now right|]. cbn [rbind]. eauto. }
    destruct (W _ _ (gen_pair ut uc fails (Some true) "von_mises" temps comps d types) (enumerate (list_prod temps comps))) as (l & ->);
      [|cbn [rbind]; eauto].
    intros (k, (t, c)) P. apply (in_map snd) in P. rewrite enum_snd in P. cbn [snd] in P. apply in_prod_iff in P as [Pt Pc].
    unfold gen_pair. destruct (W _ _ (gen_type ut uc fails "von_mises" temps comps d k t c) types) as (sets & ->); [|cbn [rbind]; eauto].
    intros (ty, n) _. unfold gen_type. cbn [fst snd].
    match goal with |- context [rmap ?f _] => destruct (W _ _ f (seq 0 n)) as (ss & ->); [|cbn [rbind]; eauto] end.
    intros i _. unfold gen_sample. cbv zeta.
    destruct (sample_material_exists ty temps comps t c (ut k ty i) (uc k ty i)) as (p & ->); auto. cbn [rbind].
    destruct (proj2 (trials_exist (fails k ty i)) (TR k ty i)) as (m & ->). cbn [rbind]. eauto.
  Qed.

  (** Ten failures of a sample end the generation. *)
  Theorem ten_failures_refused types d k t c ty n i tr :
    nth_error (list_prod temps comps) k = Some (t, c) -> In (ty, n) types -> (i < n)%nat ->
    (forall m, (1 <= m <= 10)%nat -> fails k ty i m = true) ->
    generate ut uc fails base model temps comps types d <> Ok tr.
  Proof.
    intros P T I F H. apply generate_inv in H as (_ & l & E & _).
    assert (X : forall {A B} (f : A -> res B) l r, rmap f l = Ok r -> forall a, In a l -> exists b, f a = Ok b).
    { clear. intros A B f l r H a Q. apply rmap_ok in H. induction H; [destruct Q|]. destruct Q as [->|Q]; eauto. }
    assert (PI : In (k, (t, c)) (enumerate (list_prod temps comps))).
    { clear -P. unfold enumerate. generalize (list_prod temps comps) P. intros l. clear P.
      assert (G : forall l a k, nth_error l k = Some (t, c) -> In ((a + k)%nat, (t, c)) (combine (seq a (length l)) l)).
      { clear. induction l as [|x l IH]; intros a [|k] H; cbn [nth_error length seq combine] in *; try discriminate.
        - injection H as ->. left. now rewrite Nat.add_0_r.
        - right. rewrite <- Nat.add_succ_comm. now apply IH. }
      intros P. apply (G l 0%nat k P). }
    destruct (X _ _ _ _ _ E _ PI) as (b & G). unfold gen_pair in G. destruct base as [[|]|]; try discriminate.
    destruct (rmap _ types) as [sets|] eqn:E2; cbn [rbind] in G; [|discriminate].
    destruct (X _ _ _ _ _ E2 _ T) as (b2 & G2). unfold gen_type in G2. cbn [fst snd] in G2.
    destruct (rmap _ (seq 0 n)) as [ss|] eqn:E3; cbn [rbind] in G2; [|discriminate].
    destruct (X _ _ _ _ _ E3 i) as (b3 & G3); [apply in_seq; lia|]. unfold gen_sample in G3. cbv zeta in G3.
    destruct (get_model_parameters _ _ _); cbn [rbind] in G3; [|discriminate].
    destruct (trial_loop _ _ _) as [mm|] eqn:E4; cbn [rbind] in G3; [|discriminate].
    apply trials_law in E4. rewrite F in E4; [destruct E4 as (_ & ? & _); discriminate|tauto].
  Qed.

  (** A type without a ratio is refused, although all its samples are said to be
      random in that case; so is every call without ratios. *)
  Theorem default_ratio_refuted types d ty n : In (ty, n) types -> rget d ty = None ->
    generate ut uc fails base model temps comps types d = Err RuntimeError.
  Proof.
    intros T N. unfold generate. destruct (check_ratios types d) as [d'|e] eqn:E; cbn [rbind].
    - apply ratios_accepted in E as [_ E]. destruct (E ty n T) as (r & R1 & _). congruence.
    - f_equal. eapply ratios_refused_kind. exact E.
  Qed.
  (** Imported as a library the function stops at the first directory. *)
  Theorem library_use_refuted types d : base = None -> temps <> [] -> comps <> [] ->
    (forall ty n, In (ty, n) types -> exists r, rget d ty = Some r /\ ratio_ok n r) ->
    generate ut uc fails base model temps comps types d = Err NameError.
  Proof.
    intros -> T C RA. unfold generate. rewrite (proj2 (ratios_accepted types d d) (conj eq_refl RA)). cbn [rbind].
    destruct temps as [|t ts]; [congruence|]. destruct comps as [|c cs]; [congruence|]. reflexivity.
  Qed.
End Generated.

(** Values a hundredth apart have distinct names. *)
Lemma hund_separated x y : x + 1 / 100 <= y -> (hund x < hund y)%Z.
Proof.
  intros H. unfold hund. destruct (base_Int_part (100 * x + 1 / 2)) as [A B], (base_Int_part (100 * y + 1 / 2)) as [C D].
  apply lt_IZR. 
  assert (Q : IZR (Int_part (100 * x + 1 / 2)) + 1 - 1 < IZR (Int_part (100 * y + 1 / 2)) + 1 - 1 + 0 \/
              IZR (Int_part (100 * y + 1 / 2)) <= IZR (Int_part (100 * x + 1 / 2))) by lra.
  destruct Q as [Q|Q]; [lra|]. exfalso. apply le_IZR in Q.
  assert (IZR (Int_part (100 * x + 1 / 2)) + 1 <= 100 * y + 1 / 2) by lra.
  rewrite <- plus_IZR in H0. assert (IZR (Int_part (100 * x + 1 / 2) + 1) < IZR (Int_part (100 * y + 1 / 2)) + 1) by lra.
  rewrite <- plus_IZR in H1. apply lt_IZR in H1. lia.
Qed.
Theorem separated_names l : (forall i j, (i < j)%nat -> (j < length l)%nat -> nth i l 0 + 1 / 100 <= nth j l 0) -> distinct_names l.
Proof.
  intros H. unfold distinct_names. apply (NoDup_nth _ (hund 0)). rewrite map_length. intros i j Hi Hj E.
  rewrite !map_nth in E. destruct (Nat.lt_trichotomy i j) as [L|[L|L]]; auto; exfalso.
  - pose proof (hund_separated _ _ (H i j L Hj)). lia.
  - pose proof (hund_separated _ _ (H j i L Hi)). lia.
Qed.

(** ** Files *)
Lemma strip_prefix_app p s : strip_prefix p (p ++ s)%string = Some s.
Proof. induction p as [|a p IH]; cbn [append strip_prefix]; auto. now rewrite Ascii.eqb_refl. Qed.
Lemma md_str_assoc a b c : ((a ++ b) ++ c = a ++ (b ++ c))%string.
Proof. induction a as [|x a IH]; cbn [append]; congruence. Qed.
Lemma skip_all s c t : all_digits s = true -> is_digit c = false -> skip_digits (s ++ String c t)%string = String c t.
Proof.
  induction s as [|x s IH]; cbn [append skip_digits all_digits]; intros A B; [now rewrite B|].
  apply andb_true_iff in A as [A1 A2]. rewrite A1. auto.
Qed.
Lemma data_file_matches base l : match_file base (data_file base l) = true.
Proof.
  unfold match_file, data_file. rewrite <- md_str_assoc, strip_prefix_app.
  pose proof (nat_str_digits (length l)) as D. pose proof (nat_str_nonempty (length l)) as N.
  destruct (nat_str (length l)) as [|c t]; [congruence|]. cbn [append all_digits] in *.
  apply andb_true_iff in D as [D1 D2]. rewrite D1, skip_all by (auto; reflexivity). reflexivity.
Qed.

Definition known_type (ty : string) : Prop := In ty ["training"; "validation"; "testing_id"]%string.
Lemma known_prefix a b : known_type a -> known_type b ->
  starts_with (a ++ "_dataset") (b ++ "_dataset") = String.eqb a b.
Proof. intros [<-|[<-|[<-|[]]]] [<-|[<-|[<-|[]]]]; reflexivity. Qed.

(** The data sets of a type in a directory of a pair. *)
Definition sets_of (ty : string) (d : list (string * list msample)) : list (list msample) :=
  map snd (filter (fun e => String.eqb (fst e) (ty ++ "_dataset")) d).
Definition known_dirs (d : list (string * list msample)) : Prop :=
  forall e, In e d -> exists ty, known_type ty /\ fst e = (ty ++ "_dataset")%string.
Lemma dataset_name_inj a b : (a ++ "_dataset" = b ++ "_dataset")%string -> a = b.
Proof.
  revert b. induction a as [|x a IH]; intros [|y b] H; auto.
  - exfalso. apply (f_equal String.length) in H. cbn [append String.length] in H.
    assert (L : forall s, String.length (s ++ "_dataset") = (String.length s + 8)%nat).
    { clear. induction s; cbn [append String.length]; lia. }
    rewrite L in H. cbn in H. lia.
  - exfalso. apply (f_equal String.length) in H. cbn [append String.length] in H.
    assert (L : forall s, String.length (s ++ "_dataset") = (String.length s + 8)%nat).
    { clear. induction s; cbn [append String.length]; lia. }
    rewrite L in H. cbn in H. lia.
  - cbn [append] in H. injection H as -> H. f_equal. auto.
Qed.
Theorem collect_exact base ty tr : known_type ty -> (forall k d, In (k, d) tr -> known_dirs d) ->
  collect base ty (dirs_of base tr) = flat_map (fun kd => sets_of ty (snd kd)) tr.
Proof.
  intros K H. unfold collect, dirs_of. induction tr as [|(k, d) tr IH]; auto. cbn [flat_map snd].
  rewrite flat_map_app, IH by (intros; eapply H; right; eauto). f_equal.
  assert (D : known_dirs d) by (eapply H; now left). clear - K D. unfold sets_of.
  induction d as [|e d IH]; auto. cbn [map flat_map filter fst snd].
  destruct (D e (or_introl eq_refl)) as (b & Kb & E).
  rewrite IH by (intros x X; apply D; now right). rewrite E, known_prefix by auto.
  destruct (String.eqb_spec ty b) as [->|N].
  - rewrite data_file_matches, String.eqb_refl. reflexivity.
  - destruct (String.eqb_spec (b ++ "_dataset") (ty ++ "_dataset")) as [Q|Q]; [apply dataset_name_inj in Q; congruence|reflexivity].
Qed.

(** ** Fractions *)
Theorem kept_law f n : 0 <= f <= 1 -> INR (kept (Some f) n) <= INR n * f < INR (kept (Some f) n) + 1.
Proof.
  intros H. unfold kept. rewrite (proj2 (rleb_iff 0 f)), (proj2 (rleb_iff f 1)) by lra. cbn [andb].
  assert (P : 0 <= INR n * f) by (apply Rmult_le_pos; [apply pos_INR|lra]).
  pose proof (ztrunc_nonneg _ P) as Q. rewrite INR_IZR_INZ, Z2Nat.id; auto.
  assert (T : IZR (-1) < IZR (ztrunc (INR n * f))) by lra. apply lt_IZR in T. lia.
Qed.
Lemma ztrunc_one n : Z.to_nat (ztrunc (INR n * 1)) = n.
Proof.
  rewrite Rmult_1_r. replace (ztrunc (INR n)) with (Z.of_nat n); [apply Nat2Z.id|]. symmetry.
  unfold ztrunc. pose proof (pos_INR n). destruct (Rlt_dec (INR n) 0); [lra|]. apply int_part_is. rewrite <- INR_IZR_INZ. lra.
Qed.
Theorem kept_all frac n : (forall f, frac = Some f -> f < 0 \/ 1 <= f) -> kept frac n = n.
Proof.
  intros H. unfold kept. destruct frac as [f|]; [|apply ztrunc_one].
  destruct (rleb 0 f) eqn:A; [|apply ztrunc_one]. destruct (rleb f 1) eqn:B; [|apply ztrunc_one].
  apply rleb_iff in A, B. destruct (H f eq_refl); [lra|]. replace f with 1 by lra. apply ztrunc_one.
Qed.
Lemma kept_le frac n : (kept frac n <= n)%nat.
Proof.
  destruct frac as [f|]; [|rewrite kept_all by discriminate; lia].
  destruct (Rlt_le_dec f 0) as [L|L]; [rewrite kept_all; [lia|intros g E; injection E as <-; lra]|].
  destruct (Rlt_le_dec 1 f) as [U|U]; [rewrite kept_all; [lia|intros g E; injection E as <-; lra]|].
  pose proof (kept_law f n (conj L U)) as [K _]. apply INR_le. pose proof (pos_INR n). nra.
Qed.

(** ** Assembly *)
Section Assembled.
  Variable pick : nat -> list msample -> list msample.
  Variable shuffle : list msample -> list msample.
  Hypothesis PICK : forall k l, (k <= length l)%nat -> length (pick k l) = k /\ exists rest, Permutation (pick k l ++ rest) l.
  Hypothesis SHUF : forall l, Permutation (shuffle l) l.
  Variable base : string.
  Variable dirs : list sdir.
  Variable reduction : list (string * option R).

  Definition dir_of (ty : string) : string :=
    if String.eqb ty "training" then "1_training_dataset"
    else if String.eqb ty "validation" then "2_validation_dataset" else "5_testing_id_dataset".
  Lemma target_known ty prev : known_type ty -> target_dir ty prev = Some (dir_of ty).
  Proof. intros [<-|[<-|[<-|[]]]]; reflexivity. Qed.
  Lemma dir_of_inj a b : known_type a -> known_type b -> dir_of a = dir_of b -> a = b.
  Proof. intros [<-|[<-|[<-|[]]]] [<-|[<-|[<-|[]]]]; cbn; intros H; auto; discriminate. Qed.

  (** Each known type is saved in its own directory with the reduced data sets of
      all the files found, in some order. *)
  Theorem assembled_sets types : NoDup types -> (forall ty, In ty types -> known_type ty) ->
    forall out, assemble pick shuffle base dirs reduction types = Ok out ->
    forall ty, In ty types ->
      exists data, gget String.eqb out (dir_of ty) = Some data /\
        Permutation data (concat (map (reduce pick reduction ty) (collect base ty dirs))).
  Proof.
    unfold assemble.
    assert (G : forall types prev acc out, NoDup types -> (forall ty, In ty types -> known_type ty) ->
      assemble_from pick shuffle base dirs reduction prev acc types = Ok out ->
      (forall ty, In ty types -> exists data, gget String.eqb out (dir_of ty) = Some data /\
        Permutation data (concat (map (reduce pick reduction ty) (collect base ty dirs)))) /\
      (forall ty, known_type ty -> ~ In ty types -> gget String.eqb out (dir_of ty) = gget String.eqb acc (dir_of ty))).
    { induction types0 as [|a t IH]; intros prev acc out N K E; cbn [assemble_from] in E.
      { injection E as <-. split; [intros ty []|auto]. }
      cbv zeta in E. destruct (map _ (collect base a dirs)) as [|x xs] eqn:M; [discriminate|].
      rewrite target_known in E by (apply K; now left). apply NoDup_cons_iff in N as [N1 N2].
      destruct (IH _ _ _ N2 (fun ty T => K ty (or_intror T)) E) as (I1 & I2). split.
      - intros ty [<-|T]; [|auto]. rewrite I2 by (auto; apply K; now left).
        rewrite (gget_gset_same String.eqb String.eqb_eq). eexists. split; [reflexivity|]. rewrite M. apply SHUF.
      - intros ty T Q. rewrite I2 by (auto; intros X; apply Q; now right).
        apply (gget_gset_other String.eqb String.eqb_eq). intros X. apply Q. left. apply dir_of_inj; auto. apply K. now left. }
    intros N K out E ty T. apply (G types None [] out N K E). exact T.
  Qed.

  Lemma reduce_len ty l : length (reduce pick reduction ty l)
    = match gget String.eqb reduction ty with None => length l | Some f => kept f (length l) end.
  Proof. unfold reduce. destruct (gget _ _ _); auto. apply PICK, kept_le. Qed.
  Lemma reduce_sub ty l : exists rest, Permutation (reduce pick reduction ty l ++ rest) l.
  Proof.
    unfold reduce. destruct (gget _ _ _); [apply PICK, kept_le|]. exists []. now rewrite app_nil_r.
  Qed.
  (** Reduction keeps samples of the files, each at most once. *)
  Theorem reduced_samples ty sets : exists rest,
    Permutation (concat (map (reduce pick reduction ty) sets) ++ rest) (concat sets).
  Proof.
    induction sets as [|l sets (r2 & IH)]; cbn [map concat]; [exists []; reflexivity|].
    destruct (reduce_sub ty l) as (r1 & H). exists (r1 ++ r2).
    apply Permutation_trans with ((reduce pick reduction ty l ++ r1) ++ (concat (map (reduce pick reduction ty) sets) ++ r2));
      [|now apply Permutation_app].
    rewrite <- !app_assoc. apply Permutation_app_head.
    rewrite !app_assoc. apply Permutation_app_tail. apply Permutation_app_comm.
  Qed.
  Lemma reduced_len ty n sets : (forall l, In l sets -> length l = n) ->
    length (concat (map (reduce pick reduction ty) sets))
    = (length sets * match gget String.eqb reduction ty with None => n | Some f => kept f n end)%nat.
  Proof.
    induction sets as [|l sets IH]; intros H; cbn [map concat length]; auto.
    rewrite app_length, IH, reduce_len by (intros; apply H; now right).
    rewrite (H l (or_introl eq_refl)). lia.
  Qed.
End Assembled.

(** ** The whole pipeline *)
Section Pipeline.
  Variable ut uc : nat -> string -> nat -> R.
  Variable fails : nat -> string -> nat -> nat -> bool.
  Variable model : string.
  Variable temps comps : list R.
  Hypothesis UT : forall k ty i, 0 <= ut k ty i <= 1.
  Hypothesis UC : forall k ty i, 0 <= uc k ty i <= 1.
  Variable pick : nat -> list msample -> list msample.
  Variable shuffle : list msample -> list msample.
  Hypothesis PICK : forall k l, (k <= length l)%nat -> length (pick k l) = k /\ exists rest, Permutation (pick k l ++ rest) l.
  Hypothesis SHUF : forall l, Permutation (shuffle l) l.

  Lemma gen_pair_dirs d types kp kd : (forall ty n, In (ty, n) types -> known_type ty) -> NoDup (map fst types) ->
    gen_pair ut uc fails (Some true) model temps comps d types kp = Ok kd ->
    known_dirs (snd kd) /\ forall ty n, In (ty, n) types -> exists l, sets_of ty (snd kd) = [l] /\ length l = n.
  Proof.
    destruct kp as (k, (t, c)). intros K N H. unfold gen_pair in H.
    destruct (rmap _ types) as [sets|] eqn:E; cbn [rbind] in H; [|discriminate]. injection H as <-. cbn [snd].
    apply rmap_ok in E.
    assert (G : Forall2 (fun tn e => fst e = (fst tn ++ "_dataset")%string /\ length (snd e) = snd tn) types sets).
    { clear - E. induction E as [|(ty, n) e ts es H _ IH]; constructor; auto. unfold gen_type in H. cbn [fst snd] in *.
      destruct (rmap _ (seq 0 n)) as [l|] eqn:Q; cbn [rbind] in H; [|discriminate]. injection H as <-. cbn [fst snd]. split; auto.
      apply rmap_ok, md_len in Q. rewrite seq_length in Q. auto. }
    clear E. split.
    - clear N. induction G as [|(ty, n) e ts es [H _] _ IH]; intros x X; [destruct X|]. destruct X as [<-|X].
      + exists ty. split; [eapply K; now left|exact H].
      + apply IH; auto. intros; eapply K; right; eauto.
    - intros ty n T. unfold sets_of.
      assert (Z : forall ts es, Forall2 (fun tn (e : string * list msample) => fst e = (fst tn ++ "_dataset")%string /\ length (snd e) = snd tn) ts es ->
        ~ In ty (map fst ts) -> filter (fun e => String.eqb (fst e) (ty ++ "_dataset")) es = []).
      { clear. induction 1 as [|(b, m) e ts es [H _] _ IH]; intros Q; auto. cbn [filter map fst In] in *. rewrite H.
        destruct (String.eqb_spec (b ++ "_dataset") (ty ++ "_dataset")) as [X|X]; [apply dataset_name_inj in X; tauto|]. apply IH. tauto. }
      revert T. induction G as [|(b, m) e ts es [H L] G IH]; intros T; [destruct T|].
      cbn [map fst] in N. apply NoDup_cons_iff in N as [N1 N2]. cbn [filter fst snd] in *. rewrite H.
      destruct T as [T|T].
      + injection T as -> ->. rewrite String.eqb_refl. cbn [map]. rewrite (Z _ _ G N1). exists (snd e). split; auto.
      + destruct (String.eqb_spec (b ++ "_dataset") (ty ++ "_dataset")) as [X|X].
        * apply dataset_name_inj in X. subst. exfalso. apply N1. apply (in_map fst) in T. exact T.
        * apply IH; auto. intros; eapply K; right; eauto.
  Qed.

  (** Generated and assembled, every type has the previewed number of samples
      (or the kept fraction of every file), none twice. *)
  Theorem pipeline_sizes types d tr base out reduction tys ty n :
    distinct_names temps -> distinct_names comps ->
    (forall ty n, In (ty, n) types -> known_type ty) -> NoDup (map fst types) ->
    generate ut uc fails (Some true) model temps comps types d = Ok tr ->
    NoDup tys -> (forall ty, In ty tys -> In ty (map fst types)) ->
    assemble pick shuffle base (dirs_of base tr) reduction tys = Ok out ->
    In ty tys -> In (ty, n) types ->
    exists data rest, gget String.eqb out (dir_of ty) = Some data /\
      Permutation (data ++ rest) (concat (flat_map (fun kd => sets_of ty (snd kd)) tr)) /\
      length data = preview_size temps comps (match gget String.eqb reduction ty with None => n | Some f => kept f n end).
  Proof.
    intros Dt Dc K N G NT IT A T TN.
    destruct (generate_all _ _ _ _ _ _ _ _ _ _ Dt Dc G) as (F & _).
    assert (KT : forall x, In x tys -> known_type x).
    { intros x X. apply IT, in_map_iff in X as ((a, b) & E & X). cbn in E. subst. eapply K. eauto. }
    destruct (assembled_sets pick shuffle SHUF base (dirs_of base tr) reduction tys NT KT out A ty T) as (data & D1 & D2).
    assert (KD : forall k dd, In (k, dd) tr -> known_dirs dd).
    { intros k dd Q. clear - F Q K N. induction F as [|kp kd a b H _ IH]; [destruct Q|].
      destruct Q as [->|Q]; [apply (gen_pair_dirs d types kp (k, dd)); auto|auto]. }
    rewrite collect_exact in D2 by auto. set (sets := flat_map (fun kd => sets_of ty (snd kd)) tr) in *.
    assert (LS : length sets = (length temps * length comps)%nat /\ forall l, In l sets -> length l = n).
    { assert (LP : length (enumerate (list_prod temps comps)) = (length temps * length comps)%nat).
      { unfold enumerate. rewrite combine_length, seq_length, prod_length. lia. }
      rewrite <- LP. unfold sets. clear - F K N TN. induction F as [|kp kd a b H _ IH]; cbn [flat_map length].
      { split; [reflexivity|intros l []]. }
      destruct (gen_pair_dirs d types kp kd K N H) as (_ & S). destruct (S ty n TN) as (l & S1 & S2).
      rewrite S1. cbn [app length]. destruct IH as (I1 & I2). split; [now rewrite I1|]. intros x [<-|X]; auto. }
    destruct LS as (L1 & L2).
    destruct (reduced_samples pick PICK reduction ty sets) as (rest & RS).
    exists data, rest. split; auto. split.
    - rewrite <- RS. apply Permutation_app_tail. exact D2.
    - rewrite (Permutation_length D2), (reduced_len pick PICK reduction ty n sets L2), L1. reflexivity.
  Qed.
End Pipeline.

(** ** Claims that fail *)
(** Grid values that agree to two decimals share a directory: the data sets of
    the earlier one are lost. *)
Definition close_comps : list R := [121 / 1000; 124 / 1000].
Definition two_types : list (string * nat) := [("training"%string, 2%nat)].
Theorem close_values_refuted : increasing close_comps /\
  exists tr, generate (fun _ _ _ => 0) (fun _ _ _ => 0) (fun _ _ _ _ => false) (Some true) "von_mises" [100] close_comps
    two_types [("training"%string, 1 / 2)] = Ok tr /\
  (length tr < length [100] * length close_comps)%nat.
Proof.
  split.
  { intros i j H1 H2. unfold close_comps in *. simpl in H2. destruct j as [|[|j]]; try lia. destruct i; [|lia]. simpl. lra. }
  destruct (generate_succeeds (fun _ _ _ => 0) (fun _ _ _ => 0) (fun _ _ _ _ => false) (Some true) "von_mises" [100] close_comps) with
    (types := two_types) (d := [("training"%string, 1 / 2)]) as (tr & E); auto; try (intros; lra).
  - intros y [<-|[]]. lra.
  - intros y [<-|[<-|[]]]; lra.
  - intros ty n [Q|[]]. injection Q as <- <-. exists (1 / 2). split; [reflexivity|]. unfold ratio_ok. simpl. lra.
  - intros. exists 1%nat. split; [lia|reflexivity].
  - exists tr. split; auto. apply generate_inv in E as (_ & l & E & ->).
    pose proof (store_nodup l) as ND. pose proof (store_keys l) as SK.
    rewrite (gen_pairs_keys _ _ _ _ _ _ _ _ _ _ _ E), enum_snd in SK.
    assert (H1 : hund (121 / 1000) = 12%Z) by (apply int_part_is; lra).
    assert (H2 : hund (124 / 1000) = 12%Z) by (apply int_part_is; lra).
    cbn [list_prod close_comps map app fst snd] in SK. rewrite H1, H2 in SK.
    assert (L : (length (map fst (store_pairs l)) <= length [(hund 100, 12%Z)])%nat).
    { apply NoDup_incl_length; auto. intros x X. apply SK in X. destruct X as [<-|[<-|[]]]; now left. }
    rewrite map_length in L. cbn [length close_comps Nat.mul] in *. lia.
Qed.
(** An unknown type is refused when it comes first, and otherwise replaces the
    data set of the type before it. *)
Theorem unknown_type_first_refuted pick shuffle base dirs reduction ty t : ~ known_type ty ->
  collect base ty dirs <> [] -> assemble pick shuffle base dirs reduction (ty :: t) = Err NameError.
Proof.
  intros K C. unfold assemble. cbn [assemble_from]. cbv zeta.
  destruct (collect base ty dirs) as [|x xs]; [congruence|]. cbn [map]. unfold target_dir.
  destruct (String.eqb_spec ty "training") as [->|]; [exfalso; apply K; now left|].
  destruct (String.eqb_spec ty "validation") as [->|]; [exfalso; apply K; right; now left|].
  destruct (String.eqb_spec ty "testing_id") as [->|]; [exfalso; apply K; right; right; now left|]. reflexivity.
Qed.
Definition s_a : msample := {| ms_kind := RandomPath; ms_temp := 100; ms_comp := 0 |}.
Definition s_b : msample := {| ms_kind := ProportionalPath; ms_temp := 200; ms_comp := 1 |}.
Theorem unknown_type_overwrites_refuted : exists dirs out,
  collect "d" "training" dirs = [[s_a]] /\
  assemble (fun _ l => l) (fun l => l) "d" dirs [] ["training"; "testing_ood"]%string = Ok out /\
  gget String.eqb out "1_training_dataset"%string = Some [s_b] /\ length out = 1%nat.
Proof.
  exists [("training_dataset"%string, [("d_n1.pkl"%string, [s_a])]); ("testing_ood_dataset"%string, [("d_n1.pkl"%string, [s_b])])].
  eexists. split; [reflexivity|]. split; [reflexivity|]. split; reflexivity.
Qed.
(** The end of the file name is free: a backup copy doubles the samples. *)
Theorem backup_copy_refuted : exists dirs, collect "d" "training" dirs = [[s_a]; [s_a]] /\
  map fst (flat_map snd dirs) = ["d_n1.pkl"; "d_n1.pkl.bak"]%string.
Proof. exists [("training_dataset"%string, [("d_n1.pkl", [s_a]); ("d_n1.pkl.bak", [s_a])]%string)]. split; reflexivity. Qed.
(** A fraction given as the integer zero keeps everything. *)
Theorem integer_fraction_refuted n : kept None n = n /\ kept (Some 0) n = 0%nat.
Proof.
  split; [apply kept_all; discriminate|]. pose proof (kept_law 0 n ltac:(lra)) as [A _].
  rewrite Rmult_0_r in A. apply INR_le in A || idtac. destruct (kept (Some 0) n); auto. exfalso.
  pose proof (lt_0_INR (S n0) ltac:(lia)). lra.
Qed.

(** ** Cases *)
Example ex_ratio_half : ratio_ok 20 (3 / 4).
Proof. unfold ratio_ok. simpl. lra. Qed.
Example ex_trials : trial_loop 11 0 (fun m => Nat.ltb m 4) = Ok 4%nat /\ trial_loop 11 0 (fun m => Nat.ltb m 11) = Err RuntimeError.
Proof. split; reflexivity. Qed.
Example ex_collect : collect "d" "validation" [("validation_dataset"%string, [("d_n2.pkl"%string, [s_a; s_b]); ("plots"%string, [])]);
  ("training_dataset"%string, [("d_n1.pkl"%string, [s_b])])] = [[s_a; s_b]].
Proof. reflexivity. Qed.
Example ex_fraction : kept (Some (1 / 2)) 5 = 2%nat.
Proof.
  pose proof (kept_law (1 / 2) 5 ltac:(lra)) as [A B]. replace (INR 5) with 5 in * by (simpl; lra).
  set (k := kept (Some (1 / 2)) 5) in *.
  assert (U : INR k < INR 3) by (simpl; lra). assert (L : INR 1 < INR k) by (simpl; lra).
  apply INR_lt in U, L. lia.
Qed.

Print Assumptions generated_sets.
Print Assumptions generate_succeeds.
Print Assumptions ten_failures_refused.
Print Assumptions pipeline_sizes.
Print Assumptions close_values_refuted.
Print Assumptions unknown_type_overwrites_refuted.
