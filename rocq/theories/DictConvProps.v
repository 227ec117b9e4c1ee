(** C35: conversion of nested dictionaries. *)
From Coq Require Import String List Bool Arith Lia.
From Verif Require Import Lib PyDict DictConvModel DictConvSpec.
Import ListNotations.
Local Open Scope list_scope.

Section Props.
  Context {P N O : Type} (cast : dtype -> dtype -> P -> P) (of_num : N -> dtype * P).
  Notation heap := (heap P N O).
  Notation value := (value P N O).
  Notation leaf := (leaf P N O).
  Variable target : dtype.
  Notation conv := (conv_leaf (N := N) (O := O) cast target).
  Implicit Types h : heap.

  Lemma conv_idem (x : leaf) : conv (conv x) = conv x.
  Proof.
    destruct x as [d p|n|o]; cbn; auto. destruct (is_floating d) eqn:F; cbn; [|rewrite F; auto].
    unfold to_dtype. destruct (dtype_eqb d target) eqn:E; cbn; [rewrite F; unfold to_dtype; rewrite E; auto|].
    destruct (is_floating target); auto. unfold to_dtype. destruct target; auto.
  Qed.
  (** The leaf conversion does what it is for. *)
  Theorem conv_leaf_wanted (x : leaf) : wants cast target x (conv x).
  Proof.
    destruct x as [d p|n|o]; [|reflexivity|reflexivity]. unfold conv_leaf, to_dtype.
    destruct d; cbn [is_floating wants]; try reflexivity; destruct target; cbn; (split; [reflexivity|split; [congruence|intros d E D; try congruence; injection E as <-; congruence]]).
  Qed.

  Definition cval (v : value) : value := match v with VDict m => VDict m | VLeaf x => VLeaf (conv x) end.
  Lemma cval_idem v : cval (cval v) = cval v.
  Proof. destruct v; cbn; auto. rewrite conv_idem; auto. Qed.

  Definition between (h0 h : heap) : Prop :=
    forall l, dkeys (mem h l) = dkeys (mem h0 l) /\
      forall k, dget (mem h l) k = dget (mem h0 l) k \/ dget (mem h l) k = option_map cval (dget (mem h0 l) k).
  Definition converted (h0 h : heap) (l : nat) : Prop :=
    dkeys (mem h l) = dkeys (mem h0 l) /\ forall k, dget (mem h l) k = option_map cval (dget (mem h0 l) k).
  Lemma between_refl h : between h h.
  Proof. split; auto. Qed.
  Lemma between_trans a b c : between a b -> between b c -> between a c.
  Proof.
    intros H1 H2 l. destruct (H1 l) as (K1 & D1), (H2 l) as (K2 & D2). split; [congruence|]. intros k.
    destruct (D1 k) as [E1|E1], (D2 k) as [E2|E2]; rewrite E2, E1; auto.
    right. destruct (dget (mem a l) k); cbn; auto. rewrite cval_idem; auto.
  Qed.
  Lemma between_edge h0 h l k m : between h0 h -> (dget (mem h l) k = Some (VDict m) <-> dget (mem h0 l) k = Some (VDict m)).
  Proof.
    intros B. destruct (B l) as (_ & D). destruct (D k) as [->| ->]; [tauto|].
    destruct (dget (mem h0 l) k) as [[m'|x]|]; cbn; split; congruence.
  Qed.
  Lemma between_reach h0 h a b : between h0 h -> (reach h a b <-> reach h0 a b).
  Proof.
    intros B. split; induction 1 as [|l k m n E R IH]; try constructor.
    - eapply reach_step; [apply (between_edge h0 h l k m B); eauto|auto].
    - eapply reach_step; [apply (between_edge h0 h l k m B); eauto|auto].
  Qed.
  Lemma converted_stable h0 h1 h2 l : converted h0 h1 l -> between h1 h2 -> converted h0 h2 l.
  Proof.
    intros (K & D) B. destruct (B l) as (K2 & D2). split; [congruence|]. intros k.
    destruct (D2 k) as [-> | ->]; rewrite D; auto. destruct (dget (mem h0 l) k); cbn; auto. rewrite cval_idem; auto.
  Qed.
  Lemma converted_pre h0 h1 h2 l : between h0 h1 -> converted h1 h2 l -> converted h0 h2 l.
  Proof.
    intros B (K & D). destruct (B l) as (K1 & D1). split; [congruence|]. intros k. rewrite D.
    destruct (D1 k) as [-> | ->]; auto. destruct (dget (mem h0 l) k); cbn; auto. rewrite cval_idem; auto.
  Qed.

  Lemma mem_hset_same h l k v : mem (hset h l k v) l = dset (mem h l) k v.
  Proof. cbn. rewrite Nat.eqb_refl. auto. Qed.
  Lemma mem_hset_other h l l' k v : l <> l' -> mem (hset h l k v) l' = mem h l'.
  Proof. intros E. cbn. destruct (Nat.eqb_spec l' l); congruence. Qed.
  Lemma dkeys_dset_mem {A} (d : dict A) k v : In k (dkeys d) -> dkeys (dset d k v) = dkeys d.
  Proof. apply gkeys_gset_mem, String.eqb_eq. Qed.

  (** assigning a converted value under an existing key *)
  Lemma between_hset h l k v w : dget (mem h l) k = Some v -> w = v \/ w = cval v -> between h (hset h l k w).
  Proof.
    intros G W l'. destruct (Nat.eq_dec l l') as [<-|Ne]; [|rewrite mem_hset_other by auto; auto].
    rewrite mem_hset_same. split; [apply dkeys_dset_mem; eapply dget_key; eauto|]. intros k'.
    destruct (string_dec k k') as [<-|Nk]; [|rewrite dget_dset_other by auto; auto].
    rewrite dget_dset_same, G. cbn. destruct W as [->| ->]; auto.
  Qed.

  Definition rec_ok (rec : heap -> nat -> heap * res unit) : Prop :=
    forall h m h', rec h m = (h', Ok tt) -> next h' = next h /\ between h h' /\
      (forall l', reach h m l' -> converted h h' l') /\ (forall l', ~ reach h m l' -> mem h' l' = mem h l').

  Lemma conv_items_spec rec : rec_ok rec -> forall l ks h h',
    conv_items cast rec target l ks h = (h', Ok tt) -> (forall k, In k ks -> In k (dkeys (mem h l))) ->
    next h' = next h /\ between h h' /\
    (forall k, In k ks -> dget (mem h' l) k = option_map cval (dget (mem h l) k)) /\
    (forall k m l', In k ks -> dget (mem h l) k = Some (VDict m) -> reach h m l' -> converted h h' l') /\
    (forall l', ~ reach h l l' -> mem h' l' = mem h l').
  Proof.
    intros RO l ks. induction ks as [|k ks IH]; intros h h' E K; cbn [conv_items] in E.
    { injection E as <-. split; [auto|]. split; [apply between_refl|]. split; [intros k []|]. split; [intros k m l' []|auto]. }
    destruct (dget_some_in (mem h l) k) as (v & Gv); [apply K; left; auto|]. rewrite Gv in E.
    (* the state after this key *)
    assert (ST : exists h1, conv_items cast rec target l ks h1 = (h', Ok tt) /\ next h1 = next h /\ between h h1 /\
       dget (mem h1 l) k = Some (cval v) /\
       (forall m l', v = VDict m -> reach h m l' -> converted h h1 l') /\
       (forall l', ~ reach h l l' -> mem h1 l' = mem h l')).
    { destruct v as [m|x].
      - destruct (rec h m) as [h1 [[]|ex]] eqn:R; [|discriminate].
        destruct (RO h m h1 R) as (N1 & B1 & C1 & U1).
        assert (G1 : dget (mem h1 l) k = Some (VDict m)) by (apply (between_edge h h1 l k m B1); auto).
        pose proof (between_hset h1 l k (VDict m) (VDict m) G1 (or_introl eq_refl)) as B2.
        exists (hset h1 l k (VDict m)). split; [auto|]. split; [auto|]. split; [eapply between_trans; eauto|].
        split; [rewrite mem_hset_same, dget_dset_same; auto|]. split.
        + intros m' l' Q R'. injection Q as <-. eapply converted_stable; eauto.
        + intros l' NR. rewrite mem_hset_other; [apply U1|].
          * intros R'. apply NR. eapply reach_step; eauto.
          * intros <-. apply NR. constructor.
      - exists (hset h l k (VLeaf (conv x))). split; [auto|]. split; [auto|].
        split; [apply (between_hset h l k (VLeaf x)); auto|].
        split; [rewrite mem_hset_same, dget_dset_same; auto|]. split; [discriminate|].
        intros l' NR. apply mem_hset_other. intros <-. apply NR. constructor. }
    destruct ST as (h1 & E1 & N1 & B1 & G1 & C1 & U1).
    destruct (IH h1 h' E1) as (N2 & B2 & D2 & C2 & U2).
    { intros k' Hk. destruct (B1 l) as (-> & _). apply K. right; auto. }
    split; [congruence|]. split; [eapply between_trans; eauto|]. split; [|split].
    - intros k' [<-|Hk].
      + destruct (B2 l) as (_ & D). rewrite Gv. cbn. destruct (D k) as [-> | ->]; rewrite G1; cbn; rewrite ?cval_idem; auto.
      + rewrite D2 by auto. destruct (B1 l) as (_ & D). destruct (D k') as [-> | ->]; auto.
        destruct (dget (mem h l) k'); cbn; rewrite ?cval_idem; auto.
    - intros k' m l' [<-|Hk] Gm R.
      + eapply converted_stable; [|exact B2]. apply (C1 m l'); [congruence|auto].
      + eapply converted_pre; [exact B1|]. apply (C2 k' m l' Hk).
        * apply (between_edge h h1 l k' m B1); auto.
        * apply (between_reach h h1 m l' B1); auto.
    - intros l' NR. rewrite U2; [apply U1; auto|]. intros R. apply NR. apply (between_reach h h1 l l' B1); auto.
  Qed.

  Lemma inplace_ok fuel : rec_ok (fun h m => convert_inplace cast fuel target h m).
  Proof.
    induction fuel as [|n IH]; intros h l h' E; cbn [convert_inplace] in E; [discriminate|].
    destruct (conv_items_spec _ IH l (dkeys (mem h l)) h h' E (fun k H => H)) as (Nx & B & D & C & U).
    split; [auto|]. split; [auto|]. split; [|auto]. intros l' R. inversion R as [|? k m ? G R']; subst.
    - destruct (B l') as (K & _). split; auto. intros k.
      destruct (dget (mem h l') k) eqn:G; cbn.
      + rewrite D by (eapply dget_key; eauto). rewrite G; auto.
      + apply dget_none. rewrite K. apply dget_none. auto.
    - eapply C; eauto. eapply dget_key; eauto.
  Qed.

  Lemma converted_mapped h0 h l : converted h0 h l -> leaves_mapped conv (mem h0 l) (mem h l).
  Proof. intros (K & D). split; auto. intros k. rewrite D. destruct (dget (mem h0 l) k) as [[m|x]|]; auto. Qed.

  (** In place: the argument is returned, every dictionary reachable from it
      is converted, no other dictionary changes; for all heaps, including
      shared sub-dictionaries. *)
  Theorem convert_inplace_effect fuel h l h' r : convert_dict cast fuel target h l true = (h', Ok r) ->
    r = l /\
    (forall l', reach h l l' -> leaves_mapped conv (mem h l') (mem h' l')) /\
    (forall l', ~ reach h l l' -> mem h' l' = mem h l').
  Proof.
    destruct fuel as [|n]; cbn [convert_dict]; [discriminate|].
    destruct (convert_inplace cast (S n) target h l) as [h1 [[]|e]] eqn:E; cbn [rbind]; [|discriminate].
    intros Q. injection Q as <- <-. destruct (inplace_ok (S n) h l h1 E) as (_ & _ & C & U).
    split; [auto|]. split; auto. intros l' R. apply converted_mapped. auto.
  Qed.

  (** Without is_inplace: the loop fills the new dictionary [new], which
      nothing refers to. *)
  Definition near (h0 h : heap) (a : nat) : Prop :=
    dkeys (mem h a) = dkeys (mem h0 a) /\
    forall k, dget (mem h a) k = dget (mem h0 a) k \/ dget (mem h a) k = option_map cval (dget (mem h0 a) k).
  Lemma near_trans a b c x : near a b x -> near b c x -> near a c x.
  Proof.
    intros (K1 & D1) (K2 & D2). split; [congruence|]. intros k.
    destruct (D1 k) as [E1|E1], (D2 k) as [E2|E2]; rewrite E2, E1; auto.
    right. destruct (dget (mem a x) k); cbn; auto. rewrite cval_idem; auto.
  Qed.
  Lemma near_converted a b c x : converted a b x -> near b c x -> converted a c x.
  Proof.
    intros (K & D) (K2 & D2). split; [congruence|]. intros k. destruct (D2 k) as [-> | ->]; rewrite D; auto.
    destruct (dget (mem a x) k); cbn; auto. rewrite cval_idem; auto.
  Qed.
  Lemma converted_near a b c x : near a b x -> converted b c x -> converted a c x.
  Proof.
    intros (K1 & D1) (K & D). split; [congruence|]. intros k. rewrite D.
    destruct (D1 k) as [-> | ->]; auto. destruct (dget (mem a x) k); cbn; auto. rewrite cval_idem; auto.
  Qed.
  Lemma near_edge h0 h a k m : near h0 h a -> (dget (mem h a) k = Some (VDict m) <-> dget (mem h0 a) k = Some (VDict m)).
  Proof.
    intros (_ & D). destruct (D k) as [-> | ->]; [tauto|]. destruct (dget (mem h0 a) k) as [[?|?]|]; cbn; split; congruence.
  Qed.

  Lemma conv_into_spec rec : rec_ok rec -> forall l new ks h h',
    conv_into cast rec target l new ks h = (h', Ok tt) -> l <> new -> NoDup ks ->
    (forall k, In k ks -> In k (dkeys (mem h l))) -> (forall k, In k ks -> ~ In k (dkeys (mem h new))) ->
    (forall a k, dget (mem h a) k <> Some (VDict new)) ->
    (forall a, a <> new -> near h h' a) /\
    dkeys (mem h' new) = dkeys (mem h new) ++ ks /\
    (forall k, In k ks -> dget (mem h' new) k = option_map cval (dget (mem h l) k)) /\
    (forall k, ~ In k ks -> dget (mem h' new) k = dget (mem h new) k) /\
    (forall k m l', In k ks -> dget (mem h l) k = Some (VDict m) -> reach h m l' -> converted h h' l') /\
    (forall l', l' <> new -> (forall k m, In k ks -> dget (mem h l) k = Some (VDict m) -> ~ reach h m l') -> mem h' l' = mem h l').
  Proof.
    intros RO l new ks. induction ks as [|k ks IH]; intros h h' E Ne ND K KN FR; cbn [conv_into] in E.
    { injection E as <-. rewrite app_nil_r. split; [split; auto|]. split; [auto|]. split; [intros k []|]. split; [auto|]. split; [intros k m l' []|auto]. }
    inversion ND as [|? ? Nk ND']; subst.
    destruct (dget_some_in (mem h l) k) as (v & Gv); [apply K; left; auto|]. rewrite Gv in E.
    assert (NR : forall m, m <> new -> ~ reach h m new).
    { intros m Hm R. remember new as q eqn:Eq in R. revert Hm. induction R as [|a k' b c G R IHR]; auto. intros Hm.
      subst c. destruct (Nat.eq_dec b new) as [->|Q]; [eapply FR; eauto|auto]. }
    assert (ST : exists h1, conv_into cast rec target l new ks h1 = (h', Ok tt) /\
       mem h1 new = dset (mem h new) k (cval v) /\
       (forall a, a <> new -> near h h1 a) /\
       (forall m l', v = VDict m -> reach h m l' -> converted h h1 l') /\
       (forall l', l' <> new -> (forall m, v = VDict m -> ~ reach h m l') -> mem h1 l' = mem h l')).
    { destruct v as [m|x].
      - destruct (rec h m) as [h1 [[]|ex]] eqn:R; [|discriminate].
        destruct (RO h m h1 R) as (N1 & B1 & C1 & U1).
        assert (Mn : m <> new) by (intros ->; eapply FR; eauto).
        exists (hset h1 new k (VDict m)). split; [auto|].
        split; [rewrite mem_hset_same, U1; auto; apply NR; auto|].
        split; [intros a Ha; unfold near; rewrite mem_hset_other by auto; apply B1|]. split.
        + intros m' l' Q R'. injection Q as <-. destruct (C1 l' R') as (A1 & A2).
          assert (new <> l') by (intros <-; exact (NR m Mn R')).
          split; rewrite mem_hset_other by auto; auto.
        + intros l' Hl HR. rewrite mem_hset_other by auto. apply U1. apply HR; auto.
      - exists (hset h new k (VLeaf (conv x))). split; [auto|].
        split; [apply mem_hset_same|]. split; [intros a Ha; unfold near; rewrite mem_hset_other by auto; auto|].
        split; [discriminate|]. intros l' Hl _. apply mem_hset_other; auto. }
    destruct ST as (h1 & E1 & Mn & B1 & C1 & U1).
    assert (RE : forall m a, m <> new -> (reach h1 m a <-> reach h m a)).
    { intros m a Hm. split; intros R; revert Hm; induction R as [|b k' c d G R IHR]; intros Hm; try constructor.
      - apply (near_edge h h1 b k' c (B1 b Hm)) in G.
        assert (c <> new) by (intros ->; eapply FR; eauto). eapply reach_step; eauto.
      - assert (c <> new) by (intros ->; eapply FR; eauto).
        apply (near_edge h h1 b k' c (B1 b Hm)) in G. eapply reach_step; eauto. }
    assert (Vn : forall k' m, dget (mem h l) k' = Some (VDict m) -> m <> new) by (intros k' m G ->; eapply FR; eauto).
    pose proof (B1 l Ne) as (Kl & Dl).
    destruct (IH h1 h' E1 Ne ND') as (B2 & K2 & D2 & O2 & C2 & U2).
    { intros k' Hk. rewrite Kl. apply K. right; auto. }
    { intros k' Hk. rewrite Mn. unfold dkeys, dset. rewrite (gkeys_in_gset String.eqb String.eqb_eq).
      intros [->|I]; [auto|]. eapply KN; [right; eauto|exact I]. }
    { intros a k' G. destruct (Nat.eq_dec a new) as [->|Ha].
      - rewrite Mn in G. destruct (string_dec k k') as [<-|Q].
        + rewrite dget_dset_same in G. injection G as G. destruct v; cbn in G; [|discriminate]. injection G as ->. eapply FR; eauto.
        + rewrite dget_dset_other in G by auto. eapply FR; eauto.
      - apply (near_edge h h1 a k' new (B1 a Ha)) in G. eapply FR; eauto. }
    split; [intros a Ha; eapply near_trans; eauto|]. split; [|split; [|split; [|split]]].
    - rewrite K2, Mn. unfold dkeys, dset. rewrite (gkeys_gset_new String.eqb String.eqb_eq); [rewrite <- app_assoc; auto|].
      apply KN. left; auto.
    - intros k' [<-|Hk].
      + rewrite O2 by auto. rewrite Mn, dget_dset_same, Gv. auto.
      + rewrite D2 by auto. destruct (Dl k') as [-> | ->]; auto. destruct (dget (mem h l) k'); cbn; rewrite ?cval_idem; auto.
    - intros k' Hk. rewrite O2 by (intros I; apply Hk; right; auto). rewrite Mn, dget_dset_other; auto.
      intros ->. apply Hk. left; auto.
    - intros k' m l' [<-|Hk] G R.
      + apply (near_converted h h1 h'); [apply (C1 m l'); [congruence|auto]|]. apply B2.
        intros ->. exact (NR m (Vn _ _ G) R).
      + apply (converted_near h h1 h'); [apply B1; intros ->; exact (NR m (Vn _ _ G) R)|].
        apply (C2 k' m l' Hk); [apply (near_edge h h1 l k' m (B1 l Ne)); auto|]. apply RE; eauto.
    - intros l' Hl HR. rewrite U2; auto.
      + apply U1; auto. intros m ->. apply (HR k m); [left; auto|auto].
      + intros k' m Hk G R. apply (near_edge h h1 l k' m (B1 l Ne)) in G. apply RE in R; eauto.
        apply (HR k' m); [right; auto|auto|auto].
  Qed.

  (** Well-formed heaps: distinct keys, references to existing objects. *)
  Definition wf_heap h : Prop :=
    (forall l, NoDup (dkeys (mem h l))) /\ (forall l k m, dget (mem h l) k = Some (VDict m) -> m < next h).

  (** A new dictionary is returned whose entries are those of the argument
      with the leaves converted. Every dictionary nested in the argument is
      converted too, in place, and is shared by the result; every dictionary
      that is not nested in the argument keeps its content. In particular the
      argument's own entries are kept (unless it is nested in itself). *)
  Theorem convert_copy_effect_partial fuel h l h' r : wf_heap h -> l < next h ->
    convert_dict cast fuel target h l false = (h', Ok r) ->
    r = next h /\ leaves_mapped conv (mem h l) (mem h' r) /\
    (forall k m l', dget (mem h l) k = Some (VDict m) -> reach h m l' -> leaves_mapped conv (mem h l') (mem h' l')) /\
    (forall l', l' < next h -> (forall k m, dget (mem h l) k = Some (VDict m) -> ~ reach h m l') -> mem h' l' = mem h l').
  Proof.
    intros (WN & WR) Hl. destruct fuel as [|n]; cbn [convert_dict]; [discriminate|].
    destruct (halloc h) as [h0 new] eqn:EA. unfold halloc in EA. injection EA as <- <-.
    set (h0 := mkHeap (S (next h)) (fun l' => if Nat.eqb l' (next h) then [] else mem h l')).
    assert (M0 : forall a, a <> next h -> mem h0 a = mem h a) by (intros a Ha; cbn; destruct (Nat.eqb_spec a (next h)); congruence).
    assert (M1 : mem h0 (next h) = []) by (cbn; rewrite Nat.eqb_refl; auto).
    destruct (conv_into cast (fun h m => convert_inplace cast n target h m) target l (next h) (dkeys (mem h l)) h0)
      as [h1 [[]|e]] eqn:E; cbn [rbind]; [|discriminate].
    intros Q. injection Q as <- <-.
    assert (Ne : l <> next h) by lia.
    assert (FR : forall a k, dget (mem h0 a) k <> Some (VDict (next h))).
    { intros a k G. destruct (Nat.eq_dec a (next h)) as [->|Ha]; [rewrite M1 in G; discriminate|].
      rewrite M0 in G by auto. apply WR in G. lia. }
    assert (RE : forall m a, m < next h -> (reach h0 m a <-> reach h m a)).
    { intros m a Hm. split; intros R; revert Hm; induction R as [|b k' c d G R IHR]; intros Hm; try constructor.
      - rewrite M0 in G by lia. eapply reach_step; [eauto|apply IHR; eapply WR; eauto].
      - eapply reach_step; [rewrite M0 by lia; eauto|apply IHR; eapply WR; eauto]. }
    destruct (conv_into_spec _ (inplace_ok n) l (next h) (dkeys (mem h l)) h0 h1 E Ne (WN l)) as (B & K & D & O' & C & U); auto.
    { intros k Hk. rewrite M0; auto. }
    { intros k Hk. rewrite M1. intros []. }
    split; [auto|]. split; [|split].
    - split; [rewrite K, M1; auto|]. intros k.
      destruct (in_dec string_dec k (dkeys (mem h l))) as [I|I].
      + rewrite D by auto. rewrite M0 by auto. destruct (dget (mem h l) k) as [[?|?]|]; auto.
      + rewrite O' by auto. rewrite M1. apply dget_none in I. rewrite I. auto.
    - intros k m l' G R. assert (Hm : m < next h) by eauto.
      assert (Hl' : l' < next h).
      { clear - WR R Hm. induction R; auto. apply IHR. eapply WR; eauto. }
      pose proof (C k m l') as Cv. rewrite M0 in Cv by auto. specialize (Cv (dget_key _ _ _ G) G).
      apply RE in R; auto. specialize (Cv R). destruct Cv as (A1 & A2). rewrite M0 in A1, A2 by lia.
      split; auto. intros k'. rewrite A2. destruct (dget (mem h l') k') as [[?|?]|]; auto.
    - intros l' Hl' HR. rewrite U; [apply M0; lia|lia|]. intros k m Hk G R. rewrite M0 in G by auto.
      apply RE in R; [eapply HR; eauto|eauto].
  Qed.

  (** The full claim holds for dictionaries without nested dictionaries. *)
  Corollary convert_copy_flat fuel h l h' r : wf_heap h -> l < next h ->
    (forall k m, dget (mem h l) k <> Some (VDict m)) ->
    convert_dict cast fuel target h l false = (h', Ok r) ->
    leaves_mapped conv (mem h l) (mem h' r) /\ r = next h /\ forall l', l' < next h -> mem h' l' = mem h l'.
  Proof.
    intros W Hl F E. destruct (convert_copy_effect_partial fuel h l h' r W Hl E) as (A & B & _ & C).
    split; auto. split; auto. intros l' Hl'. apply C; auto. intros k m G. exfalso. eapply F; eauto.
  Qed.

  (** No RecursionError when the nesting depth is below the limit. *)
  Lemma convert_inplace_total (rank : nat -> nat) fuel : forall h l,
    (forall l k m, dget (mem h l) k = Some (VDict m) -> rank m < rank l) -> rank l < fuel ->
    exists h', convert_inplace cast fuel target h l = (h', Ok tt).
  Proof.
    induction fuel as [|n IH]; intros h l R L; [lia|]. cbn [convert_inplace].
    assert (G : forall ks h, (forall l k m, dget (mem h l) k = Some (VDict m) -> rank m < rank l) ->
      exists h', conv_items cast (fun h m => convert_inplace cast n target h m) target l ks h = (h', Ok tt)).
    { clear h R. induction ks as [|k ks IHk]; intros h R; cbn [conv_items]; [eauto|].
      destruct (dget (mem h l) k) as [[m|x]|] eqn:Gk; [| |auto].
      - destruct (IH h m R) as (h1 & E1); [apply R in Gk; lia|]. rewrite E1.
        destruct (inplace_ok n h m h1 E1) as (_ & B & _ & _). apply IHk.
        intros a k' b Q. pose proof (proj2 (between_edge h h1 l k m B) Gk) as G1.
        pose proof (between_hset h1 l k _ _ G1 (or_introl eq_refl)) as B2.
        apply (between_edge _ _ a k' b B2) in Q. apply (between_edge _ _ a k' b B) in Q. eauto.
      - apply IHk. intros a k' b Q.
        pose proof (between_hset h l k (VLeaf x) (VLeaf (conv x)) Gk (or_intror eq_refl)) as B2.
        apply (between_edge _ _ a k' b B2) in Q. eauto. }
    apply G. auto.
  Qed.
  Theorem convert_inplace_succeeds (rank : nat -> nat) fuel h l :
    (forall l k m, dget (mem h l) k = Some (VDict m) -> rank m < rank l) -> rank l < fuel ->
    exists h', convert_dict cast fuel target h l true = (h', Ok l).
  Proof.
    intros R L. destruct (convert_inplace_total rank fuel h l R L) as (h' & E). destruct fuel; [lia|].
    exists h'. unfold convert_dict. rewrite E. auto.
  Qed.

  (** The dictionary as a tree: whatever the option, what is returned stands
      for the argument with every leaf converted. *)
  Lemma dict_ext {A} (d d' : dict A) : NoDup (dkeys d) -> dkeys d = dkeys d' -> (forall k, dget d k = dget d' k) -> d = d'.
  Proof.
    revert d'. induction d as [|[k v] d IH]; intros [|[k' v'] d'] ND K G; try discriminate; auto.
    unfold dkeys, gkeys in *. cbn [map fst] in *. injection K as <- K. inversion ND as [|? ? Nk ND']; subst.
    pose proof (G k) as Gk. unfold dget in Gk. cbn [gget] in Gk. rewrite String.eqb_refl in Gk. injection Gk as <-. f_equal.
    apply IH; auto. intros x. specialize (G x). unfold dget in *. cbn [gget] in G. destruct (String.eqb_spec x k); auto.
    subst. transitivity (@None A); [|symmetry]; apply (gget_none String.eqb String.eqb_eq); [exact Nk|].
    unfold gkeys. rewrite <- K. exact Nk.
  Qed.
  Lemma mapped_list d d' : NoDup (dkeys d) -> leaves_mapped conv d d' -> d' = map (fun p => (fst p, cval (snd p))) d.
  Proof.
    intros ND (K & D).
    assert (KM : dkeys (map (fun p => (fst p, cval (snd p))) d) = dkeys d).
    { unfold dkeys, gkeys. rewrite map_map. reflexivity. }
    apply dict_ext; [rewrite K; auto|congruence|]. intros k. rewrite D. clear D K KM ND. unfold dget.
    induction d as [|[a b] d IH]; cbn [gget map fst snd]; auto. destruct (String.eqb k a); auto. destruct b; auto.
  Qed.
  Scheme stands_ind2 := Induction for stands Sort Prop with items_ind2 := Induction for stands_items Sort Prop.
  Lemma stands_converted h h' : (forall l, NoDup (dkeys (mem h l))) -> forall v t, stands h v t ->
    (forall l', (exists l, v = VDict l /\ reach h l l') -> leaves_mapped conv (mem h l') (mem h' l')) ->
    stands h' (cval v) (tmap conv t).
  Proof.
    intros W v t S.
    apply (stands_ind2 P N O h
      (fun v t _ => (forall l', (exists l, v = VDict l /\ reach h l l') -> leaves_mapped conv (mem h l') (mem h' l')) -> stands h' (cval v) (tmap conv t))
      (fun d ts _ => (forall k m l', In (k, VDict m) d -> reach h m l' -> leaves_mapped conv (mem h l') (mem h' l')) ->
         stands_items h' (map (fun p => (fst p, cval (snd p))) d) (map (fun p => (fst p, tmap conv (snd p))) ts))); auto.
    - intros x _. constructor.
    - intros l ts SI IH HC. cbn. constructor.
      rewrite (mapped_list (mem h l) (mem h' l)); [|apply W|apply HC; exists l; split; [auto|constructor]].
      apply IH. intros k m l' I R. apply HC. exists l. split; auto.
      eapply reach_step; [apply in_dget; [apply W|exact I]|auto].
    - intros _. constructor.
    - intros k w u d ts S1 IH1 S2 IH2 HC. cbn. constructor.
      + apply IH1. intros l' (m & -> & R). apply (HC k m l'); [left; auto|auto].
      + apply IH2. intros k' m l' I R. apply (HC k' m l'); [right; auto|auto].
  Qed.
  Theorem converted_tree fuel h l b h' r t : wf_heap h -> l < next h -> stands h (VDict l) t ->
    convert_dict cast fuel target h l b = (h', Ok r) -> stands h' (VDict r) (tmap conv t).
  Proof.
    intros W Hl S E. destruct b.
    - destruct (convert_inplace_effect _ _ _ _ _ E) as (-> & C & _).
      apply (stands_converted h h' (proj1 W) _ _ S). intros l' (m & Q & R). injection Q as <-. auto.
    - destruct (convert_copy_effect_partial _ _ _ _ _ W Hl E) as (-> & T & C & _).
      inversion S as [|? ts SI]; subst. cbn [tmap]. constructor. rewrite (mapped_list (mem h l) (mem h' (next h))); [|apply W|auto].
      assert (HC : forall k m, In (k, VDict m) (mem h l) -> forall l', reach h m l' -> leaves_mapped conv (mem h l') (mem h' l')).
      { intros k m I l' R. eapply C; [apply in_dget; [apply W|exact I]|auto]. }
      clear - SI HC W. induction SI as [|k v u d ts S1 S2 IH]; cbn; constructor.
      + apply (stands_converted h h' (proj1 W) _ _ S1). intros l' (m & -> & R). eapply HC; [left; eauto|auto].
      + apply IH. intros k' m I. apply (HC k' m). right; auto.
  Qed.

  (** ---- convert_dict_to_tensor ---- *)
  (** A dictionary with a nested dictionary cannot be converted, whatever the
      option. *)
  Theorem to_tensor_nested_refuted h l k m b : dget (mem h l) k = Some (VDict m) ->
    l < next h -> NoDup (dkeys (mem h l)) ->
    exists h', convert_to_tensor of_num h l b = (h', Err TypeError).
  Proof.
    intros G Hl ND.
    assert (T : forall b new ks h0, NoDup ks -> In k ks -> dget (mem h0 l) k = Some (VDict m) -> (b = false -> new <> l) ->
      exists h', tensor_items of_num b l new ks h0 = (h', Err TypeError)).
    { clear. induction ks as [|k' ks IH]; intros h0 ND I G Hb; [destruct I|]. cbn [tensor_items].
      inversion ND as [|? ? Nk ND']; subst.
      destruct (dget (mem h0 l) k') as [[m'|x]|] eqn:Gk; [eauto| |].
      - assert (k' <> k) by (intros ->; congruence). destruct I as [I|I]; [congruence|].
        destruct (num_leaf of_num x); apply IH; auto. destruct b.
        + rewrite mem_hset_same, dget_dset_other; auto.
        + rewrite mem_hset_other; auto.
      - destruct I as [->|I]; [congruence|]. apply IH; auto. }
    unfold convert_to_tensor. destruct b.
    - destruct (T true l (dkeys (mem h l)) h ND (dget_key _ _ _ G) G) as (h' & E); [discriminate|]. rewrite E. eauto.
    - cbn [halloc]. set (h0 := mkHeap _ _). destruct (T false (next h) (dkeys (mem h l)) h0 ND (dget_key _ _ _ G)) as (h' & E).
      + cbn. destruct (Nat.eqb_spec l (next h)); [lia|auto].
      + lia.
      + rewrite E. eauto.
  Qed.
  (** Flat dictionaries, in place: numbers become tensors, all else is kept. *)
  Definition to_tensor_leaf (x : leaf) : leaf := match num_leaf of_num x with Some y => y | None => x end.
  Theorem to_tensor_inplace_flat h l : NoDup (dkeys (mem h l)) -> (forall k m, dget (mem h l) k <> Some (VDict m)) ->
    exists h', convert_to_tensor of_num h l true = (h', Ok l) /\
      leaves_mapped to_tensor_leaf (mem h l) (mem h' l) /\ forall l', l' <> l -> mem h' l' = mem h l'.
  Proof.
    intros ND F.
    assert (T : forall ks h0, NoDup ks -> (forall k m, dget (mem h0 l) k <> Some (VDict m)) -> (forall k, In k ks -> In k (dkeys (mem h0 l))) ->
      exists h', tensor_items of_num true l l ks h0 = (h', Ok tt) /\ dkeys (mem h' l) = dkeys (mem h0 l) /\
        (forall k, In k ks -> dget (mem h' l) k = match dget (mem h0 l) k with Some (VLeaf x) => Some (VLeaf (to_tensor_leaf x)) | o => o end) /\
        (forall k, ~ In k ks -> dget (mem h' l) k = dget (mem h0 l) k) /\ (forall l', l' <> l -> mem h' l' = mem h0 l')).
    { clear. induction ks as [|k ks IH]; intros h0 ND F K; cbn [tensor_items].
      - exists h0. split; [auto|]. split; [auto|]. split; [intros k []|auto].
      - inversion ND as [|? ? Nk ND']; subst.
        destruct (dget_some_in (mem h0 l) k) as (v & G); [apply K; left; auto|]. rewrite G.
        destruct v as [m|x]; [exfalso; eapply F; eauto|].
        destruct (num_leaf of_num x) as [y|] eqn:Ey.
        + destruct (IH (hset h0 l k (VLeaf y)) ND') as (h' & E & K' & D & U & R).
          { intros k' m. rewrite mem_hset_same. destruct (string_dec k k') as [<-|Q]; [rewrite dget_dset_same; discriminate|rewrite dget_dset_other by auto; auto]. }
          { intros k' Hk. rewrite mem_hset_same, dkeys_dset_mem by (eapply dget_key; eauto). apply K; right; auto. }
          exists h'. split; [auto|]. rewrite mem_hset_same in *. rewrite dkeys_dset_mem in K' by (eapply dget_key; eauto).
          split; [auto|]. split; [|split].
          * intros k' [<-|Hk]; [rewrite U, dget_dset_same, G by auto; unfold to_tensor_leaf; rewrite Ey; auto|].
            rewrite D by auto. rewrite dget_dset_other; auto. intros ->; auto.
          * intros k' Hk. rewrite U by (intros I; apply Hk; right; auto). apply dget_dset_other. intros ->. apply Hk; left; auto.
          * intros l' Hl. rewrite R, mem_hset_other; auto.
        + destruct (IH h0 ND' F) as (h' & E & K' & D & U & R); [intros; apply K; right; auto|].
          exists h'. split; [auto|]. split; [auto|]. split; [|split; [|auto]].
          * intros k' [<-|Hk]; auto. rewrite U by auto. rewrite G. unfold to_tensor_leaf. rewrite Ey. auto.
          * intros k' Hk. apply U. intros I; apply Hk; right; auto. }
    destruct (T (dkeys (mem h l)) h ND F (fun k H => H)) as (h' & E & K & D & U & R).
    exists h'. unfold convert_to_tensor. rewrite E. split; [auto|]. split; [|auto]. split; auto. intros k.
    destruct (in_dec string_dec k (dkeys (mem h l))) as [I|I].
    - rewrite D by auto. destruct (dget (mem h l) k) as [[m|x]|]; auto.
    - rewrite U by auto. apply dget_none in I. rewrite I. auto.
  Qed.
End Props.

(** Witnesses, with naturals for all abstract types. *)
Definition wit_heap (d0 d1 : dict (value nat nat nat)) : heap nat nat nat :=
  mkHeap 2 (fun l => match l with 0 => d0 | 1 => d1 | _ => [] end).

(** A conversion that was asked to keep its argument changes a dictionary
    nested in it, and the result shares that dictionary. *)
Theorem convert_copy_mutates_nested_refuted : exists (h h' : heap nat nat nat) r,
  wf_heap h /\ convert_dict (fun _ _ (p : nat) => p + 100) 10 F32 h 0 false = (h', Ok r) /\
  dget (mem h 0) "in"%string = Some (VDict 1) /\
  dget (mem h 1) "x"%string = Some (VLeaf (LTensor F64 7)) /\
  dget (mem h' 1) "x"%string = Some (VLeaf (LTensor F32 107)) /\
  dget (mem h' r) "in"%string = Some (VDict 1).
Proof.
  exists (wit_heap [("in"%string, VDict 1)] [("x"%string, VLeaf (LTensor F64 7))]). eexists. eexists.
  split; [|vm_compute; split; [reflexivity|auto]].
  split; [intros [|[|l]]; cbn; repeat constructor; intros []|].
  intros [|[|l]] k m; unfold dget; cbn; try discriminate.
  - destruct (String.eqb k "in"); [|discriminate]. intros E. injection E as <-. lia.
  - destruct (String.eqb k "x"); discriminate.
Qed.
(** convert_dict_to_tensor without is_inplace drops every entry that is not a
    number, tensors included. *)
Theorem to_tensor_copy_drops_refuted : exists (h h' : heap nat nat nat) r,
  convert_to_tensor (fun n => (I64, n)) h 0 false = (h', Ok r) /\
  dget (mem h 0) "t"%string = Some (VLeaf (LTensor F32 1)) /\ dget (mem h' r) "t"%string = None /\
  dget (mem h' r) "n"%string = Some (VLeaf (LTensor I64 3)).
Proof.
  exists (wit_heap [("t"%string, VLeaf (LTensor F32 1)); ("n"%string, VLeaf (LNum 3))] []). eexists. eexists.
  vm_compute. split; [reflexivity|auto].
Qed.
(** Sub-dictionary shared by two keys, converted in place. *)
Example convert_shared_case : exists h',
  convert_dict (fun _ _ (p : nat) => p + 100) 10 F32
    (wit_heap [("a"%string, VDict 1); ("b"%string, VDict 1); ("c"%string, VLeaf (LTensor I64 2))] [("x"%string, VLeaf (LTensor F64 7)); ("o"%string, VLeaf (LOther 9))]) 0 true = (h', Ok 0)
  /\ mem h' 1 = [("x"%string, VLeaf (LTensor F32 107)); ("o"%string, VLeaf (LOther 9 : leaf nat nat nat))]
  /\ dget (mem h' 0) "c"%string = Some (VLeaf (LTensor I64 2)).
Proof. eexists. vm_compute. split; [reflexivity|auto]. Qed.

Print Assumptions convert_inplace_effect.
Print Assumptions convert_copy_effect_partial.
Print Assumptions converted_tree.
Print Assumptions to_tensor_inplace_flat.
