(** Refinement of the heap model of the state storage to value maps. *)
From Coq Require Import String List Bool Arith Lia.
From Verif Require Import Lib PyDict PyStr StateStoreModel StateStoreSpec.
Import ListNotations.
Local Open Scope list_scope.

Lemma upd_nth_length {A} n (a : A) l : length (upd_nth n a l) = length l.
Proof. revert n; induction l as [|b l IH]; intros [|n]; cbn; auto. Qed.
Lemma nth_error_upd_same {A} n (a : A) l : n < length l -> nth_error (upd_nth n a l) n = Some a.
Proof. revert n; induction l as [|b l IH]; intros [|n] H; cbn in *; try lia; auto. apply IH. lia. Qed.
Lemma nth_error_upd_other {A} n m (a : A) l : n <> m -> nth_error (upd_nth n a l) m = nth_error l m.
Proof. revert n m; induction l as [|b l IH]; intros [|n] [|m] H; cbn; auto; try lia. Qed.
Lemma nth_upd_same {A} n (a d : A) l : n < length l -> nth n (upd_nth n a l) d = a.
Proof. intros H. apply nth_error_nth, nth_error_upd_same, H. Qed.
Lemma nth_upd_other {A} n m (a d : A) l : n <> m -> nth m (upd_nth n a l) d = nth m l d.
Proof. revert n m; induction l as [|b l IH]; intros [|n] [|m] H; cbn; auto; try lia. Qed.

Section Proofs.
  Context {V : Type}.
  Notation sst := (sst V).
  Implicit Types s : sst.

  Definition inb (s : sst) (x : val) : Prop := match x with VNone => True | VCell l => l < length (cells s) end.
  Definition view (s : sst) (d : nat) : smap V :=
    fun e => match dget (dict_at s d) (nat_str e) with None => None | Some x => Some (content s x) end.
  Definition din (s : sst) (d : nat) : Prop := forall k x, In (k, x) (dict_at s d) -> inb s x.
  Lemma din_get s d k x : din s d -> dget (dict_at s d) k = Some x -> inb s x.
  Proof. intros D G. apply dget_in in G. eauto. Qed.
  Lemma dset_in {A} (d : dict A) k y k' x : In (k', x) (dset d k y) -> x = y \/ In (k', x) d.
  Proof.
    unfold dset. induction d as [|[a b] d IH]; cbn [gset]; [intros [Q|[]]; injection Q; auto|].
    destruct (String.eqb k a); cbn [In]; intros [Q|Q]; auto; [injection Q; auto|]. apply IH in Q as [Q|Q]; auto.
  Qed.

  (** the heap only grew *)
  Definition ext (s s' : sst) : Prop :=
    (exists e, cells s' = cells s ++ e) /\ dicts s' = dicts s /\ cur s' = cur s /\ old s' = old s
    /\ is_rec s' = is_rec s /\ n_mat s' = n_mat s.
  Definition fresh (s s' : sst) (y : val) : Prop :=
    match y with VNone => True | VCell l => length (cells s) <= l < length (cells s') end.

  Lemma ext_refl s : ext s s.
  Proof. split; [exists []; rewrite app_nil_r; auto|auto 6]. Qed.
  Lemma ext_trans a b c : ext a b -> ext b c -> ext a c.
  Proof.
    intros ((e & E) & A1 & A2 & A3 & A4 & A5) ((f & F) & B1 & B2 & B3 & B4 & B5). split.
    - exists (e ++ f). rewrite F, E, app_assoc. auto.
    - repeat split; congruence.
  Qed.
  Lemma ext_len s s' : ext s s' -> length (cells s) <= length (cells s').
  Proof. intros ((e & E) & _). rewrite E, app_length. lia. Qed.
  Lemma ext_content s s' x : ext s s' -> inb s x -> content s' x = content s x.
  Proof. intros ((e & E) & _) I. destruct x as [|l]; cbn in *; auto. rewrite E, nth_error_app1; auto. Qed.
  Lemma ext_inb s s' x : ext s s' -> inb s x -> inb s' x.
  Proof. intros E I. apply ext_len in E. destruct x; cbn in *; auto. lia. Qed.
  Lemma ext_dict s s' d : ext s s' -> dict_at s' d = dict_at s d.
  Proof. intros (_ & D & _). unfold dict_at. rewrite D. auto. Qed.
  Lemma ext_view s s' d : ext s s' -> din s d -> forall e, view s' d e = view s d e.
  Proof.
    intros E D e. unfold view. rewrite (ext_dict s s' d E). destruct (dget (dict_at s d) (nat_str e)) eqn:G; auto.
    f_equal. apply ext_content; auto. eapply din_get; eauto.
  Qed.
  Lemma ext_din s s' d : ext s s' -> din s d -> din s' d.
  Proof. intros E D k x G. rewrite (ext_dict s s' d E) in G. eapply ext_inb; eauto. Qed.

  Lemma alloc_ext s v : ext s (fst (alloc s v)).
  Proof. unfold alloc, set_cells, ext; cbn. split; [eauto|auto 6]. Qed.
  Lemma alloc_content s v : content (fst (alloc s v)) (snd (alloc s v)) = Some v.
  Proof. cbn. rewrite nth_error_app2, Nat.sub_diag by lia. reflexivity. Qed.
  Lemma alloc_fresh s v : fresh s (fst (alloc s v)) (snd (alloc s v)).
  Proof. cbn. rewrite app_length. cbn. lia. Qed.

  Lemma deepcopy_spec s x : inb s x -> let '(s', y) := deepcopy s x in
    ext s s' /\ content s' y = content s x /\ fresh s s' y /\ inb s' y.
  Proof.
    destruct x as [|l]; cbn [deepcopy inb]; intros I.
    - split; [apply ext_refl|]. cbn. auto.
    - destruct (nth_error (cells s) l) as [v|] eqn:E; [|apply nth_error_None in E; lia].
      pose proof (alloc_ext s v). pose proof (alloc_content s v) as C. pose proof (alloc_fresh s v) as F.
      destruct (alloc s v) as [s' y] eqn:A. cbn [fst snd] in *. split; [auto|]. rewrite C. cbn [content]. rewrite E.
      split; [auto|]. split; [auto|]. destruct y; cbn in *; auto. lia.
  Qed.

  (** deep copy of a dictionary *)
  Lemma deepcopy_items_spec s0 d : forall s memo,
    ext s0 s -> (forall k x, In (k, x) d -> inb s0 x) ->
    (forall l l', gget Nat.eqb memo l = Some l' -> length (cells s0) <= l' < length (cells s) /\ nth_error (cells s) l' = nth_error (cells s0) l) ->
    let '(s', d') := deepcopy_items s memo d in
    ext s s' /\ dkeys d' = dkeys d /\
    Forall2 (fun p q => fst p = fst q /\ content s' (snd q) = content s0 (snd p) /\ fresh s0 s' (snd q)) d d'.
  Proof.
    induction d as [|[k x] d IH]; intros s memo E B M; cbn [deepcopy_items].
    { split; [apply ext_refl|]. split; auto. }
    assert (Bx : inb s0 x) by (eapply B; left; eauto).
    assert (HP : let '(s1, m1, y) := copy_item s memo x in ext s s1 /\ content s1 y = content s0 x /\ fresh s0 s1 y /\
      (forall l l', gget Nat.eqb m1 l = Some l' -> length (cells s0) <= l' < length (cells s1) /\ nth_error (cells s1) l' = nth_error (cells s0) l)).
    { unfold copy_item. destruct x as [|l].
      - split; [apply ext_refl|]. cbn. auto.
      - destruct (gget Nat.eqb memo l) as [l'|] eqn:G.
        + split; [apply ext_refl|]. apply M in G as H. cbn. split; [tauto|]. split; [tauto|auto].
        + pose proof (deepcopy_spec s (VCell l) (ext_inb _ _ _ E Bx)) as H.
          destruct (deepcopy s (VCell l)) as [s1 y]. destruct H as (E1 & C & F & I). split; auto.
          assert (Cy : content s1 y = content s0 (VCell l)) by (rewrite C; apply ext_content; auto).
          split; [auto|].
          assert (Fy : fresh s0 s1 y).
          { destruct y; cbn in *; auto. pose proof (ext_len _ _ E). lia. }
          split; auto. intros a b Hab. destruct y as [|l'].
          * apply M in Hab as (? & Q). pose proof (ext_len _ _ E1). split; [lia|].
            destruct E1 as ((e & Ee) & _). rewrite Ee, nth_error_app1 by lia. auto.
          * cbn [gget] in Hab. destruct (Nat.eqb_spec a l); [subst|].
            -- injection Hab as <-. cbn in Fy, Cy. split; [auto|]. rewrite Cy. reflexivity.
            -- apply M in Hab as (? & Q). pose proof (ext_len _ _ E1). split; [lia|].
               destruct E1 as ((e & Ee) & _). rewrite Ee, nth_error_app1 by lia. auto. }
    destruct (copy_item s memo x) as [[s1 m1] y]. destruct HP as (E1 & C1 & F1 & M1).
    specialize (IH s1 m1 (ext_trans _ _ _ E E1)).
    assert (B' : forall k x, In (k, x) d -> inb s0 x) by (intros; eapply B; right; eauto).
    specialize (IH B' M1).
    destruct (deepcopy_items s1 m1 d) as [s2 t']. destruct IH as (E2 & K2 & F2). split; [eapply ext_trans; eauto|].
    split; [unfold dkeys, gkeys in *; cbn; f_equal; auto|].
    constructor; auto. cbn [fst snd]. split; auto.
    assert (I1 : inb s1 y) by (destruct y; cbn in *; auto; lia).
    split; [rewrite <- C1; apply ext_content; auto|].
    destruct y; cbn in *; auto. pose proof (ext_len _ _ E2). lia.
  Qed.

  Lemma forall2_dget {A B} (R : A -> B -> Prop) (d : dict A) (d' : dict B) :
    Forall2 (fun p q => fst p = fst q /\ R (snd p) (snd q)) d d' ->
    forall k, match dget d k, dget d' k with Some x, Some y => R x y | None, None => True | _, _ => False end.
  Proof.
    induction 1 as [|[a x] [b y] d d' [Hk Hr] F IH]; intros k; cbn in *; auto. subst b.
    destruct (String.eqb k a); auto. apply IH.
  Qed.

  Lemma dict_at_set s d x : d < length (dicts s) -> dict_at (set_dict s d x) d = x.
  Proof. intros H. unfold dict_at, set_dict; cbn. apply nth_upd_same; auto. Qed.
  Lemma dict_at_set_other s d d' x : d <> d' -> dict_at (set_dict s d x) d' = dict_at s d'.
  Proof. intros H. unfold dict_at, set_dict; cbn. apply nth_upd_other; auto. Qed.
  Lemma view_set s d e y : d < length (dicts s) -> forall k,
    view (set_dict s d (dset (dict_at s d) (nat_str e) y)) d k = sput (view s d) e (content s y) k.
  Proof.
    intros H k. unfold view, sput. rewrite dict_at_set by auto. cbn [content set_dict].
    destruct (Nat.eqb_spec k e); [subst; rewrite dget_dset_same; auto|].
    rewrite dget_dset_other; [reflexivity|]. intros Q. apply n. symmetry. apply nat_str_inj; auto.
  Qed.
  Lemma view_set_other s d d' x : d <> d' -> forall k, view (set_dict s d x) d' k = view s d' k.
  Proof. intros H k. unfold view. rewrite dict_at_set_other by auto. reflexivity. Qed.

  (** Simulation relation for programs that copy. *)
  Record sim (s : sst) (hs : list val) (a : spec V) : Prop := {
    sim_ne : cur s <> old s;
    sim_cb : cur s < length (dicts s);
    sim_ob : old s < length (dicts s);
    sim_cin : din s (cur s);
    sim_oin : din s (old s);
    sim_hin : forall i, inb s (nth i hs VNone);
    sim_inj : forall i j l, nth i hs VNone = VCell l -> nth j hs VNone = VCell l -> i = j;
    sim_dis : forall i l k, nth i hs VNone = VCell l ->
        dget (dict_at s (cur s)) k <> Some (VCell l) /\ dget (dict_at s (old s)) k <> Some (VCell l);
    sim_cur : forall e, view s (cur s) e = s_cur a e;
    sim_old : forall e, view s (old s) e = s_old a e;
    sim_hand : map (content s) hs = s_hand a }.

  Lemma hand_nth s hs a h : sim s hs a -> nth h (s_hand a) None = content s (nth h hs VNone).
  Proof. intros S. rewrite <- (sim_hand _ _ _ S). apply (map_nth (content s) hs VNone). Qed.

  Lemma sim_ext s s' hs a : sim s hs a -> ext s s' -> sim s' hs a.
  Proof.
    intros S E. pose proof E as (_ & D & C & O & _ & _). destruct S. constructor; rewrite ?C, ?O, ?D; auto.
    - eapply ext_din; eauto.
    - eapply ext_din; eauto.
    - intros; eapply ext_inb; eauto.
    - intros i l k H. rewrite !(ext_dict _ _ _ E). eauto.
    - intros. rewrite (ext_view _ _ _ E); auto.
    - intros. rewrite (ext_view _ _ _ E); auto.
    - rewrite <- sim_hand0. apply map_ext_in. intros x I. apply ext_content; auto.
      destruct (In_nth _ _ VNone I) as (n & _ & <-). auto.
  Qed.

  (** one more handle, on a new object *)
  Lemma sim_push s s' hs a y v : sim s hs a -> ext s s' -> fresh s s' y -> content s' y = v ->
    sim s' (hs ++ [y]) (mkSpec (s_cur a) (s_old a) (s_hand a ++ [v])).
  Proof.
    intros S E F Cy. pose proof (sim_ext _ _ _ _ S E) as S'. pose proof E as (_ & D & C & O & _ & _).
    assert (N : forall i, (i < length hs /\ nth i (hs ++ [y]) VNone = nth i hs VNone) \/
                          (i = length hs /\ nth i (hs ++ [y]) VNone = y) \/ nth i (hs ++ [y]) VNone = VNone).
    { intros i. destruct (lt_eq_lt_dec i (length hs)) as [[L|L]|L].
      - left. rewrite app_nth1; auto.
      - right; left. subst. rewrite app_nth2, Nat.sub_diag; auto.
      - right; right. apply nth_overflow. rewrite app_length; cbn; lia. }
    assert (OldB : forall i l, nth i hs VNone = VCell l -> l < length (cells s)).
    { intros i l H. pose proof (sim_hin _ _ _ S i) as I. rewrite H in I. exact I. }
    destruct S'. constructor; cbn [s_cur s_old s_hand]; auto.
    - intros i. destruct (N i) as [[_ ->]|[[_ ->]| ->]]; auto; [|exact I]. destruct y; cbn in *; auto. lia.
    - intros i j l Hi Hj.
      destruct (N i) as [[Li Ei]|[[Li Ei]|Ei]]; rewrite Ei in Hi; try discriminate;
      destruct (N j) as [[Lj Ej]|[[Lj Ej]|Ej]]; rewrite Ej in Hj; try discriminate; eauto; try lia.
      + subst y. apply OldB in Hi. cbn in F. lia.
      + subst y. apply OldB in Hj. cbn in F. lia.
    - intros i l k Hi. destruct (N i) as [[Li Ei]|[[Li Ei]|Ei]]; rewrite Ei in Hi; try discriminate; eauto.
      subst y. rewrite !(ext_dict _ _ _ E), C, O. cbn in F. split; intros G.
      + apply (din_get _ _ _ _ (sim_cin _ _ _ S)) in G. cbn in G. lia.
      + apply (din_get _ _ _ _ (sim_oin _ _ _ S)) in G. cbn in G. lia.
    - rewrite map_app, sim_hand0. cbn. rewrite Cy. reflexivity.
  Qed.

  (** storing an object no handle refers to *)
  Lemma sim_store s hs a e y (which : bool) : sim s hs a -> inb s y ->
    (forall i l, nth i hs VNone = VCell l -> y <> VCell l) ->
    let d := if which then cur s else old s in
    sim (set_dict s d (dset (dict_at s d) (nat_str e) y)) hs
        (if which then mkSpec (sput (s_cur a) e (content s y)) (s_old a) (s_hand a)
         else mkSpec (s_cur a) (sput (s_old a) e (content s y)) (s_hand a)).
  Proof.
    intros S I Dj d. destruct S.
    assert (Ld : d < length (dicts s)) by (unfold d; destruct which; auto).
    assert (DS : forall d' k x,
      dget (dict_at (set_dict s d (dset (dict_at s d) (nat_str e) y)) d') k = Some x ->
      x = y \/ dget (dict_at s d') k = Some x).
    { intros d' k x. destruct (Nat.eq_dec d d') as [<-|N].
      - rewrite dict_at_set by auto. destruct (string_dec (nat_str e) k) as [<-|Nk].
        + rewrite dget_dset_same. intros Q; injection Q as <-; auto.
        + rewrite dget_dset_other by auto. auto.
      - rewrite dict_at_set_other by auto. auto. }
    assert (DI : forall d' k x,
      In (k, x) (dict_at (set_dict s d (dset (dict_at s d) (nat_str e) y)) d') ->
      x = y \/ In (k, x) (dict_at s d')).
    { intros d' k x. destruct (Nat.eq_dec d d') as [<-|N].
      - rewrite dict_at_set by auto. apply dset_in.
      - rewrite dict_at_set_other by auto. auto. }
    constructor; cbn [cur old set_dict dicts cells content inb]; auto.
    - rewrite upd_nth_length; auto.
    - rewrite upd_nth_length; auto.
    - intros k x G. apply DI in G as [->|G]; [exact I|]. apply sim_cin0 in G. exact G.
    - intros k x G. apply DI in G as [->|G]; [exact I|]. apply sim_oin0 in G. exact G.
    - intros i l k H. split; intros G; apply DS in G as [G|G]; auto.
      + symmetry in G. revert G. eapply Dj; eauto.
      + exact (proj1 (sim_dis0 i l k H) G).
      + symmetry in G. revert G. eapply Dj; eauto.
      + exact (proj2 (sim_dis0 i l k H) G).
    - intros k. unfold d in *. destruct which; cbn [s_cur].
      + rewrite view_set by auto. unfold sput. rewrite sim_cur0. auto.
      + rewrite view_set_other by auto. auto.
    - intros k. unfold d in *. destruct which; cbn [s_old].
      + rewrite view_set_other by auto. auto.
      + rewrite view_set by auto. unfold sput. rewrite sim_old0. auto.
    - destruct which; cbn [s_hand]; auto.
  Qed.

  Lemma fresh_nohandle s s' hs a y : sim s hs a -> fresh s s' y -> forall i l, nth i hs VNone = VCell l -> y <> VCell l.
  Proof.
    intros S F i l H ->. pose proof (sim_hin _ _ _ S i) as I. rewrite H in I. cbn in *. lia.
  Qed.

  Lemma sim_spec_ext s hs a b : sim s hs a -> (forall e, s_cur a e = s_cur b e) -> (forall e, s_old a e = s_old b e) ->
    s_hand a = s_hand b -> sim s hs b.
  Proof. intros [] H1 H2 H3. constructor; auto; intros; congruence. Qed.

  Lemma sim_write s hs a h v : sim s hs a ->
    sim (write s (nth h hs VNone) v) hs (mkSpec (s_cur a) (s_old a) (set_hand h v (s_hand a))).
  Proof.
    intros S. unfold set_hand. rewrite (hand_nth s hs a h S). pose proof (sim_hin _ _ _ S h) as B.
    destruct (nth h hs VNone) as [|l] eqn:Eh; cbn [write content].
    { destruct S; constructor; auto. }
    cbn in B. destruct (nth_error (cells s) l) as [w|] eqn:Ew; [|apply nth_error_None in Ew; lia].
    assert (CO : forall x, x <> VCell l -> content (set_cells s (upd_nth l v (cells s))) x = content s x).
    { intros [|m] N; cbn; auto. apply nth_error_upd_other. congruence. }
    assert (IB : forall x, inb s x -> inb (set_cells s (upd_nth l v (cells s))) x).
    { intros [|m]; cbn; auto. rewrite upd_nth_length; auto. }
    assert (VW : forall d, (forall k, dget (dict_at s d) k <> Some (VCell l)) ->
      forall e, view (set_cells s (upd_nth l v (cells s))) d e = view s d e).
    { intros d Hd e. unfold view. change (dict_at (set_cells s (upd_nth l v (cells s))) d) with (dict_at s d).
      destruct (dget (dict_at s d) (nat_str e)) eqn:G; auto. f_equal. apply CO. intros ->. eapply Hd; eauto. }
    assert (Lh : h < length hs).
    { destruct (Nat.lt_ge_cases h (length hs)); auto. rewrite nth_overflow in Eh by auto. discriminate. }
    destruct S. constructor; cbn [s_cur s_old s_hand]; auto.
    - intros k x G. apply IB. apply sim_cin0 in G; auto.
    - intros k x G. apply IB. apply sim_oin0 in G; auto.
    - intros e. cbn [cur set_cells]. rewrite VW; [apply sim_cur0|]. intros k. eapply sim_dis0; eauto.
    - intros e. cbn [old set_cells]. rewrite VW; [apply sim_old0|]. intros k. eapply sim_dis0; eauto.
    - rewrite <- sim_hand0. apply (nth_ext _ _ None None).
      { rewrite upd_nth_length, !map_length. auto. }
      intros i Hi. rewrite map_length in Hi.
      rewrite (map_nth (content (set_cells s (upd_nth l v (cells s)))) hs VNone).
      destruct (Nat.eq_dec h i) as [<-|N].
      + rewrite nth_upd_same by (rewrite map_length; auto). rewrite Eh. cbn. apply nth_error_upd_same; auto.
      + rewrite nth_upd_other by auto. rewrite (map_nth (content s) hs VNone). apply CO. intros Q. apply N.
        eapply sim_inj0; eauto.
  Qed.

  Lemma sim_commit s hs a : sim s hs a -> sim (update_converged s true) hs (mkSpec (s_cur a) (s_cur a) (s_hand a)).
  Proof.
    intros S. unfold update_converged.
    pose proof (deepcopy_items_spec s (dict_at s (cur s)) s [] (ext_refl s) (sim_cin _ _ _ S)) as H.
    destruct (deepcopy_items s [] (dict_at s (cur s))) as [s' d'].
    destruct H as (E & _ & F); [intros l l' Q; cbn in Q; discriminate|].
    pose proof E as (_ & D & C & O & _ & _).
    set (s2 := mkSst (cells s') (dicts s' ++ [d']) (cur s') (length (dicts s')) (is_rec s') (n_mat s')).
    assert (Dc : dict_at s2 (cur s2) = dict_at s (cur s)).
    { unfold dict_at, s2; cbn. rewrite app_nth1, D, C; auto. rewrite D, C. apply (sim_cb _ _ _ S). }
    assert (Do : dict_at s2 (old s2) = d').
    { unfold dict_at, s2; cbn. rewrite app_nth2, Nat.sub_diag by lia. reflexivity. }
    assert (CO : forall x, inb s x -> content s2 x = content s x) by (intros; apply (ext_content s s'); auto).
    assert (IB : forall x, inb s x -> inb s2 x) by (intros; apply (ext_inb s s'); auto).
    assert (FD : forall k x, In (k, x) d' -> fresh s s' x).
    { clear - F. induction F as [|p q l l' (_ & _ & Hf) F IH]; cbn; [tauto|]. intros k x [Q|Q]; eauto. subst q; auto. }
    destruct S. constructor; cbn [s_cur s_old s_hand].
    - cbn. rewrite C, D. lia.
    - cbn. rewrite app_length, C, D. lia.
    - cbn. rewrite app_length. cbn. lia.
    - intros k x. rewrite Dc. eauto.
    - intros k x. rewrite Do. intros I. apply FD in I. destruct x; cbn in *; auto. lia.
    - eauto.
    - eauto.
    - intros i l k Hi. rewrite Dc, Do. split; [exact (proj1 (sim_dis0 i l k Hi))|]. intros G. apply dget_in, FD in G.
      pose proof (sim_hin0 i) as I. rewrite Hi in I. cbn in *. lia.
    - intros e. rewrite <- sim_cur0. unfold view. rewrite Dc. destruct (dget _ _) eqn:G; auto. f_equal.
      apply CO. exact (din_get _ _ _ _ sim_cin0 G).
    - intros e. rewrite <- sim_cur0. unfold view. rewrite Do.
      assert (F' : Forall2 (fun p q => fst p = fst q /\ content s' (snd q) = content s (snd p)) (dict_at s (cur s)) d').
      { clear - F. induction F; constructor; intuition. }
      pose proof (forall2_dget (fun p q => content s' q = content s p) _ _ F' (nat_str e)) as Q.
      destruct (dget (dict_at s (cur s)) (nat_str e)), (dget d' (nat_str e)); try tauto. f_equal. exact Q.
    - rewrite <- sim_hand0. apply map_ext_in. intros x I. apply CO. destruct (In_nth _ _ VNone I) as (n & _ & <-). auto.
  Qed.

  Lemma sim_init_element k s hs a e : sim s hs a -> k <> UnknownName ->
    let x := match k with Standard g => Some (g e) | _ => None end in
    sim (init_element k s e) hs (mkSpec (sput (s_cur a) e x) (sput (s_old a) e x) (s_hand a)).
  Proof.
    intros S Hk. unfold init_element.
    set (s0 := mkSst (cells s) (dicts s) (cur s) (old s) (dset (is_rec s) (nat_str e) (match k with Recurrent => true | _ => false end)) (n_mat s)).
    assert (S0 : sim s0 hs a) by (destruct S; constructor; auto).
    clearbody s0. clear S s. rename s0 into s, S0 into S.
    assert (NN : forall i l, nth i hs VNone = VCell l -> VNone <> VCell l) by discriminate.
    destruct k as [|g|]; [| |congruence].
    - pose proof (sim_store s hs a e VNone true S Logic.I NN) as S1. cbn in S1.
      set (s2 := set_dict s (cur s) (dset (dict_at s (cur s)) (nat_str e) VNone)) in *.
      exact (sim_store s2 hs _ e VNone false S1 Logic.I NN).
    - pose proof (alloc_ext s (g e)) as E. pose proof (alloc_content s (g e)) as Cx. pose proof (alloc_fresh s (g e)) as F.
      destruct (alloc s (g e)) as [s1 y]. cbn [fst snd] in *.
      assert (Iy : inb s1 y) by (destruct y; cbn in *; auto; lia).
      pose proof (sim_store s1 hs a e y true (sim_ext _ _ _ _ S E) Iy (fresh_nohandle _ _ _ _ _ S F)) as S1. cbn zeta in S1.
      rewrite Cx in S1.
      set (s2 := set_dict s1 (cur s1) (dset (dict_at s1 (cur s1)) (nat_str e) y)) in *.
      assert (Iy2 : inb s2 y) by exact Iy.
      assert (Cx2 : content s2 y = Some (g e)) by exact Cx.
      pose proof (deepcopy_spec s2 y Iy2) as H. destruct (deepcopy s2 y) as [s3 z].
      destruct H as (E3 & C3 & F3 & I3).
      pose proof (sim_store s3 hs _ e z false (sim_ext _ _ _ _ S1 E3) I3 (fresh_nohandle _ _ _ _ _ S1 F3)) as S3.
      cbn zeta in S3. rewrite C3, Cx2 in S3. exact S3.
  Qed.

  Lemma sim_init_fold k es : k <> UnknownName -> forall s hs a, sim s hs a ->
    let p (m : smap V) := fun e => if existsb (Nat.eqb e) es then Some (match k with Standard g => Some (g e) | _ => None end) else m e in
    sim (fold_left (init_element k) es s) hs (mkSpec (p (s_cur a)) (p (s_old a)) (s_hand a)).
  Proof.
    intros Hk. induction es as [|e es IH]; intros s hs a S p; cbn [fold_left].
    - destruct S; constructor; auto.
    - pose proof (IH _ _ _ (sim_init_element k s hs a e S Hk)) as H. cbn [s_cur s_old s_hand] in H.
      eapply sim_spec_ext; [exact H| | |reflexivity]; intros x; cbn [s_cur s_old]; unfold p, sput; cbn [existsb];
      destruct (Nat.eqb_spec x e); [subst| |subst|]; cbn [orb]; auto; destruct (existsb _ es); auto.
  Qed.

  (** One step of a copying program. *)
  Theorem step_sim s hs a o : sim s hs a -> copying o ->
    let '((s', hs'), r) := step (s, hs) o in let '(a', r') := sstep a o in sim s' hs' a' /\ r = r'.
  Proof.
    intros S Cp. destruct o as [v|h v|h|e h t b|e t b|b|m k es]; cbn [step sstep copying] in *; try subst b.
    - pose proof (sim_push s _ hs a _ (Some v) S (alloc_ext s v) (alloc_fresh s v) (alloc_content s v)) as H.
      destruct (alloc s v). cbn [fst snd] in H. auto.
    - split; auto. apply sim_write; auto.
    - split; auto. rewrite (hand_nth s hs a h S). auto.
    - unfold update_element_state. pose proof (deepcopy_spec s _ (sim_hin _ _ _ S h)) as H.
      destruct (deepcopy s (nth h hs VNone)) as [s1 y]. destruct H as (E & Cy & F & I).
      pose proof (fresh_nohandle _ _ _ _ _ S F) as NH. pose proof (sim_ext _ _ _ _ S E) as S1.
      rewrite (hand_nth s hs a h S), <- Cy. destruct t; cbn [rbind].
      + split; auto. apply (sim_store s1 hs a e y false S1 I NH).
      + split; auto. apply (sim_store s1 hs a e y true S1 I NH).
      + split; auto.
    - unfold get_element_state, dlookup.
      assert (G : forall d (m : smap V), din s d -> (forall e, view s d e = m e) ->
        let '((s', hs'), r) :=
          (let '(s1, r) := match (match dget (dict_at s d) (nat_str e) with Some v => Ok v | None => Err KeyError end) with
            | Ok x => let '(s1, y) := deepcopy s x in (s1, Ok y) | Err x => (s, Err x) end in
           match r with Ok x => ((s1, hs ++ [x]), Ok (content s1 x)) | Err x => ((s1, hs), Err x) end) in
        let '(a', r') := match m e with Some x => (mkSpec (s_cur a) (s_old a) (s_hand a ++ [x]), Ok x) | None => (a, Err KeyError) end in
        sim s' hs' a' /\ r = r').
      { intros d m Di Hm. specialize (Hm e). unfold view in Hm. destruct (dget (dict_at s d) (nat_str e)) as [x|] eqn:Q.
        - pose proof (deepcopy_spec s x (din_get _ _ _ _ Di Q)) as H. destruct (deepcopy s x) as [s1 y].
          destruct H as (E & Cy & F & I). rewrite <- Hm. split; [|rewrite Cy; auto].
          apply (sim_push s s1 hs a y _ S E F Cy).
        - rewrite <- Hm. auto. }
      destruct t.
      + apply (G (old s) (s_old a) (sim_oin _ _ _ S) (sim_old _ _ _ S)).
      + apply (G (cur s) (s_cur a) (sim_cin _ _ _ S) (sim_cur _ _ _ S)).
      + auto.
    - split; auto. apply sim_commit; auto.
    - unfold init_elements_model, sinit. destruct k as [|g|]; [|destruct m|]; cbn [rbind]; auto.
      + split; auto. apply (sim_init_fold Recurrent es); [discriminate|]. destruct S; constructor; auto.
      + split; auto. apply (sim_init_fold (Standard g) es); [discriminate|]. destruct S; constructor; auto.
  Qed.

  Theorem run_sim ops : forall s hs a, sim s hs a -> Forall copying ops ->
    let '((s', hs'), r) := run (s, hs) ops in let '(a', r') := srun a ops in sim s' hs' a' /\ r = r'.
  Proof.
    induction ops as [|o ops IH]; intros s hs a S Cp; cbn [run srun]; auto.
    inversion Cp as [|? ? Ho Hops]; subst. pose proof (step_sim s hs a o S Ho) as H.
    destruct (step (s, hs) o) as [[s1 hs1] r]. destruct (sstep a o) as [a1 r']. destruct H as (S1 & ->).
    specialize (IH s1 hs1 a1 S1 Hops).
    destruct (run (s1, hs1) ops) as [[s2 hs2] rs]. destruct (srun a1 ops) as [a2 rs']. destruct IH as (S2 & ->). auto.
  Qed.

  Lemma sim0 : sim init_state [] spec0.
  Proof.
    assert (N : forall i, nth i (@nil val) VNone = VNone) by (intros [|i]; auto).
    constructor; try (cbn; lia); try reflexivity.
    - intros k x H. destruct H.
    - intros k x H. destruct H.
    - intros i. rewrite N. exact Logic.I.
    - intros i j l. rewrite N. discriminate.
    - intros i l k. rewrite N. discriminate.
  Qed.
End Proofs.
