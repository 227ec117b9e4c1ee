(** Channels of hybridised models: grouping by row, order by column, rejection
    of duplicate positions, independence of the dictionary order; evaluation. *)
From Coq Require Import String List Bool Arith ZArith Lia Sorted Permutation.
From Verif Require Import Lib PyDict HybridModel HybridSpec.
Import ListNotations.
Local Open Scope list_scope.

(** ** Stable sorting *)
Lemma insert_map : forall {A B} (f : A -> B) (key : B -> Z) x l,
  map f (insert (fun a => key (f a)) x l) = insert key (f x) (map f l).
Proof. intros. induction l as [|y t IH]; cbn; [reflexivity|]. destruct (_ <=? _)%Z; cbn; [reflexivity|]. now rewrite IH. Qed.
Lemma isort_map : forall {A B} (f : A -> B) (key : B -> Z) l,
  map f (isort (fun a => key (f a)) l) = isort key (map f l).
Proof. intros. induction l as [|y t IH]; cbn; [reflexivity|]. now rewrite insert_map, IH. Qed.
Lemma insert_perm : forall {A} (key : A -> Z) x l, Permutation (insert key x l) (x :: l).
Proof.
  intros. induction l as [|y t IH]; cbn; [apply Permutation_refl|].
  destruct (_ <=? _)%Z; [apply Permutation_refl|].
  eapply Permutation_trans; [apply perm_skip; exact IH|]. apply perm_swap.
Qed.
Lemma isort_perm : forall {A} (key : A -> Z) l, Permutation (isort key l) l.
Proof.
  intros. induction l as [|y t IH]; cbn; [constructor|].
  eapply Permutation_trans; [apply insert_perm|]. now apply perm_skip.
Qed.
Lemma insert_ext : forall {A} (k k' : A -> Z) x l, (forall a, In a (x :: l) -> k a = k' a) -> insert k x l = insert k' x l.
Proof.
  intros A k k' x l; induction l as [|y t IH]; intros Hk; cbn; [reflexivity|].
  rewrite <- (Hk x (or_introl eq_refl)), <- (Hk y (or_intror (or_introl eq_refl))).
  destruct (_ <=? _)%Z; [reflexivity|]. rewrite IH; [reflexivity|].
  intros a [->|Ha]; apply Hk; cbn; auto.
Qed.
Lemma isort_ext : forall {A} (k k' : A -> Z) l, (forall a, In a l -> k a = k' a) -> isort k l = isort k' l.
Proof.
  intros A k k' l; induction l as [|y t IH]; intros Hk; cbn; [reflexivity|].
  rewrite IH by (intros; apply Hk; now right).
  apply insert_ext. intros a [->|Ha]; apply Hk; [now left|]. right.
  eapply Permutation_in; [apply isort_perm|exact Ha].
Qed.
Lemma nth_seq_map : forall {A} (d : A) l, map (fun i => nth i l d) (seq 0 (length l)) = l.
Proof.
  intros A d l. induction l as [|x t IH]; cbn; [reflexivity|]. f_equal.
  rewrite <- seq_shift, map_map. exact IH.
Qed.
(** gathering by the sorted indices of the keys sorts the list *)
Lemma argsort_gather : forall {A} (d : A) (key : A -> Z) (l : list A) (kd : key d = 0%Z),
  gather d l (argsort (map key l)) = isort key l.
Proof.
  intros A d key l kd. unfold gather, argsort. rewrite map_length.
  rewrite (isort_ext (fun i => nth i (map key l) 0%Z) (fun i => key (nth i l d))).
  - rewrite (isort_map (fun i => nth i l d) key). now rewrite nth_seq_map.
  - intros i _. rewrite <- kd. apply map_nth.
Qed.
Lemma argsort_gather2 : forall {A B} (db : B) (g : A -> B) (key : A -> Z) (l : list A),
  gather db (map g l) (argsort (map key l)) = map g (isort key l).
Proof.
  intros A B db g key l. destruct l as [|x0 t0]; [reflexivity|]. set (l := x0 :: t0).
  unfold gather, argsort. rewrite map_length.
  rewrite (isort_ext (fun i => nth i (map key l) 0%Z) (fun i => key (nth i l x0))).
  - assert (E : isort key l = map (fun i => nth i l x0) (isort (fun i => key (nth i l x0)) (seq 0 (length l)))).
    { rewrite (isort_map (fun i => nth i l x0) key). now rewrite nth_seq_map. }
    rewrite E, map_map.
    apply map_ext_in. intros i Hi.
    assert (i < length l)%nat.
    { apply (Permutation_in _ (isort_perm _ _)) in Hi. apply in_seq in Hi. lia. }
    rewrite <- (map_nth g). apply nth_indep. now rewrite map_length.
  - intros i Hi. apply in_seq in Hi. rewrite <- (map_nth key). apply nth_indep. rewrite map_length. lia.
Qed.

Definition lexle (p q : Z * Z) : Prop := (fst p < fst q)%Z \/ (fst p = fst q /\ (snd p <= snd q)%Z).
Definition lexlt (p q : Z * Z) : Prop := (fst p < fst q)%Z \/ (fst p = fst q /\ (snd p < snd q)%Z).

Lemma insert_sorted : forall {A} (key : A -> Z) x l,
  StronglySorted (fun a b => (key a <= key b)%Z) l -> StronglySorted (fun a b => (key a <= key b)%Z) (insert key x l).
Proof.
  intros A key x l H. induction H as [|y t Ht IH Hy]; cbn; [repeat constructor|].
  destruct (key x <=? key y)%Z eqn:E.
  - apply Z.leb_le in E. constructor; [constructor; auto|]. constructor; [exact E|].
    eapply Forall_impl; [|exact Hy]. cbn; intros; lia.
  - apply Z.leb_gt in E. constructor; [exact IH|].
    apply Forall_forall. intros a Ha. apply (Permutation_in _ (insert_perm key x t)) in Ha. destruct Ha as [->|Ha]; [lia|].
    rewrite Forall_forall in Hy. now apply Hy.
Qed.
Lemma isort_sorted : forall {A} (key : A -> Z) l, StronglySorted (fun a b => (key a <= key b)%Z) (isort key l).
Proof. intros. induction l as [|x t IH]; cbn; [constructor|]. now apply insert_sorted. Qed.

(** stable sort by the first component of a list sorted by the second *)
Lemma insert_lex : forall {A} (p : A -> Z * Z) x l,
  StronglySorted (fun a b => lexle (p a) (p b)) l -> Forall (fun y => (snd (p x) <= snd (p y))%Z) l ->
  StronglySorted (fun a b => lexle (p a) (p b)) (insert (fun a => fst (p a)) x l).
Proof.
  intros A p x l H. induction H as [|y t Ht IH Hy]; cbn; intros Hx; [repeat constructor|].
  inversion_clear Hx as [|? ? Hxy Hxt].
  destruct (fst (p x) <=? fst (p y))%Z eqn:E.
  - apply Z.leb_le in E. constructor; [constructor; auto|]. constructor; [unfold lexle; lia|].
    rewrite Forall_forall in *. intros a Ha. specialize (Hy a Ha). specialize (Hxt a Ha). unfold lexle in *. lia.
  - apply Z.leb_gt in E. constructor; [now apply IH|].
    apply Forall_forall. intros a Ha. apply (Permutation_in _ (insert_perm _ x t)) in Ha.
    destruct Ha as [<-|Ha]; [left; lia|]. rewrite Forall_forall in Hy. now apply Hy.
Qed.
Lemma isort_lex : forall {A} (p : A -> Z * Z) l,
  StronglySorted (fun a b => (snd (p a) <= snd (p b))%Z) l ->
  StronglySorted (fun a b => lexle (p a) (p b)) (isort (fun a => fst (p a)) l).
Proof.
  intros A p l H. induction H as [|x t Ht IH Hx]; cbn; [constructor|].
  apply insert_lex; [exact IH|]. rewrite Forall_forall in *. intros y Hy. apply Hx.
  eapply Permutation_in; [apply isort_perm|exact Hy].
Qed.

(** ** The loop forming the channels *)
Lemma skipn_next : forall {A} n (l : list A) x t, skipn n l = x :: t -> skipn (S n) l = t.
Proof.
  induction n as [|n IH]; intros l x t H; [cbn in H; now subst l|].
  destruct l as [|y l]; [discriminate|]. cbn [skipn] in *. now apply (IH l x).
Qed.
Section Loop.
  Variable ps : list (Z * Z).
  Let P i := nth i ps (0, 0)%Z.
  Hypothesis sorted : forall i j, (i < j < length ps)%nat -> lexle (P i) (P j).

  Definition grp (g : list nat) : Prop := g <> [] /\ forall i j, In i g -> In j g -> fst (P i) = fst (P j).
  Definition bef (g h : list nat) : Prop := forall i j, In i g -> In j h -> (fst (P i) < fst (P j))%Z.

  Lemma ss_snoc : forall {A} (Rel : A -> A -> Prop) l x,
    StronglySorted Rel l -> Forall (fun y => Rel y x) l -> StronglySorted Rel (l ++ [x]).
  Proof.
    intros A Rel l x H. induction H as [|y t Ht IH Hy]; cbn; intros F; [repeat constructor|].
    inversion_clear F. constructor; [auto|]. apply Forall_app. split; [exact Hy|]. now constructor.
  Qed.
  Lemma ss_snoc_inv : forall {A} (Rel : A -> A -> Prop) l x,
    StronglySorted Rel (l ++ [x]) -> StronglySorted Rel l /\ Forall (fun y => Rel y x) l.
  Proof.
    intros A Rel l x. induction l as [|y t IH]; cbn; intros H; [split; constructor|].
    inversion_clear H as [|? ? H1 H2]. destruct (IH H1) as [IHa IHb]. apply Forall_app in H2 as [H2 H3].
    split; constructor; auto. now inversion_clear H3.
  Qed.

  Lemma loop_inv : forall l cur acc idx res,
    skipn idx ps = l -> (0 < idx <= length ps)%nat ->
    concat acc ++ cur = seq 0 idx -> In (idx - 1)%nat cur ->
    Forall grp (acc ++ [cur]) -> StronglySorted bef (acc ++ [cur]) ->
    (forall i, (S i < idx)%nat -> P i <> P (S i)) ->
    channels (Some (P (idx - 1))) cur acc idx l = Ok res ->
    concat res = seq 0 (length ps) /\ Forall grp res /\ StronglySorted bef res /\
    (forall i, (S i < length ps)%nat -> P i <> P (S i)).
  Proof.
    induction l as [|[r c] t IH]; intros cur acc idx res Hl Hidx Hc Hlast Hg Hs Hd H.
    - cbn in H. injection H as <-.
      assert (idx = length ps).
      { assert (length (skipn idx ps) = 0%nat) by now rewrite Hl. rewrite skipn_length in H. lia. }
      subst idx. rewrite concat_app. cbn. rewrite app_nil_r. repeat split; auto.
    - assert (Hlt : (idx < length ps)%nat).
      { assert (length (skipn idx ps) = S (length t)) by now rewrite Hl. rewrite skipn_length in H0. lia. }
      assert (Hp : P idx = (r, c)).
      { unfold P. rewrite <- (firstn_skipn idx ps), Hl, app_nth2; rewrite firstn_length_le by lia; [|lia].
        now rewrite Nat.sub_diag. }
      assert (Ht : skipn (S idx) ps = t).
      { exact (skipn_next _ _ _ _ Hl). }
      cbn [channels] in H. destruct cur as [|i0 cur']; [destruct Hlast|]. set (cur := i0 :: cur') in *.
      destruct (P (idx - 1)) as [r' c'] eqn:Ep.
      assert (HS : P (S idx - 1) = (r, c)) by (replace (S idx - 1)%nat with idx by lia; exact Hp).
      destruct (r =? r')%Z eqn:Er.
      + apply Z.eqb_eq in Er. subst r'. destruct (c =? c')%Z eqn:Ec; [discriminate|]. apply Z.eqb_neq in Ec.
        apply Forall_app in Hg as [Hga Hgc]. inversion_clear Hgc as [|? ? [Hne Hrow] _].
        apply ss_snoc_inv in Hs as [Hsa Hsb].
        assert (Hin : forall i, In i (cur ++ [idx]) -> fst (P i) = r).
        { intros i Hi. apply in_app_iff in Hi as [Hi|[<-|[]]]; [|now rewrite Hp].
          rewrite (Hrow i (idx - 1)%nat Hi Hlast), Ep. reflexivity. }
        rewrite <- HS in H. eapply IH; [exact Ht|lia| | | | | |exact H].
        * rewrite app_assoc, Hc, seq_S. reflexivity.
        * replace (S idx - 1)%nat with idx by lia. apply in_app_iff. right. now left.
        * apply Forall_app. split; [exact Hga|]. constructor; [|constructor]. split; [now destruct cur|].
          intros i j Hi Hj. now rewrite (Hin i), (Hin j).
        * apply ss_snoc; [exact Hsa|]. eapply Forall_impl; [|exact Hsb]. cbn. intros g Hbg i j Hi Hj.
          rewrite (Hin j Hj). specialize (Hbg i (idx - 1)%nat Hi Hlast). rewrite Ep in Hbg. exact Hbg.
        * intros i Hi. destruct (Nat.eq_dec (S i) idx) as [E|E]; [|apply Hd; lia].
          rewrite E, Hp. replace i with (idx - 1)%nat by lia. rewrite Ep. congruence.
      + apply Z.eqb_neq in Er.
        assert (Hlex : lexle (P (idx - 1)%nat) (P idx)) by (apply sorted; lia).
        rewrite Ep, Hp in Hlex. unfold lexle in Hlex; cbn [fst snd] in Hlex.
        rewrite <- HS in H. eapply IH; [exact Ht|lia| | | | | |exact H].
        * rewrite concat_app. cbn [concat]. rewrite app_nil_r, Hc, seq_S. reflexivity.
        * replace (S idx - 1)%nat with idx by lia. now left.
        * apply Forall_app. split; [exact Hg|]. constructor; [|constructor]. split; [discriminate|].
          intros i j [<-|[]] [<-|[]]. reflexivity.
        * apply ss_snoc; [exact Hs|]. apply Forall_forall. intros g Hgin i j Hi [<-|[]]. rewrite Hp; cbn [fst].
          assert (Hii : In i (seq 0 idx)).
          { rewrite <- Hc. apply in_app_iff in Hgin as [Hgin|[<-|[]]]; apply in_app_iff; [left|now right].
            apply in_concat. eauto. }
          apply in_seq in Hii. destruct (Nat.eq_dec i (idx - 1)) as [->|E]; [rewrite Ep; cbn; lia|].
          assert (lexle (P i) (P (idx - 1)%nat)) by (apply sorted; lia). rewrite Ep in H0. unfold lexle in H0; cbn [fst snd] in H0. lia.
        * intros i Hi. destruct (Nat.eq_dec (S i) idx) as [E|E]; [|apply Hd; lia].
          rewrite E, Hp. replace i with (idx - 1)%nat by lia. rewrite Ep. congruence.
  Qed.

  Lemma loop_err : forall l cur acc idx e,
    skipn idx ps = l -> (0 < idx <= length ps)%nat -> cur <> [] ->
    channels (Some (P (idx - 1))) cur acc idx l = Err e ->
    e = RuntimeError /\ exists i, (S i < length ps)%nat /\ P i = P (S i).
  Proof.
    induction l as [|[r c] t IH]; intros cur acc idx e Hl Hidx Hne H; [discriminate|].
    assert (Hlt : (idx < length ps)%nat).
    { assert (length (skipn idx ps) = S (length t)) by now rewrite Hl. rewrite skipn_length in H0. lia. }
    assert (Hp : P idx = (r, c)).
    { unfold P. rewrite <- (firstn_skipn idx ps), Hl, app_nth2; rewrite firstn_length_le by lia; [|lia].
      now rewrite Nat.sub_diag. }
    assert (Ht : skipn (S idx) ps = t).
    { exact (skipn_next _ _ _ _ Hl). }
    assert (HS : P (S idx - 1) = (r, c)) by (replace (S idx - 1)%nat with idx by lia; exact Hp).
    cbn [channels] in H. destruct cur as [|i0 cur']; [contradiction|].
    destruct (P (idx - 1)) as [r' c'] eqn:Ep.
    destruct (r =? r')%Z eqn:Er; [destruct (c =? c')%Z eqn:Ec|].
    - injection H as <-. split; [reflexivity|]. exists (idx - 1)%nat. split; [lia|].
      replace (S (idx - 1))%nat with idx by lia. rewrite Ep, Hp.
      apply Z.eqb_eq in Er, Ec. congruence.
    - rewrite <- HS in H. eapply IH; [exact Ht|lia| |exact H]. now destruct cur'.
    - rewrite <- HS in H. eapply IH; [exact Ht|lia| |exact H]. discriminate.
  Qed.
End Loop.

(** ** Channels of a dictionary of models *)
Lemma hd_app_sorted : forall {A} (Rel : A -> A -> Prop) (dA : A) l, StronglySorted Rel l ->
  forall i j, (i < j < length l)%nat -> Rel (nth i l dA) (nth j l dA).
Proof.
  intros A Rel dA l H. induction H as [|x t Ht IH Hx]; intros i j Hij; cbn in Hij; [lia|].
  destruct j as [|j]; [lia|]. destruct i as [|i]; cbn.
  - rewrite Forall_forall in Hx. apply Hx. apply nth_In. lia.
  - apply IH. lia.
Qed.
Lemma sorted_perm_unique : forall {A} (Rel : A -> A -> Prop), (forall a b, Rel a b -> Rel b a -> False) ->
  forall l l', StronglySorted Rel l -> StronglySorted Rel l' -> Permutation l l' -> l = l'.
Proof.
  intros A Rel anti l l' H. revert l'. induction H as [|x t Ht IH Hx]; intros l' H' Hp.
  - symmetry. now apply Permutation_nil.
  - destruct H' as [|y t' Ht' Hy]; [now apply Permutation_sym, Permutation_nil in Hp|].
    assert (x = y).
    { assert (Hin : In x (y :: t')) by (eapply Permutation_in; [exact Hp|now left]). destruct Hin as [->|Hin]; [reflexivity|].
      assert (Hin' : In y (x :: t)) by (eapply Permutation_in; [apply Permutation_sym; exact Hp|now left]).
      destruct Hin' as [->|Hin']; [reflexivity|]. exfalso. rewrite Forall_forall in Hx, Hy. eapply anti; eauto. }
    subst y. f_equal. apply IH; [exact Ht'|]. now apply Permutation_cons_inv in Hp.
Qed.

Section Channels.
  Context {Fe : Type}.
  Implicit Types d : dict (hmodel Fe).
  Let E0 : string * hmodel Fe := (EmptyString, mkHm 0 0 false (fun x => x) false false None).
  Definition pe (e : string * hmodel Fe) : Z * Z := pos (snd e).
  Definition sorted_entries d : list (string * hmodel Fe) :=
    isort (fun e => fst (pe e)) (isort (fun e => snd (pe e)) d).

  Lemma sorted_entries_perm : forall d, Permutation (sorted_entries d) d.
  Proof. intros. unfold sorted_entries. eapply Permutation_trans; apply isort_perm. Qed.
  Lemma sorted_entries_lex : forall d, StronglySorted (fun a b => lexle (pe a) (pe b)) (sorted_entries d).
  Proof. intros. apply isort_lex. apply isort_sorted. Qed.

  Lemma get_channels_eq : forall d,
    get_channels d = rbind (channels None [] [] 0 (map pe (sorted_entries d)))
                       (fun ch => Ok (map fst (sorted_entries d), ch)).
  Proof.
    intros d. unfold get_channels. rewrite !map_map. cbn [snd].
    change (map (fun p => (h_row (snd p), h_col (snd p))) d) with (map pe d).
    rewrite (argsort_gather2 EmptyString fst (fun x => h_col (snd x)) d).
    rewrite (argsort_gather2 (0, 0)%Z pe (fun x => h_col (snd x)) d). rewrite !map_map.
    rewrite (argsort_gather2 EmptyString fst (fun x => fst (pe x))).
    rewrite (argsort_gather2 (0, 0)%Z pe (fun x => fst (pe x))). reflexivity.
  Qed.

  Lemma nodup_lexlt : forall l : list (string * hmodel Fe), StronglySorted (fun a b => lexle (pe a) (pe b)) l ->
    NoDup (map pe l) -> StronglySorted (fun a b => lexlt (pe a) (pe b)) l.
  Proof.
    intros l H. induction H as [|x t Ht IH Hx]; cbn; intros Hn; [constructor|].
    inversion_clear Hn as [|? ? Hnin Hn']. constructor; [auto|]. rewrite Forall_forall in *. intros y Hy.
    specialize (Hx y Hy). assert (pe x <> pe y) by (intros E; apply Hnin; rewrite E; now apply in_map).
    destruct (pe x), (pe y). unfold lexle, lexlt in *; cbn [fst snd] in *.
    destruct (Z.eq_dec z z1), (Z.eq_dec z0 z2); subst; try congruence; lia.
  Qed.
  Lemma lexlt_nodup : forall l : list (Z * Z), StronglySorted lexlt l -> NoDup l.
  Proof.
    intros l H. induction H as [|x t Ht IH Hx]; constructor; [|exact IH].
    intros Hin. rewrite Forall_forall in Hx. specialize (Hx x Hin). unfold lexlt in Hx. lia.
  Qed.

  (** the loop from its start *)
  Lemma channels_start : forall l p t, l = p :: t -> channels None [] [] 0 l = channels (Some p) [0%nat] [] 1 t.
  Proof. intros l [r c] t ->. reflexivity. Qed.

  Lemma channels_ok : forall l chs, StronglySorted lexle l -> l <> [] -> channels None [] [] 0 l = Ok chs ->
    concat chs = seq 0 (length l) /\ Forall (grp l) chs /\ StronglySorted (bef l) chs /\ StronglySorted lexlt l.
  Proof.
    intros l chs Hs Hne H. destruct l as [|p t] eqn:El; [contradiction|]. rewrite <- El in *.
    rewrite (channels_start l p t El) in H.
    assert (Hp : p = nth (1 - 1) l (0, 0)%Z) by (rewrite El; reflexivity). rewrite Hp in H.
    assert (Hsort : forall i j, (i < j < length l)%nat -> lexle (nth i l (0, 0)%Z) (nth j l (0, 0)%Z))
      by (apply (hd_app_sorted lexle); exact Hs).
    apply (loop_inv l Hsort) in H.
    - destruct H as [H1 [H2 [H3 H4]]]. repeat split; auto.
      clear - Hs H4. induction Hs as [|x u Hu IH Hx]; [constructor|]. constructor.
      + apply IH. intros i Hi. apply (H4 (S i)). cbn. lia.
      + apply Forall_forall. intros y Hy. destruct u as [|z u']; [destruct Hy|].
        assert (Hxz : lexlt x z).
        { specialize (H4 0%nat ltac:(cbn; lia)). cbn in H4. inversion_clear Hx as [|? ? Hxz _].
          destruct x as [x1 x2], z as [z1 z2]. unfold lexle, lexlt in *; cbn [fst snd] in *.
          destruct (Z.eq_dec x1 z1), (Z.eq_dec x2 z2); subst; try congruence; lia. }
        destruct Hy as [->|Hy]; [exact Hxz|]. inversion_clear Hu as [|? ? _ Hz]. rewrite Forall_forall in Hz.
        specialize (Hz y Hy). unfold lexle, lexlt in *. lia.
    - rewrite El. reflexivity.
    - rewrite El. cbn. lia.
    - reflexivity.
    - now left.
    - constructor; [|constructor]. split; [discriminate|]. intros i j [<-|[]] [<-|[]]. reflexivity.
    - repeat constructor.
    - intros i Hi. lia.
  Qed.

  Lemma dget_in_nodup : forall d n m, NoDup (dkeys d) -> In (n, m) d -> dlookup d n = Ok m.
  Proof.
    intros d n m Hn Hin. unfold dlookup. now rewrite (in_dget d n m Hn Hin).
  Qed.

  (** C42: the channels group the models by row, in ascending rows, with
      ascending columns, each model once *)
  Theorem channels_group_by_row : forall d names chs, d <> [] -> NoDup (dkeys d) ->
    get_channels d = Ok (names, chs) ->
    exists gs, good_channels d gs /\ Forall2 (fun ch g => channel_models d names ch = Ok (map snd g)) chs gs.
  Proof.
    intros d names chs Hne Hn H. rewrite get_channels_eq in H.
    destruct (channels _ _ _ _ _) as [chs'|] eqn:Ec; [|discriminate]. cbn in H. injection H as <- <-.
    set (SE := sorted_entries d) in *.
    assert (HP : Permutation SE d) by apply sorted_entries_perm.
    assert (Hlex : StronglySorted lexle (map pe SE)).
    { pose proof (sorted_entries_lex d) as H. fold SE in H. clear - H. induction H as [|x t Ht IH Hx]; cbn; [constructor|].
      constructor; [exact IH|]. apply Forall_map. exact Hx. }
    apply channels_ok in Ec; [|exact Hlex|].
    2:{ intros E. apply map_eq_nil in E. rewrite E in HP. apply Permutation_nil in HP. contradiction. }
    destruct Ec as [Hc [Hg [Hb Hlt]]]. rewrite map_length in Hc.
    set (get := fun i => nth i SE E0).
    assert (Hpos : forall i, nth i (map pe SE) (0, 0)%Z = pe (get i)).
    { intros i. unfold get. change (0, 0)%Z with (pe E0). apply map_nth. }
    assert (Hrange : forall ch i, In ch chs' -> In i ch -> (i < length SE)%nat).
    { intros ch i Hch Hi. assert (In i (seq 0 (length SE))) by (rewrite <- Hc; apply in_concat; eauto).
      apply in_seq in H. lia. }
    exists (map (map get) chs'). split.
    - split; [|split].
      + rewrite <- concat_map, Hc. unfold get. rewrite nth_seq_map. exact HP.
      + apply Forall_map. rewrite Forall_forall in *. intros ch Hch. destruct (Hg ch Hch) as [Hne' Hrow].
        split; [|split].
        * intros E. apply map_eq_nil in E. contradiction.
        * intros a b Ha Hb'. apply in_map_iff in Ha as [i [<- Hi]]. apply in_map_iff in Hb' as [j [<- Hj]].
          specialize (Hrow i j Hi Hj). rewrite !Hpos in Hrow. exact Hrow.
        * assert (Hinc : StronglySorted lt ch).
          { assert (Hall : forall n k, StronglySorted lt (seq k n)).
            { induction n as [|n IHn]; intros k; cbn; [constructor|]. constructor; [apply IHn|].
              apply Forall_forall. intros z Hz. apply in_seq in Hz. lia. }
            specialize (Hall (length SE) 0%nat). rewrite <- Hc in Hall.
            destruct (in_split _ _ Hch) as [l1 [l2 E]]. rewrite E, concat_app in Hall. cbn in Hall.
            clear - Hall. induction (concat l1) as [|z u IHu]; cbn in Hall.
            - revert Hall. generalize (concat l2). intros l2'. induction ch as [|y ch IHc]; cbn; intros H; [constructor|].
              inversion_clear H as [|? ? H1 H2]. constructor; [now apply IHc|]. now apply Forall_app in H2.
            - inversion_clear Hall. auto. }
          assert (Hin : forall i, In i ch -> (i < length SE)%nat) by (intros; eauto).
          clear - Hinc Hrow Hlt Hpos Hin. induction Hinc as [|i t Ht IH Hi]; cbn; [constructor|]. constructor.
          -- apply IH; [intros; apply Hrow; now right|intros; apply Hin; now right].
          -- apply Forall_map, Forall_forall. intros j Hj. rewrite Forall_forall in Hi. specialize (Hi j Hj).
             pose proof (hd_app_sorted lexlt (0, 0)%Z _ Hlt i j) as L. rewrite map_length in L.
             specialize (L (conj Hi (Hin j (or_intror Hj)))).
             specialize (Hrow i j (or_introl eq_refl) (or_intror Hj)).
             rewrite !Hpos in *. unfold lexlt, pe, pos in *; cbn [fst snd] in *. unfold col_lt. lia.
      + clear - Hb Hpos. induction Hb as [|g t Ht IH Hg]; cbn; [constructor|]. constructor; [exact IH|].
        apply Forall_map. eapply Forall_impl; [|exact Hg]. intros h Hgh a b Ha Hb.
        apply in_map_iff in Ha as [i [<- Hi]]. apply in_map_iff in Hb as [j [<- Hj]].
        specialize (Hgh i j Hi Hj). cbv beta zeta in Hgh. rewrite !Hpos in Hgh. exact Hgh.
    - assert (Hmod : forall ch, In ch chs' -> channel_models d (map fst SE) ch = Ok (map snd (map get ch))).
      { intros ch Hch. assert (Hin : forall i, In i ch -> (i < length SE)%nat) by (intros; eauto). clear Hch.
        unfold channel_models. induction ch as [|i t IH]; cbn; [reflexivity|].
        rewrite nth_error_map, (nth_error_nth' SE E0) by (apply Hin; now left). cbn [option_map].
        fold (get i). destruct (get i) as [n m] eqn:Eg. cbn [fst].
        rewrite (dget_in_nodup d n m Hn).
        - cbn [rbind]. rewrite IH by (intros; apply Hin; now right). reflexivity.
        - eapply Permutation_in; [exact HP|]. rewrite <- Eg. apply nth_In. apply Hin. now left. }
      clear - Hmod. induction chs' as [|ch t IH]; cbn; constructor.
      + apply Hmod. now left.
      + apply IH. intros. apply Hmod. now right.
  Qed.

  (** C42: the grouping is determined by the set of entries *)
  Theorem good_channels_unique : forall d d' gs gs', Permutation d d' ->
    good_channels d gs -> good_channels d' gs' -> gs = gs'.
  Proof.
    intros d d' gs gs' HP [P1 [G1 S1]] [P2 [G2 S2]].
    assert (Lex : forall gs, Forall (@good_channel Fe) gs -> StronglySorted before gs ->
      StronglySorted (fun a b => lexlt (pe a) (pe b)) (concat gs)).
    { clear. intros gs G S. induction S as [|g t Ht IH Hg]; cbn; [constructor|]. inversion_clear G as [|? ? Gg Gt].
      specialize (IH Gt). destruct Gg as [_ [Hrow Hcol]].
      assert (Hgt : forall a b, In a g -> In b (concat t) -> lexlt (pe a) (pe b)).
      { intros a b Ha Hb. apply in_concat in Hb as [h [Hh Hb]]. rewrite Forall_forall in Hg. left. exact (Hg h Hh a b Ha Hb). }
      clear Hg. induction Hcol as [|a u Hu IHu Ha]; cbn; [exact IH|]. constructor.
      - apply IHu; intros; [apply Hrow; now right|]. apply Hgt; [now right|auto].
      - apply Forall_app. split.
        + rewrite Forall_forall in *. intros b Hb. right. split; [apply (Hrow a b); [now left|now right]|]. exact (Ha b Hb).
        + apply Forall_forall. intros b Hb. apply Hgt; [now left|exact Hb]. }
    assert (EC : concat gs = concat gs').
    { apply (sorted_perm_unique (fun a b => lexlt (pe a) (pe b))); [unfold lexlt; intros; lia|auto|auto|].
      eapply Permutation_trans; [exact P1|]. eapply Permutation_trans; [exact HP|]. now apply Permutation_sym. }
    clear - EC G1 G2 S1 S2. revert gs' G2 S2 EC. induction S1 as [|g t Ht IH Hg]; intros gs' G2 S2 EC.
    - destruct gs' as [|g' t']; [reflexivity|]. inversion_clear G2 as [|? ? [Hne _] _]. destruct g'; [contradiction|discriminate].
    - inversion_clear G1 as [|? ? [Hne [Hrow _]] Gt]. destruct S2 as [|g' t' Ht' Hg'].
      + destruct g; [contradiction|discriminate].
      + inversion_clear G2 as [|? ? [Hne' [Hrow' _]] Gt']. cbn in EC.
        assert (Hlen : forall (g h : list (string * hmodel Fe)) t u, g <> [] -> (forall a b, In a h -> In b h -> same_row a b) ->
          Forall (before g) t -> g ++ concat t = h ++ u -> (length h <= length g)%nat).
        { clear. intros g h t u Hne Hrow Hb E. destruct (le_lt_dec (length h) (length g)) as [L|L]; [exact L|exfalso].
          assert (Eg : firstn (length g) h = g).
          { assert (E' : firstn (length g) (g ++ concat t) = firstn (length g) (h ++ u)) by now rewrite E.
            rewrite firstn_app, Nat.sub_diag, firstn_all in E'. cbn in E'. rewrite app_nil_r in E'.
            rewrite firstn_app in E'. replace (length g - length h)%nat with 0%nat in E' by lia. cbn in E'. now rewrite app_nil_r in E'. }
          rewrite <- (firstn_skipn (length g) h), Eg in E. rewrite <- app_assoc in E. apply app_inv_head in E.
          destruct (skipn (length g) h) as [|b v] eqn:Ev.
          { assert (length (skipn (length g) h) = 0%nat) by now rewrite Ev. rewrite skipn_length in H. lia. }
          destruct g as [|a g']; [contradiction|].
          assert (Hbin : In b (concat t)) by (rewrite E; now left). apply in_concat in Hbin as [k [Hk Hbk]].
          rewrite Forall_forall in Hb. specialize (Hb k Hk a b (or_introl eq_refl) Hbk).
          assert (same_row a b).
          { apply Hrow; rewrite <- (firstn_skipn (length (a :: g')) h), Eg, Ev; [now left|]. apply in_app_iff. right. now left. }
          unfold same_row in H. lia. }
        assert (length g = length g').
        { apply Nat.le_antisymm; [apply (Hlen g' g t' (concat t))|apply (Hlen g g' t (concat t'))]; auto. }
        assert (Eg : g = g').
        { assert (E' : firstn (length g) (g ++ concat t) = firstn (length g') (g' ++ concat t')) by (now rewrite EC, H).
          rewrite !firstn_app, !Nat.sub_diag, !firstn_all in E'. cbn in E'. now rewrite !app_nil_r in E'. }
        subst g'. apply app_inv_head in EC. f_equal. apply IH; auto.
  Qed.

  (** C42: two models at one position are rejected, and nothing else is *)
  Theorem channels_fail_iff_duplicate : forall d,
    (exists e, get_channels d = Err e) <-> ~ NoDup (map (fun e => pos (snd e)) d).
  Proof.
    intros d. rewrite get_channels_eq. change (fun e => pos (snd e)) with pe.
    assert (HPm : Permutation (map pe (sorted_entries d)) (map pe d)) by apply Permutation_map, sorted_entries_perm.
    assert (Hlex : StronglySorted lexle (map pe (sorted_entries d))).
    { pose proof (sorted_entries_lex d) as H. clear - H. induction H as [|x t Ht IH Hx]; cbn; [constructor|].
      constructor; [exact IH|]. apply Forall_map. exact Hx. }
    revert HPm Hlex. generalize (map pe (sorted_entries d)) as l, (map fst (sorted_entries d)) as nm, (map pe d) as l'.
    intros l nm l' HPm Hlex. destruct l as [|p t] eqn:El.
    { apply Permutation_nil in HPm. subst l'. split; [intros [e H]; discriminate|]. intros H. exfalso. apply H. constructor. }
    rewrite <- El in *. split.
    - intros [e H] Hnd. apply (Permutation_NoDup (Permutation_sym HPm)) in Hnd.
      destruct (channels None [] [] 0 l) as [|e'] eqn:Ec; [discriminate|].
      rewrite (channels_start l p t El) in Ec.
      assert (Hp : p = nth (1 - 1) l (0, 0)%Z) by (rewrite El; reflexivity). rewrite Hp in Ec.
      apply loop_err in Ec; [|now rewrite El|rewrite El; cbn; lia|discriminate].
      destruct Ec as [_ [i [Hi E]]]. assert (i = S i); [|lia].
      apply (proj1 (NoDup_nth l (0, 0)%Z) Hnd); [lia|lia|exact E].
    - intros Hnd. destruct (channels None [] [] 0 l) as [chs|e] eqn:Ec; [|now exists e].
      exfalso. apply Hnd. apply channels_ok in Ec; [|exact Hlex|now rewrite El].
      eapply Permutation_NoDup; [exact HPm|]. apply lexlt_nodup. apply Ec.
  Qed.
  Theorem channels_fail_runtime : forall d e, get_channels d = Err e -> e = RuntimeError.
  Proof.
    intros d e H. rewrite get_channels_eq in H. destruct (map pe (sorted_entries d)) as [|p t] eqn:El; [discriminate|].
    rewrite <- El in H. rewrite (channels_start _ p t El) in H.
    destruct (channels _ _ _ _ t) as [|e'] eqn:Ec; [discriminate|]. cbn in H. injection H as <-.
    assert (Hp : p = nth (1 - 1) (map pe (sorted_entries d)) (0, 0)%Z) by (rewrite El; reflexivity). rewrite Hp in Ec.
    apply loop_err in Ec; [apply Ec|now rewrite El|rewrite El; cbn; lia|discriminate].
  Qed.

  (** C42: the order in which the models were given does not matter *)
  Theorem channels_order_independent : forall d d', Permutation d d' ->
    NoDup (map (fun e => pos (snd e)) d) -> get_channels d = get_channels d'.
  Proof.
    intros d d' HP Hn. rewrite !get_channels_eq.
    assert (E : sorted_entries d = sorted_entries d'); [|now rewrite E].
    assert (HPs : Permutation (sorted_entries d) (sorted_entries d')).
    { eapply Permutation_trans; [apply sorted_entries_perm|]. eapply Permutation_trans; [exact HP|].
      apply Permutation_sym, sorted_entries_perm. }
    apply (sorted_perm_unique (fun a b => lexlt (pe a) (pe b))); [unfold lexlt; intros; lia| | |exact HPs];
      (apply nodup_lexlt; [apply sorted_entries_lex|]).
    - eapply Permutation_NoDup; [|exact Hn]. apply Permutation_map, Permutation_sym, sorted_entries_perm.
    - eapply Permutation_NoDup; [|exact Hn]. apply Permutation_map.
      eapply Permutation_trans; [exact HP|]. apply Permutation_sym, sorted_entries_perm.
  Qed.

  Variable cat : Fe -> Fe -> Fe.
  (** C42: each channel is the composition of its models in ascending columns *)
  Theorem forward_is_composition : forall hyb d gs x, d <> [] -> NoDup (dkeys d) ->
    good_channels d gs -> (forall n m, In (n, m) d -> scalable m) ->
    forward cat hyb d x = hyb (map (channel_output cat x) gs).
  Proof.
    intros hyb d gs x Hne Hn HG Hsc. unfold forward.
    destruct (get_channels d) as [[names chs]|e] eqn:Ec.
    - cbn [rbind]. destruct (channels_group_by_row d names chs Hne Hn Ec) as [gs' [HG' HF]].
      assert (gs' = gs) by (eapply good_channels_unique; [apply Permutation_refl|eassumption|eassumption]). subst gs'.
      assert (Hall : forall g, In g gs -> forall e, In e g -> scalable (snd e)).
      { intros g Hg [n m] He. apply (Hsc n m). eapply Permutation_in; [apply HG|]. apply in_concat. eauto. }
      assert (E : rmap (fun ch => rbind (channel_models d names ch) (apply_channel cat x x)) chs = Ok (map (channel_output cat x) gs)).
      { clear - HF Hall. induction HF as [|ch g chs gs Hch HF IH]; cbn; [reflexivity|]. rewrite Hch. cbn [rbind].
        assert (Hap : forall y, apply_channel cat x y (map snd g) = Ok (fold_left (fun y e => stage cat x y (snd e)) g y)).
        { assert (Hg : forall e, In e g -> scalable (snd e)) by (apply Hall; now left). clear - Hg.
          induction g as [|e t IHg]; intros y; [reflexivity|]. cbn [map apply_channel fold_left].
          assert (E1 : apply_model cat x y (snd e) = Ok (stage cat x y (snd e))).
          { specialize (Hg e (or_introl eq_refl)). unfold scalable in Hg. unfold apply_model, stage.
            destruct (snd e) as [r c rs f i o [[s1 s2]|]]; cbn in *; destruct i, o; cbn; try reflexivity;
              exfalso; apply Hg; auto. }
          rewrite E1. cbn [rbind]. apply IHg. intros; apply Hg; now right. }
        rewrite Hap. cbn [rbind]. rewrite IH by (intros; eapply Hall; [right|]; eauto). reflexivity. }
      rewrite E. reflexivity.
    - exfalso. assert (Hd : ~ NoDup (map (fun e => pos (snd e)) d)) by (apply channels_fail_iff_duplicate; eauto).
      apply Hd. destruct HG as [HP [G S]].
      apply (Permutation_NoDup (Permutation_map (fun e => pos (snd e)) HP)).
      clear - G S. induction S as [|g t Ht IH Hg]; cbn; [constructor|]. inversion_clear G as [|? ? [_ [Hrow Hcol]] Gt].
      specialize (IH Gt). rewrite map_app.
      assert (Hd : forall a b, In a g -> In b (concat t) -> pos (snd a) <> pos (snd b)).
      { intros a b Ha Hb E. apply in_concat in Hb as [h [Hh Hb]]. rewrite Forall_forall in Hg. specialize (Hg h Hh a b Ha Hb).
        unfold pos in E. injection E as E1 E2. lia. }
      clear Hg. induction Hcol as [|a u Hu IHu Ha]; cbn; [exact IH|]. constructor.
      + rewrite in_app_iff, !in_map_iff. intros [[b [E Hb]]|[b [E Hb]]].
        * rewrite Forall_forall in Ha. specialize (Ha b Hb). unfold col_lt in Ha. unfold pos in E. injection E as E1 E2. lia.
        * apply (Hd a b); [now left|exact Hb|now symmetry].
      + apply IHu; intros; [apply Hrow; now right|]. apply Hd; [now right|auto].
  Qed.
End Channels.

(** ** Cases *)
Definition hm1 r c rs f : hmodel Z := mkHm r c rs f false false None.
(** three models, given out of order: row 0 applies x -> 2x then x -> x+1, row 1
    applies x -> -x; numbers instead of tensors, concatenation as 10a+b *)
Definition hyb3 : dict (hmodel Z) :=
  [("b"%string, hm1 0 5 false (fun x => x + 1)%Z); ("c"%string, hm1 1 0 false Z.opp); ("a"%string, hm1 0 2 false (fun x => 2 * x)%Z)].
Example channels_case : get_channels hyb3 = Ok (["a"; "b"; "c"]%string, [[0; 1]; [2]]%nat).
Proof. reflexivity. Qed.
Example forward_hybrid_case : forward (fun a b => 10 * a + b)%Z (fun l => Ok (fold_right Z.add 0 l)%Z) hyb3 7%Z = Ok 8%Z.
Proof. reflexivity. Qed.
(** the groups of the specification for this dictionary *)
Example good_channels_case : good_channels hyb3
  [[("a"%string, hm1 0 2 false (fun x => 2 * x)%Z); ("b"%string, hm1 0 5 false (fun x => x + 1)%Z)]; [("c"%string, hm1 1 0 false Z.opp)]].
Proof.
  split; [|split].
  - cbn. apply Permutation_sym. apply (Permutation_cons_app [_] [_]). cbn. apply perm_swap.
  - repeat constructor; try discriminate; cbn; intros; intuition (subst; reflexivity).
  - repeat constructor. intros a b Ha Hb. cbn in Ha, Hb. intuition (subst; cbn; lia).
Qed.

(** C42, counterexample to an unconditional composition: the recurrent network
    classes have no method data_scaler_transform (it is a function of
    procedures/model_data_scaling.py), so a model working on normalised
    features cannot be evaluated inside a hybrid model *)
Theorem normalised_hybridised_model_refuted :
  exists d : dict (hmodel Z), NoDup (map (fun e => pos (snd e)) d) /\
    forall x, forward Z.add hm_identity d x = Err AttributeError.
Proof.
  exists [("gru"%string, mkHm 0 0 false (fun x => x) true true None)]. split; [repeat constructor; auto|]. reflexivity.
Qed.
(** without models the hybrid model returns its input *)
Theorem empty_hybrid_returns_input : forall {Fe} (cat : Fe -> Fe -> Fe) x, forward cat hm_identity [] x = Ok x.
Proof. reflexivity. Qed.

Print Assumptions channels_group_by_row.
Print Assumptions good_channels_unique.
Print Assumptions channels_fail_iff_duplicate.
Print Assumptions channels_order_independent.
Print Assumptions forward_is_composition.
Print Assumptions normalised_hybridised_model_refuted.
