(** Lemmas about Voigt storage and identity operators. *)
From Coq Require Import Reals List Arith Bool Lia Lra Permutation.
From Verif Require Import Lib MatrixModel MatrixSpec MatrixProofs TensorModel.
Import ListNotations.
Local Open Scope R_scope.

Lemma get_stress_vmf_eq t n (order : list comp) :
  order_ok n order = true ->
  get_stress_vmf t n order = Ok (map (fun c => t (row c) (col c)) order).
Proof.
  intros H1. unfold get_stress_vmf. rewrite H1. simpl. f_equal.
  apply order_ok_iff in H1. destruct H1 as [ND _].
  rewrite fold_left_ext_in with
    (g := fun mf i => upd mf i (t (row (nth i order (0,0)%nat)) (col (nth i order (0,0)%nat)))).
  - rewrite fold_upd_seq. apply (map_nth_seq (fun c => t (row c) (col c))).
  - intros x b I. apply in_seq in I. rewrite index_of_nth by (auto; lia). reflexivity.
Qed.

Definition vwrites (vmf : list R) (order : list comp) (i : nat) : list ((nat * nat) * R) :=
  let c := nth i order (0,0)%nat in
  let v := (1 / vfac c) * nth i vmf 0 in
  (if offdiag c then [((col c, row c), v)] else []) ++ [((row c, col c), v)].

Lemma vfac_neq0 c : vfac c <> 0.
Proof. unfold vfac. destruct (offdiag c); lra. Qed.

Lemma strain_from_vmf_sym vmf n (order : list comp) :
  sym_order n order -> length vmf = length order ->
  exists t, get_strain_from_vmf vmf n order = Ok t /\
   forall m, (m < length order)%nat ->
     let c := nth m order (0,0)%nat in
     t (row c) (col c) = 1 / vfac c * nth m vmf 0 /\ t (col c) (row c) = 1 / vfac c * nth m vmf 0.
Proof.
  intros H L. pose proof H as (ND & R & C & A).
  exists (fold_left wr2 (flat_map (vwrites vmf order) (seq 0 (length order))) zero2).
  split.
  { unfold get_strain_from_vmf. rewrite (sym_order_ok n order H). simpl.
    rewrite L, Nat.ltb_irrefl. f_equal. rewrite fold_left_flat_map.
    apply fold_left_ext_in. intros t i I. apply in_seq in I.
    rewrite index_of_nth by (auto; lia). unfold vwrites.
    destruct (offdiag (nth i order (0,0)%nat)); reflexivity. }
  intros m Hm c.
  assert (In c order) as Ic by (apply nth_In; auto).
  assert (KEY : forall a b, (a = row c /\ b = col c) \/ (a = col c /\ b = row c) ->
     forall w, In w (flat_map (vwrites vmf order) (seq 0 (length order))) ->
       fst w = (a, b) -> snd w = 1 / vfac c * nth m vmf 0).
  { intros a b Hab w I Ew. apply in_flat_map in I. destruct I as (i & Ii & Iw).
    apply in_seq in Ii. simpl in Ii.
    set (d := nth i order (0,0)%nat) in *.
    assert (Id : In d order) by (apply nth_In; lia).
    assert (Ed : d = c \/ d = comp_rev c).
    { unfold vwrites in Iw. fold d in Iw. rewrite in_app_iff in Iw.
      assert (fst w = (col d, row d) \/ fst w = (row d, col d)) as HW.
      { destruct Iw as [Iw|[<-|[]]]; auto.
        destruct (offdiag d); [destruct Iw as [<-|[]]; auto|destruct Iw]. }
      pose proof (R _ Ic) as Rc. pose proof (R _ Id) as Rd.
      assert (Rcr : comp_in n (comp_rev c)) by (unfold comp_in, comp_rev in *; simpl; tauto).
      rewrite Ew in HW.
      destruct Hab as [[-> ->]|[-> ->]], HW as [Q|Q]; injection Q as Q1 Q2.
      - right. apply (comp_in_inj n); auto.
      - left. apply (comp_in_inj n); auto.
      - left. apply (comp_in_inj n); auto.
      - right. apply (comp_in_inj n); auto. }
    assert (d = c) as Edc.
    { destruct Ed as [Ed|Ed]; auto. destruct (Nat.eq_dec (fst c) (snd c)) as [Q|Q].
      - rewrite Ed. destruct c as [x y]; unfold comp_rev; simpl in *; congruence.
      - exfalso. apply (A (fst c) (snd c) Q).
        + destruct c; auto.
        + unfold comp_rev in Ed. rewrite <- Ed. auto. }
    assert (i = m) as -> by (eapply (proj1 (NoDup_nth order (0,0)%nat) ND); auto; lia).
    unfold vwrites in Iw. fold d in Iw. rewrite Edc in Iw. rewrite in_app_iff in Iw.
    destruct Iw as [Iw|[<-|[]]]; auto.
    destruct (offdiag c); [destruct Iw as [<-|[]]; auto|destruct Iw]. }
  assert (IN : In m (seq 0 (length order))) by (apply in_seq; lia).
  split.
  - apply wr2_val; [|intros w0 I0 E0; apply (KEY (row c) (col c) (or_introl (conj eq_refl eq_refl)) w0); auto].
    exists ((row c, col c), 1 / vfac c * nth m vmf 0). split; auto.
    apply in_flat_map. exists m. split; auto.
    unfold vwrites. fold c. apply in_or_app. right. left. auto.
  - apply wr2_val; [|intros w0 I0 E0; apply (KEY (col c) (row c) (or_intror (conj eq_refl eq_refl)) w0); auto].
    destruct (offdiag c) eqn:O.
    + exists ((col c, row c), 1 / vfac c * nth m vmf 0). split; auto.
      apply in_flat_map. exists m. split; auto.
      unfold vwrites. fold c. rewrite O. apply in_or_app. left. left. auto.
    + exists ((row c, col c), 1 / vfac c * nth m vmf 0). split.
      * apply in_flat_map. exists m. split; auto.
        unfold vwrites. fold c. apply in_or_app. right. left. auto.
      * simpl. apply offdiag_false in O. unfold row, col. rewrite O. auto.
Qed.

(** Identity operators as closed formulas. *)
Lemma foid_eq n : eq4 n (foid n) (fun i j k l => soid i k * soid j l).
Proof.
  intros i j k l Hi Hj Hk Hl.
  assert (E : foid n = fold_left wr4 (map (fun ij => ((ij, ij), 1)) (list_prod (seq 0 n) (seq 0 n))) zero4).
  { unfold foid. generalize zero4. generalize (list_prod (seq 0 n) (seq 0 n)).
    induction l0; simpl; intros; auto. }
  rewrite E. unfold soid.
  destruct (Nat.eqb_spec i k), (Nat.eqb_spec j l); subst.
  - rewrite wr4_val with (v := 1); [ring| |].
    + exists (((k,l),(k,l)),1). split; auto. apply in_map_iff. exists (k,l). split; auto.
      apply in_prod_iff. rewrite !in_seq. lia.
    + intros w I _. apply in_map_iff in I. destruct I as (x & <- & _). auto.
  - rewrite wr4_untouched; [unfold zero4; ring|].
    intros w I Q. apply in_map_iff in I. destruct I as (x & <- & _). simpl in Q.
    injection Q as Q1 Q2. congruence.
  - rewrite wr4_untouched; [unfold zero4; ring|].
    intros w I Q. apply in_map_iff in I. destruct I as (x & <- & _). simpl in Q.
    injection Q as Q1 Q2. congruence.
  - rewrite wr4_untouched; [unfold zero4; ring|].
    intros w I Q. apply in_map_iff in I. destruct I as (x & <- & _). simpl in Q.
    injection Q as Q1 Q2. congruence.
Qed.

Lemma fotransp_eq n : eq4 n (fotransp n) (fun i j k l => soid i l * soid j k).
Proof.
  intros i j k l Hi Hj Hk Hl.
  assert (E : fotransp n = fold_left wr4 (map (fun ij => ((ij, (snd ij, fst ij)), 1))
      (list_prod (seq 0 n) (seq 0 n))) zero4).
  { unfold fotransp. generalize zero4. generalize (list_prod (seq 0 n) (seq 0 n)).
    induction l0; simpl; intros; auto. }
  rewrite E. unfold soid.
  destruct (Nat.eqb_spec i l), (Nat.eqb_spec j k); subst;
    try (rewrite wr4_untouched; [unfold zero4; ring|];
      intros w I Q; apply in_map_iff in I; destruct I as ([x y] & <- & _); simpl in Q;
      injection Q as Q1 Q2 Q3 Q4; congruence).
  rewrite wr4_val with (v := 1); [ring| |].
  - exists (((l,k),(k,l)),1). split; auto. apply in_map_iff. exists (l,k). split; auto.
    apply in_prod_iff. rewrite !in_seq. lia.
  - intros w I _. apply in_map_iff in I. destruct I as (x & <- & _). auto.
Qed.

(** Contraction with Kronecker deltas. *)
Lemma rsum_soid n k f : (k < n)%nat -> rsum n (fun i => soid k i * f i) = f k.
Proof.
  intros H. rewrite (rsum_single n k); auto.
  - unfold soid. rewrite Nat.eqb_refl. ring.
  - intros i Hi N. unfold soid. destruct (Nat.eqb_spec k i); [congruence|ring].
Qed.

Lemma soid_sym i j : soid i j = soid j i.
Proof. unfold soid. rewrite Nat.eqb_sym. auto. Qed.

Lemma sum2_soid2 n i j f :
  (i < n)%nat -> (j < n)%nat -> sum2 n (fun k l => soid i k * soid j l * f k l) = f i j.
Proof.
  intros Hi Hj. unfold sum2.
  rewrite (rsum_ext n _ (fun k => soid i k * f k j)).
  - apply rsum_soid with (f := fun k => f k j); auto.
  - intros k Hk. rewrite <- (rsum_soid n j (f k)) by auto. rewrite <- rsum_scal.
    apply rsum_ext; intros; ring.
Qed.

Lemma sum2_soid_trace n f :
  sum2 n (fun k l => soid k l * f k l) = rsum n (fun k => f k k).
Proof. unfold sum2. apply rsum_ext. intros k Hk. apply rsum_soid; auto. Qed.

Lemma sum2_plus n f g : sum2 n (fun i j => f i j + g i j) = sum2 n f + sum2 n g.
Proof.
  unfold sum2. rewrite <- rsum_plus. apply rsum_ext; intros. rewrite <- rsum_plus. auto.
Qed.
Lemma sum2_minus n f g : sum2 n (fun i j => f i j - g i j) = sum2 n f - sum2 n g.
Proof.
  unfold sum2. rewrite <- rsum_minus. apply rsum_ext; intros. rewrite <- rsum_minus. auto.
Qed.
Lemma sum2_scal n c f : sum2 n (fun i j => c * f i j) = c * sum2 n f.
Proof.
  unfold sum2. rewrite <- rsum_scal. apply rsum_ext; intros. rewrite <- rsum_scal. auto.
Qed.

Lemma sum2_swap n f : sum2 n f = sum2 n (fun i j => f j i).
Proof. unfold sum2. apply rsum_swap. Qed.

Lemma sum2_swap2 n m f :
  sum2 n (fun i j => sum2 m (fun k l => f i j k l))
  = sum2 m (fun k l => sum2 n (fun i j => f i j k l)).
Proof.
  unfold sum2.
  transitivity (rsum n (fun i => rsum m (fun k => rsum n (fun j => rsum m (fun l => f i j k l))))).
  { apply rsum_ext; intros. apply rsum_swap. }
  rewrite rsum_swap. apply rsum_ext; intros k Hk.
  transitivity (rsum n (fun i => rsum m (fun l => rsum n (fun j => f i j k l)))).
  { apply rsum_ext; intros. apply rsum_swap. }
  apply rsum_swap.
Qed.
