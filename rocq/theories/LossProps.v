(** Force equilibrium loss (C15, C16). *)
From Coq Require Import Reals List Arith ZArith Lia Lra Bool Permutation Sorted.
From Verif Require Import Lib ScalerModel LossModel LossSpec.
Import ListNotations.
Local Open Scope R_scope.

(** ** Pointwise loss *)
Definition residual (int ext reac : T2) (bc : labels) : T2 :=
  fun i j => if Z.eqb (bc i j) 1 then int i j - ext i j - reac i j else int i j - ext i j.

Lemma fold_left_add {A} (f : A -> R) (step : R -> A -> R) l :
  (forall a x, In x l -> step a x = a + f x) ->
  forall a, fold_left step l a = a + lsum (map f l).
Proof.
  induction l as [|x l IH]; intros H a; simpl; [ring|].
  rewrite H by (simpl; auto). rewrite IH by (intros; apply H; simpl; auto). ring.
Qed.

Lemma fel_sum norm n_node n_dim int ext reac bc :
  force_equilibrium_loss norm n_node n_dim int ext reac bc
  = rsum n_node (fun i => rsum n_dim (fun j =>
      (residual (normalise norm int) (normalise norm ext) (normalise norm reac) bc i j) ^ 2)).
Proof.
  unfold force_equilibrium_loss.
  set (I := normalise norm int). set (E := normalise norm ext). set (Rr := normalise norm reac).
  rewrite (fold_left_add (fun i => rsum n_dim (fun j => (residual I E Rr bc i j) ^ 2))).
  - rewrite lsum_map_seq. ring.
  - intros a i _. rewrite (fold_left_add (fun j => (residual I E Rr bc i j) ^ 2)).
    + rewrite lsum_map_seq. reflexivity.
    + intros b j _. unfold fel_dof, residual. destruct (Z.eqb (bc i j) 1); ring.
Qed.

(** C16: the vectorised pointwise loss equals the loop loss, normalised or not. *)
Theorem vectorised_pointwise_loss norm n_node n_dim int ext reac bc :
  vforce_equilibrium_loss Pointwise norm n_node n_dim int ext reac bc
  = Ok (force_equilibrium_loss norm n_node n_dim int ext reac bc).
Proof.
  unfold vforce_equilibrium_loss. rewrite fel_sum. f_equal. unfold vpointwise.
  apply rsum_ext. intros i _. apply rsum_ext. intros j _. unfold residual.
  destruct (Z.eqb (bc i j) 1); ring.
Qed.

Lemma sq_nonneg x : 0 <= x ^ 2.
Proof. simpl. rewrite Rmult_1_r. apply Rle_0_sqr. Qed.
Lemma sq_zero x : x ^ 2 = 0 -> x = 0.
Proof. simpl. rewrite Rmult_1_r. apply Rsqr_0_uniq. Qed.

(** C15: the loss is never negative ... *)
Theorem loss_nonneg norm n_node n_dim int ext reac bc :
  0 <= force_equilibrium_loss norm n_node n_dim int ext reac bc.
Proof.
  rewrite fel_sum. apply rsum_nonneg. intros i _. apply rsum_nonneg. intros j _. apply sq_nonneg.
Qed.

Lemma loss_zero_residual norm n_node n_dim int ext reac bc :
  force_equilibrium_loss norm n_node n_dim int ext reac bc = 0 <->
  forall i j, (i < n_node)%nat -> (j < n_dim)%nat ->
    residual (normalise norm int) (normalise norm ext) (normalise norm reac) bc i j = 0.
Proof.
  rewrite fel_sum. split.
  - intros H i j Hi Hj.
    assert (A := rsum_nonneg_zero n_node _ (fun i _ => rsum_nonneg n_dim _ (fun j _ => sq_nonneg _)) H i Hi).
    cbv beta in A.
    assert (B := rsum_nonneg_zero n_dim _ (fun j _ => sq_nonneg _) A j Hj). cbv beta in B.
    apply sq_zero; auto.
  - intros H. apply rsum_zero. intros i Hi. apply rsum_zero. intros j Hj. rewrite H by auto. simpl; ring.
Qed.

(** ... and vanishes exactly at equilibrium (no normalisation). *)
Theorem loss_zero_iff n_node n_dim int ext reac bc :
  force_equilibrium_loss None n_node n_dim int ext reac bc = 0 <->
  in_equilibrium n_node n_dim int ext reac (fun i j => bc i j = 1%Z).
Proof.
  rewrite loss_zero_residual. unfold in_equilibrium, residual, normalise. split.
  - intros H i j Hi Hj. specialize (H i j Hi Hj).
    destruct (Z.eqb_spec (bc i j) 1); split; intros; try contradiction; lra.
  - intros H i j Hi Hj. destruct (H i j Hi Hj) as [A B].
    destruct (Z.eqb_spec (bc i j) 1) as [E|E]; [specialize (B E)|specialize (A E)]; lra.
Qed.

(** The link with the scaler model: with distinct bounds the normalisation is
    the min-max transform. *)
Theorem norm_force_is_minmax mn mx j x :
  nth j mn 0 <> nth j mx 0 -> minmax_entry (-1) 1 mn mx j x = Some (norm_force mn mx j x).
Proof.
  intros H. unfold minmax_entry, fdiv. destruct (Req_EM_T (nth j mx 0 - nth j mn 0) 0); [lra|]. reflexivity.
Qed.

(** With force normalisation the residual of a prescribed degree of freedom is
    shifted by the normalised offset, so the loss at equilibrium is *)
Theorem normalised_loss_at_equilibrium mn mx n_node n_dim int ext reac bc :
  (forall j, (j < n_dim)%nat -> nth j mn 0 <> nth j mx 0) ->
  in_equilibrium n_node n_dim int ext reac (fun i j => bc i j = 1%Z) ->
  force_equilibrium_loss (Some (mn, mx)) n_node n_dim int ext reac bc
  = rsum n_node (fun i => rsum n_dim (fun j => if Z.eqb (bc i j) 1
      then ((nth j mx 0 + nth j mn 0) / (nth j mx 0 - nth j mn 0)) ^ 2 else 0)).
Proof.
  intros HD H. rewrite fel_sum. apply rsum_ext. intros i Hi. apply rsum_ext. intros j Hj.
  destruct (H i j Hi Hj) as [A B]. specialize (HD j Hj). unfold residual, normalise, norm_force.
  destruct (Z.eqb_spec (bc i j) 1) as [E|E].
  - specialize (B E). f_equal.
    replace (int i j) with (ext i j + reac i j) by lra. field. lra.
  - specialize (A E). rewrite A. ring.
Qed.

(** Hence the iff holds with normalisation exactly when the bounds of every
    dimension are symmetric (or the dimension has no prescribed dof). *)
(** Partial: Symmetric normalisation bounds only; otherwise see normalised_loss_refuted. *)
Theorem normalised_loss_zero_iff_partial mn mx n_node n_dim int ext reac bc :
  (forall j, (j < n_dim)%nat -> nth j mn 0 <> nth j mx 0) ->
  (forall i j, (i < n_node)%nat -> (j < n_dim)%nat -> bc i j = 1%Z -> nth j mx 0 = - nth j mn 0) ->
  (force_equilibrium_loss (Some (mn, mx)) n_node n_dim int ext reac bc = 0 <->
   in_equilibrium n_node n_dim int ext reac (fun i j => bc i j = 1%Z)).
Proof.
  intros HD HS. split.
  - rewrite loss_zero_residual. intros H i j Hi Hj. specialize (H i j Hi Hj). specialize (HD j Hj).
    specialize (HS i j Hi Hj). unfold residual, normalise, norm_force in H.
    set (a := nth j mn 0) in *. set (b := nth j mx 0) in *.
    assert (K : (1 - -1) * 1 / (b - a) <> 0).
    { unfold Rdiv. apply Rmult_integral_contrapositive. split; [lra|]. apply Rinv_neq_0_compat. lra. }
    destruct (Z.eqb_spec (bc i j) 1) as [E|E]; split; intros Q; try contradiction.
    + specialize (HS E).
      assert (X : (1 - -1) * 1 / (b - a) * (int i j - ext i j - reac i j) = 0).
      { rewrite <- H. rewrite HS. field. lra. }
      apply Rmult_integral in X. destruct X; [contradiction|lra].
    + assert (X : (1 - -1) * 1 / (b - a) * (int i j - ext i j) = 0) by (rewrite <- H; ring).
      apply Rmult_integral in X. destruct X; [contradiction|lra].
  - intros H. rewrite normalised_loss_at_equilibrium by auto.
    apply rsum_zero. intros i Hi. apply rsum_zero. intros j Hj.
    destruct (Z.eqb_spec (bc i j) 1) as [E|E]; auto. rewrite (HS i j Hi Hj E).
    unfold Rdiv. replace (- nth j mn 0 + nth j mn 0) with 0 by ring. ring.
Qed.

(** The title claim fails with a normalisation whose bounds are not symmetric. *)
Theorem normalised_loss_refuted :
  exists mn mx int ext reac bc,
    in_equilibrium 1 1 int ext reac (fun i j => bc i j = 1%Z) /\
    force_equilibrium_loss (Some (mn, mx)) 1 1 int ext reac bc = 1.
Proof.
  exists [0], [2], (fun _ _ => 1), (fun _ _ => 0), (fun _ _ => 1), (fun _ _ => 1%Z).
  assert (Q : in_equilibrium 1 1 (fun _ _ => 1) (fun _ _ => 0) (fun _ _ => 1) (fun _ _ => 1%Z = 1%Z)).
  { intros i j _ _. split; intros; [congruence|lra]. }
  split; auto. rewrite normalised_loss_at_equilibrium; auto.
  - simpl. field.
  - intros j Hj. assert (j = O) by lia. subst. simpl. lra.
Qed.

(** ** Histories *)
Theorem hist_loss_nonneg norm n_node n_dim n_time w int ext reac bc :
  (forall t, (t < n_time)%nat -> 0 <= w t) ->
  0 <= hist_loss norm n_node n_dim n_time w int ext reac bc.
Proof.
  intros H. unfold hist_loss.
  rewrite (fold_left_add (fun t => w t * force_equilibrium_loss norm n_node n_dim (int t) (ext t) (reac t) bc)) by auto.
  rewrite lsum_map_seq, Rplus_0_l. apply rsum_nonneg. intros t Ht.
  apply Rmult_le_pos; auto using loss_nonneg.
Qed.

Theorem hist_loss_zero_iff n_node n_dim n_time w int ext reac bc :
  (forall t, (t < n_time)%nat -> 0 < w t) ->
  (hist_loss None n_node n_dim n_time w int ext reac bc = 0 <->
   forall t, (t < n_time)%nat ->
     in_equilibrium n_node n_dim (int t) (ext t) (reac t) (fun i j => bc i j = 1%Z)).
Proof.
  intros H. unfold hist_loss.
  rewrite (fold_left_add (fun t => w t * force_equilibrium_loss None n_node n_dim (int t) (ext t) (reac t) bc)) by auto.
  rewrite lsum_map_seq, Rplus_0_l. split.
  - intros Z t Ht. apply loss_zero_iff.
    assert (NN : forall t, (t < n_time)%nat -> 0 <= w t * force_equilibrium_loss None n_node n_dim (int t) (ext t) (reac t) bc).
    { intros u Hu. apply Rmult_le_pos; [left; auto|apply loss_nonneg]. }
    pose proof (rsum_nonneg_zero n_time _ NN Z t Ht) as Q. cbv beta in Q.
    apply Rmult_integral in Q. specialize (H t Ht). destruct Q; [lra|auto].
  - intros E. apply rsum_zero. intros t Ht. specialize (E t Ht). apply loss_zero_iff in E. rewrite E. ring.
Qed.

(** The vectorised history loss agrees with the loop when the boundary codes
    do not change with time ... *)
Theorem vectorised_hist_loss norm n_node n_dim n_time w int ext reac bc :
  vforce_equilibrium_hist_loss Pointwise norm n_node n_dim n_time w int ext reac bc
  = Ok (hist_loss norm n_node n_dim n_time w int ext reac (bc O)).
Proof.
  unfold vforce_equilibrium_hist_loss, hist_loss. f_equal.
  rewrite (fold_left_add (fun t => w t * force_equilibrium_loss norm n_node n_dim (int t) (ext t) (reac t) (bc O))) by auto.
  rewrite lsum_map_seq, Rplus_0_l. apply rsum_ext. intros t _. rewrite vectorised_pointwise_loss. reflexivity.
Qed.

(** ... and ignores any later change: a step out of equilibrium at a degree of
    freedom released after the first step is not the loss the codes ask for. *)
Theorem time_varying_codes_ignored_refuted :
  exists int ext reac bc,
    vforce_equilibrium_hist_loss Pointwise None 1 1 2 (fun _ => 1) int ext reac bc = Ok 0 /\
    ~ (forall t, (t < 2)%nat -> in_equilibrium 1 1 (int t) (ext t) (reac t) (fun i j => bc t i j = 1%Z)).
Proof.
  exists (fun _ _ _ => 3), (fun _ _ _ => 0), (fun _ _ _ => 3),
    (fun t _ _ => match t with O => 1%Z | _ => 0%Z end).
  split.
  - rewrite vectorised_hist_loss. f_equal. apply hist_loss_zero_iff; [intros; lra|].
    intros t _ i j _ _. split; intros; [congruence|lra].
  - intros H. destruct (H 1%nat ltac:(lia) O O ltac:(lia) ltac:(lia)) as [A _].
    assert (3 = 0) by (apply A; discriminate). lra.
Qed.

(** ** Dirichlet sets loss *)
Lemma insert_unique_in x l y : In y (insert_unique x l) <-> y = x \/ In y l.
Proof.
  induction l as [|z t IH]; simpl; [intuition|].
  destruct (Z.ltb_spec x z); simpl; [intuition|].
  destruct (Z.eqb_spec x z); simpl; [subst; intuition|]. rewrite IH. intuition.
Qed.

Lemma insert_unique_sorted x l : StronglySorted Z.lt l -> StronglySorted Z.lt (insert_unique x l).
Proof.
  induction 1 as [|z t S IH F]; simpl; [constructor; constructor|].
  destruct (Z.ltb_spec x z) as [L|L].
  - constructor; [constructor; auto|]. constructor; auto.
    eapply Forall_impl; [|apply F]. intros; simpl in *; lia.
  - destruct (Z.eqb_spec x z); [constructor; auto|]. constructor; auto.
    apply Forall_forall. intros y I. apply insert_unique_in in I. destruct I as [->|I]; [lia|].
    rewrite Forall_forall in F. auto.
Qed.

Lemma unique_in l y : In y (unique l) <-> In y l.
Proof. induction l; simpl; [tauto|]. rewrite insert_unique_in, IHl. intuition. Qed.

Lemma unique_sorted l : StronglySorted Z.lt (unique l).
Proof. induction l; simpl; [constructor|apply insert_unique_sorted; auto]. Qed.

Lemma sorted_nodup l : StronglySorted Z.lt l -> NoDup l.
Proof.
  induction 1 as [|z t S IH F]; constructor; auto. intros I. rewrite Forall_forall in F.
  specialize (F z I). lia.
Qed.

Lemma bucketize_spec l v : StronglySorted Z.lt l -> In v l ->
  forall s, (s < length l)%nat -> (bucketize l v = s <-> nth s l 0%Z = v).
Proof.
  induction 1 as [|z t S IH F]; intros I s Hs; [contradiction|]. simpl.
  rewrite Forall_forall in F.
  destruct (Z.leb_spec v z) as [L|L].
  - assert (v = z) as -> by (destruct I as [->|I]; [auto|specialize (F v I); lia]).
    destruct s as [|s]; [tauto|]. split; [discriminate|]. intros E. simpl in Hs.
    assert (In (nth s t 0%Z) t) by (apply nth_In; lia). specialize (F _ H). lia.
  - destruct I as [->|I]; [lia|]. destruct s as [|s].
    + split; [discriminate|]. intros ->. lia.
    + simpl in Hs. rewrite <- (IH I s) by lia. split; intros Q; [congruence|congruence].
Qed.

Lemma rsum_flat n m (f : nat -> nat -> R) :
  rsum (n * m) (flat_of m f) = rsum n (fun i => rsum m (fun j => f i j)).
Proof.
  rewrite rsum_mul. apply rsum_ext. intros i Hi. apply rsum_ext. intros j Hj. unfold flat_of.
  rewrite Nat.div_add_l, Nat.div_small, Nat.add_0_r by lia.
  rewrite Nat.add_comm, Nat.mod_add, Nat.mod_small by lia. reflexivity.
Qed.

Lemma rsum_flat2 n m (g : nat -> R) (f : nat -> nat -> R) :
  (forall k, (k < n * m)%nat -> g k = flat_of m f k) ->
  rsum (n * m) g = rsum n (fun i => rsum m (fun j => f i j)).
Proof. intros H. rewrite <- rsum_flat. apply rsum_ext. auto. Qed.

Lemma one_hot_label n m (bc : labels) k s :
  let u := unique (map (flat_of m bc) (seq 0 (n * m))) in
  (k < n * m)%nat -> (s < length u)%nat ->
  one_hot (fun k => bucketize u (flat_of m bc k)) k s
  = if Z.eqb (flat_of m bc k) (nth s u 0%Z) then 1 else 0.
Proof.
  intros u Hk Hs. unfold one_hot.
  assert (I : In (flat_of m bc k) u).
  { apply unique_in. apply in_map. apply in_seq. lia. }
  pose proof (bucketize_spec u (flat_of m bc k) (unique_sorted _) I s Hs) as Q.
  destruct (Nat.eqb_spec (bucketize u (flat_of m bc k)) s) as [A|A],
    (Z.eqb_spec (flat_of m bc k) (nth s u 0%Z)) as [B|B]; auto.
  - exfalso. apply B. symmetry. apply Q; auto.
  - exfalso. apply A. apply Q; auto.
Qed.

(** The general value: with [m :: rest] the sorted labels, the smallest label
    plays the part of the free degrees of freedom. *)
Lemma sets_loss_parts n_node n_dim int ext reac bc m rest :
  let u := unique (map (flat_of n_dim bc) (seq 0 (n_node * n_dim))) in
  let dense k := bucketize u (flat_of n_dim bc k) in
  u = m :: rest ->
  sets_loss_ndbc (n_node * n_dim) dense (flat_of n_dim int) (flat_of n_dim ext) (flat_of n_dim reac)
  = rsum n_node (fun i => rsum n_dim (fun j => if Z.eqb (bc i j) m then (int i j - ext i j) ^ 2 else 0)) /\
  sets_loss_dbc (n_node * n_dim) (length u) dense (flat_of n_dim int) (flat_of n_dim ext) (flat_of n_dim reac)
  = lsum (map (fun l => (set_residual n_node n_dim int ext reac bc l) ^ 2) rest).
Proof.
  intros u dense U. unfold dense.
  pose proof (one_hot_label n_node n_dim bc) as OH. cbv zeta in OH.
  pose proof (unique_sorted (map (flat_of n_dim bc) (seq 0 (n_node * n_dim)))) as ST.
  pose proof (sorted_nodup _ ST) as ND. fold u in OH, ND.
  rewrite U in ND. inversion ND as [|x y NI ND']; subst x y.
  split.
  - unfold sets_loss_ndbc.
    apply rsum_flat2. intros k Hk. rewrite (OH k O) by (try rewrite U; simpl; auto; lia).
    rewrite U. cbn [nth]. unfold flat_of at 6. unfold flat_of.
    destruct (Z.eqb (bc (k / n_dim)%nat (k mod n_dim)%nat) m); ring.
  - unfold sets_loss_dbc. rewrite U at 1. cbn [length]. rewrite Nat.sub_succ, Nat.sub_0_r.
    rewrite lsum_nth, map_length. apply rsum_ext. intros s Hs.
    rewrite nth_indep with (d' := (fun l => (set_residual n_node n_dim int ext reac bc l) ^ 2) 0%Z) by (rewrite map_length; auto).
    rewrite (map_nth (fun l => (set_residual n_node n_dim int ext reac bc l) ^ 2)). f_equal.
    unfold set_residual. apply rsum_flat2. intros k Hk.
    rewrite (OH k O) by (try rewrite U; simpl; auto; lia).
    rewrite (OH k (S s)) by (try rewrite U; simpl; auto; lia).
    rewrite U. cbn [nth]. unfold flat_of.
    destruct (Z.eqb_spec (bc (k / n_dim)%nat (k mod n_dim)%nat) (nth s rest 0%Z)) as [E|E]; [|ring].
    destruct (Z.eqb_spec (bc (k / n_dim)%nat (k mod n_dim)%nat) m) as [E2|E2]; [|ring].
    exfalso. apply NI. rewrite <- E2, E. apply nth_In; auto.
Qed.
Lemma sets_loss_value n_node n_dim int ext reac bc m rest :
  unique (map (flat_of n_dim bc) (seq 0 (n_node * n_dim))) = m :: rest ->
  vdirichlet_sets n_node n_dim int ext reac bc
  = rsum n_node (fun i => rsum n_dim (fun j => if Z.eqb (bc i j) m then (int i j - ext i j) ^ 2 else 0))
    + lsum (map (fun l => (set_residual n_node n_dim int ext reac bc l) ^ 2) rest).
Proof.
  intros U. unfold vdirichlet_sets.
  destruct (sets_loss_parts n_node n_dim int ext reac bc m rest U) as [A B]. rewrite A, B. reflexivity.
Qed.

Lemma labels_split n_node n_dim bc ls :
  (exists i j, (i < n_node)%nat /\ (j < n_dim)%nat /\ bc i j = 0%Z) ->
  (forall i j, (i < n_node)%nat -> (j < n_dim)%nat -> (0 <= bc i j)%Z) ->
  dirichlet_labels n_node n_dim bc ls ->
  exists rest, unique (map (flat_of n_dim bc) (seq 0 (n_node * n_dim))) = 0%Z :: rest /\ Permutation rest ls.
Proof.
  intros (i0 & j0 & Hi & Hj & Z0) HP [ND HL].
  set (u := unique (map (flat_of n_dim bc) (seq 0 (n_node * n_dim)))).
  assert (IN : forall l, In l u <-> exists i j, (i < n_node)%nat /\ (j < n_dim)%nat /\ bc i j = l).
  { intros l. unfold u. rewrite unique_in, in_map_iff. split.
    - intros (k & E & I). apply in_seq in I. exists (k / n_dim)%nat, (k mod n_dim)%nat.
      assert (n_dim <> 0)%nat by lia.
      split; [apply Nat.div_lt_upper_bound; [auto|rewrite Nat.mul_comm; lia]|].
      split; [apply Nat.mod_upper_bound; auto|]. auto.
    - intros (i & j & A & B & E). exists (i * n_dim + j)%nat. split.
      + unfold flat_of. rewrite Nat.div_add_l, Nat.div_small, Nat.add_0_r by lia.
        rewrite Nat.add_comm, Nat.mod_add, Nat.mod_small by lia. auto.
      + apply in_seq. split; [lia|]. simpl.
        assert ((S i) * n_dim <= n_node * n_dim)%nat by (apply Nat.mul_le_mono_r; lia). simpl in *. lia. }
  assert (I0 : In 0%Z u) by (apply IN; eauto).
  destruct u as [|m rest] eqn:U; [contradiction|].
  pose proof (unique_sorted (map (flat_of n_dim bc) (seq 0 (n_node * n_dim)))) as ST.
  fold u in ST. rewrite U in ST. pose proof (sorted_nodup _ ST) as NDU.
  inversion ST as [|x y S1 F]; subst x y. rewrite Forall_forall in F.
  assert (m = 0%Z).
  { destruct I0 as [->|I0]; auto. specialize (F _ I0).
    assert (In m (m :: rest)) as IM by (simpl; auto). apply IN in IM.
    destruct IM as (i & j & A & B & E). specialize (HP i j A B). lia. }
  subst m. exists rest. split; [reflexivity|].
  inversion NDU as [|x y NI ND']; subst x y.
  apply NoDup_Permutation; auto. intros l. rewrite HL. split.
  - intros I. split; [intros ->; contradiction|]. apply IN. simpl; auto.
  - intros [N E]. apply IN in E. destruct E as [E|E]; [congruence|auto].
Qed.

(** C16: when some degree of freedom is free (label 0) and no label is
    negative, the Dirichlet-set loss is the squared net residual of every set
    plus the pointwise free residual. *)
(** Partial: Some free degree of freedom; otherwise see dirichlet_sets_without_free_refuted. *)
Theorem dirichlet_sets_loss_partial n_node n_dim int ext reac bc ls :
  (exists i j, (i < n_node)%nat /\ (j < n_dim)%nat /\ bc i j = 0%Z) ->
  (forall i j, (i < n_node)%nat -> (j < n_dim)%nat -> (0 <= bc i j)%Z) ->
  dirichlet_labels n_node n_dim bc ls ->
  vforce_equilibrium_loss DirichletSets None n_node n_dim int ext reac bc
  = Ok (free_residual2 n_node n_dim int ext bc
        + lsum (map (fun l => (set_residual n_node n_dim int ext reac bc l) ^ 2) ls)).
Proof.
  intros F0 HP HL. unfold vforce_equilibrium_loss, normalise. f_equal.
  destruct (labels_split n_node n_dim bc ls F0 HP HL) as (rest & U & P).
  rewrite (sets_loss_value n_node n_dim int ext reac bc 0%Z rest U).
  f_equal. apply lsum_perm, Permutation_map. exact P.
Qed.

(** The reported components are, in order, the total, the free part and the
    part of the sets, each weighted by the time step and scaled. *)
Theorem loss_components_entries_partial n_node n_dim w scaling int ext reac (bc : nat -> labels) t ls :
  (exists i j, (i < n_node)%nat /\ (j < n_dim)%nat /\ bc t i j = 0%Z) ->
  (forall i j, (i < n_node)%nat -> (j < n_dim)%nat -> (0 <= bc t i j)%Z) ->
  dirichlet_labels n_node n_dim (bc t) ls ->
  let free := free_residual2 n_node n_dim (int t) (ext t) (bc t) in
  let sets := lsum (map (fun l => (set_residual n_node n_dim (int t) (ext t) (reac t) (bc t) l) ^ 2) ls) in
  let c := match scaling with None => 1 | Some c => c end in
  force_equilibrium_loss_components_hist DirichletSets None n_node n_dim w scaling int ext reac bc t
  = Ok [c * (w t * (free + sets)); c * (w t * free); c * (w t * sets)].
Proof.
  intros F0 HP HL free sets c.
  destruct (labels_split n_node n_dim (bc t) ls F0 HP HL) as (rest & U & P).
  destruct (sets_loss_parts n_node n_dim (int t) (ext t) (reac t) (bc t) 0%Z rest U) as [A B].
  unfold force_equilibrium_loss_components_hist, loss_components. rewrite A, B.
  replace (lsum (map (fun l => (set_residual n_node n_dim (int t) (ext t) (reac t) (bc t) l) ^ 2) rest)) with sets
    by (unfold sets; symmetry; apply lsum_perm, Permutation_map; exact P).
  cbn [rbind map]. unfold c. destruct scaling; cbn [map]; [reflexivity|]. rewrite !Rmult_1_l. reflexivity.
Qed.

(** C15 for the set loss: zero exactly when the free degrees of freedom are
    balanced and every set carries its measured total reaction. *)
Theorem dirichlet_sets_loss_zero_iff n_node n_dim int ext reac bc :
  (exists i j, (i < n_node)%nat /\ (j < n_dim)%nat /\ bc i j = 0%Z) ->
  (forall i j, (i < n_node)%nat -> (j < n_dim)%nat -> (0 <= bc i j)%Z) ->
  exists v, vforce_equilibrium_loss DirichletSets None n_node n_dim int ext reac bc = Ok v /\
    0 <= v /\
    (v = 0 <->
      (forall i j, (i < n_node)%nat -> (j < n_dim)%nat -> bc i j = 0%Z -> int i j = ext i j) /\
      (forall l, l <> 0%Z -> set_residual n_node n_dim int ext reac bc l = 0)).
Proof.
  intros H0 HP.
  set (u := unique (map (flat_of n_dim bc) (seq 0 (n_node * n_dim)))).
  assert (IN : forall l, In l u <-> exists i j, (i < n_node)%nat /\ (j < n_dim)%nat /\ bc i j = l).
  { intros l. unfold u. rewrite unique_in, in_map_iff. split.
    - intros (k & E & I). apply in_seq in I. exists (k / n_dim)%nat, (k mod n_dim)%nat.
      assert (n_dim <> 0)%nat by lia.
      split; [apply Nat.div_lt_upper_bound; [auto|rewrite Nat.mul_comm; lia]|].
      split; [apply Nat.mod_upper_bound; auto|]. auto.
    - intros (i & j & A & B & E). exists (i * n_dim + j)%nat. split.
      + unfold flat_of. rewrite Nat.div_add_l, Nat.div_small, Nat.add_0_r by lia.
        rewrite Nat.add_comm, Nat.mod_add, Nat.mod_small by lia. auto.
      + apply in_seq. split; [lia|]. simpl.
        assert ((S i) * n_dim <= n_node * n_dim)%nat by (apply Nat.mul_le_mono_r; lia). simpl in *. lia. }
  set (ls := filter (fun l => negb (Z.eqb l 0)) u).
  assert (DL : dirichlet_labels n_node n_dim bc ls).
  { split; [apply NoDup_filter, sorted_nodup, unique_sorted|].
    intros l. unfold ls. rewrite filter_In, negb_true_iff, Z.eqb_neq, IN. tauto. }
  eexists. split; [apply (dirichlet_sets_loss_partial _ _ _ _ _ _ ls); auto|].
  assert (N1 : 0 <= free_residual2 n_node n_dim int ext bc).
  { apply rsum_nonneg. intros i _. apply rsum_nonneg. intros j _. destruct (Z.eqb (bc i j) 0); [apply sq_nonneg|lra]. }
  assert (N2 : 0 <= lsum (map (fun l => (set_residual n_node n_dim int ext reac bc l) ^ 2) ls)).
  { apply lsum_nonneg. intros x I. apply in_map_iff in I. destruct I as (l & <- & _). apply sq_nonneg. }
  split; [lra|]. split.
  - intros Z. assert (Z1 : free_residual2 n_node n_dim int ext bc = 0) by lra.
    assert (Z2 : lsum (map (fun l => (set_residual n_node n_dim int ext reac bc l) ^ 2) ls) = 0) by lra.
    split.
    + intros i j Hi Hj E. unfold free_residual2 in Z1.
      assert (NN : forall i j, 0 <= (if Z.eqb (bc i j) 0 then (int i j - ext i j) ^ 2 else 0)).
      { intros a b. destruct (Z.eqb (bc a b) 0); [apply sq_nonneg|lra]. }
      assert (A := rsum_nonneg_zero n_node _ (fun i _ => rsum_nonneg n_dim _ (fun j _ => NN i j)) Z1 i Hi).
      cbv beta in A.
      assert (B := rsum_nonneg_zero n_dim _ (fun j _ => NN i j) A j Hj). cbv beta in B.
      rewrite E in B. simpl Z.eqb in B. cbv iota in B. apply sq_zero in B. lra.
    + intros l Nl. destruct (in_dec Z.eq_dec l ls) as [I|NI].
      * destruct (In_nth ls l 0%Z I) as (k & Hk & E).
        rewrite lsum_nth, map_length in Z2.
        assert (G : forall k, (k < length ls)%nat -> nth k (map (fun l => (set_residual n_node n_dim int ext reac bc l) ^ 2) ls) 0
           = (set_residual n_node n_dim int ext reac bc (nth k ls 0%Z)) ^ 2).
        { intros q Hq. rewrite nth_indep with (d' := (fun l => (set_residual n_node n_dim int ext reac bc l) ^ 2) 0%Z) by (rewrite map_length; auto).
          apply (map_nth (fun l => (set_residual n_node n_dim int ext reac bc l) ^ 2)). }
        assert (NN : forall k, (k < length ls)%nat -> 0 <= nth k (map (fun l => (set_residual n_node n_dim int ext reac bc l) ^ 2) ls) 0).
        { intros q Hq. rewrite G by auto. apply sq_nonneg. }
        pose proof (rsum_nonneg_zero _ _ NN Z2 k Hk) as B. cbv beta in B.
        rewrite G, E in B by auto. apply sq_zero; auto.
      * unfold set_residual. apply rsum_zero. intros i Hi. apply rsum_zero. intros j Hj.
        destruct (Z.eqb_spec (bc i j) l); auto. exfalso. apply NI. apply DL. split; auto. eauto.
  - intros [A B].
    replace (free_residual2 n_node n_dim int ext bc) with 0.
    2:{ symmetry. apply rsum_zero. intros i Hi. apply rsum_zero. intros j Hj.
        destruct (Z.eqb_spec (bc i j) 0); auto. rewrite A by auto. ring. }
    rewrite Rplus_0_l. apply lsum_map_zero. intros l I. rewrite B; [ring|]. apply DL; auto.
Qed.

(** Without a free degree of freedom the smallest label is taken for "free":
    the net equilibrium of that set is then not what the loss measures. *)
Theorem dirichlet_sets_without_free_refuted :
  exists int ext reac bc v,
    (forall l, set_residual 1 1 int ext reac bc l = 0) /\
    vforce_equilibrium_loss DirichletSets None 1 1 int ext reac bc = Ok v /\ v <> 0.
Proof.
  exists (fun _ _ => 3), (fun _ _ => 0), (fun _ _ => 3), (fun _ _ => 1%Z), 9.
  split.
  - intros l. unfold set_residual. simpl. destruct l as [|[p|p|]|p]; simpl; lra.
  - split; [|lra]. unfold vforce_equilibrium_loss, normalise. f_equal.
    rewrite (sets_loss_value 1 1 _ _ _ _ 1%Z []) by reflexivity. simpl. lra.
Qed.

(** A label set may balance as a whole while its members do not. *)
Example set_loss_weaker_than_pointwise :
  let int := fun i _ : nat => match i with O => 1 | 1%nat => 5 | _ => 0 end in
  let reac := fun i _ : nat => match i with O => 4 | 1%nat => 2 | _ => 0 end in
  let bc := fun i _ : nat => match i with O => 1%Z | 1%nat => 1%Z | _ => 0%Z end in
  vforce_equilibrium_loss DirichletSets None 3 1 int (fun _ _ => 0) reac bc = Ok 0 /\
  vforce_equilibrium_loss Pointwise None 3 1 int (fun _ _ => 0) reac bc = Ok 18.
Proof.
  cbv zeta. split.
  - unfold vforce_equilibrium_loss, normalise. f_equal.
    rewrite (sets_loss_value 3 1 _ _ _ _ 0%Z [1%Z]) by reflexivity.
    unfold set_residual. simpl. lra.
  - unfold vforce_equilibrium_loss, normalise. f_equal. unfold vpointwise. simpl. lra.
Qed.

(** compute_dirichlet_sets_reaction lists the net force of every label, in
    increasing label order. *)
Theorem dirichlet_sets_reaction n_node n_dim int ext bc :
  let u := unique (map (flat_of n_dim bc) (seq 0 (n_node * n_dim))) in
  StronglySorted Z.lt u /\
  compute_dirichlet_sets_reaction n_node n_dim int ext bc
  = map (fun l => set_residual n_node n_dim int ext (fun _ _ => 0) bc l) u.
Proof.
  cbv zeta. split; [apply unique_sorted|]. unfold compute_dirichlet_sets_reaction.
  pose proof (one_hot_label n_node n_dim bc) as OH. cbv zeta in OH.
  set (u := unique (map (flat_of n_dim bc) (seq 0 (n_node * n_dim)))) in *.
  apply (nth_ext _ _ 0 0); rewrite !map_length, ?seq_length; auto.
  intros s Hs. rewrite nth_map_seq by auto.
  rewrite nth_indep with (d' := (fun l => set_residual n_node n_dim int ext (fun _ _ => 0) bc l) 0%Z) by (rewrite map_length; auto).
  rewrite (map_nth (fun l => set_residual n_node n_dim int ext (fun _ _ => 0) bc l)).
  unfold set_residual. apply rsum_flat2. intros k Hk. rewrite (OH k s) by auto.
  unfold flat_of. destruct (Z.eqb (bc (k / n_dim)%nat (k mod n_dim)%nat) (nth s u 0%Z)); ring.
Qed.

(** ** Loss components *)

(** The first reported component, summed over time, is the training loss when
    no normalisation is used and the codes do not change ... *)
Theorem loss_components_total lt n_node n_dim n_time w int ext reac (bc : labels) v :
  vforce_equilibrium_hist_loss lt None n_node n_dim n_time w int ext reac (fun _ => bc) = Ok v ->
  exists c : nat -> list R,
    (forall t, (t < n_time)%nat ->
       force_equilibrium_loss_components_hist lt None n_node n_dim w None int ext reac (fun _ => bc) t = Ok (c t)) /\
    v = rsum n_time (fun t => nth 0 (c t) 0).
Proof.
  intros E. destruct lt; [| |discriminate].
  - exists (fun t => [w t * vpointwise n_node n_dim (int t) (ext t) (reac t) bc]).
    split; [intros t Ht; reflexivity|]. inversion E. apply rsum_ext. intros t Ht. reflexivity.
  - eexists. split; [intros t Ht; reflexivity|]. inversion E. apply rsum_ext. intros t Ht. reflexivity.
Qed.

(** The scaling factor multiplies the training loss and every reported
    component alike. *)
Theorem loss_scaling lt n_node n_dim n_time w scaling int ext reac (bc : labels) v :
  vforce_equilibrium_hist_loss lt None n_node n_dim n_time w int ext reac (fun _ => bc) = Ok v ->
  exists c : nat -> list R,
    (forall t, (t < n_time)%nat ->
       force_equilibrium_loss_components_hist lt None n_node n_dim w scaling int ext reac (fun _ => bc) t = Ok (c t)) /\
    scale_loss scaling v = rsum n_time (fun t => nth 0 (c t) 0) /\
    scale_loss scaling v = match scaling with None => 1 | Some k => k end * v.
Proof.
  intros E. destruct (loss_components_total _ _ _ _ _ _ _ _ _ _ E) as (c & Hc & Hv).
  destruct scaling as [k|]; cbn [scale_loss].
  - exists (fun t => map (fun x => k * x) (c t)). split; [|split; [|reflexivity]].
    + intros t Ht. specialize (Hc t Ht). unfold force_equilibrium_loss_components_hist in *.
      destruct (loss_components _ _ _ _ _ _ _ _); cbn [rbind] in *; [|discriminate]. injection Hc as <-. reflexivity.
    + rewrite Hv, <- rsum_scal. apply rsum_ext. intros t Ht. destruct (c t); cbn; ring.
  - exists c. split; [exact Hc|]. split; [exact Hv|ring].
Qed.

(** ... and differs from it with force normalisation, which the component
    report silently drops. *)
Theorem loss_components_normalisation_refuted :
  exists norm int ext reac bc v c,
    vforce_equilibrium_hist_loss Pointwise norm 1 1 1 (fun _ => 1) int ext reac bc = Ok v /\
    force_equilibrium_loss_components_hist Pointwise norm 1 1 (fun _ => 1) None int ext reac bc O = Ok [c] /\
    v <> c.
Proof.
  exists (Some ([-2], [2])), (fun _ _ _ => 2), (fun _ _ _ => 0), (fun _ _ _ => 0), (fun _ _ _ => 0%Z), 1, 4.
  split; [|split; [|lra]].
  - rewrite vectorised_hist_loss. unfold hist_loss. simpl. rewrite fel_sum. simpl.
    unfold residual, normalise, norm_force. simpl. f_equal. field.
  - unfold force_equilibrium_loss_components_hist. simpl. unfold vpointwise. simpl. do 2 f_equal. lra.
Qed.

Print Assumptions loss_zero_iff.
Print Assumptions dirichlet_sets_loss_partial.
