(** Theorems about the specimen data of the material model finder and the
    reactions it exports. *)
From Coq Require Import Reals String List Arith ZArith Bool Lia Lra Sorted.
From Verif Require Import Lib PyStr ScalerModel LossModel LossSpec LossProps FinderDataModel.
Import ListNotations.
Local Open Scope list_scope.
Local Open Scope R_scope.

(** ** Specification *)

(** Code at a degree of freedom and time of the specimen. *)
Definition code_at (sp : specimen) (bc : codes) (z : Z) : Prop :=
  exists i j t, (i < sp_node sp)%nat /\ (j < sp_dim sp)%nat /\ (t < sp_time sp)%nat /\ bc i j t = z.

Definition admissible_codes (sp : specimen) (lt : loss_type) : Prop :=
  forall bc, sp_bc sp = Some bc ->
  match lt with
  | Pointwise => forall z, code_at sp bc z -> z = 0%Z \/ z = 1%Z
  | DirichletSets =>
      (forall z, code_at sp bc z -> (0 <= z)%Z) /\
      (forall i j t i' j' t', (i < sp_node sp)%nat -> (j < sp_dim sp)%nat -> (t < sp_time sp)%nat ->
         (i' < sp_node sp)%nat -> (j' < sp_dim sp)%nat -> (t' < sp_time sp)%nat ->
         bc i j t = bc i' j' t' -> bc i j t <> 0%Z -> j = j')
  | UnknownLoss => False
  end.

Lemma in_entries n m k bc z : In z (entries n m k bc) <->
  exists i j t, (i < n)%nat /\ (j < m)%nat /\ (t < k)%nat /\ bc i j t = z.
Proof.
  unfold entries. rewrite in_flat_map. split.
  - intros (i & I & H). apply in_flat_map in H. destruct H as (j & J & H). apply in_map_iff in H.
    destruct H as (t & E & T). apply in_seq in I, J, T. exists i, j, t. repeat split; auto; lia.
  - intros (i & j & t & I & J & T & E). exists i. split; [apply in_seq; lia|]. apply in_flat_map.
    exists j. split; [apply in_seq; lia|]. apply in_map_iff. exists t. split; auto. apply in_seq; lia.
Qed.

Lemma in_dims n m k bc l j : In j (dims_with_label n m k bc l) <->
  (j < m)%nat /\ exists i t, (i < n)%nat /\ (t < k)%nat /\ bc i j t = l.
Proof.
  unfold dims_with_label. rewrite filter_In, in_seq, existsb_exists. split.
  - intros (J & i & I & H). apply existsb_exists in H. destruct H as (t & T & E).
    apply in_seq in I, T. apply Z.eqb_eq in E. split; [lia|]. exists i, t. repeat split; auto; lia.
  - intros (J & i & t & I & T & E). split; [lia|]. exists i. split; [apply in_seq; lia|].
    apply existsb_exists. exists t. split; [apply in_seq; lia|]. apply Z.eqb_eq. auto.
Qed.
Lemma dims_nodup n m k bc l : NoDup (dims_with_label n m k bc l).
Proof. apply NoDup_filter, seq_NoDup. Qed.

(** The check accepts exactly the admissible codes. *)
Theorem dirichlet_check_iff sp lt :
  check_dirichlet_bc_mesh_hist sp lt = Ok tt <-> admissible_codes sp lt.
Proof.
  unfold check_dirichlet_bc_mesh_hist, admissible_codes.
  destruct (sp_bc sp) as [bc|]; [|split; [intros _ bc H; discriminate|auto]].
  assert (CA : forall z, In z (entries (sp_node sp) (sp_dim sp) (sp_time sp) bc) <-> code_at sp bc z).
  { intros z. apply in_entries. }
  destruct lt.
  - destruct (forallb _ _) eqn:F.
    + split; auto. intros _ bc' E z Hz. injection E as <-. rewrite forallb_forall in F. apply CA in Hz.
      specialize (F z Hz). apply orb_true_iff in F. destruct F as [F|F]; apply Z.eqb_eq in F; auto.
    + split; [discriminate|]. intros H. exfalso. specialize (H bc eq_refl). assert (X : forallb (fun z => (z =? 0) || (z =? 1))%Z
        (entries (sp_node sp) (sp_dim sp) (sp_time sp) bc) = true).
      { apply forallb_forall. intros z Hz. apply orb_true_iff. rewrite !Z.eqb_eq. apply H, CA; auto. }
      congruence.
  - destruct (forallb _ _) eqn:F; cbn [negb].
    + rewrite forallb_forall in F.
      assert (NN : forall z, code_at sp bc z -> (0 <= z)%Z) by (intros z Hz; apply Z.leb_le, F, CA; auto).
      destruct (existsb _ _) eqn:X.
      * split; [discriminate|]. intros H. exfalso. destruct (H bc eq_refl) as (_ & SD). clear H.
        apply existsb_exists in X. destruct X as (l & L & Q). apply filter_In in L. destruct L as (L & P).
        apply Z.ltb_lt in P. apply Nat.ltb_lt in Q.
        pose proof (dims_nodup (sp_node sp) (sp_dim sp) (sp_time sp) bc l) as ND.
        destruct (dims_with_label _ _ _ bc l) as [|j [|j' ds]] eqn:D; [cbn in Q; lia..|].
        assert (A : In j (dims_with_label (sp_node sp) (sp_dim sp) (sp_time sp) bc l)) by (rewrite D; left; auto).
        assert (B : In j' (dims_with_label (sp_node sp) (sp_dim sp) (sp_time sp) bc l)) by (rewrite D; right; left; auto).
        apply in_dims in A, B. destruct A as (J & i & t & I & T & E), B as (J' & i' & t' & I' & T' & E').
        assert (j = j') by (apply (SD i j t i' j' t'); auto; lia). subst j'. inversion ND; subst. apply H1. left; auto.
      * split; auto. intros _ bc' E. injection E as <-. split; auto.
        intros i j t i' j' t' I J T I' J' T' EQ NZ.
        assert (P : (0 < bc i j t)%Z).
        { assert (0 <= bc i j t)%Z; [|lia]. apply NN. exists i, j, t. auto. }
        destruct (Nat.eq_dec j j') as [|N]; auto. exfalso.
        assert (Y : existsb (fun l => Nat.ltb 1 (length (dims_with_label (sp_node sp) (sp_dim sp) (sp_time sp) bc l)))
                 (filter (fun z => (0 <? z)%Z) (unique (entries (sp_node sp) (sp_dim sp) (sp_time sp) bc))) = true).
        { apply existsb_exists. exists (bc i j t). split.
          - apply filter_In. split; [|apply Z.ltb_lt; auto]. apply unique_in, CA. exists i, j, t. auto.
          - apply Nat.ltb_lt.
            assert (A : In j (dims_with_label (sp_node sp) (sp_dim sp) (sp_time sp) bc (bc i j t))) by (apply in_dims; eauto 6).
            assert (B : In j' (dims_with_label (sp_node sp) (sp_dim sp) (sp_time sp) bc (bc i j t)))
              by (apply in_dims; split; auto; exists i', t'; auto).
            destruct (dims_with_label _ _ _ bc (bc i j t)) as [|a [|b ds]]; [destruct A| |cbn; lia].
            destruct A as [A|[]], B as [B|[]]. congruence. }
        congruence.
    + split; [discriminate|]. intros H. exfalso. destruct (H bc eq_refl) as (NN & _).
      assert (X : forallb (fun z => (0 <=? z)%Z) (entries (sp_node sp) (sp_dim sp) (sp_time sp) bc) = true).
      { apply forallb_forall. intros z Hz. apply Z.leb_le, NN, CA; auto. }
      congruence.
  - split; [discriminate|]. intros H. destruct (H bc eq_refl).
Qed.

(** ** Setting the specimen *)
Definition weights_ok (n_time : nat) (w : weights_arg) : Prop :=
  match w with WTensor l => length l = n_time | WTensorND => False | WOther => True end.
Definition forces_ok (f : finder) (sp : specimen) (mn mx : option (list R)) : Prop :=
  fd_normalised f = true -> (0 < sp_dim sp)%nat /\
  exists a b, mn = Some a /\ mx = Some b /\ length a = sp_dim sp /\ length b = sp_dim sp.

Lemma check_cases sp lt : check_dirichlet_bc_mesh_hist sp lt = Ok tt \/ check_dirichlet_bc_mesh_hist sp lt = Err RuntimeError.
Proof.
  unfold check_dirichlet_bc_mesh_hist. destruct (sp_bc sp); auto. destruct lt; auto.
  - destruct (forallb _ _); auto.
  - destruct (negb _); auto. destruct (existsb _ _); auto.
Qed.

(** The specimen is taken exactly when its codes, the force bounds (if forces
    are normalised) and the weights fit; any refusal is a RuntimeError. *)
Theorem set_specimen_iff f sp mn mx sc w :
  (snd (set_specimen_data f sp mn mx sc w) = Ok tt \/ snd (set_specimen_data f sp mn mx sc w) = Err RuntimeError) /\
  (snd (set_specimen_data f sp mn mx sc w) = Ok tt <->
   admissible_codes sp (fd_loss_type f) /\ forces_ok f sp mn mx /\ weights_ok (sp_time sp) w).
Proof.
  unfold set_specimen_data. rewrite <- dirichlet_check_iff.
  destruct (check_cases sp (fd_loss_type f)) as [-> | ->];
    [|cbn [snd]; split; auto; split; [discriminate|intros (H & _); discriminate]].
  unfold forces_ok, set_fitted_force_data_scalers, minmax_init, set_minimum_and_maximum, check_param.
  assert (SW : forall f2, (snd (set_weights f2 (sp_time sp) sc w) = Ok tt \/ snd (set_weights f2 (sp_time sp) sc w) = Err RuntimeError) /\
    (snd (set_weights f2 (sp_time sp) sc w) = Ok tt <-> weights_ok (sp_time sp) w)).
  { intros f2. unfold set_weights. destruct w as [l| |]; cbn [weights_ok].
    - destruct (Nat.eqb_spec (length l) (sp_time sp)); cbn [negb snd]; split; auto; split; auto; try discriminate. intros; contradiction.
    - cbn [snd]. split; auto. split; [discriminate|tauto].
    - cbn [snd]. split; auto. split; auto. }
  destruct (fd_normalised f) eqn:N.
  - destruct mn as [a|]; [|cbn [snd]; split; auto; split; [discriminate|]; intros (_ & H & _);
      destruct (H eq_refl) as (_ & x & y & Q & _); discriminate].
    destruct mx as [b|]; [|cbn [snd]; split; auto; split; [discriminate|]; intros (_ & H & _);
      destruct (H eq_refl) as (_ & x & y & _ & Q & _); discriminate].
    destruct (Nat.eqb_spec (sp_dim sp) 0) as [D|D].
    { cbn [rbind snd]. split; auto. split; [discriminate|]. intros (_ & H & _). destruct (H eq_refl). lia. }
    cbn [rbind mm_n mm_nmin mm_nmax].
    destruct (Nat.eqb_spec (length a) (sp_dim sp)) as [A|A]; cbn [rbind mm_n].
    + destruct (Nat.eqb_spec (length b) (sp_dim sp)) as [B|B]; cbn [rbind].
      * destruct (SW (Finder (fd_loss_type f) true (Some sp) (Some {| mm_n := sp_dim sp; mm_min := Some a; mm_max := Some b;
            mm_nmin := -1; mm_nmax := 1 |}) (fd_scaling f) (fd_weights f))) as (S1 & S2).
        cbn [fd_loss_type fd_normalised fd_specimen fd_scaling fd_weights]. rewrite ?N. split; [exact S1|]. rewrite S2.
        split; [|tauto]. intros W. split; auto. split; auto. intros _. split; [lia|]. exists a, b. auto.
      * cbn [snd]. split; auto. split; [discriminate|]. intros (_ & H & _).
        destruct (H eq_refl) as (_ & x & y & Q1 & Q2 & L1 & L2). injection Q2 as <-. contradiction.
    + cbn [snd]. split; auto. split; [discriminate|]. intros (_ & H & _).
      destruct (H eq_refl) as (_ & x & y & Q1 & Q2 & L1 & L2). injection Q1 as <-. contradiction.
  - destruct (SW (Finder (fd_loss_type f) false (Some sp) (fd_scaler f) (fd_scaling f) (fd_weights f))) as (S1 & S2).
    rewrite ?N. split; [exact S1|]. rewrite S2. split; [|tauto]. intros W. split; auto. split; auto. discriminate.
Qed.

(** What an accepted call leaves: this specimen, its bounds, its scaling factor
    and one weight per time, ones unless given. *)
Theorem set_specimen_result f sp mn mx sc w f' :
  set_specimen_data f sp mn mx sc w = (f', Ok tt) ->
  fd_specimen f' = Some sp /\ fd_scaling f' = sc /\
  fd_loss_type f' = fd_loss_type f /\ fd_normalised f' = fd_normalised f /\
  fd_weights f' = Some (match w with WTensor l => l | _ => repeat 1 (sp_time sp) end) /\
  (exists l, fd_weights f' = Some l /\ length l = sp_time sp) /\
  (fd_normalised f = true -> exists s, fd_scaler f' = Some s /\ mm_min s = mn /\ mm_max s = mx /\
                              mm_nmin s = -1 /\ mm_nmax s = 1) /\
  (fd_normalised f = false -> fd_scaler f' = fd_scaler f).
Proof.
  unfold set_specimen_data, set_fitted_force_data_scalers, minmax_init, set_minimum_and_maximum, check_param.
  destruct (check_dirichlet_bc_mesh_hist sp (fd_loss_type f)); [|discriminate].
  assert (SW : forall f2, set_weights f2 (sp_time sp) sc w = (f', Ok tt) ->
     f' = Finder (fd_loss_type f2) (fd_normalised f2) (fd_specimen f2) (fd_scaler f2) sc
            (Some (match w with WTensor l => l | _ => repeat 1 (sp_time sp) end)) /\
     length (match w with WTensor l => l | _ => repeat 1 (sp_time sp) end) = sp_time sp).
  { intros f2. unfold set_weights. destruct w as [l| |].
    - destruct (Nat.eqb_spec (length l) (sp_time sp)); cbn [negb]; intros H; [|discriminate]. injection H as <-. auto.
    - discriminate.
    - intros H. injection H as <-. split; auto. apply repeat_length. }
  destruct (fd_normalised f) eqn:N.
  - destruct mn as [a|]; [|discriminate]. destruct mx as [b|]; [|discriminate].
    destruct (Nat.eqb (sp_dim sp) 0); [discriminate|]. cbn [rbind mm_n mm_nmin mm_nmax].
    destruct (Nat.eqb (length a) (sp_dim sp)); [|discriminate]. cbn [rbind mm_n].
    destruct (Nat.eqb (length b) (sp_dim sp)); [|discriminate]. cbn [rbind].
    intros H. apply SW in H. destruct H as (-> & L). cbn. rewrite ?N. repeat split; auto; try discriminate; eauto.
    intros _. eexists. repeat split; reflexivity.
  - intros H. apply SW in H. destruct H as (-> & L). cbn. rewrite ?N. repeat split; auto; try discriminate; eauto.
Qed.

(** Refused codes leave the finder as it was. *)
Theorem refused_codes_unchanged f sp mn mx sc w : ~ admissible_codes sp (fd_loss_type f) ->
  set_specimen_data f sp mn mx sc w = (f, Err RuntimeError).
Proof.
  intros H. rewrite <- dirichlet_check_iff in H. unfold set_specimen_data.
  destruct (check_cases sp (fd_loss_type f)) as [E|E]; [contradiction|rewrite E; reflexivity].
Qed.

(** Other refusals do not: after refused weights the finder holds the new
    specimen with the weights of the old one, of another length; after refused
    force bounds it holds the new specimen without a scaler. *)
Theorem refused_call_refuted :
  (exists f sp sc w f', set_specimen_data f sp None None sc w = (f', Err RuntimeError) /\
     (exists old l, fd_specimen f = Some old /\ fd_weights f = Some l /\ length l = sp_time old) /\
     fd_specimen f' = Some sp /\ exists l, fd_weights f' = Some l /\ length l <> sp_time sp) /\
  (exists f sp mn mx sc w f', set_specimen_data f sp mn mx sc w = (f', Err RuntimeError) /\
     fd_normalised f = true /\ fd_scaler f <> None /\ fd_specimen f' = Some sp /\ fd_scaler f' = None).
Proof.
  split.
  - exists (Finder Pointwise false (Some (Specimen 1 1 1 None)) None None (Some [1])), (Specimen 1 1 2 None), None, WTensorND.
    eexists. split; [reflexivity|]. split; [exists (Specimen 1 1 1 None), [1]; auto|]. split; [reflexivity|].
    exists [1]. split; [reflexivity|]. cbn. discriminate.
  - exists (Finder Pointwise true (Some (Specimen 1 1 1 None)) (Some (Build_minmax 1 (Some [0]) (Some [1]) (-1) 1)) None (Some [1])),
      (Specimen 1 2 1 None), (Some [0]), (Some [1]), None, WOther.
    eexists. split; [reflexivity|]. repeat split; try reflexivity. discriminate.
Qed.

(** Weights that are not a tensor are dropped without notice. *)
Theorem list_weights_dropped f sp mn mx sc f' : set_specimen_data f sp mn mx sc WOther = (f', Ok tt) ->
  fd_weights f' = Some (repeat 1 (sp_time sp)).
Proof. intros H. apply set_specimen_result in H. tauto. Qed.

Example set_specimen_case :
  let bc : codes := fun i j t => if Nat.eqb j 0 then Z.of_nat i else 0%Z in
  let f := Finder DirichletSets true None None None None in
  snd (set_specimen_data f (Specimen 3 2 2 (Some bc)) (Some [0; 0]) (Some [1; 2]) None (WTensor [1; 3])) = Ok tt /\
  fd_weights (fst (set_specimen_data f (Specimen 3 2 2 (Some bc)) (Some [0; 0]) (Some [1; 2]) None (WTensor [1; 3]))) = Some [1; 3] /\
  snd (set_specimen_data f (Specimen 3 2 2 (Some (fun i j t => Z.of_nat i))) (Some [0; 0]) (Some [1; 2]) None (WTensor [1; 3]))
    = Err RuntimeError.
Proof. cbn. repeat split; reflexivity. Qed.

(** ** Reactions *)

(** Net force of the degrees of freedom with label [l]. *)
Definition net_force (n_node n_dim : nat) (int ext : T2) (bc : labels) (l : Z) : R :=
  rsum n_node (fun i => rsum n_dim (fun j => if Z.eqb (bc i j) l then int i j - ext i j else 0)).

Lemma net_force_residual n m int ext bc l :
  set_residual n m int ext (fun _ _ => 0) bc l = net_force n m int ext bc l.
Proof.
  unfold set_residual, net_force. apply rsum_ext. intros i Hi. apply rsum_ext. intros j Hj.
  destruct (Z.eqb _ _); lra.
Qed.

Lemma in_labels n m (bc : labels) l :
  In l (unique (map (flat_of m bc) (seq 0 (n * m)))) <-> exists i j, (i < n)%nat /\ (j < m)%nat /\ bc i j = l.
Proof.
  rewrite unique_in, in_map_iff. split.
  - intros (k & E & K). apply in_seq in K. assert (m <> 0)%nat by (intros ->; lia).
    exists (k / m)%nat, (k mod m)%nat. split; [apply Nat.div_lt_upper_bound; lia|].
    split; [apply Nat.mod_upper_bound; auto|exact E].
  - intros (i & j & I & J & E). exists (i * m + j)%nat. split.
    + unfold flat_of. rewrite Nat.div_add_l, Nat.div_small, Nat.add_0_r by lia.
      rewrite Nat.add_comm, Nat.mod_add, Nat.mod_small by lia. auto.
    + apply in_seq. nia.
Qed.

(** Each row of the history lists the net forces, at that time, of the labels
    of the first time step, in increasing order. *)
Theorem reaction_hist_law n m T int ext bc : (0 < T)%nat ->
  exists ls rows, compute_dirichlet_sets_reaction_hist n m T int ext bc = Ok rows /\
    StronglySorted Z.lt ls /\ (forall l, In l ls <-> exists i j, (i < n)%nat /\ (j < m)%nat /\ bc O i j = l) /\
    length rows = T /\
    forall t, (t < T)%nat -> nth t rows [] = map (net_force n m (int t) (ext t) (bc O)) ls.
Proof.
  intros H. exists (unique (map (flat_of m (bc O)) (seq 0 (n * m)))).
  unfold compute_dirichlet_sets_reaction_hist. destruct T as [|T]; [lia|]. eexists. split; [reflexivity|].
  split; [apply unique_sorted|]. split; [intros l; apply in_labels|].
  rewrite map_length, seq_length. split; auto. intros t Ht.
  rewrite nth_map_seq by auto.
  destruct (dirichlet_sets_reaction n m (int t) (ext t) (bc O)) as (_ & ->).
  apply map_ext. intros l. apply net_force_residual.
Qed.

Lemma sorted_same (a b : list Z) : StronglySorted Z.lt a -> StronglySorted Z.lt b ->
  (forall z, In z a <-> In z b) -> a = b.
Proof.
  intros SA. revert b. induction SA as [|x a SA IH FA]; intros b SB H.
  - destruct b as [|y b]; [reflexivity|]. exfalso. apply (H y). left; auto.
  - destruct SB as [|y b SB FB]; [exfalso; apply (H x); left; auto|].
    rewrite Forall_forall in FA, FB.
    assert (x = y).
    { destruct (proj1 (H x) (or_introl eq_refl)) as [E|E]; auto.
      destruct (proj2 (H y) (or_introl eq_refl)) as [E'|E']; auto.
      specialize (FB x E). specialize (FA y E'). lia. }
    subst y. f_equal. apply IH; auto. intros z. split; intros I.
    + destruct (proj1 (H z) (or_intror I)) as [->|]; auto. specialize (FA z I). lia.
    + destruct (proj2 (H z) (or_intror I)) as [->|]; auto. specialize (FB z I). lia.
Qed.
Lemma sorted_seq k : forall s, StronglySorted Z.lt (map Z.of_nat (seq s k)).
Proof.
  induction k as [|k IH]; intros s; cbn; constructor; auto.
  apply Forall_forall. intros z I. apply in_map_iff in I. destruct I as (n & <- & I). apply in_seq in I. lia.
Qed.

(** With the labels 0, 1, ..., k-1 at the first time step and codes that do not
    change, column "SET i" holds the net force of label i at every time. *)
Theorem reaction_columns n m T int ext bc k : (0 < T)%nat ->
  (forall l, (exists i j, (i < n)%nat /\ (j < m)%nat /\ bc O i j = l) <-> (0 <= l < Z.of_nat k)%Z) ->
  (forall t i j, (t < T)%nat -> bc t i j = bc O i j) ->
  exists rows, compute_dirichlet_sets_reaction_hist n m T int ext bc = Ok rows /\
    fst (reaction_table rows) = map (fun i => ("SET " ++ nat_str i)%string) (seq 0 k) /\
    length (snd (reaction_table rows)) = T /\
    forall t i, (t < T)%nat -> (i < k)%nat ->
      nth_error (nth t (snd (reaction_table rows)) []) i = Some (net_force n m (int t) (ext t) (bc t) (Z.of_nat i)).
Proof.
  intros HT HL HC. destruct (reaction_hist_law n m T int ext bc HT) as (ls & rows & E & S & IN & L & N).
  assert (LS : ls = map Z.of_nat (seq 0 k)).
  { apply sorted_same; auto; [apply sorted_seq|]. intros z. rewrite IN, HL, in_map_iff. split.
    - intros H. exists (Z.to_nat z). split; [lia|]. apply in_seq. lia.
    - intros (x & <- & H). apply in_seq in H. lia. }
  subst ls. exists rows. split; auto. unfold reaction_table. cbn [fst snd]. split.
  - specialize (N O HT). destruct rows as [|r rows]; [cbn in L; lia|]. cbn in N. subst r.
    rewrite !map_length, seq_length. reflexivity.
  - split; auto. intros t i Ht Hi. rewrite (N t Ht), nth_error_map, nth_error_map.
    rewrite (nth_error_nth' _ O) by (rewrite seq_length; auto). rewrite seq_nth by auto. cbn [option_map Nat.add].
    f_equal. unfold net_force. apply rsum_ext. intros a Ha. apply rsum_ext. intros b Hb. rewrite (HC t a b Ht). reflexivity.
Qed.

Lemma lsum_cons x l : lsum (x :: l) = x + lsum l.
Proof. reflexivity. Qed.
Lemma lsum_pick ls z x : NoDup ls -> In z ls -> lsum (map (fun l => if Z.eqb z l then x else 0) ls) = x.
Proof.
  induction 1 as [|l ls N ND IH]; intros I; [destruct I|]. cbn [map]. rewrite lsum_cons.
  destruct (Z.eqb_spec z l) as [->|NE].
  - replace (lsum _) with 0; [lra|]. symmetry. clear -N. induction ls as [|y ls IH]; [reflexivity|]. cbn [map].
    rewrite lsum_cons, IH by (intros H; apply N; right; auto).
    destruct (Z.eqb_spec l y) as [->|]; [exfalso; apply N; left; auto|lra].
  - destruct I as [->|I]; [contradiction|]. rewrite IH by auto. lra.
Qed.
Lemma rsum_lsum n (f : nat -> Z -> R) ls :
  lsum (map (fun l => rsum n (fun i => f i l)) ls) = rsum n (fun i => lsum (map (f i) ls)).
Proof.
  induction n as [|n IH]; cbn [rsum].
  - induction ls as [|l ls IH]; [reflexivity|]. cbn [map]. rewrite lsum_cons, IH. lra.
  - rewrite <- IH. clear IH. induction ls as [|l ls IH]; cbn [map]; [cbn; lra|].
    rewrite !lsum_cons, IH. lra.
Qed.

(** The entries of a row sum to the total of the nodal forces: free degrees of
    freedom are one of the sets. *)
Theorem reactions_total n m T int ext bc rows t : (t < T)%nat ->
  compute_dirichlet_sets_reaction_hist n m T int ext bc = Ok rows ->
  lsum (nth t rows []) = rsum n (fun i => rsum m (fun j => int t i j - ext t i j)).
Proof.
  intros Ht E. destruct (reaction_hist_law n m T int ext bc) as (ls & rows' & E' & S & IN & L & N); [lia|].
  rewrite E in E'. injection E' as <-. rewrite N by auto. unfold net_force.
  rewrite (rsum_lsum n (fun i l => rsum m (fun j => if Z.eqb (bc O i j) l then int t i j - ext t i j else 0)) ls).
  apply rsum_ext. intros i Hi.
  rewrite (rsum_lsum m (fun j l => if Z.eqb (bc O i j) l then int t i j - ext t i j else 0) ls).
  apply rsum_ext. intros j Hj. apply lsum_pick.
  - apply sorted_nodup; auto.
  - apply IN. eauto 6.
Qed.

(** Without free degrees of freedom column "SET 0" holds label 1, and codes
    that change after the first time step are ignored. *)
Theorem reaction_columns_refuted :
  (exists n m T int ext bc rows, (0 < T)%nat /\ (forall t i j, bc t i j = bc O i j) /\
     compute_dirichlet_sets_reaction_hist n m T int ext bc = Ok rows /\
     fst (reaction_table rows) = ["SET 0"%string] /\
     nth_error (nth 0 (snd (reaction_table rows)) []) 0 = Some (net_force n m (int O) (ext O) (bc O) 1) /\
     net_force n m (int O) (ext O) (bc O) 1 <> net_force n m (int O) (ext O) (bc O) 0) /\
  (exists n m T int ext bc rows, (1 < T)%nat /\
     compute_dirichlet_sets_reaction_hist n m T int ext bc = Ok rows /\
     fst (reaction_table rows) = ["SET 0"; "SET 1"]%string /\
     (forall t l, (t < T)%nat -> (exists i j, (i < n)%nat /\ (j < m)%nat /\ bc t i j = l) <-> (l = 0%Z \/ l = 1%Z)) /\
     nth_error (nth 1 (snd (reaction_table rows)) []) 1 <> Some (net_force n m (int 1%nat) (ext 1%nat) (bc 1%nat) 1)).
Proof.
  split.
  - exists 1%nat, 1%nat, 1%nat, (fun _ _ _ => 5), (fun _ _ _ => 0), (fun _ _ _ => 1%Z). eexists.
    split; [lia|]. split; [auto|]. split; [reflexivity|]. split; [reflexivity|]. split.
    + cbn. unfold net_force, one_hot, flat_of. cbn. f_equal. lra.
    + unfold net_force. cbn. lra.
  - exists 2%nat, 1%nat, 2%nat, (fun _ i _ => INR (S i)), (fun _ _ _ => 0),
      (fun t i _ => if Nat.eqb t i then 0%Z else 1%Z). eexists.
    split; [lia|]. split; [reflexivity|]. split; [reflexivity|]. split.
    + intros t l Lt. split.
      * intros (i & j & _ & _ & <-). destruct (Nat.eqb t i); auto.
      * destruct t as [|[|t]].
        -- intros [-> | ->]; [exists O, O|exists 1%nat, O]; repeat split; auto.
        -- intros [-> | ->]; [exists 1%nat, O|exists O, O]; repeat split; auto.
        -- lia.
    + cbn. unfold net_force, one_hot, flat_of. cbn. intros Q. injection Q as Q. lra.
Qed.

Example reactions_case :
  compute_dirichlet_sets_reaction_hist 3 1 1 (fun _ i _ => INR i) (fun _ _ _ => 0) (fun _ i _ => Z.of_nat (i - 1))
  = Ok [[INR 0 - 0 + (INR 1 - 0); INR 2 - 0]].
Proof. cbn. unfold one_hot, flat_of. cbn.
  apply f_equal, (f_equal (fun r => [r])). apply f_equal2; [lra|]. apply f_equal2; [lra|reflexivity].
Qed.

Print Assumptions set_specimen_iff.
Print Assumptions reaction_columns.
Print Assumptions reactions_total.

