(** Lemmas on discrete gradient operators. *)
From Coq Require Import Reals List Arith Lia Lra Bool.
From Verif Require Import Lib MatrixModel MatrixSpec MatrixProofs TensorModel TensorSpec
  TensorProofs ElementModel QuadratureModel GradientModel GradientSpec.
Import ListNotations.
Local Open Scope R_scope.

(** Inverse by cofactors. *)
Lemma inverse_left n m inv :
  (n = 2 \/ n = 3)%nat -> inverse n m = Ok inv -> eq2 n (mul2 n inv m) ident.
Proof.
  intros Hn H. unfold inverse in H. destruct (Req_EM_T (det n m) 0) as [|N]; [discriminate|].
  inversion H; subst inv; clear H.
  destruct Hn as [-> | ->]; simpl in N; intros i j Hi Hj.
  - destruct i as [|[|i]], j as [|[|j]]; try lia; unfold mul2, ident, adj, det; simpl; field; auto.
  - destruct i as [|[|[|i]]], j as [|[|[|j]]]; try lia; unfold mul2, ident, adj, det; simpl; field; auto.
Qed.

Lemma inverse_ok n m : det n m <> 0 -> exists inv, inverse n m = Ok inv.
Proof. intros H. unfold inverse. destruct (Req_EM_T (det n m) 0); [contradiction|eauto]. Qed.
Lemma inverse_err n m e : inverse n m = Err e -> det n m = 0 /\ e = RuntimeError.
Proof. unfold inverse. destruct (Req_EM_T (det n m) 0); [|discriminate]. inversion 1; auto. Qed.

(** The entry of the symmetric gradient operator. *)
Definition sym_entry (sfd : T2) (c : comp) (j a : nat) : R :=
  if Nat.eqb (row c) (col c) then (if Nat.eqb a (row c) then sfd j (row c) else 0)
  else if Nat.eqb a (row c) then sfd j (col c)
  else if Nat.eqb a (col c) then sfd j (row c) else 0.

Definition sym_writes (sfd : T2) (n_dof : nat) (order : list comp) (ji : nat * nat)
  : list ((nat * nat) * R) :=
  let j := fst ji in let i := snd ji in let c := nth i order (0,0)%nat in
  if Nat.eqb (row c) (col c) then [((i, (j * n_dof + row c)%nat), sfd j (row c))]
  else [((i, (j * n_dof + col c)%nat), sfd j (row c)); ((i, (j * n_dof + row c)%nat), sfd j (col c))].

Lemma sym_grad_step_writes sfd n order m ji :
  sym_grad_step sfd n order m ji = fold_left wr2 (sym_writes sfd n order ji) m.
Proof.
  unfold sym_grad_step, sym_writes. destruct (Nat.eqb _ _); reflexivity.
Qed.

Lemma block_inj n j a j' a' :
  (a < n)%nat -> (a' < n)%nat -> (j * n + a = j' * n + a')%nat -> j = j' /\ a = a'.
Proof.
  intros Ha Ha' E.
  assert (j = j').
  { assert (((j * n + a) / n = (j' * n + a') / n)%nat) by (rewrite E; auto).
    rewrite !(Nat.add_comm (_ * n)), !Nat.div_add, !Nat.div_small in H by lia. lia. }
  subst. lia.
Qed.

Lemma build_sym_entry sfd n_node n (order : list comp) B i j a :
  (forall c, In c order -> comp_in n c) ->
  build_discrete_sym_gradient sfd n_node n order = Ok B ->
  (i < length order)%nat -> (j < n_node)%nat -> (a < n)%nat ->
  B i (j * n + a)%nat = sym_entry sfd (nth i order (0,0)%nat) j a.
Proof.
  intros R H Hi Hj Ha. unfold build_discrete_sym_gradient in H.
  destruct (negb (sym_comps_ok n order)); [discriminate|].
  destruct (negb (forallb (digits_ok n) order)); [discriminate|].
  inversion H; subst B; clear H.
  rewrite (fold_left_ext_in _ (fun m ji => fold_left wr2 (sym_writes sfd n order ji) m))
    by (intros; apply sym_grad_step_writes).
  rewrite <- fold_left_flat_map.
  set (c := nth i order (0,0)%nat).
  assert (Hc : comp_in n c) by (apply R, nth_In; auto).
  destruct (row_lt n c Hc) as [Hr Hcl].
  assert (POS : forall w, In w (flat_map (sym_writes sfd n order) (list_prod (seq 0 n_node) (seq 0 (length order)))) ->
     fst w = (i, (j * n + a)%nat) ->
     In w (sym_writes sfd n order (j, i))).
  { intros w I E. apply in_flat_map in I. destruct I as ((j', i') & I1 & I2).
    apply in_prod_iff in I1. destruct I1 as [J1 J2]. apply in_seq in J1. apply in_seq in J2.
    assert (Hc' : comp_in n (nth i' order (0,0)%nat)) by (apply R, nth_In; lia).
    destruct (row_lt n _ Hc') as [Hr' Hcl'].
    assert (i' = i /\ j' = j) as [-> ->]; auto.
    unfold sym_writes in I2. simpl in I2.
    destruct (Nat.eqb (row (nth i' order (0,0)%nat)) _);
      simpl in I2; repeat destruct I2 as [I2|I2]; try contradiction; subst w; cbn [fst snd] in E;
      apply pair_equal_spec in E; destruct E as [E1 E2]; subst i'; (split; [reflexivity|]);
      match type of E2 with (_ * _ + ?x = _)%nat => destruct (block_inj n j' x j a) as [? ?]; auto end. }
  unfold sym_entry. unfold sym_writes in POS. simpl in POS. fold c in POS.
  destruct (Nat.eqb_spec (row c) (col c)) as [D|D].
  - destruct (Nat.eqb_spec a (row c)) as [->|N].
    + apply wr2_val.
      * exists ((i, (j * n + row c)%nat), sfd j (row c)). split; auto.
        apply in_flat_map. exists (j, i). split; [apply in_prod_iff; rewrite !in_seq; lia|].
        unfold sym_writes. simpl. fold c. rewrite D, Nat.eqb_refl. left. auto.
      * intros w I E. specialize (POS w I E). simpl in POS. destruct POS as [<-|[]]; auto.
    + rewrite wr2_untouched; auto. intros w I E. specialize (POS w I E).
      destruct POS as [<-|[]]. simpl in E. inversion E. lia.
  - destruct (Nat.eqb_spec a (row c)) as [->|N].
    + apply wr2_val.
      * exists ((i, (j * n + row c)%nat), sfd j (col c)). split; auto.
        apply in_flat_map. exists (j, i). split; [apply in_prod_iff; rewrite !in_seq; lia|].
        unfold sym_writes. simpl. fold c. destruct (Nat.eqb_spec (row c) (col c)); [contradiction|].
        right; left; auto.
      * intros w I E. specialize (POS w I E). simpl in POS. destruct POS as [<-|[<-|[]]]; auto.
        simpl in E. inversion E. lia.
    + destruct (Nat.eqb_spec a (col c)) as [->|N2].
      * apply wr2_val.
        -- exists ((i, (j * n + col c)%nat), sfd j (row c)). split; auto.
           apply in_flat_map. exists (j, i). split; [apply in_prod_iff; rewrite !in_seq; lia|].
           unfold sym_writes. simpl. fold c. destruct (Nat.eqb_spec (row c) (col c)); [contradiction|].
           left; auto.
        -- intros w I E. specialize (POS w I E). simpl in POS. destruct POS as [<-|[<-|[]]]; auto.
           simpl in E. inversion E. lia.
      * rewrite wr2_untouched; auto. intros w I E. specialize (POS w I E).
        destruct POS as [<-|[<-|[]]]; simpl in E; inversion E; lia.
Qed.

(** Lookup in a flattened table. *)
Lemma nth_flat_table {A} (f : nat -> A -> nat) (order : list A) d s n i c :
  (i < n)%nat -> (c < length order)%nat ->
  nth (i * length order + c) (flat_map (fun k => map (f k) order) (seq s n)) O
  = f (s + i)%nat (nth c order d).
Proof.
  revert s i. induction n as [|n IH]; intros s i Hi Hc; [lia|]. simpl.
  destruct i as [|i].
  - simpl. rewrite app_nth1 by (rewrite map_length; auto).
    rewrite nth_indep with (d' := f s d) by (rewrite map_length; auto).
    rewrite map_nth, Nat.add_0_r. auto.
  - rewrite app_nth2 by (rewrite map_length; simpl; lia). rewrite map_length.
    replace (S i * length order + c - length order)%nat with (i * length order + c)%nat by (simpl; lia).
    rewrite IH by lia. f_equal. lia.
Qed.

Lemma divmod_blk i j g : (j < g)%nat -> ((i * g + j) / g = i /\ (i * g + j) mod g = j)%nat.
Proof.
  intros H. split.
  - rewrite Nat.add_comm, Nat.div_add by lia. rewrite Nat.div_small by auto. lia.
  - rewrite Nat.add_comm, Nat.mod_add by lia. apply Nat.mod_small; auto.
Qed.

Lemma vbuild_sym_entry sfd n_node n (order : list comp) B i j a :
  (forall c, In c order -> comp_in n c) ->
  vbuild_discrete_sym_gradient sfd n_node n order = Ok B ->
  (i < length order)%nat -> (a < n)%nat ->
  B i (j * n + a)%nat = sym_entry sfd (nth i order (0,0)%nat) j a.
Proof.
  intros R H Hi Ha. unfold vbuild_discrete_sym_gradient in H.
  destruct (negb (sym_comps_ok n order)); [discriminate|].
  destruct (negb (forallb (digits_ok n) order)); [discriminate|].
  inversion H; subst B; clear H.
  unfold gather_operator. destruct (divmod_blk j a n Ha) as [-> ->].
  unfold sym_index_mapping. rewrite (nth_flat_table sym_map_index order (0,0)%nat) by auto.
  set (c := nth i order (0,0)%nat).
  assert (Hc : comp_in n c) by (apply R, nth_In; auto).
  unfold comp_in in Hc. destruct c as [p q]; unfold sym_map_index, sym_entry, row, col.
  cbn [fst snd] in *.
  destruct (Nat.eqb_spec p q) as [<-|N].
  - rewrite Nat.eqb_refl. rewrite orb_diag.
    destruct (Nat.eqb_spec (1 + a) p), (Nat.eqb_spec a (p - 1)); try lia; simpl; auto; f_equal; lia.
  - destruct (Nat.eqb_spec (p - 1) (q - 1)); [lia|]. cbn [filter].
    destruct (Nat.eqb_spec (1 + a) p), (Nat.eqb_spec a (p - 1)); try lia.
    + destruct (Nat.eqb_spec p (1 + a)), (Nat.eqb_spec q (1 + a)); try lia.
      cbn [negb orb hd]. destruct q; [lia|]. simpl. f_equal. lia.
    + destruct (Nat.eqb_spec (1 + a) q), (Nat.eqb_spec a (q - 1)); try lia; cbn [orb].
      * destruct (Nat.eqb_spec p (1 + a)), (Nat.eqb_spec q (1 + a)); try lia.
        cbn [negb hd]. destruct p; [lia|]. simpl. f_equal. lia.
      * reflexivity.
Qed.

(** Full gradient operators. *)
Definition nsym_entry (sfd : T2) (c : comp) (j a : nat) : R :=
  if Nat.eqb a (row c) then sfd j (col c) else 0.

Lemma build_nsym_entry sfd n_node n o B i j a :
  let order := default_nsym_order n o in
  (forall c, In c order -> comp_in n c) ->
  build_discrete_gradient sfd n_node n o = Ok B ->
  (i < length order)%nat -> (j < n_node)%nat -> (a < n)%nat ->
  B i (j * n + a)%nat = nsym_entry sfd (nth i order (0,0)%nat) j a.
Proof.
  intros order R H Hi Hj Ha. unfold build_discrete_gradient in H. fold order in H.
  destruct (negb (Nat.eqb (length order) (n * n))); [discriminate|].
  destruct (negb (forallb (digits_ok n) order)); [discriminate|].
  inversion H; subst B; clear H.
  set (w := fun ji : nat * nat => let c := nth (snd ji) order (0,0)%nat in
     [((snd ji, (fst ji * n + row c)%nat), sfd (fst ji) (col c))]).
  rewrite (fold_left_ext_in _ (fun m ji => fold_left wr2 (w ji) m)) by reflexivity.
  rewrite <- fold_left_flat_map.
  set (c := nth i order (0,0)%nat).
  assert (Hc : comp_in n c) by (apply R, nth_In; auto).
  destruct (row_lt n c Hc) as [Hr Hcl].
  assert (POS : forall x, In x (flat_map w (list_prod (seq 0 n_node) (seq 0 (length order)))) ->
     fst x = (i, (j * n + a)%nat) -> a = row c /\ snd x = sfd j (col c)).
  { intros x I E. apply in_flat_map in I. destruct I as ((j', i') & I1 & I2).
    apply in_prod_iff in I1. destruct I1 as [J1 J2]. apply in_seq in J1. apply in_seq in J2.
    assert (Hc' : comp_in n (nth i' order (0,0)%nat)) by (apply R, nth_In; lia).
    destruct (row_lt n _ Hc') as [Hr' Hcl'].
    destruct I2 as [<-|[]]. simpl in E. inversion E; subst i'. fold c in Hr', Hcl', H1 |- *.
    destruct (block_inj n j' (row c) j a) as [-> <-]; auto. }
  unfold nsym_entry. destruct (Nat.eqb_spec a (row c)) as [->|N].
  - apply wr2_val.
    + exists ((i, (j * n + row c)%nat), sfd j (col c)). split; auto.
      apply in_flat_map. exists (j, i). split; [apply in_prod_iff; rewrite !in_seq; lia|]. left. auto.
    + intros x I E. apply (POS x I E).
  - rewrite wr2_untouched; auto. intros x I E. destruct (POS x I E). contradiction.
Qed.

Lemma vbuild_nsym_entry sfd n_node n o B i j a :
  let order := default_nsym_order n o in
  (forall c, In c order -> comp_in n c) ->
  vbuild_discrete_gradient sfd n_node n o = Ok B ->
  (i < length order)%nat -> (a < n)%nat ->
  B i (j * n + a)%nat = nsym_entry sfd (nth i order (0,0)%nat) j a.
Proof.
  intros order R H Hi Ha. unfold vbuild_discrete_gradient in H. fold order in H.
  destruct (negb (Nat.eqb (length order) (n * n))); [discriminate|].
  destruct (negb (forallb (digits_ok n) order)); [discriminate|].
  inversion H; subst B; clear H.
  unfold gather_operator. destruct (divmod_blk j a n Ha) as [-> ->].
  unfold nsym_index_mapping.
  rewrite (nth_flat_table (fun i (c : comp) => if Nat.eqb i (fst c) then snd c else O) order (0,0)%nat) by auto.
  set (c := nth i order (0,0)%nat).
  assert (Hc : comp_in n c) by (apply R, nth_In; auto).
  unfold comp_in in Hc. destruct c as [p q]; unfold nsym_entry, row, col. cbn [fst snd] in *.
  destruct (Nat.eqb_spec (1 + a) p), (Nat.eqb_spec a (p - 1)); try lia; auto.
  destruct q; [lia|]. simpl. f_equal. lia.
Qed.

(** Operator applied to a nodal field. *)
Lemma rsum_entry n p f : (p < n)%nat ->
  rsum n (fun a => (if Nat.eqb a p then f else 0) * 1) = f.
Proof.
  intros H. rewrite (rsum_single n p); auto.
  - rewrite Nat.eqb_refl. ring.
  - intros i _ N. destruct (Nat.eqb_spec i p); [contradiction|ring].
Qed.

Lemma flatten_block n u j a : (a < n)%nat -> flatten n u (j * n + a)%nat = u j a.
Proof. intros H. unfold flatten. destruct (divmod_blk j a n H) as [-> ->]. auto. Qed.

Definition node_grad (n_node : nat) (sfd u : T2) : T2 :=
  fun a e => rsum n_node (fun j => u j a * sfd j e).

Lemma sym_entry_apply sfd (c : comp) n u j :
  comp_in n c ->
  rsum n (fun a => sym_entry sfd c j a * u j a)
  = if Nat.eqb (fst c) (snd c) then u j (row c) * sfd j (row c)
    else u j (col c) * sfd j (row c) + u j (row c) * sfd j (col c).
Proof.
  intros H. destruct (row_lt n c H) as [Hr Hc]. unfold sym_entry.
  assert (E : Nat.eqb (fst c) (snd c) = Nat.eqb (row c) (col c)).
  { unfold comp_in in H. unfold row, col.
    destruct (Nat.eqb_spec (fst c) (snd c)), (Nat.eqb_spec (fst c - 1) (snd c - 1)); auto; lia. }
  rewrite E. destruct (Nat.eqb_spec (row c) (col c)) as [D|D].
  - rewrite (rsum_single n (row c)); auto.
    + rewrite Nat.eqb_refl. ring.
    + intros i _ N. destruct (Nat.eqb_spec i (row c)); [contradiction|ring].
  - rewrite (rsum_ext n _ (fun a => (if Nat.eqb a (row c) then sfd j (col c) * u j a else 0)
       + (if Nat.eqb a (col c) then sfd j (row c) * u j a else 0))).
    2:{ intros a _. destruct (Nat.eqb_spec a (row c)), (Nat.eqb_spec a (col c)); try ring. lia. }
    rewrite rsum_plus, (rsum_single n (row c)), (rsum_single n (col c)); auto.
    + rewrite !Nat.eqb_refl. ring.
    + intros i _ N. destruct (Nat.eqb_spec i (col c)); [contradiction|ring].
    + intros i _ N. destruct (Nat.eqb_spec i (row c)); [contradiction|ring].
Qed.

Lemma vbuild_apply sfd n_node n (order : list comp) B u i :
  (forall c, In c order -> comp_in n c) ->
  vbuild_discrete_sym_gradient sfd n_node n order = Ok B -> (i < length order)%nat ->
  let c := nth i order (0,0)%nat in
  rsum (n_node * n) (fun k => B i k * flatten n u k)
  = (if Nat.eqb (fst c) (snd c) then 1 else 2) * symp (node_grad n_node sfd u) (row c) (col c).
Proof.
  intros R H Hi c. rewrite rsum_mul.
  rewrite (rsum_ext n_node _ (fun j => if Nat.eqb (fst c) (snd c) then u j (row c) * sfd j (row c)
    else u j (col c) * sfd j (row c) + u j (row c) * sfd j (col c))).
  - unfold symp, node_grad. destruct (Nat.eqb_spec (fst c) (snd c)) as [E|E].
    + assert (row c = col c) as -> by (unfold row, col; rewrite E; auto). field.
    + rewrite rsum_plus. field.
  - intros j Hj. rewrite <- (sym_entry_apply sfd c n u j) by (apply R, nth_In; auto).
    apply rsum_ext. intros a Ha. rewrite flatten_block by auto. f_equal.
    apply (vbuild_sym_entry sfd n_node n order); auto.
Qed.

(** Shape function derivatives give the spatial gradient. *)
Lemma chain_rule_inv n_node n dN X (u G Jinv : T2) a e :
  let J : T2 := fun d e => rsum n_node (fun j => dN j d * X j e) in
  eq2 n (mul2 n Jinv J) ident ->
  spatial_gradient n_node n dN X u G -> (a < n)%nat -> (e < n)%nat ->
  node_grad n_node (fun j e => rsum n (fun d => Jinv e d * dN j d)) u a e = G a e.
Proof.
  intros J HI HG Ha He. unfold node_grad.
  rewrite (rsum_ext n_node _ (fun j => rsum n (fun d => Jinv e d * (dN j d * u j a)))).
  2:{ intros j _. rewrite <- rsum_scal. apply rsum_ext. intros; ring. }
  rewrite rsum_swap.
  rewrite (rsum_ext n _ (fun d => Jinv e d * rsum n (fun e' => J d e' * G a e'))).
  2:{ intros d Hd. rewrite rsum_scal. f_equal. rewrite HG by auto. reflexivity. }
  rewrite (rsum_ext n _ (fun d => rsum n (fun e' => (Jinv e d * J d e') * G a e'))).
  2:{ intros d Hd. rewrite <- rsum_scal. apply rsum_ext. intros; ring. }
  rewrite rsum_swap.
  rewrite (rsum_ext n _ (fun e' => ident e e' * G a e')).
  2:{ intros e' He'. rewrite rsum_scal_r. f_equal. apply (HI e e' He He'). }
  rewrite (rsum_single n e); auto.
  - unfold ident. rewrite Nat.eqb_refl. ring.
  - intros i _ N. unfold ident. destruct (Nat.eqb_spec e i); [congruence|ring].
Qed.

Lemma affine_spatial_gradient n_node n dN X t G :
  (forall d, (d < n)%nat -> rsum n_node (fun j => dN j d) = 0) ->
  spatial_gradient n_node n dN X (affine_field n t G X) G.
Proof.
  intros Z a d Ha Hd. unfold affine_field.
  rewrite (rsum_ext n_node _ (fun j => dN j d * t a + rsum n (fun b => dN j d * (G a b * X j b)))).
  2:{ intros j _. rewrite rsum_scal. ring. }
  rewrite rsum_plus, rsum_scal_r, Z by auto. rewrite rsum_swap.
  rewrite Rmult_0_l, Rplus_0_l. apply rsum_ext. intros b Hb.
  rewrite <- rsum_scal_r. apply rsum_ext. intros; ring.
Qed.
