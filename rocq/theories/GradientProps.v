(** Patch test, gradient operators, internal forces (C10, C11, C12). *)
From Coq Require Import Reals List Arith Lia Lra Bool.
From Verif Require Import Lib MatrixModel MatrixSpec MatrixProofs MatrixProps TensorModel TensorSpec
  TensorProofs TensorProps ElementModel ElementSpec ElementProps QuadratureModel
  GradientModel GradientSpec GradientProofs.
Import ListNotations.
Local Open Scope R_scope.

(** Two results agree on the entries below the given sizes. *)
Definition same_operator (rows cols : nat) (a b : res T2) : Prop :=
  match a, b with
  | Ok A, Ok B => forall i k, (i < rows)%nat -> (k < cols)%nat -> A i k = B i k
  | Err e, Err e' => e = e'
  | _, _ => False
  end.

Lemma split_col n_node n k : (k < n_node * n)%nat ->
  exists j a, (j < n_node)%nat /\ (a < n)%nat /\ k = (j * n + a)%nat.
Proof.
  intros H. assert (n <> 0)%nat by (intros ->; lia).
  exists (k / n)%nat, (k mod n)%nat. split; [apply Nat.div_lt_upper_bound; lia|].
  split; [apply Nat.mod_upper_bound; auto|]. rewrite Nat.mul_comm. apply Nat.div_mod; auto.
Qed.

(** C11: loop and vectorised operators agree for all derivatives, sizes and
    component orders, including which inputs they reject. *)
Theorem sym_gradient_vectorised sfd n_node n order :
  same_operator (length order) (n_node * n)
    (build_discrete_sym_gradient sfd n_node n order)
    (vbuild_discrete_sym_gradient sfd n_node n order).
Proof.
  unfold same_operator.
  destruct (build_discrete_sym_gradient sfd n_node n order) as [A|e] eqn:EA;
  destruct (vbuild_discrete_sym_gradient sfd n_node n order) as [B|e'] eqn:EB;
  pose proof EA as EA'; pose proof EB as EB';
  unfold build_discrete_sym_gradient in EA'; unfold vbuild_discrete_sym_gradient in EB';
  destruct (negb (sym_comps_ok n order)); try discriminate; try congruence;
  destruct (forallb (digits_ok n) order) eqn:D; simpl in EA', EB'; try discriminate; try congruence.
  intros i k Hi Hk. destruct (split_col n_node n k Hk) as (j & a & Hj & Ha & ->).
  assert (R : forall c, In c order -> comp_in n c).
  { intros c I. apply digits_ok_in. rewrite forallb_forall in D. auto. }
  rewrite (build_sym_entry sfd n_node n order A), (vbuild_sym_entry sfd n_node n order B); auto.
Qed.

Theorem full_gradient_vectorised sfd n_node n o :
  same_operator (length (default_nsym_order n o)) (n_node * n)
    (build_discrete_gradient sfd n_node n o) (vbuild_discrete_gradient sfd n_node n o).
Proof.
  unfold same_operator. set (order := default_nsym_order n o).
  destruct (build_discrete_gradient sfd n_node n o) as [A|e] eqn:EA;
  destruct (vbuild_discrete_gradient sfd n_node n o) as [B|e'] eqn:EB;
  pose proof EA as EA'; pose proof EB as EB';
  unfold build_discrete_gradient in EA'; unfold vbuild_discrete_gradient in EB';
  fold order in EA', EB';
  destruct (negb (Nat.eqb (length order) (n * n))); try discriminate; try congruence;
  destruct (forallb (digits_ok n) order) eqn:D; simpl in EA', EB'; try discriminate; try congruence.
  intros i k Hi Hk. destruct (split_col n_node n k Hk) as (j & a & Hj & Ha & ->).
  assert (R : forall c, In c order -> comp_in n c).
  { intros c I. apply digits_ok_in. rewrite forallb_forall in D. auto. }
  rewrite (build_nsym_entry sfd n_node n o A), (vbuild_nsym_entry sfd n_node n o B); auto.
Qed.

(** The full operator applied to nodal displacements gives the displacement
    gradient stored in the component order. *)
Theorem full_gradient_apply sfd n_node n o B u i :
  vbuild_discrete_gradient sfd n_node n o = Ok B ->
  let order := default_nsym_order n o in
  (i < length order)%nat ->
  let c := nth i order (0,0)%nat in
  rsum (n_node * n) (fun k => B i k * flatten n u k)
  = rsum n_node (fun j => u j (fst c - 1)%nat * sfd j (snd c - 1)%nat).
Proof.
  intros H order Hi c.
  assert (R : forall c, In c order -> comp_in n c).
  { unfold vbuild_discrete_gradient in H. fold order in H.
    destruct (negb (Nat.eqb (length order) (n * n))); [discriminate|].
    destruct (forallb (digits_ok n) order) eqn:D; [|discriminate].
    intros x I. apply digits_ok_in. rewrite forallb_forall in D. auto. }
  assert (Hc : comp_in n c) by (apply R, nth_In; auto).
  destruct (row_lt n c Hc) as [Hr Hcl].
  rewrite rsum_mul. apply rsum_ext. intros j Hj.
  rewrite (rsum_single n (row c)); auto.
  - rewrite flatten_block by auto. rewrite (vbuild_nsym_entry sfd n_node n o B) by auto.
    fold order. fold c. unfold nsym_entry. rewrite Nat.eqb_refl. unfold row, col. ring.
  - intros a Ha N. rewrite flatten_block by auto.
    rewrite (vbuild_nsym_entry sfd n_node n o B) by auto. fold order. fold c. unfold nsym_entry.
    destruct (Nat.eqb_spec a (row c)); [contradiction|ring].
Qed.

(** Reducing an expanded 2D operator gives it back, and the expanded operator
    maps a plane displacement field (no out-of-plane displacement) to the
    in-plane strains padded with zeros. *)
Theorem expand_reduce_roundtrip B n_node i k :
  (i < 3)%nat -> (k < n_node * 2)%nat ->
  vreduce_grad_operator (vexpand_grad_operator B) i k = B i k.
Proof.
  intros Hi Hk. destruct (split_col n_node 2 k Hk) as (j & a & Hj & Ha & ->).
  destruct (divmod_blk j a 2 Ha) as [D M].
  assert (Ha3 : (a < 3)%nat) by lia.
  unfold vreduce_grad_operator. rewrite D, M.
  assert (Q : forall r, vexpand_grad_operator B r (3 * j + a)%nat
    = match index_of (nth r order_sym_3d (0,0)%nat) order_sym_2d with
      | Some r' => B r' (j * 2 + a)%nat | None => 0 end).
  { intros r. unfold vexpand_grad_operator. rewrite (Nat.mul_comm 3 j).
    destruct (divmod_blk j a 3 Ha3) as [-> ->].
    destruct (index_of _ _); auto. destruct (Nat.ltb_spec a 2); [|lia]. f_equal. lia. }
  destruct i as [|[|[|i]]]; try lia; simpl nth; cbn [index_of order_sym_3d comp_eqb fst snd Nat.eqb andb];
    rewrite Q; reflexivity.
Qed.

Definition plane_field (u : T2) : T2 := fun j a => if Nat.ltb a 2 then u j a else 0.

Theorem expand_apply B n_node u :
  compute_infinitesimal_strain (vexpand_grad_operator B) 6 n_node 3 (plane_field u)
  = match compute_infinitesimal_strain B 3 n_node 2 u with
    | [e11; e22; e12] => [e11; e22; 0; e12; 0; 0]
    | _ => []
    end.
Proof.
  assert (Q : forall r, rsum (n_node * 3) (fun k => vexpand_grad_operator B r k * flatten 3 (plane_field u) k)
    = match index_of (nth r order_sym_3d (0,0)%nat) order_sym_2d with
      | Some r' => rsum (n_node * 2) (fun k => B r' k * flatten 2 u k) | None => 0 end).
  { intros r. rewrite rsum_mul.
    assert (E : forall j a, (a < 3)%nat -> vexpand_grad_operator B r (j * 3 + a)%nat
      = match index_of (nth r order_sym_3d (0,0)%nat) order_sym_2d with
        | Some r' => if Nat.ltb a 2 then B r' (j * 2 + a)%nat else 0 | None => 0 end).
    { intros j a Ha. unfold vexpand_grad_operator. destruct (divmod_blk j a 3 Ha) as [-> ->].
      destruct (index_of _ _); auto. destruct (Nat.ltb a 2); auto. f_equal. lia. }
    destruct (index_of (nth r order_sym_3d (0,0)%nat) order_sym_2d) as [r'|] eqn:I.
    - rewrite rsum_mul. apply rsum_ext. intros j Hj. simpl.
      rewrite !E, !flatten_block by lia.
      unfold plane_field. simpl. ring.
    - apply rsum_zero. intros j Hj. apply rsum_zero. intros a Ha. rewrite E by auto. ring. }
  unfold compute_infinitesimal_strain. cbn [seq map]. rewrite !Q. reflexivity.
Qed.

(** C10.  Strain computed from nodal displacements = symmetric part of the
    spatial gradient. *)
Lemma spatial_deriv_zero el c d :
  In el elements -> length c = el_n_dim el -> (d < el_n_dim el)%nat ->
  rsum (el_n_node el) (fun j => local_deriv el c j d) = 0.
Proof. intros H L Hd. apply (shapefun_deriv_complete el c d d H L Hd Hd). Qed.

Lemma element_dim el : In el elements -> (el_n_dim el = 2 \/ el_n_dim el = 3)%nat.
Proof. intros H. simpl in H. repeat destruct H as [<-|H]; simpl; tauto. Qed.

Lemma sym_order_comps_ok n order : sym_order n order ->
  sym_comps_ok n order = true /\ forallb (digits_ok n) order = true.
Proof.
  intros H. split.
  - unfold sym_comps_ok. apply Nat.eqb_eq. rewrite (sym_order_length n order H). apply sum_range_double.
  - apply forallb_forall. intros c I. apply digits_ok_in. apply H; auto.
Qed.

Lemma vget_strain_symp n order e :
  sym_order n order -> symmetric n e ->
  exists t, vget_strain_from_vmf
     (map (fun c => (if Nat.eqb (fst c) (snd c) then 1 else 2)
                    * e (fst c - 1)%nat (snd c - 1)%nat) order) n order = Ok t /\ eq2 n t e.
Proof.
  intros H S. destruct (voigt_strain_roundtrip n order e H S) as (t & E & Q).
  match type of E with get_strain_from_vmf ?v _ _ = _ =>
    destruct (voigt_strain_vectorised n order v H) as (t1 & t2 & E1 & E2 & Q2);
      [rewrite map_length; auto|] end.
  rewrite E in E1. inversion E1; subst t1. exists t2. split; auto.
  intros i j Hi Hj. rewrite <- Q2 by auto. apply Q; auto.
Qed.

(** What one Gauss point (or any local point) sees. *)
Lemma strain_at_point el X c sfd J detJ B order u G :
  In el elements -> length c = el_n_dim el -> sym_order (el_n_dim el) order ->
  eval_shapefun_deriv el X c = Ok (sfd, J, detJ) ->
  vbuild_discrete_sym_gradient sfd (el_n_node el) (el_n_dim el) order = Ok B ->
  spatial_gradient (el_n_node el) (el_n_dim el) (local_deriv el c) X u G ->
  let n := el_n_dim el in
  compute_infinitesimal_strain B (length order) (el_n_node el) n u
  = map (fun c => (if Nat.eqb (fst c) (snd c) then 1 else 2)
                    * symp G (fst c - 1)%nat (snd c - 1)%nat) order.
Proof.
  intros He L H Es Eb HG n. unfold compute_infinitesimal_strain.
  unfold eval_shapefun_deriv, eval_jacobian in Es.
  match type of Es with rbind (inverse ?n ?J0) _ = _ => destruct (inverse n J0) as [Jinv|] eqn:EI end;
    simpl in Es; [|discriminate]. inversion Es; subst sfd J detJ; clear Es.
  rewrite <- (map_nth_seq _ order (0,0)%nat). apply map_ext_in. intros i Ii. apply in_seq in Ii.
  assert (R : forall c, In c order -> comp_in n c) by apply H.
  rewrite (vbuild_apply _ (el_n_node el) n order B u i R Eb) by lia.
  destruct (row_lt n (nth i order (0,0)%nat)) as [Hr Hc]; [apply R, nth_In; lia|].
  f_equal. unfold symp.
  assert (K := fun a e => chain_rule_inv (el_n_node el) n (local_deriv el c) X u G Jinv a e
     (inverse_left n _ Jinv (element_dim el He) EI) HG).
  simpl in K. unfold row, col in *. rewrite !K by auto. reflexivity.
Qed.

(** C10, main statement: at any local point where the Jacobian is invertible,
    the strain tensor computed from nodal displacements is the symmetric part
    of the spatial displacement gradient. *)
Theorem strain_is_symmetric_gradient el X c u G order r :
  In el elements -> length c = el_n_dim el -> sym_order (el_n_dim el) order ->
  eval_shapefun_deriv el X c = Ok r ->
  spatial_gradient (el_n_node el) (el_n_dim el) (local_deriv el c) X u G ->
  exists B strain,
    vbuild_discrete_sym_gradient (fst (fst r)) (el_n_node el) (el_n_dim el) order = Ok B /\
    vget_strain_from_vmf
      (compute_infinitesimal_strain B (length order) (el_n_node el) (el_n_dim el) u)
      (el_n_dim el) order = Ok strain /\
    eq2 (el_n_dim el) strain (symp G).
Proof.
  intros He L H Es HG. destruct r as [[sfd J] detJ]. simpl fst.
  destruct (sym_order_comps_ok _ _ H) as [C1 C2].
  destruct (vbuild_discrete_sym_gradient sfd (el_n_node el) (el_n_dim el) order) as [B|] eqn:EB.
  2:{ unfold vbuild_discrete_sym_gradient in EB. rewrite C1, C2 in EB. discriminate. }
  destruct (vget_strain_symp (el_n_dim el) order (symp G) H) as (t & E & Q).
  { intros i j _ _. unfold symp. field. }
  exists B, t. split; [reflexivity|]. split; [|auto].
  rewrite (strain_at_point el X c sfd J detJ B order u G He L H Es EB HG). exact E.
Qed.

(** Patch test: affine displacements give exactly the constant strain. *)
Theorem patch_test el X c t G order r :
  In el elements -> length c = el_n_dim el -> sym_order (el_n_dim el) order ->
  eval_shapefun_deriv el X c = Ok r ->
  exists B strain,
    vbuild_discrete_sym_gradient (fst (fst r)) (el_n_node el) (el_n_dim el) order = Ok B /\
    vget_strain_from_vmf
      (compute_infinitesimal_strain B (length order) (el_n_node el) (el_n_dim el)
         (affine_field (el_n_dim el) t G X)) (el_n_dim el) order = Ok strain /\
    eq2 (el_n_dim el) strain (symp G).
Proof.
  intros He L H Es. apply (strain_is_symmetric_gradient el X c _ G); auto.
  apply affine_spatial_gradient. intros d Hd. apply spatial_deriv_zero; auto.
Qed.

(** Rigid motions (translation plus infinitesimal rotation) give no strain. *)
Theorem rigid_motion_no_strain el X c t W order r :
  In el elements -> length c = el_n_dim el -> sym_order (el_n_dim el) order ->
  eval_shapefun_deriv el X c = Ok r ->
  (forall a b, W a b = - W b a) ->
  exists B strain,
    vbuild_discrete_sym_gradient (fst (fst r)) (el_n_node el) (el_n_dim el) order = Ok B /\
    vget_strain_from_vmf
      (compute_infinitesimal_strain B (length order) (el_n_node el) (el_n_dim el)
         (affine_field (el_n_dim el) t W X)) (el_n_dim el) order = Ok strain /\
    eq2 (el_n_dim el) strain (fun _ _ => 0).
Proof.
  intros He L H Es HW.
  destruct (patch_test el X c t W order r He L H Es) as (B & s & A1 & A2 & A3).
  exists B, s. split; [|split]; auto. intros i j Hi Hj. rewrite A3 by auto. unfold symp.
  rewrite (HW i j). field.
Qed.

(** The computation fails exactly when the Jacobian is singular. *)
Theorem shapefun_deriv_defined el X c :
  (exists r, eval_shapefun_deriv el X c = Ok r) <->
  det (el_n_dim el) (fst (fst (eval_jacobian el X c))) <> 0.
Proof.
  unfold eval_shapefun_deriv, eval_jacobian. simpl. split.
  - intros (r & E). intros D.
    match type of E with rbind (inverse ?n ?J0) _ = _ => destruct (inverse n J0) eqn:EI end; [|discriminate].
    unfold inverse in EI. destruct (Req_EM_T _ _); [discriminate|contradiction].
  - intros D. destruct (inverse_ok _ _ D) as (inv & E). rewrite E. simpl. eauto.
Qed.

(** Every nodal field has a spatial gradient where the Jacobian is invertible
    (so the hypotheses above are met). *)
Lemma inverse_right n m inv :
  (n = 2 \/ n = 3)%nat -> inverse n m = Ok inv -> eq2 n (mul2 n m inv) ident.
Proof.
  intros Hn H. unfold inverse in H. destruct (Req_EM_T (det n m) 0) as [|N]; [discriminate|].
  inversion H; subst inv; clear H.
  destruct Hn as [-> | ->]; simpl in N; intros i j Hi Hj.
  - destruct i as [|[|i]], j as [|[|j]]; try lia; unfold mul2, ident, adj, det; simpl; field; auto.
  - destruct i as [|[|[|i]]], j as [|[|[|j]]]; try lia; unfold mul2, ident, adj, det; simpl; field; auto.
Qed.

Theorem spatial_gradient_exists el X c u r :
  In el elements -> eval_shapefun_deriv el X c = Ok r ->
  exists G, spatial_gradient (el_n_node el) (el_n_dim el) (local_deriv el c) X u G.
Proof.
  intros He Es. set (n := el_n_dim el). unfold eval_shapefun_deriv, eval_jacobian in Es.
  match type of Es with rbind (inverse ?n ?J0) _ = _ => set (J := J0) in *; destruct (inverse n J) as [Jinv|] eqn:EI end;
    simpl in Es; [|discriminate].
  pose proof (inverse_right n J Jinv (element_dim el He) EI) as I.
  exists (fun a e => rsum n (fun d => Jinv e d * rsum (el_n_node el) (fun j => local_deriv el c j d * u j a))).
  intros a d Ha Hd.
  rewrite (rsum_ext n (fun e => _ * rsum n _)
    (fun e => rsum n (fun d' => (J d e * Jinv e d') * rsum (el_n_node el) (fun j => local_deriv el c j d' * u j a)))).
  2:{ intros e He'. rewrite <- rsum_scal. apply rsum_ext. intros; unfold J; ring. }
  rewrite rsum_swap.
  rewrite (rsum_ext n _ (fun d' => ident d d' * rsum (el_n_node el) (fun j => local_deriv el c j d' * u j a))).
  2:{ intros d' Hd'. rewrite rsum_scal_r. f_equal. apply (I d d' Hd Hd'). }
  rewrite (rsum_single n d); auto.
  - unfold ident. rewrite Nat.eqb_refl. ring.
  - intros i _ N. unfold ident. destruct (Nat.eqb_spec d i); [congruence|ring].
Qed.

(** * C12: internal forces *)
Section Forces.
  Variable state : Type.
  Variable su : T2 -> state -> state.
  Variable stress_mf : state -> list R.

  Definition jac (el : element) (X : T2) (c : list R) : T2 :=
    fun d e => rsum (el_n_node el) (fun j => local_deriv el c j d * X j e).

  (** One step of the Gauss loop, inverted. *)
  Lemma gauss_point_step_inv n order el X u states_old acc i gp acc' :
    In el elements -> sym_order n order -> length (fst gp) = el_n_dim el ->
    gauss_point_step state su stress_mf Infinitesimal n order el X u states_old acc (i, gp) = Ok acc' ->
    n = el_n_dim el /\ det n (jac el X (fst gp)) <> 0 /\
    exists st stress,
      nth_error states_old i = Some st /\
      (forall G, spatial_gradient (el_n_node el) n (local_deriv el (fst gp)) X u G ->
         exists strain, eq2 n strain (symp G) /\ nth_error (snd acc') (length (snd acc)) = Some (su strain st)
           /\ snd acc' = snd acc ++ [su strain st]) /\
      (exists st', snd acc' = snd acc ++ [st'] /\
         get_tensor_from_mf2 (stress_mf st') n order true = Ok stress /\ symmetric n stress) /\
      (forall v G, spatial_gradient (el_n_node el) n (local_deriv el (fst gp)) X v G ->
         nodal_work (el_n_node el) n (fst acc') v
         = nodal_work (el_n_node el) n (fst acc) v
           + snd gp * ddot n stress G * det n (jac el X (fst gp))).
  Proof.
    intros He H L E. unfold gauss_point_step in E. cbn [fst snd] in E.
    destruct (eval_shapefun_deriv el X (fst gp)) as [[[sfd J] detJ]|] eqn:Es; [|discriminate].
    cbn [rbind] in E.
    destruct (vbuild_discrete_sym_gradient sfd (el_n_node el) (el_n_dim el) order) as [B|] eqn:EB; [|discriminate].
    cbn [rbind] in E.
    assert (n = el_n_dim el) as ->.
    { unfold vbuild_discrete_sym_gradient, sym_comps_ok in EB.
      destruct (Nat.eqb_spec (2 * length order) (el_n_dim el * (el_n_dim el + 1))) as [Q|]; [|discriminate].
      rewrite (sym_order_length n order H) in Q. rewrite sum_range_double in Q.
      clear - Q. assert (~ (n < el_n_dim el)%nat) by nia. assert (~ (el_n_dim el < n)%nat) by nia. lia. }
    set (n := el_n_dim el) in *.
    assert (DJ : detJ = det n (jac el X (fst gp)) /\ det n (jac el X (fst gp)) <> 0).
    { pose proof (proj1 (shapefun_deriv_defined el X (fst gp)) (ex_intro _ _ Es)) as D. split; auto.
      unfold eval_shapefun_deriv, eval_jacobian in Es.
      match type of Es with rbind (inverse ?n ?J0) _ = _ => destruct (inverse n J0) as [Jinv|] end;
        simpl in Es; [|discriminate]. inversion Es; reflexivity. }
    destruct DJ as [-> DJ]. split; [auto|]. split; [auto|].
    destruct (vget_strain_from_vmf _ n order) as [inc|] eqn:EI; [|discriminate]. cbn [rbind] in E.
    destruct (nth_error states_old i) as [st|] eqn:EN; [|discriminate].
    destruct (vget_tensor_from_mf2 (stress_mf (su inc st)) n order true) as [sg|] eqn:EG; [|discriminate].
    cbn [rbind vget_stress_vmf] in E. inversion E; subst acc'; clear E. cbn [fst snd].
    assert (LM : length (stress_mf (su inc st)) = length order).
    { unfold vget_tensor_from_mf2 in EG. destruct (kelvin_flag n order true); [|discriminate]. simpl in EG.
      destruct (Nat.eqb_spec (length (stress_mf (su inc st))) (length order)); [auto|discriminate]. }
    destruct (mf2_roundtrip_back_sym n order _ H LM) as (stress & ES & SS & _).
    destruct (from_mf2_vectorised_sym_partial _ n order H LM) as (t1 & t2 & T1 & T2' & TE).
    rewrite ES in T1. inversion T1; subst t1; clear T1. rewrite EG in T2'. inversion T2'; subst t2; clear T2'.
    exists st, stress. split; auto. split; [|split].
    - intros G HG. pose proof (strain_at_point el X (fst gp) sfd J _ B order u G He L H Es EB HG) as EU.
      cbv zeta in EU. fold n in EU. rewrite EU in EI.
      destruct (vget_strain_symp n order (symp G) H) as (t & Et & Q).
      { intros a b _ _. unfold symp. field. }
      rewrite Et in EI. inversion EI; subst inc. exists t. split; auto. split; auto.
      rewrite nth_error_app2 by lia. rewrite Nat.sub_diag. reflexivity.
    - exists (su inc st). auto.
    - intros v G HG. unfold nodal_work.
      pose proof (strain_at_point el X (fst gp) sfd J _ B order v G He L H Es EB HG) as EV.
      cbv zeta in EV. fold n in EV.
      assert (W : rsum (el_n_node el) (fun j => rsum n (fun a =>
          rsum (length order) (fun c => B c (j * n + a)%nat * nth c (map (fun c0 => sg (row c0) (col c0)) order) 0) * v j a))
          = ddot n stress G).
      { rewrite (rsum_ext _ _ (fun j => rsum n (fun a => (fun k => rsum (length order) (fun c =>
            B c k * nth c (map (fun c0 => sg (row c0) (col c0)) order) 0) * flatten n v k) (j * n + a)%nat))).
        2:{ intros j Hj. apply rsum_ext. intros a Ha. rewrite flatten_block by auto. reflexivity. }
        rewrite <- (rsum_mul (el_n_node el) n (fun k => rsum (length order) (fun c =>
            B c k * nth c (map (fun c0 => sg (row c0) (col c0)) order) 0) * flatten n v k)).
        rewrite (rsum_ext (el_n_node el * n) _ (fun k => rsum (length order) (fun c =>
            nth c (map (fun c0 => sg (row c0) (col c0)) order) 0 * (B c k * flatten n v k)))).
        2:{ intros k Hk. rewrite <- rsum_scal_r. apply rsum_ext. intros; ring. }
        rewrite rsum_swap.
        rewrite (rsum_ext (length order) _ (fun c => nth c (map (fun c0 => sg (row c0) (col c0)) order) 0
            * nth c (compute_infinitesimal_strain B (length order) (el_n_node el) n v) 0)).
        2:{ intros c Hc. rewrite rsum_scal. f_equal. unfold compute_infinitesimal_strain.
            rewrite nth_map_seq by auto. reflexivity. }
        rewrite EV.
        match goal with |- context [map (fun c => _ * symp G _ _) order] =>
          set (ev := map (fun c => (if Nat.eqb (fst c) (snd c) then 1 else 2)
              * symp G (fst c - 1)%nat (snd c - 1)%nat) order) end.
        destruct (voigt_work_conjugate n order ev stress H) as (strain & smf & V1 & V2 & V3 & V4); auto.
        { unfold ev. rewrite map_length. auto. }
        rewrite (voigt_stress_vectorised n order stress) in V2 by apply H.
        unfold vget_stress_vmf in V2. inversion V2; subst smf; clear V2.
        destruct (voigt_strain_roundtrip n order (symp G) H) as (t' & E' & Q').
        { intros a b _ _. unfold symp. field. }
        fold ev in E'. rewrite V1 in E'. inversion E'; subst t'; clear E'.
        assert (DD : ddot n stress strain = ddot n stress G).
        { unfold ddot. rewrite (sum2_ext n _ (fun i j => / 2 * (stress i j * G i j) + / 2 * (stress i j * G j i))).
          2:{ intros a b Ha Hb. rewrite Q' by auto. unfold symp. field. }
          rewrite sum2_plus, !sum2_scal.
          replace (sum2 n (fun i j => stress i j * G j i)) with (sum2 n (fun i j => stress i j * G i j)).
          - field.
          - rewrite sum2_swap. apply sum2_ext. intros a b Ha Hb. rewrite (SS b a) by auto. reflexivity. }
        rewrite <- DD, <- V4. unfold dotl. rewrite map_length. apply rsum_ext. intros c Hc. f_equal.
        rewrite !(nth_map_comp (fun c0 => _)) by auto.
        destruct (row_lt n (nth c order (0,0)%nat)) as [R1 R2]; [apply H, nth_In; auto|].
        symmetry. apply TE; auto. }
      rewrite <- W.
      rewrite (Rmult_comm _ (det n _)), (Rmult_comm (snd gp)), <- Rmult_assoc, Rmult_comm, <- Rmult_assoc.
      rewrite <- rsum_scal, <- rsum_plus. apply rsum_ext. intros j Hj.
      rewrite <- rsum_scal, <- rsum_plus. apply rsum_ext. intros a Ha. ring.
  Qed.

  Lemma gauss_loop_inv n order el X u states_old : In el elements -> sym_order n order ->
    forall (r : rule) s acc acc',
    (forall gp, In gp r -> length (fst gp) = el_n_dim el) ->
    gauss_loop state su stress_mf Infinitesimal n order el X u states_old
      (combine (seq s (length r)) r) acc = Ok acc' ->
    exists new, snd acc' = snd acc ++ new /\ length new = length r /\
    (r <> [] -> n = el_n_dim el) /\
    (forall i gp, nth_error r i = Some gp -> det n (jac el X (fst gp)) <> 0 /\
       exists st st' stress, nth_error states_old (s + i) = Some st /\ nth_error new i = Some st' /\
         get_tensor_from_mf2 (stress_mf st') n order true = Ok stress /\ symmetric n stress /\
         (forall G, spatial_gradient (el_n_node el) n (local_deriv el (fst gp)) X u G ->
           exists strain, eq2 n strain (symp G) /\ st' = su strain st)) /\
    (forall v (G sg : nat -> T2),
       (forall i gp, nth_error r i = Some gp ->
          spatial_gradient (el_n_node el) n (local_deriv el (fst gp)) X v (G i)) ->
       (forall i st, nth_error new i = Some st ->
          get_tensor_from_mf2 (stress_mf st) n order true = Ok (sg i)) ->
       nodal_work (el_n_node el) n (fst acc') v = nodal_work (el_n_node el) n (fst acc) v +
         rsum (length r) (fun i => snd (nth i r ([], 0)) * ddot n (sg i) (G i)
                                   * det n (jac el X (fst (nth i r ([], 0)))))).
  Proof.
    intros He H. induction r as [|gp r IH]; intros s acc acc' L E.
    - simpl in E. inversion E; subst. exists []. rewrite app_nil_r. split; [reflexivity|]. split; [reflexivity|].
      split; [congruence|]. split; [intros i gp Hi; destruct i; discriminate|]. intros. simpl. ring.
    - simpl in E.
      destruct (gauss_point_step state su stress_mf Infinitesimal n order el X u states_old acc (s, gp))
        as [acc1|] eqn:E1; [|discriminate]. simpl in E.
      apply gauss_point_step_inv in E1; auto; [|apply L; simpl; auto].
      destruct E1 as (Hn & D & st & stress & S1 & S2 & (st' & S3 & S4 & S5) & S6).
      destruct (IH (S s) acc1 acc') as (new & N1 & N2 & N3 & N4 & N5); auto.
      { intros g I. apply L; simpl; auto. }
      exists (st' :: new). rewrite N1, S3, <- app_assoc. split; [reflexivity|].
      split; [simpl; auto|]. split; [auto|]. split.
      + intros i g Hi. destruct i as [|i].
        * simpl in Hi. inversion Hi; subst g. split; auto. exists st, st', stress.
          rewrite Nat.add_0_r. split; [auto|]. split; [reflexivity|]. split; [auto|]. split; [auto|].
          intros G HG. destruct (S2 G HG) as (strain & Q1 & Q2 & Q3). exists strain. split; auto.
          rewrite S3 in Q3. apply app_inv_head in Q3. inversion Q3; auto.
        * simpl in Hi. destruct (N4 i g Hi) as (A & B). split; auto.
          replace (s + S i)%nat with (S s + i)%nat by lia. exact B.
      + intros v G sg HG Hsg. simpl length. rewrite rsum_S_first. cbn [nth].
        rewrite (N5 v (fun i => G (S i)) (fun i => sg (S i))).
        * rewrite (S6 v (G O)) by (apply (HG O); auto).
          assert (get_tensor_from_mf2 (stress_mf st') n order true = Ok (sg O)) as Q by (apply (Hsg O); auto).
          rewrite S4 in Q. inversion Q; subst. ring.
        * intros i g Hi. apply (HG (S i)); auto.
        * intros i x Hi. apply (Hsg (S i)); auto.
  Qed.

  (** C12, virtual work: the nodal forces returned by the element do, on any
      nodal displacement field, the quadrature of stress : gradient; the new
      state of each Gauss point is the state update of its own old state by
      the strain of the displacement increment at that point. *)
  Theorem internal_forces_virtual_work pt n order nsym el (r : rule) states_old X u f states :
    In el elements -> get_problem_type_parameters pt = Ok (n, order, nsym) ->
    r <> [] -> (forall gp, In gp r -> length (fst gp) = el_n_dim el) ->
    compute_element_internal_forces state su stress_mf Infinitesimal pt el r states_old X u
      = Ok (f, states) ->
    n = el_n_dim el /\ length states = length r /\
    (forall i gp, nth_error r i = Some gp ->
       exists st st' stress, nth_error states_old i = Some st /\ nth_error states i = Some st' /\
         get_tensor_from_mf2 (stress_mf st') n order true = Ok stress /\ symmetric n stress /\
         (forall G, spatial_gradient (el_n_node el) n (local_deriv el (fst gp)) X u G ->
           exists strain, eq2 n strain (symp G) /\ st' = su strain st)) /\
    (forall v (G sg : nat -> T2),
       (forall i gp, nth_error r i = Some gp ->
          spatial_gradient (el_n_node el) n (local_deriv el (fst gp)) X v (G i)) ->
       (forall i st, nth_error states i = Some st ->
          get_tensor_from_mf2 (stress_mf st) n order true = Ok (sg i)) ->
       nodal_work (el_n_node el) n f v =
         rsum (length r) (fun i => snd (nth i r ([], 0)) * ddot n (sg i) (G i)
                                   * det n (jac el X (fst (nth i r ([], 0)))))).
  Proof.
    intros He Hp Hr L E. unfold compute_element_internal_forces in E. rewrite Hp in E. cbn [rbind] in E.
    assert (H : sym_order n order).
    { apply (problem_type_orders pt n order nsym Hp). }
    destruct (gauss_loop_inv n order el X u states_old He H r 0 _ _ L E) as (new & N1 & N2 & N3 & N4 & N5).
    simpl in N1. subst new. split; [auto|]. split; [auto|]. split.
    - intros i gp Hi. apply (N4 i gp Hi).
    - intros v G sg HG Hsg. pose proof (N5 v G sg HG Hsg) as N6. cbn [fst] in N6. rewrite N6.
      unfold nodal_work at 1. rewrite rsum_zero; [ring|]. intros j _. apply rsum_zero. intros; ring.
  Qed.

  (** Self-equilibrium: no work on rigid motions, whatever the stresses. *)
  Theorem internal_forces_rigid_work pt n order nsym el (r : rule) states_old X u f states t W :
    In el elements -> get_problem_type_parameters pt = Ok (n, order, nsym) ->
    r <> [] -> (forall gp, In gp r -> length (fst gp) = el_n_dim el) ->
    compute_element_internal_forces state su stress_mf Infinitesimal pt el r states_old X u
      = Ok (f, states) ->
    (forall a b, W a b = - W b a) ->
    nodal_work (el_n_node el) n f (affine_field n t W X) = 0.
  Proof.
    intros He Hp Hr L E HW.
    destruct (internal_forces_virtual_work pt n order nsym el r states_old X u f states He Hp Hr L E)
      as (Hn & LS & S & V).
    (* choose the stress stored at each point *)
    set (sg := fun i => match nth_error states i with
                        | Some st => match get_tensor_from_mf2 (stress_mf st) n order true with
                                     | Ok s => s | Err _ => zero2 end
                        | None => zero2 end).
    rewrite (V _ (fun _ => W) sg).
    - apply rsum_zero. intros i Hi.
      destruct (nth_error r i) as [gp|] eqn:EG; [|apply nth_error_None in EG; lia].
      destruct (S i gp EG) as (st & st' & stress & _ & S2 & S3 & S4 & _).
      assert (Z : ddot n (sg i) W = 0).
      { unfold sg. rewrite S2, S3. unfold ddot.
        assert (D : sum2 n (fun a b => stress a b * W a b) = - sum2 n (fun a b => stress a b * W a b)).
        { rewrite sum2_swap at 1. replace (- sum2 n (fun a b => stress a b * W a b))
            with (-1 * sum2 n (fun a b => stress a b * W a b)) by ring.
          rewrite <- sum2_scal. apply sum2_ext. intros a b Ha Hb. rewrite (S4 b a) by auto.
          rewrite (HW b a). ring. }
        lra. }
      rewrite Z. ring.
    - intros i gp Hi. subst n. apply affine_spatial_gradient. intros d Hd.
      apply spatial_deriv_zero; auto. apply L. eapply nth_error_In; eauto.
    - intros i st Hi. assert (Hl : (i < length r)%nat).
      { rewrite <- LS. apply nth_error_Some. congruence. }
      destruct (nth_error r i) as [gp|] eqn:EG; [|apply nth_error_None in EG; lia].
      destruct (S i gp EG) as (st0 & st' & stress & _ & S2 & S3 & _). unfold sg.
      rewrite Hi in *. inversion S2; subst st'. rewrite S3. auto.
  Qed.

  (** Resultant force and moments of the nodal forces vanish. *)
  Theorem internal_forces_resultants pt n order nsym el (r : rule) states_old X u f states :
    In el elements -> get_problem_type_parameters pt = Ok (n, order, nsym) ->
    r <> [] -> (forall gp, In gp r -> length (fst gp) = el_n_dim el) ->
    compute_element_internal_forces state su stress_mf Infinitesimal pt el r states_old X u
      = Ok (f, states) ->
    (forall a, (a < n)%nat -> rsum (el_n_node el) (fun j => f (j * n + a)%nat) = 0) /\
    (forall a b, (a < n)%nat -> (b < n)%nat ->
       rsum (el_n_node el) (fun j => X j a * f (j * n + b)%nat - X j b * f (j * n + a)%nat) = 0).
  Proof.
    intros He Hp Hr L E.
    assert (RW := fun t W => internal_forces_rigid_work pt n order nsym el r states_old X u f states t W He Hp Hr L E).
    assert (ONE : forall (g : nat -> R) a, (a < n)%nat ->
       rsum n (fun c => g c * (if Nat.eqb c a then 1 else 0)) = g a).
    { intros g a Ha. rewrite (rsum_single n a); auto.
      - rewrite Nat.eqb_refl. ring.
      - intros i _ N. destruct (Nat.eqb_spec i a); [contradiction|ring]. }
    split.
    - intros a Ha. rewrite <- (RW (fun c => if Nat.eqb c a then 1 else 0) (fun _ _ => 0)); [|intros; ring].
      unfold nodal_work, affine_field. apply rsum_ext. intros j Hj.
      rewrite <- (ONE (fun c => f (j * n + c)%nat) a Ha). apply rsum_ext. intros c Hc.
      rewrite (rsum_zero n) by (intros; ring). ring.
    - intros a b Ha Hb.
      set (dl := fun i j : nat => if Nat.eqb i j then 1 else 0).
      rewrite <- (RW (fun _ => 0) (fun p q => dl p b * dl q a - dl p a * dl q b));
        [|intros; ring].
      unfold nodal_work, affine_field. apply rsum_ext. intros j Hj.
      rewrite (rsum_ext n _ (fun c => (f (j * n + c)%nat * X j a) * dl c b - (f (j * n + c)%nat * X j b) * dl c a)).
      + rewrite rsum_minus. unfold dl.
        rewrite (ONE (fun c => f (j * n + c)%nat * X j a) b Hb), (ONE (fun c => f (j * n + c)%nat * X j b) a Ha). ring.
      + intros c Hc.
        rewrite (rsum_ext n _ (fun q => dl c b * (X j q * dl q a) - dl c a * (X j q * dl q b))) by (intros; ring).
        rewrite rsum_minus, !rsum_scal. unfold dl at 2 4.
        rewrite (ONE (fun q => X j q) a Ha), (ONE (fun q => X j q) b Hb). ring.
  Qed.
End Forces.

(** Only infinitesimal strains are supported. *)
Theorem finite_strain_rejected state su mf pt el r states X u f s :
  r <> [] -> compute_element_internal_forces state su mf Finite pt el r states X u <> Ok (f, s).
Proof.
  intros Hr E. unfold compute_element_internal_forces in E.
  destruct (get_problem_type_parameters pt) as [[[n o] o']|]; simpl in E; [|discriminate].
  destruct r as [|gp r]; [congruence|]. simpl in E. unfold gauss_point_step in E. simpl in E.
  destruct (eval_shapefun_deriv el X (fst gp)) as [[[a b] c]|]; simpl in E; [|discriminate].
  destruct (vbuild_discrete_sym_gradient _ _ _ _); simpl in E; discriminate.
Qed.

(** The checked Jacobian is returned exactly for positive determinants, and
    then the shape function derivatives exist and use the same Jacobian. *)
Theorem jacobian_check_exact el X c :
  let r := eval_jacobian el X c in
  (0 < snd (fst r) -> eval_jacobian_checked el X c = Ok r /\
     exists sfd, eval_shapefun_deriv el X c = Ok (sfd, fst (fst r), snd (fst r))) /\
  (snd (fst r) <= 0 -> eval_jacobian_checked el X c = Err RuntimeError).
Proof.
  intros r. unfold eval_jacobian_checked. fold r. split; intros H.
  - destruct (Rle_dec (snd (fst r)) 0) as [L|L]; [lra|]. split; [reflexivity|].
    unfold eval_shapefun_deriv. fold r. destruct r as [[J d] dN] eqn:Er. cbn [fst snd] in *.
    assert (D : det (el_n_dim el) J = d) by (unfold r, eval_jacobian in Er; injection Er as <- <- _; reflexivity).
    unfold inverse. rewrite D. destruct (Req_EM_T d 0); [lra|]. cbn [rbind]. eexists. reflexivity.
  - destruct (Rle_dec (snd (fst r)) 0) as [L|L]; [reflexivity|lra].
Qed.

(** Non-vacuity: a distorted quad4 with 4 Gauss points, elastic-like update. *)
Definition ex_X : T2 := fun j a =>
  nth a (nth j [[0; 0]; [2; 0]; [2; 1]; [0; 1]] []) 0.
Example quad4_forces_defined :
  exists f states, compute_element_internal_forces (list R) (fun e _ => [e 0%nat 0%nat; e 1%nat 1%nat; 7])
    (fun s => s) Infinitesimal 1 quad4 [([0; 0], 4)] [[0; 0; 0]] ex_X (fun j a => INR j) = Ok (f, states).
Proof.
  unfold compute_element_internal_forces. cbn [rbind get_problem_type_parameters length seq combine gauss_loop].
  unfold gauss_point_step. cbn [fst snd].
  assert (D : det (el_n_dim quad4) (fst (fst (eval_jacobian quad4 ex_X [0; 0]))) <> 0).
  { unfold eval_jacobian, local_deriv, ex_X. simpl. lra. }
  destruct (proj2 (shapefun_deriv_defined quad4 ex_X [0;0]) D) as [[[sfd J] dJ] E]. rewrite E.
  cbn [rbind]. eexists. eexists. reflexivity.
Qed.

Print Assumptions internal_forces_resultants.
Print Assumptions patch_test.
