(** Theorems about Voigt storage (C05), identity and projection operators
    (C06) and the derivative of the inverse (C46). *)
From Coq Require Import Reals List Arith Bool Lia Lra Permutation.
From Verif Require Import Lib MatrixModel MatrixSpec MatrixProofs MatrixProps
  TensorModel TensorSpec TensorProofs.
Import ListNotations.
Local Open Scope R_scope.

(** * C05 *)

(** The strain rebuilt from a Voigt vector is symmetric and work conjugate:
    Voigt stress . Voigt strain = stress : strain for every symmetric stress. *)
Theorem voigt_work_conjugate n order vmf stress :
  sym_order n order -> length vmf = length order -> symmetric n stress ->
  exists strain smf, get_strain_from_vmf vmf n order = Ok strain /\
    get_stress_vmf stress n order = Ok smf /\ symmetric n strain /\
    dotl smf vmf = ddot n stress strain.
Proof.
  intros H L S. destruct (strain_from_vmf_sym vmf n order H L) as (t & Et & V).
  exists t. eexists. split; auto. split; [apply get_stress_vmf_eq, sym_order_ok; auto|].
  assert (ST : symmetric n t).
  { intros i j Hi Hj. destruct (sym_order_locate n order i j H Hi Hj) as (m & Hm & Lc).
    specialize (V m Hm). simpl in V, Lc. destruct V as [V1 V2].
    destruct Lc as [[<- <-]|[<- <-]]; congruence. }
  split; auto. unfold ddot. rewrite (sum2_sym_order n order); auto.
  - unfold dotl. rewrite lsum_nth, !map_length. apply rsum_ext. intros m Hm.
    rewrite !nth_map_comp by auto. destruct (V m Hm) as [V1 _]. simpl in V1.
    rewrite V1, kf_sq. unfold vfac. destruct (offdiag _); field.
  - intros i j Hi Hj. rewrite (S i j), (ST i j); auto.
Qed.

(** Rebuilding from the engineering components of a symmetric strain returns
    that strain. *)
Theorem voigt_strain_roundtrip n order e :
  sym_order n order -> symmetric n e ->
  exists t, get_strain_from_vmf
     (map (fun c => (if Nat.eqb (fst c) (snd c) then 1 else 2)
                    * e (fst c - 1)%nat (snd c - 1)%nat) order) n order = Ok t /\ eq2 n t e.
Proof.
  intros H S.
  destruct (strain_from_vmf_sym (map (fun c => (if Nat.eqb (fst c) (snd c) then 1 else 2)
                    * e (fst c - 1)%nat (snd c - 1)%nat) order) n order H) as (t & Et & V);
    [apply map_length|].
  exists t. split; auto. intros i j Hi Hj.
  destruct (sym_order_locate n order i j H Hi Hj) as (m & Hm & Lc).
  specialize (V m Hm). simpl in V, Lc.
  rewrite (nth_map_comp (fun c => (if Nat.eqb (fst c) (snd c) then 1 else 2)
                    * e (fst c - 1)%nat (snd c - 1)%nat)) in V by auto.
  set (c := nth m order (0,0)%nat) in *.
  assert (K : 1 / vfac c * ((if Nat.eqb (fst c) (snd c) then 1 else 2)
                    * e (fst c - 1)%nat (snd c - 1)%nat) = e (row c) (col c)).
  { unfold vfac, offdiag, row, col. destruct (Nat.eqb (fst c) (snd c)); simpl; field. }
  rewrite K in V. destruct V as [V1 V2]. destruct Lc as [[<- <-]|[<- <-]]; auto.
  rewrite V2. apply S; auto.
Qed.

Theorem voigt_strain_vectorised n order vmf :
  sym_order n order -> length vmf = length order ->
  exists t t', get_strain_from_vmf vmf n order = Ok t /\
    vget_strain_from_vmf vmf n order = Ok t' /\ eq2 n t t'.
Proof.
  intros H L. destruct (strain_from_vmf_sym vmf n order H L) as (t & Et & V).
  exists t. eexists. split; auto. split.
  { unfold vget_strain_from_vmf. rewrite L, Nat.eqb_refl, (sym_index_total_sym n order H).
    reflexivity. }
  intros i j Hi Hj. destruct (sym_index_sym n order i j H Hi Hj) as [m Em].
  rewrite Em. apply sym_index_some in Em. simpl in Em. destruct Em as [Hm Lc].
  specialize (V m Hm). simpl in V. destruct V as [V1 V2]. unfold vfac in *.
  destruct Lc as [[<- <-]|[<- <-]]; [rewrite V1|rewrite V2]; destruct (offdiag _); field.
Qed.

Theorem voigt_stress_vectorised n order t :
  NoDup order -> (forall c, In c order -> comp_in n c) ->
  get_stress_vmf t n order = vget_stress_vmf t n order.
Proof. intros. apply get_stress_vmf_eq, order_ok_iff; auto. Qed.

(** Volumetric and deviatoric projection of Voigt strain vectors. *)
Lemma vol_indicator_nth order m :
  (m < length order)%nat ->
  nth m (vol_indicator order) 0 = if offdiag (nth m order (0,0)%nat) then 0 else 1.
Proof. intros. unfold vol_indicator. apply (nth_map_comp (fun c => if offdiag c then 0 else 1)); auto. Qed.

Lemma vol_proj_row n order m :
  (m < length order)%nat ->
  nth m (vol_proj_vmf n order) [] =
  map (fun b => 1 / INR n * (nth m (vol_indicator order) 0 * b)) (vol_indicator order).
Proof.
  intros H. unfold vol_proj_vmf.
  set (g := fun a => map (fun b => 1 / INR n * (a * b)) (vol_indicator order)).
  rewrite nth_indep with (d' := g 0) by (unfold vol_indicator; rewrite !map_length; auto).
  rewrite (map_nth g). reflexivity.
Qed.

Lemma nth_map_R (f : R -> R) l i : (i < length l)%nat -> nth i (map f l) 0 = f (nth i l 0).
Proof.
  intros H. rewrite nth_indep with (d' := f 0) by (rewrite map_length; auto). apply map_nth.
Qed.

Lemma trace_from_vmf n order vmf t :
  sym_order n order -> length vmf = length order ->
  get_strain_from_vmf vmf n order = Ok t ->
  rsum (length order) (fun m => nth m (vol_indicator order) 0 * nth m vmf 0) = trace n t.
Proof.
  intros H L E. destruct (strain_from_vmf_sym vmf n order H L) as (t' & Et & V).
  rewrite E in Et. inversion Et; subst t'; clear Et.
  assert (Q : trace n t = sum2 n (fun i j => soid i j * t i j))
    by (rewrite sum2_soid_trace; reflexivity).
  rewrite Q. rewrite sum2_pairs.
  rewrite <- (lsum_perm _ _ (Permutation_map _ (sym_order_perm n order H))).
  assert (Z : lsum (map (fun c => soid (row c) (col c) * t (row c) (col c)) (flat_map expand order))
     = lsum (map (fun c => if offdiag c then 0 else t (row c) (col c)) order)).
  { destruct H as (_ & R & _). clear - R. induction order as [|c o IH]; simpl; auto.
    rewrite map_app, lsum_app, IH by (intros; apply R; simpl; auto). f_equal.
    assert (comp_in n c) as Hc by (apply R; simpl; auto).
    unfold expand. destruct (offdiag c) eqn:O; simpl.
    - apply offdiag_true in O. unfold soid, comp_rev, row, col; simpl.
      unfold comp_in in Hc.
      destruct (Nat.eqb_spec (fst c - 1) (snd c - 1)); [lia|].
      destruct (Nat.eqb_spec (snd c - 1) (fst c - 1)); [lia|]. ring.
    - apply offdiag_false in O. unfold soid, row, col. rewrite O, Nat.eqb_refl. ring. }
  rewrite Z, lsum_nth, map_length. apply rsum_ext. intros m Hm.
  rewrite (nth_map_comp (fun c => if offdiag c then 0 else t (row c) (col c))) by auto.
  rewrite vol_indicator_nth by auto. destruct (V m Hm) as [V1 _]. simpl in V1.
  unfold vfac in V1. destruct (offdiag _); [ring|]. rewrite V1. field.
Qed.

Lemma vol_proj_length n order : length (vol_proj_vmf n order) = length order.
Proof. unfold vol_proj_vmf, vol_indicator. rewrite !map_length. auto. Qed.

Lemma matvec_nth m v i : (i < length m)%nat -> nth i (matvec m v) 0 = dotl (nth i m []) v.
Proof.
  intros H. unfold matvec. rewrite nth_indep with (d' := dotl [] v) by (rewrite map_length; auto).
  apply (map_nth (fun r => dotl r v)).
Qed.

Lemma vol_proj_apply n order vmf m :
  (m < length order)%nat ->
  nth m (matvec (vol_proj_vmf n order) vmf) 0 =
  1 / INR n * nth m (vol_indicator order) 0
  * rsum (length order) (fun q => nth q (vol_indicator order) 0 * nth q vmf 0).
Proof.
  intros Hm. rewrite matvec_nth by (rewrite vol_proj_length; auto).
  rewrite vol_proj_row by auto. unfold dotl. rewrite map_length.
  replace (length (vol_indicator order)) with (length order) by (unfold vol_indicator; rewrite map_length; auto).
  rewrite <- rsum_scal. apply rsum_ext. intros i Hi.
  rewrite nth_map_R by (unfold vol_indicator; rewrite map_length; auto). ring.
Qed.

(** The volumetric projection of the Voigt strain is the Voigt form of
    (tr e / n) I and the deviatoric projection that of e - (tr e / n) I. *)
Theorem voigt_projections n order vmf e :
  (0 < n)%nat -> sym_order n order -> length vmf = length order ->
  get_strain_from_vmf vmf n order = Ok e ->
  exists ev ed,
    get_strain_from_vmf (matvec (vol_proj_vmf n order) vmf) n order = Ok ev /\
    get_strain_from_vmf (matvec (dev_proj_vmf n order) vmf) n order = Ok ed /\
    eq2 n ev (fun i j => trace n e / INR n * ident i j) /\
    eq2 n ed (fun i j => e i j - trace n e / INR n * ident i j).
Proof.
  intros Hn H L E.
  pose proof (trace_from_vmf n order vmf e H L E) as T.
  assert (INR n <> 0) as Nn by (apply not_0_INR; lia).
  destruct (strain_from_vmf_sym (matvec (vol_proj_vmf n order) vmf) n order H)
    as (ev & Ev & Vv).
  { unfold matvec. rewrite map_length. apply vol_proj_length. }
  destruct (strain_from_vmf_sym (matvec (dev_proj_vmf n order) vmf) n order H)
    as (ed & Ed & Vd).
  { unfold matvec, dev_proj_vmf. rewrite !map_length, seq_length. auto. }
  destruct (strain_from_vmf_sym vmf n order H L) as (e' & Ee & Ve).
  rewrite E in Ee. inversion Ee; subst e'; clear Ee.
  exists ev, ed. split; auto. split; auto.
  assert (D : forall m, (m < length order)%nat ->
    nth m (matvec (dev_proj_vmf n order) vmf) 0
    = nth m vmf 0 - nth m (matvec (vol_proj_vmf n order) vmf) 0).
  { intros m Hm.
    rewrite matvec_nth by (unfold dev_proj_vmf; rewrite map_length, seq_length; auto).
    rewrite matvec_nth by (rewrite vol_proj_length; auto).
    unfold dev_proj_vmf. rewrite nth_map_seq by auto. unfold dotl.
    rewrite map_length, seq_length.
    rewrite (vol_proj_row n order m) by auto. rewrite map_length.
    replace (length (vol_indicator order)) with (length order) by (unfold vol_indicator; rewrite map_length; auto).
    rewrite (rsum_ext (length order) _ (fun i => soid m i * nth i vmf 0
       - nth i (map (fun b => 1 / INR n * (nth m (vol_indicator order) 0 * b)) (vol_indicator order)) 0
         * nth i vmf 0)).
    - rewrite rsum_minus, rsum_soid by auto. reflexivity.
    - intros i Hi. rewrite nth_map_seq by auto. unfold soid. ring. }
  assert (P : forall i j, (i < n)%nat -> (j < n)%nat ->
     ev i j = trace n e / INR n * ident i j /\
     ed i j = e i j - trace n e / INR n * ident i j).
  { intros i j Hi Hj.
    destruct (sym_order_locate n order i j H Hi Hj) as (m & Hm & Lc). simpl in Lc.
    destruct (Vv m Hm) as [A1 A2]. destruct (Vd m Hm) as [B1 B2]. destruct (Ve m Hm) as [C1 C2].
    simpl in *. rewrite D in B1, B2 by auto. rewrite vol_proj_apply, T in A1, A2, B1, B2 by auto.
    rewrite vol_indicator_nth in A1, A2, B1, B2 by auto.
    set (c := nth m order (0,0)%nat) in *.
    assert (Ic : comp_in n c) by (destruct H as (_ & R & _); apply R, nth_In; auto).
    unfold ident, vfac in *. destruct (offdiag c) eqn:O.
    - apply offdiag_true in O. unfold comp_in in Ic.
      assert (row c <> col c) by (unfold row, col; lia).
      destruct Lc as [[<- <-]|[<- <-]];
        [destruct (Nat.eqb_spec (row c) (col c)); [contradiction|]
        |destruct (Nat.eqb_spec (col c) (row c)); [congruence|]];
        [rewrite A1, B1, C1|rewrite A2, B2, C2]; split; field; auto.
    - apply offdiag_false in O.
      assert (Q : row c = col c) by (unfold row, col; rewrite O; auto).
      destruct Lc as [[<- <-]|[<- <-]];
        [rewrite A1, B1, C1|rewrite A2, B2, C2];
        rewrite Q, Nat.eqb_refl; split; field; auto. }
  split; intros i j Hi Hj; apply P; auto.
Qed.

Example voigt_example :
  sym_order 2 order_sym_2d /\ length [1; 2; 3] = length order_sym_2d /\
  exists e, get_strain_from_vmf [1; 2; 3] 2 order_sym_2d = Ok e /\ e 0%nat 1%nat = 3 / 2 /\ e 1%nat 0%nat = 3/2.
Proof.
  split; [apply order_sym_2d_ok|]. split; auto. eexists. split; [reflexivity|].
  unfold set2, zero2; simpl. unfold vfac; simpl. split; field.
Qed.

(** * C06 *)
Theorem id_operators_apply n a :
  eq2 n (ddot42_1 n (foid n) a) a /\
  eq2 n (ddot42_1 n (fotransp n) a) (transp a) /\
  eq2 n (ddot42_1 n (fosym n) a) (symp a) /\
  eq2 n (ddot42_1 n fodiagtrace a) (fun i j => trace n a * ident i j).
Proof.
  assert (A : eq2 n (ddot42_1 n (foid n) a) a).
  { intros i j Hi Hj. unfold ddot42_1.
    change (sum2 n (fun k l => foid n i j k l * a k l) = a i j).
    rewrite (sum2_ext n _ (fun k l => soid i k * soid j l * a k l)).
    - apply sum2_soid2; auto.
    - intros k l Hk Hl. rewrite foid_eq by auto. reflexivity. }
  assert (B : eq2 n (ddot42_1 n (fotransp n) a) (transp a)).
  { intros i j Hi Hj. unfold ddot42_1.
    change (sum2 n (fun k l => fotransp n i j k l * a k l) = a j i).
    rewrite (sum2_ext n _ (fun k l => soid j k * soid i l * a k l)).
    - apply sum2_soid2; auto.
    - intros k l Hk Hl. rewrite fotransp_eq by auto. ring. }
  split; auto. split; auto. split.
  - intros i j Hi Hj. specialize (A i j Hi Hj). specialize (B i j Hi Hj).
    unfold ddot42_1 in *. unfold transp in B. unfold symp.
    rewrite <- A, <- B at 1. clear A B.
    change (sum2 n (fun k l => fosym n i j k l * a k l) =
      (sum2 n (fun k l => foid n i j k l * a k l) + sum2 n (fun k l => fotransp n i j k l * a k l)) / 2).
    rewrite (sum2_ext n _ (fun k l => / 2 * (foid n i j k l * a k l + fotransp n i j k l * a k l))).
    + rewrite sum2_scal, sum2_plus. field.
    + intros. unfold fosym. ring.
  - intros i j Hi Hj. unfold ddot42_1.
    change (sum2 n (fun k l => fodiagtrace i j k l * a k l) = trace n a * ident i j).
    rewrite (sum2_ext n _ (fun k l => soid i j * (soid k l * a k l))).
    + rewrite sum2_scal, sum2_soid_trace. unfold trace, ident, soid. ring.
    + intros. unfold fodiagtrace, dyad22_1. ring.
Qed.

(** In three dimensions the deviatoric operators return the trace-free part
    (of the symmetric part), ... *)
(** Partial: Three dimensions only; in two dimensions see dev_projection_2d_refuted. *)
Theorem dev_projection_3d_partial a :
  eq2 3 (ddot42_1 3 (fodevproj 3) a) (deviator3 a) /\
  eq2 3 (ddot42_1 3 (fodevprojsym 3) a) (deviator3 (symp a)) /\
  trace 3 (ddot42_1 3 (fodevproj 3) a) = 0 /\
  trace 3 (ddot42_1 3 (fodevprojsym 3) a) = 0.
Proof.
  destruct (id_operators_apply 3 a) as (A & B & C & D).
  assert (P1 : eq2 3 (ddot42_1 3 (fodevproj 3) a) (deviator3 a)).
  { intros i j Hi Hj. specialize (A i j Hi Hj). specialize (D i j Hi Hj).
    unfold ddot42_1 in *. unfold deviator3. rewrite <- A.
    replace (trace 3 a / 3 * ident i j) with (1 / 3 * (trace 3 a * ident i j)) by field.
    rewrite <- D.
    change (sum2 3 (fun k l => fodevproj 3 i j k l * a k l) =
      sum2 3 (fun k l => foid 3 i j k l * a k l) - 1/3 * sum2 3 (fun k l => fodiagtrace i j k l * a k l)).
    rewrite <- sum2_scal, <- sum2_minus. apply sum2_ext. intros. unfold fodevproj. ring. }
  assert (P2 : eq2 3 (ddot42_1 3 (fodevprojsym 3) a) (deviator3 (symp a))).
  { intros i j Hi Hj. specialize (C i j Hi Hj). specialize (D i j Hi Hj).
    unfold ddot42_1 in *. unfold deviator3. rewrite <- C.
    replace (trace 3 (symp a)) with (trace 3 a).
    2:{ unfold trace, symp. apply rsum_ext; intros; field. }
    replace (trace 3 a / 3 * ident i j) with (1 / 3 * (trace 3 a * ident i j)) by field.
    rewrite <- D.
    change (sum2 3 (fun k l => fodevprojsym 3 i j k l * a k l) =
      sum2 3 (fun k l => fosym 3 i j k l * a k l) - 1/3 * sum2 3 (fun k l => fodiagtrace i j k l * a k l)).
    rewrite <- sum2_scal, <- sum2_minus. apply sum2_ext. intros. unfold fodevprojsym. ring. }
  split; auto. split; auto. split.
  - unfold trace. rewrite (rsum_ext 3 _ (fun i => deviator3 a i i)) by (intros; apply P1; auto).
    unfold deviator3, trace, ident. simpl. field.
  - unfold trace. rewrite (rsum_ext 3 _ (fun i => deviator3 (symp a) i i)) by (intros; apply P2; auto).
    unfold deviator3, trace, ident, symp. simpl. field.
Qed.

(** ... are idempotent, and complement the volumetric operator. *)
Theorem dev_projection_3d_idempotent :
  eq4 3 (ddot44_1 3 (fodevproj 3) (fodevproj 3)) (fodevproj 3) /\
  eq4 3 (ddot44_1 3 (fodevprojsym 3) (fodevprojsym 3)) (fodevprojsym 3).
Proof.
  split; intros i j k l Hi Hj Hk Hl.
  - destruct (dev_projection_3d_partial (fun p q => fodevproj 3 p q k l)) as (P & _).
    specialize (P i j Hi Hj). unfold ddot42_1 in P. unfold ddot44_1. rewrite P.
    unfold deviator3.
    assert (T : trace 3 (fun p q => fodevproj 3 p q k l) = 0).
    { unfold trace. rewrite (rsum_ext 3 _ (fun p => soid k p * soid p l - 1/3 * (soid p p * soid k l))).
      - rewrite rsum_minus, (rsum_soid 3 k (fun p => soid p l)) by auto. unfold soid at 2. simpl.
        unfold soid. destruct (Nat.eqb k l); field.
      - intros p Hp. unfold fodevproj. rewrite foid_eq by auto. unfold fodiagtrace, dyad22_1.
        rewrite (soid_sym p k). ring. }
    rewrite T. field.
  - destruct (dev_projection_3d_partial (fun p q => fodevprojsym 3 p q k l)) as (_ & P & _).
    specialize (P i j Hi Hj). unfold ddot42_1 in P. unfold ddot44_1. rewrite P.
    unfold deviator3.
    assert (T : trace 3 (symp (fun p q => fodevprojsym 3 p q k l)) = 0).
    { unfold trace, symp.
      rewrite (rsum_ext 3 _ (fun p => / 2 * (soid k p * soid p l) + / 2 * (soid l p * soid p k)
          - 1/3 * (soid p p * soid k l))).
      - rewrite rsum_minus, rsum_plus, !rsum_scal,
          (rsum_soid 3 k (fun p => soid p l)), (rsum_soid 3 l (fun p => soid p k)) by auto.
        rewrite (soid_sym l k). unfold soid at 3. simpl. unfold soid. destruct (Nat.eqb k l); field.
      - intros p Hp. unfold fodevprojsym, fosym. rewrite foid_eq, fotransp_eq by auto.
        unfold fodiagtrace, dyad22_1. rewrite (soid_sym p k), (soid_sym p l). field. }
    rewrite T. unfold symp. unfold fodevprojsym, fosym.
    rewrite !foid_eq, !fotransp_eq by auto. unfold fodiagtrace, dyad22_1.
    rewrite (soid_sym j i). field.
Qed.

Theorem dev_plus_vol_3d a :
  eq2 3 (fun i j => ddot42_1 3 (fodevproj 3) a i j + trace 3 a / 3 * ident i j) a /\
  eq2 3 (fun i j => ddot42_1 3 (fodevprojsym 3) a i j + trace 3 a / 3 * ident i j) (symp a).
Proof.
  destruct (dev_projection_3d_partial a) as (P & Q & _).
  split; intros i j Hi Hj.
  - rewrite P by auto. unfold deviator3. ring.
  - rewrite Q by auto. unfold deviator3.
    replace (trace 3 (symp a)) with (trace 3 a); [ring|].
    unfold trace, symp. apply rsum_ext; intros; field.
Qed.

(** The hard-coded 1/3 makes the operators wrong in two dimensions: the
    "deviatoric" projection of the identity is not trace free. *)
Theorem dev_projection_2d_refuted :
  exists a, trace 2 (ddot42_1 2 (fodevproj 2) a) <> 0.
Proof.
  exists ident. unfold trace, ddot42_1, fodevproj, fodiagtrace, dyad22_1, foid, set4, zero4, ident, soid.
  simpl. lra.
Qed.

(** Exactly: in dimension n the trace left over is (1 - n/3) tr a. *)
Theorem dev_projection_trace n a :
  trace n (ddot42_1 n (fodevproj n) a) = (1 - INR n / 3) * trace n a.
Proof.
  destruct (id_operators_apply n a) as (A & _ & _ & D).
  assert (P : forall i, (i < n)%nat -> ddot42_1 n (fodevproj n) a i i
     = a i i - 1 / 3 * trace n a).
  { intros i Hi. specialize (A i i Hi Hi). specialize (D i i Hi Hi).
    unfold ident in D. rewrite Nat.eqb_refl, Rmult_1_r in D. unfold ddot42_1 in *.
    rewrite <- A, <- D at 1.
    change (sum2 n (fun k l => fodevproj n i i k l * a k l) =
      sum2 n (fun k l => foid n i i k l * a k l) - 1/3 * sum2 n (fun k l => fodiagtrace i i k l * a k l)).
    rewrite <- sum2_scal, <- sum2_minus. apply sum2_ext. intros. unfold fodevproj. ring. }
  unfold trace at 1. rewrite (rsum_ext n _ _ P), rsum_minus, rsum_const. unfold trace. field.
Qed.

(** Products in index notation. *)
Theorem dyad_contractions n a b c :
  eq2 n (ddot42_1 n (dyad22_1 a b) c) (fun i j => a i j * ddot n b c) /\
  eq2 n (ddot42_1 n (dyad22_2 a b) c) (mul2 n a (mul2 n c (transp b))) /\
  eq2 n (ddot42_1 n (dyad22_3 a b) c) (mul2 n a (mul2 n (transp c) (transp b))).
Proof.
  split; [|split]; intros i j Hi Hj; unfold ddot42_1.
  - change (sum2 n (fun k l => dyad22_1 a b i j k l * c k l) = a i j * ddot n b c).
    unfold ddot. rewrite <- sum2_scal. apply sum2_ext. intros. unfold dyad22_1. ring.
  - unfold mul2, transp. apply rsum_ext. intros k Hk. rewrite <- rsum_scal.
    apply rsum_ext. intros l Hl. unfold dyad22_2. ring.
  - unfold mul2, transp. rewrite rsum_swap. apply rsum_ext. intros k Hk.
    rewrite <- rsum_scal. apply rsum_ext. intros l Hl. unfold dyad22_3. ring.
Qed.

(** Double contractions compose and the left contraction is the adjoint of the
    right one. *)
Theorem double_contraction_adjoint n a b T U :
  ddot n (ddot24_1 n a T) b = ddot n a (ddot42 n T b) /\
  eq2 n (ddot42_1 n (ddot44_1 n T U) b) (ddot42 n T (ddot42 n U b)) /\
  ddot22_1 n a b = ddot n a b.
Proof.
  split; [|split]; [| |reflexivity].
  - unfold ddot, ddot42. transitivity (sum2 n (fun i j => sum2 n (fun k l => a k l * T k l i j * b i j))).
    + apply sum2_ext. intros i j Hi Hj. change (ddot24_1 n a T i j) with (sum2 n (fun k l => a k l * T k l i j)).
      rewrite Rmult_comm. rewrite <- sum2_scal. apply sum2_ext. intros. ring.
    + rewrite sum2_swap2. apply sum2_ext. intros i j Hi Hj. rewrite <- sum2_scal. apply sum2_ext. intros. ring.
  - intros i j Hi Hj. unfold ddot42_1, ddot44_1, ddot42.
    change (sum2 n (fun k l => sum2 n (fun p q => T i j p q * U p q k l) * b k l) =
            sum2 n (fun p q => T i j p q * sum2 n (fun k l => U p q k l * b k l))).
    transitivity (sum2 n (fun k l => sum2 n (fun p q => T i j p q * U p q k l * b k l))).
    + apply sum2_ext. intros k l Hk Hl. rewrite Rmult_comm. rewrite <- sum2_scal. apply sum2_ext. intros. ring.
    + rewrite sum2_swap2. apply sum2_ext. intros p q Hp Hq. rewrite <- sum2_scal. apply sum2_ext. intros. ring.
Qed.
Example double_contraction_adjoint_case :
  let a : T2 := fun i j => if (Nat.eqb i 0 && Nat.eqb j 1)%bool then 1 else 0 in
  let T : T4 := fun i j k l => if (Nat.eqb i 0 && Nat.eqb j 1 && Nat.eqb k 1 && Nat.eqb l 1)%bool then 3 else 0 in
  ddot24_1 2 a T 1%nat 1%nat = 3.
Proof. cbn. ring. Qed.

(** * C46: derivative of the inverse *)

(** Contracting fo_dinv_sym with a symmetric increment gives - A^-1 dA A^-1. *)
Theorem fo_dinv_sym_apply n inv dA :
  symmetric n inv -> symmetric n dA ->
  eq2 n (ddot42_1 n (fo_dinv_sym inv) dA)
        (fun i j => - mul2 n inv (mul2 n dA inv) i j).
Proof.
  intros SI SA i j Hi Hj. unfold ddot42_1.
  change (sum2 n (fun k l => fo_dinv_sym inv i j k l * dA k l) = - mul2 n inv (mul2 n dA inv) i j).
  assert (E1 : sum2 n (fun k l => inv i k * inv l j * dA k l) = mul2 n inv (mul2 n dA inv) i j).
  { unfold sum2, mul2. apply rsum_ext; intros k Hk. rewrite <- rsum_scal.
    apply rsum_ext; intros l Hl. ring. }
  assert (E2 : sum2 n (fun k l => inv i l * inv k j * dA k l) = mul2 n inv (mul2 n dA inv) i j).
  { rewrite sum2_swap, <- E1. apply sum2_ext. intros k l Hk Hl. rewrite (SA l k); auto. }
  rewrite (sum2_ext n _ (fun k l => - / 2 * (inv i k * inv l j * dA k l + inv i l * inv k j * dA k l))).
  - rewrite sum2_scal, sum2_plus, E1, E2. field.
  - intros. unfold fo_dinv_sym. ring.
Qed.

Lemma derivable_pt_lim_rsum n (f : nat -> R -> R) (d : nat -> R) x :
  (forall i, (i < n)%nat -> derivable_pt_lim (f i) x (d i)) ->
  derivable_pt_lim (fun t => rsum n (fun i => f i t)) x (rsum n d).
Proof.
  induction n; intros H; simpl.
  - apply derivable_pt_lim_const.
  - apply (derivable_pt_lim_plus (fun t => rsum n (fun i => f i t)) (f n)); auto.
Qed.

Lemma mul2_assoc n a b c : eq2 n (mul2 n (mul2 n a b) c) (mul2 n a (mul2 n b c)).
Proof.
  intros i j Hi Hj. unfold mul2.
  transitivity (rsum n (fun k => rsum n (fun l => a i l * b l k * c k j))).
  { apply rsum_ext; intros. rewrite <- rsum_scal_r. auto. }
  rewrite rsum_swap. apply rsum_ext; intros l Hl. rewrite <- rsum_scal. apply rsum_ext; intros; ring.
Qed.

Lemma mul2_ext n a a' b b' : eq2 n a a' -> eq2 n b b' -> eq2 n (mul2 n a b) (mul2 n a' b').
Proof. intros A B i j Hi Hj. unfold mul2. apply rsum_ext; intros. rewrite A, B; auto. Qed.

Lemma mul2_ident_r n a : eq2 n (mul2 n a ident) a.
Proof.
  intros i j Hi Hj. unfold mul2.
  rewrite (rsum_ext n _ (fun k => soid j k * a i k)).
  - apply (rsum_soid n j (fun k => a i k)); auto.
  - intros. unfold ident, soid. rewrite Nat.eqb_sym. ring.
Qed.

(** Along every differentiable path of symmetric matrices A(t) with inverse
    B(t), the derivative of the inverse is the contraction of the returned
    tensor with the derivative of A. *)
Theorem fo_dinv_sym_is_derivative n (A B : R -> T2) (dA dB : T2) x :
  (forall t, eq2 n (mul2 n (B t) (A t)) ident) ->
  (forall t, eq2 n (mul2 n (A t) (B t)) ident) ->
  (forall t, symmetric n (A t)) -> (forall t, symmetric n (B t)) ->
  (forall i j, (i < n)%nat -> (j < n)%nat -> derivable_pt_lim (fun t => A t i j) x (dA i j)) ->
  (forall i j, (i < n)%nat -> (j < n)%nat -> derivable_pt_lim (fun t => B t i j) x (dB i j)) ->
  eq2 n dB (ddot42_1 n (fo_dinv_sym (B x)) dA).
Proof.
  intros BA AB SA SB DA DB.
  assert (SdA : symmetric n dA).
  { intros i j Hi Hj. apply (uniqueness_limite (fun t => A t i j) x); auto.
    assert (Q : forall h : R, A h i j = A h j i) by (intros; apply SA; auto).
    pose proof (DA j i Hj Hi) as D. intros eps He. destruct (D eps He) as [d Hd]. exists d.
    intros h H1 H2. rewrite !Q. apply Hd; auto. }
  assert (PROD : eq2 n (fun i j => mul2 n dB (A x) i j + mul2 n (B x) dA i j) (fun _ _ => 0)).
  { intros i j Hi Hj.
    apply (uniqueness_limite (fun t => mul2 n (B t) (A t) i j) x).
    - unfold mul2. rewrite <- rsum_plus.
      apply (derivable_pt_lim_rsum n (fun k t => B t i k * A t k j)
        (fun k => dB i k * A x k j + B x i k * dA k j)).
      intros k Hk. apply (derivable_pt_lim_mult (fun t => B t i k) (fun t => A t k j)); auto.
    - intros eps He. exists (mkposreal 1 Rlt_0_1). intros h _ _.
      rewrite !BA by auto. rewrite Rminus_eq_0. unfold Rdiv. rewrite Rmult_0_l, Rminus_0_r, Rabs_R0. auto. }
  intros i j Hi Hj. rewrite fo_dinv_sym_apply by auto.
  assert (E1 : mul2 n (mul2 n dB (A x)) (B x) i j = dB i j).
  { rewrite mul2_assoc by auto.
    rewrite (mul2_ext n dB dB (mul2 n (A x) (B x)) ident); auto; [|intros ? ? ? ?; auto].
    apply mul2_ident_r; auto. }
  rewrite <- E1, <- mul2_assoc by auto.
  assert (E2 : forall a b : T2, eq2 n (fun i j => a i j + b i j) (fun _ _ => 0) ->
     mul2 n a (B x) i j = - mul2 n b (B x) i j).
  { intros a b Q. unfold mul2.
    replace (- rsum n (fun k => b i k * B x k j)) with ((-1) * rsum n (fun k => b i k * B x k j)) by ring.
    rewrite <- rsum_scal. apply rsum_ext. intros k Hk.
    specialize (Q i k Hi Hk). simpl in Q. replace (a i k) with (- b i k) by lra. ring. }
  apply E2. auto.
Qed.

(** Non-vacuity: A(t) = (1+t^2) I, a path of symmetric invertible matrices. *)
Example fo_dinv_example :
  let A := fun t : R => (fun i j => (1 + t * t) * ident i j) : T2 in
  let B := fun t : R => (fun i j => / (1 + t * t) * ident i j) : T2 in
  (forall t, eq2 2 (mul2 2 (B t) (A t)) ident) /\ (forall t, symmetric 2 (A t)) /\
  derivable_pt_lim (fun t => A t 0%nat 0%nat) 1 2.
Proof.
  intros A B. split; [|split].
  - intros t i j Hi Hj. pose proof (Rle_0_sqr t) as Q. unfold Rsqr in Q.
    unfold mul2, A, B, ident. simpl.
    destruct i as [|[|i]], j as [|[|j]]; try lia; simpl; field; lra.
  - intros t i j _ _. unfold A, ident. rewrite Nat.eqb_sym. auto.
  - unfold A, ident. simpl.
    replace 2 with ((0 + (1 * 1 + 1 * 1)) * 1 + (1 + 1 * 1) * 0) by ring.
    apply (derivable_pt_lim_mult (fun t => 1 + t * t) (fun _ => 1)).
    + apply (derivable_pt_lim_plus (fun _ => 1) (fun t => t * t)).
      * apply derivable_pt_lim_const.
      * apply (derivable_pt_lim_mult (fun t => t) (fun t => t)); apply derivable_pt_lim_id.
    + apply derivable_pt_lim_const.
Qed.

Print Assumptions voigt_work_conjugate.
Print Assumptions voigt_projections.
Print Assumptions dev_projection_3d_idempotent.
Print Assumptions fo_dinv_sym_is_derivative.
