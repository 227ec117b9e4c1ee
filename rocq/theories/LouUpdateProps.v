(** Return mapping of the Lou-Zhang-Yoon material: the Jacobian matrix is the
    derivative of the residuals, and properties of the state update. *)
From Coq Require Import Reals List Arith Bool Lia Lra Psatz.
From Verif Require Import Lib MatrixModel MatrixSpec MatrixProofs MatrixProps TensorModel TensorSpec TensorProofs TensorProps HardeningModel
  HardeningProps ElementProps ElasticModel ElasticSpec ElasticProofs VonMisesModel VonMisesSpec VonMisesProofs VonMisesProps VonMisesTangent
  LouModel LouProps LouUpdateModel LouUpdateProofs.
Import ListNotations.
Local Open Scope R_scope.

(** ** Vocabulary *)
(** Unknowns and residuals as vectors of eight components: Kelvin form of the
    elastic strain, accumulated plastic strain, plastic multiplier. *)
Definition residuals (s : lou_system) : list R := kmf (rj_1 s) ++ [rj_2 s; rj_3 s].
Definition unknowns (e : T2) (acc g : R) : list R := kmf e ++ [acc; g].

(** ** Closed form of the residual function *)
Section Closed.
  Variables (L : lou_laws) (C : T4) (y0 : R) (e et : T2) (acc acc_old g : R) (q : lou_vals).
  Let s := ddot42_1 3 C e.
  Let v := get_stress_invariants s.
  Let dv := ders s.
  Let N := flow q v dv.
  Let nrm := fnorm N.
  Definition c_res1 : T2 := fun i j => e i j - et i j + g * N i j.
  Definition c_res2 : R := if l_assoc L then acc - acc_old - 1 * g else acc - acc_old - g * sqrt (2/3) * nrm.
  Definition c_res3 : R := (eff_stress q v - q_y q) / y0.
  Definition c_11 : T4 := fun i j k l => fosym 3 i j k l + g * ddot44_1 3 (dflow_dstress q v dv) C i j k l.
  Definition c_12 : T2 := fun i j => g * dflow_dacc q v dv i j.
  Definition c_21 : T2 := if l_assoc L then zero2
    else fun i j => - g * sqrt (2/3) * (1 / nrm) * ddot24_1 3 N (ddot44_1 3 (dflow_dstress q v dv) C) i j.
  Definition c_22 : R := if l_assoc L then 1 else 1 - g * sqrt (2/3) * (1 / nrm) * ddot22_1 3 N (dflow_dacc q v dv).
  Definition c_23 : R := if l_assoc L then -1 * 1 else - sqrt (2/3) * nrm.
  Definition c_31 : T2 := fun i j => 1 / y0 * ddot24_1 3 N C i j.
  Definition c_32 : R := 1 / y0 * (deff_dacc q v - q_yh q).
  Definition c_sys (m11 : list (list R)) : lou_system :=
    Sys c_res1 c_res2 c_res3
      (map (fun p : list R * (R * R) => fst p ++ [fst (snd p); snd (snd p)]) (combine m11 (combine (kmf c_12) (kmf N)))
       ++ [kmf c_21 ++ [c_22; c_23]; kmf c_31 ++ [c_32; 0]]).
  Definition c_ok : Prop :=
    tdet (dev_of s) <> 0 /\ lou_values L acc = Some q /\ 0 < w4 q v /\ 0 < w5 q v /\ y0 <> 0 /\ (l_assoc L = true \/ nrm <> 0).

  Lemma mf4_some t : exists m, vget_tensor_mf4 t 3 order_sym_3d true = Ok m.
  Proof. unfold vget_tensor_mf4. replace (kelvin_flag 3 order_sym_3d true) with (Ok true) by reflexivity. eexists; reflexivity. Qed.

  Lemma grj_closed : c_ok -> exists m11, vget_tensor_mf4 c_11 3 order_sym_3d true = Ok m11 /\
    get_residual_and_jacobian L C y0 e et acc acc_old g = Ok (Some (c_sys m11)).
  Proof.
    intros (D & Q & P4 & P5 & Y & A). destruct (mf4_some c_11) as [m11 E]. exists m11. split; auto.
    unfold get_residual_and_jacobian. fold s. rewrite (ders_ok s D). cbn [rbind]. rewrite Q.
    fold v dv. fold N. fold nrm.
    rewrite (proj2 (rltb_iff 0 (w4 q v)) P4), (proj2 (rltb_iff 0 (w5 q v)) P5). cbn [andb negb].
    destruct (Req_EM_T y0 0) as [|_]; [contradiction|].
    assert (B : negb (l_assoc L) && (if Req_EM_T nrm 0 then true else false) = false).
    { destruct A as [-> | A]; [reflexivity|]. destruct (Req_EM_T nrm 0); [contradiction|apply andb_false_r]. }
    rewrite B. fold c_res1 c_12 c_11. rewrite E. cbn [rbind]. rewrite !mf2_3d. cbn [rbind]. reflexivity.
  Qed.
End Closed.

Lemma grj_inv L C y0 e et acc acc_old g r : get_residual_and_jacobian L C y0 e et acc acc_old g = Ok (Some r) ->
  exists q, c_ok L C y0 e acc q.
Proof.
  unfold get_residual_and_jacobian, c_ok. set (s := ddot42_1 3 C e).
  destruct (Req_EM_T (tdet (dev_of s)) 0) as [Z|D]; [rewrite (ders_err s Z); discriminate|].
  rewrite (ders_ok s D). cbn [rbind]. destruct (lou_values L acc) as [q|] eqn:Q; [|discriminate].
  destruct (rltb 0 (w4 q (get_stress_invariants s)) && rltb 0 (w5 q (get_stress_invariants s))) eqn:B; cbn [negb]; [|discriminate].
  apply andb_prop in B. destruct B as [B4 B5]. apply rltb_iff in B4. apply rltb_iff in B5.
  destruct (Req_EM_T y0 0) as [|Y]; [discriminate|].
  destruct (l_assoc L) eqn:AS; cbn [negb andb].
  - intros _. exists q. repeat (split; auto).
  - destruct (Req_EM_T (fnorm (flow q (get_stress_invariants s) (ders s))) 0) as [|NZ]; [discriminate|].
    intros _. exists q. repeat (split; auto).
Qed.

(** * C49: the Jacobian matrix is the derivative of the residuals *)
Lemma deriv_norm A dA : tderiv A dA -> fnorm (A 0) <> 0 ->
  derivable_pt_lim (fun t => fnorm (A t)) 0 (1 / fnorm (A 0) * ddot22_1 3 (A 0) dA).
Proof.
  intros H NZ. unfold fnorm in *.
  assert (P : 0 < ddot22_1 3 (A 0) (A 0)).
  { destruct (Rle_lt_dec (ddot22_1 3 (A 0) (A 0)) 0) as [Q|Q]; auto. rewrite sqrt_neg_0 in NZ by auto. contradiction. }
  pose proof (deriv_c22 A dA A dA H H) as D.
  pose proof (derivable_pt_lim_comp _ sqrt 0 _ _ D (derivable_pt_lim_sqrt _ P)) as Q.
  eapply dlim_eq; [exact Q|]. cbv beta.
  assert (E : ddot22_1 3 dA (A 0) = ddot22_1 3 (A 0) dA) by (unfold ddot22_1; cbn [rsum]; ring).
  rewrite E. field. exact NZ.
Qed.

Theorem lou_jacobian_is_derivative L C y0 et acc_old (e : R -> T2) (acc g : R -> R) de dacc dg s0 :
  minor_symmetric 3 C -> (forall t, symmetric 3 (e t)) ->
  (forall i j, (i < 3)%nat -> (j < 3)%nat -> derivable_pt_lim (fun t => e t i j) 0 (de i j)) ->
  derivable_pt_lim acc 0 dacc -> derivable_pt_lim g 0 dg -> smooth_laws L (acc 0) ->
  get_residual_and_jacobian L C y0 (e 0) et (acc 0) acc_old (g 0) = Ok (Some s0) ->
  exists r (s : R -> lou_system), 0 < r /\ s 0 = s0 /\
    (forall t, Rabs t < r -> get_residual_and_jacobian L C y0 (e t) et (acc t) acc_old (g t) = Ok (Some (s t))) /\
    forall k, (k < 8)%nat ->
      derivable_pt_lim (fun t => nth k (residuals (s t)) 0) 0 (nth k (matvec (rj_J s0) (unknowns de dacc dg)) 0).
Proof.
  intros MC SE HE HA HG HL H0.
  pose proof (tderiv_sym e de HE SE) as SD.
  set (sig := fun t => ddot42_1 3 C (e t)). set (X := ddot42_1 3 C de).
  assert (HS : tderiv sig X) by (apply deriv_c42; exact HE).
  assert (SS : forall t, symmetric 3 (sig t)) by (intros t; apply c42_sym; exact MC).
  assert (SX : symmetric 3 X) by (apply c42_sym; exact MC).
  destruct (laws_along L acc dacc HA HL) as (q & rq & Hrq & Q & Dy & Da & Db & Dc & Dd).
  destruct (grj_inv _ _ _ _ _ _ _ _ _ H0) as (q0 & D0 & Q0 & P4 & P5 & Y & A).
  assert (Eq : q0 = q 0). { rewrite (Q 0) in Q0 by (rewrite Rminus_diag_eq, Rabs_R0; auto). injection Q0; auto. }
  subst q0. fold (sig 0) in D0, P4, P5, A.
  set (v := fun t => get_stress_invariants (sig t)). set (dv := fun t => ders (sig t)).
  pose proof (curve_i1 sig X HS) as Vi1. pose proof (curve_j2 sig X HS SS SX) as Vj2.
  pose proof (curve_j3 sig X HS SS D0) as Vj3. pose proof (curve_dj3 sig X HS SS D0) as Vdj3.
  pose proof (curve_dev sig X HS) as Vdj2.
  assert (Vdi : forall t, d_i1 (dv t) = soid) by reflexivity.
  assert (dW4 := dl_w4 q v dv X dacc Vj2 Vj3 Dc). assert (dW5 := dl_w5 q v dv X dacc Vj2 Vj3 Dc Dd P4).
  assert (dE := dl_eff q v dv X dacc Vi1 Vj2 Vj3 Vdi Da Db Dc Dd P4 P5).
  assert (dN := dl_flow q v dv X dacc Vj2 Vj3 Vdi Vdj2 Vdj3 Da Db Dc Dd P4 P5).
  set (N := fun t => flow (q t) (v t) (dv t)) in *.
  set (dN' := fun i j => ddot42_1 3 (dflow_dstress (q 0) (v 0) (dv 0)) X i j + dflow_dacc (q 0) (v 0) (dv 0) i j * dacc) in *.
  assert (OK : near0 (fun t => c_ok L C y0 (e t) (acc t) (q t))).
  { assert (K1 : near0 (fun t => tdet (dev_of (sig t)) <> 0)) by exact (dlim_near0 _ _ (deriv_det _ _ Vdj2) D0).
    assert (K2 : near0 (fun t => lou_values L (acc t) = Some (q t))) by (exists rq; auto).
    assert (K3 : near0 (fun t => 0 < w4 (q t) (v t))) by exact (dlim_near _ 0 _ 0 dW4 P4).
    assert (K4 : near0 (fun t => 0 < w5 (q t) (v t))) by exact (dlim_near _ 0 _ 0 dW5 P5).
    assert (K5 : near0 (fun t => l_assoc L = true \/ fnorm (N t) <> 0)).
    { destruct A as [A|A]; [apply near0_true; auto|].
      apply (near0_impl (fun t => fnorm (N t) <> 0)); [exact (dlim_near0 _ _ (deriv_norm _ _ dN A) A)|auto]. }
    apply (near0_impl _ _ (near0_and _ _ K1 (near0_and _ _ K2 (near0_and _ _ K3 (near0_and _ _ K4 K5))))).
    intros t (T1 & T2' & T3 & T4' & T5). repeat (split; auto). }
  set (s := fun t => match get_residual_and_jacobian L C y0 (e t) et (acc t) acc_old (g t) with Ok (Some x) => x | _ => s0 end).
  pose proof (near0_at _ OK) as OK0.
  destruct (grj_closed L C y0 (e 0) et (acc 0) acc_old (g 0) (q 0) OK0) as (m11 & M11 & E0).
  assert (Es0 : s0 = c_sys L C y0 (e 0) et (acc 0) acc_old (g 0) (q 0) m11) by (rewrite E0 in H0; injection H0; auto).
  destruct OK as (r & Hr & OK). exists r, s. split; auto.
  split; [unfold s; rewrite H0; reflexivity|].
  split. { intros t Ht. destruct (grj_closed L C y0 (e t) et (acc t) acc_old (g t) (q t)) as (m & _ & Et);
    [apply OK; rewrite Rminus_0_r; exact Ht|]. unfold s. rewrite Et. reflexivity. }
  assert (RES : forall t, Rabs (t - 0) < r -> residuals (s t) =
    kmf (c_res1 C (e t) et (g t) (q t)) ++ [c_res2 L C (e t) (acc t) acc_old (g t) (q t); c_res3 C y0 (e t) (q t)]).
  { intros t Ht. destruct (grj_closed L C y0 (e t) et (acc t) acc_old (g t) (q t) (OK t Ht)) as (m & _ & Et).
    unfold s. rewrite Et. reflexivity. }
  (* derivatives of the three residuals *)
  assert (F1 : tderiv (fun t => c_res1 C (e t) et (g t) (q t)) (fun i j => de i j + (dg * N 0 i j + g 0 * dN' i j))).
  { intros i j Hi Hj. unfold c_res1. fold (sig 0). eapply dl_eq; [apply dl_plus; [apply dl_minus; [apply HE; auto|apply dl_const]|
      apply dl_mult; [exact HG|apply dN; auto]]|]. cbv beta. change (flow (q 0) (get_stress_invariants (ddot42_1 3 C (e 0))) (ders (ddot42_1 3 C (e 0)))) with (N 0). ring. }
  assert (F2 : derivable_pt_lim (fun t => c_res2 L C (e t) (acc t) acc_old (g t) (q t)) 0
     (if l_assoc L then dacc - dg else dacc - (dg * sqrt (2/3) * fnorm (N 0) + g 0 * sqrt (2/3) * (1 / fnorm (N 0) * ddot22_1 3 (N 0) dN')))).
  { unfold c_res2. destruct A as [A|A].
    - rewrite A. eapply dl_eq; [apply dl_minus; [apply dl_minus; [exact HA|apply dl_const]|apply dl_mult; [apply dl_const|exact HG]]|]. cbv beta. ring.
    - destruct (l_assoc L).
      + eapply dl_eq; [apply dl_minus; [apply dl_minus; [exact HA|apply dl_const]|apply dl_mult; [apply dl_const|exact HG]]|]. cbv beta. ring.
      + eapply dl_eq; [apply dl_minus; [apply dl_minus; [exact HA|apply dl_const]|
          apply dl_mult; [apply dl_mult; [exact HG|apply dl_const]|exact (deriv_norm _ _ dN A)]]|]. cbv beta.
        change (flow (q 0) (get_stress_invariants (ddot42_1 3 C (e 0))) (ders (ddot42_1 3 C (e 0)))) with (N 0). ring. }
  assert (F3 : derivable_pt_lim (fun t => c_res3 C y0 (e t) (q t)) 0
     (1 / y0 * (ddot22_1 3 (N 0) X + (deff_dacc (q 0) (v 0) - q_yh (q 0)) * dacc))).
  { unfold c_res3. apply (dlim_ext _ (fun t => / y0 * (eff_stress (q t) (v t) - q_y (q t)))).
    { intros t. unfold Rdiv. rewrite Rmult_comm. reflexivity. }
    eapply dl_eq; [apply dl_mult; [apply dl_const|apply dl_minus; [exact dE|exact Dy]]|]. cbv beta. change (flow (q 0) (v 0) (dv 0)) with (N 0). unfold Rdiv. ring. }
  (* the matrix-vector product *)
  destruct (mf4_rows _ _ M11) as [L1 L2].
  rewrite Es0. unfold c_sys, rj_J, unknowns.
  set (c21 := c_21 L C (e 0) (g 0) (q 0)). set (c31 := c_31 C y0 (e 0) (q 0)).
  destruct (matvec_bordered m11 (kmf (c_12 C (e 0) (g 0) (q 0))) (kmf (flow (q 0) (v 0) (dv 0))) (kmf c21)
     (c_22 L C (e 0) (g 0) (q 0)) (c_23 L C (e 0) (q 0)) (kmf c31) (c_32 C y0 (e 0) (q 0)) 0 (kmf de) dacc dg L1 L2
     eq_refl eq_refl eq_refl eq_refl eq_refl) as (B1 & B2 & B3).
  fold (sig 0) in *. fold (v 0) (dv 0) in *. fold (N 0) in *.
  assert (MS : minor_symmetric 3 (c_11 C (e 0) (g 0) (q 0))).
  { pose proof (right_minor_44 (dflow_dstress (q 0) (v 0) (dv 0)) C MC (dflow_left_minor (q 0) (v 0) (sig 0))) as RM.
    intros i j k l Hi Hj Hk Hl. unfold c_11. fold (sig 0). fold (v 0) (dv 0). destruct (RM i j k l Hi Hj Hk Hl) as [R1 R2].
    destruct (fosym_minor i j k l Hi Hj Hk Hl) as [R3 R4]. rewrite <- R1, <- R2, <- R3, <- R4. split; reflexivity. }
  intros k Hk. apply (dlim_local _ _ 0 _ r Hr (fun t Ht => f_equal (fun l => nth k l 0) (RES t Ht))).
  assert (CASES : (k < 6)%nat \/ k = 6%nat \/ k = 7%nat) by lia. destruct CASES as [K|[-> | ->]].
  - rewrite (B1 k K), (mv_mf4 _ _ de MS SD M11).
    apply (dlim_ext _ (fun t => nth k (kmf (c_res1 C (e t) et (g t) (q t))) 0)).
    { intros t. rewrite app_nth1 by (exact K). reflexivity. }
    eapply dl_eq; [apply (kmf_deriv _ _ F1 k K)|].
    assert (EE : eq2 3 (fun i j => de i j + (dg * N 0 i j + g 0 * dN' i j))
       (fun i j => ddot42 3 (c_11 C (e 0) (g 0) (q 0)) de i j + c_12 C (e 0) (g 0) (q 0) i j * dacc + N 0 i j * dg)).
    { intros i j Hi Hj. unfold c_11, c_12. fold (sig 0). fold (v 0) (dv 0).
      assert (F : ddot42_1 3 (fosym 3) de i j = de i j).
      { rewrite (proj1 (proj2 (proj2 (id_operators_apply 3 de)))) by auto. unfold symp. rewrite (SD i j Hi Hj). field. }
      pose proof (c44_apply (dflow_dstress (q 0) (v 0) (dv 0)) C de i j) as F'. fold X in F'.
      unfold dN'. rewrite <- F'. set (T := ddot44_1 3 _ C). unfold ddot42, sum2.
      transitivity (ddot42_1 3 (fosym 3) de i j + g 0 * ddot42_1 3 T de i j + g 0 * dflow_dacc (q 0) (v 0) (dv 0) i j * dacc + N 0 i j * dg);
        [rewrite F; ring|]. unfold ddot42_1. cbn [rsum]. ring. }
    rewrite (kmf_ext _ _ EE). destruct k as [|[|[|[|[|[|k]]]]]]; try lia; unfold kmf; cbn [nth]; ring.
  - rewrite B2. cbn [nth kmf app]. eapply dl_eq; [exact F2|].
    unfold c21, c_21, c_22, c_23. fold (sig 0). fold (v 0) (dv 0). fold (N 0).
    destruct (l_assoc L).
    + unfold dotl, kmf, zero2. cbn [length rsum nth]. ring.
    + set (T := ddot44_1 3 _ C). set (z := - g 0 * sqrt (2/3) * (1 / fnorm (N 0))).
      assert (S1 : symmetric 3 (fun i j => z * ddot24_1 3 (N 0) T i j)).
      { intros i j Hi Hj. f_equal. apply c24_sym; auto. apply right_minor_44; auto. apply dflow_left_minor. }
      rewrite (dotl_kmf _ _ S1 SD).
      assert (E1 : ddot22_1 3 (fun i j => z * ddot24_1 3 (N 0) T i j) de = z * ddot22_1 3 (N 0) (ddot42_1 3 T de)).
      { rewrite <- c24_swap. unfold ddot22_1. cbn [rsum]. ring. }
      rewrite E1.
      assert (E2 : ddot22_1 3 (N 0) dN' = ddot22_1 3 (N 0) (ddot42_1 3 T de) + ddot22_1 3 (N 0) (dflow_dacc (q 0) (v 0) (dv 0)) * dacc).
      { unfold dN'. transitivity (ddot22_1 3 (N 0) (fun i j => ddot42_1 3 T de i j + dflow_dacc (q 0) (v 0) (dv 0) i j * dacc)).
        - apply c22_ext; [intros ? ? _ _; reflexivity|]. intros i j Hi Hj. unfold T. rewrite c44_apply. reflexivity.
        - unfold ddot22_1. cbn [rsum]. ring. }
      rewrite E2. unfold z. ring.
  - rewrite B3. cbn [nth kmf app]. eapply dl_eq; [exact F3|].
    unfold c31, c_31, c_32. fold (sig 0). fold (v 0) (dv 0). fold (N 0).
    assert (S1 : symmetric 3 (fun i j => 1 / y0 * ddot24_1 3 (N 0) C i j)) by (intros i j Hi Hj; f_equal; apply c24_sym; auto).
    rewrite (dotl_kmf _ _ S1 SD).
    assert (E1 : ddot22_1 3 (fun i j => 1 / y0 * ddot24_1 3 (N 0) C i j) de = 1 / y0 * ddot22_1 3 (N 0) X).
    { unfold X. rewrite <- c24_swap. unfold ddot22_1. cbn [rsum]. ring. }
    rewrite E1. ring.
Qed.

(** ** The flow vector is the gradient of the effective stress *)
(** [N] is the gradient of [F] at the symmetric tensor [s]: derivative along
    every curve of symmetric tensors through [s]. *)
Definition is_gradient (F : T2 -> option R) (s N : T2) : Prop :=
  symmetric 3 N /\
  forall (sig : R -> T2) (X : T2), eq2 3 (sig 0) s -> (forall t, symmetric 3 (sig t)) ->
    (forall i j, (i < 3)%nat -> (j < 3)%nat -> derivable_pt_lim (fun t => sig t i j) 0 (X i j)) ->
    exists f r, 0 < r /\ (forall t, Rabs t < r -> F (sig t) = Some (f t)) /\ derivable_pt_lim f 0 (ddot 3 N X).

Lemma dev_of_ext a b : eq2 3 a b -> dev_of a = dev_of b.
Proof.
  intros H. apply FunctionalExtensionality.functional_extensionality. intros i.
  apply FunctionalExtensionality.functional_extensionality. intros j. apply c42_ext. exact H.
Qed.
Lemma ders_ext a b : eq2 3 a b -> ders a = ders b.
Proof. intros H. unfold ders. rewrite (dev_of_ext a b H). reflexivity. Qed.
Lemma inv_ext a b : eq2 3 a b -> get_stress_invariants a = get_stress_invariants b.
Proof.
  intros H. unfold get_stress_invariants. rewrite (tdet_ext a b H).
  assert (E : ttrace a = ttrace b) by (unfold ttrace; rewrite !H by lia; reflexivity).
  assert (E2 : ttrace (tmatmul a a) = ttrace (tmatmul b b)) by (unfold ttrace, tmatmul; rewrite !H by lia; reflexivity).
  rewrite E, E2. reflexivity.
Qed.

Lemma effective_is q s : 0 < w4 q (get_stress_invariants s) -> 0 < w5 q (get_stress_invariants s) ->
  get_effective_stress s (q_a q) (q_b q) (q_c q) (q_d q) = Some (eff_stress q (get_stress_invariants s)).
Proof.
  intros P4 P5. unfold get_effective_stress, lou_root, eff_stress. set (v := get_stress_invariants s) in *.
  unfold pow_half. fold (w2 q v). fold (w4 q v).
  destruct (rltb (w4 q v) 0) eqn:B; [apply rltb_iff in B; lra|].
  replace (sqrt (w4 q v)) with (Rpower (w4 q v) (1/2)) by (replace (1/2) with (/2) by lra; apply Rpower_sqrt; auto).
  fold (w3 q v). fold (w5 q v). unfold pow_third.
  destruct (rltb (w5 q v) 0) eqn:B5; [apply rltb_iff in B5; lra|].
  destruct (Req_EM_T (w5 q v) 0) as [Z|_]; [lra|]. reflexivity.
Qed.

Theorem lou_flow_is_gradient q s :
  symmetric 3 s -> tdet (dev_of s) <> 0 -> 0 < w4 q (get_stress_invariants s) -> 0 < w5 q (get_stress_invariants s) ->
  is_gradient (fun s' => get_effective_stress s' (q_a q) (q_b q) (q_c q) (q_d q)) s (flow q (get_stress_invariants s) (ders s)).
Proof.
  intros Ss D P4 P5. split; [apply flow_sym|]. intros sig X E0 SS HS.
  rewrite <- (inv_ext _ _ E0) in *. rewrite <- (ders_ext _ _ E0) in *. rewrite <- (dev_of_ext _ _ E0) in D.
  pose proof (tderiv_sym sig X HS SS) as SX.
  set (v := fun t => get_stress_invariants (sig t)). set (dv := fun t => ders (sig t)).
  assert (K : forall c h : R, derivable_pt_lim (fun _ => c) 0 (h * 0)) by (intros; rewrite Rmult_0_r; apply dl_const).
  pose proof (curve_i1 sig X HS) as Vi1. pose proof (curve_j2 sig X HS SS SX) as Vj2. pose proof (curve_j3 sig X HS SS D) as Vj3.
  assert (dW4 := dl_w4 (fun _ => q) v dv X 0 Vj2 Vj3 (K _ _)). assert (dW5 := dl_w5 (fun _ => q) v dv X 0 Vj2 Vj3 (K _ _) (K _ _) P4).
  assert (dE := dl_eff (fun _ => q) v dv X 0 Vi1 Vj2 Vj3 (fun t => eq_refl) (K _ _) (K _ _) (K _ _) (K _ _) P4 P5).
  assert (NB : near0 (fun t => 0 < w4 q (v t) /\ 0 < w5 q (v t)))
    by exact (near0_and _ _ (dlim_near _ 0 _ 0 dW4 P4) (dlim_near _ 0 _ 0 dW5 P5)).
  destruct NB as (r & Hr & NB). exists (fun t => eff_stress q (v t)), r. split; auto. split.
  - intros t Ht. destruct (NB t) as [B4 B5]; [rewrite Rminus_0_r; exact Ht|]. apply effective_is; auto.
  - eapply dl_eq; [exact dE|]. cbv beta. rewrite Rmult_0_r, Rplus_0_r. reflexivity.
Qed.

(** Derivative of the third invariant: the code inverts the deviatoric stress,
    although the derivative is a polynomial. *)
Theorem lou_third_invariant_derivative s : symmetric 3 s -> tdet (dev_of s) <> 0 ->
  eq2 3 (d_j3 (ders s)) (fun i j => mul2 3 (deviator3 s) (deviator3 s) i j - 2/3 * J2 s * ident i j).
Proof.
  intros Ss D.
  assert (E : eq2 3 (d_j3 (ders s)) (ddot42_1 3 (fodevprojsym 3) (tadj (dev_of s)))).
  { intros i j Hi Hj. cbn [ders d_j3]. rewrite c24_P by auto. unfold ddot42_1. rewrite <- rsum_scal. apply rsum_ext; intros k Hk.
    rewrite <- rsum_scal. apply rsum_ext; intros l Hl. unfold tinv. field. exact D. }
  intros i j Hi Hj. rewrite E by auto.
  rewrite (P_apply_dev _ (tadj_sym _ (dev_of_sym s))) by auto.
  pose proof (P_apply_dev s Ss) as PD.
  assert (TA : eq2 3 (tadj (dev_of s)) (tadj (deviator3 s))).
  { intros a b Ha Hb. unfold tadj. rewrite !PD by (destruct a as [|[|[|a]]], b as [|[|[|b]]]; cbn; lia). reflexivity. }
  unfold deviator3 at 1. unfold trace. cbn [rsum]. rewrite !TA by lia.
  assert (S10 : s 1%nat 0%nat = s 0%nat 1%nat) by (apply Ss; lia). assert (S20 : s 2%nat 0%nat = s 0%nat 2%nat) by (apply Ss; lia).
  assert (S21 : s 2%nat 1%nat = s 1%nat 2%nat) by (apply Ss; lia).
  clear E PD TA D. destruct i as [|[|[|i]]]; try lia; destruct j as [|[|[|j]]]; try lia; open3; cbv [nxt]; rewrite ?S10, ?S20, ?S21; field.
Qed.

(** ** Spherical states, states of pure shear and every other state without
    third deviatoric invariant have no inverse: the update raises. *)
Definition law_value (hl : hlaw) (x : R) : option R := match hl x with Some (y, _) => Some y | None => None end.
Definition lou_effective (L : lou_laws) (acc : R) (s : T2) : option R :=
  match law_value (l_a L) acc, law_value (l_b L) acc, law_value (l_c L) acc, law_value (l_d L) acc with
  | Some a, Some b, Some c, Some d => get_effective_stress s a b c d
  | _, _, _, _ => None
  end.

Lemma iso_minor E v : minor_symmetric 3 (iso_tangent E v).
Proof.
  intros i j k l Hi Hj Hk Hl. unfold iso_tangent.
  destruct (fosym_minor i j k l Hi Hj Hk Hl) as [A B]. destruct (fodiagtrace_minor i j k l Hi Hj Hk Hl) as [C D].
  split; [rewrite A, C|rewrite B, D]; reflexivity.
Qed.
Lemma iso_apply E v e : symmetric 3 e -> eq2 3 (ddot42_1 3 (iso_tangent E v) e) (sig_of E v e).
Proof.
  intros S i j Hi Hj. destruct (id_operators_apply 3 e) as (_ & _ & IS & IT).
  assert (SY : symp e i j = e i j) by (unfold symp; rewrite (S i j) by auto; field).
  transitivity (lame_lambda E v * ddot42_1 3 fodiagtrace e i j + 2 * lame_mu E v * ddot42_1 3 (fosym 3) e i j).
  { unfold ddot42_1, iso_tangent. cbn [rsum]. ring. }
  rewrite IS, IT by auto. rewrite SY. unfold sig_of, hooke. ring.
Qed.
Lemma from_mf2_sym l t : vget_tensor_from_mf2 l 3 order_sym_3d true = Ok t -> symmetric 3 t.
Proof.
  unfold vget_tensor_from_mf2. replace (kelvin_flag 3 order_sym_3d true) with (Ok true) by reflexivity. cbn [rbind].
  destruct (negb (Nat.eqb (length l) (length order_sym_3d))); [discriminate|].
  destruct (negb (sym_index_total 3 order_sym_3d)); [discriminate|]. intros H. injection H as <-.
  intros i j Hi Hj. destruct i as [|[|[|i]]], j as [|[|[|j]]]; try lia; reflexivity.
Qed.
Lemma values_of L acc q : lou_values L acc = Some q ->
  law_value (l_y L) acc = Some (q_y q) /\ law_value (l_a L) acc = Some (q_a q) /\ law_value (l_b L) acc = Some (q_b q) /\
  law_value (l_c L) acc = Some (q_c q) /\ law_value (l_d L) acc = Some (q_d q).
Proof.
  unfold lou_values, fin_law, law_value.
  destruct (l_y L acc) as [[y [hy|]]|]; try discriminate. destruct (l_a L acc) as [[a [ha|]]|]; try discriminate.
  destruct (l_b L acc) as [[b [hb|]]|]; try discriminate. destruct (l_c L acc) as [[c [hc|]]|]; try discriminate.
  destruct (l_d L acc) as [[d [hd|]]|]; try discriminate. intros H. injection H as <-. cbn. auto.
Qed.

(** * C50: the residuals are the backward Euler equations *)
Theorem lou_residuals_are_backward_euler L C y0 e et acc acc_old g s :
  minor_symmetric 3 C -> get_residual_and_jacobian L C y0 e et acc acc_old g = Ok (Some s) ->
  exists N f y, let sig := ddot42 3 C e in
    is_gradient (lou_effective L acc) sig N /\ lou_effective L acc sig = Some f /\ law_value (l_y L) acc = Some y /\ y0 <> 0 /\
    eq2 3 (rj_1 s) (fun i j => e i j - et i j + g * N i j) /\
    rj_2 s = acc - acc_old - g * (if l_assoc L then 1 else sqrt (2/3) * tnorm N) /\
    rj_3 s = (f - y) / y0.
Proof.
  intros MC H. destruct (grj_inv _ _ _ _ _ _ _ _ _ H) as (q & OK). pose proof OK as (D & Q & P4 & P5 & Y & A).
  destruct (grj_closed L C y0 e et acc acc_old g q OK) as (m & _ & E). rewrite E in H. injection H as <-.
  destruct (values_of _ _ _ Q) as (Vy & Va & Vb & Vc & Vd).
  set (sg := ddot42_1 3 C e) in *. assert (Ss : symmetric 3 sg) by (apply c42_sym; exact MC).
  exists (flow q (get_stress_invariants sg) (ders sg)), (eff_stress q (get_stress_invariants sg)), (q_y q).
  change (ddot42 3 C e) with sg. cbn zeta.
  assert (EF : lou_effective L acc = (fun s' => get_effective_stress s' (q_a q) (q_b q) (q_c q) (q_d q))).
  { apply FunctionalExtensionality.functional_extensionality. intros s'. unfold lou_effective. rewrite Va, Vb, Vc, Vd. reflexivity. }
  rewrite EF. split; [apply lou_flow_is_gradient; auto|]. split; [apply effective_is; auto|]. split; [exact Vy|]. split; [exact Y|].
  cbn [c_sys rj_1 rj_2 rj_3]. split; [intros i j _ _; reflexivity|]. split; [|reflexivity].
  unfold c_res2. fold sg. destruct (l_assoc L); [ring|].
  change (fnorm (flow q (get_stress_invariants sg) (ders sg))) with (tnorm (flow q (get_stress_invariants sg) (ders sg))). ring.
Qed.

(** Relative size of the residuals, as the code measures it. *)
Definition relative (x ref : R) : R := if Rlt_dec ref (/ 100000000) then x else x / ref.
Definition surface_error (et : T2) (acc_old : R) (r1 : T2) (r2 r3 : R) : R :=
  (relative (tnorm r1) (tnorm et) + relative (Rabs r2) (Rabs acc_old) + Rabs r3) / 3.
Definition surface_step (E v : R) (L : lou_laws) (et : T2) (a : R) (e' : T2) (a' : R) : Prop :=
  let sig := sig_of E v e' in
  exists g N f y y0, law_value (l_y L) 0 = Some y0 /\ y0 <> 0 /\ law_value (l_y L) a' = Some y /\
    lou_effective L a' sig = Some f /\ is_gradient (lou_effective L a') sig N /\
    surface_error et a (fun i j => e' i j - et i j + g * N i j)
      (a' - a - g * (if l_assoc L then 1 else sqrt (2/3) * tnorm N)) ((f - y) / y0) < / 1000000.

Lemma rltb_dec a b : rltb a b = if Rlt_dec a b then true else false.
Proof.
  destruct (Rlt_dec a b) as [H|H]; [apply rltb_iff; exact H|]. destruct (rltb a b) eqn:B; auto. apply rltb_iff in B. contradiction.
Qed.
Lemma tnorm_ext a b : eq2 3 a b -> tnorm a = tnorm b.
Proof. intros H. unfold tnorm. f_equal. apply ddot_ext; exact H. Qed.

Lemma rabs_div x y : Rabs (x / y) = Rabs x / Rabs y.
Proof. unfold Rdiv. rewrite Rabs_mult, Rabs_inv. reflexivity. Qed.

Section Sound.
  Variable solve : list (list R) -> list R -> res (option (list R)).
  Lemma surface_newton_sound L C y0 et acc_old : forall fuel first diter e acc g e' acc' g',
    symmetric 3 e -> surface_newton solve L C y0 et acc_old fuel first diter e acc g = Ok (Some (e', acc', g')) ->
    symmetric 3 e' /\ exists s, get_residual_and_jacobian L C y0 e' et acc' acc_old g' = Ok (Some s) /\
      surface_error et acc_old (rj_1 s) (rj_2 s) (rj_3 s) < / 1000000.
  Proof.
    induction fuel as [|fuel IH]; intros first diter e acc g e' acc' g' Se; cbn [surface_newton];
      destruct (get_residual_and_jacobian L C y0 e et acc acc_old g) as [[s|]|] eqn:G; cbn [rbind]; try discriminate;
      rewrite mf2_3d; cbn [rbind];
      match goal with |- (if ?c then _ else _) = _ -> _ => destruct c eqn:B end; try discriminate.
    1, 2: intros H; injection H as <- <- <-; split; auto; exists s; split; auto;
      apply andb_prop in B; destruct B as [B _]; apply andb_prop in B; destruct B as [B _]; apply rltb_iff in B;
      unfold surface_error, relative; rewrite !rltb_dec in B; unfold small, su_conv_tol in B;
      change (fnorm (rj_1 s)) with (tnorm (rj_1 s)) in B; change (fnorm et) with (tnorm et) in B;
      destruct (Rlt_dec (tnorm et) (/ 100000000)); destruct (Rlt_dec (Rabs acc_old) (/ 100000000));
        try (rewrite (rabs_div (rj_2 s) acc_old) in B); exact B.
    destruct (solve _ _) as [[d|]|]; cbn [rbind]; try discriminate.
    destruct (vget_tensor_from_mf2 (firstn 6 d) 3 order_sym_3d true) as [de|] eqn:FD; cbn [rbind]; try discriminate.
    apply IH. pose proof (from_mf2_sym _ _ FD) as Sd. intros i j Hi Hj. rewrite (Se i j Hi Hj), (Sd i j Hi Hj). reflexivity.
  Qed.
  (** An accepted iterate was reached by a Newton correction whose increments
      are within tolerance: relative to the trial strain for the elastic
      strain, to the previous accumulated plastic strain for the two scalars
      (absolute where the reference is negligible). *)
  Lemma vnorm_entry l x : In x l -> Rabs x <= vnorm l.
  Proof.
    unfold vnorm. intros H. rewrite <- sqrt_Rsqr_abs. apply sqrt_le_1_alt. unfold Rsqr.
    induction l as [|y l IH]; [contradiction|]. cbn [map lsum].
    assert (Q : 0 <= lsum (map (fun z => z * z) l)) by (clear; induction l as [|z l IH]; cbn [map lsum]; [lra|pose proof (Rle_0_sqr z) as Z; unfold Rsqr in Z; lra]).
    destruct H as [-> | H]; [lra|]. specialize (IH H). pose proof (Rle_0_sqr y) as Z. unfold Rsqr in Z. lra.
  Qed.
  Definition scaled_by (r x : R) : R := if Rlt_dec (/ 100000000) (Rabs r) then x / r else x.
  Definition small_correction (et : T2) (acc_old : R) (d : list R) : Prop :=
    (forall x, In x (firstn 6 d) -> Rabs (scaled_by (tnorm et) x) < / 1000000) /\
    Rabs (scaled_by acc_old (nth 6 d 0)) < / 1000000 /\ Rabs (scaled_by acc_old (nth 7 d 0)) < / 1000000.
  Theorem lou_last_correction_small L C y0 et acc_old fuel e acc g e' acc' g' :
    surface_newton solve L C y0 et acc_old fuel true 0 e acc g = Ok (Some (e', acc', g')) ->
    exists e1 acc1 g1 s d de, get_residual_and_jacobian L C y0 e1 et acc1 acc_old g1 = Ok (Some s) /\
      solve (rj_J s) (map Ropp (kmf (rj_1 s) ++ [rj_2 s; rj_3 s])) = Ok (Some d) /\
      vget_tensor_from_mf2 (firstn 6 d) 3 order_sym_3d true = Ok de /\
      e' = (fun i j => e1 i j + de i j) /\ acc' = acc1 + nth 6 d 0 /\ g' = g1 + nth 7 d 0 /\ small_correction et acc_old d.
  Proof.
    set (reached := fun (e : T2) acc g diter => exists e1 acc1 g1 s d de, get_residual_and_jacobian L C y0 e1 et acc1 acc_old g1 = Ok (Some s) /\
      solve (rj_J s) (map Ropp (kmf (rj_1 s) ++ [rj_2 s; rj_3 s])) = Ok (Some d) /\
      vget_tensor_from_mf2 (firstn 6 d) 3 order_sym_3d true = Ok de /\
      e = (fun i j => e1 i j + de i j) /\ acc = acc1 + nth 6 d 0 /\ g = g1 + nth 7 d 0 /\ (diter < su_conv_tol -> small_correction et acc_old d)).
    assert (IND : forall fuel first diter e acc g, (first = false -> reached e acc g diter) ->
      surface_newton solve L C y0 et acc_old fuel first diter e acc g = Ok (Some (e', acc', g')) ->
      exists diter', diter' < su_conv_tol /\ reached e' acc' g' diter').
    { induction fuel0 as [|n IH]; intros first diter e0 acc0 g0 RC; cbn [surface_newton];
        destruct (get_residual_and_jacobian L C y0 e0 et acc0 acc_old g0) as [[s|]|] eqn:G; cbn [rbind]; try discriminate;
        rewrite mf2_3d; cbn [rbind];
        match goal with |- (if ?c then _ else _) = _ -> _ => destruct c eqn:B end; try discriminate.
      1, 2: intros H; injection H as <- <- <-; apply andb_prop in B; destruct B as [B F]; apply andb_prop in B; destruct B as [_ B];
        apply rltb_iff in B; apply negb_true_iff in F; exists diter; split; [exact B|apply RC; exact F].
      destruct (solve _ _) as [[d|]|] eqn:SD; cbn [rbind]; try discriminate.
      destruct (vget_tensor_from_mf2 (firstn 6 d) 3 order_sym_3d true) as [de|] eqn:FD; cbn [rbind]; try discriminate.
      apply IH. intros _. exists e0, acc0, g0, s, d, de. split; [exact G|]. split; [exact SD|]. split; [exact FD|].
      split; [reflexivity|]. split; [reflexivity|]. split; [reflexivity|]. intros DT.
      assert (EN : forall x, In x ((if rltb small (fnorm et) then map (fun x => x / fnorm et) (firstn 6 d) else firstn 6 d)
          ++ [if rltb small (Rabs acc_old) then nth 6 d 0 / acc_old else nth 6 d 0; if rltb small (Rabs acc_old) then nth 7 d 0 / acc_old else nth 7 d 0]) ->
          Rabs x < / 1000000).
      { intros x Hx. eapply Rle_lt_trans; [apply (vnorm_entry _ _ Hx)|exact DT]. }
      rewrite !rltb_dec in EN. unfold small in EN. change (fnorm et) with (tnorm et) in EN.
      assert (TA : Rabs (tnorm et) = tnorm et) by (apply Rabs_right, Rle_ge, tnorm_nonneg).
      unfold small_correction, scaled_by. rewrite TA. split; [|split].
      - intros x Hx. destruct (Rlt_dec (/ 100000000) (tnorm et)); apply EN; apply in_or_app; left; [|exact Hx].
        apply (in_map (fun x => x / tnorm et)). exact Hx.
      - destruct (Rlt_dec (/ 100000000) (Rabs acc_old)); apply EN; apply in_or_app; right; left; reflexivity.
      - destruct (Rlt_dec (/ 100000000) (Rabs acc_old)); apply EN; apply in_or_app; right; right; left; reflexivity. }
    intros H. destruct (IND fuel true 0 e acc g) as (di & B & e1 & acc1 & g1 & s & d & de & R1 & R2 & R3 & R4 & R5 & R6 & R7); [discriminate|exact H|].
    exists e1, acc1, g1, s, d, de. repeat (split; [assumption|]). apply R7. exact B.
  Qed.
End Sound.

Lemma apex_newton_sound L K alpha p acc_old : forall fuel first diter x x',
  apex_newton L K alpha p acc_old fuel first diter x = Some x' ->
  exists y a b, law_value (l_y L) (acc_old + alpha * x') = Some y /\ law_value (l_a L) (acc_old + alpha * x') = Some a /\
    law_value (l_b L) (acc_old + alpha * x') = Some b /\ a * b <> 0 /\
    relative (Rabs (y / (3 * a * b) - (p - K * x'))) (Rabs y) < / 1000000.
Proof.
  assert (BASE : forall x y H a b, apex_state L (acc_old + alpha * x) = Some (y, H, a, b) -> a * b <> 0 ->
    rltb (if rltb (Rabs y) small then Rabs (y * (1 / (3 * a * b)) - (p - K * x))
          else Rabs (y * (1 / (3 * a * b)) - (p - K * x)) / Rabs y) su_conv_tol = true ->
    exists y a b, law_value (l_y L) (acc_old + alpha * x) = Some y /\ law_value (l_a L) (acc_old + alpha * x) = Some a /\
    law_value (l_b L) (acc_old + alpha * x) = Some b /\ a * b <> 0 /\
    relative (Rabs (y / (3 * a * b) - (p - K * x))) (Rabs y) < / 1000000).
  { intros x y H a b ST AB B. unfold apex_state in ST.
    destruct (l_y L (acc_old + alpha * x)) as [[y1 H1]|] eqn:E1; [|discriminate].
    destruct (l_a L (acc_old + alpha * x)) as [[a1 H2]|] eqn:E2; [|discriminate].
    destruct (l_b L (acc_old + alpha * x)) as [[b1 H3]|] eqn:E3; [|discriminate].
    injection ST as -> -> -> ->. exists y, a, b. unfold law_value. rewrite E1, E2, E3. repeat (split; auto).
    apply rltb_iff in B. rewrite rltb_dec in B. unfold small, su_conv_tol in B. unfold relative.
    replace (y / (3 * a * b)) with (y * (1 / (3 * a * b))) by (unfold Rdiv; ring).
    destruct (Rlt_dec (Rabs y) (/ 100000000)); exact B. }
  induction fuel as [|fuel IH]; intros first diter x x'; cbn [apex_newton];
    destruct (apex_state L (acc_old + alpha * x)) as [[[[y H] a] b]|] eqn:ST; try discriminate;
    (destruct (Req_EM_T (a * b) 0) as [|AB]; [discriminate|]);
    match goal with |- (if ?c then _ else _) = _ -> _ => destruct c eqn:B end; try discriminate.
  1, 2: intros Q; injection Q as <-; apply andb_prop in B; destruct B as [B _]; apply andb_prop in B; destruct B as [B _];
    apply (BASE x y H a b ST AB B).
  destruct H as [h|].
  - destruct (Req_EM_T _ 0); [discriminate|]. apply IH.
  - destruct (Req_EM_T _ 0); [discriminate|]. apply IH.
Qed.

Definition apex_step (E v : R) (L : lou_laws) (et : T2) (a : R) (e' : T2) (a' : R) : Prop :=
  let p := trace 3 (sig_of E v et) / 3 in
  exists x alpha a0 b0 y aa bb,
    law_value (l_a L) 0 = Some a0 /\ law_value (l_b L) 0 = Some b0 /\ 3 * a0 * b0 <> 0 /\
    alpha = 2 * sqrt 3 / 3 * sqrt (1 - (3 * a0 * b0) ^ 2 / 3) / (3 * a0 * b0) /\
    a' = a + alpha * x /\ eq2 3 (sig_of E v e') (fun i j => (p - bulk E v * x) * ident i j) /\
    law_value (l_y L) a' = Some y /\ law_value (l_a L) a' = Some aa /\ law_value (l_b L) a' = Some bb /\ aa * bb <> 0 /\
    relative (Rabs (y / (3 * aa * bb) - (p - bulk E v * x))) (Rabs y) < / 1000000.
Definition elastic_step (E v : R) (L : lou_laws) (et : T2) (a : R) (e' : T2) (a' : R) : Prop :=
  e' = et /\ a' = a /\ exists f y, lou_effective L a (sig_of E v et) = Some f /\ law_value (l_y L) a = Some y /\
    (y <> 0 -> (f - y) / y <= / 1000000) /\ (y = 0 -> f < 0).

Lemma effective_ext L a s s' : eq2 3 s s' -> lou_effective L a s = lou_effective L a s'.
Proof. intros H. unfold lou_effective, get_effective_stress. rewrite (inv_ext s s' H). reflexivity. Qed.

Lemma bulk_hooke E v c : 1 + v <> 0 -> 1 - 2 * v <> 0 -> E <> 0 ->
  eq2 3 (sig_of E v (fun i j => 1 / (3 * bulk E v) * c * soid i j)) (fun i j => c * ident i j).
Proof.
  intros V1 V2 HE i j Hi Hj. unfold sig_of, hooke, lame_lambda, lame_mu, bulk, trace, soid, ident. cbn [rsum Nat.eqb].
  destruct (Nat.eqb i j); field; repeat split; auto.
Qed.

Section Steps.
  Variable solve : list (list R) -> list R -> res (option (list R)).
  Lemma lou_return_sound E v L et_t et trial a o : 1 + v <> 0 -> 1 - 2 * v <> 0 -> E <> 0 -> symmetric 3 et ->
    eq2 3 et_t et -> eq2 3 trial (sig_of E v et) ->
    lou_return solve E v L et_t trial a = Ok o ->
    match o with
    | LElastic => elastic_step E v L et a et a
    | LSurface e' a' _ => symmetric 3 e' /\ surface_step E v L et a e' a'
    | LApex _ e' a' => symmetric 3 e' /\ apex_step E v L et a e' a'
    | LFailed => True
    end.
  Proof.
    intros V1 V2 HE Se Eet Etr. unfold lou_return. fold (law_value (l_a L) a). fold (law_value (l_b L) a).
    fold (law_value (l_c L) a). fold (law_value (l_d L) a). fold (law_value (l_y L) a). fold (lou_effective L a trial).
    rewrite (effective_ext L a _ _ Etr).
    assert (PT : 1/3 * ttrace trial = trace 3 (sig_of E v et) / 3).
    { unfold ttrace, trace. rewrite !Etr by lia. cbn [rsum]. field. }
    set (el := match lou_effective L a (sig_of E v et) with Some f => _ | None => false end).
    destruct el eqn:EL.
    { unfold el in EL. destruct (lou_effective L a (sig_of E v et)) as [f|] eqn:F; [|discriminate].
      destruct (law_value (l_y L) a) as [y|] eqn:Y; [|discriminate]. intros H. injection H as <-.
      split; auto. split; auto. exists f, y. split; auto. split; auto. unfold yield_quot_le in EL.
      destruct (Req_EM_T y 0) as [Z|Z]; [apply rltb_iff in EL|apply rleb_iff in EL].
      - split; [contradiction|]. intros _. lra.
      - split; [intros _; exact EL|contradiction]. }
    rewrite PT. destruct (match law_value (l_y L) a with Some y => _ | None => false end).
    - unfold apex_alpha.
      destruct (l_a L 0) as [[a0 ha]|] eqn:A0; [|intros H; injection H as <-; exact I].
      destruct (l_b L 0) as [[b0 hb]|] eqn:B0; [|intros H; injection H as <-; exact I].
      destruct (Req_EM_T (3 * a0 * b0) 0) as [|NZ]; [intros H; injection H as <-; exact I|].
      destruct (rltb (1 - 1/3 * (3 * a0 * b0) ^ 2) 0); [intros H; injection H as <-; exact I|].
      set (alpha := 2 * sqrt 3 / 3 * sqrt (1 - 1/3 * (3 * a0 * b0) ^ 2) / (3 * a0 * b0)).
      destruct (apex_newton L (bulk E v) alpha _ a su_max_n_iterations true 0 0) as [x|] eqn:AN; [|intros H; injection H as <-; exact I].
      destruct (apex_newton_sound _ _ _ _ _ _ _ _ _ _ AN) as (y & aa & bb & Y & AA & BB & NZ' & RR).
      intros H. injection H as <-. split.
      + intros i j Hi Hj. rewrite (soid_sym j i). reflexivity.
      + exists x, alpha, a0, b0, y, aa, bb. unfold law_value at 1 2. rewrite A0, B0. repeat (split; auto).
        * unfold alpha. replace ((3 * a0 * b0) ^ 2 / 3) with (1 / 3 * (3 * a0 * b0) ^ 2) by field. reflexivity.
        * intros i j Hi Hj. rewrite (bulk_hooke E v _ V1 V2 HE i j Hi Hj). reflexivity.
    - destruct (l_y L 0) as [[y0 h0]|] eqn:Y0; [|intros H; injection H as <-; exact I].
      destruct (surface_newton solve L (iso_tangent E v) y0 et_t a su_max_n_iterations true 0 et_t a 0) as [[[[e' a'] g]|]|] eqn:SN;
        cbn [rbind]; try discriminate; intros H; injection H as <-; [|exact I].
      assert (Set_ : symmetric 3 et_t) by (intros i j Hi Hj; rewrite !Eet by auto; apply Se; auto).
      destruct (surface_newton_sound solve _ _ _ _ _ _ _ _ _ _ _ _ _ _ Set_ SN) as (Se' & s & G & ER). split; auto.
      destruct (lou_residuals_are_backward_euler _ _ _ _ _ _ _ _ _ (iso_minor E v) G) as (N & f & y & GR & F & Y & NZ & R1 & R2 & R3).
      pose proof (iso_apply E v e' Se') as IA. change (ddot42_1 3 (iso_tangent E v) e') with (ddot42 3 (iso_tangent E v) e') in IA.
      exists g, N, f, y, y0. unfold law_value at 1. rewrite Y0. split; auto. split; auto. split; auto.
      split; [rewrite <- (effective_ext _ _ _ _ IA); exact F|].
      split.
      { destruct GR as [SN' GR]. split; auto. intros sg X E0. apply GR. intros i j Hi Hj. rewrite E0, IA by auto. reflexivity. }
      rewrite R2, R3 in ER. unfold surface_error in *.
      rewrite (tnorm_ext (rj_1 s) (fun i j => e' i j - et i j + g * N i j)) in ER by (intros i j Hi Hj; rewrite R1, Eet by auto; reflexivity).
      rewrite (tnorm_ext et_t et Eet) in ER. exact ER.
  Qed.

  (** One update in three dimensions, whatever the linear solver returns. *)
  Theorem lou_step_3d E v L st e eps a inc st' : 1 + v <> 0 -> 1 - 2 * v <> 0 -> E <> 0 ->
    symmetric 3 e -> symmetric 3 inc -> vs_e st = Some (kmf e) -> vs_strain st = Some (kmf eps) -> vs_acc st = Some a ->
    lou_state_update solve 4 E v L inc st = Ok st' ->
    let et : T2 := fun i j => e i j + inc i j in
    vs_strain st' = Some (kmf (fun i j => eps i j + inc i j)) /\
    ((vs_fail st' = true /\ vs_plast st' = true /\ vs_e st' = None /\ vs_stress st' = None /\ vs_acc st' = None) \/
     exists e' a', vs_fail st' = false /\ symmetric 3 e' /\ vs_e st' = Some (kmf e') /\ vs_stress st' = Some (kmf (sig_of E v e')) /\
       vs_acc st' = Some a' /\
       if vs_plast st' then surface_step E v L et a e' a' \/ apex_step E v L et a e' a' else elastic_step E v L et a e' a').
  Proof.
    intros V1 V2 HE Se Si E1 E2 E3 H et.
    assert (Set_ : symmetric 3 et) by (intros i j Hi Hj; unfold et; rewrite (Se i j), (Si i j) by auto; reflexivity).
    unfold lou_state_update in H. cbn [get_problem_type_parameters rbind Nat.eqb] in H. rewrite mf2_3d in H. cbn [rbind] in H.
    rewrite E1, E2, E3 in H. cbn [omap omap2] in H. rewrite kmf_add, kmf_sub, kmf_add in H. fold et in H.
    unfold lou_core in H. rewrite iso_tangent_mf in H. cbn [rbind] in H. rewrite hooke_kmf in H. fold (sig_of E v et) in H.
    destruct (from_kmf (sig_of E v et) (hooke_symmetric _ _ _ Set_)) as (tr & Ftr & Etr).
    destruct (from_kmf et Set_) as (et_t & Fet & Eet).
    rewrite Ftr, Fet in H. cbn [rbind] in H.
    destruct (lou_return solve E v L et_t tr a) as [o|] eqn:LR; cbn [rbind] in H; [|discriminate].
    pose proof (lou_return_sound E v L et_t et tr a o V1 V2 HE Set_ Eet Etr LR) as SD.
    assert (STR : kmf (fun i j => e i j + inc i j + (eps i j - e i j)) = kmf (fun i j => eps i j + inc i j)) by (apply kmf_ext; intros i j _ _; ring).
    rewrite STR in H.
    destruct o as [|e' a' g|x e' a'|]; cbn [rbind] in H; try rewrite mf2_3d in H; cbn [rbind] in H; try rewrite hooke_kmf in H; injection H as <-;
      cbn [vs_strain vs_fail vs_plast vs_e vs_stress vs_acc lc_e lc_stress lc_acc lc_plast lc_fail]; (split; [reflexivity|]).
    - right. exists et, a. repeat (split; auto).
    - right. exists e', a'. destruct SD as [S1 S2]. repeat (split; auto).
    - right. exists e', a'. destruct SD as [S1 S2]. repeat (split; auto).
    - left. auto.
  Qed.

  Lemma lou_core_shape E v L et a c : symmetric 3 et -> lou_core solve E v L (Some (kmf et)) (Some a) = Ok c ->
    (lc_e c = None /\ lc_stress c = None) \/ exists e', lc_e c = Some (kmf e') /\ lc_stress c = Some (kmf (sig_of E v e')).
  Proof.
    intros Set_. unfold lou_core. rewrite iso_tangent_mf. cbn [rbind]. rewrite hooke_kmf. fold (sig_of E v et).
    destruct (from_kmf (sig_of E v et) (hooke_symmetric _ _ _ Set_)) as (tr & Ftr & Etr).
    destruct (from_kmf et Set_) as (et_t & Fet & Eet). rewrite Ftr, Fet. cbn [rbind].
    destruct (lou_return solve E v L et_t tr a) as [o|]; cbn [rbind]; [|discriminate].
    destruct o as [|e' a' g|x e' a'|]; try rewrite mf2_3d; cbn [rbind]; try rewrite hooke_kmf; intros H;
      [| | |injection H as <-; left; auto]; right;
      [exists et|exists e'|exists e']; apply (f_equal (fun r => match r with Ok c => (lc_e c, lc_stress c) | Err _ => (None, None) end)) in H;
      cbn [lc_e lc_stress] in H; inversion H; split; reflexivity.
  Qed.

  (** Plane strain is the three-dimensional update of the embedded state. *)
  Definition in_plane (l : list R) : list R := [nth 0 l 0; nth 1 l 0; nth 3 l 0].
  Theorem lou_plane_strain E v L st st3 e z eps a inc :
    symmetric 2 e -> symmetric 2 inc ->
    vs_e st = Some (kmf2 e) -> vs_e33 st = Some z -> vs_strain st = Some (kmf2 eps) -> vs_acc st = Some a ->
    vs_e st3 = Some (kmf (embed e z)) -> vs_acc st3 = Some a ->
    match lou_state_update solve 4 E v L (embed inc 0) st3 with
    | Err x => lou_state_update solve 1 E v L inc st = Err x
    | Ok s3 => exists st', lou_state_update solve 1 E v L inc st = Ok st' /\
        vs_e st' = omap in_plane (vs_e s3) /\ vs_e33 st' = omap (fun l => nth 2 l 0) (vs_e s3) /\
        vs_stress st' = omap in_plane (vs_stress s3) /\ vs_s33 st' = omap (fun l => nth 2 l 0) (vs_stress s3) /\
        vs_acc st' = vs_acc s3 /\ vs_plast st' = vs_plast s3 /\ vs_fail st' = vs_fail s3 /\
        vs_strain st' = Some (kmf2 (fun i j => eps i j + inc i j))
    end.
  Proof.
    intros Se Si E1 E1z E2 E3 F1 F3.
    set (et := fun i j => embed e z i j + embed inc 0 i j).
    assert (St : symmetric 3 et).
    { intros i j Hi Hj. unfold et, embed. pose proof (Se 0 1 ltac:(lia) ltac:(lia))%nat as S1.
      pose proof (Si 0 1 ltac:(lia) ltac:(lia))%nat as S2.
      destruct i as [|[|[|i]]]; destruct j as [|[|[|j]]]; try lia; rewrite ?S1, ?S2; reflexivity. }
    unfold lou_state_update. cbn [get_problem_type_parameters rbind Nat.eqb]. rewrite mf2_3d, mf2_2d. cbn [rbind].
    rewrite E1, E1z, E2, E3, F1, F3. cbn [omap omap2 lift_res].
    assert (T3 : forall b x, vget_state_3Dmf_from_2Dmf (kmf2 b) x = Ok (kmf (embed b x))) by (intros b x; unfold kmf2; rewrite to3d, embed_kmf; reflexivity).
    rewrite !T3. cbn [rbind lift_res omap]. rewrite !kmf_add. fold et.
    destruct (lou_core solve E v L (Some (kmf et)) (Some a)) as [c|x] eqn:LC; cbn [rbind]; [|reflexivity].
    pose proof (lou_core_shape E v L et a c St LC) as SH.
    assert (T2' : forall b, vget_state_2Dmf_from_3Dmf (kmf b) = Ok (kmf2 b)) by reflexivity.
    rewrite T2'. cbn [lift_res rbind].
    assert (STR : omap2 vadd (Some [et 0%nat 0%nat; et 1%nat 1%nat; sqrt 2 * et 0%nat 1%nat]) (Some (vsub (kmf2 eps) (kmf2 e))) =
                  Some (kmf2 (fun i j => eps i j + inc i j))).
    { cbn [omap2]. f_equal. unfold kmf2, vadd, vsub, et, embed. cbn. list_eq; ring. }
    destruct SH as [[N1 N2]|(e' & N1 & N2)]; rewrite N1, N2; cbn [omap lift_res rbind].
    - eexists. split; [reflexivity|]. cbn [vs_e vs_e33 vs_stress vs_s33 vs_acc vs_plast vs_fail vs_strain].
      cbn [omap]. repeat (split; [reflexivity|]). exact STR.
    - rewrite !T2'. cbn [lift_res rbind].
      eexists. split; [reflexivity|]. cbn [vs_e vs_e33 vs_stress vs_s33 vs_acc vs_plast vs_fail vs_strain].
      cbn [omap]. repeat (split; [reflexivity|]). exact STR.
  Qed.

  (** A failed state stays failed. *)
  Theorem lou_failure_persists E v L inc st :
    vs_e st = None \/ vs_acc st = None ->
    exists st', lou_state_update solve 4 E v L inc st = Ok st' /\ vs_fail st' = true /\
      vs_e st' = None /\ vs_stress st' = None /\ vs_acc st' = None.
  Proof.
    intros H. unfold lou_state_update. cbn [get_problem_type_parameters rbind Nat.eqb]. rewrite mf2_3d. cbn [rbind].
    assert (LC : lou_core solve E v L (omap (fun e => vadd e (kmf inc)) (vs_e st)) (vs_acc st) = Ok (LCore None None None true true)).
    { unfold lou_core. rewrite iso_tangent_mf. cbn [rbind]. destruct H as [-> | ->]; [reflexivity|].
      destruct (vs_e st); reflexivity. }
    rewrite LC. cbn [rbind]. eexists. split; [reflexivity|]. cbn. auto.
  Qed.

  (** Away from the elastic domain and from the apex, a trial stress without
      third deviatoric invariant makes the update raise, for every set of
      parameters and every linear solver. *)
  Theorem lou_zero_third_invariant_raises E v L st e eps a inc y0 h0 : symmetric 3 e -> symmetric 3 inc ->
    vs_e st = Some (kmf e) -> vs_strain st = Some (kmf eps) -> vs_acc st = Some a ->
    let et : T2 := fun i j => e i j + inc i j in let sig := sig_of E v et in
    J3 sig = 0 -> l_y L 0 = Some (y0, h0) ->
    (forall f y, lou_effective L a sig = Some f -> law_value (l_y L) a = Some y -> 0 < y /\ y + y / 1000000 < f) ->
    (forall y aa b, law_value (l_y L) a = Some y -> law_value (l_a L) a = Some aa -> law_value (l_b L) a = Some b -> is_apex_return y aa b (trace 3 sig / 3) = false) ->
    lou_state_update solve 4 E v L inc st = Err RuntimeError.
  Proof.
    intros Se Si E1 E2 E3 et sig Z Y0 NE NA.
    assert (Set_ : symmetric 3 et) by (intros i j Hi Hj; unfold et; rewrite (Se i j), (Si i j) by auto; reflexivity).
    unfold lou_state_update. cbn [get_problem_type_parameters rbind Nat.eqb]. rewrite mf2_3d. cbn [rbind].
    rewrite E1, E2, E3. cbn [omap omap2]. rewrite kmf_add. fold et.
    unfold lou_core. rewrite iso_tangent_mf. cbn [rbind]. rewrite hooke_kmf. fold (sig_of E v et). fold sig.
    assert (Ss : symmetric 3 sig) by (apply hooke_symmetric; auto).
    destruct (from_kmf sig Ss) as (tr & Ftr & Etr). destruct (from_kmf et Set_) as (et_t & Fet & Eet).
    rewrite Ftr, Fet. cbn [rbind].
    assert (LR : lou_return solve E v L et_t tr a = Err RuntimeError).
    { unfold lou_return. fold (law_value (l_a L) a). fold (law_value (l_b L) a). fold (law_value (l_c L) a). fold (law_value (l_d L) a).
      fold (law_value (l_y L) a). fold (lou_effective L a tr). rewrite (effective_ext L a _ _ Etr).
      assert (PT : 1/3 * ttrace tr = trace 3 sig / 3) by (unfold ttrace, trace; rewrite !Etr by lia; cbn [rsum]; field).
      rewrite PT.
      assert (EL : match lou_effective L a sig with Some f => match law_value (l_y L) a with Some y => yield_quot_le (f - y) y | None => false end | None => false end = false).
      { destruct (lou_effective L a sig) as [f|] eqn:F; auto. destruct (law_value (l_y L) a) as [y|] eqn:Y; auto.
        destruct (NE f y eq_refl eq_refl) as [P Q]. unfold yield_quot_le. destruct (Req_EM_T y 0); [lra|].
        destruct (rleb ((f - y) / y) su_conv_tol) eqn:B; auto. apply rleb_iff in B. unfold su_conv_tol in B.
        apply (Rmult_le_compat_r y) in B; [|lra]. unfold Rdiv in B at 1. rewrite Rmult_assoc, Rinv_l, Rmult_1_r in B by auto. lra. }
      rewrite EL.
      assert (AP : match law_value (l_y L) a with Some y => match law_value (l_a L) a with Some aa => match law_value (l_b L) a with
        Some b => is_apex_return y aa b (trace 3 sig / 3) | None => false end | None => false end | None => false end = false).
      { destruct (law_value (l_y L) a) eqn:A1; auto. destruct (law_value (l_a L) a) eqn:A2; auto. destruct (law_value (l_b L) a) eqn:A3; auto. }
      rewrite AP. rewrite Y0. unfold su_max_n_iterations. cbn [surface_newton].
      assert (Set2 : symmetric 3 et_t) by (intros i j Hi Hj; rewrite !Eet by auto; apply Set_; auto).
      assert (GE : get_residual_and_jacobian L (iso_tangent E v) y0 et_t et_t a a 0 = Err RuntimeError).
      { unfold get_residual_and_jacobian. rewrite ders_err; [reflexivity|].
        rewrite <- j3_det by (apply c42_sym, iso_minor).
        rewrite (inv_ext _ sig); [rewrite (proj2 (deviatoric_invariants sig)); exact Z|].
        intros i j Hi Hj. rewrite (iso_apply E v et_t Set2 i j Hi Hj). unfold sig, sig_of, hooke, trace. cbn [rsum]. rewrite !Eet by lia. reflexivity. }
      rewrite GE. reflexivity. }
    rewrite LR. reflexivity.
  Qed.
End Steps.

(** ** Return to the apex *)
Definition const_law (c : R) : hlaw := fun _ => Some (c, Fin 0).
Definition const_laws (y a b c d : R) (assoc : bool) : lou_laws :=
  Laws (const_law y) (const_law a) (const_law b) (const_law c) (const_law d) assoc.

Lemma apex_newton_perfect y a b c d assoc K alpha p acc n : a * b <> 0 -> K <> 0 ->
  apex_newton (const_laws y a b c d assoc) K alpha p acc (S (S n)) true 0 0 = Some ((p - y / (3 * a * b)) / K).
Proof.
  intros AB HK. set (z := (p - y / (3 * a * b)) / K).
  assert (NZ : 3 * a * b <> 0) by (intros Q; apply AB; lra).
  assert (R0 : y * (1 / (3 * a * b)) - (p - K * z) = 0) by (unfold z; field; repeat split; auto; intros ->; apply AB; ring).
  assert (D0 : - (y * (1 / (3 * a * b)) - (p - K * 0)) / (alpha * (1 / (3 * a * b)) * 0 + K) = z).
  { unfold z. field. repeat split; auto; intros ->; apply AB; ring. }
  assert (JN : alpha * (1 / (3 * a * b)) * 0 + K <> 0) by (rewrite Rmult_0_r, Rplus_0_l; exact HK).
  assert (N0 : rltb (if rltb (Rabs y) small then Rabs 0 else Rabs 0 / Rabs y) su_conv_tol = true).
  { apply rltb_iff. unfold su_conv_tol, Rdiv. rewrite Rabs_R0, Rmult_0_l. destruct (rltb _ _); lra. }
  assert (LAST : forall m, apex_newton (const_laws y a b c d assoc) K alpha p acc m false 0 z = Some z).
  { intros m. assert (T0 : rltb 0 su_conv_tol = true) by (apply rltb_iff; unfold su_conv_tol; lra).
    destruct m; cbn [apex_newton apex_state const_laws l_y l_a l_b const_law]; (destruct (Req_EM_T (a * b) 0); [contradiction|]);
      rewrite R0, N0, T0; reflexivity. }
  cbn [apex_newton apex_state const_laws l_y l_a l_b const_law]. destruct (Req_EM_T (a * b) 0) as [|_]; [contradiction|].
  rewrite andb_false_r. destruct (Req_EM_T (alpha * (1 / (3 * a * b)) * 0 + K) 0) as [|_]; [contradiction|].
  rewrite D0, Rplus_0_l. cbn [negb]. rewrite R0, N0. cbn [andb].
  match goal with |- (if ?c then _ else _) = _ => destruct c; [reflexivity|] end.
  replace (- 0 / (alpha * (1 / (3 * a * b)) * 0 + K)) with 0 by (unfold Rdiv; rewrite Ropp_0, Rmult_0_l; reflexivity).
  assert (Z0 : Rabs (if rltb small (Rabs acc) then 0 / acc else 0) = 0).
  { unfold Rdiv. rewrite Rmult_0_l. destruct (rltb small (Rabs acc)); apply Rabs_R0. }
  rewrite Z0, Rplus_0_r. apply LAST.
Qed.

Section Apex.
  Variable solve : list (list R) -> list R -> res (option (list R)).
  (** With constant parameters a plastic trial state beyond 95% of the apex
      pressure is returned to the apex in closed form; the trial pressure may
      be below the apex pressure, and then the accumulated plastic strain
      decreases. *)
  Theorem lou_apex_perfectly_plastic E v y a b c d assoc st e eps acc inc : symmetric 3 e -> symmetric 3 inc ->
    1 + v <> 0 -> 1 - 2 * v <> 0 -> E <> 0 -> 0 < y -> 0 < a -> 1 / 1000000 <= b -> 3 * a * b <= 1 ->
    vs_e st = Some (kmf e) -> vs_strain st = Some (kmf eps) -> vs_acc st = Some acc ->
    let et : T2 := fun i j => e i j + inc i j in let sig := sig_of E v et in
    let p := trace 3 sig / 3 in let p_apex := y / (3 * a * b) in
    (forall f, get_effective_stress sig a b c d = Some f -> y + y / 1000000 < f) ->
    95 / 100 * p_apex < p ->
    exists st' alpha, lou_state_update solve 4 E v (const_laws y a b c d assoc) inc st = Ok st' /\ 0 < alpha /\
      vs_fail st' = false /\ vs_plast st' = true /\
      vs_acc st' = Some (acc + alpha * (p - p_apex) / bulk E v) /\
      vs_stress st' = Some (kmf (fun i j => p_apex * ident i j)).
  Proof.
    intros Se Si V1 V2 HE HY HA HB HAB E1 E2 E3 et sig p p_apex NE AP.
    assert (Set_ : symmetric 3 et) by (intros i j Hi Hj; unfold et; rewrite (Se i j), (Si i j) by auto; reflexivity).
    assert (AB0 : a * b <> 0) by (apply Rmult_integral_contrapositive_currified; lra).
    assert (KB : bulk E v <> 0) by (unfold bulk, Rdiv; apply Rmult_integral_contrapositive_currified; [auto|apply Rinv_neq_0_compat; lra]).
    assert (POS : 0 < 3 * a * b) by (apply Rmult_lt_0_compat; lra).
    set (L := const_laws y a b c d assoc).
    set (alpha := 2 * sqrt 3 / 3 * sqrt (1 - 1/3 * (3 * a * b) ^ 2) / (3 * a * b)).
    assert (SQ : 0 < 1 - 1/3 * (3 * a * b) ^ 2) by nra.
    assert (ALP : 0 < alpha).
    { unfold alpha. apply Rmult_lt_0_compat; [|apply Rinv_0_lt_compat; auto]. apply Rmult_lt_0_compat; [|apply sqrt_lt_R0; auto].
      pose proof (sqrt_lt_R0 3). lra. }
    assert (AA : apex_alpha L = Some alpha).
    { unfold apex_alpha, L, const_laws, l_a, l_b, const_law. destruct (Req_EM_T (3 * a * b) 0); [lra|].
      destruct (rltb (1 - 1/3 * (3 * a * b) ^ 2) 0) eqn:B; [apply rltb_iff in B; lra|]. reflexivity. }
    assert (IA : is_apex_return y a b p = true).
    { unfold is_apex_return. destruct (Req_EM_T a 0); [lra|]. apply rltb_iff.
      rewrite (Rabs_right b) by lra. rewrite Rmax_left by lra. unfold apex_switch_tol. unfold p_apex in AP.
      replace (1 / (3 * a * b) * y) with (y / (3 * a * b)) by (field; repeat split; lra). lra. }
    unfold lou_state_update. cbn [get_problem_type_parameters rbind Nat.eqb]. rewrite mf2_3d. cbn [rbind].
    rewrite E1, E2, E3. cbn [omap omap2]. rewrite !kmf_add, kmf_sub. fold et.
    unfold lou_core. rewrite iso_tangent_mf. cbn [rbind]. rewrite hooke_kmf. fold (sig_of E v et). fold sig.
    assert (Ss : symmetric 3 sig) by (apply hooke_symmetric; auto).
    destruct (from_kmf sig Ss) as (tr & Ftr & Etr). destruct (from_kmf et Set_) as (et_t & Fet & Eet).
    rewrite Ftr, Fet. cbn [rbind].
    assert (PT : 1/3 * ttrace tr = p) by (unfold p, ttrace, trace; rewrite !Etr by lia; cbn [rsum]; field).
    set (z := (p - p_apex) / bulk E v).
    assert (LR : lou_return solve E v L et_t tr acc =
      Ok (LApex z (fun i j => 1 / (3 * bulk E v) * (p - bulk E v * z) * soid i j) (acc + alpha * z))).
    { unfold lou_return. rewrite PT. cbn [L const_laws l_a l_b l_c l_d l_y const_law].
      assert (EX : get_effective_stress tr a b c d = get_effective_stress sig a b c d)
        by (unfold get_effective_stress; rewrite (inv_ext tr sig Etr); reflexivity).
      rewrite EX.
      assert (EL : match get_effective_stress sig a b c d with Some f => yield_quot_le (f - y) y | None => false end = false).
      { destruct (get_effective_stress sig a b c d) as [f|] eqn:F; auto. specialize (NE f eq_refl). unfold yield_quot_le.
        destruct (Req_EM_T y 0); [lra|]. destruct (rleb ((f - y) / y) su_conv_tol) eqn:B; auto. apply rleb_iff in B. unfold su_conv_tol in B.
        apply (Rmult_le_compat_r y) in B; [|lra]. unfold Rdiv in B at 1. rewrite Rmult_assoc, Rinv_l, Rmult_1_r in B by auto. lra. }
      rewrite EL, IA. fold (const_law y) (const_law a) (const_law b) (const_law c) (const_law d). fold L. rewrite AA.
      unfold su_max_n_iterations, L. rewrite apex_newton_perfect by auto. reflexivity. }
    rewrite LR. cbn [rbind]. rewrite mf2_3d. cbn [rbind]. rewrite hooke_kmf.
    eexists. exists alpha. split; [reflexivity|]. split; [exact ALP|].
    cbn [vs_fail vs_plast vs_acc vs_stress lc_fail lc_plast lc_acc lc_stress].
    split; [reflexivity|]. split; [reflexivity|]. split; [unfold z; f_equal; unfold Rdiv; ring|].
    f_equal. apply kmf_ext. intros i j Hi Hj. fold (sig_of E v (fun i j => 1 / (3 * bulk E v) * (p - bulk E v * z) * soid i j)).
    rewrite (bulk_hooke E v _ V1 V2 HE i j Hi Hj). f_equal. unfold z. field. exact KB.
  Qed.
End Apex.

(** ** Witnesses *)
Definition diag3 (a b c : R) : T2 := fun i j => match i, j with 0, 0 => a | 1, 1 => b | 2, 2 => c | _, _ => 0%R end%nat.
Definition virgin : vm_state := VState (Some (kmf zero2)) (Some (kmf zero2)) (Some (kmf zero2)) (Some 0) false false (Some 0) (Some 0).
Lemma diag3_sym a b c : symmetric 3 (diag3 a b c).
Proof. intros i j Hi Hj. destruct i as [|[|[|i]]], j as [|[|[|j]]]; try lia; reflexivity. Qed.
Lemma unit_modulus e : eq2 3 (sig_of 1 0 e) e.
Proof. intros i j Hi Hj. unfold sig_of, hooke, lame_lambda, lame_mu. field. Qed.

(** From the virgin state, with admissible parameters, a single increment
    leads to a negative accumulated plastic strain. *)
Theorem lou_plastic_strain_decreases_refuted : exists L inc, forall solve, exists st' a',
  lou_state_update solve 4 1 0 L inc virgin = Ok st' /\ vs_fail st' = false /\ vs_acc st' = Some a' /\ a' < 0.
Proof.
  exists (const_laws 1 1 (1/3) 0 0 true), (diag3 (197/100) (47/100) (47/100)). intros solve.
  set (inc := diag3 (197/100) (47/100) (47/100)). set (et := fun i j : nat => zero2 i j + inc i j).
  assert (EE : eq2 3 (sig_of 1 0 et) inc) by (intros i j Hi Hj; rewrite unit_modulus by auto; unfold et, zero2; ring).
  assert (P : trace 3 (sig_of 1 0 et) / 3 = 97/100) by (unfold trace; cbn [rsum]; rewrite !EE by lia; unfold inc, diag3; field).
  assert (Ss : symmetric 3 (sig_of 1 0 et)) by (intros i j Hi Hj; rewrite !EE by auto; apply diag3_sym; auto).
  destruct (lou_apex_perfectly_plastic solve 1 0 1 1 (1/3) 0 0 true virgin zero2 zero2 0 inc) as (st' & al & U & AL & F & PL & AC & _);
    try lra; try reflexivity; try (intros i j Hi Hj; reflexivity).
  - apply diag3_sym.
  - intros f. fold et. replace (1/3) with (1/3) by reflexivity. intros H.
    pose proof (reduces_to_drucker_prager (sig_of 1 0 et) 1 Ss) as RD. rewrite RD in H. injection H as <-. rewrite P.
    assert (J : ddot 3 (deviator3 (sig_of 1 0 et)) (deviator3 (sig_of 1 0 et)) / 2 = 75/100).
    { unfold ddot, sum2, deviator3, trace. cbn [rsum]. rewrite !EE by lia. unfold inc, diag3, ident. cbn [Nat.eqb]. field. }
    rewrite J. assert (1/2 <= sqrt (75/100)); [|lra].
    rewrite <- (sqrt_square (1/2)) by lra. apply sqrt_le_1; lra.
  - fold et. rewrite P. lra.
  - fold et in AC. rewrite P in AC. exists st', (0 + al * (97/100 - 1 / (3 * 1 * (1/3))) / bulk 1 0). repeat (split; auto).
    unfold bulk. replace (0 + al * (97 / 100 - 1 / (3 * 1 * (1 / 3))) / (1 / (3 * (1 - 2 * 0)))) with (- (9/100) * al) by field. lra.
Qed.

(** Pure shear beyond the yield stress: no state is produced. *)
Definition shear (g : R) : T2 := fun i j => match i, j with 0, 1 | 1, 0 => g | _, _ => 0%R end%nat.
Theorem lou_pure_shear_refuted : exists L, forall solve g, 1 < g -> lou_state_update solve 4 1 0 L (shear g) virgin = Err RuntimeError.
Proof.
  exists (const_laws (1/10) 1 0 0 0 false). intros solve g Hg.
  set (et := fun i j : nat => zero2 i j + shear g i j).
  assert (EE : eq2 3 (sig_of 1 0 et) (shear g)) by (intros i j Hi Hj; rewrite unit_modulus by auto; unfold et, zero2; ring).
  assert (Sh : symmetric 3 (shear g)) by (intros i j Hi Hj; destruct i as [|[|[|i]]], j as [|[|[|j]]]; try lia; reflexivity).
  assert (Ss : symmetric 3 (sig_of 1 0 et)) by (intros i j Hi Hj; rewrite !EE by auto; apply Sh; auto).
  assert (P : trace 3 (sig_of 1 0 et) = 0) by (unfold trace; cbn [rsum]; rewrite !EE by lia; unfold shear; ring).
  apply (lou_zero_third_invariant_raises solve 1 0 _ virgin zero2 zero2 0 (shear g) (1/10) (Fin 0)); try reflexivity; auto.
  - intros i j Hi Hj; reflexivity.
  - fold et. unfold J3. assert (DD : eq2 3 (deviator3 (sig_of 1 0 et)) (shear g)).
    { intros i j Hi Hj. unfold deviator3. rewrite P, EE by auto. field. }
    unfold det. cbn [rsum]. rewrite !DD by lia. unfold shear, levi. ring.
  - fold et. unfold lou_effective, law_value. cbn [const_laws l_a l_b l_c l_d l_y const_law]. intros f y F Y. injection Y as <-.
    pose proof (reduces_to_drucker_prager (sig_of 1 0 et) 0 Ss) as RD. replace (0/3) with 0 in RD by field. rewrite RD in F. injection F as <-.
    assert (J : ddot 3 (deviator3 (sig_of 1 0 et)) (deviator3 (sig_of 1 0 et)) / 2 = g * g).
    { unfold ddot, sum2, deviator3. rewrite P. cbn [rsum]. rewrite !EE by lia. unfold shear, ident. cbn [Nat.eqb]. field. }
    rewrite J, sqrt_square by lra. split; lra.
  - fold et. unfold law_value. cbn [const_laws l_a l_b l_y const_law]. intros y aa b Q1 Q2 Q3. injection Q1 as <-. injection Q2 as <-. injection Q3 as <-.
    rewrite P. unfold is_apex_return. destruct (Req_EM_T 1 0); [lra|]. rewrite Rabs_R0, Rmax_right by lra. unfold apex_switch_tol.
    destruct (rltb _ _) eqn:B; auto. apply rltb_iff in B. lra.
Qed.

(** Non-vacuity: uniaxial stress slightly above the yield stress. *)
Lemma uniaxial_ok L s y0 q acc : 0 < s -> lou_values L acc = Some q -> q_c q = 0 -> q_d q = 0 -> y0 <> 0 -> l_assoc L = true ->
  c_ok L (iso_tangent 1 0) y0 (diag3 s 0 0) acc q.
Proof.
  intros Hs Q Qc Qd Y A. unfold c_ok.
  assert (EE : eq2 3 (ddot42_1 3 (iso_tangent 1 0) (diag3 s 0 0)) (diag3 s 0 0)).
  { intros i j Hi Hj. rewrite iso_apply by (auto; apply diag3_sym). apply unit_modulus; auto. }
  rewrite (dev_of_ext _ _ EE), (inv_ext _ _ EE).
  assert (D3 : tdet (dev_of (diag3 s 0 0)) = 2/27 * s ^ 3).
  { rewrite (tdet_ext (dev_of (diag3 s 0 0)) (deviator3 (diag3 s 0 0)) (P_apply_dev _ (diag3_sym s 0 0))).
    unfold tdet, deviator3, trace, ident, diag3. cbn [rsum Nat.eqb]. field. }
  assert (V2 : v_j2 (get_stress_invariants (diag3 s 0 0)) = s ^ 2 / 3).
  { cbn [get_stress_invariants v_j2]. unfold ttrace, tmatmul, diag3. field. }
  assert (S2 : 0 < s ^ 2) by (apply pow_lt; auto). assert (S3 : 0 < s ^ 3) by (apply pow_lt; auto).
  assert (W4 : 0 < w4 q (get_stress_invariants (diag3 s 0 0))).
  { unfold w4, w2. rewrite V2, Qc. rewrite Rmult_0_l, Rminus_0_r. apply pow_lt. lra. }
  split; [rewrite D3; lra|]. split; auto. split; auto. split; [|auto].
  unfold w5, w3. rewrite Qd, Rmult_0_l, Rminus_0_r. apply exp_pos.
Qed.
Example lou_jacobian_case : exists s0, get_residual_and_jacobian (const_laws 1 1 (1/10) 0 0 true) (iso_tangent 1 0) 1
    (diag3 2 0 0) (diag3 2 0 0) 0 0 0 = Ok (Some s0) /\ smooth_laws (const_laws 1 1 (1/10) 0 0 true) 0 /\ length (rj_J s0) = 8%nat.
Proof.
  destruct (grj_closed (const_laws 1 1 (1/10) 0 0 true) (iso_tangent 1 0) 1 (diag3 2 0 0) (diag3 2 0 0) 0 0 0 (Vals 1 0 1 0 (1/10) 0 0 0 0 0)) as (m & M & E).
  { apply uniaxial_ok; try reflexivity; lra. }
  exists (c_sys (const_laws 1 1 (1/10) 0 0 true) (iso_tangent 1 0) 1 (diag3 2 0 0) (diag3 2 0 0) 0 0 0 (Vals 1 0 1 0 (1/10) 0 0 0 0 0) m).
  split; [exact E|]. split.
  - assert (SM : forall c, smooth_law (const_law c) 0).
    { intros c. exists (fun _ => c), (fun _ => 0), 1. split; [lra|]. split; [reflexivity|apply dl_const]. }
    repeat split; apply SM.
  - destruct (mf4_rows _ _ M) as [LM _]. cbn [c_sys rj_J]. rewrite app_length, map_length, combine_length, LM. reflexivity.
Qed.

Definition zero_solve : list (list R) -> list R -> res (option (list R)) := fun _ _ => Ok (Some [0; 0; 0; 0; 0; 0; 0; 0]).
(** a surface return: the trial state is accepted by the residual test *)
Example lou_surface_case : exists g', lou_return zero_solve 1 0 (const_laws 1 1 0 0 0 true) (diag3 (sqrt 3 * (1 + 2 / 1000000)) 0 0)
    (sig_of 1 0 (diag3 (sqrt 3 * (1 + 2 / 1000000)) 0 0)) 0 = Ok g' /\ exists e' a' x, g' = LSurface e' a' x.
Proof.
  set (s := sqrt 3 * (1 + 2 / 1000000)). set (L := const_laws 1 1 0 0 0 true). set (q := Vals 1 0 1 0 0 0 0 0 0 0).
  assert (S3 : 0 < sqrt 3) by (apply sqrt_lt_R0; lra). assert (Hs : 0 < s) by (unfold s; apply Rmult_lt_0_compat; lra).
  assert (SS : symmetric 3 (diag3 s 0 0)) by apply diag3_sym.
  assert (Sg : symmetric 3 (sig_of 1 0 (diag3 s 0 0))) by (apply hooke_symmetric; auto).
  assert (EF : forall sg, eq2 3 sg (diag3 s 0 0) -> get_effective_stress sg 1 0 0 0 = Some (1 + 2 / 1000000)).
  { intros sg EE. unfold get_effective_stress. rewrite (inv_ext _ _ EE). fold (get_effective_stress (diag3 s 0 0) 1 0 0 0).
    pose proof (reduces_to_drucker_prager (diag3 s 0 0) 0 SS) as RD. replace (0/3) with 0 in RD by field. rewrite RD. f_equal.
    assert (J : ddot 3 (deviator3 (diag3 s 0 0)) (deviator3 (diag3 s 0 0)) / 2 = (1 + 2/1000000) * (1 + 2/1000000)).
    { transitivity (s * s / 3). - unfold ddot, sum2, deviator3, trace, ident, diag3. cbn [rsum Nat.eqb]. field.
      - unfold s. transitivity (sqrt 3 * sqrt 3 * ((1 + 2/1000000) * (1 + 2/1000000)) / 3); [field|rewrite sqrt_sqrt by lra; field]. }
    rewrite J, sqrt_square by lra. ring. }
  assert (GR : forall e, eq2 3 e (diag3 s 0 0) -> symmetric 3 e -> exists m, get_residual_and_jacobian L (iso_tangent 1 0) 1 e (diag3 s 0 0) 0 0 0 = Ok (Some m) /\
     tnorm (rj_1 m) = 0 /\ rj_2 m = 0 /\ rj_3 m = 2 / 1000000).
  { intros e Ee Se. assert (OK : c_ok L (iso_tangent 1 0) 1 e 0 q).
    { assert (OK : c_ok L (iso_tangent 1 0) 1 (diag3 s 0 0) 0 q) by (apply uniaxial_ok; try reflexivity; auto; lra).
      unfold c_ok in *. assert (CE : eq2 3 (ddot42_1 3 (iso_tangent 1 0) e) (ddot42_1 3 (iso_tangent 1 0) (diag3 s 0 0))) by (intros i j Hi Hj; apply c42_ext; auto).
      rewrite (dev_of_ext _ _ CE), (inv_ext _ _ CE), (ders_ext _ _ CE). exact OK. }
    destruct (grj_closed L (iso_tangent 1 0) 1 e (diag3 s 0 0) 0 0 0 q OK) as (m & _ & G). eexists. split; [exact G|].
    cbn [c_sys rj_1 rj_2 rj_3]. split; [|split].
    - assert (E0 : eq2 3 (c_res1 (iso_tangent 1 0) e (diag3 s 0 0) 0 q) zero2) by (intros i j Hi Hj; unfold c_res1; rewrite Ee by auto; unfold zero2; ring).
      rewrite (tnorm_ext _ _ E0). unfold tnorm, ddot, sum2, zero2. cbn [rsum]. transitivity (sqrt 0); [f_equal; ring|apply sqrt_0].
    - unfold c_res2. cbn [L const_laws l_assoc]. ring.
    - unfold c_res3. destruct OK as (_ & _ & P4 & P5 & _). pose proof (effective_is q _ P4 P5) as X. change (q_a q) with 1 in X. change (q_b q) with 0 in X. change (q_c q) with 0 in X. change (q_d q) with 0 in X.
      rewrite (EF (ddot42_1 3 (iso_tangent 1 0) e)) in X.
      + injection X as X. rewrite <- X. cbn [q q_y]. field.
      + intros i j Hi Hj. rewrite iso_apply by auto. rewrite unit_modulus by auto. auto. }
  match goal with |- exists g', ?X = Ok g' /\ _ => cut (exists e' a' x, X = Ok (LSurface e' a' x)) end.
  { intros (e' & a' & x & H). rewrite H. eexists. split; [reflexivity|]. exists e', a', x. reflexivity. }
  unfold lou_return. cbn [L const_laws l_a l_b l_c l_d l_y const_law]. rewrite (EF _ (unit_modulus _)).
  assert (YQ : yield_quot_le (1 + 2 / 1000000 - 1) 1 = false).
  { unfold yield_quot_le. destruct (Req_EM_T 1 0); [lra|]. destruct (rleb _ _) eqn:B; auto. apply rleb_iff in B. unfold su_conv_tol in B. lra. }
  rewrite YQ.
  assert (AP : is_apex_return 1 1 0 (1/3 * ttrace (sig_of 1 0 (diag3 s 0 0))) = false).
  { unfold is_apex_return. destruct (Req_EM_T 1 0); [lra|]. rewrite Rabs_R0, Rmax_right by lra. unfold apex_switch_tol.
    destruct (rltb _ _) eqn:B; auto. apply rltb_iff in B. unfold ttrace in B. rewrite !unit_modulus in B by lia. unfold diag3 in B.
    assert (s < 4); [|lra]. unfold s. assert (sqrt 3 < 2) by (rewrite <- (sqrt_square 2) by lra; apply sqrt_lt_1; lra). nra. }
  rewrite AP. fold (const_law 1) (const_law 0). change (Laws (const_law 1) (const_law 1) (const_law 0) (const_law 0) (const_law 0) true) with L.
  unfold su_max_n_iterations. cbn [surface_newton].
  destruct (GR (diag3 s 0 0) (fun i j _ _ => eq_refl) SS) as (m & Gm & _). rewrite Gm. cbn [rbind]. rewrite mf2_3d. cbn [rbind].
  rewrite andb_false_r. unfold zero_solve at 1. cbn [rbind firstn nth].
  assert (FZ : exists dz, vget_tensor_from_mf2 [0; 0; 0; 0; 0; 0] 3 order_sym_3d true = Ok dz /\ eq2 3 dz zero2).
  { destruct (from_kmf zero2) as (dz & Fz & Ez); [intros i j Hi Hj; reflexivity|]. exists dz. split; auto. rewrite <- Fz. f_equal. unfold kmf, zero2. rewrite Rmult_0_r. reflexivity. }
  destruct FZ as (dz & -> & Ez). cbn [rbind]. rewrite !Rplus_0_r.
  destruct (GR (fun i j => diag3 s 0 0 i j + dz i j)) as (m2 & Gm2 & N1 & N2 & N3).
  { intros i j Hi Hj. rewrite Ez by auto. unfold zero2. ring. }
  { intros i j Hi Hj. rewrite !Ez by auto. rewrite (SS i j Hi Hj). reflexivity. }
  rewrite Gm2. cbn [rbind]. rewrite mf2_3d. cbn [rbind]. change (fnorm (rj_1 m2)) with (tnorm (rj_1 m2)). rewrite N1, N2, N3.
  do 3 eexists. match goal with |- rbind (if ?c then _ else _) _ = _ => assert (CT : c = true) end; [|rewrite CT; reflexivity].
  apply andb_true_intro. split; [|reflexivity]. apply andb_true_intro. split; apply rltb_iff; unfold su_conv_tol.
  - unfold Rdiv at 2 3. rewrite !Rmult_0_l, Rabs_R0, (Rabs_right (2 / 1000000)) by lra.
    destruct (rltb (fnorm (diag3 s 0 0)) small), (rltb 0 small); lra.
  - assert (VZ : forall l, (forall x, In x l -> x = 0) -> vnorm l = 0).
    { intros l Hl. unfold vnorm. transitivity (sqrt 0); [f_equal|apply sqrt_0]. induction l as [|x l IH]; [reflexivity|]. cbn. rewrite (Hl x) by (left; auto).
      rewrite IH by (intros y Hy; apply Hl; right; auto). ring. }
    rewrite VZ; [lra|]. intros x Hx. unfold Rdiv in Hx. rewrite Rmult_0_l in Hx. apply in_app_or in Hx. destruct Hx as [Hx|Hx].
    + destruct (rltb small (fnorm (diag3 s 0 0))); cbn in Hx; rewrite ?Rmult_0_l in Hx; intuition.
    + destruct (rltb small (Rabs 0)); cbn in Hx; intuition.
Qed.

Print Assumptions lou_jacobian_is_derivative.
Print Assumptions lou_flow_is_gradient.
Print Assumptions lou_step_3d.
Print Assumptions lou_plane_strain.
Print Assumptions lou_apex_perfectly_plastic.
