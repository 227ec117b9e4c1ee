(** Tangents of the vectorised Drucker-Prager material, and refutations. *)
From Coq Require Import Reals List Arith Bool Lia Lra Psatz.
From Verif Require Import Lib MatrixModel MatrixSpec TensorModel TensorSpec HardeningModel HardeningSpec HardeningProps
  ElasticModel ElasticSpec ElasticProofs VonMisesModel VonMisesSpec VonMisesProofs VonMisesProps VonMisesTangent VmapModel VmapSpec VmapProps
  DruckerModel DruckerSpec DruckerProofs DruckerProps DruckerTangent VDruckerModel VDruckerProps VDruckerAgree.
Import ListNotations.
Local Open Scope R_scope.

Definition vd_stress_after (E v : R) (P : dp_params) (hl : hlaw) (st : vm_state) (inc : T2) : list R :=
  match vd_state_update 4 E v P hl inc st with
  | Ok (st', _, _) => match vs_stress st' with Some s => s | None => [] end
  | Err _ => []
  end.
Definition vd_has_tangent E v P hl st inc (plast apex : bool) : Prop :=
  exists st' m, vd_state_update 4 E v P hl inc st = Ok (st', apex, Some m) /\ vs_plast st' = plast /\ vs_fail st' = false /\
    is_tangent (vd_stress_after E v P hl st) inc m.

(** The two stresses have the same derivative where they agree locally. *)
Lemma tangent_transfer E v P hl st inc m :
  (forall d, symmetric 3 d -> exists r, 0 < r /\ forall s, Rabs (s - 0) < r ->
     vd_stress_after E v P hl st (fun i j => inc i j + s * d i j) = dp_stress_after E v P hl st (fun i j => inc i j + s * d i j)) ->
  is_tangent (dp_stress_after E v P hl st) inc m <-> is_tangent (vd_stress_after E v P hl st) inc m.
Proof.
  intros H. split; intros T d Sd k Hk; destruct (H d Sd) as (r & RP & Q); specialize (T d Sd k Hk);
    (eapply (dlim_local _ _ 0 _ r RP); [|exact T]); intros s Hs; cbv beta; rewrite (Q s Hs); reflexivity.
Qed.

(** ** Norms *)
Lemma norm9_tnorm t : norm9 t = tnorm t.
Proof. reflexivity. Qed.
Lemma norm_shift_bound t : Rabs (norm9 (fun i j => t i j + small) - norm9 t) <= 3 * small.
Proof.
  set (n := norm9 t). set (n' := norm9 (fun i j => t i j + small)).
  assert (SM : 0 < small) by (unfold small; lra).
  assert (P1 : 0 <= n) by apply sqrt_pos. assert (P2 : 0 <= n') by apply sqrt_pos.
  set (u := sum2 3 t).
  assert (N1 : n * n = sum2 3 (fun i j => t i j * t i j)).
  { apply sqrt_sqrt. apply (ddot_nonneg t). }
  assert (N2 : n' * n' = n * n + 2 * small * u + 9 * (small * small)).
  { unfold n'. unfold norm9 at 1 2. rewrite sqrt_sqrt; [rewrite N1; unfold u, sum2; cbn [rsum]; ring|]. apply (ddot_nonneg (fun i j => t i j + small)). }
  assert (CS : u * u <= 9 * (n * n)).
  { rewrite N1. unfold u, sum2. cbn [rsum].
    generalize (t 0 0)%nat (t 0 1)%nat (t 0 2)%nat (t 1 0)%nat (t 1 1)%nat (t 1 2)%nat (t 2 0)%nat (t 2 1)%nat (t 2 2)%nat.
    intros x1 x2 x3 x4 x5 x6 x7 x8 x9.
    set (mn := (x1 + x2 + x3 + x4 + x5 + x6 + x7 + x8 + x9) / 9).
    assert (0 <= (x1 - mn) * (x1 - mn) + (x2 - mn) * (x2 - mn) + (x3 - mn) * (x3 - mn) + (x4 - mn) * (x4 - mn) + (x5 - mn) * (x5 - mn)
      + (x6 - mn) * (x6 - mn) + (x7 - mn) * (x7 - mn) + (x8 - mn) * (x8 - mn) + (x9 - mn) * (x9 - mn)).
    { repeat apply Rplus_le_le_0_compat; apply Rle_0_sqr. }
    assert (SE : x1 + x2 + x3 + x4 + x5 + x6 + x7 + x8 + x9 = 9 * mn) by (unfold mn; field).
    clearbody mn. assert (x9 = 9 * mn - x1 - x2 - x3 - x4 - x5 - x6 - x7 - x8) by lra. subst x9. nra. }
  assert (U : Rabs u <= 3 * n).
  { apply Rsqr_incr_0_var; [|lra]. rewrite <- Rsqr_abs. unfold Rsqr. lra. }
  assert (UB : - (3 * n) <= u <= 3 * n).
  { pose proof (Rle_abs u). pose proof (Rle_abs (- u)) as A. rewrite Rabs_Ropp in A. lra. }
  apply Rabs_le. split.
  - destruct (Rle_dec n (3 * small)) as [L|L]; [lra|]. apply Rnot_le_lt in L.
    assert (Q : (n - 3 * small) * (n - 3 * small) <= n' * n') by nra.
    assert (n - 3 * small <= n'); [|lra]. apply Rsqr_incr_0_var; [unfold Rsqr; exact Q|lra].
  - assert (Q : n' * n' <= (n + 3 * small) * (n + 3 * small)) by nra.
    assert (n' <= n + 3 * small); [|lra]. apply Rsqr_incr_0_var; [unfold Rsqr; exact Q|lra].
Qed.

(** ** Elastic updates, any hardening law *)
Lemma vd_elastic_update E v P hl st e eps a inc c h : 1 + v <> 0 -> 1 - 2 * v <> 0 -> E <> 0 ->
  symmetric 3 e -> symmetric 3 inc -> vs_e st = Some (kmf e) -> vs_strain st = Some (kmf eps) -> vs_acc st = Some a ->
  hl a = Some (c, h) -> / 100000000 <= c -> dp_yield (d_xi P) (d_etay P) (sig_of E v (fun i j => e i j + inc i j)) c <= / 1000000 * c ->
  exists st', vd_state_update 4 E v P hl inc st = Ok (st', false, Some (iso_mf (lame_lambda E v) (2 * lame_mu E v))) /\
    vs_plast st' = false /\ vs_fail st' = false /\ vd_stress_after E v P hl st inc = dp_stress_after E v P hl st inc.
Proof.
  intros V1 V2 HE Se Si E1 E2 E3 HL C L. set (et := fun i j => e i j + inc i j) in *.
  assert (St : symmetric 3 et) by (intros i j Hi Hj; unfold et; rewrite (Se i j), (Si i j) by auto; auto).
  destruct (vd_core_tensors E v P hl et a St) as (de & tan & _ & EC & TT).
  assert (EL : vd_trial_elastic hl P (sqrtJ2 (sig_of E v et)) (pressure (sig_of E v et)) a = true).
  { destruct (vd_trial_elastic _ _ _ _ _) eqn:Q; [reflexivity|]. exfalso. pose proof (proj1 (vd_elastic_iff hl P E v et a) Q c h HL) as O. clear Q. rename O into Q.
    destruct Q as [[Z _]|[_ Q]]; [lra|]. rewrite Rabs_right in Q by lra. apply (Rmult_lt_compat_r c) in Q; [|lra].
    unfold Rdiv in Q. rewrite Rmult_assoc, Rinv_l in Q by lra. lra. }
  rewrite EL in EC, TT. cbv zeta in EC, TT. unfold vd_tangent in TT. cbn [vd_elastic_step vd_plast negb] in TT. rewrite iso_tangent_mf in TT.
  destruct TT as (m & -> & M). injection M as M.
  assert (U : exists st', vd_state_update 4 E v P hl inc st = Ok (st', false, Some m) /\ vs_plast st' = false /\ vs_fail st' = false).
  { unfold vd_state_update. cbn [get_problem_type_parameters rbind Nat.eqb]. rewrite mf2_3d. cbn [rbind].
    rewrite E1, E2, E3. cbn [omap omap2]. rewrite kmf_add. fold et. rewrite EC. cbn [rbind fst snd]. eexists. split; [reflexivity|]. auto. }
  destruct U as (st' & U & F1 & F2). rewrite <- M in U. exists st'. split; [exact U|]. split; [exact F1|]. split; [exact F2|].
  destruct (vdp_agrees_with_standard E v P hl st e eps a inc st' false (Some (iso_mf (lame_lambda E v) (2 * lame_mu E v)))) as (t2 & U2); auto; try congruence.
  - intros c' h' Q. rewrite HL in Q. injection Q as <- <-. rewrite Rabs_right; lra.
  - unfold vd_stress_after, dp_stress_after. rewrite U, U2. reflexivity.
Qed.

Section Theorems.
  Variables (E v : R) (P : dp_params) (st : vm_state) (e eps : T2) (a : R) (inc : T2).
  Hypotheses (Se : symmetric 3 e) (Si : symmetric 3 inc)
    (E1 : vs_e st = Some (kmf e)) (E2 : vs_strain st = Some (kmf eps)) (E3 : vs_acc st = Some a).
  Let et : T2 := fun i j => e i j + inc i j.
  Let sig := sig_of E v et.
  Let yield := dp_yield (d_xi P) (d_etay P) sig.
  Let St : symmetric 3 et.
  Proof. intros i j Hi Hj. unfold et. rewrite (Se i j), (Si i j) by auto. reflexivity. Qed.
  Let Sd' : forall d s, symmetric 3 d -> symmetric 3 (fun i j => inc i j + s * d i j).
  Proof. intros d s Sd i j Hi Hj. rewrite (Si i j), (Sd i j) by auto. reflexivity. Qed.
  Let trial_ext : forall d s, eq2 3 (fun i j => e i j + (inc i j + s * d i j)) (fun i j => et i j + s * d i j).
  Proof. intros d s i j _ _. unfold et. ring. Qed.
  Let sig_ext a' b : eq2 3 a' b -> eq2 3 (sig_of E v a') (sig_of E v b).
  Proof. intros H i j Hi Hj. unfold sig_of, hooke. rewrite (trace_ext _ _ H), (H i j Hi Hj), ?(H j i Hj Hi). reflexivity. Qed.
  Let q_ext d s : sqrtJ2 (sig_of E v (fun i j => e i j + (inc i j + s * d i j))) = sqrtJ2 (sig_of E v (fun i j => et i j + s * d i j)).
  Proof. unfold sqrtJ2. f_equal. f_equal. apply ddot_ext; apply deviator_ext, sig_ext, trial_ext. Qed.
  Let p_ext d s : pressure (sig_of E v (fun i j => e i j + (inc i j + s * d i j))) = pressure (sig_of E v (fun i j => et i j + s * d i j)).
  Proof. unfold pressure. f_equal. apply trace_ext, sig_ext, trial_ext. Qed.

  Theorem vdp_elastic_tangent_is_derivative hl c h : 1 + v <> 0 -> 1 - 2 * v <> 0 -> E <> 0 ->
    hl a = Some (c, h) -> / 100000000 <= c -> yield c < / 1000000 * c ->
    vd_has_tangent E v P hl st inc false false.
  Proof.
    intros V1 V2 HE HL C L.
    destruct (vd_elastic_update E v P hl st e eps a inc c h) as (st' & U & F1 & F2 & _); auto; [apply Rlt_le; exact L|].
    exists st', (iso_mf (lame_lambda E v) (2 * lame_mu E v)). split; [exact U|]. split; [exact F1|]. split; [exact F2|].
    apply tangent_transfer.
    - intros d Sd.
      destruct (cont_near (fun s => - 1 * sqrtJ2 (sig_of E v (fun i j => et i j + s * d i j)) + - d_etay P * pressure (sig_of E v (fun i j => et i j + s * d i j)) + d_xi P * c) (- (/ 1000000 * c))) as (r & RP & RN).
      { apply (affine_cont E v et d). }
      { rewrite along_q0, along_pressure. unfold yield, dp_yield in L. fold sig. lra. }
      exists r. split; [exact RP|]. intros s Hs. specialize (RN s Hs).
      destruct (vd_elastic_update E v P hl st e eps a (fun i j => inc i j + s * d i j) c h) as (_ & _ & _ & _ & Q); auto.
      unfold dp_yield. rewrite q_ext, p_ext. lra.
    - destruct (dp_elastic_tangent_is_derivative E v P st e eps a inc Se Si E1 E2 E3 hl c h HL C L) as (st2 & m & U2 & PF & _ & IT).
      destruct (dp_core_cases E v P hl et a St) as (cc & de & EC & _ & EO & CC).
      destruct (dp_lift_update E v P hl st e a inc E1 E3 cc EC) as (st3 & U3 & F3 & F4). rewrite U2 in U3. injection U3 as U3 U4 U5. subst st3.
      destruct (dc_outcome cc); cbn [dp_is_plast] in *.
      { destruct CC as [_ CC]. rewrite CC in U5. injection U5 as ->. exact IT. }
      all: congruence.
  Qed.

  (** Plastic updates with linear hardening. *)
  Variables (s0 h : R).
  Hypotheses (HE : 0 < E) (Hv1 : -1 < v) (Hv2 : v < 1 / 2) (HX : 0 <= d_xi P) (HY : 0 <= d_etay P) (HF : 0 <= d_etaf P)
    (S0 : / 100000000 <= s0) (H0 : 0 <= h) (A0 : 0 <= a).
  Let G := lame_mu E v.
  Let K := dp_bulk E v.
  Let c0 := s0 + h * a.
  Let D := G + K * d_etaf P * d_etay P + d_xi P ^ 2 * h.
  Let g := yield c0 / D.
  Let hl := linear_law s0 h.

  Let linear_stress inc' : symmetric 3 inc' ->
    let sg := sig_of E v (fun i j => e i j + inc' i j) in let y := dp_yield (d_xi P) (d_etay P) sg c0 in
    (sqrtJ2 sg < G * (y / D) -> d_etay P <> 0 /\ d_etaf P <> 0) ->
    sqrtJ2 sg < G * (y / D) \/ / 10000 <= sqrtJ2 sg ->
    vd_stress_after E v P hl st inc' = dp_stress_after E v P hl st inc'.
  Proof.
    intros Si' sg y NZ W.
    destruct (vdp_linear_agrees E v P s0 h st e eps a inc' HE Hv1 Hv2 HX HY HF S0 H0 A0 Se Si' E1 E2 E3 NZ) as (st1 & ap & t1 & U & _ & PL & AP & AG).
    destruct AG as (t2 & U2 & _).
    - destruct W as [W|W]; [|auto]. destruct (Rlt_dec (/ 1000000 * c0) y) as [L|L].
      + right. left. apply AP. split; [exact L|exact W].
      + left. destruct (vs_plast st1); [|reflexivity]. exfalso. apply L, PL. reflexivity.
    - unfold vd_stress_after, dp_stress_after, hl. rewrite U, U2. reflexivity.
  Qed.
  Let DP : 0 < D.
  Proof. pose proof (lin_D P K G h (bulk_positive E v HE Hv2) HY HF H0) as Q. pose proof (shear_positive E v HE Hv1) as GP. fold G in GP. unfold D. lra. Qed.

  Theorem vdp_apex_tangent_is_derivative : / 1000000 * c0 < yield c0 -> sqrtJ2 sig < G * g -> d_etaf P <> 0 -> d_etay P <> 0 ->
    vd_has_tangent E v P hl st inc true true.
  Proof.
    intros L1 L2 NF NY.
    destruct (vdp_linear_agrees E v P s0 h st e eps a inc HE Hv1 Hv2 HX HY HF S0 H0 A0 Se Si E1 E2 E3 (fun _ => conj NY NF)) as (st1 & ap & t1 & U & F & PL & AP & AG).
    assert (AT : ap = true) by (apply AP; split; [exact L1|exact L2]). assert (PT : vs_plast st1 = true) by (apply PL; exact L1).
    destruct AG as (t2 & U2 & TE); [auto|]. specialize (TE (or_intror AT)). subst t2.
    destruct (dp_apex_tangent_is_derivative E v P st e eps a inc Se Si E1 E2 E3 s0 h HE Hv1 Hv2 HX HY HF S0 H0 A0 L1 L2 NF NY) as (st2 & m & U3 & _ & _ & IT).
    rewrite U2 in U3. injection U3 as U3 U4 U5. subst st2 ap t1. exists st1, m. split; [exact U|]. split; [exact PT|]. split; [exact F|].
    apply tangent_transfer; [|exact IT]. intros d Sd.
    destruct (cont_near (fun s => (G / D - 1) * sqrtJ2 (sig_of E v (fun i j => et i j + s * d i j)) + G / D * d_etay P * pressure (sig_of E v (fun i j => et i j + s * d i j)) + - (G / D * d_xi P * c0)) 0) as (r & RP & RN).
    { apply (affine_cont E v et d). }
    { rewrite along_q0, along_pressure. fold sig. unfold g, yield, dp_yield in L2.
      replace (G * ((sqrtJ2 sig + d_etay P * pressure sig - d_xi P * c0) / D)) with
        (G / D * sqrtJ2 sig + G / D * d_etay P * pressure sig - G / D * d_xi P * c0) in L2 by (field; lra). lra. }
    exists r. split; [exact RP|]. intros s Hs. specialize (RN s Hs). apply linear_stress; auto. left. unfold dp_yield. rewrite q_ext, p_ext.
    set (qs := sqrtJ2 _) in *. set (ps := pressure _) in *.
    replace (G * ((qs + d_etay P * ps - d_xi P * c0) / D)) with (G / D * qs + G / D * d_etay P * ps - G / D * d_xi P * c0) by (field; lra). lra.
  Qed.

  (** On the cone the derivative is the formula of the code with the norm of the
      deviator; the code adds 1e-8 to every component of the deviator first. *)
  Theorem vdp_cone_tangent_partial : / 1000000 * c0 < yield c0 -> G * g < sqrtJ2 sig -> / 10000 < sqrtJ2 sig ->
    / 10000000 < tnorm (deviator3 et) ->
    exists st' m' de t4' n' m t4, vd_state_update 4 E v P hl inc st = Ok (st', false, Some m') /\ vs_plast st' = true /\ vs_fail st' = false /\
      eq2 3 de (deviator3 et) /\
      dp_tangent P K G E v n' de (DCone g (Fin h)) = Some t4' /\ vget_tensor_mf4 t4' 3 order_sym_3d true = Ok m' /\
      Rabs (n' - tnorm (deviator3 et)) <= 3 * / 100000000 /\
      n' * n' = tnorm (deviator3 et) * tnorm (deviator3 et) + 2 * / 100000000 * sum2 3 (deviator3 et) + 9 * (/ 100000000 * / 100000000) /\
      dp_tangent P K G E v (tnorm (deviator3 et)) (deviator3 et) (DCone g (Fin h)) = Some t4 /\ vget_tensor_mf4 t4 3 order_sym_3d true = Ok m /\
      is_tangent (vd_stress_after E v P hl st) inc m.
  Proof.
    intros L1 L2 QS NS.
    assert (NZ : sqrtJ2 sig < G * g -> d_etay P <> 0 /\ d_etaf P <> 0) by lra.
    destruct (vd_linear_core E v P s0 h a et HE Hv1 Hv2 HX HY HF S0 H0 A0 St NZ) as (o & tan & de & EC & QD & OK & PL & AP & _ & _ & TC).
    fold sig c0 G K in PL, AP, TC. fold (yield c0) in PL, AP, TC. fold D in AP, TC. fold g in AP, TC.
    assert (PT : vd_plast o = true) by (apply PL; exact L1).
    assert (AF : vd_isapex o = false) by (destruct (vd_isapex o) eqn:Q; [|reflexivity]; exfalso; destruct (proj1 AP eq_refl) as [_ L]; lra).
    destruct (TC PT AF) as (m' & t4' & -> & M' & T').
    assert (NE : norm9 de = tnorm (deviator3 et)).
    { rewrite norm9_tnorm. unfold tnorm. f_equal. apply ddot_ext; exact QD. }
    pose proof (norm_shift_bound de) as NB. rewrite NE in NB. set (n' := norm9 (fun i j => de i j + small)) in *.
    assert (N1 : small < norm9 de) by (rewrite NE; unfold small; lra).
    assert (N2 : small < n').
    { unfold small in *. pose proof (Rle_abs (- (n' - tnorm (deviator3 et)))) as A. rewrite Rabs_Ropp in A. lra. }
    specialize (T' N1 N2).
    assert (Q2 : / 100000000 < sqrtJ2 sig) by lra. assert (N3 : / 100000000 < tnorm (deviator3 et)) by lra.
    destruct (dp_cone_derivative E v P st e eps a inc Se Si E1 E2 E3 s0 h HE Hv1 Hv2 HX HY HF S0 H0 A0 L1 L2 Q2 N3) as (m & t4 & M4 & TT & IT).
    assert (U : exists st', vd_state_update 4 E v P hl inc st = Ok (st', false, Some m') /\ vs_plast st' = true /\ vs_fail st' = false).
    { unfold vd_state_update. cbn [get_problem_type_parameters rbind Nat.eqb]. rewrite mf2_3d. cbn [rbind].
      rewrite E1, E2, E3. cbn [omap omap2]. rewrite kmf_add. fold et. unfold hl. rewrite EC. cbn [rbind fst snd]. rewrite AF, PT, OK.
      eexists. split; [reflexivity|]. split; reflexivity. }
    destruct U as (st' & U & F1 & F2). exists st', m', de, t4', n', m, t4.
    split; [exact U|]. split; [exact F1|]. split; [exact F2|]. split; [exact QD|]. split; [exact T'|]. split; [exact M'|]. split; [exact NB|]. split.
    { unfold n'. rewrite <- NE, !norm9_tnorm, !tnorm_sq.
      assert (SE : sum2 3 (deviator3 et) = sum2 3 de) by (unfold sum2; cbn [rsum]; rewrite !QD by lia; reflexivity).
      rewrite SE. unfold ddot, sum2, small. cbn [rsum]. field. }
    split; [exact TT|]. split; [exact M4|]. apply tangent_transfer; [|exact IT]. intros d Sd.
    destruct (cont_near (fun s => (1 - G / D) * sqrtJ2 (sig_of E v (fun i j => et i j + s * d i j)) + - (G / D * d_etay P) * pressure (sig_of E v (fun i j => et i j + s * d i j)) + G / D * d_xi P * c0) 0) as (r1 & RP1 & RN1).
    { apply (affine_cont E v et d). }
    { rewrite along_q0, along_pressure. fold sig. unfold g, yield, dp_yield in L2.
      replace (G * ((sqrtJ2 sig + d_etay P * pressure sig - d_xi P * c0) / D)) with
        (G / D * sqrtJ2 sig + G / D * d_etay P * pressure sig - G / D * d_xi P * c0) in L2 by (field; lra). lra. }
    destruct (cont_near (fun s => sqrtJ2 (sig_of E v (fun i j => et i j + s * d i j))) (/ 10000)) as (r2 & RP2 & RN2).
    { apply (along_cont E v et d). }
    { rewrite along_q0. exact QS. }
    exists (Rmin r1 r2). split; [apply Rmin_pos; auto|]. intros s Hs.
    assert (Hs1 : Rabs (s - 0) < r1) by (eapply Rlt_le_trans; [exact Hs|apply Rmin_l]).
    assert (Hs2 : Rabs (s - 0) < r2) by (eapply Rlt_le_trans; [exact Hs|apply Rmin_r]).
    specialize (RN1 s Hs1). specialize (RN2 s Hs2). cbv beta in RN2. apply linear_stress; auto.
    - unfold dp_yield. rewrite q_ext, p_ext. set (qs := sqrtJ2 _) in *. set (ps := pressure _) in *.
      replace (G * ((qs + d_etay P * ps - d_xi P * c0) / D)) with (G / D * qs + G / D * d_etay P * ps - G / D * d_xi P * c0) by (field; lra). lra.
    - right. rewrite q_ext. lra.
  Qed.

  (** The returned tangent is not the derivative whenever the components of the
      deviator do not add up to a negative number. *)
  Theorem vdp_cone_tangent_wrong : / 1000000 * c0 < yield c0 -> G * g < sqrtJ2 sig -> / 10000 < sqrtJ2 sig ->
    / 10000000 < tnorm (deviator3 et) -> 0 <= sum2 3 (deviator3 et) ->
    exists st' m', vd_state_update 4 E v P hl inc st = Ok (st', false, Some m') /\ vs_fail st' = false /\
      ~ is_tangent (vd_stress_after E v P hl st) inc m'.
  Proof.
    intros L1 L2 QS NS SP.
    destruct (vdp_cone_tangent_partial L1 L2 QS NS) as (st' & m' & de & t4' & n' & m & t4 & U & _ & F & QD & T' & M' & NB & NQ & TT & M4 & IT).
    exists st', m'. split; [exact U|]. split; [exact F|]. intros IT'.
    destruct (orthogonal_direction (deviator3 et) (deviator_trace et)) as (d & k & Sd & Td & Od & Hk & Nk).
    assert (Sde : symmetric 3 de) by (intros i j Hi Hj; rewrite !QD by auto; apply (deviator_symmetric et St); auto).
    pose proof (IT d Sd k ltac:(lia)) as D1. pose proof (IT' d Sd k ltac:(lia)) as D2.
    pose proof (uniqueness_limite _ _ _ _ D1 D2) as Q. clear D1 D2 IT IT'.
    assert (MS : minor_symmetric 3 t4) by (eapply dp_tangent_minor; [exact (deviator_symmetric et St)|exact TT]).
    assert (MS' : minor_symmetric 3 t4') by (eapply dp_tangent_minor; [exact Sde|exact T']).
    rewrite (mv_mf4 t4 m d MS Sd M4), (mv_mf4 t4' m' d MS' Sd M') in Q.
    assert (KK : forall b : T2, nth k (kmf b) 0 = b k k) by (intros b; destruct k as [|[|[|k]]]; [reflexivity..|lia]).
    rewrite !KK in Q.
    rewrite (dp_cone_apply E v P h _ _ et d _ t4 k k Hk Hk Sd (fun _ _ _ _ => eq_refl) TT) in Q.
    rewrite (dp_cone_apply E v P h _ _ et d _ t4' k k Hk Hk Sd QD T') in Q. cbv zeta in Q.
    rewrite Od, Td in Q. set (n := tnorm (deviator3 et)) in *.
    assert (DK : deviator3 d k k = d k k) by (unfold deviator3; rewrite Td; unfold ident; rewrite Nat.eqb_refl; field). rewrite DK in Q.
    assert (NP : n < n').
    { assert (0 <= n') by (pose proof (Rle_abs (- (n' - n))) as A; rewrite Rabs_Ropp in A; lra). nra. }
    assert (B1 : rltb small n = true) by (apply rltb_iff; unfold small; lra). assert (B2 : rltb small n' = true) by (apply rltb_iff; unfold small; lra).
    rewrite B1, B2 in Q.
    assert (XP : 0 < g).
    { unfold g. apply Rdiv_lt_0_compat; [|exact DP]. assert (0 <= h * a) by (apply Rmult_le_pos; auto). unfold c0 in *. lra. }
    assert (GP : 0 < G) by (apply shear_positive; auto).
    assert (S2 : 0 < sqrt 2) by (apply sqrt_lt_R0; lra).
    assert (Z : 2 * G * d k k * (g / sqrt 2) * (1 / n - 1 / n') = 0) by (fold G in Q; lra).
    assert (ZN : 1 / n - 1 / n' <> 0).
    { assert (L : / n' < / n) by (apply Rinv_lt_contravar; [apply Rmult_lt_0_compat; lra|exact NP]). unfold Rdiv. lra. }
    assert (0 < g / sqrt 2) by (apply Rdiv_lt_0_compat; auto).
    apply Rmult_integral in Z. destruct Z as [Z|Z]; [|contradiction]. apply Rmult_integral in Z. destruct Z as [Z|Z]; [|lra].
    apply Rmult_integral in Z. destruct Z as [Z|Z]; [lra|auto].
  Qed.
End Theorems.

Print Assumptions vdp_elastic_tangent_is_derivative.
Print Assumptions vdp_apex_tangent_is_derivative.
Print Assumptions vdp_cone_tangent_partial.
Print Assumptions vdp_cone_tangent_wrong.
