(** Vectorised Drucker-Prager material: cases in which it fails, leaves the
    yield surface, differs from the standard material or returns a tangent that
    is not the derivative; witnesses. *)
From Coq Require Import Reals List Arith Bool Lia Lra Psatz.
From Verif Require Import Lib MatrixModel MatrixSpec TensorModel TensorSpec HardeningModel HardeningSpec HardeningProps
  ElasticModel ElasticSpec ElasticProofs VonMisesModel VonMisesSpec VonMisesProofs VonMisesProps VonMisesTangent VmapModel VmapSpec VmapProps
  DruckerModel DruckerSpec DruckerProofs DruckerProps DruckerTangent VDruckerModel VDruckerProps VDruckerAgree VDruckerTangent.
Import ListNotations.
Local Open Scope R_scope.

(** ** Isochoric flow *)
Theorem vdp_isochoric_apex_fails E v P s0 h st e eps a inc :
  0 < E -> -1 < v -> v < 1 / 2 -> 0 <= d_xi P -> 0 <= d_etay P -> d_etaf P = 0 -> / 100000000 <= s0 -> 0 <= h -> 0 <= a ->
  symmetric 3 e -> symmetric 3 inc -> vs_e st = Some (kmf e) -> vs_strain st = Some (kmf eps) -> vs_acc st = Some a ->
  let sig := sig_of E v (fun i j => e i j + inc i j) in let y := dp_yield (d_xi P) (d_etay P) sig (s0 + h * a) in
  / 1000000 * (s0 + h * a) < y -> sqrtJ2 sig < lame_mu E v * (y / (lame_mu E v + d_xi P ^ 2 * h)) ->
  exists st', vd_state_update 4 E v P (linear_law s0 h) inc st = Ok (st', true, None) /\ vs_fail st' = true /\ vs_stress st' = None.
Proof.
  intros HE Hv1 Hv2 HX HY HF S0 H0 A0 Se Si E1 E2 E3 sig y L1 L2. set (et := fun i j => e i j + inc i j) in *.
  assert (St : symmetric 3 et) by (intros i j Hi Hj; unfold et; rewrite (Se i j), (Si i j) by auto; auto).
  pose proof (bulk_positive E v HE Hv2) as KP. pose proof (shear_positive E v HE Hv1) as GP.
  assert (Q0 : 0 <= sqrtJ2 sig) by apply sqrtJ2_nonneg.
  assert (CB : / 100000000 <= s0 + h * a) by (pose proof (Rmult_le_pos _ _ H0 A0); lra).
  destruct (vd_core_tensors E v P (linear_law s0 h) et a St) as (de & tan & _ & EC & TT). cbv zeta in EC, TT. fold sig in EC, TT.
  set (q := sqrtJ2 sig) in *. set (p := pressure sig) in *. set (K := dp_bulk E v) in *. set (G := lame_mu E v) in *.
  assert (EL : vd_trial_elastic (linear_law s0 h) P q p a = false).
  { apply (vd_elastic_iff (linear_law s0 h) P E v et a). intros c hh Q.
    destruct (lin_cohesion s0 h a S0 H0 A0 0 (Rle_refl 0)) as [L _]. rewrite Rplus_0_r, Rmult_0_r, Rplus_0_r in L.
    rewrite L in Q. injection Q as <- _. right. split; [lra|]. fold sig. fold y. rewrite Rabs_right by lra.
    apply (Rmult_lt_reg_r (s0 + h * a)); [lra|]. unfold Rdiv. rewrite Rmult_assoc, Rinv_l by lra. lra. }
  rewrite EL in EC, TT.
  assert (DE : G + K * d_etaf P * d_etay P + d_xi P ^ 2 * h = G + d_xi P ^ 2 * h) by (rewrite HF; ring).
  assert (PS : vd_plastic_step (linear_law s0 h) P K G (kmf soid) (kmf (deviator3 sig)) (q * q) p a false =
               VDStep None None None (Some 0) false true true).
  { unfold vd_plastic_step. rewrite (sqrt_square q Q0).
    assert (FP : 0 < q + d_etay P * p - d_xi P * (s0 + h * a)) by (unfold y, dp_yield in L1; fold q p in L1; lra).
    rewrite (cone_lin P K G s0 h a q p GP KP HX HY (Req_le _ _ (eq_sym HF)) S0 H0 A0 FP).
    rewrite (proj2 (rltb_iff _ _)).
    - cbn [orb negb]. destruct (vd_apex (linear_law s0 h) P K p a false) as [z ok] eqn:AP.
      destruct (apex_result _ _ _ _ _ _ _ AP) as [(_ & y0 & c2 & h1 & _ & F1 & _)|(-> & ->)]; [contradiction|].
      unfold vd_apex_output. cbn [omap]. destruct (vd_alpha P); reflexivity.
    - rewrite DE. change (q + d_etay P * p - d_xi P * (s0 + h * a)) with y. lra. }
  rewrite PS in EC, TT. unfold vd_tangent in TT. cbn [vd_plast vd_acc negb] in TT. subst tan.
  unfold vd_state_update. cbn [get_problem_type_parameters rbind Nat.eqb]. rewrite mf2_3d. cbn [rbind].
  rewrite E1, E3. cbn [omap]. rewrite kmf_add. fold et. rewrite EC. cbn [rbind fst snd vd_e vd_stress vd_acc vd_plast vd_ok vd_isapex negb].
  eexists. split; [reflexivity|]. auto.
Qed.

(** ** The yield condition fails at low stresses *)
Definition weak_mat : dp_params := DP 1 0 0.
Theorem vdp_yield_condition_refuted : exists E v P hl st inc st' tan e' a' c h,
  vd_state_update 4 E v P hl inc st = Ok (st', false, tan) /\ vs_fail st' = false /\ vs_plast st' = true /\
  vs_e st' = Some (kmf e') /\ vs_stress st' = Some (kmf (sig_of E v e')) /\ vs_acc st' = Some a' /\ hl a' = Some (c, h) /\ 0 < c /\
  c / 2 < dp_yield (d_xi P) (d_etay P) (sig_of E v e') c.
Proof.
  exists 2, 0, weak_mat, (linear_law (/ 100000) 0), dp_virgin, (shear_vol (45 / 1000000) 0).
  set (inc := shear_vol (45 / 1000000) 0). set (et := fun i j => zero2 i j + inc i j).
  assert (QE : sqrtJ2 (sig_of 2 0 et) = 9 / 100000) by (change et with (sv_trial (45 / 1000000) 0); rewrite sv_q; lra).
  assert (PE : pressure (sig_of 2 0 et) = 0) by (change et with (sv_trial (45 / 1000000) 0); rewrite sv_pressure; lra).
  destruct (vdp_linear_agrees 2 0 weak_mat (/ 100000) 0 dp_virgin zero2 zero2 0 inc) as (st1 & ap & t1 & U & F & PL & AP & _);
    [lra|lra|lra|cbn [weak_mat d_xi]; lra|cbn [weak_mat d_etay]; lra|cbn [weak_mat d_etaf]; lra|lra|lra|lra|intros i j _ _; reflexivity|apply shear_vol_sym
    |reflexivity|reflexivity|reflexivity| |].
  { fold et. unfold dp_yield. rewrite QE, PE, sv_G, sv_K. cbn [weak_mat d_xi d_etay d_etaf pow]. intros L. exfalso. lra. }
  fold et in PL, AP. unfold dp_yield in PL, AP. rewrite QE, PE in PL, AP. rewrite sv_G, sv_K in AP. cbn [weak_mat d_xi d_etay d_etaf pow] in PL, AP.
  assert (PT : vs_plast st1 = true) by (apply PL; lra).
  assert (AF : ap = false) by (clear - AP; destruct ap; [exfalso; destruct (proj1 AP eq_refl) as [_ L]; lra|reflexivity]). destruct ap; [discriminate AF|].
  destruct (vdp_step_3d 2 0 weak_mat (linear_law (/ 100000) 0) dp_virgin zero2 zero2 0 inc) as (st2 & ap & t2 & U2 & _ & [(F2 & _)|(e' & a' & _ & Se' & X1 & X2 & X3 & GS)]);
    [intro; lra|intro; lra|intro; lra|intros i j _ _; reflexivity|apply shear_vol_sym|reflexivity|reflexivity|reflexivity| |].
  { rewrite U in U2. injection U2 as <- <- <-. congruence. }
  rewrite U in U2. injection U2 as <- <- <-. fold et in GS. unfold vd_good_step in GS. rewrite PT in GS.
  destruct GS as (_ & g & _ & [(L & _)|(_ & DV & TR & DA & c & h & EH & RC)]); [rewrite QE in L; lra|].
  cbn [weak_mat d_xi d_etay d_etaf] in *. rewrite sv_G, QE in *.
  assert (CV : c = / 100000).
  { unfold linear_law in EH. injection EH as EH _. rewrite <- EH. ring. }
  subst c. exists st1, t1, e', a', (/ 100000), h. repeat (split; [assumption|]). split; [lra|].
  unfold rel_err in RC. rewrite (Rabs_right (/ 100000)) in RC by lra. destruct (Rlt_dec _ _) as [L|_]; [lra|].
  apply (Rmult_lt_compat_r (/ 100000)) in RC; [|lra]. unfold Rdiv in RC. rewrite Rmult_assoc, Rinv_l in RC by lra. rewrite Rmult_1_r in RC.
  apply Rabs_def2 in RC. unfold dp_yield.
  rewrite (sqrtJ2_scaled (sig_of 2 0 et) _ (1 - 10000 * 1 * g)); [rewrite QE; lra|lra|exact DV].
Qed.

(** ** The standard update corrects an iterate that the vectorised one accepts *)
Definition quad_law : hlaw := fun x => Some (1 + x * x / 10000000, Fin (2 * x / 10000000)).
Section Quadratic.
  Let conv := vd_cone_conv quad_law weak_mat (2 / 3) 1 2 0 0.
  Let step := vd_cone_step quad_law weak_mat (2 / 3) 1 2 0 0.
  Lemma quad_step x : 0 <= x -> step (Some x) = Some (x + (1 - x - x * x / 10000000) / (1 + 2 * x / 10000000)).
  Proof.
    intros X. unfold step. cbn [vd_cone_step quad_law weak_mat d_xi d_etay d_etaf]. rewrite Rplus_0_l, Rmult_1_l.
    destruct (Req_EM_T _ 0) as [Z|Z]; [exfalso; lra|]. f_equal. f_equal. unfold vd_cone_residual. cbn [weak_mat d_xi d_etay d_etaf]. field. split; lra.
  Qed.
  Lemma quad_conv x : conv (Some x) = true <-> Rabs (1 - x - x * x / 10000000) / (1 + x * x / 10000000) < / 1000000.
  Proof.
    unfold conv. rewrite cone_conv_spec. cbn [weak_mat d_xi d_etay d_etaf].
    assert (CE : 0 <= x * x) by nra.
    assert (QL : quad_law (0 + 1 * x) = Some (1 + x * x / 10000000, Fin (2 * x / 10000000))) by (unfold quad_law; rewrite Rplus_0_l, Rmult_1_l; reflexivity).
    assert (RE : rel_err (Rabs (2 - 1 * x + 0 * (0 - 2 / 3 * 0 * x) - 1 * (1 + x * x / 10000000))) (1 + x * x / 10000000)
       = Rabs (1 - x - x * x / 10000000) / (1 + x * x / 10000000)).
    { unfold rel_err. rewrite (Rabs_right (1 + x * x / 10000000)) by lra. destruct (Rlt_dec _ _) as [L|L]; [exfalso; lra|]. f_equal. f_equal. ring. }
    split.
    - intros (x0 & c & h & Q & L & B). injection Q as <-. rewrite QL in L. injection L as <- <-. rewrite RE in B. exact B.
    - intros B. exists x, (1 + x * x / 10000000), (Fin (2 * x / 10000000)). split; [reflexivity|].
      split; [exact QL|]. rewrite RE. exact B.
  Qed.
  Lemma quad_first : step (Some 0) = Some 1.
  Proof. rewrite quad_step by lra. f_equal. field. Qed.
  Lemma quad_accept : conv (Some 1) = true.
  Proof. apply quad_conv. rewrite Rabs_left by lra. lra. Qed.
  Definition quad_second : R := 1 - 1 / 10000002.
  Lemma quad_next : step (Some 1) = Some quad_second.
  Proof. rewrite quad_step by lra. f_equal. unfold quad_second. field. Qed.
  Lemma quad_accept2 : conv (Some quad_second) = true.
  Proof.
    apply quad_conv. unfold quad_second. apply (Rmult_lt_reg_r (1 + (1 - 1 / 10000002) * (1 - 1 / 10000002) / 10000000)); [lra|].
    unfold Rdiv at 1. rewrite Rmult_assoc, Rinv_l by lra. rewrite Rmult_1_r. apply Rabs_def1; lra.
  Qed.
End Quadratic.

Lemma quad_cone : vd_cone quad_law weak_mat (2 / 3) 1 2 0 0 false = (Some 1, true, false).
Proof.
  unfold vd_cone. rewrite early_fix; [|unfold vd_max_n_iterations; lia|rewrite quad_first; exact quad_accept]. rewrite quad_first.
  destruct (rltb (2 - 1 * 1) 0) eqn:B; [apply rltb_iff in B; lra|reflexivity].
Qed.
Lemma quad_zero : quad_law 0 = Some (1, Fin 0).
Proof. unfold quad_law. f_equal. f_equal; [lra|f_equal; lra]. Qed.
Lemma quad_delayed n : delayed (vd_cone_conv quad_law weak_mat (2 / 3) 1 2 0 0) (vd_cone_step quad_law weak_mat (2 / 3) 1 2 0 0) None (S n) true (Some 0) = Some quad_second.
Proof. cbn [delayed]. rewrite quad_first, andb_false_r. destruct n; cbn [delayed]; rewrite quad_next, quad_accept2; reflexivity. Qed.
Lemma quad_return : exists H, dp_return quad_law weak_mat (2 / 3) 1 2 0 0 = DCone quad_second H.
Proof.
  assert (Z : forall x, 0 + x * 0 = 0) by (intros; ring).
  unfold dp_return. rewrite Z, quad_zero.
  replace (2 + d_etay weak_mat * 0 - d_xi weak_mat * 1) with 1 by (cbn [weak_mat d_xi d_etay]; ring). rewrite (Rabs_right 1) by lra.
  destruct (rltb 1 small) eqn:B; [apply rltb_iff in B; unfold small in B; lra|].
  destruct (rleb _ su_conv_tol) eqn:B2; [apply rleb_iff in B2; unfold su_conv_tol in B2; lra|].
  replace (cone_newton quad_law weak_mat (2 / 3) 1 2 0 0 su_max_n_iterations true 0 1 (Fin 0))
    with (cone_newton quad_law weak_mat (2 / 3) 1 2 0 0 su_max_n_iterations true 0 (cone_residual weak_mat (2 / 3) 1 2 0 0 1) (Fin 0))
    by (f_equal; unfold cone_residual; cbn [weak_mat d_xi d_etay d_etaf]; ring).
  rewrite cone_newton_delayed by (rewrite Z; exact quad_zero).
  unfold su_max_n_iterations. rewrite quad_delayed. unfold quad_law at 1. eexists.
  destruct (rleb 0 (2 - 1 * quad_second)) eqn:B3; [reflexivity|]. apply rleb_false in B3. unfold quad_second in B3. lra.
Qed.
Lemma plastic_cone_case hl P K G so s q p a x : 0 <= q -> vd_cone hl P K G q p a false = (Some x, true, false) ->
  vd_plastic_step hl P K G so s (q * q) p a false = vd_cone_output P K G so s (q * q) p a (Some x) true.
Proof. intros Q CO. unfold vd_plastic_step. rewrite (sqrt_square q Q), CO. destruct (vd_apex _ _ _ _ _ _). reflexivity. Qed.
Lemma vd_lift E v P hl st e a inc o tan : vs_e st = Some (kmf e) -> vs_acc st = Some a ->
  vd_core E v P hl (Some (kmf (fun i j => e i j + inc i j))) (Some a) = Ok (o, tan) ->
  exists st', vd_state_update 4 E v P hl inc st = Ok (st', vd_isapex o, tan) /\ vs_fail st' = negb (vd_ok o) /\ vs_acc st' = vd_acc o.
Proof.
  intros E1 E3 EC. unfold vd_state_update. cbn [get_problem_type_parameters rbind Nat.eqb]. rewrite mf2_3d. cbn [rbind].
  rewrite E1, E3. cbn [omap]. rewrite kmf_add, EC. cbn [rbind fst snd]. eexists. split; [reflexivity|]. auto.
Qed.
Lemma dp_lift_acc E v P hl st e a inc c : vs_e st = Some (kmf e) -> vs_acc st = Some a ->
  dp_core E v P hl (Some (kmf (fun i j => e i j + inc i j))) (Some a) = Ok c ->
  exists st' t, dp_state_update 4 E v P hl inc st = Ok (st', dp_is_apex (dc_outcome c), t) /\ vs_fail st' = dp_is_fail (dc_outcome c) /\ vs_acc st' = dc_acc c.
Proof.
  intros E1 E3 EC. unfold dp_state_update. cbn [get_problem_type_parameters rbind Nat.eqb]. rewrite mf2_3d. cbn [rbind].
  rewrite E1, E3. cbn [omap]. rewrite kmf_add, EC. cbn [rbind]. do 2 eexists. split; [reflexivity|]. auto.
Qed.
Definition shear1 : T2 := fun i j => zero2 i j + shear_vol 1 0 i j.
Lemma shear1_facts : symmetric 3 shear1 /\ sqrtJ2 (sig_of 2 0 shear1) = 2 /\ pressure (sig_of 2 0 shear1) = 0.
Proof.
  split; [|split].
  - intros i j Hi Hj. unfold shear1. rewrite (shear_vol_sym 1 0 i j) by auto. reflexivity.
  - change shear1 with (sv_trial 1 0). rewrite sv_q; lra.
  - change shear1 with (sv_trial 1 0). rewrite sv_pressure; lra.
Qed.
Lemma quad_vectorised : exists s1 t1, vd_state_update 4 2 0 weak_mat quad_law (shear_vol 1 0) dp_virgin = Ok (s1, false, t1) /\ vs_fail s1 = false /\ vs_acc s1 = Some 1.
Proof.
  destruct shear1_facts as (St & QE & PE).
  destruct (vd_core_tensors 2 0 weak_mat quad_law shear1 0 St) as (de & tan & _ & EC & _). cbv zeta in EC.
  rewrite QE, PE, sv_G, sv_K in EC.
  assert (EL : vd_trial_elastic quad_law weak_mat 2 0 0 = false).
  { unfold vd_trial_elastic. rewrite quad_zero. apply vd_inside_false. right. cbn [weak_mat d_xi d_etay d_etaf]. rewrite Rabs_right by lra. split; [intro|]; lra. }
  rewrite EL in EC. rewrite (plastic_cone_case quad_law weak_mat (2 / 3) 1 _ _ 2 0 0 1 ltac:(lra) quad_cone) in EC.
  destruct (vd_lift 2 0 weak_mat quad_law dp_virgin zero2 0 (shear_vol 1 0) _ _ eq_refl eq_refl EC) as (s1 & U & F & A).
  exists s1, tan. split; [exact U|]. split; [exact F|]. rewrite A. cbn [vd_acc vd_cone_output omap weak_mat d_xi]. f_equal. ring.
Qed.
Lemma quad_standard : exists s2 t2, dp_state_update 4 2 0 weak_mat quad_law (shear_vol 1 0) dp_virgin = Ok (s2, false, t2) /\ vs_fail s2 = false /\ vs_acc s2 = Some quad_second.
Proof.
  destruct shear1_facts as (St & QE & PE). destruct quad_return as (H & RE).
  destruct (dp_core_finish 2 0 weak_mat quad_law shear1 0 St) as (de2 & _ & EF). rewrite QE, PE, sv_G, sv_K, RE in EF.
  destruct (dp_finish_3d 2 0 weak_mat shear1 de2 2 0 0 (DCone quad_second H) St) as (c & EF2 & EO & D1 & D2 & D3 & _). rewrite EF2 in EF.
  destruct (dp_lift_acc 2 0 weak_mat quad_law dp_virgin zero2 0 (shear_vol 1 0) _ eq_refl eq_refl EF) as (s2 & t2 & U & F & A).
  rewrite EO in U, F. exists s2, t2. split; [exact U|]. split; [exact F|]. rewrite A, D3. cbn [weak_mat d_xi]. f_equal. ring.
Qed.
Theorem vdp_standard_agreement_refuted : exists E v P hl st inc s1 t1 s2 t2,
  vd_state_update 4 E v P hl inc st = Ok (s1, false, t1) /\ vs_fail s1 = false /\ vs_acc s1 = Some 1 /\
  dp_state_update 4 E v P hl inc st = Ok (s2, false, t2) /\ vs_fail s2 = false /\ vs_acc s2 = Some (1 - 1 / 10000002).
Proof.
  destruct quad_vectorised as (s1 & t1 & U1 & F1 & A1). destruct quad_standard as (s2 & t2 & U2 & F2 & A2). unfold quad_second in A2.
  exists 2, 0, weak_mat, quad_law, dp_virgin, (shear_vol 1 0), s1, t1, s2, t2.
  split; [exact U1|]. split; [exact F1|]. split; [exact A1|]. split; [exact U2|]. split; [exact F2|exact A2].
Qed.

(** ** The cone tangent *)
Lemma sv_dev_norm : tnorm (deviator3 (sv_trial 1 0)) = sqrt 2.
Proof.
  unfold tnorm. f_equal. rewrite (ddot_ext _ _ (shear_vol 1 0) (shear_vol 1 0)); try apply sv_dev. unfold ddot, sum2, shear_vol. cbn. ring.
Qed.
Theorem vdp_cone_tangent_refuted : exists E v P hl st inc st' m, vd_state_update 4 E v P hl inc st = Ok (st', false, Some m) /\
  vs_fail st' = false /\ ~ is_tangent (vd_stress_after E v P hl st) inc m.
Proof.
  exists 2, 0, dp_mat, (linear_law 1 0), dp_virgin, (shear_vol 1 0).
  apply (vdp_cone_tangent_wrong 2 0 dp_mat dp_virgin zero2 zero2 0 (shear_vol 1 0) (fun _ _ _ _ => eq_refl) (shear_vol_sym _ _) eq_refl eq_refl eq_refl 1 0);
    try (cbn; lra); change (fun i j => zero2 i j + shear_vol 1 0 i j) with (sv_trial 1 0);
    unfold dp_yield; rewrite ?sv_q, ?sv_pressure, ?sv_G, ?sv_K, ?sv_trace, ?sv_dev_norm by lra; cbn [d_xi d_etay d_etaf dp_mat pow]; try lra.
  - assert (1 < sqrt 2) by (rewrite <- sqrt_1 at 1; apply sqrt_lt_1; lra). lra.
  - unfold sum2. cbn [rsum]. rewrite !sv_dev by lia. unfold shear_vol. lra.
Qed.

(** ** Witnesses *)
(** hydrostatic tension: return to the apex *)
Example vdp_tension_tangent : vd_has_tangent 2 0 dp_mat (linear_law 1 0) dp_virgin (shear_vol 0 2) true true.
Proof.
  apply (vdp_apex_tangent_is_derivative 2 0 dp_mat dp_virgin zero2 zero2 0 (shear_vol 0 2) (fun _ _ _ _ => eq_refl) (shear_vol_sym _ _) eq_refl eq_refl eq_refl 1 0);
    try (cbn; lra); change (fun i j => zero2 i j + shear_vol 0 2 i j) with (sv_trial 0 2);
    unfold dp_yield; rewrite ?sv_q, ?sv_pressure, ?sv_G, ?sv_K, ?sv_trace by lra; cbn [d_xi d_etay d_etaf dp_mat pow]; lra.
Qed.
(** hydrostatic compression: elastic *)
Example vdp_compression_tangent : vd_has_tangent 2 0 dp_mat (linear_law 1 0) dp_virgin (shear_vol 0 (-2)) false false.
Proof.
  apply (vdp_elastic_tangent_is_derivative 2 0 dp_mat dp_virgin zero2 zero2 0 (shear_vol 0 (-2)) (fun _ _ _ _ => eq_refl) (shear_vol_sym _ _) eq_refl eq_refl eq_refl (linear_law 1 0) 1 (Fin 0));
    try lra.
  - unfold linear_law. rewrite relu_pos by lra. f_equal. f_equal. ring.
  - change (fun i j => zero2 i j + shear_vol 0 (-2) i j) with (sv_trial 0 (-2)).
    unfold dp_yield. rewrite sv_q, sv_pressure by lra. cbn [d_xi d_etay d_etaf dp_mat]. lra.
Qed.
(** shear: return to the cone, as in the standard material *)
Example vdp_shear_agrees : exists st1 t1 t2, vd_state_update 4 2 0 dp_mat (linear_law 1 0) (shear_vol 1 0) dp_virgin = Ok (st1, false, t1) /\
  dp_state_update 4 2 0 dp_mat (linear_law 1 0) (shear_vol 1 0) dp_virgin = Ok (st1, false, t2) /\ vs_fail st1 = false /\ vs_plast st1 = true.
Proof.
  destruct (vdp_linear_agrees 2 0 dp_mat 1 0 dp_virgin zero2 zero2 0 (shear_vol 1 0)) as (st1 & ap & t1 & U & F & PL & AP & AG);
    [lra|lra|lra|cbn [dp_mat d_xi]; lra|cbn [dp_mat d_etay]; lra|cbn [dp_mat d_etaf]; lra|lra|lra|lra|intros i j _ _; reflexivity|apply shear_vol_sym
    |reflexivity|reflexivity|reflexivity|..];
    change (fun i j => zero2 i j + shear_vol 1 0 i j) with (sv_trial 1 0) in *; unfold dp_yield in *;
    rewrite ?sv_q, ?sv_pressure, ?sv_G, ?sv_K in * by lra; cbn [d_xi d_etay d_etaf dp_mat pow] in *; [intros; exfalso; lra|].
  assert (AF : ap = false) by (clear - AP; destruct ap; [exfalso; destruct (proj1 AP eq_refl) as [_ L]; lra|reflexivity]). destruct ap; [discriminate AF|].
  destruct AG as (t2 & U2 & _); [right; right; lra|]. exists st1, t1, t2. split; [exact U|]. split; [exact U2|]. split; [exact F|]. apply PL. lra.
Qed.

Print Assumptions vdp_isochoric_apex_fails.
Print Assumptions vdp_yield_condition_refuted.
Print Assumptions vdp_standard_agreement_refuted.
Print Assumptions vdp_cone_tangent_refuted.
