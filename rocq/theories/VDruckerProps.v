(** Theorems about the vectorised Drucker-Prager material. *)
From Coq Require Import Reals List Arith Bool Lia Lra Psatz.
From Verif Require Import Lib MatrixModel MatrixSpec TensorModel TensorSpec HardeningModel HardeningSpec HardeningProps
  ElasticModel ElasticSpec ElasticProofs VonMisesModel VonMisesSpec VonMisesProofs VonMisesProps VonMisesTangent VmapModel VmapSpec VmapProps
  DruckerModel DruckerSpec DruckerProofs DruckerProps DruckerTangent VDruckerModel.
Import ListNotations.
Local Open Scope R_scope.

(** ** The loops *)
Lemma small_residual_rel r c : vd_small_residual r c = true <-> rel_err (Rabs r) c < / 1000000.
Proof.
  unfold vd_small_residual, rel_err, small. destruct (rltb (Rabs c) (/ 100000000)) eqn:B.
  - apply rltb_iff in B. destruct (Rlt_dec _ _) as [L|L]; [|contradiction]. apply rltb_iff.
  - destruct (Rlt_dec _ _) as [L|L]; [apply rltb_iff in L; congruence|]. rewrite rabs_quot. apply rltb_iff.
Qed.

Section Loops.
  Variables (hl : hlaw) (P : dp_params) (K G q p acc : R).
  Notation cconv := (vd_cone_conv hl P K G q p acc).
  Notation cstep := (vd_cone_step hl P K G q p acc).
  Notation aconv := (vd_apex_conv hl P K p acc).
  Notation astep := (vd_apex_step hl P K p acc).
  Notation cone := (vd_cone hl P K G q p acc false).
  Notation apexr := (vd_apex hl P K p acc false).

  Lemma cone_conv_spec x : cconv x = true <-> exists x0 c h, x = Some x0 /\ hl (acc + d_xi P * x0) = Some (c, h) /\
    rel_err (Rabs (q - G * x0 + d_etay P * (p - K * d_etaf P * x0) - d_xi P * c)) c < / 1000000.
  Proof.
    destruct x as [x|]; cbn [vd_cone_conv]; [|split; [discriminate|intros (x0 & c & h & E & _); discriminate]].
    destruct (hl (acc + d_xi P * x)) as [[c h]|] eqn:E.
    - rewrite small_residual_rel. split.
      + intros H. exists x, c, h. auto.
      + intros (x0 & c' & h' & Q & E' & H). injection Q as <-. rewrite E in E'. injection E' as <- <-. exact H.
    - split; [discriminate|]. intros (x0 & c' & h' & Q & E' & H). injection Q as <-. congruence.
  Qed.
  Lemma apex_conv_spec x : aconv x = true <-> exists x0 c h, x = Some x0 /\ d_etaf P <> 0 /\ d_etay P <> 0 /\
    hl (acc + d_xi P / d_etaf P * x0) = Some (c, h) /\ rel_err (Rabs (c * (d_xi P / d_etay P) - (p - K * x0))) c < / 1000000.
  Proof.
    unfold vd_apex_conv, vd_alpha, vd_beta, vd_ratio.
    destruct x as [x|]; [|split; [discriminate|intros (x0 & c & h & E & _); discriminate]].
    destruct (Req_EM_T (d_etaf P) 0) as [Z|F1]; [split; [discriminate|intros (x0 & c & h & _ & F & _); contradiction]|].
    destruct (Req_EM_T (d_etay P) 0) as [Z|F2]; [split; [discriminate|intros (x0 & c & h & _ & _ & F & _); contradiction]|].
    destruct (hl (acc + d_xi P / d_etaf P * x)) as [[c h]|] eqn:E.
    - rewrite small_residual_rel. split.
      + intros H. exists x, c, h. auto.
      + intros (x0 & c' & h' & Q & _ & _ & E' & H). injection Q as <-. rewrite E in E'. injection E' as <- <-. exact H.
    - split; [discriminate|]. intros (x0 & c' & h' & Q & _ & _ & E' & H). injection Q as <-. congruence.
  Qed.

  (** Result of a loop that is not masked. *)
  Lemma cone_result x ok ap : cone = (x, ok, ap) ->
    (ok = true /\ exists x0 c h, x = Some x0 /\ hl (acc + d_xi P * x0) = Some (c, h) /\ ap = rltb (q - G * x0) 0 /\
       rel_err (Rabs (q - G * x0 + d_etay P * (p - K * d_etaf P * x0) - d_xi P * c)) c < / 1000000)
    \/ (ok = false /\ x = None /\ ap = false).
  Proof.
    unfold vd_cone. destruct (masked_loop_early_exit cconv cstep vd_max_n_iterations (Some 0)) as [(k & (_ & C & _) & E)|(_ & E)].
    - rewrite E. apply cone_conv_spec in C. destruct C as (x0 & c & h & Ex & Eh & R0). rewrite Ex.
      intros Q. injection Q as <- <- <-. left. split; [reflexivity|]. exists x0, c, h. auto.
    - destruct (masked_loop _ _ _ _ _ _) as [y b]. cbn [snd] in E. subst b. intros Q. injection Q as <- <- <-. right. auto.
  Qed.
  Lemma apex_result x ok : apexr = (x, ok) ->
    (ok = true /\ exists x0 c h, x = Some x0 /\ d_etaf P <> 0 /\ d_etay P <> 0 /\ hl (acc + d_xi P / d_etaf P * x0) = Some (c, h) /\
       rel_err (Rabs (c * (d_xi P / d_etay P) - (p - K * x0))) c < / 1000000)
    \/ (ok = false /\ x = None).
  Proof.
    unfold vd_apex. destruct (masked_loop_early_exit aconv astep vd_max_n_iterations (Some 0)) as [(k & (_ & C & _) & E)|(_ & E)].
    - rewrite E. apply apex_conv_spec in C. destruct C as (x0 & c & h & Ex & F1 & F2 & Eh & R0). rewrite Ex.
      intros Q. injection Q as <- <-. left. split; [reflexivity|]. exists x0, c, h. auto.
    - destruct (masked_loop _ _ _ _ _ _) as [y b]. cbn [snd] in E. subst b. intros Q. injection Q as <- <-. right. auto.
  Qed.
End Loops.

(** ** The core on tensors *)
Definition vd_trial_elastic (hl : hlaw) (P : dp_params) (q p a : R) : bool :=
  match hl a with None => false | Some (c, _) => vd_inside (q + d_etay P * p - d_xi P * c) c end.
Lemma vd_core_tensors E v P hl et a : symmetric 3 et ->
  let sg := sig_of E v et in let q := sqrtJ2 sg in let p := pressure sg in
  exists de tan, eq2 3 de (deviator3 et) /\
    let o := if vd_trial_elastic hl P q p a then vd_elastic_step (kmf et) (kmf sg) a
             else vd_plastic_step hl P (dp_bulk E v) (lame_mu E v) (kmf soid) (kmf (deviator3 sg)) (q * q) p a false in
    vd_core E v P hl (Some (kmf et)) (Some a) = Ok (o, tan) /\
    match vd_tangent P (dp_bulk E v) (lame_mu E v) E v hl de o with
    | Some t => exists m, tan = Some m /\ vget_tensor_mf4 t 3 order_sym_3d true = Ok m
    | None => tan = None
    end.
Proof.
  intros S sg q p.
  assert (Ss : symmetric 3 sg) by (apply hooke_symmetric; auto).
  destruct (from_kmf sg Ss) as (tt & Et & Qt). destruct (from_kmf (deviator3 et) (deviator_symmetric et S)) as (de & Ed & Qd).
  assert (EP : 1 / 3 * (tt 0%nat 0%nat + tt 1%nat 1%nat + tt 2%nat 2%nat) = p).
  { rewrite !Qt by lia. unfold p, pressure, trace. cbn [rsum]. field. }
  pose proof (sqrtJ2_norm _ Ss) as SQ. fold q in SQ.
  assert (J2 : 1 / 2 * vnorm (kmf (deviator3 sg)) ^ 2 = q * q).
  { rewrite <- SQ. symmetry. apply sqrt_sqrt. nra. }
  assert (SQ2 : sqrt (q * q) = q) by (apply sqrt_square, sqrtJ2_nonneg).
  unfold vd_core. rewrite mf2_3d, devproj_mf, iso_tangent_mf. cbn [rbind].
  rewrite hooke_kmf. fold (sig_of E v et). fold sg. rewrite !dev_kmf. rewrite Et, rbind_ok, EP, J2, SQ2, Ed, rbind_ok.
  set (o := if vd_trial_elastic hl P q p a then _ else _). exists de.
  fold (vd_trial_elastic hl P q p a).
  replace (if vd_trial_elastic hl P q p a then vd_elastic_step (kmf et) (kmf sg) a
    else vd_plastic_step hl P (dp_bulk E v) (lame_mu E v) (kmf soid) (kmf (deviator3 sg)) (q * q) p a (vd_trial_elastic hl P q p a)) with o.
  2: { unfold o. destruct (vd_trial_elastic hl P q p a); reflexivity. }
  destruct (vd_tangent P (dp_bulk E v) (lame_mu E v) E v hl de o) as [t|].
  - destruct (vget_tensor_mf4 t 3 order_sym_3d true) as [m|] eqn:M; [|discriminate M]. exists (Some m). split; [exact Qd|]. split; [reflexivity|]. eauto.
  - exists None. auto.
Qed.

(** ** One update, three dimensions *)
(** Trial states outside the yield surface: the test divides by the cohesion. *)
Definition vd_outside (f c : R) : Prop := (c = 0 /\ 0 <= f) \/ (c <> 0 /\ / 1000000 < f / Rabs c).
Lemma vd_inside_false f c : vd_inside f c = false <-> vd_outside f c.
Proof.
  unfold vd_inside, vd_outside. destruct (Req_EM_T c 0) as [Z|Z].
  - split; [intros H; left|intros [[_ H]|[H _]]; [|contradiction]].
    + split; auto. destruct (Rle_dec 0 f) as [|N]; auto. apply Rnot_le_lt, rltb_iff in N. congruence.
    + destruct (rltb f 0) eqn:B; auto. apply rltb_iff in B. lra.
  - split; [intros H; right; split; auto; apply rleb_false in H; exact H|intros [[H _]|[_ H]]; [contradiction|]].
    destruct (rleb (f / Rabs c) su_conv_tol) eqn:B; auto. apply rleb_iff in B. unfold su_conv_tol in B. lra.
Qed.
(** Return to the cone when the second invariant of the trial deviatoric stress
    is less than 1e-8: the square root is replaced with 1e-4. *)
Definition vd_clamped_step (sig : T2 -> T2) (G xi etay etaf tol : R) (hl : hlaw) (g : R) (et : T2) (a : R) (e' : T2) (a' : R) : Prop :=
  sqrtJ2 (sig et) * sqrtJ2 (sig et) < / 100000000 /\
  eq2 3 (deviator3 (sig e')) (fun i j => (1 - 10000 * G * g) * deviator3 (sig et) i j) /\
  trace 3 et - trace 3 e' = etaf * g /\ a' - a = xi * g /\
  exists c h, hl a' = Some (c, h) /\ rel_err (Rabs (sqrtJ2 (sig et) - G * g + etay * pressure (sig e') - xi * c)) c < tol.
Definition vd_good_step (E v : R) (P : dp_params) (hl : hlaw) (et : T2) (a : R) (plast apex : bool) (e' : T2) (a' : R) : Prop :=
  let sig := sig_of E v in let G := lame_mu E v in let K := dp_bulk E v in
  let xi := d_xi P in let etay := d_etay P in let etaf := d_etaf P in let tol := / 1000000 in
  if plast then
    (forall c h, hl a = Some (c, h) -> vd_outside (dp_yield xi etay (sig et) c) c) /\
    if apex then etaf <> 0 /\ etay <> 0 /\ (exists x, dp_apex_step sig xi etay etaf tol hl x et a e' a') /\
      exists g c h, hl (a + xi * g) = Some (c, h) /\ sqrtJ2 (sig et) < G * g /\
        rel_err (Rabs (sqrtJ2 (sig et) - G * g + etay * (pressure (sig et) - K * etaf * g) - xi * c)) c < tol
    else exists g, G * g <= sqrtJ2 (sig et) /\
      (/ 10000 <= sqrtJ2 (sig et) /\ dp_cone_step sig xi etay etaf tol hl g et a e' a'
       \/ vd_clamped_step sig G xi etay etaf tol hl g et a e' a')
  else apex = false /\ eq2 3 e' et /\ a' = a /\ exists c h, hl a = Some (c, h) /\ ~ vd_outside (dp_yield xi etay (sig et) c) c.

Lemma vd_elastic_iff hl P E v et a : vd_trial_elastic hl P (sqrtJ2 (sig_of E v et)) (pressure (sig_of E v et)) a = false <->
  forall c h, hl a = Some (c, h) -> vd_outside (dp_yield (d_xi P) (d_etay P) (sig_of E v et) c) c.
Proof.
  unfold vd_trial_elastic. destruct (hl a) as [[c h]|].
  - rewrite vd_inside_false. unfold dp_yield. split.
    + intros H c' h' Q. injection Q as <- <-. exact H.
    + intros H. apply (H c h eq_refl).
  - split; auto. intros _ c h Q. discriminate.
Qed.
Lemma safe_sqrt_large q : 0 <= q -> / 10000 <= q -> sqrt (Rmax (q * q) small) = q.
Proof. intros Q L. rewrite Rmax_left by (unfold small; nra). apply sqrt_square; auto. Qed.
Lemma safe_sqrt_small q : 0 <= q -> q * q < / 100000000 -> sqrt (Rmax (q * q) small) = / 10000.
Proof.
  intros Q L. rewrite Rmax_right by (unfold small; lra). unfold small. replace (/ 100000000) with (/ 10000 * / 10000) by field.
  apply sqrt_square. lra.
Qed.

(** Outcome of the core: failure, or a good step. *)
Lemma vd_core_good E v P hl et a : 1 + v <> 0 -> 1 - 2 * v <> 0 -> E <> 0 -> symmetric 3 et ->
  exists o tan, vd_core E v P hl (Some (kmf et)) (Some a) = Ok (o, tan) /\
    ((vd_ok o = false /\ vd_plast o = true /\ vd_e o = None /\ vd_stress o = None /\ vd_acc o = None /\ tan = None)
     \/ exists e' a', vd_ok o = true /\ symmetric 3 e' /\ vd_e o = Some (kmf e') /\
        vd_stress o = Some (kmf (sig_of E v e')) /\ vd_acc o = Some a' /\ (forall m, tan = Some m -> length m = 6%nat) /\
        vd_good_step E v P hl et a (vd_plast o) (vd_isapex o) e' a').
Proof.
  intros V1 V2 HE S. destruct (vd_core_tensors E v P hl et a S) as (de & tan & _ & EC & TT).
  set (sg := sig_of E v et) in *. set (q := sqrtJ2 sg) in *. set (p := pressure sg) in *.
  set (G := lame_mu E v) in *. set (K := dp_bulk E v) in *.
  assert (Ts : trace 3 (deviator3 sg) = 0) by apply deviator_trace.
  assert (Ss : symmetric 3 sg) by (apply hooke_symmetric; auto).
  pose proof (split_strain E v V1 V2 HE et) as SP. fold sg p in SP.
  pose proof (bulk_nz E v V1 V2 HE) as NK. pose proof (shear_nz E v V1 HE) as NG. fold K in NK. fold G in NG.
  assert (TE : trace 3 et = p / K) by (rewrite (trace_ext _ _ SP); apply trace_iso_dev; auto).
  assert (Q0 : 0 <= q) by apply sqrtJ2_nonneg.
  assert (KS : forall pr, vscale pr (kmf soid) = kmf (fun i j => pr * ident i j)) by (intros; apply kmf_scale).
  assert (LT : forall t m, vget_tensor_mf4 t 3 order_sym_3d true = Ok m -> length m = 6%nat) by (intros t m M; exact (proj1 (mf4_rows _ _ M))).
  destruct (vd_trial_elastic hl P q p a) eqn:EL; cbv zeta in EC, TT; do 2 eexists; (split; [exact EC|]); clear EC.
  - right. exists et, a. cbn [vd_elastic_step vd_ok vd_e vd_stress vd_acc vd_plast vd_isapex]. do 5 (split; [auto|]). split.
    { intros m Em. destruct (vd_tangent _ _ _ _ _ _ _ _); [destruct TT as (m' & E' & M); rewrite Em in E'; injection E' as <-; eauto|congruence]. }
    unfold vd_good_step. cbv zeta. split; auto. split; [intros i j _ _; reflexivity|]. split; [reflexivity|].
    unfold vd_trial_elastic in EL. destruct (hl a) as [[c h]|]; [|discriminate]. exists c, h. split; auto.
    intros O. apply vd_inside_false in O. unfold dp_yield in O. fold sg q p in O. congruence.
  - assert (OUT : forall c h, hl a = Some (c, h) -> vd_outside (dp_yield (d_xi P) (d_etay P) sg c) c) by (apply vd_elastic_iff; exact EL).
    revert TT. unfold vd_plastic_step. rewrite (sqrt_square q Q0).
    destruct (vd_cone hl P K G q p a false) as [[x ok] ap] eqn:CO. cbn [orb].
    destruct (cone_result _ _ _ _ _ _ _ _ _ _ CO) as [(-> & x0 & c & h & -> & Eh & EA & RC)|(-> & -> & ->)].
    + destruct ap.
      * symmetry in EA. apply rltb_iff in EA. cbn [negb].
        destruct (vd_apex hl P K p a false) as [y ok] eqn:AP. intros TT.
        destruct (apex_result _ _ _ _ _ _ _ AP) as [(-> & y0 & c1 & h1 & -> & F1 & F2 & Eh1 & RA)|(-> & ->)].
        -- right. assert (AL : vd_alpha P = Some (d_xi P / d_etaf P)) by (unfold vd_alpha, vd_ratio; destruct (Req_EM_T _ _); [contradiction|reflexivity]).
           set (pr := p - K * y0). pose proof zero_trace as Td. pose proof (sig_iso_dev E v V1 V2 HE pr zero2 Td) as SI.
           exists (iso_dev E v pr zero2), (a + d_xi P / d_etaf P * y0).
           cbn [vd_apex_output vd_ok vd_e vd_stress vd_acc vd_plast vd_isapex omap omap2]. rewrite AL. cbn [omap2].
           fold pr. split; [reflexivity|]. split; [apply iso_dev_sym; intros i j _ _; reflexivity|].
           split. { unfold vd_strain_of. rewrite KS, !kmf_scale, kmf_add. f_equal. apply kmf_ext. intros i j _ _. unfold iso_dev, zero2. fold G K. ring. }
           split. { rewrite KS. f_equal. apply kmf_ext. intros i j Hi Hj. rewrite SI by auto. unfold zero2. ring. }
           split; [reflexivity|]. split.
           { intros m Em. destruct (vd_tangent _ _ _ _ _ _ _ _); [destruct TT as (m' & E' & M); rewrite Em in E'; injection E' as <-; eauto|congruence]. }
           unfold vd_good_step. cbv zeta. fold sg q p G K. split; [exact OUT|]. split; [exact F1|]. split; [exact F2|]. split.
           ++ exists y0.
              assert (DV : eq2 3 (deviator3 (sig_of E v (iso_dev E v pr zero2))) (fun _ _ => 0)).
              { intros i j Hi Hj. rewrite (deviator_ext _ _ SI i j Hi Hj). apply (dev_iso pr zero2 Td); auto. }
              assert (PR : pressure (sig_of E v (iso_dev E v pr zero2)) = pr) by (unfold pressure; rewrite (trace_ext _ _ SI), trace_iso by auto; field).
              assert (TI : trace 3 (iso_dev E v pr zero2) = pr / K) by (apply trace_iso_dev; auto).
              split; [rewrite TE, TI; unfold pr; field; auto|]. split; [exact DV|]. split; [ring|].
              exists c1, h1. split; [exact Eh1|]. rewrite PR. replace (d_xi P / d_etay P * c1 - pr) with (c1 * (d_xi P / d_etay P) - (p - K * y0)) by (unfold pr; ring). exact RA.
           ++ exists x0, c, h. split; [exact Eh|]. split; [lra|exact RC].
        -- left. unfold vd_tangent in TT. cbn [vd_apex_output vd_ok vd_plast vd_e vd_stress vd_acc omap omap2 negb] in *. destruct (vd_alpha P); cbn [omap2] in *; repeat (split; [reflexivity|]); exact TT.
      * destruct (vd_apex hl P K p a (negb false)) as [y ok]. intros TT.
        assert (GX : G * x0 <= q). { destruct (Rle_dec (G * x0) q) as [|N]; auto. assert (L : q - G * x0 < 0) by lra. apply rltb_iff in L. congruence. }
        right. set (k := 1 - G * x0 / sqrt (Rmax (q * q) small)). set (pr := p - K * d_etaf P * x0). set (sd := fun i j => k * deviator3 sg i j).
        assert (Td : trace 3 sd = 0).
        { unfold sd. transitivity (k * trace 3 (deviator3 sg)); [unfold trace; cbn [rsum]; ring|rewrite Ts; ring]. }
        pose proof (sig_iso_dev E v V1 V2 HE pr sd Td) as SI.
        assert (DV : eq2 3 (deviator3 (sig_of E v (iso_dev E v pr sd))) sd).
        { intros i j Hi Hj. rewrite (deviator_ext _ _ SI i j Hi Hj). apply dev_iso; auto. }
        assert (PR : pressure (sig_of E v (iso_dev E v pr sd)) = pr) by (unfold pressure; rewrite (trace_ext _ _ SI), trace_iso by auto; field).
        assert (TI : trace 3 (iso_dev E v pr sd) = pr / K) by (apply trace_iso_dev; auto).
        exists (iso_dev E v pr sd), (a + d_xi P * x0).
        cbn [vd_cone_output vd_ok vd_e vd_stress vd_acc vd_plast vd_isapex omap]. fold k pr.
        split; [reflexivity|].
        split. { apply iso_dev_sym. intros i j Hi Hj. unfold sd. rewrite (deviator_symmetric sg Ss i j) by auto. reflexivity. }
        split. { unfold vd_strain_of. rewrite KS, !kmf_scale, kmf_add. reflexivity. }
        split. { rewrite KS, kmf_scale, kmf_add. f_equal. apply kmf_ext. intros i j Hi Hj. rewrite SI by auto. reflexivity. }
        split; [reflexivity|]. split.
        { intros m Em. destruct (vd_tangent _ _ _ _ _ _ _ _); [destruct TT as (m' & E' & M); rewrite Em in E'; injection E' as <-; eauto|congruence]. }
        unfold vd_good_step. cbv zeta. fold sg q p G K. split; [exact OUT|]. exists x0. split; [exact GX|].
        destruct (Rle_dec (/ 10000) q) as [L|L].
        -- left. split; [exact L|].
           assert (KE : k = 1 - G * x0 / q) by (unfold k; rewrite safe_sqrt_large by auto; reflexivity).
           assert (KP : 0 <= k).
           { rewrite KE. assert (G * x0 / q <= 1); [|lra]. apply (Rmult_le_reg_r q); [lra|]. unfold Rdiv. rewrite Rmult_assoc, Rinv_l by lra. lra. }
           assert (SQ : sqrtJ2 (sig_of E v (iso_dev E v pr sd)) = q - G * x0).
           { rewrite (sqrtJ2_scaled sg _ k KP) by exact DV. fold q. rewrite KE. field. lra. }
           split; [|split; [|split; [ring|]]].
           ++ intros i j Hi Hj. rewrite (SP i j Hi Hj). unfold iso_dev at 1 2. unfold sd. rewrite KE. unfold dp_flow. fold sg. fold q. fold G K. unfold pr. field. repeat split; auto; lra.
           ++ exists k. split; [exact KP|exact DV].
           ++ exists c, h. split; [exact Eh|]. unfold dp_yield. rewrite SQ, PR. exact RC.
        -- right. assert (L' : q * q < / 100000000) by nra. unfold vd_clamped_step. fold sg q.
           split; [exact L'|]. split.
           { intros i j Hi Hj. rewrite DV by auto. unfold sd, k. rewrite safe_sqrt_small by auto. field. }
           split; [rewrite TE, TI; unfold pr; field; auto|]. split; [ring|]. exists c, h. split; [exact Eh|]. rewrite PR. exact RC.
    + destruct (vd_apex hl P K p a (negb false)) as [y ok]. intros TT. left.
      unfold vd_tangent in TT. cbn [vd_cone_output vd_ok vd_plast vd_e vd_stress vd_acc omap negb] in *. repeat (split; [reflexivity|]). exact TT.
Qed.

Theorem vdp_step_3d E v P hl st e eps a inc : 1 + v <> 0 -> 1 - 2 * v <> 0 -> E <> 0 ->
  symmetric 3 e -> symmetric 3 inc -> vs_e st = Some (kmf e) -> vs_strain st = Some (kmf eps) -> vs_acc st = Some a ->
  let et : T2 := fun i j => e i j + inc i j in
  exists st' apex tan, vd_state_update 4 E v P hl inc st = Ok (st', apex, tan) /\
    vs_strain st' = Some (kmf (fun i j => eps i j + inc i j)) /\
    ((vs_fail st' = true /\ vs_e st' = None /\ vs_stress st' = None /\ vs_acc st' = None /\ tan = None)
     \/ exists e' a', vs_fail st' = false /\ symmetric 3 e' /\ vs_e st' = Some (kmf e') /\
          vs_stress st' = Some (kmf (sig_of E v e')) /\ vs_acc st' = Some a' /\
          vd_good_step E v P hl et a (vs_plast st') apex e' a').
Proof.
  intros V1 V2 HE Se Si E1 E2 E3 et.
  assert (St : symmetric 3 et) by (intros i j Hi Hj; unfold et; rewrite (Se i j), (Si i j) by auto; auto).
  unfold vd_state_update. cbn [get_problem_type_parameters rbind Nat.eqb]. rewrite mf2_3d. cbn [rbind].
  rewrite E1, E2, E3. cbn [omap omap2]. rewrite kmf_add, kmf_sub, kmf_add. fold et.
  destruct (vd_core_good E v P hl et a V1 V2 HE St) as (o & tan & EC & D). rewrite EC. cbn [rbind fst snd].
  do 3 eexists. split; [reflexivity|]. cbn [vs_strain vs_fail vs_e vs_stress vs_acc vs_plast].
  split; [f_equal; apply kmf_ext; intros i j _ _; unfold et; ring|].
  destruct D as [(F & _ & D1 & D2 & D3 & D4)|(e' & a' & F & Sy & D1 & D2 & D3 & _ & GS)]; rewrite F; cbn [negb].
  - left. auto.
  - right. exists e', a'. repeat (split; [assumption || reflexivity|]). exact GS.
Qed.

(** ** Plane strain is the restriction of the three-dimensional update *)
Theorem vdp_plane_strain E v P hl st st3 e z eps a inc : 1 + v <> 0 -> 1 - 2 * v <> 0 -> E <> 0 ->
  symmetric 2 e -> symmetric 2 inc ->
  vs_e st = Some (kmf2 e) -> vs_e33 st = Some z -> vs_strain st = Some (kmf2 eps) -> vs_acc st = Some a ->
  vs_e st3 = Some (kmf (embed e z)) -> vs_acc st3 = Some a ->
  exists s3 apex tan3 st' tan, vd_state_update 4 E v P hl (embed inc 0) st3 = Ok (s3, apex, tan3) /\
    vd_state_update 1 E v P hl inc st = Ok (st', apex, tan) /\
    vs_e st' = omap in_plane_mf (vs_e s3) /\ vs_e33 st' = omap (fun l => nth 2 l 0) (vs_e s3) /\
    vs_stress st' = omap in_plane_mf (vs_stress s3) /\ vs_s33 st' = omap (fun l => nth 2 l 0) (vs_stress s3) /\
    vs_acc st' = vs_acc s3 /\ vs_plast st' = vs_plast s3 /\ vs_fail st' = vs_fail s3 /\
    vs_strain st' = Some (kmf2 (fun i j => eps i j + inc i j)) /\
    (tan = None <-> tan3 = None).
Proof.
  intros V1 V2 HE Se Si E1 E1z E2 E3 F1 F3. set (et := fun i j => embed e z i j + embed inc 0 i j).
  assert (St : symmetric 3 et).
  { intros i j Hi Hj. unfold et, embed. pose proof (Se 0 1 ltac:(lia) ltac:(lia))%nat as S1.
    pose proof (Si 0 1 ltac:(lia) ltac:(lia))%nat as S2.
    destruct i as [|[|[|i]]]; destruct j as [|[|[|j]]]; try lia; rewrite ?S1, ?S2; reflexivity. }
  destruct (vd_core_good E v P hl et a V1 V2 HE St) as (o & tn & EC & D).
  assert (U3 : vd_state_update 4 E v P hl (embed inc 0) st3 =
     Ok (VState (vd_e o) (omap2 vadd (Some (kmf et)) (omap2 vsub (vs_strain st3) (vs_e st3))) (vd_stress o) (vd_acc o)
          (vd_plast o) (negb (vd_ok o)) (Some 0) (Some 0), vd_isapex o, tn)).
  { unfold vd_state_update. cbn [get_problem_type_parameters rbind Nat.eqb]. rewrite mf2_3d. cbn [rbind].
    rewrite F1, F3. cbn [omap]. rewrite kmf_add. fold et. rewrite EC. reflexivity. }
  exists (VState (vd_e o) (omap2 vadd (Some (kmf et)) (omap2 vsub (vs_strain st3) (vs_e st3))) (vd_stress o) (vd_acc o)
          (vd_plast o) (negb (vd_ok o)) (Some 0) (Some 0)), (vd_isapex o), tn.
  unfold vd_state_update at 2. cbn [get_problem_type_parameters rbind Nat.eqb]. rewrite mf2_2d. cbn [rbind].
  rewrite E1, E1z, E2, E3. cbn [omap omap2 lift_res]. unfold kmf2 at 1 2.
  rewrite !to3d. cbn [rbind lift_res omap].
  rewrite !embed_kmf, kmf_add. fold et. rewrite EC. cbn [rbind fst snd].
  assert (T2' : forall b, vget_state_2Dmf_from_3Dmf (kmf b) = Ok (kmf2 b)) by reflexivity.
  rewrite T2'. cbn [lift_res rbind].
  assert (SS : vadd (kmf2 et) (vsub (kmf2 eps) (kmf2 e))
     = kmf2 (fun i j => eps i j + inc i j)).
  { unfold kmf2, vadd, vsub, et, embed. simpl. list_eq; ring. }
  destruct D as [(F & FP & D1 & D2 & D3 & D4)|(e' & a' & F & Sy & D1 & D2 & D3 & L6 & GS)].
  - rewrite D1, D2, D3, D4 in *. cbn [omap lift_res rbind omap2]. do 2 eexists. split; [exact U3|]. split; [reflexivity|].
    cbn [vs_strain vs_fail vs_e vs_stress vs_acc vs_plast vs_e33 vs_s33 omap]. rewrite SS. repeat (split; [reflexivity|]). tauto.
  - rewrite D1, D2, D3 in *. cbn [omap omap2]. rewrite !T2'. cbn [lift_res rbind].
    destruct tn as [tm|].
    + cbn [omap]. unfold vget_state_2Dmf_from_3Dmf_mat. rewrite (L6 tm eq_refl). cbn [Nat.eqb pick_orders].
      replace (Nat.ltb 6 (length order_sym_3d)) with false by reflexivity. cbn [lift_res rbind].
      do 2 eexists. split; [exact U3|]. split; [reflexivity|].
      cbn [vs_strain vs_fail vs_e vs_stress vs_acc vs_plast vs_e33 vs_s33 omap]. rewrite SS. repeat (split; [reflexivity|]).
      split; discriminate.
    + cbn [omap lift_res rbind]. do 2 eexists. split; [exact U3|]. split; [reflexivity|].
      cbn [vs_strain vs_fail vs_e vs_stress vs_acc vs_plast vs_e33 vs_s33 omap]. rewrite SS. repeat (split; [reflexivity|]). tauto.
Qed.

(** ** Failure *)
Theorem vdp_failure_persists E v P hl st inc : vs_e st = None \/ vs_acc st = None ->
  exists st', vd_state_update 4 E v P hl inc st = Ok (st', false, None) /\
    vs_fail st' = true /\ vs_e st' = None /\ vs_stress st' = None /\ vs_acc st' = None.
Proof.
  intros N. unfold vd_state_update. cbn [get_problem_type_parameters rbind Nat.eqb]. rewrite mf2_3d. cbn [rbind].
  assert (C : vd_core E v P hl (omap (fun e => vadd e (kmf inc)) (vs_e st)) (vs_acc st) = Ok (VDStep None None None None false true false, None)).
  { unfold vd_core. rewrite mf2_3d, devproj_mf, iso_tangent_mf. cbn [rbind]. destruct N as [-> | ->]; [reflexivity|]. destruct (vs_e st); reflexivity. }
  rewrite C. cbn [rbind]. eexists. split; [reflexivity|]. cbn. auto.
Qed.

Print Assumptions vdp_step_3d.
Print Assumptions vdp_plane_strain.
Print Assumptions vdp_failure_persists.
