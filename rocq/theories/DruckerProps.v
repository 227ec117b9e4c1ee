(** Theorems about the Drucker-Prager material. *)
From Coq Require Import Reals List Arith Bool Lia Lra Psatz.
From Verif Require Import Lib MatrixModel MatrixSpec TensorModel TensorSpec HardeningModel HardeningSpec HardeningProps
  ElasticModel ElasticSpec ElasticProofs VonMisesModel VonMisesSpec VonMisesProofs VonMisesProps VonMisesTangent DruckerModel DruckerSpec DruckerProofs.
Import ListNotations.
Local Open Scope R_scope.

(** ** One update, three dimensions *)
(** Return to the cone from a trial state whose deviatoric stress is
    negligible (below 1e-8): the deviatoric stress is dropped. *)
Definition dp_axis_step (sig : T2 -> T2) (G xi etay etaf tol : R) (hl : hlaw) (g : R) (et : T2) (a : R) (e' : T2) (a' : R) : Prop :=
  sqrtJ2 (sig et) <= / 100000000 /\ eq2 3 (deviator3 (sig e')) (fun _ _ => 0) /\
  trace 3 et - trace 3 e' = etaf * g /\ a' - a = xi * g /\
  exists c h, hl a' = Some (c, h) /\ rel_err (Rabs (dp_yield xi etay (sig e') c + (sqrtJ2 (sig et) - G * g))) c < tol.

(** Outcome of an update that is not flagged as failed. *)
Definition dp_good_step (E v : R) (P : dp_params) (hl : hlaw) (et : T2) (a : R) (plast apex : bool) (e' : T2) (a' : R) : Prop :=
  let sig := sig_of E v in let G := lame_mu E v in let K := dp_bulk E v in
  let xi := d_xi P in let etay := d_etay P in let etaf := d_etaf P in let tol := / 1000000 in
  if plast then
    (exists c h, hl a = Some (c, h) /\ tol < rel_err (dp_yield xi etay (sig et) c) c) /\
    if apex then etaf <> 0 /\ etay <> 0 /\ (exists x, dp_apex_step sig xi etay etaf tol hl x et a e' a') /\
      (** the return to the cone has no admissible solution *)
      exists g c h, hl (a + xi * g) = Some (c, h) /\ sqrtJ2 (sig et) < G * g /\
        rel_err (Rabs (sqrtJ2 (sig et) - G * g + etay * (pressure (sig et) - K * etaf * g) - xi * c)) c < tol
    else exists g, G * g <= sqrtJ2 (sig et) /\
      (dp_cone_step sig xi etay etaf tol hl g et a e' a' \/ dp_axis_step sig G xi etay etaf tol hl g et a e' a')
  else apex = false /\ dp_elastic_step sig xi etay tol hl et a e' a'.

Lemma zero_trace : trace 3 zero2 = 0.
Proof. unfold trace, zero2. cbn [rsum]. ring. Qed.
Lemma returned_trace s q f : trace 3 s = 0 -> trace 3 (returned_dev s q f) = 0.
Proof. intros T. unfold returned_dev, trace in *. cbn [rsum] in *. set (k := if rltb small q then f else 0).
  replace (0 + k * s 0%nat 0%nat + k * s 1%nat 1%nat + k * s 2%nat 2%nat) with (k * (0 + s 0%nat 0%nat + s 1%nat 1%nat + s 2%nat 2%nat)) by ring. rewrite T. ring. Qed.
Lemma iso_dev_sym E v p s : symmetric 3 s -> symmetric 3 (iso_dev E v p s).
Proof. intros S i j Hi Hj. unfold iso_dev, ident. rewrite (S i j) by auto. rewrite (Nat.eqb_sym i j). reflexivity. Qed.

Lemma dp_core_good E v P hl et a : 1 + v <> 0 -> 1 - 2 * v <> 0 -> E <> 0 -> symmetric 3 et ->
  exists c, dp_core E v P hl (Some (kmf et)) (Some a) = Ok c /\
    ((dp_is_fail (dc_outcome c) = true /\ dc_e c = None /\ dc_stress c = None /\ dc_acc c = None /\ dc_tangent c = None)
     \/ exists e' a', dp_is_fail (dc_outcome c) = false /\ symmetric 3 e' /\ dc_e c = Some (kmf e') /\
        dc_stress c = Some (kmf (sig_of E v e')) /\ dc_acc c = Some a' /\ (exists m, dc_tangent c = Some m /\ length m = 6%nat) /\
        dp_good_step E v P hl et a (dp_is_plast (dc_outcome c)) (dp_is_apex (dc_outcome c)) e' a').
Proof.
  intros V1 V2 HE S. destruct (dp_core_finish E v P hl et a S) as (de & _ & EC). rewrite EC. clear EC.
  set (sg := sig_of E v et). set (q := sqrtJ2 sg). set (p := pressure sg).
  pose proof (dp_return_spec hl P (dp_bulk E v) (lame_mu E v) q p a) as RS.
  destruct (dp_finish_3d E v P et de q p a (dp_return hl P (dp_bulk E v) (lame_mu E v) q p a) S) as (c & EF & EO & D).
  exists c. split; [exact EF|]. rewrite EO. clear EF EO. fold sg in D.
  assert (Ts : trace 3 (deviator3 sg) = 0) by apply deviator_trace.
  assert (Ss : symmetric 3 sg) by (apply hooke_symmetric; auto).
  pose proof (split_strain E v V1 V2 HE et) as SP. fold sg p in SP. fold p in SP.
  pose proof (bulk_nz E v V1 V2 HE) as NK. pose proof (shear_nz E v V1 HE) as NG.
  assert (TE : trace 3 et = p / dp_bulk E v) by (rewrite (trace_ext _ _ SP); apply trace_iso_dev; auto).
  destruct (dp_return hl P (dp_bulk E v) (lame_mu E v) q p a) as [|x H|x H| |].
  - right. exists et, a. destruct D as (D1 & D2 & D3 & D4). split; [reflexivity|]. split; [exact S|]. split; [exact D1|].
    split; [exact D2|]. split; [exact D3|]. split; [eexists; split; [exact D4|reflexivity]|].
    unfold dp_good_step. cbn [dp_is_plast dp_is_apex]. split; [reflexivity|]. split; [intros i j _ _; reflexivity|]. split; [reflexivity|].
    destruct RS as (c0 & h & E0 & R0). exists c0, h. split; [exact E0|exact R0].
  - right. cbv zeta in D. set (pr := p - dp_bulk E v * d_etaf P * x) in *. set (sd := returned_dev (deviator3 sg) q (1 - lame_mu E v * x / q)) in *.
    destruct D as (D1 & D2 & D3 & m & t4 & D4 & D5 & _).
    assert (Td : trace 3 sd = 0) by (apply returned_trace; auto).
    pose proof (sig_iso_dev E v V1 V2 HE pr sd Td) as SI.
    exists (iso_dev E v pr sd), (a + d_xi P * x). split; [reflexivity|].
    split. { apply iso_dev_sym. intros i j Hi Hj. unfold sd, returned_dev. rewrite (deviator_symmetric sg Ss i j) by auto. reflexivity. }
    split; [exact D1|]. split; [rewrite D2; f_equal; apply kmf_ext; intros i j Hi Hj; symmetry; apply SI; auto|]. split; [exact D3|].
    split; [exists m; split; [exact D4|exact (proj1 (mf4_rows _ _ D5))]|].
    destruct RS as ((c0 & h & E0 & R0) & (c1 & E1 & R1) & Q).
    unfold dp_good_step. cbn [dp_is_plast dp_is_apex]. split; [exists c0, h; split; [exact E0|exact R0]|].
    exists x. split; [exact Q|].
    assert (DV : eq2 3 (deviator3 (sig_of E v (iso_dev E v pr sd))) sd).
    { intros i j Hi Hj. rewrite (deviator_ext _ _ SI i j Hi Hj). apply dev_iso; auto. }
    assert (PR : pressure (sig_of E v (iso_dev E v pr sd)) = pr).
    { unfold pressure. rewrite (trace_ext _ _ SI), trace_iso by auto. field. }
    assert (TI : trace 3 (iso_dev E v pr sd) = pr / dp_bulk E v) by (apply trace_iso_dev; auto).
    destruct (rltb small q) eqn:B.
    + left. apply rltb_iff in B. assert (QP : 0 < q) by (unfold small in B; lra).
      assert (SD : eq2 3 sd (fun i j => (1 - lame_mu E v * x / q) * deviator3 sg i j)).
      { intros i j _ _. unfold sd, returned_dev. rewrite (proj2 (rltb_iff small q) B). reflexivity. }
      assert (KP : 0 <= 1 - lame_mu E v * x / q).
      { assert (lame_mu E v * x / q <= 1); [|lra]. apply (Rmult_le_reg_r q); [exact QP|]. unfold Rdiv. rewrite Rmult_assoc, Rinv_l by lra. lra. }
      assert (SQ : sqrtJ2 (sig_of E v (iso_dev E v pr sd)) = q - lame_mu E v * x).
      { rewrite (sqrtJ2_scaled sg _ (1 - lame_mu E v * x / q) KP).
        - fold q. field. lra.
        - intros i j Hi Hj. rewrite DV by auto. apply SD; auto. }
      split; [|split; [|split; [ring|]]].
      * intros i j Hi Hj. rewrite (SP i j Hi Hj). unfold iso_dev at 1 2. rewrite (SD i j Hi Hj). unfold dp_flow. fold sg. fold q. unfold pr. field. repeat split; auto; lra.
      * exists (1 - lame_mu E v * x / q). split; [exact KP|]. intros i j Hi Hj. rewrite DV by auto. apply SD; auto.
      * exists c1, H. split; [exact E1|]. unfold dp_yield. rewrite SQ, PR. exact R1.
    + right. assert (B' : q <= small) by (destruct (Rle_dec q small) as [L|L]; auto; apply Rnot_le_lt, (rltb_iff small q) in L; congruence).
      assert (SD : eq2 3 sd (fun _ _ => 0)) by (intros i j _ _; unfold sd, returned_dev; rewrite B; ring).
      split; [exact B'|]. split; [intros i j Hi Hj; rewrite DV by auto; apply SD; auto|].
      split; [rewrite TE, TI; unfold pr; field; auto|]. split; [ring|]. exists c1, H. split; [exact E1|].
      assert (SQ : sqrtJ2 (sig_of E v (iso_dev E v pr sd)) = 0).
      { rewrite (sqrtJ2_scaled sg _ 0 (Rle_refl 0)); [ring|]. intros i j Hi Hj. rewrite DV by auto. rewrite (SD i j Hi Hj). ring. }
      unfold dp_yield. rewrite SQ, PR. fold sg q.
      replace (0 + d_etay P * pr - d_xi P * c1 + (q - lame_mu E v * x)) with (cone_residual P (dp_bulk E v) (lame_mu E v) q p x c1) by (unfold cone_residual, pr; ring).
      exact R1.
  - right. cbv zeta in D. set (pr := p - dp_bulk E v * x) in *. destruct D as (D1 & D2 & D3 & m & t4 & D4 & D5 & _).
    pose proof zero_trace as Td.
    pose proof (sig_iso_dev E v V1 V2 HE pr zero2 Td) as SI.
    exists (iso_dev E v pr zero2), (a + dp_alpha P * x). split; [reflexivity|].
    split; [apply iso_dev_sym; intros i j _ _; reflexivity|].
    split; [exact D1|]. split.
    { rewrite D2. f_equal. apply kmf_ext. intros i j Hi Hj. rewrite SI by auto. unfold zero2. ring. }
    split; [exact D3|]. split; [exists m; split; [exact D4|exact (proj1 (mf4_rows _ _ D5))]|].
    destruct RS as ((c0 & h & E0 & R0) & (g & Hg & (cg & Eg & Rg) & Qg) & F1 & F2 & (c1 & E1 & R1)).
    unfold dp_good_step. cbn [dp_is_plast dp_is_apex]. split; [exists c0, h; split; [exact E0|exact R0]|].
    split; [exact F1|]. split; [exact F2|]. split.
    + exists x. assert (DV : eq2 3 (deviator3 (sig_of E v (iso_dev E v pr zero2))) (fun _ _ => 0)).
      { intros i j Hi Hj. rewrite (deviator_ext _ _ SI i j Hi Hj). apply (dev_iso pr zero2 Td); auto. }
      assert (PR : pressure (sig_of E v (iso_dev E v pr zero2)) = pr) by (unfold pressure; rewrite (trace_ext _ _ SI), trace_iso by auto; field).
      assert (TI : trace 3 (iso_dev E v pr zero2) = pr / dp_bulk E v) by (apply trace_iso_dev; auto).
      split; [rewrite TE, TI; unfold pr; field; auto|]. split; [exact DV|]. split; [unfold dp_alpha; ring|].
      exists c1, H. split; [exact E1|]. rewrite PR.
      replace (d_xi P / d_etay P * c1 - pr) with (apex_residual P (dp_bulk E v) p x c1) by (unfold apex_residual, dp_beta, pr; ring). exact R1.
    + exists g, cg, Hg. split; [exact Eg|]. split; [exact Qg|exact Rg].
  - left. auto.
  - left. auto.
Qed.

Theorem dp_step_3d E v P hl st e eps a inc : 1 + v <> 0 -> 1 - 2 * v <> 0 -> E <> 0 ->
  symmetric 3 e -> symmetric 3 inc -> vs_e st = Some (kmf e) -> vs_strain st = Some (kmf eps) -> vs_acc st = Some a ->
  let et : T2 := fun i j => e i j + inc i j in
  exists st' apex tan, dp_state_update 4 E v P hl inc st = Ok (st', apex, tan) /\
    vs_strain st' = Some (kmf (fun i j => eps i j + inc i j)) /\
    ((vs_fail st' = true /\ vs_e st' = None /\ vs_stress st' = None /\ vs_acc st' = None /\ tan = None)
     \/ exists e' a', vs_fail st' = false /\ symmetric 3 e' /\ vs_e st' = Some (kmf e') /\
          vs_stress st' = Some (kmf (sig_of E v e')) /\ vs_acc st' = Some a' /\ tan <> None /\
          dp_good_step E v P hl et a (vs_plast st') apex e' a').
Proof.
  intros V1 V2 HE Se Si E1 E2 E3 et.
  assert (St : symmetric 3 et) by (intros i j Hi Hj; unfold et; rewrite (Se i j), (Si i j) by auto; auto).
  unfold dp_state_update. cbn [get_problem_type_parameters rbind Nat.eqb]. rewrite mf2_3d. cbn [rbind].
  rewrite E1, E2, E3. cbn [omap omap2]. rewrite kmf_add, kmf_sub, kmf_add. fold et.
  destruct (dp_core_good E v P hl et a V1 V2 HE St) as (c & EC & D). rewrite EC. cbn [rbind].
  do 3 eexists. split; [reflexivity|]. cbn [vs_strain vs_fail vs_e vs_stress vs_acc vs_plast].
  split; [f_equal; apply kmf_ext; intros i j _ _; unfold et; ring|].
  destruct D as [(F & D1 & D2 & D3 & D4)|(e' & a' & F & Sy & D1 & D2 & D3 & (m & D4 & _) & GS)].
  - left. auto.
  - right. exists e', a'. rewrite D4. repeat (split; [assumption || congruence|]). exact GS.
Qed.

(** ** Plane strain is the restriction of the three-dimensional update *)
Definition in_plane_mf (l : list R) : list R := [nth 0 l 0; nth 1 l 0; nth 3 l 0].
Theorem dp_plane_strain E v P hl st st3 e z eps a inc : 1 + v <> 0 -> 1 - 2 * v <> 0 -> E <> 0 ->
  symmetric 2 e -> symmetric 2 inc ->
  vs_e st = Some (kmf2 e) -> vs_e33 st = Some z -> vs_strain st = Some (kmf2 eps) -> vs_acc st = Some a ->
  vs_e st3 = Some (kmf (embed e z)) -> vs_acc st3 = Some a ->
  exists s3 apex tan3 st' tan, dp_state_update 4 E v P hl (embed inc 0) st3 = Ok (s3, apex, tan3) /\
    dp_state_update 1 E v P hl inc st = Ok (st', apex, tan) /\
    vs_e st' = omap in_plane_mf (vs_e s3) /\ vs_e33 st' = omap (fun l => nth 2 l 0) (vs_e s3) /\
    vs_stress st' = omap in_plane_mf (vs_stress s3) /\ vs_s33 st' = omap (fun l => nth 2 l 0) (vs_stress s3) /\
    vs_acc st' = vs_acc s3 /\ vs_plast st' = vs_plast s3 /\ vs_fail st' = vs_fail s3 /\
    vs_strain st' = Some (kmf2 (fun i j => eps i j + inc i j)) /\
    (tan = None <-> tan3 = None).
Proof.
  intros V1 V2 HE Se Si E1 E1z E2 E3 F1 F3. set (et := fun i j => embed e z i j + embed inc 0 i j).
  assert (St : symmetric 3 et).
  { intros i j Hi Hj. unfold et, embed. pose proof (Se 0 1 ltac:(lia) ltac:(lia))%nat as S1.
    pose proof (Si 0 1 ltac:(lia) ltac:(lia))%nat as S2.
    destruct i as [|[|[|i]]]; destruct j as [|[|[|j]]]; try lia; rewrite ?S1, ?S2; reflexivity. }
  destruct (dp_core_good E v P hl et a V1 V2 HE St) as (c & EC & D).
  assert (U3 : dp_state_update 4 E v P hl (embed inc 0) st3 =
     Ok (VState (dc_e c) (omap2 vadd (Some (kmf et)) (omap2 vsub (vs_strain st3) (vs_e st3))) (dc_stress c) (dc_acc c)
          (dp_is_plast (dc_outcome c)) (dp_is_fail (dc_outcome c)) (Some 0) (Some 0), dp_is_apex (dc_outcome c), dc_tangent c)).
  { unfold dp_state_update. cbn [get_problem_type_parameters rbind Nat.eqb]. rewrite mf2_3d. cbn [rbind].
    rewrite F1, F3. cbn [omap]. rewrite kmf_add. fold et. rewrite EC. reflexivity. }
  exists (VState (dc_e c) (omap2 vadd (Some (kmf et)) (omap2 vsub (vs_strain st3) (vs_e st3))) (dc_stress c) (dc_acc c)
          (dp_is_plast (dc_outcome c)) (dp_is_fail (dc_outcome c)) (Some 0) (Some 0)), (dp_is_apex (dc_outcome c)), (dc_tangent c).
  unfold dp_state_update at 2. cbn [get_problem_type_parameters rbind Nat.eqb]. rewrite mf2_2d. cbn [rbind].
  rewrite E1, E1z, E2, E3. cbn [omap omap2 lift_res]. unfold kmf2 at 1 2.
  rewrite !to3d. cbn [rbind lift_res omap].
  rewrite !embed_kmf, kmf_add. fold et. rewrite EC. cbn [rbind].
  assert (T2' : forall b, vget_state_2Dmf_from_3Dmf (kmf b) = Ok (kmf2 b)) by reflexivity.
  rewrite T2'. cbn [lift_res rbind].
  assert (SS : vadd (kmf2 et) (vsub (kmf2 eps) (kmf2 e))
     = kmf2 (fun i j => eps i j + inc i j)).
  { unfold kmf2, vadd, vsub, et, embed. simpl. list_eq; ring. }
  destruct D as [(F & D1 & D2 & D3 & D4)|(e' & a' & F & Sy & D1 & D2 & D3 & (tm & D4 & L6) & GS)].
  - rewrite D1, D2, D3, D4 in *. cbn [omap lift_res rbind omap2]. do 2 eexists. split; [exact U3|]. split; [reflexivity|].
    cbn [vs_strain vs_fail vs_e vs_stress vs_acc vs_plast vs_e33 vs_s33 omap]. rewrite SS. repeat (split; [reflexivity|]). tauto.
  - rewrite D1, D2, D3, D4 in *. cbn [omap omap2]. rewrite !T2'. cbn [lift_res rbind].
    unfold vget_state_2Dmf_from_3Dmf_mat. rewrite L6. cbn [Nat.eqb pick_orders].
    replace (Nat.ltb 6 (length order_sym_3d)) with false by reflexivity. cbn [lift_res rbind].
    do 2 eexists. split; [exact U3|]. split; [reflexivity|].
    cbn [vs_strain vs_fail vs_e vs_stress vs_acc vs_plast vs_e33 vs_s33 omap]. rewrite SS. repeat (split; [reflexivity|]).
    split; discriminate.
Qed.

(** ** Failure *)
Theorem dp_failure_persists E v P hl st inc : vs_e st = None \/ vs_acc st = None ->
  exists st', dp_state_update 4 E v P hl inc st = Ok (st', false, None) /\
    vs_fail st' = true /\ vs_e st' = None /\ vs_stress st' = None /\ vs_acc st' = None.
Proof.
  intros N. unfold dp_state_update. cbn [get_problem_type_parameters rbind Nat.eqb]. rewrite mf2_3d. cbn [rbind].
  assert (C : dp_core E v P hl (omap (fun e => vadd e (kmf inc)) (vs_e st)) (vs_acc st) = Ok (DCore None None None DConeFailed None)).
  { unfold dp_core. rewrite mf2_3d, devproj_mf, iso_tangent_mf. cbn [rbind]. destruct N as [-> | ->]; [reflexivity|]. destruct (vs_e st); reflexivity. }
  rewrite C. cbn [rbind]. eexists. split; [reflexivity|]. cbn. auto.
Qed.

(** ** Irreversibility *)
Lemma rel_err_above x c : / 100000000 <= c -> rel_err x c = x / c.
Proof. intros H. unfold rel_err. rewrite Rabs_right by lra. destruct (Rlt_dec c (/ 100000000)); [lra|reflexivity]. Qed.
Lemma rel_lt x c t : / 100000000 <= c -> rel_err x c < t -> x < t * c.
Proof. intros H L. rewrite rel_err_above in L by auto. apply (Rmult_lt_compat_r c) in L; [|lra]. unfold Rdiv in L. rewrite Rmult_assoc, Rinv_l in L by lra. lra. Qed.
Lemma rel_gt x c t : / 100000000 <= c -> t < rel_err x c -> t * c < x.
Proof. intros H L. rewrite rel_err_above in L by auto. apply (Rmult_lt_compat_r c) in L; [|lra]. unfold Rdiv in L. rewrite Rmult_assoc, Rinv_l in L by lra. lra. Qed.

Lemma cone_multiplier_positive hl P K G q p a g H : 0 < G -> 0 < K -> 0 <= d_xi P -> 0 <= d_etay P -> 0 <= d_etaf P ->
  law_above small hl -> law_monotone hl ->
  yield_exceeded hl P q p a -> cone_solution hl P K G q p a g H -> 0 < g.
Proof.
  intros HG HK HX HY HF LA LM (c0 & h0 & E0 & R0) (c1 & E1 & R1).
  pose proof (LA _ _ _ E0) as P0. pose proof (LA _ _ _ E1) as P1. unfold small in P0, P1.
  apply rel_gt in R0; [|exact P0]. apply rel_lt in R1; [|exact P1].
  destruct (Rlt_dec 0 g) as [L|L]; [exact L|]. exfalso. apply Rnot_lt_le in L.
  assert (C : c1 <= c0) by (apply (LM (a + d_xi P * g) a c1 H c0 h0); auto; nra).
  apply Rabs_def2 in R1. unfold cone_residual in R1. unfold su_conv_tol in *.
  assert (A1 : G * g <= 0) by nra. assert (A2 : 0 <= K * d_etaf P * d_etay P) by (apply Rmult_le_pos; [apply Rmult_le_pos|]; lra).
  assert (A3 : K * d_etaf P * d_etay P * g <= 0) by nra. assert (A4 : 0 <= d_xi P * (c0 - c1)) by (apply Rmult_le_pos; lra).
  nra.
Qed.

(** The volumetric increment of a return to the apex can be negative only
    through the tolerance of the two iterations. *)
Lemma apex_increment_bound hl P K G q p a g Hg x Hx : 0 < G -> 0 < K -> 0 <= d_xi P -> 0 < d_etay P -> 0 < d_etaf P -> 0 <= q ->
  law_above small hl -> law_monotone hl ->
  yield_exceeded hl P q p a -> cone_solution hl P K G q p a g Hg -> q < G * g ->
  (exists c, hl (a + dp_alpha P * x) = Some (c, Hx) /\ rel_err (Rabs (apex_residual P K p x c)) c < su_conv_tol) ->
  exists c, hl (a + d_xi P * g) = Some (c, Hg) /\ - (su_conv_tol * (1 + / d_etay P) * c) < K * x.
Proof.
  intros HG HK HX HY HF HQ LA LM YE CS QG (c2 & E2 & R2).
  assert (GP : 0 < g) by (apply (cone_multiplier_positive hl P K G q p a g Hg); auto; lra).
  destruct CS as (c1 & E1 & R1). destruct YE as (c0 & h0 & E0 & _). exists c1. split; [exact E1|].
  pose proof (LA _ _ _ E1) as P1. pose proof (LA _ _ _ E2) as P2. unfold small in P1, P2.
  apply rel_lt in R1; [|exact P1]. apply rel_lt in R2; [|exact P2].
  assert (IY : 0 < / d_etay P) by (apply Rinv_0_lt_compat; auto).
  assert (TP : 0 < su_conv_tol) by (unfold su_conv_tol; lra).
  assert (BD : 0 < su_conv_tol * (1 + / d_etay P) * c1) by (apply Rmult_lt_0_compat; [apply Rmult_lt_0_compat|]; lra).
  destruct (Rlt_dec 0 x) as [L|L]; [pose proof (Rmult_lt_0_compat K x HK L); lra|]. apply Rnot_lt_le in L.
  assert (AL : 0 <= dp_alpha P) by (unfold dp_alpha, Rdiv; apply Rmult_le_pos; [lra|apply Rlt_le, Rinv_0_lt_compat; lra]).
  assert (C21 : c2 <= c1).
  { apply (LM (a + dp_alpha P * x) (a + d_xi P * g) c2 Hx c1 Hg); auto.
    assert (dp_alpha P * x <= 0) by (rewrite <- (Rmult_0_r (dp_alpha P)); apply Rmult_le_compat_l; auto).
    assert (0 <= d_xi P * g) by (apply Rmult_le_pos; lra). lra. }
  apply Rabs_def2 in R1. apply Rabs_def2 in R2. unfold cone_residual in R1. unfold apex_residual, dp_beta in R2.
  set (t := su_conv_tol) in *. set (ey := d_etay P) in *. set (xi := d_xi P) in *. set (ef := d_etaf P) in *.
  assert (KF : 0 <= K * ef * g) by (apply Rmult_le_pos; [apply Rmult_le_pos|]; lra).
  assert (B1 : xi * c1 - t * c1 < ey * p).
  { assert (0 <= ey * (K * ef * g)) by (apply Rmult_le_pos; lra). lra. }
  assert (B2 : (xi * c1 - t * c1) * / ey < p).
  { apply (Rmult_lt_reg_l ey); [auto|]. rewrite <- Rmult_assoc, (Rmult_comm ey), Rmult_assoc, Rinv_r, Rmult_1_r by lra. exact B1. }
  assert (B3 : p - c2 * (xi / ey) - t * c2 < K * x) by lra.
  assert (B4 : c2 * (xi / ey) <= c1 * (xi / ey)).
  { apply Rmult_le_compat_r; auto. unfold Rdiv. apply Rmult_le_pos; lra. }
  assert (B5 : t * c2 <= t * c1) by (apply Rmult_le_compat_l; lra).
  replace ((xi * c1 - t * c1) * / ey) with (c1 * (xi / ey) - t * / ey * c1) in B2 by (unfold Rdiv; ring).
  lra.
Qed.

Lemma bulk_positive E v : 0 < E -> v < 1 / 2 -> 0 < dp_bulk E v.
Proof. intros. unfold dp_bulk. apply Rdiv_lt_0_compat; lra. Qed.

(** Accumulated plastic strain of one update. *)
Lemma dp_core_acc E v P hl et a c a' : symmetric 3 et -> dp_core E v P hl (Some (kmf et)) (Some a) = Ok c -> dc_acc c = Some a' ->
  let q := sqrtJ2 (sig_of E v et) in let p := pressure (sig_of E v et) in
  dc_outcome c = dp_return hl P (dp_bulk E v) (lame_mu E v) q p a /\
  match dc_outcome c with
  | DElastic => a' = a | DCone x _ => a' = a + d_xi P * x | DApex x _ => a' = a + dp_alpha P * x | _ => False end.
Proof.
  intros S EC EA q p. destruct (dp_core_finish E v P hl et a S) as (de & _ & EF). rewrite EF in EC.
  destruct (dp_finish_3d E v P et de q p a (dp_return hl P (dp_bulk E v) (lame_mu E v) q p a) S) as (c' & E' & EO & D).
  unfold q, p in E'. rewrite E' in EC. injection EC as <-. split; [exact EO|]. rewrite EO.
  destruct (dp_return hl P (dp_bulk E v) (lame_mu E v) q p a); cbv zeta in D.
  - destruct D as (_ & _ & D & _). congruence.
  - destruct D as (_ & _ & D & _). congruence.
  - destruct D as (_ & _ & D & _). congruence.
  - destruct D as (_ & _ & D & _). congruence.
  - destruct D as (_ & _ & D & _). congruence.
Qed.

Theorem dp_irreversible_partial E v P hl st e eps a inc st' apex tan a' :
  0 < E -> -1 < v -> v < 1 / 2 -> 0 <= d_xi P -> 0 <= d_etay P -> 0 <= d_etaf P -> law_above (/ 100000000) hl -> law_monotone hl ->
  symmetric 3 e -> symmetric 3 inc -> vs_e st = Some (kmf e) -> vs_strain st = Some (kmf eps) -> vs_acc st = Some a ->
  dp_state_update 4 E v P hl inc st = Ok (st', apex, tan) -> vs_acc st' = Some a' ->
  (vs_plast st' = false /\ a' = a) \/
  (vs_plast st' = true /\ apex = false /\ a <= a' /\ (0 < d_xi P -> a < a')) \/
  (vs_plast st' = true /\ apex = true /\ 0 < d_etay P /\ 0 < d_etaf P /\
   exists b c h, a <= b /\ hl b = Some (c, h) /\
     - (d_xi P / d_etaf P * (/ 1000000 * (1 + / d_etay P) * c / dp_bulk E v)) <= a' - a).
Proof.
  intros HE Hv1 Hv2 HX HY HF LA LM Se Si E1 E2 E3 U EA.
  set (et := fun i j => e i j + inc i j).
  assert (St : symmetric 3 et) by (intros i j Hi Hj; unfold et; rewrite (Se i j), (Si i j) by auto; auto).
  pose proof (bulk_positive E v HE Hv2) as KP. pose proof (shear_positive E v HE Hv1) as GP.
  unfold dp_state_update in U. cbn [get_problem_type_parameters rbind Nat.eqb] in U. rewrite mf2_3d in U. cbn [rbind] in U.
  rewrite E1, E3 in U. cbn [omap] in U. rewrite kmf_add in U. fold et in U.
  destruct (dp_core E v P hl (Some (kmf et)) (Some a)) as [c|] eqn:EC; [|discriminate]. cbn [rbind] in U.
  injection U as <- <- <-. cbn [vs_acc vs_plast] in *.
  destruct (dp_core_acc E v P hl et a c a' St EC EA) as (EO & D). cbv zeta in EO.
  set (q := sqrtJ2 (sig_of E v et)) in *. set (p := pressure (sig_of E v et)) in *.
  pose proof (dp_return_spec hl P (dp_bulk E v) (lame_mu E v) q p a) as RS. rewrite <- EO in RS.
  destruct (dc_outcome c) as [|x H|x H| |]; cbn [dp_is_plast dp_is_apex]; try contradiction.
  - left. auto.
  - right. left. destruct RS as (YE & CS & Q).
    pose proof (cone_multiplier_positive hl P _ _ q p a x H GP KP HX HY HF LA LM YE CS) as XP.
    split; [reflexivity|]. split; [reflexivity|]. rewrite D. split; [pose proof (Rmult_le_pos _ _ HX (Rlt_le _ _ XP)); lra|].
    intros X. pose proof (Rmult_lt_0_compat _ _ X XP). lra.
  - right. right. destruct RS as (YE & (g & Hg & CS & QG) & F1 & F2 & AP).
    assert (HY' : 0 < d_etay P) by lra. assert (HF' : 0 < d_etaf P) by lra.
    pose proof (cone_multiplier_positive hl P _ _ q p a g Hg GP KP HX HY HF LA LM YE CS) as XP.
    destruct (apex_increment_bound hl P _ _ q p a g Hg x H GP KP HX HY' HF' (sqrtJ2_nonneg _) LA LM YE CS QG AP) as (c1 & Ec & B).
    split; [reflexivity|]. split; [reflexivity|]. split; [exact HY'|]. split; [exact HF'|].
    exists (a + d_xi P * g), c1, Hg. split; [pose proof (Rmult_le_pos _ _ HX (Rlt_le _ _ XP)); lra|]. split; [exact Ec|].
    rewrite D. unfold dp_alpha.
    assert (AL : 0 <= d_xi P / d_etaf P) by (unfold Rdiv; apply Rmult_le_pos; [lra|apply Rlt_le, Rinv_0_lt_compat; lra]).
    assert (B' : - (/ 1000000 * (1 + / d_etay P) * c1 / dp_bulk E v) < x).
    { apply (Rmult_lt_reg_l (dp_bulk E v)); [exact KP|]. unfold su_conv_tol in B.
      replace (dp_bulk E v * - (/ 1000000 * (1 + / d_etay P) * c1 / dp_bulk E v)) with (- (/ 1000000 * (1 + / d_etay P) * c1)); [exact B|].
      field. split; lra. }
    set (y := / 1000000 * (1 + / d_etay P) * c1 / dp_bulk E v) in *.
    pose proof (Rmult_le_compat_l _ _ _ AL (Rlt_le _ _ B')). lra.
Qed.

(** ** Linear hardening: closed form *)
Section Linear.
  Variables (P : dp_params) (K G s0 h a : R).
  Hypotheses (HG : 0 < G) (HK : 0 < K) (HX : 0 <= d_xi P) (HY : 0 <= d_etay P) (HF : 0 <= d_etaf P) (S0 : small <= s0) (H0 : 0 <= h) (A0 : 0 <= a).
  Let c0 := s0 + h * a.
  Let D := G + K * d_etaf P * d_etay P + d_xi P ^ 2 * h.
  Let DA := K + dp_alpha P * dp_beta P * h.

  Lemma lin_D : G <= D.
  Proof. unfold D. assert (0 <= K * d_etaf P * d_etay P) by (apply Rmult_le_pos; [apply Rmult_le_pos|]; lra).
    assert (0 <= d_xi P ^ 2 * h) by (apply Rmult_le_pos; [nra|lra]). lra. Qed.
  Lemma lin_cohesion x : 0 <= x -> linear_law s0 h (a + x) = Some (c0 + h * x, Fin h) /\ small <= c0 + h * x.
  Proof. intros X. unfold linear_law, c0. rewrite relu_pos by lra. split; [f_equal; f_equal; ring|].
    assert (0 <= h * a) by (apply Rmult_le_pos; lra). assert (0 <= h * x) by (apply Rmult_le_pos; lra). lra. Qed.
  Lemma lin_c0 : small <= c0.
  Proof. destruct (lin_cohesion 0 (Rle_refl 0)) as [_ L]. lra. Qed.
  Lemma scaled_zero c : rltb (Rabs (dp_scaled 0 c)) su_conv_tol = true.
  Proof. apply rltb_iff. unfold dp_scaled, Rdiv. rewrite Rmult_0_l. destruct (rltb _ _); rewrite Rabs_R0; unfold su_conv_tol; lra. Qed.

  Theorem dp_return_linear q p : let f := q + d_etay P * p - d_xi P * c0 in
    (f <= su_conv_tol * c0 -> dp_return (linear_law s0 h) P K G q p a = DElastic) /\
    (su_conv_tol * c0 < f -> G * (f / D) <= q -> dp_return (linear_law s0 h) P K G q p a = DCone (f / D) (Fin h)) /\
    (su_conv_tol * c0 < f -> q < G * (f / D) -> d_etaf P <> 0 -> d_etay P <> 0 -> 0 <= q ->
      let x := (p - dp_beta P * c0) / DA in
      dp_return (linear_law s0 h) P K G q p a = DApex x (Fin h) /\ 0 < x) /\
    (su_conv_tol * c0 < f -> q < G * (f / D) -> d_etaf P = 0 \/ d_etay P = 0 ->
      dp_return (linear_law s0 h) P K G q p a = DApexFailed).
  Proof.
    intros f. pose proof lin_D as LD. pose proof lin_c0 as C0.
    assert (SM : 0 < small) by (unfold small; lra). assert (TP : 0 < su_conv_tol) by (unfold su_conv_tol; lra).
    destruct (lin_cohesion 0 (Rle_refl 0)) as [L0 _]. rewrite Rplus_0_r, Rmult_0_r, Rplus_0_r in L0.
    assert (CB : rltb (Rabs c0) small = false) by (apply rleb_false_lt || (destruct (rltb (Rabs c0) small) eqn:B; auto; apply rltb_iff in B; rewrite Rabs_right in B by lra; lra)).
    assert (CN : rleb (f / Rabs c0) su_conv_tol = true <-> f <= su_conv_tol * c0).
    { rewrite rleb_iff, Rabs_right by lra. split; intros L.
      - apply (Rmult_le_compat_r c0) in L; [|lra]. unfold Rdiv in L. rewrite Rmult_assoc, Rinv_l in L by lra. lra.
      - apply (Rmult_le_reg_r c0); [lra|]. unfold Rdiv. rewrite Rmult_assoc, Rinv_l by lra. lra. }
    assert (X0 : a + d_xi P * 0 = a) by ring. assert (X1 : a + dp_alpha P * 0 = a) by ring.
    assert (CONE : su_conv_tol * c0 < f -> cone_newton (linear_law s0 h) P K G q p a su_max_n_iterations true 0 f (Fin h) = Some (f / D, Fin h)).
    { intros FP. assert (F0 : 0 < f) by (apply Rlt_trans with (su_conv_tol * c0); [apply Rmult_lt_0_compat; lra|auto]).
      assert (GP : 0 <= f / D) by (apply Rlt_le, Rdiv_lt_0_compat; lra).
      destruct (lin_cohesion (d_xi P * (f / D)) (Rmult_le_pos _ _ HX GP)) as [L1 _].
      assert (CC : forall r, cone_correction P K G r (Fin h) = Some (r / D)).
      { intros r. unfold cone_correction. destruct (Req_EM_T _ _) as [Z|Z]; [exfalso; unfold D in LD; lra|]. f_equal. unfold D. field. unfold D in LD. lra. }
      unfold su_max_n_iterations. cbn [cone_newton]. rewrite !CC, Rplus_0_l, L1.
      assert (R0 : cone_residual P K G q p (f / D) (c0 + h * (d_xi P * (f / D))) = 0).
      { unfold cone_residual. transitivity (f - D * (f / D)); [unfold f, D; ring|]. field. lra. }
      rewrite R0, scaled_zero. cbn [negb andb]. rewrite CC.
      replace (f / D + 0 / D) with (f / D) by (unfold Rdiv; ring). rewrite L1, R0, scaled_zero. reflexivity. }
    unfold dp_return. rewrite X0, X1, L0, CB. fold f. split; [|split; [|split]].
    - intros L. rewrite (proj2 CN L). reflexivity.
    - intros L Q. destruct (rleb (f / Rabs c0) su_conv_tol) eqn:B; [apply proj1 in CN; specialize (CN eq_refl); lra|]. rewrite CONE by auto.
      rewrite (proj2 (rleb_iff 0 (q - G * (f / D)))); [reflexivity|lra].
    - intros L Q NF NY QP. cbv zeta. set (x := (p - dp_beta P * c0) / DA). destruct (rleb (f / Rabs c0) su_conv_tol) eqn:B; [apply proj1 in CN; specialize (CN eq_refl); lra|]. rewrite CONE by auto.
      destruct (rleb 0 (q - G * (f / D))) eqn:B2; [apply rleb_iff in B2; lra|].
      destruct (Req_EM_T (d_etaf P) 0); [contradiction|]. destruct (Req_EM_T (d_etay P) 0); [contradiction|]. cbn [orb].
      assert (AL : 0 <= dp_alpha P) by (unfold dp_alpha, Rdiv; apply Rmult_le_pos; [lra|apply Rlt_le, Rinv_0_lt_compat; lra]).
      assert (BE : 0 <= dp_beta P) by (unfold dp_beta, Rdiv; apply Rmult_le_pos; [lra|apply Rlt_le, Rinv_0_lt_compat; lra]).
      assert (LA : 0 < DA) by (unfold DA; pose proof (Rmult_le_pos _ _ (Rmult_le_pos _ _ AL BE) H0); lra).
      assert (F0 : 0 < f) by (apply Rlt_trans with (su_conv_tol * c0); [apply Rmult_lt_0_compat; lra|auto]).
      assert (GP : 0 < f / D) by (apply Rdiv_lt_0_compat; lra).
      assert (XP : 0 < x).
      { unfold x. apply Rdiv_lt_0_compat; [|exact LA].
        assert (DE : D * (f / D) = f) by (field; lra).
        assert (E1 : d_xi P * c0 < d_etay P * p).
        { assert (G * (f / D) <= D * (f / D)) by (apply Rmult_le_compat_r; lra). unfold f in DE at 2. lra. }
        unfold dp_beta. apply (Rmult_lt_reg_l (d_etay P)); [lra|].
        replace (d_etay P * (p - d_xi P / d_etay P * c0)) with (d_etay P * p - d_xi P * c0) by (field; auto). lra. }
      split; [|exact XP].
      destruct (lin_cohesion (dp_alpha P * x) (Rmult_le_pos _ _ AL (Rlt_le _ _ XP))) as [L1 _].
      assert (CC : forall r, apex_correction P K r (Fin h) = Some (- r / DA)).
      { intros r. unfold apex_correction. destruct (Req_EM_T _ _) as [Z|Z]; [exfalso; unfold DA in LA; lra|]. f_equal. unfold DA. f_equal. ring. }
      unfold su_max_n_iterations. cbn [dp_apex_newton]. rewrite !CC.
      replace (0 + - (c0 * dp_beta P - p) / DA) with x by (unfold x, Rdiv; ring). rewrite L1.
      assert (R0 : apex_residual P K p x (c0 + h * (dp_alpha P * x)) = 0).
      { unfold apex_residual. transitivity (dp_beta P * c0 - p + DA * x); [unfold DA; ring|]. unfold x. field. lra. }
      rewrite R0, scaled_zero. cbn [negb andb]. rewrite CC.
      replace (x + - 0 / DA) with x by (unfold Rdiv; ring). rewrite L1, R0, scaled_zero. reflexivity.
    - intros L Q NZ. destruct (rleb (f / Rabs c0) su_conv_tol) eqn:B; [apply proj1 in CN; specialize (CN eq_refl); lra|]. rewrite CONE by auto.
      destruct (rleb 0 (q - G * (f / D))) eqn:B2; [apply rleb_iff in B2; lra|].
      destruct (Req_EM_T (d_etaf P) 0); [reflexivity|]. destruct (Req_EM_T (d_etay P) 0); [reflexivity|tauto].
  Qed.
End Linear.

(** With linear hardening and strictly positive pressure parameters the update
    succeeds for every increment, and the accumulated plastic strain never
    decreases (strictly increases in a plastic step if the cohesion parameter
    is positive). *)
Theorem dp_linear_never_fails E v P s0 h st e eps a inc :
  0 < E -> -1 < v -> v < 1 / 2 -> 0 <= d_xi P -> 0 < d_etay P -> 0 < d_etaf P -> / 100000000 <= s0 -> 0 <= h -> 0 <= a ->
  symmetric 3 e -> symmetric 3 inc -> vs_e st = Some (kmf e) -> vs_strain st = Some (kmf eps) -> vs_acc st = Some a ->
  exists st' apex m a', dp_state_update 4 E v P (linear_law s0 h) inc st = Ok (st', apex, Some m) /\ vs_fail st' = false /\
    vs_acc st' = Some a' /\ a <= a' /\ (vs_plast st' = true -> 0 < d_xi P -> a < a').
Proof.
  intros HE Hv1 Hv2 HX HY HF S0 H0 A0 Se Si E1 E2 E3.
  set (et := fun i j => e i j + inc i j).
  assert (St : symmetric 3 et) by (intros i j Hi Hj; unfold et; rewrite (Se i j), (Si i j) by auto; auto).
  pose proof (bulk_positive E v HE Hv2) as KP. pose proof (shear_positive E v HE Hv1) as GP.
  unfold dp_state_update. cbn [get_problem_type_parameters rbind Nat.eqb]. rewrite mf2_3d. cbn [rbind].
  rewrite E1, E3. cbn [omap]. rewrite kmf_add. fold et.
  destruct (dp_core_good E v P (linear_law s0 h) et a) as (c & EC & D); auto; try lra. rewrite EC. cbn [rbind].
  set (q := sqrtJ2 (sig_of E v et)). set (p := pressure (sig_of E v et)).
  set (f := q + d_etay P * p - d_xi P * (s0 + h * a)).
  set (DD := lame_mu E v + dp_bulk E v * d_etaf P * d_etay P + d_xi P ^ 2 * h).
  pose proof (dp_return_linear P (dp_bulk E v) (lame_mu E v) s0 h a GP KP HX (Rlt_le _ _ HY) (Rlt_le _ _ HF) S0 H0 A0 q p) as (R1 & R2 & R3 & _).
  fold f in R1, R2, R3. fold DD in R2, R3.
  assert (LD : lame_mu E v <= DD) by (apply lin_D; lra).
  assert (C0 : / 100000000 <= s0 + h * a) by (pose proof (Rmult_le_pos h a H0 A0); lra).
  assert (NFL : dp_is_fail (dp_return (linear_law s0 h) P (dp_bulk E v) (lame_mu E v) q p a) = false /\
    match dp_return (linear_law s0 h) P (dp_bulk E v) (lame_mu E v) q p a with DCone x _ => 0 < x | DApex x _ => 0 < x | _ => True end).
  { destruct (Rle_lt_dec f (su_conv_tol * (s0 + h * a))) as [L|L].
    - rewrite R1 by auto. auto.
    - assert (FP : 0 < f) by (unfold su_conv_tol in L; lra).
      destruct (Rle_lt_dec (lame_mu E v * (f / DD)) q) as [M|M].
      + rewrite R2 by auto. split; [reflexivity|]. apply Rdiv_lt_0_compat; lra.
      + destruct R3 as (R3 & XP); auto; try lra. { apply sqrtJ2_nonneg. } rewrite R3. auto. }
  destruct NFL as (NF & XP).
  destruct D as [(F & _)|(e' & a' & F & Sy & D1 & D2 & D3 & (m & D4 & _) & GS)].
  - exfalso. destruct (dp_core_finish E v P (linear_law s0 h) et a St) as (de & _ & EF). rewrite EF in EC.
    destruct (dp_finish_3d E v P et de q p a (dp_return (linear_law s0 h) P (dp_bulk E v) (lame_mu E v) q p a) St) as (c' & E' & EO & _).
    unfold q, p in E'. rewrite E' in EC. injection EC as <-. rewrite EO in F. congruence.
  - destruct (dp_core_acc E v P (linear_law s0 h) et a c a' St EC D3) as (EO & DA). cbv zeta in EO. fold q p in EO. rewrite <- EO in XP.
    rewrite D4. do 4 eexists. split; [reflexivity|]. cbn [vs_fail vs_acc vs_plast]. split; [exact F|]. split; [exact D3|].
    destruct (dc_outcome c) as [|x H|x H| |]; cbn [dp_is_plast]; try contradiction.
    + split; [lra|discriminate].
    + rewrite DA. split; [pose proof (Rmult_le_pos _ _ HX (Rlt_le _ _ XP)); lra|]. intros _ X. pose proof (Rmult_lt_0_compat _ _ X XP). lra.
    + assert (AL : 0 <= dp_alpha P) by (unfold dp_alpha, Rdiv; apply Rmult_le_pos; [lra|apply Rlt_le, Rinv_0_lt_compat; lra]).
      rewrite DA. split; [pose proof (Rmult_le_pos _ _ AL (Rlt_le _ _ XP)); lra|]. intros _ X.
      assert (AL' : 0 < dp_alpha P) by (unfold dp_alpha; apply Rdiv_lt_0_compat; lra).
      pose proof (Rmult_lt_0_compat _ _ AL' XP). lra.
Qed.

(** Without dilatancy (flow pressure parameter zero) every state beyond the
    apex makes the update fail, although the isochoric flow rule is a usual
    choice. *)
Theorem dp_isochoric_apex_fails E v P s0 h st e eps a inc :
  0 < E -> -1 < v -> v < 1 / 2 -> 0 <= d_xi P -> 0 <= d_etay P -> d_etaf P = 0 -> / 100000000 <= s0 -> 0 <= h -> 0 <= a ->
  symmetric 3 e -> symmetric 3 inc -> vs_e st = Some (kmf e) -> vs_strain st = Some (kmf eps) -> vs_acc st = Some a ->
  let sig := sig_of E v (fun i j => e i j + inc i j) in let y := dp_yield (d_xi P) (d_etay P) sig (s0 + h * a) in
  / 1000000 * (s0 + h * a) < y -> sqrtJ2 sig < lame_mu E v * (y / (lame_mu E v + d_xi P ^ 2 * h)) ->
  exists st', dp_state_update 4 E v P (linear_law s0 h) inc st = Ok (st', true, None) /\ vs_fail st' = true /\ vs_stress st' = None.
Proof.
  intros HE Hv1 Hv2 HX HY HF S0 H0 A0 Se Si E1 E2 E3 sig y L1 L2.
  set (et := fun i j => e i j + inc i j) in *.
  assert (St : symmetric 3 et) by (intros i j Hi Hj; unfold et; rewrite (Se i j), (Si i j) by auto; auto).
  pose proof (bulk_positive E v HE Hv2) as KP. pose proof (shear_positive E v HE Hv1) as GP.
  unfold dp_state_update. cbn [get_problem_type_parameters rbind Nat.eqb]. rewrite mf2_3d. cbn [rbind].
  rewrite E1, E3. cbn [omap]. rewrite kmf_add. fold et.
  destruct (dp_core_finish E v P (linear_law s0 h) et a St) as (de & _ & EF). rewrite EF. fold sig.
  set (q := sqrtJ2 sig) in *. set (p := pressure sig).
  set (K := dp_bulk E v) in *. set (G := lame_mu E v) in *.
  assert (R : dp_return (linear_law s0 h) P K G q p a = DApexFailed).
  { apply (dp_return_linear P K G s0 h a GP KP HX HY (Req_le _ _ (eq_sym HF)) S0 H0 A0 q p); auto.
    replace (G + K * d_etaf P * d_etay P + d_xi P ^ 2 * h) with (G + d_xi P ^ 2 * h) by (rewrite HF; ring). exact L2. }
  destruct (dp_finish_3d E v P et de q p a (dp_return (linear_law s0 h) P K G q p a) St) as (c' & E' & EO & D).
  fold sig in E'. rewrite E'. cbn [rbind]. rewrite R in *. destruct D as (D1 & D2 & D3 & D4).
  rewrite EO, D4, D2. eexists. split; [reflexivity|]. auto.
Qed.

(** ** Witnesses *)
Definition dp_example : dp_params := DP 1 (1/2) (1/2).
Definition dp_fresh : vm_state := VState (Some (kmf zero2)) (Some (kmf zero2)) (Some (kmf zero2)) (Some 0) false false (Some 0) (Some 0).
(** shear: return to the cone; hydrostatic tension: return to the apex;
    hydrostatic compression: elastic *)
Example dp_return_examples :
  dp_return (linear_law 1 0) dp_example (2/3) 1 2 0 0 = DCone (6/7) (Fin 0) /\
  dp_return (linear_law 1 0) dp_example (2/3) 1 0 4 0 = DApex 3 (Fin 0) /\
  dp_return (linear_law 1 0) dp_example (2/3) 1 0 (-4) 0 = DElastic.
Proof.
  assert (SM : small <= 1) by (unfold small; lra).
  split; [|split].
  - destruct (dp_return_linear dp_example (2/3) 1 1 0 0) with (q := 2) (p := 0) as (_ & R & _); cbn [d_xi d_etay d_etaf dp_example] in *; try lra.
    rewrite R; [f_equal; field|unfold su_conv_tol; lra|lra].
  - destruct (dp_return_linear dp_example (2/3) 1 1 0 0) with (q := 0) (p := 4) as (_ & _ & R & _); cbn [d_xi d_etay d_etaf dp_example] in *; try lra.
    destruct R as [R _]; try (unfold su_conv_tol; lra). rewrite R. unfold dp_beta, dp_alpha. cbn [d_xi d_etay d_etaf dp_example]. f_equal. field.
  - destruct (dp_return_linear dp_example (2/3) 1 1 0 0) with (q := 0) (p := -4) as (R & _); cbn [d_xi d_etay d_etaf dp_example] in *; try lra.
    apply R. unfold su_conv_tol. lra.
Qed.
Example dp_example_update inc : symmetric 3 inc -> exists st' apex m a',
  dp_state_update 4 2 0 dp_example (linear_law 1 1) inc dp_fresh = Ok (st', apex, Some m) /\ vs_fail st' = false /\
  vs_acc st' = Some a' /\ 0 <= a' /\ (vs_plast st' = true -> 0 < d_xi dp_example -> 0 < a').
Proof.
  intros S. apply (dp_linear_never_fails 2 0 dp_example 1 1 dp_fresh zero2 zero2 0 inc); try reflexivity; try (cbn; lra); auto.
  intros i j _ _. reflexivity.
Qed.

Print Assumptions dp_step_3d.
Print Assumptions dp_plane_strain.
Print Assumptions dp_failure_persists.
Print Assumptions dp_irreversible_partial.
Print Assumptions dp_return_linear.
Print Assumptions dp_linear_never_fails.
Print Assumptions dp_isochoric_apex_fails.
