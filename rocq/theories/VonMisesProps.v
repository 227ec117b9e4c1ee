(** Theorems about the von Mises material. *)
From Coq Require Import Reals List Arith Bool Lia Lra Psatz.
From Verif Require Import Lib MatrixModel MatrixSpec TensorModel TensorSpec HardeningModel HardeningSpec
  HardeningProps ElasticModel ElasticSpec ElasticProofs VonMisesModel VonMisesSpec VonMisesProofs.
Import ListNotations.
Local Open Scope R_scope.

(** Every vector of six components is the matricial form of a symmetric tensor. *)
Lemma list6_kmf (l : list R) : length l = 6%nat -> exists e, symmetric 3 e /\ l = kmf e.
Proof.
  intros H. destruct l as [|a [|b [|c [|d [|f [|g [|h l]]]]]]]; try discriminate.
  exists (fun i j => match i, j with
    | O, O => a | 1%nat, 1%nat => b | 2%nat, 2%nat => c
    | O, 1%nat | 1%nat, O => d / sqrt 2 | 1%nat, 2%nat | 2%nat, 1%nat => f / sqrt 2 | _, _ => g / sqrt 2 end).
  split.
  - intros i j Hi Hj. destruct i as [|[|[|i]]]; destruct j as [|[|[|j]]]; try lia; reflexivity.
  - unfold kmf. pose proof sqrt2_neq. list_eq; field; auto.
Qed.

Lemma shear_positive E v : 0 < E -> -1 < v -> 0 < lame_mu E v.
Proof. intros. unfold lame_mu. apply Rdiv_lt_0_compat; lra. Qed.

Lemma mf4_length t m : vget_tensor_mf4 t 3 order_sym_3d true = Ok m -> length m = 6%nat.
Proof. intros H. inversion H. reflexivity. Qed.

(** The outcome of the core is an admissible step or a flagged failure. *)
Lemma core_admissible E v hl et a ymin :
  0 < E -> -1 < v -> symmetric 3 et -> 2 * small <= ymin -> law_above ymin hl -> law_monotone hl ->
  exists c, vm_core E v hl (Some (kmf et)) (Some a) = Ok c /\
    ((vc_outcome c = OFailed /\ vc_e c = None /\ vc_stress c = None /\ vc_acc c = None /\ vc_tangent c = None)
     \/ exists e' a', is_failed (vc_outcome c) = false /\
         vc_e c = Some (kmf e') /\ vc_acc c = Some a' /\ vc_stress c = Some (kmf (sig_of E v e')) /\
         (exists m, vc_tangent c = Some m /\ length m = 6%nat) /\
         admissible_step (sig_of E v) hl su_conv_tol et a (is_plastic (vc_outcome c)) e' a').
Proof.
  intros HE Hv S YM LA LM. pose proof (shear_positive E v HE Hv) as GP.
  assert (SM : 0 < small) by (unfold small; lra).
  assert (TP : 0 < su_conv_tol) by (unfold su_conv_tol; lra).
  destruct (core_3d E v hl et a S) as (c & EC & EO & D). exists c. split; [exact EC|].
  destruct (vc_outcome c) as [|x H|] eqn:OC.
  - right. exists et, a. destruct D as (D1 & D2 & D3 & D4).
    destruct (return_mapping_elastic _ _ _ _ (eq_sym EO)) as (y & h & Ey & NZ & V).
    pose proof (LA _ _ _ Ey) as Py.
    split; [reflexivity|]. split; [exact D1|]. split; [exact D3|]. split; [exact D2|].
    split; [eexists; split; [exact D4|reflexivity]|].
    unfold admissible_step. split; [exact S|]. split; [reflexivity|]. split; [|split; [|split; [|split; [|split]]]].
    + exists 0. split; [lra|]. intros i j _ _. ring.
    + rewrite (tnorm_ext _ (fun i j => 0 * et i j)) by (intros i j _ _; ring).
      rewrite tnorm_scale, Rabs_R0. ring.
    + lra.
    + intros _. split; [reflexivity|]. intros i j _ _. reflexivity.
    + discriminate.
    + exists y, h. split; [exact Ey|]. split; [apply V; lra|discriminate].
  - right. exists (corrected E v et x), (a + x). destruct D as (D1 & D2 & D3 & m & t4 & ft & D4 & D5 & _).
    destruct (return_mapping_plastic _ _ _ _ _ _ (eq_sym EO)) as (y0 & h0 & y & E0 & V & E1 & NZ & C).
    pose proof (LA _ _ _ E0) as P0. pose proof (LA _ _ _ E1) as Py.
    assert (LA0 : law_above 0 hl) by (intros b z g B; pose proof (LA _ _ _ B); lra).
    assert (XP : 0 < x).
    { apply (multiplier_positive hl (lame_mu E v) (vmises (sig_of E v et)) a x H); auto; [lra|].
      intros z g B. pose proof (LA _ _ _ B). lra. }
    specialize (V ltac:(lra)).
    assert (N : small < tnorm (deviator3 (sig_of E v et))).
    { rewrite vmises_norm in V. pose proof sqrt32_pos. pose proof sqrt32_lt2. nra. }
    split; [reflexivity|]. split; [exact D1|]. split; [exact D3|]. split; [exact D2|].
    split; [exists m; split; [exact D4|apply (mf4_length _ _ D5)]|].
    unfold admissible_step. split; [apply corrected_symmetric; auto|]. split; [apply corrected_trace|].
    rewrite (Rabs_right y) in C by lra.
    assert (CV : vmises (sig_of E v (corrected E v et x)) = vmises (sig_of E v et) - 3 * lame_mu E v * x).
    { rewrite corrected_vmises by auto. apply Rabs_right. apply Rabs_def2 in C. unfold su_conv_tol in *. lra. }
    split; [|split; [|split; [|split; [|split]]]].
    + exists (x * flow_factor (deviator3 (sig_of E v et))). split.
      * apply Rmult_le_pos; [lra|]. unfold flow_factor. pose proof sqrt32_pos.
        apply Rmult_le_pos; [lra|]. destruct (rltb _ _); [|lra].
        apply Rmult_le_pos; [lra|]. left. apply Rinv_0_lt_compat. lra.
      * intros i j _ _. unfold corrected. ring.
    + rewrite corrected_plastic_norm by (auto; lra). ring.
    + lra.
    + discriminate.
    + intros _. lra.
    + exists y, H. split; [exact E1|]. rewrite CV. split.
      * apply Rabs_def2 in C. lra.
      * intros _. exact C.
  - left. destruct D as (D1 & D2 & D3 & D4). auto.
Qed.

(** ** One update, three dimensions *)
(** Partial: yield stresses below [2 * small] = 2e-8 are excluded; there the
    claim is false ([tiny_yield_stress_refuted]). *)
Theorem vm_step_3d_partial E v hl ymin st e eps a inc :
  0 < E -> -1 < v -> 2 * small <= ymin -> law_above ymin hl -> law_monotone hl ->
  symmetric 3 e -> symmetric 3 inc ->
  vs_e st = Some (kmf e) -> vs_strain st = Some (kmf eps) -> vs_acc st = Some a ->
  let et : T2 := fun i j => e i j + inc i j in
  exists st' tan, vm_state_update 4 E v hl inc st = Ok (st', tan) /\
    vs_strain st' = Some (kmf (fun i j => eps i j + inc i j)) /\
    ((vs_fail st' = true /\ vs_e st' = None /\ vs_stress st' = None /\ vs_acc st' = None /\ tan = None)
     \/ exists e' a', vs_fail st' = false /\ vs_e st' = Some (kmf e') /\ vs_acc st' = Some a' /\
          vs_stress st' = Some (kmf (hooke (lame_lambda E v) (lame_mu E v) e')) /\ tan <> None /\
          admissible_step (hooke (lame_lambda E v) (lame_mu E v)) hl (/ 1000000) et a (vs_plast st') e' a').
Proof.
  intros HE Hv YM LA LM Se Si E1 E2 E3 et.
  assert (St : symmetric 3 et) by (intros i j Hi Hj; unfold et; rewrite (Se i j), (Si i j) by auto; auto).
  unfold vm_state_update. cbn [get_problem_type_parameters rbind Nat.eqb]. rewrite mf2_3d. cbn [rbind].
  rewrite E1, E2, E3. cbn [omap omap2]. rewrite kmf_add, kmf_sub, kmf_add. fold et.
  destruct (core_admissible E v hl et a ymin) as (c & EC & D); auto. rewrite EC. cbn [rbind].
  eexists. eexists. split; [reflexivity|]. cbn [vs_strain vs_fail vs_e vs_stress vs_acc vs_plast].
  split.
  { f_equal. apply kmf_ext. intros i j _ _. unfold et. ring. }
  destruct D as [(O & D1 & D2 & D3 & D4)|(e' & a' & F & D1 & D3 & D2 & (m & D4 & _) & AD)].
  - left. rewrite O. auto.
  - right. exists e', a'. rewrite D4. repeat (split; [assumption || congruence|]). exact AD.
Qed.

(** ** One update, plane strain *)
Definition embed (e : T2) (z : R) : T2 := fun i j =>
  match i, j with
  | O, O => e O O | O, 1%nat => e O 1%nat | 1%nat, O => e 1%nat O | 1%nat, 1%nat => e 1%nat 1%nat
  | 2%nat, 2%nat => z | _, _ => 0
  end.
Lemma embed_kmf e z : [e O O; e 1%nat 1%nat; z; sqrt 2 * e O 1%nat; 0; 0] = kmf (embed e z).
Proof. unfold kmf, embed. list_eq; ring. Qed.

Theorem vm_step_2d_partial E v hl ymin st e z eps a inc :
  0 < E -> -1 < v -> 2 * small <= ymin -> law_above ymin hl -> law_monotone hl ->
  symmetric 2 e -> symmetric 2 inc ->
  vs_e st = Some (kmf2 e) -> vs_e33 st = Some z -> vs_strain st = Some (kmf2 eps) -> vs_acc st = Some a ->
  let et : T2 := fun i j => embed e z i j + embed inc 0 i j in
  exists st' tan, vm_state_update 1 E v hl inc st = Ok (st', tan) /\
    vs_strain st' = Some (kmf2 (fun i j => eps i j + inc i j)) /\
    ((vs_fail st' = true /\ vs_e st' = None /\ vs_e33 st' = None /\ vs_stress st' = None /\
      vs_s33 st' = None /\ vs_acc st' = None /\ tan = None)
     \/ exists e' a', let sig := hooke (lame_lambda E v) (lame_mu E v) e' in
          vs_fail st' = false /\ vs_e st' = Some (kmf2 e') /\ vs_e33 st' = Some (e' 2%nat 2%nat) /\
          vs_acc st' = Some a' /\ vs_stress st' = Some (kmf2 sig) /\ vs_s33 st' = Some (sig 2%nat 2%nat) /\
          tan <> None /\
          admissible_step (hooke (lame_lambda E v) (lame_mu E v)) hl (/ 1000000) et a (vs_plast st') e' a').
Proof.
  intros HE Hv YM LA LM Se Si E1 E1z E2 E3 et.
  assert (St : symmetric 3 et).
  { intros i j Hi Hj. unfold et, embed. pose proof (Se 0 1 ltac:(lia) ltac:(lia))%nat as S1.
    pose proof (Si 0 1 ltac:(lia) ltac:(lia))%nat as S2.
    destruct i as [|[|[|i]]]; destruct j as [|[|[|j]]]; try lia; rewrite ?S1, ?S2; reflexivity. }
  unfold vm_state_update. cbn [get_problem_type_parameters rbind Nat.eqb]. rewrite mf2_2d. cbn [rbind].
  rewrite E1, E1z, E2, E3. cbn [omap omap2 lift_res]. unfold kmf2 at 1 2.
  rewrite !to3d. cbn [rbind lift_res omap].
  rewrite !embed_kmf, kmf_add. fold et.
  destruct (core_admissible E v hl et a ymin) as (c & EC & D); auto. rewrite EC. cbn [rbind].
  unfold kmf at 1. rewrite to2d. cbn [lift_res rbind].
  assert (SS : vadd [et 0%nat 0%nat; et 1%nat 1%nat; sqrt 2 * et 0%nat 1%nat] (vsub (kmf2 eps) (kmf2 e))
     = kmf2 (fun i j => eps i j + inc i j)).
  { unfold kmf2, vadd, vsub, et, embed. simpl. list_eq; ring. }
  destruct D as [(O & D1 & D2 & D3 & D4)|(e' & a' & F & D1 & D3 & D2 & (tm & D4 & L6) & AD)].
  - rewrite D1, D2, D3, D4. cbn [omap lift_res rbind omap2]. eexists. eexists. split; [reflexivity|].
    cbn [vs_strain vs_fail vs_e vs_stress vs_acc vs_plast vs_e33 vs_s33]. rewrite SS. split; [reflexivity|].
    left. rewrite O. auto 10.
  - rewrite D1, D2, D3, D4. cbn [omap omap2]. unfold kmf at 1 2. rewrite !to2d. cbn [lift_res rbind].
    unfold vget_state_2Dmf_from_3Dmf_mat. rewrite L6. cbn [Nat.eqb pick_orders].
    replace (Nat.ltb 6 (length order_sym_3d)) with false by reflexivity. cbn [lift_res rbind].
    eexists. eexists. split; [reflexivity|].
    cbn [vs_strain vs_fail vs_e vs_stress vs_acc vs_plast vs_e33 vs_s33]. rewrite SS. split; [reflexivity|].
    right. exists e', a'. cbv zeta. split; [exact F|].
    split; [reflexivity|]. split; [reflexivity|]. split; [reflexivity|]. split; [reflexivity|].
    split; [reflexivity|]. split; [congruence|]. exact AD.
Qed.

(** ** Failure *)
(** A failed state stays failed, with undefined stress. *)
Theorem vm_failure_persists E v hl st inc pt : (pt = 1 \/ pt = 4)%nat ->
  vs_e st = None -> exists st' tan, vm_state_update pt E v hl inc st = Ok (st', tan) /\
    vs_fail st' = true /\ vs_e st' = None /\ vs_stress st' = None /\ vs_acc st' = None /\
    vs_strain st' = None /\ tan = None.
Proof.
  intros [->| ->] N; unfold vm_state_update; cbn [get_problem_type_parameters rbind Nat.eqb];
    rewrite ?mf2_2d, ?mf2_3d; cbn [rbind]; unfold kmf2; rewrite ?to3d; cbn [rbind]; rewrite N;
    cbn [omap omap2 lift_res rbind]; unfold vm_core; rewrite devproj_mf, iso_tangent_mf; cbn [rbind omap lift_res];
    eexists; eexists; (split; [reflexivity|]); cbn; destruct (vs_strain st); cbn; auto 10.
Qed.

Lemma vm_failed_run E v hl : forall incs st, vs_e st = None ->
  exists st', vm_run 4 E v hl incs st = Ok st' /\ vs_e st' = None.
Proof.
  induction incs as [|i t IH]; intros st N.
  - exists st. auto.
  - destruct (vm_failure_persists E v hl st i 4 ltac:(auto) N) as (st2 & tan2 & U2 & _ & N2 & _).
    cbn [vm_run]. rewrite U2. cbn [rbind fst]. apply IH. exact N2.
Qed.

(** ** Whole histories *)
(** Invariant of the states met on a path without failure. *)
Definition good_state (E v : R) (hl : hlaw) (eps : T2) (a0 : R) (st : vm_state) : Prop :=
  exists e a, symmetric 3 e /\ vs_fail st = false /\ vs_e st = Some (kmf e) /\
    vs_strain st = Some (kmf eps) /\ vs_acc st = Some a /\ a0 <= a /\
    trace 3 e = trace 3 eps /\
    vs_stress st = Some (kmf (hooke (lame_lambda E v) (lame_mu E v) e)) /\
    (exists y h, hl a = Some (y, h) /\
       vmises (hooke (lame_lambda E v) (lame_mu E v) e) <= y * (1 + / 1000000)).

Lemma good_step E v hl ymin eps a0 st inc :
  0 < E -> -1 < v -> 2 * small <= ymin -> law_above ymin hl -> law_monotone hl -> symmetric 3 inc ->
  good_state E v hl eps a0 st ->
  exists st' tan, vm_state_update 4 E v hl inc st = Ok (st', tan) /\
    (vs_fail st' = true \/
     exists a1, vs_acc st = Some a1 /\ good_state E v hl (fun i j => eps i j + inc i j) a1 st').
Proof.
  intros HE Hv YM LA LM Si (e & a & Se & F & G1 & G2 & G3 & G4 & G5 & G6 & G7).
  destruct (vm_step_3d_partial E v hl ymin st e eps a inc) as (st' & tan & U & ST & D); auto.
  exists st', tan. split; [exact U|].
  destruct D as [(FA & _)|(e' & a' & F' & D1 & D2 & D3 & D4 & AD)]; [left; exact FA|right].
  exists a. split; [exact G3|].
  destruct AD as (A1 & A2 & A3 & A4 & A5 & A6 & A7 & y & h & A8 & A9 & A10).
  exists e', a'. split; [exact A1|]. split; [exact F'|]. split; [exact D1|]. split; [exact ST|].
  split; [exact D2|]. split; [exact A5|]. split.
  { rewrite A2. unfold trace in *. simpl in *. lra. }
  split; [exact D3|]. exists y, h. auto.
Qed.

(** From the initial state, every history of increments keeps the invariant at
    every step until a failure is flagged: total strain is the sum of the
    increments, plastic strain is deviatoric, the accumulated plastic strain
    never decreases and the stress is admissible. *)
Theorem vm_history_partial E v hl ymin : 0 < E -> -1 < v -> 2 * small <= ymin -> law_above ymin hl -> law_monotone hl ->
  forall incs eps a0 st, Forall (symmetric 3) incs -> good_state E v hl eps a0 st ->
  exists st', vm_run 4 E v hl incs st = Ok st' /\
    (vs_e st' = None \/ good_state E v hl (fun i j => eps i j + tsum incs i j) a0 st').
Proof.
  intros HE Hv YM LA LM. induction incs as [|inc t IH]; intros eps a0 st FS G.
  - exists st. split; [reflexivity|]. right.
    destruct G as (e & a & Se & F & G1 & G2 & G3 & G4 & G5 & G6 & G7).
    exists e, a. repeat (split; [assumption|]). split.
    { rewrite G2. f_equal. apply kmf_ext. intros i j _ _. unfold tsum. simpl. ring. }
    repeat (split; [assumption|]). split.
    { rewrite G5. unfold trace, tsum. simpl. ring. }
    auto.
  - destruct (good_step E v hl ymin eps a0 st inc) as (st1 & tan & U & D); auto; [apply (Forall_inv FS)|].
    cbn [vm_run]. rewrite U. cbn [rbind fst].
    destruct G as (e & a & Se & F & G1 & G2 & G3 & G4 & G5 & G6 & G7).
    destruct D as [FA|(a1 & EA & G')].
    + (* failure: everything after stays undefined *)
      assert (NE : vs_e st1 = None).
      { destruct (vm_step_3d_partial E v hl ymin st e eps a inc) as (st'' & tan' & U' & _ & D'); auto.
        { apply (Forall_inv FS). }
        rewrite U in U'. inversion U'; subst st''.
        destruct D' as [(_ & X & _)|(e' & a' & F' & _)]; [exact X|congruence]. }
      destruct (vm_failed_run E v hl t st1 NE) as (st' & R' & N'). exists st'. auto.
    + rewrite G3 in EA. inversion EA; subst a1.
      destruct (IH _ _ st1 (Forall_inv_tail FS) G') as (st' & R' & D'). exists st'. split; [exact R'|].
      destruct D' as [N|G'']; [left; exact N|right].
      destruct G'' as (e2 & a2 & K0 & K1 & K2 & K3 & K4 & K5 & K6 & K7 & K8).
      exists e2, a2. repeat (split; [assumption|]). split.
      { rewrite K3. f_equal. apply kmf_ext. intros i j _ _. unfold tsum. simpl. ring. }
      split; [assumption|]. split; [lra|]. split.
      { rewrite K6. unfold trace, tsum. simpl. ring. }
      auto.
Qed.

Theorem vm_history_from_rest_partial E v hl ymin incs :
  0 < E -> -1 < v -> 2 * small <= ymin -> law_above ymin hl -> law_monotone hl ->
  hl 0 <> None -> Forall (symmetric 3) incs ->
  exists st0 st', vm_state_init 4 = Ok st0 /\ vm_run 4 E v hl incs st0 = Ok st' /\
    (vs_e st' = None \/ good_state E v hl (tsum incs) 0 st').
Proof.
  intros HE Hv YM LA LM H0 FS.
  unfold vm_state_init. cbn [get_problem_type_parameters rbind]. rewrite mf2_3d. cbn [rbind].
  destruct (vm_history_partial E v hl ymin HE Hv YM LA LM incs zero2 0
    (VState (Some (kmf zero2)) (Some (kmf zero2)) (Some (kmf zero2)) (Some 0) false false (Some 0) (Some 0)) FS)
    as (st' & R' & D).
  { exists zero2, 0. split; [intros i j _ _; reflexivity|]. cbn.
    repeat (split; [reflexivity|]). split; [lra|]. split; [reflexivity|]. split.
    { f_equal. apply kmf_ext. intros i j _ _. unfold hooke, trace, zero2. simpl. ring. }
    destruct (hl 0) as [[y h]|] eqn:Q; [|congruence]. exists y, h. split; [reflexivity|].
    pose proof (LA _ _ _ Q). unfold small in *.
    replace (vmises _) with 0.
    - apply Rmult_le_pos; lra.
    - unfold vmises, ddot, sum2, deviator3, hooke, trace, zero2, ident. symmetry.
      match goal with |- sqrt ?t = 0 => replace t with 0 by (simpl; field) end. apply sqrt_0. }
  eexists. exists st'. split; [reflexivity|]. split; [exact R'|].
  destruct D as [N|G]; [left; exact N|right].
  destruct G as (e2 & a2 & K0 & K1 & K2 & K3 & K4 & K5 & K6 & K7 & K8).
  exists e2, a2. repeat (split; [assumption|]). split.
  { rewrite K3. f_equal. apply kmf_ext. intros i j _ _. unfold zero2. ring. }
  repeat (split; [assumption|]). split; [|auto].
  rewrite K6. unfold trace, zero2. simpl. ring.
Qed.

(** ** Linear hardening: one correction (C22) *)
Theorem linear_one_correction s0 h G vm acc tol fuel :
  0 <= acc -> 0 < tol -> 0 < 3 * G + h -> s0 + h * acc < vm ->
  let x := (vm - (s0 + h * acc)) / (3 * G + h) in
  s0 + h * (acc + x) <> 0 ->
  newton (linear_law s0 h) vm G acc tol (S fuel) true 0 = Some (x, Fin h) /\
  0 < x /\ vm - 3 * G * x = s0 + h * (acc + x).
Proof.
  intros HA HT HJ HV x NZ.
  assert (XP : 0 < x) by (apply Rdiv_lt_0_compat; lra).
  assert (RZ : vm - 3 * G * x - (s0 + h * (acc + x)) = 0) by (unfold x; field; lra).
  split; [|split; [auto|lra]].
  rewrite newton_first. unfold linear_law at 1. rewrite Rplus_0_r, relu_pos by auto.
  destruct (Req_EM_T (- 3 * G - h) 0) as [Z|Z]; [lra|].
  replace (0 + - (vm - 3 * G * 0 - (s0 + h * acc)) / (- 3 * G - h)) with x by (unfold x; field; lra).
  destruct fuel; cbn [newton]; unfold linear_law at 1; rewrite relu_pos by lra; rewrite RZ, Rabs_R0;
    unfold quot_lt; (destruct (Req_EM_T (Rabs (s0 + h * (acc + x))) 0) as [Q|Q];
      [exfalso; apply (Rabs_no_R0 _ NZ); exact Q|]);
    replace (0 / Rabs (s0 + h * (acc + x))) with 0 by (field; exact Q);
    rewrite (proj2 (rltb_iff 0 tol) HT); reflexivity.
Qed.

(** The whole update with linear hardening: never fails, and is exact. *)
Theorem linear_update_exact E v s0 h et acc :
  0 < E -> -1 < v -> 2 * small <= s0 -> 0 <= h -> 0 <= acc -> symmetric 3 et ->
  let G := lame_mu E v in
  let y0 := s0 + h * acc in
  let vm := vmises (sig_of E v et) in
  exists c, vm_core E v (linear_law s0 h) (Some (kmf et)) (Some acc) = Ok c /\
  ((vm <= y0 * (1 + su_conv_tol) /\ vc_outcome c = OElastic)
   \/ (y0 * (1 + su_conv_tol) < vm /\
       let x := (vm - y0) / (3 * G + h) in
       vc_outcome c = OPlastic x (Fin h) /\ vc_acc c = Some (acc + x) /\ 0 < x /\
       exists e', vc_e c = Some (kmf e') /\ vc_stress c = Some (kmf (sig_of E v e')) /\
         vmises (sig_of E v e') = s0 + h * (acc + x))).
Proof.
  intros HE Hv YM Hh HA S G y0 vm.
  assert (SM : 0 < small) by (unfold small; lra).
  assert (TP : 0 < su_conv_tol) by (unfold su_conv_tol; lra).
  pose proof (shear_positive E v HE Hv) as GP. fold G in GP.
  assert (Y0 : s0 <= y0) by (unfold y0; pose proof (Rmult_le_pos h acc); lra).
  destruct (core_3d E v (linear_law s0 h) et acc S) as (c & EC & EO & D). exists c. split; [exact EC|].
  fold G vm in EO.
  assert (H0 : linear_law s0 h acc = Some (y0, Fin h)) by (unfold linear_law; rewrite relu_pos by auto; reflexivity).
  unfold return_mapping in EO. rewrite H0 in EO. unfold quot_le in EO.
  destruct (Req_EM_T y0 0) as [Z|NZ]; [lra|].
  destruct (rleb ((vm - y0) / y0) su_conv_tol) eqn:Q.
  - left. split; [|exact EO]. apply rleb_iff in Q. apply (Rmult_le_compat_r y0) in Q; [|lra].
    unfold Rdiv in Q. rewrite Rmult_assoc, Rinv_l in Q by auto. lra.
  - right. apply rleb_false in Q. apply (Rmult_lt_compat_r y0) in Q; [|lra].
    unfold Rdiv in Q. rewrite Rmult_assoc, Rinv_l in Q by auto.
    assert (V : y0 * (1 + su_conv_tol) < vm) by lra. split; [exact V|].
    assert (V' : y0 < vm) by nra.
    set (x := (vm - y0) / (3 * G + h)).
    assert (XP : 0 < x) by (apply Rdiv_lt_0_compat; lra).
    assert (NZ' : s0 + h * (acc + x) <> 0) by (pose proof (Rmult_le_pos h (acc + x)); lra).
    destruct (linear_one_correction s0 h G vm acc su_conv_tol 19 HA TP ltac:(lra) V' NZ') as (N & _ & RX).
    unfold su_max_n_iterations in EO. rewrite N in EO. fold y0 in EO, RX. fold x in EO, RX.
    rewrite EO in D. destruct D as (D1 & D2 & D3 & _).
    cbv zeta. split; [exact EO|]. split; [exact D3|]. split; [exact XP|].
    exists (corrected E v et x). split; [exact D1|]. split; [exact D2|].
    rewrite corrected_vmises.
    + fold G vm. rewrite RX. apply Rabs_right. pose proof (Rmult_le_pos h (acc + x)). lra.
    + unfold vm in V'. rewrite vmises_norm in V'. pose proof sqrt32_pos. pose proof sqrt32_lt2. nra.
Qed.

(** ** Counterexamples *)
Lemma lame_22 : lame_mu 2 0 = 1 /\ lame_lambda 2 0 = 0.
Proof. unfold lame_mu, lame_lambda. split; field. Qed.

(** A virgin Nadai-Ludwik material without offset never converges: the slope is
    infinite and the multiplier stays at zero. *)
Theorem nadai_virgin_never_converges s0 a b G vm fuel :
  0 < s0 -> a <> 0 -> 0 < b < 1 -> s0 * (1 + su_conv_tol) < vm ->
  forall first, newton (nadai_ludwik s0 a b 0) vm G 0 su_conv_tol fuel first 0 = None.
Proof.
  intros S0 A B V.
  assert (TP : 0 < su_conv_tol) by (unfold su_conv_tol; lra).
  assert (T : quot_lt (Rabs (vm - 3 * G * 0 - s0)) (Rabs s0) su_conv_tol = false).
  { unfold quot_lt. rewrite (Rabs_right s0) by lra. destruct (Req_EM_T s0 0); [reflexivity|].
    apply rltb_false. apply (Rmult_le_reg_r s0); [auto|]. unfold Rdiv. rewrite Rmult_assoc, Rinv_l by auto.
    rewrite Rabs_right by nra. nra. }
  induction fuel as [|f IH]; intros first; cbn [newton]; rewrite Rplus_0_r, nadai_initial_slope_infinite by auto;
    rewrite T; cbn [andb]; auto.
Qed.

Theorem nadai_virgin_refuted E v s0 a b et : 0 < s0 -> a <> 0 -> 0 < b < 1 -> symmetric 3 et ->
  s0 * (1 + su_conv_tol) < vmises (sig_of E v et) ->
  exists c, vm_core E v (nadai_ludwik s0 a b 0) (Some (kmf et)) (Some 0) = Ok c /\ vc_outcome c = OFailed.
Proof.
  intros S0 A B S V.
  destruct (core_3d E v (nadai_ludwik s0 a b 0) et 0 S) as (c & EC & EO & _). exists c. split; [exact EC|].
  rewrite EO. unfold return_mapping. rewrite nadai_initial_slope_infinite by auto.
  rewrite nadai_virgin_never_converges by auto.
  unfold quot_le. destruct (Req_EM_T s0 0); [lra|].
  replace (rleb _ _) with false; [reflexivity|]. symmetry. apply rleb_false.
  apply (Rmult_lt_reg_r s0); auto. unfold Rdiv. rewrite Rmult_assoc, Rinv_l by auto. lra.
Qed.

(** With yield stresses below the threshold [small] the flow vector is dropped:
    the update reports convergence but the stress is far outside the surface. *)
Definition shear (t : R) : T2 := fun i j => match i, j with O, 1%nat | 1%nat, O => t | _, _ => 0 end.
Lemma shear_symmetric t : symmetric 3 (shear t).
Proof. intros i j Hi Hj. destruct i as [|[|[|i]]]; destruct j as [|[|[|j]]]; try lia; reflexivity. Qed.
Lemma shear_dev t : eq2 3 (deviator3 (sig_of 2 0 (shear t))) (fun i j => 2 * shear t i j).
Proof.
  intros i j Hi Hj. unfold sig_of. rewrite deviator_hooke by auto. destruct lame_22 as [-> _].
  unfold deviator3, trace, shear. simpl. ring_simplify. unfold Rdiv. ring.
Qed.
Lemma shear_norm t : 0 <= t -> tnorm (deviator3 (sig_of 2 0 (shear t))) = 2 * sqrt 2 * t.
Proof.
  intros H. rewrite (tnorm_ext _ _ (shear_dev t)). unfold tnorm.
  replace (ddot 3 _ _) with ((2 * t) * (2 * t) * 2) by (unfold ddot, sum2, shear; simpl; ring).
  rewrite sqrt_mult by nra. rewrite sqrt_square by lra. ring.
Qed.

Theorem tiny_yield_stress_refuted : exists E v s0 et c e',
  0 < E /\ -1 < v /\ 0 < s0 /\ symmetric 3 et /\
  vm_core E v (linear_law s0 0) (Some (kmf et)) (Some 0) = Ok c /\
  is_failed (vc_outcome c) = false /\ vc_e c = Some (kmf e') /\
  vc_acc c <> Some 0 /\ eq2 3 e' et /\ s0 * 2 < vmises (sig_of E v e').
Proof.
  set (t := small / 4). set (s0 := small / 4).
  assert (SM : 0 < small) by (unfold small; lra).
  assert (TP : su_conv_tol < 1) by (unfold su_conv_tol; lra).
  assert (TP' : 0 < su_conv_tol) by (unfold su_conv_tol; lra).
  pose proof sqrt2_sq as Q2. assert (Q2p : 1 < sqrt 2 < 3/2) by (pose proof (sqrt_pos 2); nra).
  pose proof sqrt32_sq as Q3. assert (Q3p : 6/5 < sqrt (3/2) < 2) by (pose proof sqrt32_pos; nra).
  assert (N : tnorm (deviator3 (sig_of 2 0 (shear t))) = 2 * sqrt 2 * t) by (apply shear_norm; unfold t; lra).
  assert (VM : vmises (sig_of 2 0 (shear t)) = sqrt (3/2) * (2 * sqrt 2 * t)) by (rewrite vmises_norm, N; reflexivity).
  assert (V2 : s0 * 2 < vmises (sig_of 2 0 (shear t))) .
  { rewrite VM. assert (P : 1 < sqrt 2 * sqrt (3/2)) by nra.
    apply (Rmult_lt_compat_l (small / 2)) in P; [|lra]. unfold s0, t. lra. }
  destruct (core_3d 2 0 (linear_law s0 0) (shear t) 0 (shear_symmetric t)) as (c & EC & EO & D).
  destruct lame_22 as [GM _]. rewrite GM in EO.
  set (vm := vmises (sig_of 2 0 (shear t))) in *.
  assert (S0 : 0 < s0) by (unfold s0; lra).
  assert (V1 : s0 + 0 * 0 < vm) by lra.
  assert (NZ0 : s0 + 0 * (0 + (vm - (s0 + 0 * 0)) / (3 * 1 + 0)) <> 0) by lra.
  destruct (linear_one_correction s0 0 1 vm 0 su_conv_tol 19 ltac:(lra) TP' ltac:(lra) V1 NZ0) as (NW & XP & RX).
  assert (O : vc_outcome c = OPlastic ((vm - (s0 + 0 * 0)) / (3 * 1 + 0)) (Fin 0)).
  { rewrite EO. unfold return_mapping, linear_law at 1.
    rewrite relu_pos by lra. unfold quot_le. destruct (Req_EM_T (s0 + 0 * 0) 0); [lra|].
    replace (rleb _ _) with false.
    - unfold su_max_n_iterations. rewrite NW. reflexivity.
    - symmetry. apply rleb_false. apply (Rmult_lt_reg_r (s0 + 0 * 0)); [lra|]. unfold Rdiv.
      rewrite Rmult_assoc, Rinv_l by lra. nra. }
  rewrite O in D. destruct D as (D1 & D2 & D3 & _).
  set (x := (vm - (s0 + 0 * 0)) / (3 * 1 + 0)) in *.
  assert (FZ : flow_factor (deviator3 (sig_of 2 0 (shear t))) = 0).
  { unfold flow_factor. rewrite N. replace (rltb small (2 * sqrt 2 * t)) with false; [ring|].
    symmetry. apply rltb_false. unfold t. nra. }
  assert (CE : eq2 3 (corrected 2 0 (shear t) x) (shear t)).
  { intros i j _ _. unfold corrected. rewrite FZ. ring. }
  exists 2, 0, s0, (shear t), c, (corrected 2 0 (shear t) x).
  split; [lra|]. split; [lra|]. split; [exact S0|]. split; [apply shear_symmetric|]. split; [exact EC|].
  split; [rewrite O; reflexivity|]. split; [exact D1|]. split.
  { rewrite D3. intros E0. inversion E0. lra. }
  split; [exact CE|].
  replace (vmises (sig_of 2 0 (corrected 2 0 (shear t) x))) with vm; [exact V2|].
  unfold vm. rewrite !vmises_norm. f_equal. apply tnorm_ext. intros i j Hi Hj.
  assert (T : trace 3 (corrected 2 0 (shear t) x) = trace 3 (shear t)) by apply corrected_trace.
  assert (H2 : forall k l, (k < 3)%nat -> (l < 3)%nat -> sig_of 2 0 (shear t) k l = sig_of 2 0 (corrected 2 0 (shear t) x) k l).
  { intros k l Hk Hl. unfold sig_of, hooke. rewrite T, (CE k l Hk Hl). reflexivity. }
  unfold deviator3, trace. simpl. rewrite !H2 by lia. reflexivity.
Qed.

(** ** Examples *)
(** Linear hardening laws meet the hypotheses. *)
Lemma linear_law_above s0 h : 0 <= h -> law_above s0 (linear_law s0 h).
Proof.
  intros H a y h' Q. unfold linear_law in Q. injection Q as <- <-.
  pose proof (relu_nonneg a). pose proof (Rmult_le_pos h (relu a)). lra.
Qed.
Lemma linear_law_monotone s0 h : 0 <= h -> law_monotone (linear_law s0 h).
Proof.
  intros H a b y k y' k' L Q Q'. unfold linear_law in *. injection Q as <- <-; injection Q' as <- <-.
  pose proof (relu_mono a b L) as M. pose proof (Rmult_le_compat_l h _ _ H M). lra.
Qed.

(** A shear strain of 1 with E = 2, nu = 0, yield stress 1 and slope 2 is
    plastic and lands on the hardened yield surface. *)
Lemma ex_shear_vm : vmises (sig_of 2 0 (shear 1)) = 2 * sqrt 3.
Proof.
  rewrite vmises_norm, shear_norm by lra.
  replace 3 with (3 / 2 * 2) at 2 by field. rewrite sqrt_mult by lra. ring.
Qed.
Example ex_shear_plastic : exists c e',
  vm_core 2 0 (linear_law 1 2) (Some (kmf (shear 1))) (Some 0) = Ok c /\
  vc_acc c = Some (0 + (2 * sqrt 3 - 1) / 5) /\ vc_e c = Some (kmf e') /\
  vmises (sig_of 2 0 e') = 1 + 2 * (0 + (2 * sqrt 3 - 1) / 5).
Proof.
  destruct (linear_update_exact 2 0 1 2 (shear 1) 0) as (c & EC & D); try lra;
    [unfold small; lra|apply shear_symmetric|].
  rewrite ex_shear_vm in D. destruct lame_22 as [GM _]. rewrite GM in D.
  assert (S3 : 1 < sqrt 3) by (rewrite <- sqrt_1 at 1; apply sqrt_lt_1; lra).
  destruct D as [(L & _)|(_ & _ & A & _ & e' & D1 & _ & D3)].
  - exfalso. unfold su_conv_tol in L. lra.
  - exists c, e'. split; [exact EC|]. replace (3 * 1 + 2) with 5 in * by ring.
    replace (1 + 2 * 0) with 1 in * by ring. auto.
Qed.

(** A history of two shear steps from rest. *)
Example ex_history : exists st0 st',
  vm_state_init 4 = Ok st0 /\ vm_run 4 2 0 (linear_law 1 2) [shear (1/8); shear 1] st0 = Ok st' /\
  (vs_e st' = None \/ good_state 2 0 (linear_law 1 2) (tsum [shear (1/8); shear 1]) 0 st').
Proof.
  apply vm_history_from_rest_partial with (ymin := 1); try lra.
  - unfold small; lra.
  - apply linear_law_above; lra.
  - apply linear_law_monotone; lra.
  - discriminate.
  - repeat constructor; apply shear_symmetric.
Qed.
