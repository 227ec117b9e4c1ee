(** Mixed hardening von Mises material: theorems. *)
From Coq Require Import Reals List Arith Bool Lia Lra Psatz.
From Verif Require Import Lib MatrixModel MatrixSpec TensorModel TensorSpec HardeningModel HardeningProps
  ElasticModel ElasticSpec ElasticProofs ElasticProps VonMisesModel VonMisesSpec VonMisesProofs VonMisesProps VmapModel
  VmapSpec VmapProps MixedModel MixedSpec MixedProofs.
Import ListNotations.
Local Open Scope R_scope.

(** After a plastic step the code leaves the relative stress off the yield
    surface by half the increment of the kinematic hardening stress: it is
    [Rabs r] with [r = y - (k' - k) / 2] to tolerance. *)
Definition mixed_offset (stress_of : T2 -> T2) (hl kl : hlaw) (tol : R) (a : R) (plast : bool) (e' : T2) (a' : R) (b' : T2)
  : Prop :=
  exists y h, hl a' = Some (y, h) /\
    (plast = false -> equivalent (relative_stress (stress_of e') b') <= y * (1 + tol)) /\
    (plast = true -> exists k g k' g' r, kl a = Some (k, g) /\ kl a' = Some (k', g') /\
       equivalent (relative_stress (stress_of e') b') = Rabs r /\ Rabs (r + (k' - k) / 2 - y) < tol * y).

Lemma mx_core_good E v hl kl et a b ymin :
  0 < E -> -1 < v -> symmetric 3 et -> symmetric 3 b -> trace 3 b = 0 ->
  2 * small <= ymin -> law_above ymin hl -> law_monotone hl -> law_monotone kl ->
  exists c, mx_core E v hl kl (Some (kmf et)) (Some a) (Some (kmf b)) = Ok c /\
    ((mc_outcome c = MFailed /\ mc_e c = None /\ mc_stress c = None /\ mc_acc c = None /\ mc_back c = None /\ mc_tangent c = None)
     \/ exists e' a' b', mx_is_fail (mc_outcome c) = false /\
         mc_e c = Some (kmf e') /\ mc_acc c = Some a' /\ mc_stress c = Some (kmf (sig_of E v e')) /\
         mc_back c = Some (kmf b') /\
         (exists m, mc_tangent c = Some m /\ length m = 6%nat) /\
         mixed_flow (sig_of E v) kl (3 / 2) et a b (mx_is_plast (mc_outcome c)) e' a' b' /\
         mixed_offset (sig_of E v) hl kl su_conv_tol a (mx_is_plast (mc_outcome c)) e' a' b').
Proof.
  intros HE Hv S Sb Tb YM LA LM KM. pose proof (shear_positive E v HE Hv) as GP.
  assert (SM : 0 < small) by (unfold small; lra).
  assert (TP : 0 < su_conv_tol) by (unfold su_conv_tol; lra).
  destruct (mx_core_3d E v hl kl et a b S Sb) as (c & EC & EO & D). exists c. split; [exact EC|].
  set (eta := relative_stress (sig_of E v et) b) in *.
  destruct (mc_outcome c) as [|x dk H|] eqn:OC.
  - right. exists et, a, b. destruct D as (D1 & D2 & D3 & D4 & D5).
    destruct (proj1 (mx_return_elastic _ _ _ _ _) (eq_sym EO)) as (y & h & Ey & V).
    pose proof (LA _ _ _ Ey) as Py. apply quot_le_pos in V; [|lra].
    split; [reflexivity|]. split; [exact D1|]. split; [exact D3|]. split; [exact D2|]. split; [exact D4|].
    split; [eexists; split; [exact D5|reflexivity]|].
    assert (EZ : eq2 3 et et) by (intros i j _ _; reflexivity).
    assert (BZ : eq2 3 b b) by (intros i j _ _; reflexivity).
    split.
    + unfold mixed_flow. cbv zeta. split; [exact S|]. split; [reflexivity|]. split; [exact Sb|]. split; [exact Tb|].
      split; [exists 0; split; [lra|]; intros i j _ _; ring|]. split.
      { rewrite (tnorm_ext _ (fun i j => 0 * et i j)) by (intros i j _ _; ring).
        rewrite tnorm_scale, Rabs_R0. ring. }
      split; [lra|]. split; [auto|discriminate].
    + exists y, h. split; [exact Ey|]. split; [|discriminate]. intros _. fold eta. lra.
  - right. exists (mx_e E v et b x), (a + x), (mx_b E v et b dk). destruct D as (D1 & D2 & D3 & D4 & m & t4 & ft & D5 & D6 & _).
    destruct (mx_return_plastic _ _ _ _ _ _ _ _ (eq_sym EO))
      as (y0 & h0 & k0 & g0 & y & h & k & g & E0 & K0 & V & E1 & K1 & EK & EH & NZ & C).
    pose proof (LA _ _ _ E0) as P0. pose proof (LA _ _ _ E1) as Py.
    assert (LA0 : law_above 0 hl) by (intros z w g' B; pose proof (LA _ _ _ B); lra).
    assert (XP : 0 < x).
    { apply (mx_multiplier_positive hl kl (lame_mu E v) (equivalent eta) a x dk H); auto; [lra|].
      intros z w B. pose proof (LA _ _ _ B). lra. }
    pose proof (KM a (a + x) _ _ _ _ ltac:(lra) K0 K1) as KP.
    specialize (V ltac:(lra)).
    assert (N : small < tnorm eta).
    { unfold equivalent in V. pose proof sqrt32_pos. pose proof sqrt32_lt2. nra. }
    assert (FP : 0 <= flow_factor eta).
    { pose proof (flow_factor_eta E v et b N) as FE. fold eta in FE. rewrite FE. pose proof sqrt32_pos. left. apply Rdiv_lt_0_compat; lra. }
    split; [reflexivity|]. split; [exact D1|]. split; [exact D3|]. split; [exact D2|]. split; [exact D4|].
    split; [exists m; split; [exact D5|apply (mf4_length _ _ D6)]|].
    split.
    + unfold mixed_flow. cbv zeta. fold eta.
      split; [apply mx_e_symmetric; auto|]. split; [apply mx_e_trace; auto|].
      split; [apply mx_b_symmetric; auto|]. split; [apply mx_b_trace; auto|].
      split. { exists (x * flow_factor eta). split; [apply Rmult_le_pos; lra|]. intros i j _ _. unfold mx_e. fold eta. ring. }
      split. { rewrite (mx_plastic_size E v et b N x) by lra. ring. }
      split; [lra|]. split; [discriminate|]. intros _. split; [lra|].
      exists k0, g0, k, g, (dk * flow_factor eta). split; [exact K0|]. split; [exact K1|]. split; [exact KP|].
      split; [apply Rmult_le_pos; [lra|exact FP]|].
      split; [intros i j _ _; unfold mx_b; fold eta; ring|]. rewrite EK. apply mx_back_size; [exact N|lra].
    + exists y, h. split; [exact E1|]. split; [discriminate|]. intros _.
      exists k0, g0, k, g, (equivalent eta - 3 * lame_mu E v * x - 3 / 2 * dk).
      split; [exact K0|]. split; [exact K1|]. split; [apply (mx_relative_size E v et b Tb N)|].
      rewrite (Rabs_right y) in C by lra. rewrite EK in C |- *.
      replace (equivalent eta - 3 * lame_mu E v * x - 3 / 2 * (k - k0) + (k - k0) / 2 - y)
        with (equivalent eta - 3 * lame_mu E v * x - (k - k0) - y) by field. exact C.
  - left. destruct D as (D1 & D2 & D3 & D4 & D5). auto 10.
Qed.

(** ** One update, three dimensions *)
(** Partial: the back stress moves by 3/2 of the theory's amount, so that the
    yield condition holds with the offset of [mixed_offset] only (the full claim
    is [mixed_flow] with factor 1 and [mixed_consistent]; see [mx_step_refuted]). *)
Theorem mx_step_3d_partial E v hl kl ymin st e eps a b inc :
  0 < E -> -1 < v -> 2 * small <= ymin -> law_above ymin hl -> law_monotone hl -> law_monotone kl ->
  symmetric 3 e -> symmetric 3 inc -> symmetric 3 b -> trace 3 b = 0 ->
  vs_e (ms_vm st) = Some (kmf e) -> vs_strain (ms_vm st) = Some (kmf eps) -> vs_acc (ms_vm st) = Some a ->
  ms_back st = Some (kmf b) ->
  let sig := hooke (lame_lambda E v) (lame_mu E v) in
  let et : T2 := fun i j => e i j + inc i j in
  exists st' tan, mx_state_update 4 E v hl kl inc st = Ok (st', tan) /\
    vs_strain (ms_vm st') = Some (kmf (fun i j => eps i j + inc i j)) /\
    ((vs_fail (ms_vm st') = true /\ vs_e (ms_vm st') = None /\ vs_stress (ms_vm st') = None /\
      vs_acc (ms_vm st') = None /\ ms_back st' = None /\ tan = None)
     \/ exists e' a' b', vs_fail (ms_vm st') = false /\ vs_e (ms_vm st') = Some (kmf e') /\ vs_acc (ms_vm st') = Some a' /\
          vs_stress (ms_vm st') = Some (kmf (sig e')) /\ ms_back st' = Some (kmf b') /\ tan <> None /\
          mixed_flow sig kl (3 / 2) et a b (vs_plast (ms_vm st')) e' a' b' /\
          mixed_offset sig hl kl (/ 1000000) a (vs_plast (ms_vm st')) e' a' b').
Proof.
  intros HE Hv YM LA LM KM Se Si Sb Tb E1 E2 E3 E4 sig et.
  assert (St : symmetric 3 et) by (intros i j Hi Hj; unfold et; rewrite (Se i j), (Si i j) by auto; auto).
  unfold mx_state_update. cbn [get_problem_type_parameters rbind Nat.eqb]. rewrite mf2_3d. cbn [rbind].
  rewrite E1, E2, E3, E4. cbn [omap omap2]. rewrite kmf_add, kmf_sub, kmf_add. fold et.
  destruct (mx_core_good E v hl kl et a b ymin) as (c & EC & D); auto. rewrite EC. cbn [rbind].
  eexists. eexists. split; [reflexivity|]. cbn [ms_vm ms_back vs_strain vs_fail vs_e vs_stress vs_acc vs_plast].
  split.
  { f_equal. apply kmf_ext. intros i j _ _. unfold et. ring. }
  destruct D as [(O & D1 & D2 & D3 & D4 & D5)|(e' & a' & b' & F & D1 & D3 & D2 & D4 & (m & D5 & _) & A1 & A2)].
  - left. rewrite O. auto 10.
  - right. exists e', a', b'. rewrite D5. do 6 (split; [assumption || congruence|]). split; assumption.
Qed.

(** ** One update, plane strain *)
Theorem mx_step_2d_partial E v hl kl ymin st e z eps a b bz inc :
  0 < E -> -1 < v -> 2 * small <= ymin -> law_above ymin hl -> law_monotone hl -> law_monotone kl ->
  symmetric 2 e -> symmetric 2 inc -> symmetric 2 b -> trace 2 b + bz = 0 ->
  vs_e (ms_vm st) = Some (kmf2 e) -> vs_e33 (ms_vm st) = Some z -> vs_strain (ms_vm st) = Some (kmf2 eps) ->
  vs_acc (ms_vm st) = Some a -> ms_back st = Some (kmf2 b) -> ms_back33 st = Some bz ->
  let sig := hooke (lame_lambda E v) (lame_mu E v) in
  let et : T2 := fun i j => embed e z i j + embed inc 0 i j in
  exists st' tan, mx_state_update 1 E v hl kl inc st = Ok (st', tan) /\
    vs_strain (ms_vm st') = Some (kmf2 (fun i j => eps i j + inc i j)) /\
    ((vs_fail (ms_vm st') = true /\ vs_e (ms_vm st') = None /\ vs_e33 (ms_vm st') = None /\ vs_stress (ms_vm st') = None /\
      vs_s33 (ms_vm st') = None /\ vs_acc (ms_vm st') = None /\ ms_back st' = None /\ ms_back33 st' = None /\ tan = None)
     \/ exists e' a' b', vs_fail (ms_vm st') = false /\ vs_e (ms_vm st') = Some (kmf2 e') /\
          vs_e33 (ms_vm st') = Some (e' 2%nat 2%nat) /\ vs_acc (ms_vm st') = Some a' /\
          vs_stress (ms_vm st') = Some (kmf2 (sig e')) /\ vs_s33 (ms_vm st') = Some (sig e' 2%nat 2%nat) /\
          ms_back st' = Some (kmf2 b') /\ ms_back33 st' = Some (b' 2%nat 2%nat) /\ tan <> None /\
          mixed_flow sig kl (3 / 2) et a (embed b bz) (vs_plast (ms_vm st')) e' a' b' /\
          mixed_offset sig hl kl (/ 1000000) a (vs_plast (ms_vm st')) e' a' b').
Proof.
  intros HE Hv YM LA LM KM Se Si Sb Tb E1 E1z E2 E3 E4 E4z sig et.
  assert (St : symmetric 3 et).
  { intros i j Hi Hj. unfold et, embed. pose proof (Se 0 1 ltac:(lia) ltac:(lia))%nat as S1.
    pose proof (Si 0 1 ltac:(lia) ltac:(lia))%nat as S2.
    destruct i as [|[|[|i]]]; destruct j as [|[|[|j]]]; try lia; rewrite ?S1, ?S2; reflexivity. }
  assert (Sb3 : symmetric 3 (embed b bz)).
  { intros i j Hi Hj. unfold embed. pose proof (Sb 0 1 ltac:(lia) ltac:(lia))%nat as S1.
    destruct i as [|[|[|i]]]; destruct j as [|[|[|j]]]; try lia; rewrite ?S1; reflexivity. }
  assert (Tb3 : trace 3 (embed b bz) = 0) by (unfold trace, embed in *; simpl in *; lra).
  unfold mx_state_update. cbn [get_problem_type_parameters rbind Nat.eqb]. rewrite mf2_2d. cbn [rbind].
  rewrite E1, E1z, E2, E3, E4, E4z. cbn [omap omap2 lift_res]. unfold kmf2 at 1 2 3.
  rewrite !to3d. cbn [rbind lift_res omap].
  rewrite !embed_kmf, kmf_add. fold et.
  destruct (mx_core_good E v hl kl et a (embed b bz) ymin) as (c & EC & D); auto. rewrite EC. cbn [rbind].
  unfold kmf at 1. rewrite to2d. cbn [lift_res rbind].
  assert (SS : vadd [et 0%nat 0%nat; et 1%nat 1%nat; sqrt 2 * et 0%nat 1%nat] (vsub (kmf2 eps) (kmf2 e))
     = kmf2 (fun i j => eps i j + inc i j)).
  { unfold kmf2, vadd, vsub, et, embed. simpl. list_eq; ring. }
  destruct D as [(O & D1 & D2 & D3 & D4 & D5)|(e' & a' & b' & F & D1 & D3 & D2 & D4 & (m & D5 & L6) & A1 & A2)].
  - rewrite D1, D2, D3, D4, D5. cbn [omap lift_res rbind omap2]. eexists. eexists. split; [reflexivity|].
    cbn [ms_vm ms_back ms_back33 vs_strain vs_fail vs_e vs_stress vs_acc vs_plast vs_e33 vs_s33]. rewrite SS.
    split; [reflexivity|]. left. rewrite O. auto 12.
  - rewrite D1, D2, D3, D4, D5. cbn [omap omap2]. unfold kmf at 1 2 3. rewrite !to2d. cbn [lift_res rbind].
    unfold vget_state_2Dmf_from_3Dmf_mat. rewrite L6. cbn [Nat.eqb pick_orders].
    replace (Nat.ltb 6 (length order_sym_3d)) with false by reflexivity. cbn [lift_res rbind].
    eexists. eexists. split; [reflexivity|].
    cbn [ms_vm ms_back ms_back33 vs_strain vs_fail vs_e vs_stress vs_acc vs_plast vs_e33 vs_s33]. rewrite SS.
    split; [reflexivity|]. right. exists e', a', b'. split; [exact F|].
    do 7 (split; [reflexivity|]). split; [congruence|]. split; assumption.
Qed.

(** ** The yield condition is missed by every plastic step with kinematic
    hardening: strictly inside the yield surface for moderate increments of the
    kinematic hardening stress, outside for large ones. *)
Theorem mx_plastic_steps_off_surface stress_of hl kl tol a e' a' b' y h k g k' g' :
  0 < tol < 1 / 2 -> 0 < y ->
  mixed_offset stress_of hl kl tol a true e' a' b' ->
  hl a' = Some (y, h) -> kl a = Some (k, g) -> kl a' = Some (k', g') ->
  let q := equivalent (relative_stress (stress_of e') b') in
  (k' - k <= y -> Rabs (q - (y - (k' - k) / 2)) < tol * y) /\
  (4 * tol * y <= k' - k <= y -> q < y * (1 - tol)) /\
  (4 * y * (1 + tol) <= k' - k -> y * (1 + tol) < q).
Proof.
  intros T P (y1 & h1 & EY & _ & D) H1 H2 H3 q.
  destruct (D eq_refl) as (k1 & g1 & k1' & g1' & r & K1 & K1' & Q & C).
  rewrite H1 in EY. rewrite H2 in K1. rewrite H3 in K1'. inversion EY; inversion K1; inversion K1'; subst.
  fold q in Q. apply Rabs_def2 in C. destruct C as [C1 C2].
  assert (TY : tol * y1 < / 2 * y1) by (apply Rmult_lt_compat_r; lra).
  split; [|split]; intros L.
  - rewrite Q. rewrite (Rabs_right r) by lra. apply Rabs_def1; lra.
  - rewrite Q. rewrite (Rabs_right r) by lra. lra.
  - rewrite Q. rewrite (Rabs_left r) by lra. nra.
Qed.

(** ** Failure *)
Theorem mx_failure_persists E v hl kl st inc pt : (pt = 1 \/ pt = 4)%nat ->
  vs_e (ms_vm st) = None -> (pt = 1%nat -> ms_back st = None) ->
  exists st' tan, mx_state_update pt E v hl kl inc st = Ok (st', tan) /\
    vs_fail (ms_vm st') = true /\ vs_e (ms_vm st') = None /\ vs_stress (ms_vm st') = None /\ vs_acc (ms_vm st') = None /\
    vs_strain (ms_vm st') = None /\ ms_back st' = None /\ tan = None.
Proof.
  intros [->| ->] N NB; [specialize (NB eq_refl)|clear NB];
    unfold mx_state_update; cbn [get_problem_type_parameters rbind Nat.eqb];
    rewrite ?mf2_2d, ?mf2_3d; cbn [rbind]; unfold kmf2; rewrite ?to3d; cbn [rbind]; rewrite N, ?NB;
    cbn [omap omap2 lift_res rbind]; unfold mx_core; rewrite devproj_mf, iso_tangent_mf; cbn [rbind omap lift_res];
    eexists; eexists; (split; [reflexivity|]); cbn; destruct (vs_strain (ms_vm st)); cbn; auto 10.
Qed.

(** ** Histories *)
Definition mx_good (E v : R) (eps : T2) (a0 : R) (st : mx_state) : Prop :=
  exists e a b, symmetric 3 e /\ symmetric 3 b /\ trace 3 b = 0 /\ vs_fail (ms_vm st) = false /\
    vs_e (ms_vm st) = Some (kmf e) /\ vs_strain (ms_vm st) = Some (kmf eps) /\ vs_acc (ms_vm st) = Some a /\
    ms_back st = Some (kmf b) /\ a0 <= a /\ trace 3 e = trace 3 eps /\
    vs_stress (ms_vm st) = Some (kmf (hooke (lame_lambda E v) (lame_mu E v) e)).

Lemma mx_failed_run E v hl kl : forall incs st, vs_e (ms_vm st) = None ->
  exists st', mx_run 4 E v hl kl incs st = Ok st' /\ vs_e (ms_vm st') = None.
Proof.
  induction incs as [|i t IH]; intros st N.
  - exists st. auto.
  - destruct (mx_failure_persists E v hl kl st i 4 ltac:(auto) N ltac:(discriminate)) as (st2 & tan2 & U2 & _ & N2 & _).
    cbn [mx_run]. rewrite U2. cbn [rbind fst]. apply IH. exact N2.
Qed.

(** Every history keeps, until a failure is flagged: the strain is the sum of
    the increments, plastic strain and back stress are deviatoric, the
    accumulated plastic strain never decreases and the stress is Hooke's law of
    the elastic strain. *)
Theorem mx_history E v hl kl ymin : 0 < E -> -1 < v -> 2 * small <= ymin -> law_above ymin hl -> law_monotone hl ->
  law_monotone kl -> forall incs eps a0 st, Forall (symmetric 3) incs -> mx_good E v eps a0 st ->
  exists st', mx_run 4 E v hl kl incs st = Ok st' /\
    (vs_e (ms_vm st') = None \/ mx_good E v (fun i j => eps i j + tsum incs i j) a0 st').
Proof.
  intros HE Hv YM LA LM KM. induction incs as [|inc t IH]; intros eps a0 st FS G.
  - exists st. split; [reflexivity|]. right.
    destruct G as (e & a & b & G1 & G2 & G3 & G4 & G5 & G6 & G7 & G8 & G9 & G10 & G11).
    exists e, a, b. repeat (split; [assumption|]). split.
    { rewrite G6. f_equal. apply kmf_ext. intros i j _ _. unfold tsum. simpl. ring. }
    repeat (split; [assumption|]). split; [|assumption].
    rewrite G10. unfold trace, tsum. simpl. ring.
  - destruct G as (e & a & b & G1 & G2 & G3 & G4 & G5 & G6 & G7 & G8 & G9 & G10 & G11).
    destruct (mx_step_3d_partial E v hl kl ymin st e eps a b inc) as (st1 & tan & U & ST & D); auto; [apply (Forall_inv FS)|].
    cbn [mx_run]. rewrite U. cbn [rbind fst].
    destruct D as [(FA & N & _)|(e' & a' & b' & F' & D1 & D2 & D3 & D4 & _ & FL & _)].
    + destruct (mx_failed_run E v hl kl t st1 N) as (st' & R' & N'). exists st'. auto.
    + destruct FL as (A1 & A2 & A3 & A4 & _ & _ & A7 & _).
      destruct (IH (fun i j => eps i j + inc i j) a0 st1 (Forall_inv_tail FS)) as (st' & R' & D').
      { exists e', a', b'. repeat (split; [assumption|]). split; [lra|]. split; [|assumption].
        rewrite A2. unfold trace in *. simpl in *. lra. }
      exists st'. split; [exact R'|]. destruct D' as [N|G'']; [left; exact N|right].
      destruct G'' as (e2 & a2 & b2 & K1 & K2 & K3 & K4 & K5 & K6 & K7 & K8 & K9 & K10 & K11).
      exists e2, a2, b2. repeat (split; [assumption|]). split.
      { rewrite K6. f_equal. apply kmf_ext. intros i j _ _. unfold tsum. simpl. ring. }
      repeat (split; [assumption|]). split; [|assumption].
      rewrite K10. unfold trace, tsum. simpl. ring.
Qed.

(** ** Linear hardening *)
Lemma mx_linear_one_correction s0 h c0 k G q acc fuel :
  0 <= acc -> 0 < 3 * G + h + k -> 0 < s0 -> 0 <= h -> s0 + h * acc < q ->
  let x := (q - (s0 + h * acc)) / (3 * G + h + k) in
  0 < x /\
  mx_newton (linear_law s0 h) (linear_law c0 k) q G acc (c0 + k * acc) su_conv_tol (S fuel) true 0
  = Some (x, c0 + k * (acc + x), Fin (k + h)) /\
  q - 3 * G * x - k * x - (s0 + h * (acc + x)) = 0.
Proof.
  intros HA HJ HS Hh HV x.
  assert (XP : 0 < x) by (apply Rdiv_lt_0_compat; lra).
  assert (RZ : q - 3 * G * x - k * x - (s0 + h * (acc + x)) = 0) by (unfold x; field; lra).
  split; [exact XP|]. split; [|exact RZ].
  cbn [mx_newton]. unfold linear_law at 1 2. rewrite Rplus_0_r, relu_pos by auto. rewrite andb_false_r. cbn [slope_add].
  unfold mx_residual at 1.
  destruct (Req_EM_T (- 3 * G - (k + h)) 0) as [Z|Z]; [lra|].
  replace (0 + - (q - 3 * G * 0 - (c0 + k * acc) + (c0 + k * acc) - (s0 + h * acc)) / (- 3 * G - (k + h)))
    with x by (unfold x; field; lra).
  assert (YP : 0 < s0 + h * (acc + x)) by (pose proof (Rmult_le_pos h (acc + x)); lra).
  destruct fuel; cbn [mx_newton]; unfold linear_law at 1 2; rewrite relu_pos by lra; unfold mx_residual;
    replace (q - 3 * G * x - (c0 + k * (acc + x)) + (c0 + k * acc) - (s0 + h * (acc + x))) with 0 by lra;
    rewrite Rabs_R0; unfold quot_lt;
    (destruct (Req_EM_T (Rabs (s0 + h * (acc + x))) 0) as [Q|Q];
      [exfalso; apply (Rabs_no_R0 (s0 + h * (acc + x))); [lra|exact Q]|]);
    replace (0 / Rabs (s0 + h * (acc + x))) with 0 by (field; exact Q);
    rewrite (proj2 (rltb_iff 0 su_conv_tol)) by (unfold su_conv_tol; lra); reflexivity.
Qed.

Lemma mx_return_linear s0 h c0 k G q acc :
  0 <= acc -> 0 < 3 * G + h + k -> 0 < s0 -> 0 <= h ->
  let y0 := s0 + h * acc in
  let x := (q - y0) / (3 * G + h + k) in
  mx_return (linear_law s0 h) (linear_law c0 k) G q acc =
    if quot_le (q - y0) y0 su_conv_tol then MElastic else MPlastic x (k * x) (Fin (k + h)).
Proof.
  intros HA HJ HS Hh y0 x. unfold mx_return.
  assert (L1 : linear_law s0 h acc = Some (y0, Fin h)) by (unfold linear_law; rewrite relu_pos by auto; reflexivity).
  assert (L2 : linear_law c0 k acc = Some (c0 + k * acc, Fin k)) by (unfold linear_law; rewrite relu_pos by auto; reflexivity).
  rewrite L1, L2. assert (YP : 0 < y0) by (unfold y0; pose proof (Rmult_le_pos h acc); lra).
  destruct (quot_le (q - y0) y0 su_conv_tol) eqn:Q; [reflexivity|].
  apply quot_le_pos_false in Q; [|lra].
  assert (V : y0 < q) by (assert (0 < y0 * su_conv_tol) by (apply Rmult_lt_0_compat; [lra|unfold su_conv_tol; lra]); lra).
  destruct (mx_linear_one_correction s0 h c0 k G q acc (pred su_max_n_iterations) HA HJ HS Hh V) as (_ & NW & _).
  change (S (pred su_max_n_iterations)) with su_max_n_iterations in NW. fold y0 x in NW. rewrite NW.
  f_equal. ring.
Qed.

(** With linear hardening of both kinds the update never fails, is elastic
    exactly inside the yield surface (to tolerance), and has the closed form of
    the theory for stress and accumulated plastic strain. *)
Theorem mx_linear_update E v s0 h c0 k et acc b :
  0 < E -> -1 < v -> 2 * small <= s0 -> 0 <= h -> 0 <= k -> 0 <= acc -> symmetric 3 et -> symmetric 3 b -> trace 3 b = 0 ->
  let G := lame_mu E v in
  let eta := relative_stress (hooke (lame_lambda E v) G et) b in
  let q := equivalent eta in
  let y0 := s0 + h * acc in
  let x := (q - y0) / (3 * G + h + k) in
  exists c, mx_core E v (linear_law s0 h) (linear_law c0 k) (Some (kmf et)) (Some acc) (Some (kmf b)) = Ok c /\
   ((q <= y0 * (1 + / 1000000) /\ mc_outcome c = MElastic /\ mc_stress c = Some (kmf (hooke (lame_lambda E v) G et)) /\
     mc_acc c = Some acc /\ mc_back c = Some (kmf b)) \/
    (y0 * (1 + / 1000000) < q /\ mc_outcome c = MPlastic x (k * x) (Fin (k + h)) /\ 0 < x /\ mc_acc c = Some (acc + x) /\
     exists e' b' n, mc_e c = Some (kmf e') /\ mc_stress c = Some (kmf (hooke (lame_lambda E v) G e')) /\
       mc_back c = Some (kmf b') /\ 0 < n /\ n * n = ddot 3 eta eta /\
       eq2 3 e' (fun i j => et i j - x * sqrt (3 / 2) / n * eta i j) /\
       eq2 3 b' (fun i j => b i j + k * x * sqrt (3 / 2) / n * eta i j))).
Proof.
  intros HE Hv YM Hh Hk HA S Sb Tb G eta q y0 x.
  pose proof (shear_positive E v HE Hv) as GP. fold G in GP.
  assert (SM : 0 < small) by (unfold small; lra).
  assert (TP : 0 < su_conv_tol) by (unfold su_conv_tol; lra).
  assert (Y0 : s0 <= y0) by (unfold y0; pose proof (Rmult_le_pos h acc); lra).
  destruct (mx_core_3d E v (linear_law s0 h) (linear_law c0 k) et acc b S Sb) as (c & EC & EO & D).
  exists c. split; [exact EC|]. change (relative_stress (sig_of E v et) b) with eta in *. fold G q in EO.
  rewrite (mx_return_linear s0 h c0 k G q acc HA ltac:(lra) ltac:(lra) Hh) in EO. cbv zeta in EO. fold y0 x in EO.
  destruct (quot_le (q - y0) y0 su_conv_tol) eqn:Q.
  - left. apply quot_le_pos in Q; [|lra]. unfold su_conv_tol in Q. split; [lra|]. rewrite EO in D.
    destruct D as (D1 & D2 & D3 & D4 & D5). auto.
  - right. apply quot_le_pos_false in Q; [|lra]. unfold su_conv_tol in Q. split; [lra|].
    assert (XP : 0 < x) by (apply Rdiv_lt_0_compat; lra). rewrite EO in D.
    destruct D as (D1 & D2 & D3 & D4 & _). split; [exact EO|]. split; [exact XP|]. split; [exact D3|].
    assert (N : small < tnorm eta).
    { assert (s0 < q) by nra. unfold q, equivalent in *. pose proof sqrt32_pos. pose proof sqrt32_lt2. nra. }
    exists (mx_e E v et b x), (mx_b E v et b (k * x)), (tnorm eta).
    split; [exact D1|]. split; [exact D2|]. split; [exact D4|]. split; [lra|]. split; [apply tnorm_sq|].
    split; intros i j _ _; unfold mx_e, mx_b; change (relative_stress (sig_of E v et) b) with eta;
      rewrite (flow_factor_eta E v et b N : flow_factor eta = sqrt (3 / 2) / tnorm eta); unfold Rdiv; ring.
Qed.

(** The theory's plastic step with linear kinematic hardening would end on the
    yield surface; the one of the code does not (in shear, with E = 2, nu = 0). *)
Lemma shear_trace t : trace 3 (shear t) = 0.
Proof. unfold trace, shear. simpl. ring. Qed.
Lemma zero2_sym : symmetric 3 zero2.
Proof. intros i j _ _. reflexivity. Qed.
Lemma zero2_trace : trace 3 zero2 = 0.
Proof. unfold trace, zero2. simpl. ring. Qed.

Lemma shear_equivalent t : 0 <= t -> equivalent (relative_stress (sig_of 2 0 (shear t)) zero2) = 2 * sqrt 3 * t.
Proof.
  intros T. unfold equivalent.
  rewrite (tnorm_ext _ (deviator3 (sig_of 2 0 (shear t)))) by (intros i j _ _; unfold relative_stress, zero2; ring).
  rewrite shear_norm by auto.
  replace (sqrt 3) with (sqrt (3 / 2) * sqrt 2); [ring|]. rewrite <- sqrt_mult by lra. f_equal. field.
Qed.

(** Both failures of consistency: a state strictly inside the yield surface
    and, for strong kinematic hardening, one far outside. *)
Theorem mx_step_refuted :
  (exists E v s0 k et c e' a' b', 0 < E /\ -1 < v /\ 2 * small <= s0 /\ 0 <= k /\ symmetric 3 et /\
     mx_core E v (linear_law s0 0) (linear_law 0 k) (Some (kmf et)) (Some 0) (Some (kmf zero2)) = Ok c /\
     mx_is_plast (mc_outcome c) = true /\ mx_is_fail (mc_outcome c) = false /\
     mc_e c = Some (kmf e') /\ mc_acc c = Some a' /\ mc_back c = Some (kmf b') /\
     equivalent (relative_stress (hooke (lame_lambda E v) (lame_mu E v) e') b') = s0 / 2) /\
  (exists E v s0 k et c e' a' b', 0 < E /\ -1 < v /\ 2 * small <= s0 /\ 0 <= k /\ symmetric 3 et /\
     mx_core E v (linear_law s0 0) (linear_law 0 k) (Some (kmf et)) (Some 0) (Some (kmf zero2)) = Ok c /\
     mx_is_plast (mc_outcome c) = true /\ mx_is_fail (mc_outcome c) = false /\
     mc_e c = Some (kmf e') /\ mc_acc c = Some a' /\ mc_back c = Some (kmf b') /\
     equivalent (relative_stress (hooke (lame_lambda E v) (lame_mu E v) e') b') = 7 / 2 * s0).
Proof.
  assert (W : forall k t d, 0 <= k -> 0 <= t -> 1 + / 1000000 < 2 * sqrt 3 * t ->
     d = k * ((2 * sqrt 3 * t - 1) / (3 + k)) ->
     exists c e' a' b',
     mx_core 2 0 (linear_law 1 0) (linear_law 0 k) (Some (kmf (shear t))) (Some 0) (Some (kmf zero2)) = Ok c /\
     mx_is_plast (mc_outcome c) = true /\ mx_is_fail (mc_outcome c) = false /\
     mc_e c = Some (kmf e') /\ mc_acc c = Some a' /\ mc_back c = Some (kmf b') /\
     equivalent (relative_stress (hooke (lame_lambda 2 0) (lame_mu 2 0) e') b') = Rabs (1 - d / 2)).
  { intros k t d Hk Ht V Ed.
    assert (SM : 0 < small) by (unfold small; lra).
    assert (GE : lame_mu 2 0 = 1) by (unfold lame_mu; field).
    destruct (mx_core_3d 2 0 (linear_law 1 0) (linear_law 0 k) (shear t) 0 zero2 (shear_symmetric t) zero2_sym) as (c & EC & EO & D).
    destruct (mx_linear_update 2 0 1 0 0 k (shear t) 0 zero2 ltac:(lra) ltac:(lra) ltac:(unfold small; lra) ltac:(lra) Hk ltac:(lra)
      (shear_symmetric t) zero2_sym zero2_trace) as (c2 & EC2 & D2). cbv zeta in D2.
    rewrite EC in EC2. injection EC2 as <-. fold (sig_of 2 0 (shear t)) in D2. rewrite shear_equivalent in * by auto.
    destruct D2 as [(L & _)|(_ & O & XP & _)]; [lra|].
    rewrite O in D, EO. destruct D as (D1 & D2 & D3 & D4 & _).
    exists c. do 3 eexists. split; [exact EC|]. rewrite O. split; [reflexivity|]. split; [reflexivity|].
    split; [exact D1|]. split; [exact D3|]. split; [exact D4|].
    set (x := (2 * sqrt 3 * t - (1 + 0 * 0)) / (3 * lame_mu 2 0 + 0 + k)) in *.
    fold (sig_of 2 0 (mx_e 2 0 (shear t) zero2 x)).
    rewrite mx_relative_size; [|apply zero2_trace|].
    - rewrite shear_equivalent by auto. f_equal. rewrite GE.
      assert (EX : x = (2 * sqrt 3 * t - 1) / (3 + k)) by (unfold x; rewrite GE; field; lra).
      rewrite Ed, <- EX.
      replace (2 * sqrt 3 * t) with (1 + (3 + k) * x) by (rewrite EX; field; lra). field.
    - pose proof (shear_equivalent t Ht) as Q. unfold equivalent in Q. pose proof sqrt32_pos. pose proof sqrt32_lt2. unfold small. nra. }
  assert (S3 : sqrt 3 * sqrt 3 = 3) by (apply sqrt_sqrt; lra).
  assert (S3P : 0 < sqrt 3) by (apply sqrt_lt_R0; lra).
  assert (Q1 : 2 * sqrt 3 * (sqrt 3 / 2) = 3) by (replace (2 * sqrt 3 * (sqrt 3 / 2)) with (sqrt 3 * sqrt 3) by field; exact S3).
  assert (Q2 : 2 * sqrt 3 * (11 * sqrt 3 / 6) = 11).
  { replace (2 * sqrt 3 * (11 * sqrt 3 / 6)) with (11 / 3 * (sqrt 3 * sqrt 3)) by field. rewrite S3. field. }
  split.
  - destruct (W 3 (sqrt 3 / 2) 1 ltac:(lra) ltac:(lra) ltac:(rewrite Q1; lra) ltac:(rewrite Q1; field))
      as (c & e' & a' & b' & R1 & R2 & R3 & R4 & R5 & R6 & R7).
    exists 2, 0, 1, 3, (shear (sqrt 3 / 2)), c, e', a', b'. split; [lra|]. split; [lra|]. split; [unfold small; lra|].
    split; [lra|]. split; [apply shear_symmetric|]. repeat (split; [assumption|]). rewrite R7, Rabs_right; lra.
  - destruct (W 27 (11 * sqrt 3 / 6) 9 ltac:(lra) ltac:(lra) ltac:(rewrite Q2; lra) ltac:(rewrite Q2; field))
      as (c & e' & a' & b' & R1 & R2 & R3 & R4 & R5 & R6 & R7).
    exists 2, 0, 1, 27, (shear (11 * sqrt 3 / 6)), c, e', a', b'. split; [lra|]. split; [lra|]. split; [unfold small; lra|].
    split; [lra|]. split; [apply shear_symmetric|]. repeat (split; [assumption|]). rewrite R7, Rabs_left; lra.
Qed.

(** ** Without kinematic hardening *)
(** A constant kinematic hardening stress and a zero back stress give exactly
    the von Mises model with isotropic hardening; the back stress stays zero. *)
Definition constant_law (c : R) : hlaw := fun _ => Some (c, Fin 0).

Lemma mx_newton_constant hl c q G acc tol : forall fuel first x,
  mx_newton hl (constant_law c) q G acc c tol fuel first x
  = omap (fun p => (fst p, c, snd p)) (newton hl q G acc tol fuel first x).
Proof.
  induction fuel as [|n IH]; intros first x; cbn [mx_newton newton]; unfold constant_law at 1, mx_residual;
    destruct (hl (acc + x)) as [[y H]|]; try reflexivity;
    replace (q - 3 * G * x - c + c - y) with (q - 3 * G * x - y) by ring.
  - destruct (quot_lt _ _ _ && negb first); [|reflexivity]. destruct H; cbn; [rewrite Rplus_0_l|]; reflexivity.
  - destruct (quot_lt _ _ _ && negb first).
    + destruct H; cbn; [rewrite Rplus_0_l|]; reflexivity.
    + destruct H as [h|]; cbn [slope_add]; [rewrite Rplus_0_l; destruct (Req_EM_T _ 0); [reflexivity|]|]; apply IH.
Qed.

Definition mx_of_vm (o : outcome) : mx_outcome :=
  match o with OElastic => MElastic | OPlastic x H => MPlastic x 0 H | OFailed => MFailed end.
Lemma mx_return_constant hl c G q acc : mx_return hl (constant_law c) G q acc = mx_of_vm (return_mapping hl G q acc).
Proof.
  unfold mx_return, return_mapping. destruct (hl acc) as [[y h]|]; [|reflexivity].
  destruct (quot_le _ _ _); [reflexivity|]. unfold constant_law at 1. rewrite mx_newton_constant.
  destruct (newton _ _ _ _ _ _ _ _) as [[x H]|]; cbn; [rewrite Rminus_diag_eq by reflexivity|]; reflexivity.
Qed.

Lemma vsub_zeros : forall l, vsub l (repeat 0 (length l)) = l.
Proof. induction l as [|a l IH]; [reflexivity|]. cbn. f_equal; [ring|exact IH]. Qed.
Lemma vadd_zeros : forall l, vadd (repeat 0 (length l)) (vscale 0 l) = repeat 0 (length l).
Proof. induction l as [|a l IH]; [reflexivity|]. cbn. f_equal; [ring|exact IH]. Qed.

Lemma mx_tangent_of_vm E v G q ft o : mx_tangent E v G q ft (mx_of_vm o) = vm_tangent E v G q ft o.
Proof. destruct o; reflexivity. Qed.
Definition zeros : list R := repeat 0 6.
Lemma mx_rbind {A B} (a : A) (f : A -> res B) : rbind (Ok a) f = f a.
Proof. reflexivity. Qed.
Lemma mx_core_constant E v hl c et acc :
  mx_core E v hl (constant_law c) et acc (Some zeros)
  = rbind (vm_core E v hl et acc) (fun o =>
      Ok (MCore (vc_e o) (vc_stress o) (vc_acc o) (if is_failed (vc_outcome o) then None else Some zeros)
            (mx_of_vm (vc_outcome o)) (vc_tangent o))).
Proof.
  unfold mx_core, vm_core. rewrite devproj_mf, iso_tangent_mf, !mx_rbind. generalize (iso_mf (lame_lambda E v) (2 * lame_mu E v)) as Ce.
  assert (LP : length (iso_mf (-(1/3)) 1) = 6%nat) by reflexivity. revert LP. generalize (iso_mf (-(1/3)) 1) as Pd. intros Pd LP Ce.
  destruct et as [et|]; [|reflexivity]. destruct acc as [acc|]; [|reflexivity].
  assert (L : length (mv Pd (mv Ce et)) = 6%nat) by (unfold mv; rewrite map_length; exact LP).
  assert (VZ : vsub (mv Pd (mv Ce et)) zeros = mv Pd (mv Ce et)) by (unfold zeros; rewrite <- L; apply vsub_zeros).
  rewrite VZ. clear VZ. revert L. generalize (mv Pd (mv Ce et)) as s. intros s L. cbv zeta.
  rewrite mx_return_constant.
  assert (FL : length (flow_vector s) = 6%nat) by (unfold flow_vector, vscale; rewrite map_length; exact L).
  assert (BZ : vadd zeros (vscale 0 (flow_vector s)) = zeros) by (unfold zeros; rewrite <- FL; apply vadd_zeros).
  revert BZ. generalize (flow_vector s) as fl. intros fl BZ.
  generalize (vget_tensor_from_mf2 fl 3 order_sym_3d true) as r1. intros [ft|]; [|reflexivity]. rewrite !mx_rbind.
  rewrite mx_tangent_of_vm.
  generalize (vm_tangent E v (lame_mu E v) (vm_equivalent s) ft (return_mapping hl (lame_mu E v) (vm_equivalent s) acc)) as t.
  generalize (return_mapping hl (lame_mu E v) (vm_equivalent s) acc) as o. intros o t.
  generalize (match t with Some t0 => rbind (vget_tensor_mf4 t0 3 order_sym_3d true) (fun m => Ok (Some m)) | None => Ok None end) as r2.
  intros [tm|]; [|reflexivity]. rewrite !mx_rbind.
  destruct o as [|x H|]; cbn [mx_of_vm]; rewrite mx_rbind; [reflexivity| |reflexivity].
  rewrite BZ. reflexivity.
Qed.

(** The whole state update, in three dimensions and in plane strain. *)
Theorem mx_without_kinematic_hardening pt E v hl c inc st :
  (pt = 1 \/ pt = 4)%nat ->
  let z := if Nat.eqb pt 4 then repeat 0 6 else repeat 0 3 in
  match vm_state_update pt E v hl inc st, mx_state_update pt E v hl (constant_law c) inc (MState st (Some z) (Some 0)) with
  | Ok (st', tan), Ok (mst', tan') =>
      ms_vm mst' = st' /\ tan' = tan /\
      (vs_fail st' = false -> ms_back mst' = Some z /\ ms_back33 mst' = Some 0) /\
      (vs_fail st' = true -> ms_back mst' = None)
  | Err e, Err e' => e = e'
  | _, _ => False
  end.
Proof.
  intros [->| ->] z; subst z; unfold mx_state_update, vm_state_update; cbn [get_problem_type_parameters rbind Nat.eqb].
  - rewrite mf2_2d. cbn [rbind]. unfold kmf2. rewrite to3d. cbn [rbind ms_vm ms_back ms_back33].
    destruct (lift_res (omap2 vget_state_3Dmf_from_2Dmf (vs_e st) (vs_e33 st))) as [eo|]; [|reflexivity]. cbn [rbind].
    cbn [omap2 omap repeat]. rewrite to3d. cbn [lift_res rbind].
    change [0; 0; 0; 0; 0; 0] with zeros. rewrite mx_core_constant.
    set (et := omap _ eo). destruct (vm_core E v hl et (vs_acc st)) as [o|]; [|reflexivity].
    cbn [rbind mc_e mc_stress mc_acc mc_back mc_outcome mc_tangent].
    destruct (lift_res (omap vget_state_2Dmf_from_3Dmf et)) as [t2|]; [|reflexivity]. cbn [rbind].
    destruct (lift_res (omap vget_state_2Dmf_from_3Dmf (vc_e o))) as [e2|]; [|reflexivity]. cbn [rbind].
    destruct (lift_res (omap vget_state_2Dmf_from_3Dmf (vc_stress o))) as [s2|]; [|reflexivity]. cbn [rbind].
    destruct (vc_outcome o); cbn [is_failed is_plastic mx_of_vm mx_is_plast mx_is_fail omap lift_res rbind]; unfold zeros; cbn [repeat];
      rewrite ?to2d; cbn [lift_res rbind];
      (destruct (lift_res (omap vget_state_2Dmf_from_3Dmf_mat (vc_tangent o))) as [m|]; [|reflexivity]); cbn;
      repeat split; auto; try discriminate.
  - rewrite mf2_3d. cbn [rbind ms_vm ms_back]. rewrite mx_core_constant.
    destruct (vm_core E v hl _ (vs_acc st)) as [o|]; [|reflexivity].
    cbn [rbind mc_e mc_stress mc_acc mc_back mc_outcome mc_tangent].
    destruct (vc_outcome o); cbn; repeat split; auto; try discriminate.
Qed.

(** ** Cases *)
(** The initial state is good, so that histories start somewhere. *)
Example ex_mx_init : exists st, mx_state_init 4 = Ok st /\ mx_good 2 0 zero2 0 st.
Proof.
  eexists. split; [unfold mx_state_init, vm_state_init; cbn [get_problem_type_parameters rbind]; rewrite mf2_3d; cbn [rbind]; reflexivity|].
  exists zero2, 0, zero2. split; [apply zero2_sym|]. split; [apply zero2_sym|]. split; [apply zero2_trace|].
  cbn. repeat (split; [reflexivity || lra|]). f_equal. apply kmf_ext. intros i j _ _. unfold hooke, zero2, trace. simpl. ring.
Qed.
(** A history of two shear increments, plastic hardening of both kinds. *)
Example ex_mx_history : exists st st', mx_state_init 4 = Ok st /\
  mx_run 4 2 0 (linear_law 1 1) (linear_law 0 3) [shear 1; shear 1] st = Ok st' /\
  (vs_e (ms_vm st') = None \/ mx_good 2 0 (fun i j => zero2 i j + tsum [shear 1; shear 1] i j) 0 st').
Proof.
  destruct ex_mx_init as (st & I & G). exists st.
  destruct (mx_history 2 0 (linear_law 1 1) (linear_law 0 3) 1 ltac:(lra) ltac:(lra) ltac:(unfold small; lra)
    (linear_law_above 1 1 ltac:(lra)) (linear_law_monotone 1 1 ltac:(lra)) (linear_law_monotone 0 3 ltac:(lra))
    [shear 1; shear 1] zero2 0 st) as (st' & R & D).
  - repeat constructor; apply shear_symmetric.
  - exact G.
  - exists st'. auto.
Qed.
(** A plastic step with kinematic hardening: the multiplier is (3 - 1) / (3 + 0 + 3). *)
Example ex_mx_plastic : mx_return (linear_law 1 0) (linear_law 0 3) 1 3 0 = MPlastic (1 / 3) 1 (Fin 3).
Proof.
  rewrite mx_return_linear by lra. cbv zeta. destruct (quot_le _ _ _) eqn:Q.
  - apply quot_le_pos in Q; [|lra]. unfold su_conv_tol in Q. lra.
  - f_equal; [field|field|f_equal; ring].
Qed.

Print Assumptions mx_step_3d_partial.
Print Assumptions mx_step_2d_partial.
Print Assumptions mx_step_refuted.
Print Assumptions mx_history.
Print Assumptions mx_without_kinematic_hardening.
