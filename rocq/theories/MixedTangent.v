(** Mixed hardening von Mises material: the consistent tangent is the derivative
    of the stress. *)
From Coq Require Import Reals List Arith Bool Lia Lra Psatz.
From Verif Require Import Lib MatrixModel MatrixSpec TensorModel TensorSpec TensorProofs HardeningModel HardeningProps
  ElasticModel ElasticSpec ElasticProofs ElasticProps VonMisesModel VonMisesSpec VonMisesProofs VonMisesProps
  VonMisesTangent VmapModel VmapSpec VmapProps MixedModel MixedSpec MixedProofs MixedProps.
Import ListNotations.
Local Open Scope R_scope.

(** Stress of the three-dimensional core as a function of the trial strain. *)
Definition mx_core_stress (E v : R) (hl kl : hlaw) (a : R) (b q : T2) : list R :=
  match mx_core E v hl kl (Some (kmf q)) (Some a) (Some (kmf b)) with
  | Ok c => match mc_stress c with Some s => s | None => [] end
  | Err _ => []
  end.
Definition mx_core_tangent (E v : R) (hl kl : hlaw) (a : R) (b p : T2) (plast : bool) : Prop :=
  exists c m, mx_core E v hl kl (Some (kmf p)) (Some a) (Some (kmf b)) = Ok c /\ mc_tangent c = Some m /\
    mx_is_plast (mc_outcome c) = plast /\ mx_is_fail (mc_outcome c) = false /\
    length m = 6%nat /\ (forall r, In r m -> length r = 6%nat) /\
    is_tangent (mx_core_stress E v hl kl a b) p m.
Lemma mx_core_stress_ext E v hl kl a b p q : eq2 3 p q -> mx_core_stress E v hl kl a b p = mx_core_stress E v hl kl a b q.
Proof. intros H. unfold mx_core_stress. rewrite (kmf_ext _ _ H). reflexivity. Qed.

(** States below a level of equivalent stress form an open set on every line. *)
Lemma vmises_below E v p d cc : vmises (sig_of E v p) < cc ->
  exists r, 0 < r /\ forall s, Rabs (s - 0) < r -> vmises (sig_of E v (fun i j => p i j + s * d i j)) < cc.
Proof.
  intros V. set (et := fun (s : R) i j => p i j + s * d i j).
  set (u := deviator3 (sig_of E v p)). set (w := deviator3 (sig_of E v d)).
  set (f := fun s => - (3 / 2 * (ddot 3 u u + s * (2 * ddot 3 u w + s * ddot 3 w w)))).
  assert (SQ : forall s, f s = - (vmises (sig_of E v (et s)) * vmises (sig_of E v (et s)))).
  { intros s. rewrite vmises_norm. unfold et. rewrite (norm_et E v p d s). fold u w. unfold f.
    assert (0 <= ddot 3 u u + s * (2 * ddot 3 u w + s * ddot 3 w w)).
    { replace (ddot 3 u u + s * (2 * ddot 3 u w + s * ddot 3 w w))
        with (ddot 3 (fun i j => u i j + s * w i j) (fun i j => u i j + s * w i j)).
      - apply ddot_nonneg.
      - unfold ddot, sum2. simpl. ring. }
    set (q := ddot 3 u u + s * (2 * ddot 3 u w + s * ddot 3 w w)) in *.
    transitivity (- ((sqrt (3/2) * sqrt (3/2)) * (sqrt q * sqrt q))); [|ring].
    rewrite sqrt32_sq, sqrt_sqrt by auto. reflexivity. }
  assert (Df : exists l, derivable_pt_lim f 0 l).
  { eexists. unfold f. apply derivable_pt_lim_opp, derivable_pt_lim_scal.
    apply (derivable_pt_lim_plus (fun _ => ddot 3 u u) (fun s => s * (2 * ddot 3 u w + s * ddot 3 w w))).
    + apply derivable_pt_lim_const.
    + apply (derivable_pt_lim_mult (fun s => s) (fun s => 2 * ddot 3 u w + s * ddot 3 w w)).
      * apply derivable_pt_lim_id.
      * apply dlim_affine. }
  destruct Df as (l & Df).
  assert (E0 : forall i j, et 0 i j = p i j) by (intros; unfold et; ring).
  assert (V0 : vmises (sig_of E v (et 0)) = vmises (sig_of E v p)).
  { unfold vmises. f_equal. f_equal. apply ddot_ext; intros i j _ _;
      unfold deviator3, sig_of, hooke, trace; simpl; rewrite !E0; reflexivity. }
  pose proof (vmises_nonneg (sig_of E v p)) as NN.
  destruct (dlim_near f 0 l (- (cc * cc)) Df) as (r & RP & RN).
  { rewrite SQ, V0. nra. }
  exists r. split; [exact RP|]. intros s Hs. specialize (RN s Hs). rewrite SQ in RN. fold (et s).
  pose proof (vmises_nonneg (sig_of E v (et s))). nra.
Qed.

(** Elastic range, arbitrary hardening laws. *)
Lemma mx_elastic_core_tangent E v hl kl a b p y H : lame_mu E v <> 0 ->
  symmetric 3 p -> symmetric 3 b -> trace 3 b = 0 -> hl a = Some (y, H) -> 0 < y ->
  equivalent (relative_stress (hooke (lame_lambda E v) (lame_mu E v) p) b) < y * (1 + su_conv_tol) ->
  mx_core_tangent E v hl kl a b p false.
Proof.
  intros GN Sp Sb Tb HY YP V.
  assert (EL : forall q, symmetric 3 q -> equivalent (relative_stress (sig_of E v q) b) < y * (1 + su_conv_tol) ->
    exists c, mx_core E v hl kl (Some (kmf q)) (Some a) (Some (kmf b)) = Ok c /\ mc_outcome c = MElastic /\
      mc_stress c = Some (kmf (sig_of E v q)) /\
      mc_tangent c = Some (iso_mf (lame_lambda E v) (2 * lame_mu E v))).
  { intros q Sq Vq. destruct (mx_core_3d E v hl kl q a b Sq Sb) as (c & EC & O & D). exists c. split; [exact EC|].
    assert (O' : mc_outcome c = MElastic).
    { rewrite O. apply mx_return_elastic. exists y, H. split; [exact HY|]. apply quot_le_pos; [exact YP|].
      lra. }
    rewrite O' in D. destruct D as (_ & D2 & _ & _ & D4). auto. }
  destruct (EL p Sp V) as (c & EC & O & _ & TM).
  eexists c, _. split; [exact EC|]. split; [exact TM|]. split; [rewrite O; reflexivity|].
  split; [rewrite O; reflexivity|].
  split; [reflexivity|]. split; [intros r Hr; apply (proj2 (mf4_rows _ _ (iso_tangent_mf E v)) r Hr)|].
  intros d Sd k Hk. rewrite hooke_kmf.
  destruct (vmises_below E v (shifted (lame_mu E v) p b) d (y * (1 + su_conv_tol))) as (r & RP & RN).
  { rewrite equivalent_shift by auto. exact V. }
  apply (dlim_local _ (fun s => nth k (kmf (sig_of E v (fun i j => p i j + s * d i j))) 0) 0 _ r RP).
  { intros s Hs. specialize (RN s Hs).
    assert (Q : equivalent (relative_stress (sig_of E v (fun i j => p i j + s * d i j)) b) < y * (1 + su_conv_tol)).
    { rewrite <- equivalent_shift by auto. eapply Rle_lt_trans; [|exact RN]. right. rewrite !vmises_norm. f_equal.
      apply tnorm_ext. intros i j _ _. unfold deviator3, sig_of, hooke, trace, shifted. simpl. field. exact GN. }
    destruct (EL _ (et_symmetric p d Sp Sd s) Q) as (cs & ECs & Os & ST & _).
    unfold mx_core_stress. rewrite ECs, ST. reflexivity. }
  apply (kmf_deriv (fun s => sig_of E v (fun i j => p i j + s * d i j)) (sig_of E v d)); [|exact Hk]. intros i j Hi Hj.
  apply (dlim_ext _ (fun s => sig_of E v p i j + s * sig_of E v d i j)).
  { intros s. apply (sig_et E v p d s). }
  apply dlim_affine.
Qed.

(** Linear hardening of both kinds, plastic range: the stress is the back
    stress plus the stress of an isotropic model at the shifted trial strain. *)
Lemma mx_linear_core_tangent E v s0 h c0 k a b p :
  0 < E -> -1 < v -> 2 * small <= s0 -> 0 <= h -> 0 <= k -> 0 <= a -> symmetric 3 p -> symmetric 3 b -> trace 3 b = 0 ->
  (s0 + h * a) * (1 + su_conv_tol) < equivalent (relative_stress (hooke (lame_lambda E v) (lame_mu E v) p) b) ->
  mx_core_tangent E v (linear_law s0 h) (linear_law c0 k) a b p true.
Proof.
  intros HE Hv YM Hh Hk HA Sp Sb Tb V.
  set (y0 := s0 + h * a) in *.
  pose proof (shear_positive E v HE Hv) as GP. set (G := lame_mu E v) in *.
  assert (GN : lame_mu E v <> 0) by (fold G; lra).
  assert (SM : 0 < small) by (unfold small; lra).
  assert (TP : 0 < su_conv_tol) by (unfold su_conv_tol; lra).
  assert (Y0 : s0 <= y0) by (unfold y0; pose proof (Rmult_le_pos h a); lra).
  set (P := shifted G p b).
  assert (SP : symmetric 3 P) by (apply shifted_symmetric; auto).
  assert (Z0 : y0 + (h + k) * 0 = y0) by ring.
  assert (VP : (y0 + (h + k) * 0) * (1 + su_conv_tol) < vmises (hooke (lame_lambda E v) (lame_mu E v) P)).
  { rewrite Z0. pose proof (equivalent_shift E v p b GN Tb) as Q. unfold sig_of in Q. unfold P, G. rewrite Q. exact V. }
  destruct (linear_core_tangent E v y0 (h + k) 0 P HE Hv ltac:(lra) ltac:(lra) ltac:(lra) SP VP)
    as (cv & mvm & ECv & TMv & PLv & _ & _ & TV).
  (* plastic steps of the mixed model *)
  assert (PL : forall q, symmetric 3 q -> y0 * (1 + su_conv_tol) < equivalent (relative_stress (sig_of E v q) b) ->
    small < tnorm (relative_stress (sig_of E v q) b) /\
    exists c, mx_core E v (linear_law s0 h) (linear_law c0 k) (Some (kmf q)) (Some a) (Some (kmf b)) = Ok c /\
      let x := (equivalent (relative_stress (sig_of E v q) b) - y0) / (3 * G + (h + k)) in
      mc_outcome c = MPlastic x (k * x) (Fin (h + k)) /\ mc_stress c = Some (kmf (sig_of E v (mx_e E v q b x))) /\
      exists m t4 flow_t, mc_tangent c = Some m /\ vget_tensor_mf4 t4 3 order_sym_3d true = Ok m /\
        mx_tangent E v G (equivalent (relative_stress (sig_of E v q) b)) flow_t (MPlastic x (k * x) (Fin (h + k))) = Some t4 /\
        eq2 3 flow_t (fun i j => flow_factor (relative_stress (sig_of E v q) b) * relative_stress (sig_of E v q) b i j)).
  { intros q Sq Vq. split.
    { unfold equivalent in Vq. pose proof sqrt32_pos. pose proof sqrt32_lt2. nra. }
    destruct (mx_core_3d E v (linear_law s0 h) (linear_law c0 k) q a b Sq Sb) as (c & EC & O & D).
    exists c. split; [exact EC|]. cbv zeta.
    rewrite (mx_return_linear s0 h c0 k (lame_mu E v) (equivalent (relative_stress (sig_of E v q) b)) a HA ltac:(fold G; lra) ltac:(lra) Hh) in O.
    cbv zeta in O. fold y0 G in O.
    destruct (quot_le _ _ _) eqn:Q in O.
    { apply quot_le_pos in Q; [|lra]. lra. }
    replace (k + h) with (h + k) in O by ring.
    replace (3 * G + h + k) with (3 * G + (h + k)) in O by ring.
    split; [exact O|]. rewrite O in D. destruct D as (_ & D2 & _ & _ & D5). split; [exact D2|]. exact D5. }
  (* plastic steps of the shifted isotropic model *)
  assert (PV : forall q, symmetric 3 q -> y0 * (1 + su_conv_tol) < vmises (sig_of E v q) ->
    exists c, vm_core E v (linear_law y0 (h + k)) (Some (kmf q)) (Some 0) = Ok c /\
      let x := (vmises (sig_of E v q) - y0) / (3 * G + (h + k)) in
      vc_outcome c = OPlastic x (Fin (h + k)) /\ vc_stress c = Some (kmf (sig_of E v (corrected E v q x))) /\
      exists m t4 flow_t, vc_tangent c = Some m /\ vget_tensor_mf4 t4 3 order_sym_3d true = Ok m /\
        vm_tangent E v G (vmises (sig_of E v q)) flow_t (OPlastic x (Fin (h + k))) = Some t4 /\
        eq2 3 flow_t (fun i j => flow_factor (deviator3 (sig_of E v q)) * deviator3 (sig_of E v q) i j)).
  { intros q Sq Vq.
    destruct (linear_update_exact E v y0 (h + k) q 0 HE Hv ltac:(lra) ltac:(lra) ltac:(lra) Sq) as (c & EC & D).
    exists c. split; [exact EC|]. cbv zeta in D. rewrite Z0 in D. destruct D as [(L & _)|(_ & O & _)]; [lra|]. cbv zeta.
    split; [exact O|]. destruct (core_3d E v (linear_law y0 (h + k)) q 0 Sq) as (c' & EC' & _ & D'). rewrite EC in EC'.
    injection EC' as <-. rewrite O in D'. destruct D' as (_ & D2 & _ & D4). split; [exact D2|]. exact D4. }
  destruct (PL p Sp V) as (NS & c & EC & O & _ & m & t4 & ft & TM & M4 & T4E & QF).
  destruct (mf4_rows _ _ M4) as (L1 & L2).
  exists c, m. split; [exact EC|]. split; [exact TM|]. split; [rewrite O; reflexivity|].
  split; [rewrite O; reflexivity|]. split; [exact L1|]. split; [exact L2|].
  intros d Sd n Hn.
  assert (VPs : y0 * (1 + su_conv_tol) < vmises (sig_of E v P)) by (rewrite <- Z0; exact VP).
  (* both tangents act alike *)
  assert (TT : nth n (mv m (kmf d)) 0 = nth n (mv mvm (kmf d)) 0).
  { destruct (PV P SP VPs) as (cv' & ECv' & Ov & _ & mv' & tv4 & fv & TMv' & Mv4 & Tv4E & QFv).
    rewrite ECv in ECv'. injection ECv' as <-. rewrite TMv in TMv'. injection TMv' as <-.
    assert (DE : forall i j, deviator3 (sig_of E v P) i j = relative_stress (sig_of E v p) b i j)
      by (intros; apply dev_shift; auto).
    assert (VE : vmises (sig_of E v P) = equivalent (relative_stress (sig_of E v p) b)) by (apply equivalent_shift; auto).
    assert (FE : flow_factor (relative_stress (sig_of E v p) b) = flow_factor (deviator3 (sig_of E v P)))
      by (apply flow_factor_ext; intros i j _ _; symmetry; apply DE).
    assert (NSP : small < tnorm (deviator3 (sig_of E v P))).
    { rewrite (tnorm_ext _ (relative_stress (sig_of E v p) b)) by (intros i j _ _; apply DE). exact NS. }
    assert (SD : symmetric 3 (deviator3 (sig_of E v P))) by (apply deviator_symmetric, hooke_symmetric; exact SP).
    assert (QF' : eq2 3 ft (fun i j => flow_factor (deviator3 (sig_of E v P)) * deviator3 (sig_of E v P) i j)).
    { intros i j Hi Hj. rewrite (QF i j Hi Hj), FE, DE. reflexivity. }
    assert (SF : symmetric 3 ft) by (intros i j Hi Hj; rewrite (QF' i j), (QF' j i) by auto; f_equal; apply SD; auto).
    assert (SFv : symmetric 3 fv) by (intros i j Hi Hj; rewrite (QFv i j), (QFv j i) by auto; f_equal; apply SD; auto).
    set (x := (equivalent (relative_stress (sig_of E v p) b) - y0) / (3 * G + (h + k))) in *.
    assert (T4V : vm_tangent E v G (vmises (sig_of E v P)) ft (OPlastic x (Fin (h + k))) = Some t4) by (rewrite VE; exact T4E).
    rewrite VE in Tv4E. fold x in Tv4E. rewrite <- VE in Tv4E.
    rewrite (mv_mf4 t4 m d (tangent_minor _ _ _ _ _ _ _ SF T4V) Sd M4).
    rewrite (mv_mf4 tv4 mvm d (tangent_minor _ _ _ _ _ _ _ SFv Tv4E) Sd Mv4).
    assert (N0 : 0 < tnorm (deviator3 (sig_of E v P))) by lra.
    apply (f_equal (fun l => nth n l 0)). apply kmf_ext. intros i j Hi Hj.
    rewrite (tangent_apply E v P d Sd N0 x (h + k) t4 ft i j Hi Hj NSP GN T4V QF').
    rewrite (tangent_apply E v P d Sd N0 x (h + k) tv4 fv i j Hi Hj NSP GN Tv4E QFv). reflexivity. }
  rewrite TT.
  (* both stresses differ by the back stress *)
  assert (N0 : 0 < tnorm (deviator3 (sig_of E v P))).
  { rewrite (tnorm_ext _ (relative_stress (sig_of E v p) b)) by (intros i j _ _; apply dev_shift; auto). lra. }
  pose proof (vm_deriv E v P d N0) as VD.
  destruct (dlim_near (fun s => vmises (sig_of E v (fun i j => P i j + s * d i j))) 0 _ (y0 * (1 + su_conv_tol)) VD) as (r & RP & RN).
  { eapply Rlt_le_trans; [exact VPs|]. right. rewrite !vmises_norm. f_equal. apply tnorm_ext. intros i j _ _.
    rewrite (dev_et E v P d 0 i j). ring. }
  apply (dlim_local _ (fun s => nth n (kmf b) 0 + nth n (core_stress E v (linear_law y0 (h + k)) 0 (fun i j => P i j + s * d i j)) 0) 0 _ r RP).
  { intros s Hs. specialize (RN s Hs). cbv beta in RN.
    set (q := fun i j => p i j + s * d i j). set (Q := fun i j => P i j + s * d i j) in *.
    assert (QE : forall i j, Q i j = shifted G q b i j) by (intros; unfold Q, P, shifted, q; ring).
    assert (SQ : symmetric 3 Q) by (apply et_symmetric; auto).
    assert (Sq : symmetric 3 q) by (apply et_symmetric; auto).
    assert (DE : forall i j, deviator3 (sig_of E v Q) i j = relative_stress (sig_of E v q) b i j).
    { intros i j. rewrite <- (dev_shift E v q b i j GN Tb). unfold deviator3, sig_of, hooke, trace. simpl.
      rewrite !QE. reflexivity. }
    assert (VE : vmises (sig_of E v Q) = equivalent (relative_stress (sig_of E v q) b)).
    { rewrite vmises_norm. unfold equivalent. f_equal. apply tnorm_ext. intros i j _ _. apply DE. }
    destruct (PV Q SQ RN) as (cq & ECq & _ & STq & _).
    destruct (PL q Sq ltac:(rewrite <- VE; exact RN)) as (_ & cm & ECm & _ & STm & _).
    unfold mx_core_stress, core_stress. rewrite ECm, ECq, STm, STq. rewrite VE.
    set (x := (equivalent (relative_stress (sig_of E v q) b) - y0) / (3 * G + (h + k))).
    assert (FE : flow_factor (relative_stress (sig_of E v q) b) = flow_factor (deviator3 (sig_of E v Q)))
      by (apply flow_factor_ext; intros i j _ _; symmetry; apply DE).
    assert (SE : forall i j, sig_of E v (mx_e E v q b x) i j = b i j + sig_of E v (corrected E v Q x) i j).
    { intros i j. rewrite <- (Rplus_comm (sig_of E v (corrected E v Q x) i j)).
      assert (CE : forall i j, corrected E v Q x i j = shifted G (mx_e E v q b x) b i j).
      { intros i' j'. unfold corrected, mx_e, shifted. rewrite FE, <- DE, QE. unfold shifted. ring. }
      assert (SC : sig_of E v (corrected E v Q x) i j = sig_of E v (shifted (lame_mu E v) (mx_e E v q b x) b) i j).
      { unfold sig_of, hooke, trace. simpl. rewrite !CE. reflexivity. }
      rewrite SC, sig_shift by auto. ring. }
    rewrite (kmf_ext _ (fun i j => b i j + sig_of E v (corrected E v Q x) i j)) by (intros i j _ _; apply SE).
    clear -Hn. destruct n as [|[|[|[|[|[|n]]]]]]; try lia; unfold kmf; cbn [nth]; ring. }
  eapply dlim_eq.
  - apply (derivable_pt_lim_plus (fun _ => nth n (kmf b) 0)); [apply derivable_pt_lim_const|]. apply (TV d Sd n Hn).
  - ring.
Qed.

(** ** Three dimensions and plane strain *)
Definition mx_stress_after (pt : nat) (E v : R) (hl kl : hlaw) (st : mx_state) (inc : T2) : list R :=
  match mx_state_update pt E v hl kl inc st with
  | Ok (st', _) => match vs_stress (ms_vm st') with Some s => s | None => [] end
  | Err _ => []
  end.

Lemma mx_lift_3d E v hl kl st e eps a b inc plast : vs_e (ms_vm st) = Some (kmf e) -> vs_strain (ms_vm st) = Some (kmf eps) ->
  vs_acc (ms_vm st) = Some a -> ms_back st = Some (kmf b) ->
  mx_core_tangent E v hl kl a b (fun i j => e i j + inc i j) plast ->
  exists st' m, mx_state_update 4 E v hl kl inc st = Ok (st', Some m) /\ vs_plast (ms_vm st') = plast /\
    vs_fail (ms_vm st') = false /\ is_tangent (mx_stress_after 4 E v hl kl st) inc m.
Proof.
  intros E1 E2 E3 E4 (c & m & EC & TM & PL & FL & _ & _ & T).
  assert (SA : forall q, mx_stress_after 4 E v hl kl st q = mx_core_stress E v hl kl a b (fun i j => e i j + q i j)).
  { intros q. unfold mx_stress_after, mx_core_stress, mx_state_update.
    cbn [get_problem_type_parameters rbind Nat.eqb]. rewrite mf2_3d. cbn [rbind].
    rewrite E1, E2, E3, E4. cbn [omap omap2]. rewrite kmf_add.
    generalize (mx_core E v hl kl (Some (kmf (fun i j => e i j + q i j))) (Some a) (Some (kmf b))).
    intros [cc|x]; reflexivity. }
  unfold mx_state_update. cbn [get_problem_type_parameters rbind Nat.eqb]. rewrite mf2_3d. cbn [rbind].
  rewrite E1, E2, E3, E4. cbn [omap omap2]. rewrite kmf_add, EC. cbn [rbind].
  eexists. exists m. split; [rewrite TM; reflexivity|]. split; [exact PL|]. split; [exact FL|].
  intros d Sd k Hk. eapply dlim_ext; [|apply (T d Sd k Hk)]. intros s. cbv beta.
  rewrite SA. apply (f_equal (fun l => nth k l 0)). apply mx_core_stress_ext. intros i j _ _. ring.
Qed.

Theorem mx_elastic_tangent_is_derivative E v hl kl st e eps a b inc y H :
  0 < E -> -1 < v -> symmetric 3 e -> symmetric 3 inc -> symmetric 3 b -> trace 3 b = 0 ->
  vs_e (ms_vm st) = Some (kmf e) -> vs_strain (ms_vm st) = Some (kmf eps) -> vs_acc (ms_vm st) = Some a ->
  ms_back st = Some (kmf b) -> hl a = Some (y, H) -> 0 < y ->
  equivalent (relative_stress (hooke (lame_lambda E v) (lame_mu E v) (fun i j => e i j + inc i j)) b) < y * (1 + su_conv_tol) ->
  exists st' m, mx_state_update 4 E v hl kl inc st = Ok (st', Some m) /\ vs_plast (ms_vm st') = false /\
    vs_fail (ms_vm st') = false /\ is_tangent (mx_stress_after 4 E v hl kl st) inc m.
Proof.
  intros HE Hv Se Si Sb Tb E1 E2 E3 E4 HY YP V. apply (mx_lift_3d E v hl kl st e eps a b); auto.
  apply (mx_elastic_core_tangent E v hl kl a b _ y H); auto.
  - pose proof (shear_positive E v HE Hv). lra.
  - intros i j Hi Hj. rewrite (Se i j), (Si i j) by auto. auto.
Qed.
Theorem mx_linear_tangent_is_derivative E v s0 h c0 k st e eps a b inc :
  0 < E -> -1 < v -> 2 * small <= s0 -> 0 <= h -> 0 <= k -> 0 <= a ->
  symmetric 3 e -> symmetric 3 inc -> symmetric 3 b -> trace 3 b = 0 ->
  vs_e (ms_vm st) = Some (kmf e) -> vs_strain (ms_vm st) = Some (kmf eps) -> vs_acc (ms_vm st) = Some a ->
  ms_back st = Some (kmf b) ->
  (s0 + h * a) * (1 + su_conv_tol)
    < equivalent (relative_stress (hooke (lame_lambda E v) (lame_mu E v) (fun i j => e i j + inc i j)) b) ->
  exists st' m, mx_state_update 4 E v (linear_law s0 h) (linear_law c0 k) inc st = Ok (st', Some m) /\
    vs_plast (ms_vm st') = true /\ vs_fail (ms_vm st') = false /\
    is_tangent (mx_stress_after 4 E v (linear_law s0 h) (linear_law c0 k) st) inc m.
Proof.
  intros HE Hv YM Hh Hk HA Se Si Sb Tb E1 E2 E3 E4 V. apply (mx_lift_3d E v _ _ st e eps a b); auto.
  apply mx_linear_core_tangent; auto.
  intros i j Hi Hj. rewrite (Se i j), (Si i j) by auto. auto.
Qed.

Lemma mx_core_stress_shape E v hl kl a b q : symmetric 3 q -> symmetric 3 b ->
  exists c, mx_core E v hl kl (Some (kmf q)) (Some a) (Some (kmf b)) = Ok c /\
    ((mc_stress c = None /\ mc_e c = None /\ mc_back c = None /\ mc_tangent c = None)
     \/ exists s e b' m, mc_stress c = Some (kmf s) /\ mc_e c = Some (kmf e) /\ mc_back c = Some (kmf b') /\
          mc_tangent c = Some m /\ length m = 6%nat /\ mx_core_stress E v hl kl a b q = kmf s).
Proof.
  intros S Sb. destruct (mx_core_3d E v hl kl q a b S Sb) as (c & EC & _ & D). exists c. split; [exact EC|].
  unfold mx_core_stress. rewrite EC. destruct (mc_outcome c).
  - destruct D as (D1 & D2 & _ & D4 & D5). right. rewrite D2. do 4 eexists. repeat (split; [eassumption || reflexivity|]).
    reflexivity.
  - destruct D as (D1 & D2 & _ & D3 & m & t4 & f & D4 & M & _). right. rewrite D2. do 4 eexists.
    split; [reflexivity|]. split; [eassumption|]. split; [eassumption|]. split; [eassumption|].
    split; [apply (mf4_rows _ _ M)|reflexivity].
  - destruct D as (D1 & D2 & _ & D4 & D5). left. auto.
Qed.

Lemma mx_stress_after_2d E v hl kl st e z eps a b bz inc k : symmetric 2 e -> symmetric 2 inc -> symmetric 3 (embed b bz) ->
  vs_e (ms_vm st) = Some (kmf2 e) -> vs_e33 (ms_vm st) = Some z -> vs_strain (ms_vm st) = Some (kmf2 eps) ->
  vs_acc (ms_vm st) = Some a -> ms_back st = Some (kmf2 b) -> ms_back33 st = Some bz -> (k < 3)%nat ->
  nth k (mx_stress_after 1 E v hl kl st inc) 0
  = nth (pick_k k) (mx_core_stress E v hl kl a (embed b bz) (fun i j => embed e z i j + embed inc 0 i j)) 0.
Proof.
  intros Se Si Sb E1 E1z E2 E3 E4 E4z Hk.
  destruct (mx_core_stress_shape E v hl kl a (embed b bz) _ (embed_sym e z inc Se Si) Sb) as (c & EC & D).
  unfold mx_stress_after, mx_state_update.
  cbn [get_problem_type_parameters rbind Nat.eqb]. rewrite mf2_2d. cbn [rbind].
  rewrite E1, E1z, E2, E3, E4, E4z. cbn [omap omap2 lift_res]. unfold kmf2 at 1 2 3.
  rewrite !to3d. cbn [rbind lift_res omap]. rewrite !embed_kmf, kmf_add. rewrite EC. cbn [rbind].
  unfold kmf at 1. rewrite to2d. cbn [lift_res rbind].
  destruct D as [(D1 & D2 & D3 & D4)|(s & ee & b' & m & D1 & D2 & D3 & D4 & L6 & CS)].
  - unfold mx_core_stress. rewrite EC, D1, D2, D3, D4. cbn [omap lift_res rbind omap2 ms_vm vs_stress].
    destruct k as [|[|[|k]]]; try lia; reflexivity.
  - rewrite CS, D1, D2, D3, D4. cbn [omap omap2]. unfold kmf at 1 2 3. rewrite !to2d. cbn [lift_res rbind].
    unfold vget_state_2Dmf_from_3Dmf_mat. rewrite L6. cbn [Nat.eqb pick_orders].
    replace (Nat.ltb 6 (length order_sym_3d)) with false by reflexivity. cbn [lift_res rbind ms_vm vs_stress].
    destruct k as [|[|[|k]]]; try lia; reflexivity.
Qed.

Lemma mx_lift_2d E v hl kl st e z eps a b bz inc plast : symmetric 2 e -> symmetric 2 inc -> symmetric 3 (embed b bz) ->
  vs_e (ms_vm st) = Some (kmf2 e) -> vs_e33 (ms_vm st) = Some z -> vs_strain (ms_vm st) = Some (kmf2 eps) ->
  vs_acc (ms_vm st) = Some a -> ms_back st = Some (kmf2 b) -> ms_back33 st = Some bz ->
  mx_core_tangent E v hl kl a (embed b bz) (fun i j => embed e z i j + embed inc 0 i j) plast ->
  exists st' m, mx_state_update 1 E v hl kl inc st = Ok (st', Some m) /\ vs_plast (ms_vm st') = plast /\
    vs_fail (ms_vm st') = false /\ is_tangent_2d (mx_stress_after 1 E v hl kl st) inc m.
Proof.
  intros Se Si Sb E1 E1z E2 E3 E4 E4z (c & m & EC & TM & PL & FL & L1 & L2 & T).
  destruct (mx_core_stress_shape E v hl kl a (embed b bz) _ (embed_sym e z inc Se Si) Sb) as (c' & EC' & D).
  rewrite EC in EC'. injection EC' as <-.
  destruct D as [(_ & _ & _ & D3)|(s & ee & b' & m' & D1 & D2 & D3 & D4 & _ & CS)]; [congruence|].
  unfold mx_state_update.
  cbn [get_problem_type_parameters rbind Nat.eqb]. rewrite mf2_2d. cbn [rbind].
  rewrite E1, E1z, E2, E3, E4, E4z. cbn [omap omap2 lift_res]. unfold kmf2 at 1 2 3.
  rewrite !to3d. cbn [rbind lift_res omap]. rewrite !embed_kmf, kmf_add. rewrite EC. cbn [rbind].
  unfold kmf at 1. rewrite to2d. cbn [lift_res rbind].
  rewrite D1, D2, D3, TM. cbn [omap omap2]. unfold kmf at 1 2 3. rewrite !to2d. cbn [lift_res rbind].
  unfold vget_state_2Dmf_from_3Dmf_mat. rewrite L1. cbn [Nat.eqb pick_orders].
  replace (Nat.ltb 6 (length order_sym_3d)) with false by reflexivity. cbn [lift_res rbind].
  eexists. eexists. split; [reflexivity|]. split; [exact PL|]. split; [exact FL|].
  intros d Sd k Hk.
  assert (SdE : symmetric 3 (embed d 0)).
  { intros i j Hi Hj. pose proof (Sd 0 1 ltac:(lia) ltac:(lia))%nat as S1. unfold embed.
    destruct i as [|[|[|i]]]; destruct j as [|[|[|j]]]; try lia; rewrite ?S1; reflexivity. }
  assert (PK : (pick_k k < 6)%nat) by (destruct k as [|[|[|k]]]; cbn; lia).
  eapply dlim_eq.
  - eapply dlim_ext; [|apply (T _ SdE _ PK)]. intros t. cbv beta.
    rewrite (mx_stress_after_2d E v hl kl st e z eps a b bz _ k Se) by
      (auto; intros i j Hi Hj; rewrite (Si i j), (Sd i j) by auto; auto).
    apply (f_equal (fun l => nth (pick_k k) l 0)). apply mx_core_stress_ext. intros i j Hi Hj. unfold embed.
    destruct i as [|[|[|i]]]; destruct j as [|[|[|j]]]; try lia; ring.
  - destruct m as [|r0 [|r1 [|r2 [|r3 [|r4 [|r5 [|? m]]]]]]]; try discriminate.
    assert (R0 := L2 r0 ltac:(cbn; auto)). assert (R1 := L2 r1 ltac:(cbn; auto)).
    assert (R3 := L2 r3 ltac:(cbn; auto)).
    destruct r0 as [|r00 [|r01 [|r02 [|r03 [|r04 [|r05 [|? r0]]]]]]]; try discriminate.
    destruct r1 as [|r10 [|r11 [|r12 [|r13 [|r14 [|r15 [|? r1]]]]]]]; try discriminate.
    destruct r3 as [|r30 [|r31 [|r32 [|r33 [|r34 [|r35 [|? r3]]]]]]]; try discriminate.
    destruct k as [|[|[|k]]]; try lia; cbn; ring.
Qed.

Lemma embed_back b bz : symmetric 2 b -> trace 2 b + bz = 0 -> symmetric 3 (embed b bz) /\ trace 3 (embed b bz) = 0.
Proof.
  intros S T. split.
  - intros i j Hi Hj. pose proof (S 0 1 ltac:(lia) ltac:(lia))%nat as S1. unfold embed.
    destruct i as [|[|[|i]]]; destruct j as [|[|[|j]]]; try lia; rewrite ?S1; reflexivity.
  - unfold trace, embed in *. simpl in *. lra.
Qed.
Theorem mx_elastic_tangent_is_derivative_2d E v hl kl st e z eps a b bz inc y H :
  0 < E -> -1 < v -> symmetric 2 e -> symmetric 2 inc -> symmetric 2 b -> trace 2 b + bz = 0 ->
  vs_e (ms_vm st) = Some (kmf2 e) -> vs_e33 (ms_vm st) = Some z -> vs_strain (ms_vm st) = Some (kmf2 eps) ->
  vs_acc (ms_vm st) = Some a -> ms_back st = Some (kmf2 b) -> ms_back33 st = Some bz ->
  hl a = Some (y, H) -> 0 < y ->
  equivalent (relative_stress (hooke (lame_lambda E v) (lame_mu E v) (fun i j => embed e z i j + embed inc 0 i j))
    (embed b bz)) < y * (1 + su_conv_tol) ->
  exists st' m, mx_state_update 1 E v hl kl inc st = Ok (st', Some m) /\ vs_plast (ms_vm st') = false /\
    vs_fail (ms_vm st') = false /\ is_tangent_2d (mx_stress_after 1 E v hl kl st) inc m.
Proof.
  intros HE Hv Se Si Sb Tb E1 E1z E2 E3 E4 E4z HY YP V. destruct (embed_back b bz Sb Tb) as [Sb3 Tb3].
  apply (mx_lift_2d E v hl kl st e z eps a b bz); auto.
  apply (mx_elastic_core_tangent E v hl kl a _ _ y H); auto.
  - pose proof (shear_positive E v HE Hv). lra.
  - apply embed_sym; auto.
Qed.
Theorem mx_linear_tangent_is_derivative_2d E v s0 h c0 k st e z eps a b bz inc :
  0 < E -> -1 < v -> 2 * small <= s0 -> 0 <= h -> 0 <= k -> 0 <= a ->
  symmetric 2 e -> symmetric 2 inc -> symmetric 2 b -> trace 2 b + bz = 0 ->
  vs_e (ms_vm st) = Some (kmf2 e) -> vs_e33 (ms_vm st) = Some z -> vs_strain (ms_vm st) = Some (kmf2 eps) ->
  vs_acc (ms_vm st) = Some a -> ms_back st = Some (kmf2 b) -> ms_back33 st = Some bz ->
  (s0 + h * a) * (1 + su_conv_tol)
    < equivalent (relative_stress (hooke (lame_lambda E v) (lame_mu E v) (fun i j => embed e z i j + embed inc 0 i j)) (embed b bz)) ->
  exists st' m, mx_state_update 1 E v (linear_law s0 h) (linear_law c0 k) inc st = Ok (st', Some m) /\
    vs_plast (ms_vm st') = true /\ vs_fail (ms_vm st') = false /\
    is_tangent_2d (mx_stress_after 1 E v (linear_law s0 h) (linear_law c0 k) st) inc m.
Proof.
  intros HE Hv YM Hh Hk HA Se Si Sb Tb E1 E1z E2 E3 E4 E4z V. destruct (embed_back b bz Sb Tb) as [Sb3 Tb3].
  apply (mx_lift_2d E v _ _ st e z eps a b bz); auto.
  apply mx_linear_core_tangent; auto. apply embed_sym; auto.
Qed.

(** ** The vectorised model *)
(** Same multiplier and failures as the early-exit loop of the standard model. *)
Lemma mv_early_none hl kl q G acc kold tol : forall left nr,
  early_loop (mv_conv hl kl q G acc kold tol) (mv_step hl kl q G acc kold) nr left None = None.
Proof. induction left as [|l IH]; intros nr; cbn; auto. Qed.
Lemma mv_early_is_newton hl kl q G acc kold tol : forall left nr x,
  early_loop (mv_conv hl kl q G acc kold tol) (mv_step hl kl q G acc kold) nr left (Some x)
  = omap (fun p => Some (fst (fst p))) (mx_newton hl kl q G acc kold tol left (Nat.eqb nr 0) x).
Proof.
  assert (B : forall nr : nat, Nat.ltb 0 nr = negb (Nat.eqb nr 0)) by (intros [|n]; reflexivity).
  induction left as [|l IH]; intros nr x; cbn [early_loop mx_newton]; unfold mv_conv at 1;
    (destruct (hl (acc + x)) as [[y H]|] eqn:E; [destruct (kl (acc + x)) as [[k KH]|] eqn:E'|]); cbn [omap andb]; auto.
  - rewrite B. destruct (quot_lt _ _ _ && negb (nr =? 0)); auto.
  - rewrite B. destruct (quot_lt _ _ _ && negb (nr =? 0)); auto.
    unfold mv_step at 2. rewrite E, E'. destruct (slope_add KH H) as [h|].
    + cbv zeta. destruct (Req_EM_T (- 3 * G - h) 0); [apply mv_early_none|]. rewrite (IH (S nr)). reflexivity.
    + rewrite (IH (S nr)). reflexivity.
  - unfold mv_step at 2. rewrite E, E'. apply mv_early_none.
  - unfold mv_step at 2. rewrite E. apply mv_early_none.
Qed.
Theorem vmap_mixed_multiplier hl kl q G acc kold tol n :
  mv_multiplier false hl kl q G acc kold tol n =
  match mx_newton hl kl q G acc kold tol n true 0 with Some (x, _, _) => (Some x, true) | None => (None, false) end.
Proof.
  unfold mv_multiplier.
  pose proof (masked_is_early (mv_conv hl kl q G acc kold tol) (mv_step hl kl q G acc kold) n 0 (Some 0)) as M.
  rewrite mv_early_is_newton in M. cbn [Nat.eqb] in M.
  destruct (masked_loop false (mv_conv hl kl q G acc kold tol) (mv_step hl kl q G acc kold) 0 n (Some 0)) as [x ok].
  destruct (mx_newton hl kl q G acc kold tol n true 0) as [[[x' k'] H]|]; cbn [omap fst] in M; destruct ok; inversion M; auto.
Qed.

Lemma mx_newton_none hl kl q G acc kold tol n first x : hl (acc + x) = None ->
  mx_newton hl kl q G acc kold tol n first x = None.
Proof. intros N. destruct n; cbn [mx_newton]; rewrite N; reflexivity. Qed.
(** The vectorised update takes the standard decision and multiplier; strain
    and back stress move along the flow vector of [shifted_norm]. *)
Definition mv_flow (eta : T2) : T2 :=
  fun i j => sqrt (3 / 2) * (if rltb small (tnorm eta) then 1 / shifted_norm eta else 0) * eta i j.
Theorem vmap_mixed_core E v hl kl et acc b : symmetric 3 et -> symmetric 3 b -> kl acc <> None ->
  let eta := relative_stress (sig_of E v et) b in
  exists c, mv_core E v hl kl (Some (kmf et)) (Some acc) (Some (kmf b)) = Ok c /\
    match mx_return hl kl (lame_mu E v) (equivalent eta) acc with
    | MElastic => mv_e c = Some (kmf et) /\ mv_stress c = Some (kmf (sig_of E v et)) /\ mv_acc c = Some acc /\
        mv_back c = Some (kmf b) /\ mv_plast c = false /\ mv_fail c = false /\
        mv_tan c = Some (iso_mf (lame_lambda E v) (2 * lame_mu E v))
    | MPlastic x dk H =>
        let e' : T2 := fun i j => et i j - x * mv_flow eta i j in
        mv_e c = Some (kmf e') /\ mv_stress c = Some (kmf (sig_of E v e')) /\ mv_acc c = Some (acc + x) /\
        mv_back c = Some (kmf (fun i j => b i j + dk * mv_flow eta i j)) /\ mv_plast c = true /\ mv_fail c = false /\
        exists y h m t4 ft, hl (acc + x) = Some (y, h) /\ mv_tan c = Some m /\ vget_tensor_mf4 t4 3 order_sym_3d true = Ok m /\
          mx_tangent E v (lame_mu E v) (equivalent eta) ft (MPlastic x dk h) = Some t4 /\ eq2 3 ft (mv_flow eta)
    | MFailed => mv_e c = None /\ mv_stress c = None /\ mv_acc c = None /\ mv_back c = None /\ mv_plast c = true /\
        mv_fail c = true /\ mv_tan c = None
    end.
Proof.
  intros S Sb KN eta. destruct (kl acc) as [[kold g0]|] eqn:KA; [clear KN|congruence].
  unfold mv_core. rewrite devproj_mf, iso_tangent_mf. cbn [rbind]. rewrite hooke_kmf.
  fold (sig_of E v et). rewrite dev_kmf, kmf_sub.
  change (fun i j => deviator3 (sig_of E v et) i j - b i j) with eta.
  assert (Se : symmetric 3 eta) by (apply relative_symmetric; auto).
  replace (vm_equivalent (kmf eta)) with (equivalent eta) by (unfold vm_equivalent, equivalent; rewrite kmf_norm; auto).
  assert (MV : forall e, mv (iso_mf (lame_lambda E v) (2 * lame_mu E v)) (kmf e) = kmf (sig_of E v e))
    by (intros; apply hooke_kmf).
  assert (FL : vv_flow_vector (kmf eta) = kmf (mv_flow eta)).
  { unfold vv_flow_vector. rewrite kmf_norm by auto. fold (shifted_norm eta). rewrite kmf_scale. reflexivity. }
  rewrite FL.
  destruct (from_kmf (mv_flow eta)) as (ft & Ef & Qf).
  { intros i j Hi Hj. unfold mv_flow. rewrite (Se i j) by auto. reflexivity. }
  rewrite Ef. cbn [rbind]. rewrite KA. unfold mx_return. rewrite KA.
  destruct (hl acc) as [[y0 h0]|] eqn:HA.
  - destruct (quot_le (equivalent eta - y0) y0 su_conv_tol) eqn:Q.
    + cbn [negb]. rewrite iso_tangent_mf. cbn [rbind].
      eexists. split; [reflexivity|]. cbn. auto 10.
    + rewrite vmap_mixed_multiplier.
      destruct (mx_newton hl kl (equivalent eta) (lame_mu E v) acc kold su_conv_tol su_max_n_iterations true 0) as [[[x k] H]|] eqn:N.
      * destruct (mx_newton_result _ _ _ _ _ _ _ _ _ _ _ _ _ N) as (y & h & g & HY & HK & _). cbn [negb fst omap].
        rewrite HK, HY. unfold mv_tangent.
        destruct (mx_tangent E v (lame_mu E v) (equivalent eta) ft (MPlastic x 0 h)) as [t4|] eqn:T; [|discriminate].
        destruct (vget_tensor_mf4 t4 3 order_sym_3d true) as [m|] eqn:M; [|discriminate]. cbn [rbind].
        rewrite !kmf_scale, kmf_sub, kmf_add, MV.
        eexists. split; [reflexivity|]. cbn [mv_e mv_stress mv_acc mv_back mv_plast mv_fail mv_tan].
        repeat (split; [reflexivity|]). exists y, h, m, t4, ft. auto.
      * cbn [negb fst omap rbind]. eexists. split; [reflexivity|]. cbn. auto 10.
  - rewrite vmap_mixed_multiplier.
    assert (NN : mx_newton hl kl (equivalent eta) (lame_mu E v) acc kold su_conv_tol su_max_n_iterations true 0 = None).
    { apply mx_newton_none. rewrite Rplus_0_r. exact HA. }
    rewrite NN. cbn [negb fst omap rbind]. eexists. split; [reflexivity|]. cbn. auto 10.
Qed.

(** The tangent of the vectorised model omits the kinematic slope: where the
    standard one (the derivative of the stress) gives a shear response of 1, it
    gives less than 1/2. *)
Lemma shear_tangent x H t4 ft c : mx_tangent 2 0 1 3 ft (MPlastic x 0 (Fin H)) = Some t4 ->
  eq2 3 ft (fun i j => c * shear (sqrt 3) i j) ->
  ddot42 3 t4 (shear 1) 0%nat 1%nat = 2 - 2 * x + 6 * (x / 3 - 1 / (3 + H)) * (4 * (c * c)).
Proof.
  intros T Q. injection T as <-. destruct lame_22 as [GM LM].
  assert (S3 : sqrt 3 * sqrt 3 = 3) by (apply sqrt_sqrt; lra).
  assert (S23 : sqrt (2 / 3) * sqrt (2 / 3) = 2 / 3) by (apply sqrt_sqrt; lra).
  assert (F01 : ft 0%nat 1%nat = c * sqrt 3) by (rewrite Q by lia; reflexivity).
  assert (F10 : ft 1%nat 0%nat = c * sqrt 3) by (rewrite Q by lia; reflexivity).
  unfold ddot42, sum2. simpl.
  unfold shear, iso_tangent, fodevprojsym, fosym, fodiagtrace, dyad22_1. rewrite !foid_eq, !fotransp_eq by lia.
  unfold soid, ident. simpl. rewrite GM, LM, F01, F10.
  transitivity (2 - 2 * x + 6 * (x / 3 - 1 / (3 + H)) * (2 * (sqrt (2 / 3) * sqrt (2 / 3)) * (c * c) * (sqrt 3 * sqrt 3)));
    [|rewrite S3, S23; generalize (1 / (3 + H)); intros; field].
  replace (1 / (3 * 1 + H)) with (1 / (3 + H)) by (f_equal; ring). generalize (1 / (3 + H)). intros iv. field.
Qed.

Theorem vmap_mixed_tangent_refuted : exists E v s0 k et c m c' m',
  0 < E /\ -1 < v /\ 2 * small <= s0 /\ 0 < k /\ symmetric 3 et /\
  mx_core E v (linear_law s0 0) (linear_law 0 k) (Some (kmf et)) (Some 0) (Some (kmf zero2)) = Ok c /\
  mc_tangent c = Some m /\ is_tangent (mx_core_stress E v (linear_law s0 0) (linear_law 0 k) 0 zero2) et m /\
  mv_core E v (linear_law s0 0) (linear_law 0 k) (Some (kmf et)) (Some 0) (Some (kmf zero2)) = Ok c' /\
  mv_plast c' = true /\ mv_fail c' = false /\ mv_acc c' = mc_acc c /\ mv_tan c' = Some m' /\
  nth 3 (mv m (kmf (shear 1))) 0 = sqrt 2 /\ nth 3 (mv m' (kmf (shear 1))) 0 < sqrt 2 / 2.
Proof.
  assert (S3 : sqrt 3 * sqrt 3 = 3) by (apply sqrt_sqrt; lra).
  assert (S3P : 0 < sqrt 3) by (apply sqrt_lt_R0; lra).
  assert (S2 : sqrt 2 * sqrt 2 = 2) by (apply sqrt_sqrt; lra).
  assert (S2P : 0 < sqrt 2) by (apply sqrt_lt_R0; lra).
  assert (SM : 0 < small) by (unfold small; lra).
  set (t := sqrt 3 / 2).
  assert (TP : 0 <= t) by (unfold t; lra).
  destruct lame_22 as [GM LM].
  assert (QE : equivalent (relative_stress (sig_of 2 0 (shear t)) zero2) = 3).
  { rewrite shear_equivalent by auto. unfold t. replace (2 * sqrt 3 * (sqrt 3 / 2)) with (sqrt 3 * sqrt 3) by field. exact S3. }
  set (eta := relative_stress (sig_of 2 0 (shear t)) zero2) in *.
  assert (EE : eq2 3 eta (shear (sqrt 3))).
  { intros i j Hi Hj. unfold eta, relative_stress. rewrite (shear_dev t i j Hi Hj). unfold zero2, t, shear.
    destruct i as [|[|[|i]]]; destruct j as [|[|[|j]]]; try lia; field. }
  assert (NE : tnorm eta = sqrt 2 * sqrt 3).
  { assert (TS : tnorm eta * tnorm eta = 6).
    { rewrite tnorm_sq. rewrite (ddot_ext _ _ (shear (sqrt 3)) (shear (sqrt 3)) EE EE).
      unfold ddot, sum2, shear. simpl. lra. }
    assert (0 <= tnorm eta) by apply tnorm_nonneg.
    assert ((sqrt 2 * sqrt 3) * (sqrt 2 * sqrt 3) = 6) by (transitivity ((sqrt 2 * sqrt 2) * (sqrt 3 * sqrt 3)); [ring|rewrite S2, S3; ring]).
    assert (0 < sqrt 2 * sqrt 3) by (apply Rmult_lt_0_compat; auto). nra. }
  assert (NB : 2 < tnorm eta) by (rewrite NE; assert (1 < sqrt 2) by nra; assert (3 / 2 < sqrt 3) by nra; nra).
  assert (NQ : tnorm eta * tnorm eta = 6) by (rewrite NE; transitivity ((sqrt 2 * sqrt 2) * (sqrt 3 * sqrt 3)); [ring|rewrite S2, S3; ring]).
  assert (RL : mx_return (linear_law 1 0) (linear_law 0 3) (lame_mu 2 0) 3 0 = MPlastic (1 / 3) (3 * (1 / 3)) (Fin (3 + 0))).
  { rewrite (mx_return_linear 1 0 0 3 (lame_mu 2 0) 3 0) by (rewrite ?GM; lra). cbv zeta.
    destruct (quot_le _ _ _) eqn:Q.
    { apply quot_le_pos in Q; [|lra]. unfold su_conv_tol in Q. lra. }
    rewrite GM. replace ((3 - (1 + 0 * 0)) / (3 * 1 + 0 + 3)) with (1 / 3) by field. reflexivity. }
  destruct (mx_linear_core_tangent 2 0 1 0 0 3 0 zero2 (shear t)) as (c & m & EC & TM & _ & _ & _ & _ & IT);
    try lra; try (unfold small; lra); try apply shear_symmetric; try apply zero2_sym; try apply zero2_trace.
  { change (hooke (lame_lambda 2 0) (lame_mu 2 0) (shear t)) with (sig_of 2 0 (shear t)). fold eta. rewrite QE. unfold su_conv_tol. lra. }
  destruct (mx_core_3d 2 0 (linear_law 1 0) (linear_law 0 3) (shear t) 0 zero2 (shear_symmetric t) zero2_sym) as (c2 & EC2 & O2 & D2).
  rewrite EC in EC2. injection EC2 as <-. fold eta in O2, D2. rewrite QE, RL in O2. rewrite O2 in D2.
  destruct D2 as (_ & _ & A2 & _ & m2 & t4 & ft & TM2 & M4 & T4 & QF). rewrite TM in TM2. injection TM2 as <-.
  destruct (vmap_mixed_core 2 0 (linear_law 1 0) (linear_law 0 3) (shear t) 0 zero2 (shear_symmetric t) zero2_sym) as (c' & EC' & D').
  { discriminate. }
  fold eta in D'. rewrite QE, RL in D'. destruct D' as (_ & _ & A' & _ & P' & F' & y & h & m' & t4' & ft' & HY & TM' & M4' & T4' & QF').
  assert (HH : h = Fin 0) by (unfold linear_law in HY; inversion HY; reflexivity). subst h.
  exists 2, 0, 1, 3, (shear t), c, m, c', m'.
  split; [lra|]. split; [lra|]. split; [unfold small; lra|]. split; [lra|]. split; [apply shear_symmetric|].
  split; [exact EC|]. split; [exact TM|]. split; [exact IT|]. split; [exact EC'|]. split; [exact P'|]. split; [exact F'|].
  split; [rewrite A', A2; reflexivity|]. split; [exact TM'|].
  rewrite QE, GM in T4. rewrite GM in T4'.
  set (cf := flow_factor eta) in *.
  assert (CF : cf * cf * 4 = 1).
  { unfold cf, flow_factor. rewrite (proj2 (rltb_iff small (tnorm eta))) by (unfold small; lra).
    transitivity (4 * (sqrt (3 / 2) * sqrt (3 / 2)) / (tnorm eta * tnorm eta)); [field; lra|]. rewrite sqrt32_sq, NQ. field. }
  set (cg := sqrt (3 / 2) * (1 / shifted_norm eta)).
  assert (Se : symmetric 3 eta) by (apply relative_symmetric; [apply shear_symmetric|apply zero2_sym]).
  pose proof (shifted_norm_bounds eta Se ltac:(unfold small; lra)) as [B1 B2].
  assert (SB : shifted_norm eta * shifted_norm eta < 6 + 1 / 2).
  { assert (tnorm eta < 3) by nra. unfold small in *. nra. }
  assert (SP : 0 < shifted_norm eta) by (unfold small in *; lra).
  assert (CG : 12 / 13 < cg * cg * 4).
  { unfold cg. replace (sqrt (3 / 2) * (1 / shifted_norm eta) * (sqrt (3 / 2) * (1 / shifted_norm eta)) * 4)
      with ((sqrt (3 / 2) * sqrt (3 / 2)) * 4 / (shifted_norm eta * shifted_norm eta)) by (field; lra).
    rewrite sqrt32_sq. apply (Rmult_lt_reg_r (shifted_norm eta * shifted_norm eta)); [nra|].
    replace (3 / 2 * 4 / (shifted_norm eta * shifted_norm eta) * (shifted_norm eta * shifted_norm eta)) with 6 by (field; lra). lra. }
  assert (QA : eq2 3 ft (fun i j => cf * shear (sqrt 3) i j)) by (intros i j Hi Hj; rewrite QF, EE by auto; reflexivity).
  assert (QB : eq2 3 ft' (fun i j => cg * shear (sqrt 3) i j)).
  { intros i j Hi Hj. rewrite QF' by auto. unfold mv_flow. rewrite (proj2 (rltb_iff small (tnorm eta))) by (unfold small; lra).
    fold cg. rewrite EE by auto. reflexivity. }
  assert (SA : symmetric 3 ft) by (intros i j Hi Hj; rewrite !QA by auto; f_equal; apply shear_symmetric; auto).
  assert (SBf : symmetric 3 ft') by (intros i j Hi Hj; rewrite !QB by auto; f_equal; apply shear_symmetric; auto).
  assert (T4v : vm_tangent 2 0 1 3 ft (OPlastic (1 / 3) (Fin (3 + 0))) = Some t4) by exact T4.
  assert (T4v' : vm_tangent 2 0 1 3 ft' (OPlastic (1 / 3) (Fin 0)) = Some t4') by exact T4'.
  rewrite (mv_mf4 t4 m (shear 1) (tangent_minor _ _ _ _ _ _ _ SA T4v) (shear_symmetric 1) M4).
  rewrite (mv_mf4 t4' m' (shear 1) (tangent_minor _ _ _ _ _ _ _ SBf T4v') (shear_symmetric 1) M4').
  unfold kmf. cbn [nth].
  rewrite (shear_tangent (1 / 3) (3 + 0) t4 ft cf T4 QA), (shear_tangent (1 / 3) 0 t4' ft' cg T4' QB).
  split.
  - replace (4 * (cf * cf)) with (cf * cf * 4) by ring. rewrite CF. field.
  - replace (4 * (cg * cg)) with (cg * cg * 4) by ring. revert CG. generalize (cg * cg * 4). intros z Z.
    replace (2 - 2 * (1 / 3) + 6 * (1 / 3 / 3 - 1 / (3 + 0)) * z) with (4 / 3 - 4 / 3 * z) by field.
    assert (4 / 3 - 4 / 3 * z < 1 / 2) by lra. nra.
Qed.

(** ** Case: shear beyond the yield stress *)
Example ex_mx_tangent : mx_core_tangent 2 0 (linear_law 1 1) (linear_law 0 3) 0 zero2 (shear 1) true.
Proof.
  apply mx_linear_core_tangent; try lra; try (unfold small; lra); try apply shear_symmetric; try apply zero2_sym; try apply zero2_trace.
  change (hooke (lame_lambda 2 0) (lame_mu 2 0) (shear 1)) with (sig_of 2 0 (shear 1)). rewrite shear_equivalent by lra.
  assert (1 < sqrt 3) by (rewrite <- sqrt_1; apply sqrt_lt_1; lra). unfold su_conv_tol. lra.
Qed.

Print Assumptions mx_linear_tangent_is_derivative.
Print Assumptions vmap_mixed_core.
Print Assumptions vmap_mixed_tangent_refuted.
