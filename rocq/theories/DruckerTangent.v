(** Consistent tangent of the Drucker-Prager state update with linear
    hardening: compared with the derivative of the updated stress with respect
    to the strain increment. *)
From Coq Require Import Reals List Arith Bool Lia Lra Psatz.
From Verif Require Import Lib MatrixModel MatrixSpec TensorModel TensorSpec TensorProofs TensorProps HardeningModel HardeningProps
  ElasticModel ElasticSpec ElasticProofs VonMisesModel VonMisesSpec VonMisesProofs VonMisesProps VonMisesTangent
  DruckerModel DruckerSpec DruckerProofs DruckerProps.
Import ListNotations.
Local Open Scope R_scope.

Definition dp_stress_after (E v : R) (P : dp_params) (hl : hlaw) (st : vm_state) (inc : T2) : list R :=
  match dp_state_update 4 E v P hl inc st with
  | Ok (st', _, _) => match vs_stress st' with Some s => s | None => [] end
  | Err _ => []
  end.
Definition dp_core_stress (E v : R) (P : dp_params) (hl : hlaw) (a : R) (q : T2) : list R :=
  match dp_core E v P hl (Some (kmf q)) (Some a) with
  | Ok c => match dc_stress c with Some s => s | None => [] end
  | Err _ => []
  end.

Lemma dp_stress_after_3d E v P hl st e eps a inc : vs_e st = Some (kmf e) -> vs_strain st = Some (kmf eps) -> vs_acc st = Some a ->
  dp_stress_after E v P hl st inc = dp_core_stress E v P hl a (fun i j => e i j + inc i j).
Proof.
  intros E1 E2 E3. unfold dp_stress_after, dp_core_stress, dp_state_update.
  cbn [get_problem_type_parameters rbind Nat.eqb]. rewrite mf2_3d. cbn [rbind]. rewrite E1, E3. cbn [omap]. rewrite kmf_add.
  destruct (dp_core E v P hl _ _); reflexivity.
Qed.

(** Outcome, stress and tangent of the core. *)
Lemma dp_core_cases E v P hl et a : symmetric 3 et ->
  exists c de, dp_core E v P hl (Some (kmf et)) (Some a) = Ok c /\ eq2 3 de (deviator3 et) /\
    dc_outcome c = dp_return hl P (dp_bulk E v) (lame_mu E v) (sqrtJ2 (sig_of E v et)) (pressure (sig_of E v et)) a /\
    match dc_outcome c with
    | DElastic => dc_stress c = Some (kmf (sig_of E v et)) /\ dc_tangent c = Some (iso_mf (lame_lambda E v) (2 * lame_mu E v))
    | DCone x H => dc_stress c = Some (kmf (fun i j => (pressure (sig_of E v et) - dp_bulk E v * d_etaf P * x) * ident i j
          + returned_dev (deviator3 (sig_of E v et)) (sqrtJ2 (sig_of E v et)) (1 - lame_mu E v * x / sqrtJ2 (sig_of E v et)) i j)) /\
        exists m t4, dc_tangent c = Some m /\ vget_tensor_mf4 t4 3 order_sym_3d true = Ok m /\
          dp_tangent P (dp_bulk E v) (lame_mu E v) E v (tnorm et) de (DCone x H) = Some t4
    | DApex x H => dc_stress c = Some (kmf (fun i j => (pressure (sig_of E v et) - dp_bulk E v * x) * ident i j)) /\
        exists m t4, dc_tangent c = Some m /\ vget_tensor_mf4 t4 3 order_sym_3d true = Ok m /\
          dp_tangent P (dp_bulk E v) (lame_mu E v) E v (tnorm et) de (DApex x H) = Some t4
    | _ => True
    end.
Proof.
  intros S. destruct (dp_core_finish E v P hl et a S) as (de & QD & EF).
  set (o := dp_return hl P (dp_bulk E v) (lame_mu E v) (sqrtJ2 (sig_of E v et)) (pressure (sig_of E v et)) a) in *.
  destruct (dp_finish_3d E v P et de (sqrtJ2 (sig_of E v et)) (pressure (sig_of E v et)) a o S) as (c & E' & EO & D).
  exists c, de. split; [rewrite EF; exact E'|]. split; [exact QD|]. split; [exact EO|]. rewrite EO. clearbody o.
  destruct o; cbv zeta in D; auto.
  - destruct D as (_ & D2 & _ & D4). split; [exact D2|exact D4].
  - destruct D as (_ & D2 & _ & D4). split; [exact D2|exact D4].
  - destruct D as (_ & D2 & _ & D4). split; [exact D2|exact D4].
Qed.

(** ** Trial invariants along a direction *)
Section Along.
  Variables (E v : R) (p d : T2).
  Hypotheses (Sp : symmetric 3 p) (Sd : symmetric 3 d).
  Let et (s : R) : T2 := fun i j => p i j + s * d i j.
  Let u := deviator3 (sig_of E v p).
  Let w := deviator3 (sig_of E v d).
  Let q (s : R) := sqrtJ2 (sig_of E v (et s)).

  Lemma along_pressure s : pressure (sig_of E v (et s)) = pressure (sig_of E v p) + s * pressure (sig_of E v d).
  Proof. unfold pressure, trace. cbn [rsum]. unfold et. rewrite !sig_et. field. Qed.
  Lemma along_q s : q s = sqrt (ddot 3 u u / 2 + s * (ddot 3 u w + s * (ddot 3 w w / 2))).
  Proof.
    unfold q, sqrtJ2. f_equal.
    rewrite (ddot_ext _ _ (fun i j => u i j + s * w i j) (fun i j => u i j + s * w i j)) by (intros i j _ _; apply dev_et).
    unfold ddot, sum2. cbn [rsum]. field.
  Qed.
  Lemma along_q0 : q 0 = sqrtJ2 (sig_of E v p).
  Proof. rewrite along_q. unfold sqrtJ2. fold u. f_equal. ring. Qed.
  Lemma along_poly : derivable_pt_lim (fun s => ddot 3 u u / 2 + s * (ddot 3 u w + s * (ddot 3 w w / 2))) 0 (ddot 3 u w).
  Proof.
    eapply dlim_eq.
    - apply (derivable_pt_lim_plus (fun _ => ddot 3 u u / 2) (fun s => s * (ddot 3 u w + s * (ddot 3 w w / 2)))).
      + apply derivable_pt_lim_const.
      + apply (derivable_pt_lim_mult (fun s => s) (fun s => ddot 3 u w + s * (ddot 3 w w / 2))).
        * apply derivable_pt_lim_id.
        * apply dlim_affine.
    - ring.
  Qed.
  Lemma along_cont : continuity_pt q 0.
  Proof.
    assert (C : continuity_pt (fun s => ddot 3 u u / 2 + s * (ddot 3 u w + s * (ddot 3 w w / 2))) 0).
    { apply derivable_continuous_pt. eexists. apply along_poly. }
    assert (C2 : continuity_pt (Ranalysis1.comp sqrt (fun s => ddot 3 u u / 2 + s * (ddot 3 u w + s * (ddot 3 w w / 2)))) 0).
    { apply continuity_pt_comp; [exact C|]. apply continuity_pt_sqrt.
      replace (ddot 3 u u / 2 + 0 * (ddot 3 u w + 0 * (ddot 3 w w / 2))) with (ddot 3 u u / 2) by ring.
      pose proof (ddot_nonneg u). lra. }
    intros eps He. destruct (C2 eps He) as (r & Hr & D). exists r. split; [exact Hr|]. intros x Hx. specialize (D x Hx).
    unfold Ranalysis1.comp in D. rewrite <- !along_q in D. exact D.
  Qed.
  Lemma along_deriv : 0 < sqrtJ2 (sig_of E v p) -> derivable_pt_lim q 0 (ddot 3 u w / (2 * sqrtJ2 (sig_of E v p))).
  Proof.
    intros N. apply (dlim_ext _ (fun s => sqrt (ddot 3 u u / 2 + s * (ddot 3 u w + s * (ddot 3 w w / 2))))); [apply along_q|].
    assert (Z : ddot 3 u u / 2 + 0 * (ddot 3 u w + 0 * (ddot 3 w w / 2)) = ddot 3 u u / 2) by ring.
    eapply dlim_eq.
    - apply (derivable_pt_lim_comp (fun s => ddot 3 u u / 2 + s * (ddot 3 u w + s * (ddot 3 w w / 2))) sqrt 0 _
        (/ (2 * sqrt (ddot 3 u u / 2 + 0 * (ddot 3 u w + 0 * (ddot 3 w w / 2))))) along_poly).
      apply derivable_pt_lim_sqrt. rewrite Z. pose proof (sqrtJ2_sq (sig_of E v p)) as Q. fold u in Q. nra.
    - rewrite Z. change (sqrt (ddot 3 u u / 2)) with (sqrtJ2 (sig_of E v p)). field. lra.
  Qed.
  Lemma cont_near f c : continuity_pt f 0 -> c < f 0 -> exists r, 0 < r /\ forall s, Rabs (s - 0) < r -> c < f s.
  Proof.
    intros C L. destruct (C (f 0 - c)) as (r & Hr & D); [lra|]. exists r. split; [exact Hr|]. intros s Hs.
    destruct (Req_dec s 0) as [->|N]; [exact L|].
    assert (A : R_dist (f s) (f 0) < f 0 - c) by (apply D; split; [split; [exact I|auto]|exact Hs]).
    unfold R_dist in A. apply Rabs_def2 in A. lra.
  Qed.
  Lemma affine_cont al be ga : continuity_pt (fun s => al * q s + be * pressure (sig_of E v (et s)) + ga) 0.
  Proof.
    apply (continuity_pt_plus (fun s => al * q s + be * pressure (sig_of E v (et s))) (fun _ => ga)); [|apply continuity_pt_const; intros x y; reflexivity].
    apply (continuity_pt_plus (fun s => al * q s) (fun s => be * pressure (sig_of E v (et s)))).
    - apply continuity_pt_scal, along_cont.
    - apply continuity_pt_scal. assert (D : derivable_pt_lim (fun s => pressure (sig_of E v (et s))) 0 (pressure (sig_of E v d))).
      { apply (dlim_ext _ (fun s => pressure (sig_of E v p) + s * pressure (sig_of E v d))); [apply along_pressure|apply dlim_affine]. }
      apply derivable_continuous_pt. eexists. exact D.
  Qed.
End Along.

Definition dp_core_tangent (E v : R) (P : dp_params) (hl : hlaw) (a : R) (p : T2) (plast apex : bool) : Prop :=
  exists c m, dp_core E v P hl (Some (kmf p)) (Some a) = Ok c /\ dc_tangent c = Some m /\
    dp_is_plast (dc_outcome c) = plast /\ dp_is_apex (dc_outcome c) = apex /\ dp_is_fail (dc_outcome c) = false /\
    is_tangent (dp_core_stress E v P hl a) p m.

(** Elastic trial states, any hardening law. *)
Lemma dp_elastic_core_tangent E v P hl a p c0 h0 : symmetric 3 p -> hl a = Some (c0, h0) -> small <= c0 ->
  dp_yield (d_xi P) (d_etay P) (sig_of E v p) c0 < su_conv_tol * c0 -> dp_core_tangent E v P hl a p false false.
Proof.
  intros Sp HL C0 L. assert (SM : 0 < small) by (unfold small; lra).
  assert (EL : forall t, symmetric 3 t -> dp_yield (d_xi P) (d_etay P) (sig_of E v t) c0 < su_conv_tol * c0 ->
    exists c, dp_core E v P hl (Some (kmf t)) (Some a) = Ok c /\ dc_outcome c = DElastic /\
      dc_stress c = Some (kmf (sig_of E v t)) /\ dc_tangent c = Some (iso_mf (lame_lambda E v) (2 * lame_mu E v))).
  { intros t St Lt. destruct (dp_core_cases E v P hl t a St) as (c & de & EC & _ & EO & C). exists c. split; [exact EC|].
    assert (R : dp_return hl P (dp_bulk E v) (lame_mu E v) (sqrtJ2 (sig_of E v t)) (pressure (sig_of E v t)) a = DElastic).
    { unfold dp_return. rewrite HL. rewrite consistency_rel, rel_err_above by (unfold small in C0; lra).
      rewrite (proj2 (rleb_iff _ su_conv_tol)); [reflexivity|]. unfold dp_yield in Lt. apply (Rmult_le_reg_r c0); [lra|].
      unfold Rdiv. rewrite Rmult_assoc, Rinv_l by lra. lra. }
    rewrite R in EO. rewrite EO in *. split; [reflexivity|exact C]. }
  destruct (EL p Sp L) as (c & EC & EO & _ & ET). exists c, (iso_mf (lame_lambda E v) (2 * lame_mu E v)).
  split; [exact EC|]. split; [exact ET|]. rewrite EO. split; [reflexivity|]. split; [reflexivity|]. split; [reflexivity|].
  intros d Sd k Hk.
  destruct (cont_near (fun s => - 1 * sqrtJ2 (sig_of E v (fun i j => p i j + s * d i j)) + - d_etay P * pressure (sig_of E v (fun i j => p i j + s * d i j)) + d_xi P * c0) (- (su_conv_tol * c0))) as (r & RP & RN).
  { apply (affine_cont E v p d). }
  { rewrite along_q0, along_pressure. unfold dp_yield in L. lra. }
  rewrite hooke_kmf. fold (sig_of E v d).
  apply (dlim_local _ (fun s => nth k (kmf (fun i j => sig_of E v p i j + s * sig_of E v d i j)) 0) 0 _ r RP).
  { intros s Hs. specialize (RN s Hs). destruct (EL (fun i j => p i j + s * d i j)) as (cs & ECs & _ & SS & _).
    - intros i j Hi Hj. rewrite (Sp i j), (Sd i j) by auto. reflexivity.
    - unfold dp_yield. lra.
    - unfold dp_core_stress. rewrite ECs, SS. f_equal. apply kmf_ext. intros i j _ _. apply sig_et. }
  apply (kmf_deriv (fun s i j => sig_of E v p i j + s * sig_of E v d i j)); [|exact Hk]. intros i j _ _. apply dlim_affine.
Qed.

Section LinearTangent.
  Variables (E v : R) (P : dp_params) (s0 h a : R).
  Hypotheses (HE : 0 < E) (Hv1 : -1 < v) (Hv2 : v < 1 / 2) (HX : 0 <= d_xi P) (HY : 0 <= d_etay P) (HF : 0 <= d_etaf P)
    (S0 : small <= s0) (H0 : 0 <= h) (A0 : 0 <= a).
  Let K := dp_bulk E v.
  Let G := lame_mu E v.
  Let c0 := s0 + h * a.
  Let D := G + K * d_etaf P * d_etay P + d_xi P ^ 2 * h.
  Let DA := K + dp_alpha P * dp_beta P * h.
  Let hl := linear_law s0 h.
  Let KP : 0 < K. Proof. apply bulk_positive; auto. Qed.
  Let GP : 0 < G. Proof. apply shear_positive; auto. Qed.
  Let f (t : T2) := sqrtJ2 (sig_of E v t) + d_etay P * pressure (sig_of E v t) - d_xi P * c0.

  Lemma dir_pressure d : pressure (sig_of E v d) = K * trace 3 d.
  Proof. unfold pressure. rewrite trace_sig by lra. fold K. field. Qed.

  Let DP : 0 < D.
  Proof. pose proof (lin_D P K G h KP HY HF H0) as Q. fold D in Q. lra. Qed.

  Lemma dp_apex_core_tangent p : symmetric 3 p -> su_conv_tol * c0 < f p -> sqrtJ2 (sig_of E v p) < G * (f p / D) ->
    d_etaf P <> 0 -> d_etay P <> 0 -> dp_core_tangent E v P hl a p true true.
  Proof.
    intros Sp L1 L2 NF NY.
    assert (AL : 0 <= dp_alpha P) by (unfold dp_alpha, Rdiv; apply Rmult_le_pos; [lra|apply Rlt_le, Rinv_0_lt_compat; lra]).
    assert (BE : 0 <= dp_beta P) by (unfold dp_beta, Rdiv; apply Rmult_le_pos; [lra|apply Rlt_le, Rinv_0_lt_compat; lra]).
    assert (LA : 0 < DA) by (unfold DA; pose proof (Rmult_le_pos _ _ (Rmult_le_pos _ _ AL BE) H0); lra).
    set (x := fun t => (pressure (sig_of E v t) - dp_beta P * c0) / DA).
    assert (EL : forall t, symmetric 3 t -> su_conv_tol * c0 < f t -> sqrtJ2 (sig_of E v t) < G * (f t / D) ->
      exists c de, dp_core E v P hl (Some (kmf t)) (Some a) = Ok c /\ dc_outcome c = DApex (x t) (Fin h) /\
        dc_stress c = Some (kmf (fun i j => (pressure (sig_of E v t) - K * x t) * ident i j)) /\
        exists m t4, dc_tangent c = Some m /\ vget_tensor_mf4 t4 3 order_sym_3d true = Ok m /\
          dp_tangent P K G E v (tnorm t) de (DApex (x t) (Fin h)) = Some t4).
    { intros t St Lt Qt. destruct (dp_core_cases E v P hl t a St) as (c & de & EC & _ & EO & C). exists c, de. split; [exact EC|].
      destruct (dp_return_linear P K G s0 h a GP KP HX HY HF S0 H0 A0 (sqrtJ2 (sig_of E v t)) (pressure (sig_of E v t))) as (_ & _ & R & _).
      destruct (R Lt Qt NF NY (sqrtJ2_nonneg _)) as (R' & _). fold c0 DA in R'. fold (x t) in R'.
      fold K G in EO. unfold hl in EO. rewrite R' in EO. rewrite EO in *. split; [reflexivity|exact C]. }
    destruct (EL p Sp L1 L2) as (c & de & EC & EO & _ & m & t4 & ET & M4 & TT). exists c, m.
    split; [exact EC|]. split; [exact ET|]. rewrite EO. split; [reflexivity|]. split; [reflexivity|]. split; [reflexivity|].
    cbn [dp_tangent] in TT. injection TT as TT.
    intros d Sd k Hk.
    assert (MS : minor_symmetric 3 t4).
    { rewrite <- TT. intros i j k' l Hi Hj Hk' Hl. unfold dyad22_1, soid. rewrite (Nat.eqb_sym j i), (Nat.eqb_sym l k'). auto. }
    rewrite (mv_mf4 t4 m d MS Sd M4).
    destruct (cont_near (fun s => 1 * sqrtJ2 (sig_of E v (fun i j => p i j + s * d i j)) + d_etay P * pressure (sig_of E v (fun i j => p i j + s * d i j)) + - (d_xi P * c0)) (su_conv_tol * c0)) as (r1 & RP1 & RN1).
    { apply (affine_cont E v p d). }
    { rewrite along_q0, along_pressure. unfold f in L1. lra. }
    destruct (cont_near (fun s => (G / D - 1) * sqrtJ2 (sig_of E v (fun i j => p i j + s * d i j)) + G / D * d_etay P * pressure (sig_of E v (fun i j => p i j + s * d i j)) + - (G / D * d_xi P * c0)) 0) as (r2 & RP2 & RN2).
    { apply (affine_cont E v p d). }
    { rewrite along_q0, along_pressure. unfold f in L2.
      replace (G * ((sqrtJ2 (sig_of E v p) + d_etay P * pressure (sig_of E v p) - d_xi P * c0) / D)) with
        (G / D * sqrtJ2 (sig_of E v p) + G / D * d_etay P * pressure (sig_of E v p) - G / D * d_xi P * c0) in L2 by (field; lra). lra. }
    set (xs := fun s => (pressure (sig_of E v p) + s * (K * trace 3 d) - dp_beta P * c0) / DA).
    apply (dlim_local _ (fun s => nth k (kmf (fun i j => (pressure (sig_of E v p) + s * (K * trace 3 d) - K * xs s) * ident i j)) 0) 0 _ (Rmin r1 r2) (Rmin_Rgt_r _ _ _ (conj RP1 RP2))).
    { intros s Hs. assert (Hs1 : Rabs (s - 0) < r1) by (eapply Rlt_le_trans; [exact Hs|apply Rmin_l]).
      assert (Hs2 : Rabs (s - 0) < r2) by (eapply Rlt_le_trans; [exact Hs|apply Rmin_r]).
      specialize (RN1 s Hs1). specialize (RN2 s Hs2). destruct (EL (fun i j => p i j + s * d i j)) as (cs & des & ECs & _ & SS & _).
      - intros i j Hi Hj. rewrite (Sp i j), (Sd i j) by auto. reflexivity.
      - unfold f. lra.
      - unfold f.
        set (qs := sqrtJ2 _) in *. set (ps := pressure _) in *.
        replace (G * ((qs + d_etay P * ps - d_xi P * c0) / D)) with (G / D * qs + G / D * d_etay P * ps - G / D * d_xi P * c0) by (field; lra). lra.
      - unfold dp_core_stress. rewrite ECs, SS. f_equal. apply kmf_ext. intros i j _ _. unfold x, xs. rewrite along_pressure, (dir_pressure d). reflexivity. }
    apply (kmf_deriv (fun s i j => (pressure (sig_of E v p) + s * (K * trace 3 d) - K * xs s) * ident i j)); [|exact Hk]. intros i j _ _.
    apply (dlim_ext _ (fun s => ident i j * (pressure (sig_of E v p) - K * (pressure (sig_of E v p) - dp_beta P * c0) / DA) + s * (ident i j * (K * trace 3 d * (1 - K / DA))))).
    { intros s. unfold xs. field. lra. }
    eapply dlim_eq; [apply dlim_affine|]. rewrite <- TT. fold DA. unfold ddot42, sum2, dyad22_1, trace. cbn [rsum].
    change soid with ident. unfold ident at 2 3 4 5 6 7 8 9 10 11. cbn [Nat.eqb]. 
    replace (ident i j) with (ident i j) by reflexivity.
    unfold soid, ident. cbn [Nat.eqb]. ring.
  Qed.

  (** *** Return to the cone *)
  (** The tangent formula with an arbitrary norm of the trial strain. *)
  Lemma dp_cone_apply ne de p d x t4 i j : (i < 3)%nat -> (j < 3)%nat -> symmetric 3 d -> eq2 3 de (deviator3 p) ->
    dp_tangent P K G E v ne de (DCone x (Fin h)) = Some t4 ->
    let nf := if rltb small ne then 1 / ne else 0 in let e := deviator3 p in
    ddot42 3 t4 d i j = 2 * G * (1 - nf * (x / sqrt 2)) * deviator3 d i j
      + 2 * G * (nf * (x / sqrt 2) - G * (1 / D)) * (nf * e i j * (nf * ddot 3 e d))
      - sqrt 2 * G * (1 / D) * K * (d_etay P * (nf * e i j * trace 3 d) + d_etaf P * (ident i j * (nf * ddot 3 e d)))
      + K * (1 - K * d_etay P * d_etaf P * (1 / D)) * (ident i j * trace 3 d).
  Proof.
    intros Hi Hj Sd QD T nf e. cbn [dp_tangent] in T. fold nf in T. injection T as T. rewrite <- T. clear T.
    replace (1 / (G + K * d_etay P * d_etaf P + h * (d_xi P * (d_xi P * 1)))) with (1 / D) by (unfold D; f_equal; ring).
    destruct (dev_projection_3d_partial d) as (_ & PD & _).
    assert (A2 : ddot42_1 3 (fodevprojsym 3) d i j = deviator3 d i j).
    { rewrite PD by auto. unfold symp, deviator3, trace. cbn [rsum]. rewrite (Sd j i) by auto. field. }
    assert (DD : ddot 3 de d = ddot 3 e d) by (apply ddot_ext; [exact QD|intros k l _ _; reflexivity]).
    rewrite <- A2, <- DD. unfold e. rewrite <- (QD i j Hi Hj).
    generalize (fodevprojsym 3). intros t1. generalize (1 / D) nf. intros z y.
    unfold ddot42, ddot42_1, ddot, sum2, dyad22_1, trace. cbn [rsum]. change (soid i j) with (ident i j).
    unfold soid. cbn [Nat.eqb]. ring.
  Qed.

  Lemma norm_q p : symmetric 3 p -> sqrtJ2 (sig_of E v p) = sqrt 2 * G * tnorm (deviator3 p).
  Proof.
    intros Sp. unfold sqrtJ2.
    rewrite (ddot_ext _ _ (fun i j => 2 * G * deviator3 p i j) (fun i j => 2 * G * deviator3 p i j)) by (intros i j Hi Hj; apply deviator_hooke; auto).
    rewrite ddot_scal2. unfold tnorm.
    replace (2 * G * (2 * G) * ddot 3 (deviator3 p) (deviator3 p) / 2) with (2 * (G * G) * ddot 3 (deviator3 p) (deviator3 p)) by field.
    rewrite sqrt_mult; [|nra|apply ddot_nonneg]. rewrite sqrt_mult by nra. rewrite sqrt_square by lra. reflexivity.
  Qed.

  (** Updated stress along a direction when returning to the cone. *)
  Let g (t : T2) := f t / D.
  Definition cone_stress (t : T2) : T2 := fun i j => (pressure (sig_of E v t) - K * d_etaf P * g t) * ident i j
    + (1 - G * g t / sqrtJ2 (sig_of E v t)) * deviator3 (sig_of E v t) i j.

  Lemma cone_stress_deriv p d i j : symmetric 3 p -> symmetric 3 d -> 0 < sqrtJ2 (sig_of E v p) ->
    (i < 3)%nat -> (j < 3)%nat ->
    let nf := 1 / tnorm (deviator3 p) in let e := deviator3 p in let x := g p in
    derivable_pt_lim (fun s => cone_stress (fun i j => p i j + s * d i j) i j) 0
     (2 * G * (1 - nf * (x / sqrt 2)) * deviator3 d i j
      + 2 * G * (nf * (x / sqrt 2) - G * (1 / D)) * (nf * e i j * (nf * ddot 3 e d))
      - sqrt 2 * G * (1 / D) * K * (d_etay P * (nf * e i j * trace 3 d) + d_etaf P * (ident i j * (nf * ddot 3 e d)))
      + K * (1 - K * d_etay P * d_etaf P * (1 / D)) * (ident i j * trace 3 d)).
  Proof.
    intros Sp Sd QP Hi Hj nf e x. set (q0 := sqrtJ2 (sig_of E v p)) in *.
    pose proof (along_deriv E v p d QP) as DQ. set (q := fun s => sqrtJ2 (sig_of E v (fun i j => p i j + s * d i j))) in *.
    assert (Q0 : q 0 = q0) by apply along_q0.
    set (u := deviator3 (sig_of E v p)) in *. set (w := deviator3 (sig_of E v d)) in *.
    set (q' := ddot 3 u w / (2 * q0)). change (derivable_pt_lim q 0 q') in DQ.
    set (pp := fun s => pressure (sig_of E v p) + s * (K * trace 3 d)).
    assert (Dp : derivable_pt_lim pp 0 (K * trace 3 d)) by apply dlim_affine.
    set (gs := fun s => (q s + d_etay P * pp s - d_xi P * c0) * / D).
    set (g' := (q' + d_etay P * (K * trace 3 d)) * / D).
    assert (Dg : derivable_pt_lim gs 0 g').
    { unfold gs, g'. apply (dlim_ext _ (fun s => / D * (q s + d_etay P * pp s - d_xi P * c0))); [intros; ring|].
      rewrite (Rmult_comm (q' + d_etay P * (K * trace 3 d)) (/ D)). apply derivable_pt_lim_scal. eapply dlim_eq.
      - apply (derivable_pt_lim_minus (fun s => q s + d_etay P * pp s) (fun _ => d_xi P * c0)); [|apply derivable_pt_lim_const].
        apply (derivable_pt_lim_plus q (fun s => d_etay P * pp s)); [exact DQ|]. apply derivable_pt_lim_scal. exact Dp.
      - ring. }
    assert (G0 : gs 0 = x).
    { unfold gs, x, g, f. rewrite Q0. unfold pp. fold q0. unfold Rdiv. ring. }
    apply (dlim_ext _ (fun s => (pp s - K * d_etaf P * gs s) * ident i j + (1 - G * gs s / q s) * (u i j + s * w i j))).
    { intros s. unfold cone_stress, g, f. rewrite along_pressure, (dir_pressure d). fold (pp s). fold (q s). rewrite dev_et. fold u w. reflexivity. }
    assert (DQ2 : derivable_pt_lim (fun s => 1 - G * gs s / q s) 0 (- (G * (g' * q0 - q' * x) / (q0 * q0)))).
    { eapply dlim_eq.
      - apply (derivable_pt_lim_minus (fun _ => 1) (fun s => G * gs s / q s)); [apply derivable_pt_lim_const|].
        apply (derivable_pt_lim_div (fun s => G * gs s) q 0 (G * g') q'); [apply derivable_pt_lim_scal; exact Dg|exact DQ|rewrite Q0; lra].
      - rewrite Q0, G0. unfold Rsqr. field. lra. }
    eapply dlim_eq.
    - apply (derivable_pt_lim_plus (fun s => (pp s - K * d_etaf P * gs s) * ident i j) (fun s => (1 - G * gs s / q s) * (u i j + s * w i j))).
      + apply (derivable_pt_lim_mult (fun s => pp s - K * d_etaf P * gs s) (fun _ => ident i j)); [|apply derivable_pt_lim_const].
        apply (derivable_pt_lim_minus pp (fun s => K * d_etaf P * gs s)); [exact Dp|]. apply derivable_pt_lim_scal. exact Dg.
      + apply (derivable_pt_lim_mult (fun s => 1 - G * gs s / q s) (fun s => u i j + s * w i j)); [exact DQ2|apply dlim_affine].
    - rewrite Q0, G0. cbv beta.
      assert (NQ : q0 = sqrt 2 * G * tnorm (deviator3 p)) by (apply norm_q; auto).
      assert (S2 : 0 < sqrt 2) by (apply sqrt_lt_R0; lra).
      assert (S22 : sqrt 2 * sqrt 2 = 2) by (apply sqrt_sqrt; lra).
      set (n := tnorm (deviator3 p)) in *. fold e in n.
      assert (NP : 0 < n).
      { destruct (Rle_lt_dec n 0) as [L|L]; [|exact L]. exfalso. assert (0 <= sqrt 2 * G) by nra. assert (sqrt 2 * G * n <= 0) by nra. lra. }
      assert (UE : u i j = 2 * G * e i j) by (apply deviator_hooke; auto).
      assert (WE : w i j = 2 * G * deviator3 d i j) by (apply deviator_hooke; auto).
      assert (UW : ddot 3 u w = 4 * G * G * ddot 3 e d).
      { rewrite (ddot_ext u w (fun i j => 2 * G * e i j) (fun i j => 2 * G * deviator3 d i j)) by (intros k l Hk Hl; apply deviator_hooke; auto).
        assert (T : trace 3 e = 0) by apply deviator_trace. unfold trace in T. cbn [rsum] in T.
        assert (Z : ddot 3 e (deviator3 d) = ddot 3 e d).
        { clearbody e. unfold ddot, sum2, deviator3, trace, ident. cbn [rsum Nat.eqb].
          replace (e 2%nat 2%nat) with (- e 0%nat 0%nat - e 1%nat 1%nat) by lra. field. }
        rewrite <- Z. unfold ddot, sum2. cbn [rsum]. ring. }
      assert (QE : q' = sqrt 2 * G * ddot 3 e d / n).
      { unfold q'. rewrite UW, NQ. apply (Rmult_eq_reg_r (sqrt 2 * n)); [|nra].
        transitivity (2 * G * ddot 3 e d); [field; repeat split; lra|].
        transitivity (sqrt 2 * sqrt 2 * G * ddot 3 e d); [rewrite S22; ring|field; lra]. }
      unfold g', nf. rewrite QE, UE, WE, NQ. fold n.
      generalize (ddot 3 e d) (e i j) (deviator3 d i j) (trace 3 d) (ident i j). intros ed ei di td ii.
      assert (HS : sqrt 2 <> 0) by lra. assert (NN : n <> 0) by lra. assert (ND : D <> 0) by lra. assert (NG : G <> 0) by lra.
      set (z := sqrt 2) in *. clearbody z D n x. clear - HS NN ND NG S22.
      assert (IZ : / z = z / 2) by (apply (Rmult_eq_reg_r z); auto; rewrite Rinv_l by auto; unfold Rdiv; lra).
      assert (Z2 : z ^ 2 = 2) by (simpl; lra). assert (Z3 : z ^ 3 = 2 * z) by (simpl; nra). assert (Z4 : z ^ 4 = 4) by (simpl; nra).
      field_simplify_eq; [|repeat split; auto]. rewrite ?Z4, ?Z3, ?Z2. ring.
  Qed.

  (** Directional derivative of the updated stress on the cone: the tangent
      formula with the norm of the deviatoric trial strain. *)
  Definition cone_rate (p d : T2) : T2 := fun i j =>
    let nf := 1 / tnorm (deviator3 p) in let e := deviator3 p in let x := g p in
     (2 * G * (1 - nf * (x / sqrt 2)) * deviator3 d i j
      + 2 * G * (nf * (x / sqrt 2) - G * (1 / D)) * (nf * e i j * (nf * ddot 3 e d))
      - sqrt 2 * G * (1 / D) * K * (d_etay P * (nf * e i j * trace 3 d) + d_etaf P * (ident i j * (nf * ddot 3 e d)))
      + K * (1 - K * d_etay P * d_etaf P * (1 / D)) * (ident i j * trace 3 d)).

  Lemma cone_core p : symmetric 3 p -> su_conv_tol * c0 < f p -> G * (f p / D) < sqrtJ2 (sig_of E v p) -> small < sqrtJ2 (sig_of E v p) ->
    exists c de m t4, dp_core E v P hl (Some (kmf p)) (Some a) = Ok c /\ dc_outcome c = DCone (g p) (Fin h) /\
      eq2 3 de (deviator3 p) /\ dc_tangent c = Some m /\ vget_tensor_mf4 t4 3 order_sym_3d true = Ok m /\
      dp_tangent P K G E v (tnorm p) de (DCone (g p) (Fin h)) = Some t4 /\
      forall d, symmetric 3 d -> forall k, (k < 6)%nat ->
        derivable_pt_lim (fun s => nth k (dp_core_stress E v P hl a (fun i j => p i j + s * d i j)) 0) 0 (nth k (kmf (cone_rate p d)) 0).
  Proof.
    intros Sp L1 L2 QS.
    assert (SM : 0 < small) by (unfold small; lra).
    assert (EL : forall t, symmetric 3 t -> su_conv_tol * c0 < f t -> G * (f t / D) <= sqrtJ2 (sig_of E v t) -> small < sqrtJ2 (sig_of E v t) ->
      exists c de, dp_core E v P hl (Some (kmf t)) (Some a) = Ok c /\ dc_outcome c = DCone (g t) (Fin h) /\ eq2 3 de (deviator3 t) /\
        dc_stress c = Some (kmf (cone_stress t)) /\
        exists m t4, dc_tangent c = Some m /\ vget_tensor_mf4 t4 3 order_sym_3d true = Ok m /\
          dp_tangent P K G E v (tnorm t) de (DCone (g t) (Fin h)) = Some t4).
    { intros t St Lt Qt Qs. destruct (dp_core_cases E v P hl t a St) as (c & de & EC & QD & EO & C). exists c, de. split; [exact EC|].
      destruct (dp_return_linear P K G s0 h a GP KP HX HY HF S0 H0 A0 (sqrtJ2 (sig_of E v t)) (pressure (sig_of E v t))) as (_ & R & _).
      specialize (R Lt Qt). fold K G in EO. unfold hl in EO. rewrite R in EO. fold c0 D in EO. fold (f t) in EO. fold (g t) in EO.
      rewrite EO in *. split; [reflexivity|]. split; [exact QD|]. destruct C as (C1 & C2). split; [|exact C2].
      rewrite C1. f_equal. apply kmf_ext. intros i j _ _. unfold cone_stress, returned_dev. rewrite (proj2 (rltb_iff small (sqrtJ2 (sig_of E v t))) Qs). reflexivity. }
    destruct (EL p Sp L1 (Rlt_le _ _ L2) QS) as (c & de & EC & EO & QD & _ & m & t4 & ET & M4 & TT). exists c, de, m, t4.
    split; [exact EC|]. split; [exact EO|]. split; [exact QD|]. split; [exact ET|]. split; [exact M4|]. split; [exact TT|].
    intros d Sd k Hk.
    destruct (cont_near (fun s => 1 * sqrtJ2 (sig_of E v (fun i j => p i j + s * d i j)) + d_etay P * pressure (sig_of E v (fun i j => p i j + s * d i j)) + - (d_xi P * c0)) (su_conv_tol * c0)) as (r1 & RP1 & RN1).
    { apply (affine_cont E v p d). }
    { rewrite along_q0, along_pressure. unfold f in L1. lra. }
    destruct (cont_near (fun s => (1 - G / D) * sqrtJ2 (sig_of E v (fun i j => p i j + s * d i j)) + - (G / D * d_etay P) * pressure (sig_of E v (fun i j => p i j + s * d i j)) + G / D * d_xi P * c0) 0) as (r2 & RP2 & RN2).
    { apply (affine_cont E v p d). }
    { rewrite along_q0, along_pressure. unfold f in L2.
      replace (G * ((sqrtJ2 (sig_of E v p) + d_etay P * pressure (sig_of E v p) - d_xi P * c0) / D)) with
        (G / D * sqrtJ2 (sig_of E v p) + G / D * d_etay P * pressure (sig_of E v p) - G / D * d_xi P * c0) in L2 by (field; lra). lra. }
    destruct (cont_near (fun s => sqrtJ2 (sig_of E v (fun i j => p i j + s * d i j))) small) as (r3 & RP3 & RN3).
    { apply (along_cont E v p d). }
    { rewrite along_q0. exact QS. }
    set (r := Rmin r1 (Rmin r2 r3)).
    assert (RP : 0 < r) by (unfold r; repeat apply Rmin_glb_lt; auto).
    apply (dlim_local _ (fun s => nth k (kmf (cone_stress (fun i j => p i j + s * d i j))) 0) 0 _ r RP).
    { intros s Hs. assert (Hs1 : Rabs (s - 0) < r1) by (eapply Rlt_le_trans; [exact Hs|apply Rmin_l]).
      assert (Hs2 : Rabs (s - 0) < r2) by (eapply Rlt_le_trans; [exact Hs|eapply Rle_trans; [apply Rmin_r|apply Rmin_l]]).
      assert (Hs3 : Rabs (s - 0) < r3) by (eapply Rlt_le_trans; [exact Hs|eapply Rle_trans; [apply Rmin_r|apply Rmin_r]]).
      specialize (RN1 s Hs1). specialize (RN2 s Hs2). specialize (RN3 s Hs3).
      destruct (EL (fun i j => p i j + s * d i j)) as (cs & des & ECs & _ & _ & SS & _); auto.
      - intros i j Hi Hj. rewrite (Sp i j), (Sd i j) by auto. reflexivity.
      - unfold f. lra.
      - unfold f.
        set (qs := sqrtJ2 _) in *. set (ps := pressure _) in *.
        replace (G * ((qs + d_etay P * ps - d_xi P * c0) / D)) with (G / D * qs + G / D * d_etay P * ps - G / D * d_xi P * c0) by (field; lra). lra.
      - unfold dp_core_stress. rewrite ECs, SS. reflexivity. }
    apply (kmf_deriv (fun s => cone_stress (fun i j => p i j + s * d i j))); [|exact Hk]. intros i j Hi Hj.
    apply cone_stress_deriv; auto. lra.
  Qed.

  Lemma dp_tangent_minor ne de x H t4 : symmetric 3 de -> dp_tangent P K G E v ne de (DCone x H) = Some t4 -> minor_symmetric 3 t4.
  Proof.
    intros Sd T. cbn [dp_tangent] in T. injection T as T. rewrite <- T. intros i j k l Hi Hj Hk Hl.
    destruct (fosym_minor i j k l Hi Hj Hk Hl) as [A1 A2]. destruct (fodiagtrace_minor i j k l Hi Hj Hk Hl) as [B1 B2].
    pose proof (Sd i j Hi Hj) as C1. pose proof (Sd k l Hk Hl) as C2.
    assert (I1 : soid j i = soid i j) by (unfold soid; rewrite (Nat.eqb_sym j i); reflexivity).
    assert (I2 : soid l k = soid k l) by (unfold soid; rewrite (Nat.eqb_sym l k); reflexivity).
    unfold fodevprojsym, dyad22_1. rewrite <- A1, <- A2, <- B1, <- B2, <- C1, <- C2, I1, I2. auto.
  Qed.

  Lemma tnorm_pythagoras p : tnorm p * tnorm p = tnorm (deviator3 p) * tnorm (deviator3 p) + trace 3 p * trace 3 p / 3.
  Proof. rewrite !tnorm_sq. unfold ddot, sum2, deviator3, trace, ident. cbn [rsum Nat.eqb]. field. Qed.

  (** The correct tangent uses the norm of the deviatoric trial strain. *)
  Lemma dp_cone_core_derivative p : symmetric 3 p -> su_conv_tol * c0 < f p -> G * (f p / D) < sqrtJ2 (sig_of E v p) ->
    small < sqrtJ2 (sig_of E v p) -> small < tnorm (deviator3 p) ->
    exists m t4, vget_tensor_mf4 t4 3 order_sym_3d true = Ok m /\
      dp_tangent P K G E v (tnorm (deviator3 p)) (deviator3 p) (DCone (g p) (Fin h)) = Some t4 /\
      is_tangent (dp_core_stress E v P hl a) p m.
  Proof.
    intros Sp L1 L2 QS NS. destruct (cone_core p Sp L1 L2 QS) as (c & de & _ & _ & EC & EO & QD & _ & _ & _ & DV).
    destruct (dp_tangent P K G E v (tnorm (deviator3 p)) (deviator3 p) (DCone (g p) (Fin h))) as [t4|] eqn:TT; [|discriminate].
    destruct (vget_tensor_mf4 t4 3 order_sym_3d true) as [m|] eqn:M4; [|discriminate].
    exists m, t4. split; [exact M4|]. split; [reflexivity|]. intros d Sd k Hk.
    rewrite (mv_mf4 t4 m d (dp_tangent_minor _ _ _ _ _ (deviator_symmetric p Sp) TT) Sd M4).
    eapply dlim_eq; [apply DV; auto|]. f_equal. apply kmf_ext. intros i j Hi Hj.
    rewrite (dp_cone_apply _ _ p d _ t4 i j Hi Hj Sd (fun _ _ _ _ => eq_refl) TT). rewrite (proj2 (rltb_iff small (tnorm (deviator3 p))) NS). reflexivity.
  Qed.

  Lemma dp_cone_core_traceless p : symmetric 3 p -> su_conv_tol * c0 < f p -> G * (f p / D) < sqrtJ2 (sig_of E v p) ->
    small < sqrtJ2 (sig_of E v p) -> small < tnorm p -> trace 3 p = 0 -> dp_core_tangent E v P hl a p true false.
  Proof.
    intros Sp L1 L2 QS NS T. destruct (cone_core p Sp L1 L2 QS) as (c & de & m & t4 & EC & EO & QD & ET & M4 & TT & DV).
    exists c, m. split; [exact EC|]. split; [exact ET|]. rewrite EO. split; [reflexivity|]. split; [reflexivity|]. split; [reflexivity|].
    intros d Sd k Hk.
    assert (Sde : symmetric 3 de) by (intros i j Hi Hj; rewrite !QD by auto; apply (deviator_symmetric p Sp); auto).
    rewrite (mv_mf4 t4 m d (dp_tangent_minor _ _ _ _ _ Sde TT) Sd M4).
    eapply dlim_eq; [apply DV; auto|]. f_equal. apply kmf_ext. intros i j Hi Hj.
    rewrite (dp_cone_apply _ _ p d _ t4 i j Hi Hj Sd QD TT).
    assert (NE : tnorm p = tnorm (deviator3 p)).
    { pose proof (tnorm_pythagoras p) as Y. rewrite T in Y. pose proof (tnorm_nonneg p). pose proof (tnorm_nonneg (deviator3 p)). nra. }
    rewrite (proj2 (rltb_iff small (tnorm p)) NS), NE. reflexivity.
  Qed.

  (** A direction without volume change orthogonal to the deviator. *)
  Lemma orthogonal_direction e : trace 3 e = 0 -> exists d k, symmetric 3 d /\ trace 3 d = 0 /\ ddot 3 e d = 0 /\ (k < 3)%nat /\ d k k <> 0.
  Proof.
    intros T. unfold trace in T. cbn [rsum] in T.
    set (dg := fun (x y z : R) => (fun i j => if Nat.eqb i j then match i with O => x | 1%nat => y | _ => z end else 0) : T2).
    assert (SY : forall x y z, symmetric 3 (dg x y z)).
    { intros x y z i j _ _. unfold dg. rewrite (Nat.eqb_sym j i). destruct (Nat.eqb_spec i j) as [->|]; reflexivity. }
    set (e0 := e 0%nat 0%nat) in *. set (e1 := e 1%nat 1%nat) in *. set (e2 := e 2%nat 2%nat) in *.
    destruct (Req_dec e0 e1) as [Q1|Q1]; [destruct (Req_dec e1 e2) as [Q2|Q2]|].
    - exists (dg 1 (-1) 0), 0%nat. split; [apply SY|]. split; [unfold dg, trace; cbn; lra|]. split; [|split; [lia|unfold dg; cbn; lra]].
      unfold ddot, sum2, dg. cbn. fold e0 e1 e2. lra.
    - exists (dg (e2 - e1) (e0 - e2) (e1 - e0)), 0%nat. split; [apply SY|]. split; [unfold dg, trace; cbn; lra|]. split; [|split; [lia|unfold dg; cbn; lra]].
      unfold ddot, sum2, dg. cbn. fold e0 e1 e2. ring.
    - exists (dg (e2 - e1) (e0 - e2) (e1 - e0)), 2%nat. split; [apply SY|]. split; [unfold dg, trace; cbn; lra|]. split; [|split; [lia|unfold dg; cbn; lra]].
      unfold ddot, sum2, dg. cbn. fold e0 e1 e2. ring.
  Qed.

  (** As soon as the elastic trial strain has a volumetric part, the returned
      tangent is not the derivative. *)
  Lemma dp_cone_core_wrong p : symmetric 3 p -> su_conv_tol * c0 < f p -> G * (f p / D) < sqrtJ2 (sig_of E v p) ->
    small < sqrtJ2 (sig_of E v p) -> trace 3 p <> 0 ->
    exists c m, dp_core E v P hl (Some (kmf p)) (Some a) = Ok c /\ dc_outcome c = DCone (f p / D) (Fin h) /\ dc_tangent c = Some m /\
      ~ is_tangent (dp_core_stress E v P hl a) p m.
  Proof.
    intros Sp L1 L2 QS T. destruct (cone_core p Sp L1 L2 QS) as (c & de & m & t4 & EC & EO & QD & ET & M4 & TT & DV).
    exists c, m. split; [exact EC|]. split; [exact EO|]. split; [exact ET|]. intros IT.
    destruct (orthogonal_direction (deviator3 p) (deviator_trace p)) as (d & k & Sd & Td & Od & Hk & Nk).
    assert (Sde : symmetric 3 de) by (intros i j Hi Hj; rewrite !QD by auto; apply (deviator_symmetric p Sp); auto).
    pose proof (IT d Sd k ltac:(lia)) as D1. pose proof (DV d Sd k ltac:(lia)) as D2.
    pose proof (uniqueness_limite _ _ _ _ D1 D2) as U. clear D1 D2 DV IT.
    rewrite (mv_mf4 t4 m d (dp_tangent_minor _ _ _ _ _ Sde TT) Sd M4) in U.
    assert (KK : forall b : T2, nth k (kmf b) 0 = b k k) by (intros b; destruct k as [|[|[|k]]]; [reflexivity..|lia]).
    rewrite !KK in U. rewrite (dp_cone_apply _ _ p d _ t4 k k Hk Hk Sd QD TT) in U. unfold cone_rate in U. cbv zeta in U.
    rewrite Od, Td in U.
    assert (DK : deviator3 d k k = d k k) by (unfold deviator3; rewrite Td; unfold ident; rewrite Nat.eqb_refl; field). rewrite DK in U.
    assert (C0 : small <= c0) by (pose proof (lin_c0 s0 h a S0 H0 A0) as Q; exact Q).
    assert (SM : 0 < small) by (unfold small; lra). assert (TP : 0 < su_conv_tol) by (unfold su_conv_tol; lra).
    assert (XP : 0 < g p).
    { unfold g. apply Rdiv_lt_0_compat; [|exact DP]. apply Rlt_trans with (su_conv_tol * c0); [apply Rmult_lt_0_compat; lra|exact L1]. }
    assert (S2 : 0 < sqrt 2) by (apply sqrt_lt_R0; lra).
    assert (NP : 0 < tnorm (deviator3 p)).
    { pose proof (norm_q p Sp) as NQ. pose proof (tnorm_nonneg (deviator3 p)) as [L|L]; [exact L|]. rewrite <- L, Rmult_0_r in NQ. lra. }
    set (n := tnorm (deviator3 p)) in *. set (nf := if rltb small (tnorm p) then 1 / tnorm p else 0) in *.
    assert (EQ : nf = 1 / n).
    { assert (Z : 2 * G * d k k * (g p / sqrt 2) * (nf - 1 / n) = 0) by (clearbody nf; lra).
      apply Rmult_integral in Z. destruct Z as [Z|Z]; [|lra]. exfalso.
      assert (0 < g p / sqrt 2) by (apply Rdiv_lt_0_compat; auto).
      apply Rmult_integral in Z. destruct Z as [Z|Z]; [|lra]. apply Rmult_integral in Z. destruct Z as [Z|Z]; [lra|auto]. }
    pose proof (tnorm_pythagoras p) as Y. fold n in Y. pose proof (tnorm_nonneg p) as NN.
    assert (TT2 : 0 < trace 3 p * trace 3 p) by (apply Rsqr_pos_lt in T; exact T).
    assert (IN : 0 < 1 / n) by (apply Rdiv_lt_0_compat; lra).
    unfold nf in EQ. destruct (rltb small (tnorm p)) eqn:B; [|lra]. apply rltb_iff in B.
    assert (QN : tnorm p = n).
    { apply (Rmult_eq_reg_r (1 / n)); [|lra]. rewrite <- EQ at 1. field_simplify; lra. }
    rewrite QN in Y. lra.
  Qed.
End LinearTangent.

(** ** At the state update *)
Definition dp_has_tangent E v P hl st inc (plast apex : bool) : Prop :=
  exists st' m, dp_state_update 4 E v P hl inc st = Ok (st', apex, Some m) /\ vs_plast st' = plast /\ vs_fail st' = false /\
    is_tangent (dp_stress_after E v P hl st) inc m.

Lemma dp_core_stress_ext E v P hl a p q : eq2 3 p q -> dp_core_stress E v P hl a p = dp_core_stress E v P hl a q.
Proof. intros H. unfold dp_core_stress. rewrite (kmf_ext _ _ H). reflexivity. Qed.

Section Lift.
  Variables (E v : R) (P : dp_params) (hl : hlaw) (st : vm_state) (e eps : T2) (a : R) (inc : T2).
  Hypotheses (E1 : vs_e st = Some (kmf e)) (E2 : vs_strain st = Some (kmf eps)) (E3 : vs_acc st = Some a).
  Let et : T2 := fun i j => e i j + inc i j.

  Lemma dp_lift_stress m : is_tangent (dp_core_stress E v P hl a) et m <-> is_tangent (dp_stress_after E v P hl st) inc m.
  Proof.
    assert (Q : forall (d : T2) k s, nth k (dp_stress_after E v P hl st (fun i j => inc i j + s * d i j)) 0
      = nth k (dp_core_stress E v P hl a (fun i j => et i j + s * d i j)) 0).
    { intros d k s. rewrite (dp_stress_after_3d E v P hl st e eps a _ E1 E2 E3).
      rewrite (dp_core_stress_ext E v P hl a _ (fun i j => et i j + s * d i j)); [reflexivity|]. intros i j _ _. unfold et. ring. }
    split; intros H d Sd k Hk; specialize (H d Sd k Hk); (eapply dlim_ext; [|exact H]); intros s; cbv beta; [|symmetry]; apply Q.
  Qed.
  Lemma dp_lift_update c : dp_core E v P hl (Some (kmf et)) (Some a) = Ok c -> exists st',
    dp_state_update 4 E v P hl inc st = Ok (st', dp_is_apex (dc_outcome c), dc_tangent c) /\
    vs_plast st' = dp_is_plast (dc_outcome c) /\ vs_fail st' = dp_is_fail (dc_outcome c).
  Proof.
    intros EC. unfold dp_state_update. cbn [get_problem_type_parameters rbind Nat.eqb]. rewrite mf2_3d. cbn [rbind].
    rewrite E1, E3. cbn [omap]. rewrite kmf_add. fold et. rewrite EC. cbn [rbind]. eexists. split; [reflexivity|]. auto.
  Qed.
  Lemma dp_lift plast apex : dp_core_tangent E v P hl a et plast apex -> dp_has_tangent E v P hl st inc plast apex.
  Proof.
    intros (c & m & EC & ET & O1 & O2 & O3 & IT). destruct (dp_lift_update c EC) as (st' & U & F1 & F2).
    exists st', m. rewrite U, O2, ET. split; [reflexivity|]. split; [congruence|]. split; [congruence|].
    apply dp_lift_stress. exact IT.
  Qed.
End Lift.

Section Theorems.
  Variables (E v : R) (P : dp_params) (st : vm_state) (e eps : T2) (a : R) (inc : T2).
  Hypotheses (Se : symmetric 3 e) (Si : symmetric 3 inc)
    (E1 : vs_e st = Some (kmf e)) (E2 : vs_strain st = Some (kmf eps)) (E3 : vs_acc st = Some a).
  Let et : T2 := fun i j => e i j + inc i j.
  Let sig := sig_of E v et.
  Let yield := dp_yield (d_xi P) (d_etay P) sig.
  Let St : symmetric 3 et.
  Proof. intros i j Hi Hj. unfold et. rewrite (Se i j), (Si i j) by auto. reflexivity. Qed.

  (** Elastic updates. *)
  Theorem dp_elastic_tangent_is_derivative hl c h : hl a = Some (c, h) -> / 100000000 <= c -> yield c < / 1000000 * c ->
    dp_has_tangent E v P hl st inc false false.
  Proof. intros HL C L. apply (dp_lift E v P hl st e eps a inc E1 E2 E3). apply (dp_elastic_core_tangent E v P hl a et c h); auto. Qed.

  (** Plastic updates with linear hardening. *)
  Variables (s0 h : R).
  Hypotheses (HE : 0 < E) (Hv1 : -1 < v) (Hv2 : v < 1 / 2) (HX : 0 <= d_xi P) (HY : 0 <= d_etay P) (HF : 0 <= d_etaf P)
    (S0 : / 100000000 <= s0) (H0 : 0 <= h) (A0 : 0 <= a).
  Let G := lame_mu E v.
  Let K := dp_bulk E v.
  Let c0 := s0 + h * a.
  (** multiplier of the return to the cone *)
  Let g := yield c0 / (G + K * d_etaf P * d_etay P + d_xi P ^ 2 * h).

  Theorem dp_apex_tangent_is_derivative : / 1000000 * c0 < yield c0 -> sqrtJ2 sig < G * g -> d_etaf P <> 0 -> d_etay P <> 0 ->
    dp_has_tangent E v P (linear_law s0 h) st inc true true.
  Proof. intros L1 L2 NF NY. apply (dp_lift E v P _ st e eps a inc E1 E2 E3). apply dp_apex_core_tangent; auto. Qed.

  Theorem dp_cone_tangent_is_derivative_partial : / 1000000 * c0 < yield c0 -> G * g < sqrtJ2 sig -> / 100000000 < sqrtJ2 sig ->
    / 100000000 < tnorm et -> trace 3 et = 0 -> dp_has_tangent E v P (linear_law s0 h) st inc true false.
  Proof. intros L1 L2 Q N T. apply (dp_lift E v P _ st e eps a inc E1 E2 E3). apply dp_cone_core_traceless; auto. Qed.

  (** The derivative is the formula of the code with the norm of the deviator. *)
  Theorem dp_cone_derivative : / 1000000 * c0 < yield c0 -> G * g < sqrtJ2 sig -> / 100000000 < sqrtJ2 sig ->
    / 100000000 < tnorm (deviator3 et) ->
    exists m t4, vget_tensor_mf4 t4 3 order_sym_3d true = Ok m /\
      dp_tangent P K G E v (tnorm (deviator3 et)) (deviator3 et) (DCone g (Fin h)) = Some t4 /\
      is_tangent (dp_stress_after E v P (linear_law s0 h) st) inc m.
  Proof.
    intros L1 L2 Q N. destruct (dp_cone_core_derivative E v P s0 h a HE Hv1 Hv2 HX HY HF S0 H0 A0 et St L1 L2 Q N) as (m & t4 & M4 & TT & IT).
    exists m, t4. split; [exact M4|]. split; [exact TT|]. apply (dp_lift_stress E v P _ st e eps a inc E1 E2 E3). exact IT.
  Qed.

  (** The returned tangent is wrong for every trial strain with a volumetric part. *)
  Theorem dp_cone_tangent_wrong : / 1000000 * c0 < yield c0 -> G * g < sqrtJ2 sig -> / 100000000 < sqrtJ2 sig -> trace 3 et <> 0 ->
    exists st' m, dp_state_update 4 E v P (linear_law s0 h) inc st = Ok (st', false, Some m) /\ vs_fail st' = false /\
      ~ is_tangent (dp_stress_after E v P (linear_law s0 h) st) inc m.
  Proof.
    intros L1 L2 Q N. destruct (dp_cone_core_wrong E v P s0 h a HE Hv1 Hv2 HX HY HF S0 H0 A0 et St L1 L2 Q N) as (c & m & EC & EO & ET & NT).
    destruct (dp_lift_update E v P _ st e a inc E1 E3 c EC) as (st' & U & F1 & F2).
    exists st', m. rewrite U, EO, ET. split; [reflexivity|]. split; [rewrite F2, EO; reflexivity|].
    intros IT. apply NT. apply (dp_lift_stress E v P _ st e eps a inc E1 E2 E3). exact IT.
  Qed.
End Theorems.

(** ** Witnesses *)
Definition dp_virgin : vm_state := VState (Some (kmf zero2)) (Some (kmf zero2)) (Some (kmf zero2)) (Some 0) false false (Some 0) (Some 0).
(** shear [x] and equal normal components [y] *)
Definition shear_vol (x y : R) : T2 := fun i j => match i, j with 0, 0 | 1, 1 | 2, 2 => y | 0, 1 | 1, 0 => x | _, _ => 0%R end%nat.
Definition dp_mat : dp_params := DP 1 (1/2) (1/2).
Lemma shear_vol_sym x y : symmetric 3 (shear_vol x y).
Proof. intros i j Hi Hj. destruct i as [|[|[|i]]], j as [|[|[|j]]]; try lia; reflexivity. Qed.
Definition sv_trial x y : T2 := fun i j => zero2 i j + shear_vol x y i j.
Lemma sv_trace x y : trace 3 (sv_trial x y) = 3 * y.
Proof. unfold trace, sv_trial, zero2, shear_vol. cbn. ring. Qed.
Lemma sv_G : lame_mu 2 0 = 1. Proof. unfold lame_mu. field. Qed.
Lemma sv_K : dp_bulk 2 0 = 2 / 3. Proof. unfold dp_bulk. field. Qed.
Lemma sv_pressure x y : pressure (sig_of 2 0 (sv_trial x y)) = 2 * y.
Proof. unfold pressure. rewrite trace_sig by lra. rewrite sv_trace, sv_K. field. Qed.
Lemma sv_dev x y : eq2 3 (deviator3 (sv_trial x y)) (shear_vol x 0).
Proof. intros i j Hi Hj. unfold deviator3. rewrite sv_trace. destruct i as [|[|[|i]]], j as [|[|[|j]]]; try lia; unfold sv_trial, zero2, shear_vol, ident; cbn; field. Qed.
Lemma sv_q x y : 0 <= x -> sqrtJ2 (sig_of 2 0 (sv_trial x y)) = 2 * x.
Proof.
  intros X. unfold sqrtJ2.
  rewrite (ddot_ext _ _ (fun i j => 2 * shear_vol x 0 i j) (fun i j => 2 * shear_vol x 0 i j)).
  - replace (ddot 3 (fun i j => 2 * shear_vol x 0 i j) (fun i j => 2 * shear_vol x 0 i j) / 2) with ((2 * x) * (2 * x)); [apply sqrt_square; lra|].
    unfold ddot, sum2, shear_vol. cbn. field.
  - intros i j Hi Hj. unfold sig_of. rewrite deviator_hooke by auto. rewrite sv_G, sv_dev by auto. ring.
  - intros i j Hi Hj. unfold sig_of. rewrite deviator_hooke by auto. rewrite sv_G, sv_dev by auto. ring.
Qed.
Lemma sv_norm x y : 0 <= x -> x <= tnorm (sv_trial x y).
Proof. intros X. pose proof (tnorm_sq (sv_trial x y)) as Q. pose proof (tnorm_nonneg (sv_trial x y)).
  assert (ddot 3 (sv_trial x y) (sv_trial x y) = 2 * x * x + 3 * y * y) by (unfold ddot, sum2, sv_trial, zero2, shear_vol; cbn; ring). nra. Qed.

Theorem dp_cone_tangent_refuted : exists E v P hl st inc st' m, dp_state_update 4 E v P hl inc st = Ok (st', false, Some m) /\
  vs_fail st' = false /\ ~ is_tangent (dp_stress_after E v P hl st) inc m.
Proof.
  exists 2, 0, dp_mat, (linear_law 1 0), dp_virgin, (shear_vol 1 (1/10)).
  apply (dp_cone_tangent_wrong 2 0 dp_mat dp_virgin zero2 zero2 0 (shear_vol 1 (1/10)) (fun _ _ _ _ => eq_refl) (shear_vol_sym _ _) eq_refl eq_refl eq_refl 1 0);
    try (cbn; lra); change (fun i j => zero2 i j + shear_vol 1 (1/10) i j) with (sv_trial 1 (1/10));
    unfold dp_yield; rewrite ?sv_q, ?sv_pressure, ?sv_G, ?sv_K, ?sv_trace by lra; cbn [d_xi d_etay d_etaf dp_mat pow]; lra.
Qed.

(** pure shear: the tangent is the derivative *)
Example dp_shear_tangent : dp_has_tangent 2 0 dp_mat (linear_law 1 0) dp_virgin (shear_vol 1 0) true false.
Proof.
  apply (dp_cone_tangent_is_derivative_partial 2 0 dp_mat dp_virgin zero2 zero2 0 (shear_vol 1 0) (fun _ _ _ _ => eq_refl) (shear_vol_sym _ _) eq_refl eq_refl eq_refl 1 0);
    try (cbn; lra); change (fun i j => zero2 i j + shear_vol 1 0 i j) with (sv_trial 1 0);
    unfold dp_yield; rewrite ?sv_q, ?sv_pressure, ?sv_G, ?sv_K, ?sv_trace by lra; cbn [d_xi d_etay d_etaf dp_mat pow]; try lra.
  eapply Rlt_le_trans; [|apply sv_norm]; lra.
Qed.
(** hydrostatic tension: return to the apex *)
Example dp_tension_tangent : dp_has_tangent 2 0 dp_mat (linear_law 1 0) dp_virgin (shear_vol 0 2) true true.
Proof.
  apply (dp_apex_tangent_is_derivative 2 0 dp_mat dp_virgin zero2 zero2 0 (shear_vol 0 2) (fun _ _ _ _ => eq_refl) (shear_vol_sym _ _) eq_refl eq_refl eq_refl 1 0);
    try (cbn; lra); change (fun i j => zero2 i j + shear_vol 0 2 i j) with (sv_trial 0 2);
    unfold dp_yield; rewrite ?sv_q, ?sv_pressure, ?sv_G, ?sv_K, ?sv_trace by lra; cbn [d_xi d_etay d_etaf dp_mat pow]; lra.
Qed.
(** hydrostatic compression: elastic *)
Example dp_compression_tangent : dp_has_tangent 2 0 dp_mat (linear_law 1 0) dp_virgin (shear_vol 0 (-2)) false false.
Proof.
  apply (dp_elastic_tangent_is_derivative 2 0 dp_mat dp_virgin zero2 zero2 0 (shear_vol 0 (-2)) (fun _ _ _ _ => eq_refl) (shear_vol_sym _ _) eq_refl eq_refl eq_refl (linear_law 1 0) 1 (Fin 0)).
  - unfold linear_law. rewrite relu_pos by lra. f_equal. f_equal. ring.
  - lra.
  - change (fun i j => zero2 i j + shear_vol 0 (-2) i j) with (sv_trial 0 (-2)).
    unfold dp_yield. rewrite sv_q, sv_pressure by lra. cbn [d_xi d_etay d_etaf dp_mat]. lra.
Qed.

Print Assumptions dp_elastic_tangent_is_derivative.
Print Assumptions dp_apex_tangent_is_derivative.
Print Assumptions dp_cone_tangent_is_derivative_partial.
Print Assumptions dp_cone_derivative.
Print Assumptions dp_cone_tangent_wrong.
Print Assumptions dp_cone_tangent_refuted.
