(** Lemmas about the Drucker-Prager state update. *)
From Coq Require Import Reals List Arith Bool Lia Lra Psatz.
From Verif Require Import Lib MatrixModel MatrixSpec TensorModel TensorSpec HardeningModel HardeningProps
  ElasticModel ElasticSpec ElasticProofs VonMisesModel VonMisesSpec VonMisesProofs DruckerModel DruckerSpec.
Import ListNotations.
Local Open Scope R_scope.

Lemma rabs_quot a b : Rabs (a / b) = Rabs a / Rabs b.
Proof. unfold Rdiv. rewrite Rabs_mult, Rabs_inv. reflexivity. Qed.
Lemma scaled_rel r c : Rabs (dp_scaled r c) = rel_err (Rabs r) c.
Proof.
  unfold dp_scaled, rel_err, small. destruct (rltb (Rabs c) (/ 100000000)) eqn:B.
  - apply rltb_iff in B. destruct (Rlt_dec _ _); [reflexivity|contradiction].
  - destruct (Rlt_dec _ _) as [L|L]; [apply rltb_iff in L; congruence|]. apply rabs_quot.
Qed.
Lemma consistency_rel f c : (if rltb (Rabs c) small then f else f / Rabs c) = rel_err f c.
Proof.
  unfold rel_err, small. destruct (rltb (Rabs c) (/ 100000000)) eqn:B.
  - apply rltb_iff in B. destruct (Rlt_dec _ _); [reflexivity|contradiction].
  - destruct (Rlt_dec _ _) as [L|L]; [apply rltb_iff in L; congruence|reflexivity].
Qed.

(** ** Newton loops: what they return satisfies the convergence test. *)
Lemma cone_newton_result hl P K G q p acc : forall fuel first x r H x' H',
  cone_newton hl P K G q p acc fuel first x r H = Some (x', H') ->
  exists c, hl (acc + d_xi P * x') = Some (c, H') /\ rel_err (Rabs (cone_residual P K G q p x' c)) c < su_conv_tol.
Proof.
  induction fuel as [|f IH]; intros first x r H x' H'; cbn [cone_newton];
    destruct (cone_correction P K G r H) as [d|]; try discriminate;
    destruct (hl (acc + d_xi P * (x + d))) as [[c H1]|] eqn:E; try discriminate;
    destruct (rltb (Rabs (dp_scaled (cone_residual P K G q p (x + d) c) c)) su_conv_tol && negb first) eqn:T; try discriminate.
  1,2: intros Q; injection Q as <- <-; exists c; split; auto; apply andb_true_iff in T; destruct T as [T _];
       apply rltb_iff in T; rewrite scaled_rel in T; exact T.
  apply IH.
Qed.
Lemma apex_newton_result hl P K p acc : forall fuel first x r H x' H',
  dp_apex_newton hl P K p acc fuel first x r H = Some (x', H') ->
  exists c, hl (acc + dp_alpha P * x') = Some (c, H') /\ rel_err (Rabs (apex_residual P K p x' c)) c < su_conv_tol.
Proof.
  induction fuel as [|f IH]; intros first x r H x' H'; cbn [dp_apex_newton];
    destruct (apex_correction P K r H) as [d|]; try discriminate;
    destruct (hl (acc + dp_alpha P * (x + d))) as [[c H1]|] eqn:E; try discriminate;
    destruct (rltb (Rabs (dp_scaled (apex_residual P K p (x + d) c) c)) su_conv_tol && negb first) eqn:T; try discriminate.
  1,2: intros Q; injection Q as <- <-; exists c; split; auto; apply andb_true_iff in T; destruct T as [T _];
       apply rltb_iff in T; rewrite scaled_rel in T; exact T.
  apply IH.
Qed.

(** What each outcome of the return mapping means. *)
Definition yield_exceeded (hl : hlaw) (P : dp_params) (q p acc : R) : Prop :=
  exists c h, hl acc = Some (c, h) /\ su_conv_tol < rel_err (q + d_etay P * p - d_xi P * c) c.
Definition cone_solution (hl : hlaw) (P : dp_params) (K G q p acc x : R) (H : slope) : Prop :=
  exists c, hl (acc + d_xi P * x) = Some (c, H) /\ rel_err (Rabs (cone_residual P K G q p x c)) c < su_conv_tol.
Lemma dp_return_spec hl P K G q p acc :
  match dp_return hl P K G q p acc with
  | DElastic => exists c h, hl acc = Some (c, h) /\ rel_err (q + d_etay P * p - d_xi P * c) c <= su_conv_tol
  | DCone x H => yield_exceeded hl P q p acc /\ cone_solution hl P K G q p acc x H /\ G * x <= q
  | DApex x H => yield_exceeded hl P q p acc /\ (exists g Hg, cone_solution hl P K G q p acc g Hg /\ q < G * g) /\
      d_etaf P <> 0 /\ d_etay P <> 0 /\
      exists c, hl (acc + dp_alpha P * x) = Some (c, H) /\ rel_err (Rabs (apex_residual P K p x c)) c < su_conv_tol
  | DConeFailed | DApexFailed => True
  end.
Proof.
  unfold dp_return. destruct (hl acc) as [[c h]|] eqn:E; [|exact I]. rewrite consistency_rel.
  destruct (rleb (rel_err _ c) su_conv_tol) eqn:B.
  { exists c, h. split; auto. apply rleb_iff in B. exact B. }
  apply rleb_false in B.
  assert (YE : yield_exceeded hl P q p acc) by (exists c, h; split; auto).
  destruct (hl (acc + d_xi P * 0)) as [[c0 H0]|]; [|exact I].
  destruct (cone_newton hl P K G q p acc su_max_n_iterations true 0 _ H0) as [[x H]|] eqn:N; [|exact I].
  apply cone_newton_result in N.
  destruct (rleb 0 (q - G * x)) eqn:B2.
  { apply rleb_iff in B2. split; auto. split; auto. lra. }
  apply rleb_false in B2.
  destruct (Req_EM_T (d_etaf P) 0) as [|F1]; [exact I|]. destruct (Req_EM_T (d_etay P) 0) as [|F2]; [exact I|]. cbn [orb].
  destruct (hl (acc + dp_alpha P * 0)) as [[c1 H1]|]; [|exact I].
  destruct (dp_apex_newton hl P K p acc su_max_n_iterations true 0 _ H1) as [[x' H']|] eqn:N2; [|exact I].
  apply apex_newton_result in N2. split; auto. split; [exists x, H; split; auto; lra|]. auto.
Qed.

(** ** Tensors *)
Lemma sqrtJ2_norm s : symmetric 3 s -> sqrt (1 / 2 * vnorm (kmf (deviator3 s)) ^ 2) = sqrtJ2 s.
Proof.
  intros S. rewrite kmf_norm by (apply deviator_symmetric; auto). unfold sqrtJ2. f_equal.
  replace (tnorm (deviator3 s) ^ 2) with (tnorm (deviator3 s) * tnorm (deviator3 s)) by ring. rewrite tnorm_sq. field.
Qed.
Lemma sqrtJ2_nonneg s : 0 <= sqrtJ2 s.
Proof. apply sqrt_pos. Qed.
Lemma sqrtJ2_sq s : sqrtJ2 s * sqrtJ2 s = ddot 3 (deviator3 s) (deviator3 s) / 2.
Proof. apply sqrt_sqrt. pose proof (ddot_nonneg (deviator3 s)). lra. Qed.
Lemma sqrtJ2_scaled s s' k : 0 <= k -> eq2 3 (deviator3 s') (fun i j => k * deviator3 s i j) -> sqrtJ2 s' = k * sqrtJ2 s.
Proof.
  intros K0 Q. unfold sqrtJ2. rewrite (ddot_ext _ _ _ _ Q Q), ddot_scal2.
  replace (k * k * ddot 3 (deviator3 s) (deviator3 s) / 2) with (k * k * (ddot 3 (deviator3 s) (deviator3 s) / 2)) by field.
  rewrite sqrt_mult; [|nra|pose proof (ddot_nonneg (deviator3 s)); lra]. rewrite sqrt_square by auto. reflexivity.
Qed.

Definition iso_dev (E v p : R) (s : T2) : T2 :=
  fun i j => 1 / (3 * dp_bulk E v) * p * ident i j + 1 / (2 * lame_mu E v) * s i j.

Lemma dev_iso p s : trace 3 s = 0 -> eq2 3 (deviator3 (fun i j => p * ident i j + s i j)) s.
Proof.
  intros T i j Hi Hj. unfold deviator3, trace, ident in *. cbn [rsum Nat.eqb] in *.
  replace (0 + (p * 1 + s 0%nat 0%nat) + (p * 1 + s 1%nat 1%nat) + (p * 1 + s 2%nat 2%nat)) with (3 * p) by lra.
  destruct (Nat.eqb i j); field.
Qed.
Lemma trace_iso p s : trace 3 s = 0 -> trace 3 (fun i j => p * ident i j + s i j) = 3 * p.
Proof. intros T. unfold trace, ident in *. cbn [rsum Nat.eqb] in *. lra. Qed.
Lemma deviator_ext s s' : eq2 3 s s' -> eq2 3 (deviator3 s) (deviator3 s').
Proof. intros Q i j Hi Hj. unfold deviator3, trace. cbn [rsum]. rewrite !Q by (auto; lia). reflexivity. Qed.
Lemma trace_ext s s' : eq2 3 s s' -> trace 3 s = trace 3 s'.
Proof. intros Q. unfold trace. cbn [rsum]. rewrite !Q by lia. reflexivity. Qed.

Section Moduli.
  Variables (E v : R).
  Hypotheses (V1 : 1 + v <> 0) (V2 : 1 - 2 * v <> 0) (HE : E <> 0).
  Lemma bulk_nz : dp_bulk E v <> 0.
  Proof. unfold dp_bulk, Rdiv. apply Rmult_integral_contrapositive_currified; [auto|apply Rinv_neq_0_compat; lra]. Qed.
  Lemma shear_nz : lame_mu E v <> 0.
  Proof. unfold lame_mu, Rdiv. apply Rmult_integral_contrapositive_currified; [auto|apply Rinv_neq_0_compat; lra]. Qed.
  Lemma bulk_lame : 3 * dp_bulk E v = 3 * lame_lambda E v + 2 * lame_mu E v.
  Proof. unfold dp_bulk, lame_lambda, lame_mu. field. lra. Qed.
  Lemma trace_sig e : trace 3 (sig_of E v e) = 3 * dp_bulk E v * trace 3 e.
  Proof. rewrite bulk_lame. unfold sig_of, hooke, trace, ident. cbn [rsum Nat.eqb]. ring. Qed.
  Lemma trace_iso_dev p s : trace 3 s = 0 -> trace 3 (iso_dev E v p s) = p / dp_bulk E v.
  Proof.
    intros T. unfold iso_dev, trace in *. cbn [rsum] in *. unfold ident. cbn [Nat.eqb].
    transitivity (1 / dp_bulk E v * p + 1 / (2 * lame_mu E v) * (0 + s 0%nat 0%nat + s 1%nat 1%nat + s 2%nat 2%nat)).
    - field. split; [apply shear_nz|apply bulk_nz].
    - rewrite T. field. split; [apply bulk_nz|apply shear_nz].
  Qed.
  Lemma sig_iso_dev p s : trace 3 s = 0 -> eq2 3 (sig_of E v (iso_dev E v p s)) (fun i j => p * ident i j + s i j).
  Proof.
    intros T i j Hi Hj. unfold sig_of, hooke. rewrite trace_iso_dev by auto. unfold iso_dev.
    pose proof bulk_nz as NB. pose proof shear_nz as NG. pose proof bulk_lame as B.
    transitivity (p * ident i j * ((3 * lame_lambda E v + 2 * lame_mu E v) / (3 * dp_bulk E v)) + s i j).
    - field. auto.
    - rewrite <- B. field. auto.
  Qed.
  (** strain split into pressure and deviatoric stress *)
  Lemma split_strain e : eq2 3 e (iso_dev E v (pressure (sig_of E v e)) (deviator3 (sig_of E v e))).
  Proof.
    intros i j Hi Hj. unfold iso_dev, pressure. rewrite trace_sig. unfold sig_of. rewrite deviator_hooke by auto.
    unfold deviator3. field. split; [apply shear_nz|apply bulk_nz].
  Qed.
End Moduli.

Definition returned_dev (s : T2) (q factor : R) : T2 := fun i j => (if rltb small q then factor else 0) * s i j.

Lemma rbind_ok {A B} (a : A) (f : A -> res B) : rbind (Ok a) f = f a.
Proof. reflexivity. Qed.

(** ** The three-dimensional core on tensors *)
Lemma dp_core_finish E v P hl et acc : symmetric 3 et ->
  exists dev_e, eq2 3 dev_e (deviator3 et) /\
    dp_core E v P hl (Some (kmf et)) (Some acc) =
    dp_finish E v P (kmf soid) (kmf et) (kmf (sig_of E v et)) (kmf (deviator3 (sig_of E v et))) dev_e
      (sqrtJ2 (sig_of E v et)) (pressure (sig_of E v et)) acc
      (dp_return hl P (dp_bulk E v) (lame_mu E v) (sqrtJ2 (sig_of E v et)) (pressure (sig_of E v et)) acc).
Proof.
  intros S.
  assert (Ss : symmetric 3 (sig_of E v et)) by (apply hooke_symmetric; auto).
  destruct (from_kmf (sig_of E v et) Ss) as (tt & Et & Qt).
  destruct (from_kmf (deviator3 et) (deviator_symmetric et S)) as (de & Ed & Qd).
  exists de. split; [exact Qd|].
  assert (EP : 1 / 3 * (tt 0%nat 0%nat + tt 1%nat 1%nat + tt 2%nat 2%nat) = pressure (sig_of E v et)).
  { rewrite !Qt by lia. unfold pressure, trace. cbn [rsum]. field. }
  rewrite <- EP, <- (sqrtJ2_norm _ Ss).
  unfold dp_core. rewrite mf2_3d, devproj_mf, iso_tangent_mf. cbn [rbind].
  rewrite hooke_kmf. fold (sig_of E v et). rewrite !dev_kmf. rewrite Et, rbind_ok, Ed, rbind_ok.
  reflexivity.
Qed.

Lemma dp_finish_3d E v P et dev_e q p acc o : symmetric 3 et ->
  let sig := sig_of E v et in let G := lame_mu E v in let K := dp_bulk E v in let s := deviator3 sig in
  exists c, dp_finish E v P (kmf soid) (kmf et) (kmf sig) (kmf s) dev_e q p acc o = Ok c /\ dc_outcome c = o /\
    match o with
    | DElastic => dc_e c = Some (kmf et) /\ dc_stress c = Some (kmf sig) /\ dc_acc c = Some acc /\
        dc_tangent c = Some (iso_mf (lame_lambda E v) (2 * G))
    | DConeFailed | DApexFailed => dc_e c = None /\ dc_stress c = None /\ dc_acc c = None /\ dc_tangent c = None
    | DCone x H => let pr := p - K * d_etaf P * x in let sd := returned_dev s q (1 - G * x / q) in
        dc_e c = Some (kmf (iso_dev E v pr sd)) /\ dc_stress c = Some (kmf (fun i j => pr * ident i j + sd i j)) /\
        dc_acc c = Some (acc + d_xi P * x) /\
        exists m t4, dc_tangent c = Some m /\ vget_tensor_mf4 t4 3 order_sym_3d true = Ok m /\
          dp_tangent P K G E v (tnorm et) dev_e (DCone x H) = Some t4
    | DApex x H => let pr := p - K * x in
        dc_e c = Some (kmf (iso_dev E v pr zero2)) /\ dc_stress c = Some (kmf (fun i j => pr * ident i j)) /\
        dc_acc c = Some (acc + dp_alpha P * x) /\
        exists m t4, dc_tangent c = Some m /\ vget_tensor_mf4 t4 3 order_sym_3d true = Ok m /\
          dp_tangent P K G E v (tnorm et) dev_e (DApex x H) = Some t4
    end.
Proof.
  intros S sig G K s.
  assert (KS : forall pr, vscale pr (kmf soid) = kmf (fun i j => pr * ident i j)) by (intros; apply kmf_scale).
  unfold dp_finish. rewrite kmf_norm by auto. fold G K.
  destruct o as [|x H|x H| |].
  - cbn [dp_tangent]. rewrite iso_tangent_mf. cbn [rbind]. eexists. split; [reflexivity|]. split; [reflexivity|]. cbn. auto.
  - destruct (dp_tangent P K G E v (tnorm et) dev_e (DCone x H)) as [t4|] eqn:T; [|discriminate].
    destruct (vget_tensor_mf4 t4 3 order_sym_3d true) as [m|] eqn:M; [|discriminate]. cbn [rbind].
    rewrite !KS, !kmf_scale, !kmf_add. eexists. split; [reflexivity|]. split; [reflexivity|]. cbn [dc_outcome dc_e dc_stress dc_acc dc_tangent].
    split; [reflexivity|]. split; [reflexivity|]. split; [reflexivity|]. exists m, t4. auto.
  - destruct (dp_tangent P K G E v (tnorm et) dev_e (DApex x H)) as [t4|] eqn:T; [|discriminate].
    destruct (vget_tensor_mf4 t4 3 order_sym_3d true) as [m|] eqn:M; [|discriminate]. cbn [rbind].
    rewrite !KS, !kmf_scale, !kmf_add. eexists. split; [reflexivity|]. split; [reflexivity|]. cbn [dc_outcome dc_e dc_stress dc_acc dc_tangent].
    split; [|split; [reflexivity|split; [reflexivity|exists m, t4; split; [reflexivity|split; [exact M|reflexivity]]]]].
    f_equal. apply kmf_ext. intros i j _ _. unfold iso_dev, zero2. fold K G. ring.
  - cbn [dp_tangent rbind]. eexists. split; [reflexivity|]. split; [reflexivity|]. cbn. auto.
  - cbn [dp_tangent rbind]. eexists. split; [reflexivity|]. split; [reflexivity|]. cbn. auto.
Qed.
