(** Lemmas about the mixed hardening update. *)
From Coq Require Import Reals List Arith Bool Lia Lra Psatz.
From Verif Require Import Lib MatrixModel MatrixSpec TensorModel TensorSpec HardeningModel HardeningProps
  ElasticModel ElasticSpec ElasticProofs VonMisesModel VonMisesSpec VonMisesProofs VonMisesProps VmapModel
  MixedModel MixedSpec.
Import ListNotations.
Local Open Scope R_scope.

(** ** Newton loop: whatever it returns satisfies the convergence test. *)
Lemma mx_newton_result hl kl q G acc kold tol : forall fuel first x x' k H,
  mx_newton hl kl q G acc kold tol fuel first x = Some (x', k, H) ->
  exists y h kh, hl (acc + x') = Some (y, h) /\ kl (acc + x') = Some (k, kh) /\ H = slope_add kh h /\ y <> 0 /\
    Rabs (q - 3 * G * x' - (k - kold) - y) < tol * Rabs y.
Proof.
  induction fuel as [|f IH]; intros first x x' k H; cbn [mx_newton];
    destruct (hl (acc + x)) as [[y h]|] eqn:E; try discriminate;
    destruct (kl (acc + x)) as [[kk kh]|] eqn:EK; try discriminate; cbv zeta;
    destruct (quot_lt (Rabs (mx_residual q G kold x kk y)) (Rabs y) tol && negb first) eqn:T.
  1,3: intros Q; inversion Q; subst x' kk H; apply andb_true_iff in T; destruct T as [T _];
       unfold quot_lt in T; destruct (Req_EM_T (Rabs y) 0) as [|N]; [discriminate|];
       apply rltb_iff in T; exists y, h, kh; repeat (split; [auto; fail|]); split;
       [intros ->; apply N, Rabs_R0|];
       assert (P : 0 < Rabs y) by (pose proof (Rabs_pos y); lra);
       apply (Rmult_lt_compat_r (Rabs y)) in T; auto;
       unfold Rdiv in T; rewrite Rmult_assoc, Rinv_l, Rmult_1_r in T by auto;
       unfold mx_residual in T; replace (q - 3 * G * x - (k - kold) - y) with (q - 3 * G * x - k + kold - y) by ring; exact T.
  - discriminate.
  - destruct (slope_add kh h) as [g|]; [|apply IH]. destruct (Req_EM_T (- 3 * G - g) 0); [discriminate|apply IH].
Qed.

Lemma mx_return_elastic hl kl G q acc : mx_return hl kl G q acc = MElastic <->
  exists y h, hl acc = Some (y, h) /\ quot_le (q - y) y su_conv_tol = true.
Proof.
  unfold mx_return. split.
  - destruct (hl acc) as [[y h]|]; [|discriminate]. destruct (quot_le (q - y) y su_conv_tol) eqn:Q; [eauto|].
    destruct (kl acc) as [[k kh]|]; [|discriminate].
    destruct (mx_newton _ _ _ _ _ _ _ _ _ _) as [[[? ?] ?]|]; discriminate.
  - intros (y & h & -> & ->). reflexivity.
Qed.
Lemma quot_le_pos a y tol : 0 < y -> quot_le a y tol = true <-> a <= y * tol.
Proof.
  intros P. unfold quot_le. destruct (Req_EM_T y 0); [lra|]. rewrite rleb_iff. split; intros H.
  - apply (Rmult_le_compat_r y) in H; [|lra]. unfold Rdiv in H. rewrite Rmult_assoc, Rinv_l in H by auto. lra.
  - apply (Rmult_le_reg_r y); [lra|]. unfold Rdiv. rewrite Rmult_assoc, Rinv_l by auto. lra.
Qed.
Lemma quot_le_pos_false a y tol : 0 < y -> quot_le a y tol = false -> y * tol < a.
Proof.
  intros P H. destruct (Rlt_le_dec (y * tol) a) as [|L]; auto.
  apply (quot_le_pos a y tol P) in L. congruence.
Qed.

Lemma mx_return_plastic hl kl G q acc x dk H : mx_return hl kl G q acc = MPlastic x dk H ->
  exists y0 h0 k0 g0 y h k g, hl acc = Some (y0, h0) /\ kl acc = Some (k0, g0) /\
    (0 < y0 -> y0 * (1 + su_conv_tol) < q) /\
    hl (acc + x) = Some (y, h) /\ kl (acc + x) = Some (k, g) /\ dk = k - k0 /\ H = slope_add g h /\ y <> 0 /\
    Rabs (q - 3 * G * x - dk - y) < su_conv_tol * Rabs y.
Proof.
  unfold mx_return. destruct (hl acc) as [[y0 h0]|]; [|discriminate].
  destruct (quot_le (q - y0) y0 su_conv_tol) eqn:Q; [discriminate|].
  destruct (kl acc) as [[k0 g0]|]; [|discriminate].
  destruct (mx_newton _ _ _ _ _ _ _ _ _ _) as [[[x' k'] H']|] eqn:N; [|discriminate].
  intros E. inversion E; subst x' H' dk. destruct (mx_newton_result _ _ _ _ _ _ _ _ _ _ _ _ _ N) as (y & h & g & A & B & C & D & F).
  exists y0, h0, k0, g0, y, h, k', g. repeat (split; [auto; fail|]). split; [|auto 10].
  intros P. apply quot_le_pos_false in Q; [|exact P]. lra.
Qed.

Lemma mx_multiplier_positive hl kl G q acc x dk H : 0 <= G -> law_above 0 hl -> law_monotone hl -> law_monotone kl ->
  mx_return hl kl G q acc = MPlastic x dk H ->
  (forall y h, hl acc = Some (y, h) -> 0 < y) -> 0 < x.
Proof.
  intros HG LA LM KM R P.
  destruct (mx_return_plastic _ _ _ _ _ _ _ _ R) as (y0 & h0 & k0 & g0 & y & h & k & g & E0 & K0 & V & E1 & K1 & -> & _ & NZ & C).
  pose proof (P _ _ E0) as P0. specialize (V P0).
  destruct (Rlt_le_dec 0 x) as [|L]; auto. exfalso.
  pose proof (LM _ _ _ _ _ _ (ltac:(lra) : acc + x <= acc) E1 E0) as M.
  pose proof (KM _ _ _ _ _ _ (ltac:(lra) : acc + x <= acc) K1 K0) as M'.
  pose proof (LA _ _ _ E1) as Py. rewrite (Rabs_right y) in C by lra.
  apply Rabs_def2 in C. assert (0 < su_conv_tol) by (unfold su_conv_tol; lra). nra.
Qed.

(** ** Shifted trial strain: the relative trial stress is the deviatoric stress
    of the trial strain less the elastic strain of the back stress. *)
Definition shifted (G : R) (et b : T2) : T2 := fun i j => et i j - b i j / (2 * G).
Lemma shifted_symmetric G et b : symmetric 3 et -> symmetric 3 b -> symmetric 3 (shifted G et b).
Proof. intros S T i j Hi Hj. unfold shifted. rewrite (S i j), (T i j) by auto. reflexivity. Qed.
Lemma sig_shift E v et b i j : lame_mu E v <> 0 -> trace 3 b = 0 -> sig_of E v (shifted (lame_mu E v) et b) i j = sig_of E v et i j - b i j.
Proof.
  intros G T. unfold sig_of, hooke, shifted. set (m := lame_mu E v) in *.
  replace (trace 3 (fun i0 j0 => et i0 j0 - b i0 j0 / (2 * m))) with (trace 3 et - trace 3 b / (2 * m))
    by (unfold trace; simpl; field; exact G).
  rewrite T. field. exact G.
Qed.
Lemma dev_shift E v et b i j : lame_mu E v <> 0 -> trace 3 b = 0 ->
  deviator3 (sig_of E v (shifted (lame_mu E v) et b)) i j = relative_stress (sig_of E v et) b i j.
Proof.
  intros G T. unfold relative_stress, deviator3. rewrite sig_shift by auto.
  replace (trace 3 (sig_of E v (shifted (lame_mu E v) et b))) with (trace 3 (sig_of E v et)); [ring|].
  unfold trace in *. simpl in *. rewrite !sig_shift by auto. lra.
Qed.
Lemma trace_shift E v et b : lame_mu E v <> 0 -> trace 3 b = 0 -> trace 3 (shifted (lame_mu E v) et b) = trace 3 et.
Proof.
  intros G T. replace (trace 3 (shifted (lame_mu E v) et b)) with (trace 3 et - trace 3 b / (2 * lame_mu E v))
    by (unfold trace, shifted; simpl; field; exact G). rewrite T. field. exact G.
Qed.

(** Returned strain and back stress. *)
Definition mx_e (E v : R) (et b : T2) (x : R) : T2 :=
  let eta := relative_stress (sig_of E v et) b in fun i j => et i j - x * (flow_factor eta * eta i j).
Definition mx_b (E v : R) (et b : T2) (dk : R) : T2 :=
  let eta := relative_stress (sig_of E v et) b in fun i j => b i j + dk * (flow_factor eta * eta i j).

Lemma relative_symmetric E v et b : symmetric 3 et -> symmetric 3 b -> symmetric 3 (relative_stress (sig_of E v et) b).
Proof.
  intros S T i j Hi Hj. unfold relative_stress.
  rewrite (T i j) by auto.
  rewrite (deviator_symmetric (sig_of E v et) (hooke_symmetric _ _ _ S) i j) by auto. reflexivity.
Qed.
Lemma relative_trace E v et b : trace 3 b = 0 -> trace 3 (relative_stress (sig_of E v et) b) = 0.
Proof.
  intros T. pose proof (deviator_trace (sig_of E v et)) as D. unfold trace, relative_stress in *. simpl in *. lra.
Qed.
Lemma equivalent_shift E v et b : lame_mu E v <> 0 -> trace 3 b = 0 ->
  vmises (sig_of E v (shifted (lame_mu E v) et b)) = equivalent (relative_stress (sig_of E v et) b).
Proof.
  intros G T. rewrite vmises_norm. unfold equivalent. f_equal. apply tnorm_ext. intros i j _ _. apply dev_shift; auto.
Qed.
Lemma flow_factor_ext s t : eq2 3 s t -> flow_factor s = flow_factor t.
Proof. intros Q. unfold flow_factor. rewrite (tnorm_ext _ _ Q). reflexivity. Qed.

(** ** The three-dimensional core on tensors *)
Lemma mx_core_3d E v hl kl et acc b : symmetric 3 et -> symmetric 3 b ->
  let eta := relative_stress (sig_of E v et) b in
  exists c, mx_core E v hl kl (Some (kmf et)) (Some acc) (Some (kmf b)) = Ok c /\
    mc_outcome c = mx_return hl kl (lame_mu E v) (equivalent eta) acc /\
    match mc_outcome c with
    | MElastic => mc_e c = Some (kmf et) /\ mc_stress c = Some (kmf (sig_of E v et)) /\ mc_acc c = Some acc /\
        mc_back c = Some (kmf b) /\ mc_tangent c = Some (iso_mf (lame_lambda E v) (2 * lame_mu E v))
    | MPlastic x dk H => mc_e c = Some (kmf (mx_e E v et b x)) /\
        mc_stress c = Some (kmf (sig_of E v (mx_e E v et b x))) /\ mc_acc c = Some (acc + x) /\
        mc_back c = Some (kmf (mx_b E v et b dk)) /\
        exists m t4 flow_t, mc_tangent c = Some m /\ vget_tensor_mf4 t4 3 order_sym_3d true = Ok m /\
          mx_tangent E v (lame_mu E v) (equivalent eta) flow_t (MPlastic x dk H) = Some t4 /\
          eq2 3 flow_t (fun i j => flow_factor eta * eta i j)
    | MFailed => mc_e c = None /\ mc_stress c = None /\ mc_acc c = None /\ mc_back c = None /\ mc_tangent c = None
    end.
Proof.
  intros S T eta. unfold mx_core. rewrite devproj_mf, iso_tangent_mf. cbn [rbind]. rewrite hooke_kmf.
  fold (sig_of E v et). rewrite dev_kmf, kmf_sub.
  change (fun i j => deviator3 (sig_of E v et) i j - b i j) with eta.
  assert (Se : symmetric 3 eta) by (apply relative_symmetric; auto).
  replace (vm_equivalent (kmf eta)) with (equivalent eta) by (unfold vm_equivalent, equivalent; rewrite kmf_norm; auto).
  rewrite (flow_kmf eta Se). fold (flow_factor eta).
  destruct (from_kmf (fun i j => flow_factor eta * eta i j)) as (ft & Ef & Qf).
  { intros i j Hi Hj. rewrite (Se i j) by auto. reflexivity. }
  rewrite Ef. cbn [rbind].
  assert (MV : forall e, mv (iso_mf (lame_lambda E v) (2 * lame_mu E v)) (kmf e) = kmf (sig_of E v e))
    by (intros; apply hooke_kmf).
  destruct (mx_return hl kl (lame_mu E v) (equivalent eta) acc) as [|x dk H|] eqn:RM.
  - cbn [mx_tangent]. rewrite iso_tangent_mf. cbn [rbind]. eexists. split; [reflexivity|].
    split; [reflexivity|]. cbn. auto.
  - destruct (mx_tangent E v (lame_mu E v) (equivalent eta) ft (MPlastic x dk H)) as [t4|] eqn:TT; [|discriminate].
    destruct (vget_tensor_mf4 t4 3 order_sym_3d true) as [m|] eqn:M; [|discriminate]. cbn [rbind].
    rewrite !kmf_scale, kmf_sub, kmf_add.
    change (fun i j => et i j - x * (flow_factor eta * eta i j)) with (mx_e E v et b x).
    change (fun i j => b i j + dk * (flow_factor eta * eta i j)) with (mx_b E v et b dk). rewrite MV.
    eexists. split; [reflexivity|]. split; [reflexivity|].
    cbn [mc_outcome mc_e mc_stress mc_acc mc_back mc_tangent].
    split; [reflexivity|]. split; [reflexivity|]. split; [reflexivity|]. split; [reflexivity|].
    exists m, t4, ft. auto.
  - cbn [mx_tangent rbind]. eexists. split; [reflexivity|]. split; [reflexivity|]. cbn. auto.
Qed.

(** ** Geometry of the return *)
Section Geometry.
  Variables (E v : R) (et b : T2).
  Hypothesis (S : symmetric 3 et) (Sb : symmetric 3 b) (Tb : trace 3 b = 0).
  Let eta := relative_stress (sig_of E v et) b.

  Lemma mx_e_symmetric x : symmetric 3 (mx_e E v et b x).
  Proof.
    intros i j Hi Hj. pose proof (relative_symmetric E v et b S Sb i j Hi Hj) as R. unfold mx_e.
    rewrite R, (S i j Hi Hj). reflexivity.
  Qed.
  Lemma mx_b_symmetric dk : symmetric 3 (mx_b E v et b dk).
  Proof.
    intros i j Hi Hj. pose proof (relative_symmetric E v et b S Sb i j Hi Hj) as R. unfold mx_b.
    rewrite R, (Sb i j Hi Hj). reflexivity.
  Qed.
  Lemma mx_e_trace x : trace 3 (mx_e E v et b x) = trace 3 et.
  Proof.
    pose proof (relative_trace E v et b Tb) as R. unfold mx_e. fold eta. fold eta in R. unfold trace in *. simpl in *.
    replace (eta 2%nat 2%nat) with (- eta 0%nat 0%nat - eta 1%nat 1%nat) by lra. ring.
  Qed.
  Lemma mx_b_trace dk : trace 3 (mx_b E v et b dk) = 0.
  Proof.
    pose proof (relative_trace E v et b Tb) as R. unfold mx_b. fold eta. fold eta in R. unfold trace in *. simpl in *.
    replace (eta 2%nat 2%nat) with (- eta 0%nat 0%nat - eta 1%nat 1%nat) by lra. lra.
  Qed.
  Lemma mx_relative x dk : eq2 3 (relative_stress (sig_of E v (mx_e E v et b x)) (mx_b E v et b dk))
    (fun i j => (1 - (2 * lame_mu E v * x + dk) * flow_factor eta) * eta i j).
  Proof.
    intros i j Hi Hj. unfold relative_stress at 1. unfold sig_of. rewrite deviator_hooke by auto.
    pose proof (deviator_hooke (lame_lambda E v) (lame_mu E v) et i j Hi Hj) as Q.
    assert (D : deviator3 (mx_e E v et b x) i j = deviator3 et i j - x * (flow_factor eta * eta i j)).
    { unfold deviator3 at 1. rewrite mx_e_trace. unfold mx_e, deviator3. fold eta. ring. }
    rewrite D. unfold mx_b. fold eta.
    assert (R : eta i j = 2 * lame_mu E v * deviator3 et i j - b i j).
    { unfold eta, relative_stress, sig_of. rewrite Q. reflexivity. }
    rewrite R. ring.
  Qed.

  Hypothesis N : small < tnorm eta.
  Let NP : 0 < tnorm eta.
  Proof. unfold small in N. lra. Qed.
  Lemma flow_factor_eta : flow_factor eta = sqrt (3 / 2) / tnorm eta.
  Proof. unfold flow_factor. rewrite (proj2 (rltb_iff _ _) N). field. lra. Qed.

  Lemma mx_relative_size x dk :
    equivalent (relative_stress (sig_of E v (mx_e E v et b x)) (mx_b E v et b dk))
    = Rabs (equivalent eta - 3 * lame_mu E v * x - 3 / 2 * dk).
  Proof.
    unfold equivalent. rewrite (tnorm_ext _ _ (mx_relative x dk)), tnorm_scale, flow_factor_eta.
    set (n := tnorm eta) in *.
    rewrite <- (Rabs_right n) at 2 by lra. rewrite <- (Rabs_right (sqrt (3 / 2))) at 1 by (pose proof sqrt32_pos; lra).
    rewrite <- !Rabs_mult. f_equal. pose proof sqrt32_sq as Q.
    transitivity (sqrt (3 / 2) * n - (2 * lame_mu E v * x + dk) * (sqrt (3/2) * sqrt (3 / 2))); [field; lra|rewrite Q; field].
  Qed.
  Lemma mx_plastic_size x : 0 <= x -> sqrt (2 / 3) * tnorm (fun i j => et i j - mx_e E v et b x i j) = x.
  Proof.
    intros X. rewrite (tnorm_ext _ (fun i j => x * flow_factor eta * eta i j)).
    2: { intros i j _ _. unfold mx_e. fold eta. ring. }
    rewrite tnorm_scale, flow_factor_eta. pose proof sqrt32_pos. pose proof sqrt23_32 as Q.
    rewrite Rabs_right.
    - transitivity (x * (sqrt (2/3) * sqrt (3 / 2))); [field; lra|rewrite Q; ring].
    - apply Rle_ge, Rmult_le_pos; auto. left. apply Rdiv_lt_0_compat; lra.
  Qed.
  Lemma mx_back_size dk : 0 <= dk -> equivalent (fun i j => mx_b E v et b dk i j - b i j) = 3 / 2 * dk.
  Proof.
    intros X. unfold equivalent. rewrite (tnorm_ext _ (fun i j => dk * flow_factor eta * eta i j)).
    2: { intros i j _ _. unfold mx_b. fold eta. ring. }
    rewrite tnorm_scale, flow_factor_eta. pose proof sqrt32_pos. pose proof sqrt32_sq as Q.
    rewrite Rabs_right.
    - transitivity (dk * (sqrt (3/2) * sqrt (3 / 2))); [field; lra|rewrite Q; ring].
    - apply Rle_ge, Rmult_le_pos; auto. left. apply Rdiv_lt_0_compat; lra.
  Qed.
End Geometry.
