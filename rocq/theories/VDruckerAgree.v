(** Vectorised and standard Drucker-Prager materials: agreement, linear
    hardening, and cases where they differ or the vectorised one is wrong. *)
From Coq Require Import Reals List Arith Bool Lia Lra Psatz.
From Verif Require Import Lib MatrixModel MatrixSpec TensorModel TensorSpec HardeningModel HardeningSpec HardeningProps
  ElasticModel ElasticSpec ElasticProofs VonMisesModel VonMisesSpec VonMisesProofs VonMisesProps VonMisesTangent VmapModel VmapSpec VmapProps
  DruckerModel DruckerSpec DruckerProofs DruckerProps DruckerTangent VDruckerModel VDruckerProps.
Import ListNotations.
Local Open Scope R_scope.

(** ** Loops that accept from the second iterate on *)
Section Delayed.
  Context {X : Type} (conv : X -> bool) (step : X -> X) (nil : X).
  Fixpoint delayed (fuel : nat) (first : bool) (x : X) : X :=
    let x' := step x in
    if conv x' && negb first then x' else match fuel with O => nil | S f => delayed f false x' end.

  Lemma delayed_accepts : forall fuel x k, first_converged conv step (S fuel) x k -> delayed fuel false x = iterates step x k.
  Proof.
    induction fuel as [|f IH]; intros x k (B & C & F); cbn [delayed]; rewrite andb_true_r.
    - assert (k = 1)%nat by lia. subst k. cbn [iterates] in C. rewrite C. reflexivity.
    - destruct (conv (step x)) eqn:Q.
      + destruct (Nat.eq_dec k 1) as [->|]; [reflexivity|]. specialize (F 1%nat ltac:(lia)). cbn [iterates] in F. congruence.
      + assert (k <> 1)%nat by (intros ->; cbn [iterates] in C; congruence). destruct k as [|k]; [lia|]. cbn [iterates]. apply IH.
        split; [lia|]. split; [exact C|]. intros j J. apply (F (S j)). lia.
  Qed.
  (** The first iterate is not accepted, or is a fixed point. *)
  Definition settled (x : X) : Prop := conv (step x) = true -> step (step x) = step x.
  Lemma delayed_settled fuel n x k : (n <= S (S fuel))%nat -> settled x -> first_converged conv step n x k ->
    delayed (S fuel) true x = iterates step x k.
  Proof.
    intros N ST (B & C & F). cbn [delayed]. rewrite andb_false_r.
    destruct (Nat.eq_dec k 1) as [->|K1].
    - cbn [iterates] in *. rewrite (delayed_accepts fuel (step x) 1); [cbn [iterates]; auto|].
      split; [lia|]. cbn [iterates]. rewrite ST by auto. split; [exact C|]. intros j J. lia.
    - destruct k as [|k]; [lia|]. cbn [iterates]. apply delayed_accepts. split; [lia|]. split; [exact C|].
      intros j J. apply (F (S j)). lia.
  Qed.
End Delayed.

Lemma abs_scaled r c : rltb (Rabs (dp_scaled r c)) su_conv_tol = vd_small_residual r c.
Proof. unfold dp_scaled, vd_small_residual. destruct (rltb (Rabs c) small); reflexivity. Qed.

Section Newton.
  Variables (hl : hlaw) (P : dp_params) (K G q p a : R).
  Notation cconv := (vd_cone_conv hl P K G q p a).
  Notation cstep := (vd_cone_step hl P K G q p a).
  Notation aconv := (vd_apex_conv hl P K p a).
  Notation astep := (vd_apex_step hl P K p a).

  Lemma cstep_correction x c H : hl (a + d_xi P * x) = Some (c, H) ->
    cstep (Some x) = omap (fun d => x + d) (cone_correction P K G (cone_residual P K G q p x c) H).
  Proof.
    intros E. cbn [vd_cone_step]. rewrite E. destruct H as [h|]; cbn [cone_correction].
    - unfold vd_cone_residual, cone_residual. destruct (Req_EM_T _ 0); reflexivity.
    - destruct (Req_EM_T _ 0); cbn [omap]; [reflexivity|]. f_equal. ring.
  Qed.
  Lemma cone_newton_delayed : forall fuel first x c H, hl (a + d_xi P * x) = Some (c, H) ->
    cone_newton hl P K G q p a fuel first x (cone_residual P K G q p x c) H =
    match delayed cconv cstep None fuel first (Some x) with
    | Some x' => match hl (a + d_xi P * x') with Some (_, H') => Some (x', H') | None => None end
    | None => None
    end.
  Proof.
    assert (DN : forall fuel first, delayed cconv cstep None fuel first None = None).
    { induction fuel as [|f IH]; intros first; cbn [delayed vd_cone_step vd_cone_conv andb]; auto. }
    induction fuel as [|f IH]; intros first x c H E; cbn [delayed cone_newton]; rewrite (cstep_correction x c H E);
      destruct (cone_correction P K G (cone_residual P K G q p x c) H) as [d|]; cbn [omap].
    - unfold vd_cone_conv at 1. destruct (hl (a + d_xi P * (x + d))) as [[c' H']|] eqn:E'; [|reflexivity].
      rewrite abs_scaled. fold (cone_residual P K G q p (x + d) c').
      change (vd_cone_residual P K G q p (x + d) c') with (cone_residual P K G q p (x + d) c').
      destruct (vd_small_residual _ _ && negb first); [rewrite E'; reflexivity|reflexivity].
    - reflexivity.
    - unfold vd_cone_conv at 1. destruct (hl (a + d_xi P * (x + d))) as [[c' H']|] eqn:E'.
      + rewrite abs_scaled.
        change (vd_cone_residual P K G q p (x + d) c') with (cone_residual P K G q p (x + d) c').
        destruct (vd_small_residual _ _ && negb first); [rewrite E'; reflexivity|apply IH; exact E'].
      + cbn [andb]. destruct f; cbn [delayed]; unfold vd_cone_step at 1; rewrite E'; cbn [vd_cone_conv andb]; [reflexivity|].
        unfold vd_cone_step at 2. rewrite E'. rewrite DN. reflexivity.
    - cbn [vd_cone_conv andb]. rewrite DN. reflexivity.
  Qed.

  Hypotheses (F1 : d_etaf P <> 0) (F2 : d_etay P <> 0).
  Lemma alpha_some : vd_alpha P = Some (dp_alpha P).
  Proof. unfold vd_alpha, vd_ratio. destruct (Req_EM_T _ _); [contradiction|reflexivity]. Qed.
  Lemma beta_some : vd_beta P = Some (dp_beta P).
  Proof. unfold vd_beta, vd_ratio. destruct (Req_EM_T _ _); [contradiction|reflexivity]. Qed.
  Lemma astep_correction x c H : hl (a + dp_alpha P * x) = Some (c, H) ->
    astep (Some x) = omap (fun d => x + d) (apex_correction P K (apex_residual P K p x c) H).
  Proof.
    intros E. unfold vd_apex_step. rewrite alpha_some, beta_some, E. destruct H as [h|]; cbn [apex_correction].
    - unfold apex_residual. destruct (Req_EM_T _ 0); reflexivity.
    - destruct (Req_EM_T _ 0); cbn [omap]; [reflexivity|]. f_equal. ring.
  Qed.
  Lemma aconv_some x : aconv (Some x) = match hl (a + dp_alpha P * x) with None => false | Some (c, _) => vd_small_residual (apex_residual P K p x c) c end.
  Proof. unfold vd_apex_conv. rewrite alpha_some, beta_some. reflexivity. Qed.
  Lemma astep_undefined x : hl (a + dp_alpha P * x) = None -> astep (Some x) = None.
  Proof. intros E. unfold vd_apex_step. rewrite alpha_some, beta_some, E. reflexivity. Qed.
  Lemma apex_newton_delayed : forall fuel first x c H, hl (a + dp_alpha P * x) = Some (c, H) ->
    dp_apex_newton hl P K p a fuel first x (apex_residual P K p x c) H =
    match delayed aconv astep None fuel first (Some x) with
    | Some x' => match hl (a + dp_alpha P * x') with Some (_, H') => Some (x', H') | None => None end
    | None => None
    end.
  Proof.
    assert (DN : forall fuel first, delayed aconv astep None fuel first None = None).
    { induction fuel as [|f IH]; intros first; cbn [delayed vd_apex_step vd_apex_conv andb]; auto. }
    induction fuel as [|f IH]; intros first x c H E; cbn [delayed dp_apex_newton]; rewrite (astep_correction x c H E);
      destruct (apex_correction P K (apex_residual P K p x c) H) as [d|]; cbn [omap].
    - rewrite aconv_some. destruct (hl (a + dp_alpha P * (x + d))) as [[c' H']|] eqn:E'; [|reflexivity].
      rewrite abs_scaled. destruct (vd_small_residual _ _ && negb first); [rewrite E'; reflexivity|reflexivity].
    - reflexivity.
    - rewrite aconv_some. destruct (hl (a + dp_alpha P * (x + d))) as [[c' H']|] eqn:E'.
      + rewrite abs_scaled. destruct (vd_small_residual _ _ && negb first); [rewrite E'; reflexivity|apply IH; exact E'].
      + cbn [andb]. destruct f; cbn [delayed]; rewrite !(astep_undefined _ E'); cbn [vd_apex_conv andb]; [reflexivity|].
        rewrite DN. reflexivity.
    - cbn [vd_apex_conv andb]. rewrite DN. reflexivity.
  Qed.
End Newton.

(** ** Agreement of the two updates *)
Section Agree.
  Variables (hl : hlaw) (P : dp_params) (K G q p a : R).
  Notation cconv := (vd_cone_conv hl P K G q p a).
  Notation cstep := (vd_cone_step hl P K G q p a).
  Notation aconv := (vd_apex_conv hl P K p a).
  Notation astep := (vd_apex_step hl P K p a).
  Hypothesis NEG : forall c h, hl a = Some (c, h) -> small <= Rabs c.
  Hypothesis SC : settled cconv cstep (Some 0).

  Lemma elastic_agrees : vd_trial_elastic hl P q p a = true -> dp_return hl P K G q p a = DElastic.
  Proof.
    unfold vd_trial_elastic, dp_return. destruct (hl a) as [[c h]|] eqn:E; [|discriminate].
    pose proof (NEG c h eq_refl) as N. unfold vd_inside. destruct (Req_EM_T c 0) as [Z|Z].
    { rewrite Z, Rabs_R0 in N. unfold small in N. lra. }
    intros L. destruct (rltb (Rabs c) small) eqn:B; [apply rltb_iff in B; lra|]. rewrite L. reflexivity.
  Qed.
  Lemma newton_agrees x ap : vd_cone hl P K G q p a false = (Some x, true, ap) ->
    exists c0 H0 c H, hl a = Some (c0, H0) /\ hl (a + d_xi P * x) = Some (c, H) /\
      cone_newton hl P K G q p a su_max_n_iterations true 0 (q + d_etay P * p - d_xi P * c0) H0 = Some (x, H).
  Proof.
    intros CO. pose proof (cone_result _ _ _ _ _ _ _ _ _ _ CO) as [(_ & x0 & c & H & Q & E & _)|(Q & _)]; [|discriminate].
    injection Q as <-. unfold vd_cone in CO.
    destruct (masked_loop_early_exit cconv cstep vd_max_n_iterations (Some 0)) as [(k & FC & EM)|(_ & EM)].
    2: { destruct (masked_loop _ _ _ _ _ _) as [y b]. cbn [snd] in EM. subst b. discriminate. }
    rewrite EM in CO. injection CO as EX _.
    assert (X0 : a + d_xi P * 0 = a) by ring.
    destruct (hl a) as [[c0 H0]|] eqn:E0.
    - exists c0, H0, c, H. split; [reflexivity|]. split; [exact E|].
      replace (q + d_etay P * p - d_xi P * c0) with (cone_residual P K G q p 0 c0) by (unfold cone_residual; ring).
      rewrite cone_newton_delayed by (rewrite X0; exact E0).
      unfold su_max_n_iterations. rewrite (delayed_settled cconv cstep None _ vd_max_n_iterations (Some 0) k); auto.
      2: unfold vd_max_n_iterations; lia. rewrite EX, E. reflexivity.
    - exfalso. destruct FC as (B & C & _). destruct k as [|k]; [lia|]. cbn [iterates] in EX. unfold vd_cone_step at 2 in EX. rewrite X0, E0 in EX.
      assert (N : forall k, iterates cstep None k = None) by (induction k0 as [|k0 IH]; cbn [iterates]; auto). rewrite N in EX. discriminate.
  Qed.
  Lemma apex_agrees y : settled aconv astep (Some 0) -> d_etaf P <> 0 -> d_etay P <> 0 -> vd_apex hl P K p a false = (Some y, true) ->
    exists c0 H0 c H, hl a = Some (c0, H0) /\ hl (a + dp_alpha P * y) = Some (c, H) /\
      dp_apex_newton hl P K p a su_max_n_iterations true 0 (c0 * dp_beta P - p) H0 = Some (y, H).
  Proof.
    intros SA F1 F2 CO. pose proof (apex_result _ _ _ _ _ _ _ CO) as [(_ & x0 & c & H & Q & _ & _ & E & _)|(Q & _)]; [|discriminate].
    injection Q as <-. unfold vd_apex in CO.
    destruct (masked_loop_early_exit aconv astep vd_max_n_iterations (Some 0)) as [(k & FC & EM)|(_ & EM)].
    2: { destruct (masked_loop _ _ _ _ _ _) as [z b]. cbn [snd] in EM. subst b. discriminate. }
    rewrite EM in CO. injection CO as EX.
    assert (X0 : a + dp_alpha P * 0 = a) by ring.
    destruct (hl a) as [[c0 H0]|] eqn:E0.
    - exists c0, H0, c, H. split; [reflexivity|]. split; [exact E|].
      replace (c0 * dp_beta P - p) with (apex_residual P K p 0 c0) by (unfold apex_residual; ring).
      rewrite apex_newton_delayed by (rewrite ?X0; auto).
      unfold su_max_n_iterations. rewrite (delayed_settled aconv astep None _ vd_max_n_iterations (Some 0) k); auto.
      2: unfold vd_max_n_iterations; lia. rewrite EX. unfold dp_alpha. rewrite E. reflexivity.
    - exfalso. destruct FC as (B & C & _). destruct k as [|k]; [lia|]. cbn [iterates] in EX. rewrite astep_undefined in EX by (rewrite ?X0; auto).
      assert (N : forall k, iterates astep None k = None) by (induction k0 as [|k0 IH]; cbn [iterates]; auto). rewrite N in EX. discriminate.
  Qed.
  Lemma plastic_agrees : vd_trial_elastic hl P q p a = false ->
    (forall x, vd_cone hl P K G q p a false = (Some x, true, false) -> exists H, dp_return hl P K G q p a = DCone x H) /\
    (forall x y, settled aconv astep (Some 0) -> vd_cone hl P K G q p a false = (Some x, true, true) -> vd_apex hl P K p a false = (Some y, true) ->
       exists H, dp_return hl P K G q p a = DApex y H).
  Proof.
    intros EL.
    assert (HEAD : forall x ap, vd_cone hl P K G q p a false = (Some x, true, ap) ->
      ap = rltb (q - G * x) 0 /\ exists H, dp_return hl P K G q p a =
        if rleb 0 (q - G * x) then DCone x H
        else if (if Req_EM_T (d_etaf P) 0 then true else false) || (if Req_EM_T (d_etay P) 0 then true else false) then DApexFailed
        else match hl a with
             | None => DApexFailed
             | Some (c1, H1) => match dp_apex_newton hl P K p a su_max_n_iterations true 0 (c1 * dp_beta P - p) H1 with
                                | None => DApexFailed | Some (x', H') => DApex x' H' end
             end).
    { intros x ap CO. split.
      - pose proof (cone_result _ _ _ _ _ _ _ _ _ _ CO) as [(_ & x0 & c & H & Q & _ & EA & _)|(Q & _)]; [|discriminate]. injection Q as <-. exact EA.
      - destruct (newton_agrees x ap CO) as (c0 & H0 & c & H & E0 & E & N). exists H. unfold dp_return.
        replace (a + d_xi P * 0) with a by ring. replace (a + dp_alpha P * 0) with a by ring. rewrite E0.
        unfold vd_trial_elastic in EL. rewrite E0 in EL. unfold vd_inside in EL. pose proof (NEG c0 H0 E0) as NG.
        destruct (Req_EM_T c0 0) as [Z|Z]. { rewrite Z, Rabs_R0 in NG. unfold small in NG. lra. }
        destruct (rltb (Rabs c0) small) eqn:B; [apply rltb_iff in B; lra|]. rewrite EL, N. reflexivity. }
    split.
    - intros x CO. destruct (HEAD x false CO) as (EA & H & ->). exists H.
      assert (L : rleb 0 (q - G * x) = true). { apply rleb_iff. destruct (Rle_dec 0 (q - G * x)) as [|N]; auto. apply Rnot_le_lt, rltb_iff in N. congruence. }
      rewrite L. reflexivity.
    - intros x y SA CO AP. destruct (HEAD x true CO) as (EA & H & ->). symmetry in EA. apply rltb_iff in EA.
      destruct (rleb 0 (q - G * x)) eqn:L; [apply rleb_iff in L; lra|].
      pose proof (apex_result _ _ _ _ _ _ _ AP) as [(_ & y0 & c & H' & _ & F1 & F2 & _)|(Q & _)]; [|discriminate].
      destruct (Req_EM_T (d_etaf P) 0); [contradiction|]. destruct (Req_EM_T (d_etay P) 0); [contradiction|]. cbn [orb].
      destruct (apex_agrees y SA F1 F2 AP) as (c0 & H0 & c1 & H1 & E0 & _ & N). rewrite E0, N. eauto.
  Qed.
End Agree.

(** A successful vectorised update gives the state and the flags of the standard
    one, when the cohesion is not negligible, the second invariant is not
    replaced with 1e-8 and neither loop stops at a first iterate that the other
    would still correct. *)
Theorem vdp_agrees_with_standard E v P hl st e eps a inc st1 ap t1 : 1 + v <> 0 -> 1 - 2 * v <> 0 -> E <> 0 ->
  symmetric 3 e -> symmetric 3 inc -> vs_e st = Some (kmf e) -> vs_strain st = Some (kmf eps) -> vs_acc st = Some a ->
  let et : T2 := fun i j => e i j + inc i j in let q := sqrtJ2 (sig_of E v et) in let p := pressure (sig_of E v et) in
  (forall c h, hl a = Some (c, h) -> / 100000000 <= Rabs c) ->
  vd_state_update 4 E v P hl inc st = Ok (st1, ap, t1) -> vs_fail st1 = false ->
  (vs_plast st1 = true ->
   settled (vd_cone_conv hl P (dp_bulk E v) (lame_mu E v) q p a) (vd_cone_step hl P (dp_bulk E v) (lame_mu E v) q p a) (Some 0)) ->
  (ap = true -> settled (vd_apex_conv hl P (dp_bulk E v) p a) (vd_apex_step hl P (dp_bulk E v) p a) (Some 0)) ->
  (vs_plast st1 = true -> ap = false -> / 10000 <= q) ->
  exists t2, dp_state_update 4 E v P hl inc st = Ok (st1, ap, t2).
Proof.
  intros V1 V2 HE Se Si E1 E2 E3 et q p NEG U NF SC SA LQ.
  assert (St : symmetric 3 et) by (intros i j Hi Hj; unfold et; rewrite (Se i j), (Si i j) by auto; auto).
  revert U. unfold vd_state_update, dp_state_update. cbn [get_problem_type_parameters rbind Nat.eqb]. rewrite mf2_3d. cbn [rbind].
  rewrite E1, E2, E3. cbn [omap omap2]. rewrite kmf_add, kmf_sub, kmf_add. fold et.
  destruct (vd_core_tensors E v P hl et a St) as (de & tan & _ & EC & _). rewrite EC. cbn [rbind fst snd]. clear EC.
  destruct (dp_core_finish E v P hl et a St) as (de2 & _ & EF). rewrite EF. clear EF.
  fold q p. set (sg := sig_of E v et) in *. set (K := dp_bulk E v) in *. set (G := lame_mu E v) in *.
  destruct (dp_finish_3d E v P et de2 q p a (dp_return hl P K G q p a) St) as (c & EF & EO & D). fold sg K G in EF, D. rewrite EF. cbn [rbind]. clear EF.
  assert (Q0 : 0 <= q) by apply sqrtJ2_nonneg.
  assert (KS : forall pr, vscale pr (kmf soid) = kmf (fun i j => pr * ident i j)) by (intros; apply kmf_scale).
  match goal with |- Ok (VState (vd_e ?b) _ _ _ _ _ _ _, _, _) = _ -> _ => remember b as o eqn:EB end.
  intros U. injection U as U1 U2 U3. subst st1 ap t1. cbn [vs_fail vs_plast] in NF, SC, LQ. subst o.
  destruct (vd_trial_elastic hl P q p a) eqn:EL.
  - assert (RE : dp_return hl P K G q p a = DElastic) by (apply elastic_agrees; auto).
    rewrite RE in D, EO. destruct D as (D1 & D2 & D3 & _). rewrite EO, D1, D2, D3. cbn [dp_is_plast dp_is_fail dp_is_apex]. eexists. reflexivity.
  - assert (SC' : settled (vd_cone_conv hl P K G q p a) (vd_cone_step hl P K G q p a) (Some 0)).
    { apply SC. unfold vd_plastic_step. destruct (vd_cone _ _ _ _ _ _ _ _) as [[x ok] apx]. destruct (vd_apex _ _ _ _ _ _) as [y oy]. destruct apx; reflexivity. }
    clear SC. rename SC' into SC.
    destruct (plastic_agrees hl P K G q p a NEG SC EL) as [PC PA].
    revert NF SA LQ. unfold vd_plastic_step. rewrite (sqrt_square q Q0).
    destruct (vd_cone hl P K G q p a false) as [[x ok] apx] eqn:CO. cbn [orb].
    destruct (cone_result _ _ _ _ _ _ _ _ _ _ CO) as [(-> & x0 & c1 & h & -> & Eh & EA & RC)|(-> & -> & ->)].
    + destruct apx.
      * cbn [negb]. destruct (vd_apex hl P K p a false) as [y ok] eqn:AP.
        destruct (apex_result _ _ _ _ _ _ _ AP) as [(-> & y0 & c2 & h1 & -> & F1 & F2 & Eh1 & RA)|(-> & ->)].
        -- intros _ SA _. destruct (PA x0 y0 (SA eq_refl) eq_refl eq_refl) as (H & RE). rewrite RE in D, EO. destruct D as (D1 & D2 & D3 & _).
           rewrite EO, D1, D2, D3. cbn [dp_is_plast dp_is_fail dp_is_apex vd_apex_output vd_e vd_stress vd_acc vd_plast vd_isapex vd_ok omap omap2 negb].
           rewrite (alpha_some P F1). cbn [omap2].
           replace (vd_strain_of K G (kmf soid) (p - K * y0) (vscale 0 (kmf (deviator3 sg)))) with (kmf (iso_dev E v (p - K * y0) zero2)).
           2: { unfold vd_strain_of. rewrite KS, !kmf_scale, kmf_add. apply kmf_ext. intros i j _ _. unfold iso_dev, zero2. fold G K. ring. }
           rewrite KS. eexists. reflexivity.
        -- cbn [vd_apex_output vd_ok negb]. discriminate.
      * destruct (vd_apex hl P K p a (negb false)) as [y ok]. cbn [vd_cone_output vd_ok negb vd_plast vd_isapex].
        intros _ _ LQ. specialize (LQ eq_refl eq_refl). destruct (PC x0 eq_refl) as (H & RE). rewrite RE in D, EO. destruct D as (D1 & D2 & D3 & _).
        rewrite EO, D1, D2, D3. unfold vd_cone_output. cbn [dp_is_plast dp_is_fail dp_is_apex vd_e vd_stress vd_acc vd_plast vd_isapex vd_ok omap negb].
        rewrite safe_sqrt_large by auto.
        assert (SD : eq2 3 (returned_dev (deviator3 sg) q (1 - G * x0 / q)) (fun i j => (1 - G * x0 / q) * deviator3 sg i j)).
        { intros i j _ _. unfold returned_dev. rewrite (proj2 (rltb_iff small q)) by (unfold small; lra). reflexivity. }
        replace (vd_strain_of K G (kmf soid) (p - K * d_etaf P * x0) (vscale (1 - G * x0 / q) (kmf (deviator3 sg))))
          with (kmf (iso_dev E v (p - K * d_etaf P * x0) (returned_dev (deviator3 sg) q (1 - G * x0 / q)))).
        2: { unfold vd_strain_of. rewrite KS, !kmf_scale, kmf_add. apply kmf_ext. intros i j Hi Hj. unfold iso_dev. rewrite (SD i j Hi Hj). reflexivity. }
        rewrite KS, kmf_scale, kmf_add.
        replace (kmf (fun i j => (p - K * d_etaf P * x0) * ident i j + (1 - G * x0 / q) * deviator3 sg i j))
          with (kmf (fun i j => (p - K * d_etaf P * x0) * ident i j + returned_dev (deviator3 sg) q (1 - G * x0 / q) i j)).
        2: { apply kmf_ext. intros i j Hi Hj. rewrite (SD i j Hi Hj). reflexivity. }
        eexists. reflexivity.
    + destruct (vd_apex hl P K p a (negb false)) as [y ok]. cbn [vd_cone_output vd_ok negb]. discriminate.
Qed.

(** ** Linear hardening *)
Section LinearLoops.
  Variables (P : dp_params) (K G s0 h a q p : R).
  Hypotheses (HG : 0 < G) (HK : 0 < K) (HX : 0 <= d_xi P) (HY : 0 <= d_etay P) (HF : 0 <= d_etaf P)
    (S0 : small <= s0) (H0 : 0 <= h) (A0 : 0 <= a) (Q0 : 0 <= q).
  Let c0 := s0 + h * a.
  Let f := q + d_etay P * p - d_xi P * c0.
  Let D := G + K * d_etaf P * d_etay P + d_xi P ^ 2 * h.
  Let DA := K + dp_alpha P * dp_beta P * h.
  Let x1 := f / D.
  Let y1 := (p - dp_beta P * c0) / DA.
  Notation hl := (linear_law s0 h).
  Notation cconv := (vd_cone_conv hl P K G q p a).
  Notation cstep := (vd_cone_step hl P K G q p a).
  Notation aconv := (vd_apex_conv hl P K p a).
  Notation astep := (vd_apex_step hl P K p a).

  Lemma small_zero c : vd_small_residual 0 c = true.
  Proof. rewrite <- abs_scaled. apply scaled_zero. Qed.
  Lemma early_fix {X} (conv : X -> bool) step n (x : X) : (1 <= n)%nat -> conv (step x) = true ->
    masked_loop false conv step 0 n x = (step x, true).
  Proof.
    intros N C. destruct (masked_loop_early_exit conv step n x) as [(k & (B & Ck & F) & E)|(NV & _)].
    - destruct (Nat.eq_dec k 1) as [->|]; [exact E|]. specialize (F 1%nat ltac:(lia)). cbn [iterates] in F. congruence.
    - specialize (NV 1%nat ltac:(lia)). cbn [iterates] in NV. congruence.
  Qed.
  Hypothesis FP : 0 < f.
  Lemma cone_lin_first : cstep (Some 0) = Some x1 /\ cconv (Some x1) = true /\ cstep (Some x1) = Some x1.
  Proof.
    assert (LD : G <= D) by (apply lin_D; auto).
    assert (X1 : 0 <= x1) by (apply Rlt_le, Rdiv_lt_0_compat; lra).
    assert (ST : forall x c, linear_law s0 h (a + d_xi P * x) = Some (c, Fin h) -> cstep (Some x) = Some (x + cone_residual P K G q p x c / D)).
    { intros x c E. rewrite (cstep_correction _ _ _ _ _ _ _ x c (Fin h) E). cbn [cone_correction].
      destruct (Req_EM_T _ 0) as [Z|Z]; [exfalso; unfold D in LD; lra|]. cbn [omap]. f_equal. f_equal. unfold D. field. unfold D in LD. lra. }
    destruct (lin_cohesion s0 h a S0 H0 A0 (d_xi P * 0)) as [L0 _]; [rewrite Rmult_0_r; lra|]. fold c0 in L0.
    destruct (lin_cohesion s0 h a S0 H0 A0 (d_xi P * x1)) as [L1 _]; [apply Rmult_le_pos; auto|]. fold c0 in L1.
    assert (R0 : cone_residual P K G q p x1 (c0 + h * (d_xi P * x1)) = 0).
    { unfold cone_residual. transitivity (f - D * (f / D)); [unfold x1, f, D; ring|]. field. lra. }
    split; [|split].
    - rewrite (ST 0 _ L0). f_equal. unfold cone_residual, x1, f. unfold Rdiv. ring.
    - cbn [vd_cone_conv]. rewrite L1. change (vd_cone_residual P K G q p x1 (c0 + h * (d_xi P * x1))) with (cone_residual P K G q p x1 (c0 + h * (d_xi P * x1))).
      rewrite R0. apply small_zero.
    - rewrite (ST x1 _ L1), R0. f_equal. unfold Rdiv. ring.
  Qed.
  Lemma cone_lin : vd_cone hl P K G q p a false = (Some x1, true, rltb (q - G * x1) 0).
  Proof.
    destruct cone_lin_first as (E1 & C1 & _). unfold vd_cone. rewrite early_fix; [|unfold vd_max_n_iterations; lia|rewrite E1; exact C1].
    rewrite E1. reflexivity.
  Qed.
  Hypotheses (F1 : d_etaf P <> 0) (F2 : d_etay P <> 0) (QX : q < G * x1).
  Lemma apex_lin_first : astep (Some 0) = Some y1 /\ aconv (Some y1) = true /\ astep (Some y1) = Some y1 /\ 0 < y1.
  Proof.
    assert (LD : G <= D) by (apply lin_D; auto).
    assert (AL : 0 <= dp_alpha P) by (unfold dp_alpha, Rdiv; apply Rmult_le_pos; [lra|apply Rlt_le, Rinv_0_lt_compat; lra]).
    assert (BE : 0 <= dp_beta P) by (unfold dp_beta, Rdiv; apply Rmult_le_pos; [lra|apply Rlt_le, Rinv_0_lt_compat; lra]).
    assert (LA : 0 < DA) by (unfold DA; pose proof (Rmult_le_pos _ _ (Rmult_le_pos _ _ AL BE) H0); lra).
    assert (GP : 0 < x1) by (apply Rdiv_lt_0_compat; lra).
    assert (XP : 0 < y1).
    { unfold y1. apply Rdiv_lt_0_compat; [|exact LA].
      assert (DE : D * (f / D) = f) by (field; lra).
      assert (E1 : d_xi P * c0 < d_etay P * p).
      { assert (G * x1 <= D * x1) by (apply Rmult_le_compat_r; lra). unfold x1 in *. unfold f in DE at 2. lra. }
      unfold dp_beta. apply (Rmult_lt_reg_l (d_etay P)); [lra|].
      replace (d_etay P * (p - d_xi P / d_etay P * c0)) with (d_etay P * p - d_xi P * c0) by (field; auto). lra. }
    assert (ST : forall x c, linear_law s0 h (a + dp_alpha P * x) = Some (c, Fin h) -> astep (Some x) = Some (x + - apex_residual P K p x c / DA)).
    { intros x c E. rewrite (astep_correction _ _ _ _ _ F1 F2 x c (Fin h) E). cbn [apex_correction].
      destruct (Req_EM_T _ 0) as [Z|Z]; [exfalso; unfold DA in LA; lra|]. cbn [omap]. f_equal. f_equal. unfold DA. f_equal. ring. }
    destruct (lin_cohesion s0 h a S0 H0 A0 (dp_alpha P * 0)) as [L0 _]; [rewrite Rmult_0_r; lra|]. fold c0 in L0.
    destruct (lin_cohesion s0 h a S0 H0 A0 (dp_alpha P * y1)) as [L1 _]; [apply Rmult_le_pos; lra|]. fold c0 in L1.
    assert (R0 : apex_residual P K p y1 (c0 + h * (dp_alpha P * y1)) = 0).
    { unfold apex_residual. transitivity (dp_beta P * c0 - p + DA * y1); [unfold DA; ring|]. unfold y1. field. lra. }
    split; [|split; [|split]].
    - rewrite (ST 0 _ L0). f_equal. unfold apex_residual, y1. unfold Rdiv. ring.
    - rewrite (aconv_some _ _ _ _ _ F1 F2), L1, R0. apply small_zero.
    - rewrite (ST y1 _ L1), R0. f_equal. unfold Rdiv. ring.
    - exact XP.
  Qed.
  Lemma apex_lin : vd_apex hl P K p a false = (Some y1, true).
  Proof.
    destruct apex_lin_first as (E1 & C1 & _). unfold vd_apex. rewrite early_fix; [|unfold vd_max_n_iterations; lia|rewrite E1; exact C1].
    rewrite E1. reflexivity.
  Qed.
End LinearLoops.


(** Norm of all nine components, and the cone tangent as computed. *)
Definition norm9 (t : T2) : R := sqrt (sum2 3 (fun i j => t i j * t i j)).

Lemma vd_linear_core E v P s0 h a et :
  0 < E -> -1 < v -> v < 1 / 2 -> 0 <= d_xi P -> 0 <= d_etay P -> 0 <= d_etaf P -> / 100000000 <= s0 -> 0 <= h -> 0 <= a -> symmetric 3 et ->
  let G := lame_mu E v in let K := dp_bulk E v in let q := sqrtJ2 (sig_of E v et) in
  let c0 := s0 + h * a in let y := dp_yield (d_xi P) (d_etay P) (sig_of E v et) c0 in
  let x := y / (G + K * d_etaf P * d_etay P + d_xi P ^ 2 * h) in
  (q < G * x -> d_etay P <> 0 /\ d_etaf P <> 0) ->
  exists o tan de, vd_core E v P (linear_law s0 h) (Some (kmf et)) (Some a) = Ok (o, tan) /\ eq2 3 de (deviator3 et) /\
    vd_ok o = true /\ (vd_plast o = true <-> / 1000000 * c0 < y) /\ (vd_isapex o = true <-> / 1000000 * c0 < y /\ q < G * x) /\
    (vd_plast o = false -> tan = Some (iso_mf (lame_lambda E v) (2 * G))) /\
    (vd_isapex o = true -> exists m, tan = Some m /\
       vget_tensor_mf4 (fun i j k l => K * (1 - K / (K + dp_alpha P * dp_beta P * h)) * dyad22_1 soid soid i j k l) 3 order_sym_3d true = Ok m) /\
    (vd_plast o = true -> vd_isapex o = false -> exists m t4, tan = Some m /\ vget_tensor_mf4 t4 3 order_sym_3d true = Ok m /\
       (small < norm9 de -> small < norm9 (fun i j => de i j + small) ->
        dp_tangent P K G E v (norm9 (fun i j => de i j + small)) de (DCone x (Fin h)) = Some t4)).
Proof.
  intros HE Hv1 Hv2 HX HY HF S0 H0 A0 St G K q c0 y x NZ.
  pose proof (bulk_positive E v HE Hv2) as KP. pose proof (shear_positive E v HE Hv1) as GP. fold K in KP. fold G in GP.
  assert (CA : linear_law s0 h a = Some (c0, Fin h) /\ / 100000000 <= c0).
  { destruct (lin_cohesion s0 h a S0 H0 A0 0 (Rle_refl 0)) as [L C]. rewrite Rplus_0_r, Rmult_0_r, Rplus_0_r in L. rewrite Rmult_0_r, Rplus_0_r in C. auto. }
  destruct CA as [CA CB].
  destruct (vd_core_tensors E v P (linear_law s0 h) et a St) as (de & tan & QD & EC & TT).
  fold q in EC, TT. set (p := pressure (sig_of E v et)) in *. fold K G in EC, TT.
  assert (Q0 : 0 <= q) by apply sqrtJ2_nonneg.
  assert (EI : vd_trial_elastic (linear_law s0 h) P q p a = false <-> / 1000000 * c0 < y).
  { unfold vd_trial_elastic. rewrite CA, vd_inside_false. unfold vd_outside. rewrite Rabs_right by lra. unfold y, dp_yield. fold q p.
    split.
    - intros [[Z _]|[_ L]]; [lra|]. apply (Rmult_lt_compat_r c0) in L; [|lra]. unfold Rdiv in L. rewrite Rmult_assoc, Rinv_l in L by lra. lra.
    - intros L. right. split; [lra|]. apply (Rmult_lt_reg_r c0); [lra|]. unfold Rdiv. rewrite Rmult_assoc, Rinv_l by lra. lra. }
  cbv zeta in EC, TT. revert EC TT. set (o := if vd_trial_elastic _ _ _ _ _ then _ else _). intros EC TT. exists o, tan, de.
  split; [exact EC|]. split; [exact QD|]. unfold o in *. clear o EC.
  destruct (vd_trial_elastic (linear_law s0 h) P q p a) eqn:EL.
  - assert (NL : ~ / 1000000 * c0 < y) by (intros L; apply EI in L; discriminate).
    unfold vd_tangent in TT. cbn [vd_elastic_step vd_ok vd_plast vd_isapex negb] in *. rewrite iso_tangent_mf in TT.
    destruct TT as (m & -> & M). injection M as M.
    split; [reflexivity|]. split; [split; [discriminate|tauto]|]. split; [split; [discriminate|tauto]|].
    split; [intros _; rewrite <- M; reflexivity|]. split; discriminate.
  - assert (L : / 1000000 * c0 < y) by (apply EI; reflexivity).
    assert (FP : 0 < q + d_etay P * p - d_xi P * (s0 + h * a)) by (unfold y, dp_yield in L; fold q p c0 in L; fold c0; lra).
    assert (X0 : 0 <= x).
    { unfold x. apply Rlt_le, Rdiv_lt_0_compat; [unfold y, dp_yield; exact FP|]. pose proof (lin_D P K G h KP HY HF H0). lra. }
    revert TT. unfold vd_plastic_step. rewrite (sqrt_square q Q0). rewrite cone_lin; auto; try lra. cbn [orb].
    change ((q + d_etay P * p - d_xi P * (s0 + h * a)) / (G + K * d_etaf P * d_etay P + d_xi P ^ 2 * h)) with x.
    destruct (rltb (q - G * x) 0) eqn:B.
    + apply rltb_iff in B. destruct NZ as [N1 N2]; [lra|]. cbn [negb]. rewrite (apex_lin P K G s0 h a q p); auto; try lra.
      2: change ((q + d_etay P * p - d_xi P * (s0 + h * a)) / (G + K * d_etaf P * d_etay P + d_xi P ^ 2 * h)) with x; lra.
      set (y1 := (p - dp_beta P * (s0 + h * a)) / (K + dp_alpha P * dp_beta P * h)).
      destruct (apex_lin_first P K G s0 h a q p) as (_ & _ & _ & Y1); auto; try lra.
      { change ((q + d_etay P * p - d_xi P * (s0 + h * a)) / (G + K * d_etaf P * d_etay P + d_xi P ^ 2 * h)) with x; lra. }
      fold y1 in Y1.
      assert (AL : 0 <= dp_alpha P) by (unfold dp_alpha, Rdiv; apply Rmult_le_pos; [lra|apply Rlt_le, Rinv_0_lt_compat; lra]).
      assert (BE : 0 <= dp_beta P) by (unfold dp_beta, Rdiv; apply Rmult_le_pos; [lra|apply Rlt_le, Rinv_0_lt_compat; lra]).
      destruct (lin_cohesion s0 h a S0 H0 A0 (dp_alpha P * y1)) as [L1 _]; [apply Rmult_le_pos; lra|].
      unfold vd_tangent. cbn [vd_apex_output vd_ok vd_plast vd_isapex vd_acc vd_mult negb omap omap2].
      rewrite (alpha_some P N2), (beta_some P N1). cbn [omap2]. rewrite L1.
      destruct (Req_EM_T _ 0) as [Z|_].
      { exfalso. pose proof (Rmult_le_pos _ _ (Rmult_le_pos _ _ AL BE) H0). lra. }
      intros (m & -> & M). split; [reflexivity|]. split; [tauto|]. split; [split; [intros _; split; [exact L|lra]|reflexivity]|].
      split; [discriminate|]. split; [intros _; exists m; split; [reflexivity|exact M]|]. discriminate.
    + destruct (vd_apex (linear_law s0 h) P K p a (negb false)) as [y2 ok2].
      destruct (lin_cohesion s0 h a S0 H0 A0 (d_xi P * x)) as [L1 _]; [apply Rmult_le_pos; lra|].
      unfold vd_tangent. cbn [vd_cone_output vd_ok vd_plast vd_isapex vd_acc vd_mult negb omap]. rewrite L1.
      intros (m & -> & M). split; [reflexivity|]. split; [tauto|].
      split; [split; [discriminate|intros [_ L2]; exfalso; assert (L3 : q - G * x < 0) by lra; apply rltb_iff in L3; congruence]|].
      split; [discriminate|]. split; [discriminate|]. intros _ _. eexists m, _. split; [reflexivity|]. split; [exact M|].
      intros B1 B2. unfold dp_tangent. fold (norm9 de). fold (norm9 (fun i j => de i j + small)).
      rewrite (proj2 (rltb_iff _ _) B1), (proj2 (rltb_iff _ _) B2). reflexivity.
Qed.

(** With linear hardening the vectorised update succeeds (unless the apex does
    not exist) and returns what the standard one returns; outside the return to
    the cone the tangents agree too. *)
Theorem vdp_linear_agrees E v P s0 h st e eps a inc :
  0 < E -> -1 < v -> v < 1 / 2 -> 0 <= d_xi P -> 0 <= d_etay P -> 0 <= d_etaf P -> / 100000000 <= s0 -> 0 <= h -> 0 <= a ->
  symmetric 3 e -> symmetric 3 inc -> vs_e st = Some (kmf e) -> vs_strain st = Some (kmf eps) -> vs_acc st = Some a ->
  let sig := sig_of E v (fun i j => e i j + inc i j) in let G := lame_mu E v in let K := dp_bulk E v in
  let c0 := s0 + h * a in let y := dp_yield (d_xi P) (d_etay P) sig c0 in
  let x := y / (G + K * d_etaf P * d_etay P + d_xi P ^ 2 * h) in
  (sqrtJ2 sig < G * x -> d_etay P <> 0 /\ d_etaf P <> 0) ->
  exists st1 ap t1, vd_state_update 4 E v P (linear_law s0 h) inc st = Ok (st1, ap, t1) /\ vs_fail st1 = false /\
    (vs_plast st1 = true <-> / 1000000 * c0 < y) /\ (ap = true <-> / 1000000 * c0 < y /\ sqrtJ2 sig < G * x) /\
    (vs_plast st1 = false \/ ap = true \/ / 10000 <= sqrtJ2 sig ->
     exists t2, dp_state_update 4 E v P (linear_law s0 h) inc st = Ok (st1, ap, t2) /\
       (vs_plast st1 = false \/ ap = true -> t2 = t1)).
Proof.
  intros HE Hv1 Hv2 HX HY HF S0 H0 A0 Se Si E1 E2 E3 sig G K c0 y x NZ.
  set (et := fun i j => e i j + inc i j) in *.
  assert (St : symmetric 3 et) by (intros i j Hi Hj; unfold et; rewrite (Se i j), (Si i j) by auto; auto).
  destruct (vd_linear_core E v P s0 h a et HE Hv1 Hv2 HX HY HF S0 H0 A0 St NZ) as (o & tan & de & EC & QD & OK & PL & AP & T1 & T2 & _).
  fold sig G K c0 in PL, AP. fold y in PL, AP. fold x in AP.
  assert (U : exists st1, vd_state_update 4 E v P (linear_law s0 h) inc st = Ok (st1, vd_isapex o, tan) /\ vs_fail st1 = false /\ vs_plast st1 = vd_plast o).
  { unfold vd_state_update. cbn [get_problem_type_parameters rbind Nat.eqb]. rewrite mf2_3d. cbn [rbind].
    rewrite E1, E2, E3. cbn [omap omap2]. rewrite kmf_add, kmf_sub, kmf_add. fold et. rewrite EC. cbn [rbind fst snd].
    eexists. split; [reflexivity|]. cbn [vs_fail vs_plast]. rewrite OK. auto. }
  destruct U as (st1 & U & F & PE). exists st1, (vd_isapex o), tan. rewrite PE. split; [exact U|]. split; [exact F|]. split; [exact PL|]. split; [exact AP|].
  pose proof (bulk_positive E v HE Hv2) as KP. pose proof (shear_positive E v HE Hv1) as GP. fold K in KP. fold G in GP.
  assert (CA : linear_law s0 h a = Some (c0, Fin h) /\ / 100000000 <= c0).
  { destruct (lin_cohesion s0 h a S0 H0 A0 0 (Rle_refl 0)) as [L C]. rewrite Rplus_0_r, Rmult_0_r, Rplus_0_r in L. rewrite Rmult_0_r, Rplus_0_r in C. auto. }
  destruct CA as [CA CB]. intros W.
  assert (YE : y = sqrtJ2 sig + d_etay P * pressure sig - d_xi P * (s0 + h * a)) by reflexivity.
  destruct (vdp_agrees_with_standard E v P (linear_law s0 h) st e eps a inc st1 (vd_isapex o) tan) as (t2 & U2); auto; try lra.
  - intros c hh Q. rewrite CA in Q. injection Q as <- _. rewrite Rabs_right; lra.
  - intros PT _. fold et. fold sig K G. rewrite PE in PT. apply PL in PT.
    destruct (cone_lin_first P K G s0 h a (sqrtJ2 sig) (pressure sig)) as (X1 & _ & X2); auto; try lra.
    rewrite X1. exact X2.
  - intros AT _. fold et. fold sig K. apply AP in AT. destruct AT as [PT QX]. destruct (NZ QX) as [N1 N2].
    destruct (apex_lin_first P K G s0 h a (sqrtJ2 sig) (pressure sig)) as (X1 & _ & X2 & _); auto; try lra.
    rewrite X1. exact X2.
  - intros PT AF. rewrite PE in PT. destruct W as [W|[W|W]]; [congruence|congruence|exact W].
  - exists t2. split; [exact U2|]. intros W2.
    destruct (dp_core_cases E v P (linear_law s0 h) et a St) as (c & de2 & EC2 & _ & EO & C). fold sig K G in EO, C.
    destruct (dp_lift_update E v P (linear_law s0 h) st e a inc E1 E3 c EC2) as (st2 & U3 & F3 & F4).
    rewrite U2 in U3. injection U3 as <- IA IT. rewrite PE in F3.
    pose proof (dp_return_linear P K G s0 h a GP KP HX HY HF S0 H0 A0 (sqrtJ2 sig) (pressure sig)) as (R1 & _ & R3 & _). fold c0 in R1, R3.
    change (sqrtJ2 sig + d_etay P * pressure sig - d_xi P * c0) with y in R1, R3. fold x in R3.
    destruct W2 as [W2|W2].
    + rewrite (T1 W2). assert (NL : y <= su_conv_tol * c0).
      { destruct (Rle_dec y (su_conv_tol * c0)) as [|N]; auto. apply Rnot_le_lt in N. unfold su_conv_tol in N. apply PL in N. congruence. }
      rewrite (R1 NL) in EO. rewrite EO in C. destruct C as [_ C]. rewrite IT. exact C.
    + destruct (T2 W2) as (m & -> & M). apply AP in W2. destruct W2 as [L QX]. destruct (NZ QX) as [N1 N2].
      destruct (R3 L QX N2 N1 (sqrtJ2_nonneg _)) as [R3' _]. rewrite R3' in EO. rewrite EO in C.
      destruct C as (_ & m' & t4 & C1 & C2 & C3). cbn [dp_tangent] in C3. injection C3 as C3. rewrite <- C3 in C2.
      rewrite IT, C1. f_equal. fold K in M. rewrite C2 in M. congruence.
Qed.

Print Assumptions vdp_agrees_with_standard.
Print Assumptions vdp_linear_agrees.
