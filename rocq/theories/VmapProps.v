(** Theorems about the masked Newton loop and the vectorised von Mises model. *)
From Coq Require Import Reals List Arith Bool Lia Lra Psatz.
From Verif Require Import Lib MatrixModel MatrixSpec TensorModel TensorSpec HardeningModel HardeningSpec
  HardeningProps ElasticModel ElasticSpec ElasticProofs VonMisesModel VonMisesSpec VonMisesProofs VonMisesProps
  VmapModel VmapSpec.
Import ListNotations.
Local Open Scope R_scope.

(** ** The loop, for every residual, step, limit and starting guess *)
Section Loop.
  Context {X : Type} (conv : X -> bool) (step : X -> X).

  Lemma iterates_S x k : iterates step x (S k) = step (iterates step x k).
  Proof. revert x; induction k as [|k IH]; intros x; [reflexivity|]. cbn [iterates] in *. apply IH. Qed.

  (** Once converged, nothing changes any more. *)
  Lemma masked_stays : forall left nr x, conv x = true -> (0 < nr)%nat ->
    masked_loop false conv step nr left x = (x, true).
  Proof.
    induction left as [|l IH]; intros nr x C N; cbn [masked_loop];
      rewrite C, (proj2 (Nat.ltb_lt 0 nr) N); cbn [andb]; auto.
  Qed.

  Lemma masked_invariant : forall left nr x,
    (exists k, (k <= left)%nat /\ conv (iterates step x k) = true /\ (0 < nr + k)%nat /\
       (forall j, (j < k)%nat -> (0 < nr + j)%nat -> conv (iterates step x j) = false) /\
       masked_loop false conv step nr left x = (iterates step x k, true))
    \/ ((forall j, (j <= left)%nat -> (0 < nr + j)%nat -> conv (iterates step x j) = false) /\
        snd (masked_loop false conv step nr left x) = false).
  Proof.
    induction left as [|l IH]; intros nr x.
    - cbn [masked_loop]. destruct (conv x && (0 <? nr)) eqn:C.
      + apply andb_true_iff in C. destruct C as [C N]. apply Nat.ltb_lt in N.
        left. exists 0%nat. cbn [iterates]. repeat split; auto; lia.
      + right. split; [|reflexivity]. intros j Hj Hn. assert (j = 0)%nat by lia. subst j. cbn [iterates].
        apply andb_false_iff in C. destruct C as [C|C]; auto. apply Nat.ltb_ge in C. lia.
    - destruct (conv x && (0 <? nr)) eqn:C.
      + apply andb_true_iff in C. destruct C as [C N]. apply Nat.ltb_lt in N.
        left. exists 0%nat. cbn [iterates]. repeat split; auto; try lia.
        apply masked_stays; auto.
      + cbn [masked_loop]. rewrite C.
        assert (C0 : (0 < nr)%nat -> conv x = false).
        { intros N. apply andb_false_iff in C. destruct C as [C|C]; auto. apply Nat.ltb_ge in C. lia. }
        destruct (IH (S nr) (step x)) as [(k & K1 & K2 & K3 & K4 & K5)|(A & B)].
        * left. exists (S k). cbn [iterates]. repeat split; auto; try lia.
          intros j Hj Hn. destruct j as [|j]; cbn [iterates]; [apply C0; lia|]. apply K4; lia.
        * right. split; [|exact B]. intros j Hj Hn. destruct j as [|j]; cbn [iterates]; [apply C0; lia|].
          apply A; lia.
  Qed.

  (** The masked loop ends at the first converged iterate, or reports failure
      exactly when none of the iterates 1, ..., n passes the test. *)
  Theorem masked_loop_early_exit n x :
    (exists k, first_converged conv step n x k /\
       masked_loop false conv step 0 n x = (iterates step x k, true))
    \/ (never_converged conv step n x /\ snd (masked_loop false conv step 0 n x) = false).
  Proof.
    destruct (masked_invariant n 0 x) as [(k & K1 & K2 & K3 & K4 & K5)|(A & B)].
    - left. exists k. split; [|exact K5]. split; [lia|]. split; [exact K2|]. intros j Hj. apply K4; lia.
    - right. split; [|exact B]. intros j Hj. apply A; lia.
  Qed.

  (** Elastic steps leave the unknown untouched and count as converged. *)
  Theorem masked_loop_elastic : forall left nr x, masked_loop true conv step nr left x = (x, true).
  Proof. induction left as [|l IH]; intros nr x; cbn [masked_loop]; auto. Qed.

  (** The loop with early exit, as a program. *)
  Fixpoint early_loop (nr left : nat) (x : X) : option X :=
    if conv x && Nat.ltb 0 nr then Some x
    else match left with O => None | S l => early_loop (S nr) l (step x) end.

  Lemma masked_is_early : forall left nr x,
    early_loop nr left x = (let (x', ok) := masked_loop false conv step nr left x in if ok then Some x' else None).
  Proof.
    induction left as [|l IH]; intros nr x; cbn [early_loop masked_loop]; destruct (conv x && (0 <? nr)) eqn:C; auto.
    apply andb_true_iff in C. destruct C as [C N]. rewrite masked_stays by (auto; lia). reflexivity.
  Qed.
End Loop.

(** ** von Mises: same multiplier as the early-exit loop of the standard model *)
Lemma early_none hl vm G acc tol : forall left nr,
  early_loop (vv_conv hl vm G acc tol) (vv_step hl vm G acc) nr left None = None.
Proof. induction left as [|l IH]; intros nr; cbn; auto. Qed.

Lemma early_is_newton hl vm G acc tol : forall left nr x,
  early_loop (vv_conv hl vm G acc tol) (vv_step hl vm G acc) nr left (Some x)
  = omap (fun p => Some (fst p)) (newton hl vm G acc tol left (Nat.eqb nr 0) x).
Proof.
  assert (B : forall nr : nat, Nat.ltb 0 nr = negb (Nat.eqb nr 0)) by (intros [|n]; reflexivity).
  induction left as [|l IH]; intros nr x; cbn [early_loop newton]; unfold vv_conv at 1;
    (destruct (hl (acc + x)) as [[y H]|] eqn:E; cbn [omap andb];
     [rewrite B; destruct (quot_lt (Rabs (vm - 3 * G * x - y)) (Rabs y) tol && negb (nr =? 0)); auto|auto]).
  - unfold vv_step at 2. rewrite E. destruct H as [h|].
    + cbv zeta. destruct (Req_EM_T (- 3 * G - h) 0); [apply early_none|]. rewrite (IH (S nr)). reflexivity.
    + rewrite (IH (S nr)). reflexivity.
  - unfold vv_step at 2. rewrite E. apply early_none.
Qed.

Theorem vmap_multiplier_is_newton hl vm G acc tol n :
  vv_multiplier false hl vm G acc tol n =
  match newton hl vm G acc tol n true 0 with Some (x, _) => (Some x, true) | None => (None, false) end.
Proof.
  unfold vv_multiplier.
  pose proof (masked_is_early (vv_conv hl vm G acc tol) (vv_step hl vm G acc) n 0 (Some 0)) as M.
  rewrite early_is_newton in M. cbn [Nat.eqb] in M.
  destruct (masked_loop false (vv_conv hl vm G acc tol) (vv_step hl vm G acc) 0 n (Some 0)) as [x ok].
  destruct (newton hl vm G acc tol n true 0) as [[x' H]|]; cbn [omap fst] in M; destruct ok; inversion M; auto.
Qed.

(** Whatever converges within fewer iterations converges to the same value. *)
Lemma newton_more_fuel hl vm G acc tol : forall n first x r m,
  newton hl vm G acc tol n first x = Some r -> (n <= m)%nat -> newton hl vm G acc tol m first x = Some r.
Proof.
  induction n as [|n IH]; intros first x r m; destruct m as [|m]; try lia; cbn [newton];
    destruct (hl (acc + x)) as [[y H]|]; auto; try discriminate;
    destruct (quot_lt _ _ _ && negb first); auto; try discriminate.
  - intros R L. destruct H as [h|]; [destruct (Req_EM_T _ _); [discriminate|]|]; apply (IH _ _ _ m R); lia.
Qed.
Theorem vmap_agrees_with_standard hl vm G acc x :
  fst (vv_multiplier false hl vm G acc su_conv_tol vv_max_n_iterations) = Some x ->
  exists H, newton hl vm G acc su_conv_tol su_max_n_iterations true 0 = Some (x, H).
Proof.
  rewrite vmap_multiplier_is_newton.
  destruct (newton hl vm G acc su_conv_tol vv_max_n_iterations true 0) as [[x' H]|] eqn:N; cbn [fst]; [|discriminate].
  intros E. inversion E; subst x'. exists H. apply (newton_more_fuel _ _ _ _ _ _ _ _ _ _ N).
  unfold vv_max_n_iterations, su_max_n_iterations. lia.
Qed.

(** ** The whole vectorised update *)
Definition shifted_norm (s : T2) : R := vnorm (map (fun a => a + small) (kmf s)).
Definition vv_corrected (E v : R) (et : T2) (x : R) : T2 :=
  let s := deviator3 (sig_of E v et) in
  fun i j => et i j - x * (sqrt (3 / 2) * (if rltb small (tnorm s) then 1 / shifted_norm s else 0) * s i j).

(** Elastic steps are those of the standard model; plastic ones have its
    multiplier (with at most ten iterations), but along a flow vector divided
    by [shifted_norm] instead of the norm. *)
Theorem vmap_core_3d E v hl et acc : symmetric 3 et ->
  let sig := sig_of E v et in
  exists c, vv_core E v hl (Some (kmf et)) (Some acc) = Ok c /\
   ((return_mapping hl (lame_mu E v) (vmises sig) acc = OElastic /\
     vv_e c = Some (kmf et) /\ vv_stress c = Some (kmf sig) /\ vv_acc c = Some acc /\
     vv_plast c = false /\ vv_fail c = false /\ vv_tangent c = Some (iso_mf (lame_lambda E v) (2 * lame_mu E v)))
    \/ (return_mapping hl (lame_mu E v) (vmises sig) acc <> OElastic /\ vv_plast c = true /\
        match newton hl (vmises sig) (lame_mu E v) acc su_conv_tol 10 true 0 with
        | Some (x, H) => vv_fail c = false /\ vv_acc c = Some (acc + x) /\
            vv_e c = Some (kmf (vv_corrected E v et x)) /\
            vv_stress c = Some (kmf (sig_of E v (vv_corrected E v et x)))
        | None => vv_fail c = true /\ vv_acc c = None /\ vv_e c = None /\ vv_stress c = None /\ vv_tangent c = None
        end)).
Proof.
  intros S sig. unfold vv_core. rewrite devproj_mf, iso_tangent_mf. cbn [rbind]. rewrite hooke_kmf.
  fold (sig_of E v et). fold sig. rewrite dev_kmf.
  set (s := deviator3 sig).
  assert (Ss : symmetric 3 sig) by (apply hooke_symmetric; auto).
  assert (Sd : symmetric 3 s) by (apply deviator_symmetric; auto).
  replace (vm_equivalent (kmf s)) with (vmises sig) by (symmetry; apply vm_equivalent_kmf; auto).
  assert (MV : forall e, mv (iso_mf (lame_lambda E v) (2 * lame_mu E v)) (kmf e) = kmf (sig_of E v e))
    by (intros; apply hooke_kmf).
  assert (FL : vv_flow_vector (kmf s) = kmf (fun i j =>
     sqrt (3 / 2) * (if rltb small (tnorm s) then 1 / shifted_norm s else 0) * s i j)).
  { unfold vv_flow_vector. rewrite kmf_norm by auto. fold (shifted_norm s). rewrite kmf_scale. reflexivity. }
  rewrite FL.
  destruct (from_kmf (fun i j => sqrt (3 / 2) * (if rltb small (tnorm s) then 1 / shifted_norm s else 0) * s i j))
    as (ft & Ef & Qf).
  { intros i j Hi Hj. rewrite (Sd i j) by auto. reflexivity. }
  rewrite Ef. cbn [rbind].
  set (el := match hl acc with Some (y, _) => quot_le (vmises sig - y) y su_conv_tol | None => false end).
  assert (RM : return_mapping hl (lame_mu E v) (vmises sig) acc = OElastic <-> el = true).
  { unfold return_mapping, el. destruct (hl acc) as [[y h]|]; [|split; discriminate].
    destruct (quot_le _ _ _); [tauto|]. destruct (newton _ _ _ _ _ _ _ _) as [[x' H']|]; split; discriminate. }
  destruct el eqn:EL.
  - unfold vv_multiplier. rewrite masked_loop_elastic. cbn [negb]. rewrite iso_tangent_mf. cbn [rbind].
    eexists. split; [reflexivity|]. left. split; [tauto|]. cbn. auto 10.
  - rewrite vmap_multiplier_is_newton. unfold vv_max_n_iterations.
    destruct (newton hl (vmises sig) (lame_mu E v) acc su_conv_tol 10 true 0) as [[x H]|] eqn:N.
    + destruct (newton_result _ _ _ _ _ _ _ _ _ _ N) as (y & HY & _). cbn [negb]. rewrite HY.
      destruct (vm_tangent E v (lame_mu E v) (vmises sig) ft (OPlastic x H)) as [t4|] eqn:T; [|discriminate].
      destruct (vget_tensor_mf4 t4 3 order_sym_3d true) as [m|] eqn:M; [|discriminate]. cbn [rbind].
      rewrite kmf_scale, kmf_sub. rewrite MV.
      eexists. split; [reflexivity|]. right. split; [intros Q; apply RM in Q; discriminate|].
      cbn. auto 10.
    + cbn [negb rbind]. eexists. split; [reflexivity|]. right.
      split; [intros Q; apply RM in Q; discriminate|]. cbn. auto 10.
Qed.

(** Size of the shifted norm. *)
Lemma shifted_norm_bounds s : symmetric 3 s -> 3 * small < tnorm s ->
  tnorm s - 3 * small <= shifted_norm s <= tnorm s + 3 * small.
Proof.
  intros S N. assert (SM : 0 < small) by (unfold small; lra).
  rewrite <- (kmf_norm s S) in *. unfold shifted_norm, vnorm, kmf in *. cbn [map lsum] in *.
  set (a := s 0%nat 0%nat) in *. set (b := s 1%nat 1%nat) in *. set (c := s 2%nat 2%nat) in *.
  set (d := sqrt 2 * s 0%nat 1%nat) in *. set (e := sqrt 2 * s 1%nat 2%nat) in *. set (f := sqrt 2 * s 0%nat 2%nat) in *.
  set (q := a * a + (b * b + (c * c + (d * d + (e * e + (f * f + 0)))))) in *.
  set (n := sqrt q) in *.
  assert (Q0 : 0 <= q) by (unfold q; nra).
  assert (NQ : n * n = q) by (apply sqrt_sqrt; exact Q0).
  assert (NP : 0 <= n) by apply sqrt_pos.
  set (t := a + b + c + d + e + f).
  assert (CS : t * t <= 6 * q).
  { unfold t, q. pose proof (Rle_0_sqr (a - b)). pose proof (Rle_0_sqr (a - c)). pose proof (Rle_0_sqr (a - d)).
    pose proof (Rle_0_sqr (a - e)). pose proof (Rle_0_sqr (a - f)). pose proof (Rle_0_sqr (b - c)).
    pose proof (Rle_0_sqr (b - d)). pose proof (Rle_0_sqr (b - e)). pose proof (Rle_0_sqr (b - f)).
    pose proof (Rle_0_sqr (c - d)). pose proof (Rle_0_sqr (c - e)). pose proof (Rle_0_sqr (c - f)).
    pose proof (Rle_0_sqr (d - e)). pose proof (Rle_0_sqr (d - f)). pose proof (Rle_0_sqr (e - f)).
    unfold Rsqr in *. lra. }
  assert (TB : - (5 / 2 * n) <= t <= 5 / 2 * n).
  { assert (t * t <= (5 / 2 * n) * (5 / 2 * n)) by nra. split; nra. }
  assert (SN : small * n >= 0) by nra. assert (S3 : 3 * small * small <= small * n) by nra.
  assert (ST : - (5 / 2 * (small * n)) <= small * t <= 5 / 2 * (small * n)) by (split; nra).
  match goal with |- _ <= sqrt ?z <= _ =>
    replace z with (q + 2 * small * t + 6 * small * small) by (unfold q, t; ring) end.
  split.
  - rewrite <- (sqrt_square (n - 3 * small)) by lra. apply sqrt_le_1; nra.
  - rewrite <- (sqrt_square (n + 3 * small)) by lra. apply sqrt_le_1; nra.
Qed.

Lemma vv_corrected_trace E v et x : trace 3 (vv_corrected E v et x) = trace 3 et.
Proof.
  unfold vv_corrected. set (s := deviator3 (sig_of E v et)).
  assert (T : trace 3 s = 0) by apply deviator_trace. unfold trace in *. simpl in *.
  replace (s 2%nat 2%nat) with (- s 0%nat 0%nat - s 1%nat 1%nat) by lra. ring.
Qed.
Lemma vv_corrected_vmises E v et x : symmetric 3 et -> 3 * small < tnorm (deviator3 (sig_of E v et)) ->
  let n := tnorm (deviator3 (sig_of E v et)) in
  vmises (sig_of E v (vv_corrected E v et x))
  = Rabs (vmises (sig_of E v et) - 3 * lame_mu E v * x * (n / shifted_norm (deviator3 (sig_of E v et)))).
Proof.
  intros S N n. set (s := deviator3 (sig_of E v et)) in *.
  assert (SM : 0 < small) by (unfold small; lra).
  assert (Sd : symmetric 3 s) by (apply deviator_symmetric, hooke_symmetric; auto).
  pose proof (shifted_norm_bounds s Sd N) as [B1 B2].
  set (k := sqrt (3 / 2) * (1 / shifted_norm s)).
  assert (D : eq2 3 (deviator3 (sig_of E v (vv_corrected E v et x))) (fun i j => (1 - 2 * lame_mu E v * x * k) * s i j)).
  { intros i j Hi Hj. unfold sig_of at 1. rewrite deviator_hooke by auto.
    assert (D : deviator3 (vv_corrected E v et x) i j = deviator3 et i j - x * (k * s i j)).
    { unfold deviator3 at 1. rewrite vv_corrected_trace. unfold vv_corrected. fold s.
      rewrite (proj2 (rltb_iff _ _)) by lra. fold k. unfold deviator3. ring. }
    rewrite D. pose proof (deviator_hooke (lame_lambda E v) (lame_mu E v) et i j Hi Hj) as Q.
    fold (sig_of E v et) in Q. fold s in Q. rewrite Q. ring. }
  rewrite !vmises_norm, (tnorm_ext _ _ D), tnorm_scale. fold s. fold n.
  assert (P : 0 < n) by (unfold n; lra).
  rewrite <- (Rabs_right n) at 1 by lra. rewrite <- (Rabs_right (sqrt (3 / 2))) at 1 by (pose proof sqrt32_pos; lra).
  rewrite <- !Rabs_mult. f_equal. pose proof sqrt32_sq as Q. unfold k.
  transitivity (sqrt (3 / 2) * n - 2 * lame_mu E v * x * (sqrt (3/2) * sqrt (3 / 2)) * (n / shifted_norm s));
    [field; lra|rewrite Q; field; lra].
Qed.

(** ** Consistency of the vectorised update
    Partial: the stress lies on the yield surface up to the tolerance plus the
    error of the shifted norm, at most [6e-8] times the plastic correction over
    the trial deviator; relative to small yield stresses this exceeds the
    tolerance ([vmap_consistency_refuted]). *)
Theorem vmap_consistency_partial E v hl et acc c ymin :
  0 < E -> -1 < v -> symmetric 3 et -> 12 * small <= ymin -> law_above ymin hl -> law_monotone hl ->
  vv_core E v hl (Some (kmf et)) (Some acc) = Ok c -> vv_plast c = true ->
  (vv_fail c = true /\ vv_acc c = None /\ vv_e c = None /\ vv_stress c = None)
  \/ exists e' a' y h, vv_fail c = false /\ vv_e c = Some (kmf e') /\ vv_acc c = Some a' /\
       vv_stress c = Some (kmf (hooke (lame_lambda E v) (lame_mu E v) e')) /\
       trace 3 e' = trace 3 et /\ acc < a' /\ hl a' = Some (y, h) /\
       Rabs (vmises (hooke (lame_lambda E v) (lame_mu E v) e') - y)
       < su_conv_tol * y + 6 * small * (3 * lame_mu E v * (a' - acc)) / tnorm (deviator3 (sig_of E v et)).
Proof.
  intros HE Hv S YM LA LM EC PL.
  pose proof (shear_positive E v HE Hv) as GP. set (G := lame_mu E v) in *.
  assert (SM : 0 < small) by (unfold small; lra).
  assert (TP : 0 < su_conv_tol) by (unfold su_conv_tol; lra).
  destruct (vmap_core_3d E v hl et acc S) as (c' & EC' & D). rewrite EC in EC'. injection EC' as <-.
  destruct D as [(_ & _ & _ & _ & P & _)|(NE & _ & D)]; [congruence|]. fold G in D, NE.
  set (vm := vmises (sig_of E v et)) in *.
  destruct (newton hl vm G acc su_conv_tol 10 true 0) as [[x H]|] eqn:N.
  2: { left. tauto. }
  right. destruct D as (D1 & D2 & D3 & D4).
  destruct (newton_result _ _ _ _ _ _ _ _ _ _ N) as (y & HY & _ & C).
  pose proof (LA _ _ _ HY) as Y1. rewrite (Rabs_right y) in C by lra.
  (* the trial state is outside the surface *)
  assert (OUT : exists y0 h0, hl acc = Some (y0, h0) /\ y0 * (1 + su_conv_tol) < vm).
  { unfold return_mapping in NE. destruct (hl acc) as [[y0 h0]|] eqn:H0.
    - exists y0, h0. split; auto. pose proof (LA _ _ _ H0). unfold quot_le in NE.
      destruct (Req_EM_T y0 0); [lra|].
      destruct (rleb ((vm - y0) / y0) su_conv_tol) eqn:Q; [congruence|]. apply rleb_false in Q.
      apply (Rmult_lt_compat_r y0) in Q; [|lra]. unfold Rdiv in Q. rewrite Rmult_assoc, Rinv_l in Q by lra. lra.
    - exfalso. cbn [newton] in N. rewrite Rplus_0_r, H0 in N. discriminate. }
  destruct OUT as (y0 & h0 & H0 & V0). pose proof (LA _ _ _ H0) as Y0.
  assert (XP : 0 < x).
  { destruct (Rlt_le_dec 0 x) as [|L]; auto. exfalso.
    pose proof (LM _ _ _ _ _ _ (ltac:(lra) : acc + x <= acc) HY H0) as M.
    apply Rabs_def2 in C. nra. }
  assert (VN : vm = sqrt (3 / 2) * tnorm (deviator3 (sig_of E v et))) by apply vmises_norm.
  pose proof sqrt32_pos. pose proof sqrt32_lt2. pose proof sqrt32_sq as SQ.
  set (n := tnorm (deviator3 (sig_of E v et))) in *.
  assert (N3 : 6 * small < n) by nra.
  exists (vv_corrected E v et x), (acc + x), y, H.
  split; [exact D1|]. split; [exact D3|]. split; [exact D2|]. split; [exact D4|].
  split; [apply vv_corrected_trace|]. split; [lra|]. split; [exact HY|].
  change (hooke (lame_lambda E v) G (vv_corrected E v et x)) with (sig_of E v (vv_corrected E v et x)).
  rewrite vv_corrected_vmises; [|exact S|fold n; lra].
  fold vm. fold n. fold G. set (m := shifted_norm (deviator3 (sig_of E v et))).
  assert (Sd : symmetric 3 (deviator3 (sig_of E v et))) by (apply deviator_symmetric, hooke_symmetric; auto).
  destruct (shifted_norm_bounds _ Sd ltac:(fold n; lra)) as [B1 B2]. fold n m in B1, B2.
  assert (R : Rabs (n / m - 1) <= 6 * small / n).
  { replace (n / m - 1) with ((n - m) * / m) by (field; lra).
    rewrite Rabs_mult, (Rabs_right (/ m)) by (apply Rle_ge, Rlt_le, Rinv_0_lt_compat; lra).
    assert (Rabs (n - m) <= 3 * small) by (apply Rabs_le; lra).
    assert (/ m <= 2 / n).
    { apply (Rmult_le_reg_l m); [lra|]. rewrite Rinv_r by lra.
      apply (Rmult_le_reg_r n); [lra|]. replace (m * (2 / n) * n) with (2 * m) by (field; lra). lra. }
    assert (0 < / m) by (apply Rinv_0_lt_compat; lra).
    replace (6 * small / n) with (3 * small * (2 / n)) by (field; lra).
    apply Rmult_le_compat; try lra. apply Rabs_pos. }
  replace (acc + x - acc) with x by ring.
  assert (T : Rabs (3 * G * x * (n / m - 1)) <= 6 * small * (3 * G * x) / n).
  { rewrite Rabs_mult, (Rabs_right (3 * G * x)) by nra.
    replace (6 * small * (3 * G * x) / n) with (3 * G * x * (6 * small / n)) by (field; lra).
    apply Rmult_le_compat_l; [nra|exact R]. }
  replace (vm - 3 * G * x * (n / m)) with ((vm - 3 * G * x) - 3 * G * x * (n / m - 1)) by ring.
  set (u := 3 * G * x * (n / m - 1)) in *. set (z := vm - 3 * G * x) in *.
  assert (C' : Rabs (z - y) < su_conv_tol * y) by exact C.
  revert C' T. unfold Rabs. repeat destruct Rcase_abs; lra.
Qed.

(** The tolerance itself is not met: with E = 2, nu = 0, yield stress 1/1000 and
    no hardening, a shear strain of 1 converges and is not flagged, yet the
    returned stress is outside the yield surface by more than the convergence
    tolerance (the standard update is exact here, [linear_update_exact]). *)
Theorem vmap_consistency_refuted : exists E v s0 et c e',
  0 < E /\ -1 < v /\ 12 * small <= s0 /\ symmetric 3 et /\
  vv_core E v (linear_law s0 0) (Some (kmf et)) (Some 0) = Ok c /\
  vv_fail c = false /\ vv_e c = Some (kmf e') /\
  s0 * (1 + su_conv_tol) < vmises (sig_of E v e').
Proof.
  set (s0 := 1 / 1000).
  assert (SM : 0 < small) by (unfold small; lra).
  assert (TP : 0 < su_conv_tol) by (unfold su_conv_tol; lra).
  assert (S3 : 3 / 2 < sqrt 3) by (rewrite <- (sqrt_square (3/2)) at 1 by lra; apply sqrt_lt_1; lra).
  assert (Q2p : 1 < sqrt 2 < 3/2) by (pose proof (sqrt_pos 2); pose proof sqrt2_sq; nra).
  assert (N : tnorm (deviator3 (sig_of 2 0 (shear 1))) = 2 * sqrt 2 * 1) by (apply shear_norm; lra).
  destruct lame_22 as [GM _]. pose proof ex_shear_vm as VM.
  destruct (vmap_core_3d 2 0 (linear_law s0 0) (shear 1) 0 (shear_symmetric 1)) as (c & EC & D).
  rewrite GM, VM in D. set (vm := 2 * sqrt 3) in *.
  assert (V1 : s0 + 0 * 0 < vm) by (unfold s0, vm; lra).
  assert (NZ0 : s0 + 0 * (0 + (vm - (s0 + 0 * 0)) / (3 * 1 + 0)) <> 0) by (unfold s0; lra).
  destruct (linear_one_correction s0 0 1 vm 0 su_conv_tol 9 ltac:(lra) TP ltac:(lra) V1 NZ0) as (NW & XP & RX).
  set (x := (vm - (s0 + 0 * 0)) / (3 * 1 + 0)) in *.
  assert (X3 : 3 * x = vm - s0) by lra.
  destruct D as [(EL & _)|(_ & _ & D)].
  { exfalso. unfold return_mapping in EL. unfold linear_law at 1 in EL. rewrite relu_pos in EL by lra.
    unfold quot_le in EL. destruct (Req_EM_T (s0 + 0 * 0) 0); [unfold s0 in *; lra|].
    replace (rleb _ _) with false in EL.
    - destruct (newton _ _ _ _ _ _ _ _) as [[? ?]|]; discriminate.
    - symmetry. apply rleb_false. apply (Rmult_lt_reg_r (s0 + 0 * 0)); [unfold s0; lra|]. unfold Rdiv.
      rewrite Rmult_assoc, Rinv_l by (unfold s0; lra). unfold vm, s0, su_conv_tol. lra. }
  rewrite NW in D. destruct D as (D1 & D2 & D3 & D4).
  exists 2, 0, s0, (shear 1), c, (vv_corrected 2 0 (shear 1) x).
  split; [lra|]. split; [lra|]. split; [unfold s0, small; lra|]. split; [apply shear_symmetric|].
  split; [exact EC|]. split; [exact D1|]. split; [exact D3|].
  rewrite vv_corrected_vmises; [|apply shear_symmetric|rewrite N; unfold small; lra].
  rewrite VM, N, GM. fold vm. set (m := shifted_norm _). set (n := 2 * sqrt 2 * 1).
  assert (M : n + small <= m).
  { unfold m, shifted_norm, vnorm, kmf. cbn [map lsum].
    rewrite !shear_dev by lia. cbn [shear].
    rewrite <- (sqrt_square (n + small)) by (unfold n; lra). apply sqrt_le_1; unfold n; nra. }
  assert (NP : 2 < n < 3) by (unfold n; lra).
  assert (K : small / 4 <= 1 - n / m).
  { replace (1 - n / m) with ((m - n) / m) by (field; lra).
    apply (Rmult_le_reg_r m); [lra|]. unfold Rdiv at 2. rewrite Rmult_assoc, Rinv_l by lra.
    assert (small < 1) by (unfold small; lra). nra. }
  replace (vm - 3 * 1 * x * (n / m)) with (s0 + (vm - s0) * (1 - n / m)) by (rewrite <- X3; nra).
  eapply Rlt_le_trans; [|apply Rle_abs].
  assert (VB : 29/10 <= vm - s0) by (unfold vm, s0; lra).
  assert ((29/10) * (small / 4) <= (vm - s0) * (1 - n / m)) by (apply Rmult_le_compat; lra).
  unfold s0, su_conv_tol, small in *. lra.
Qed.

(** The same step through the standard and the vectorised update share the
    multiplier and the accumulated plastic strain. *)
Example ex_vmap_shear : exists c, vv_core 2 0 (linear_law 1 2) (Some (kmf (shear 1))) (Some 0) = Ok c /\
  vv_fail c = false /\ vv_acc c = Some (0 + (2 * sqrt 3 - 1) / 5).
Proof.
  destruct lame_22 as [GM _]. pose proof ex_shear_vm as VM.
  assert (S3 : 1 < sqrt 3) by (rewrite <- sqrt_1 at 1; apply sqrt_lt_1; lra).
  destruct (vmap_core_3d 2 0 (linear_law 1 2) (shear 1) 0 (shear_symmetric 1)) as (c & EC & D).
  rewrite GM, VM in D.
  assert (TP : 0 < su_conv_tol) by (unfold su_conv_tol; lra).
  assert (X : 0 < (2 * sqrt 3 - (1 + 2 * 0)) / (3 * 1 + 2)) by (apply Rdiv_lt_0_compat; lra).
  destruct (linear_one_correction 1 2 1 (2 * sqrt 3) 0 su_conv_tol 9 ltac:(lra) TP ltac:(lra) ltac:(lra) ltac:(lra)) as (NW & _ & _).
  exists c. split; [exact EC|]. destruct D as [(EL & _)|(_ & _ & D)].
  { exfalso. unfold return_mapping in EL. unfold linear_law at 1 in EL. rewrite relu_pos in EL by lra.
    unfold quot_le in EL. destruct (Req_EM_T (1 + 2 * 0) 0); [lra|].
    replace (rleb _ _) with false in EL.
    - destruct (newton _ _ _ _ _ _ _ _) as [[? ?]|]; discriminate.
    - symmetry. apply rleb_false. unfold su_conv_tol. lra. }
  rewrite NW in D. destruct D as (D1 & D2 & _). split; [exact D1|]. rewrite D2. do 2 f_equal. lra.
Qed.

Print Assumptions vmap_consistency_partial.
Print Assumptions vmap_agrees_with_standard.
