(** Invariants of the Lou-Zhang-Yoon criterion and search for the boundary of
    its convexity domain. *)
From Coq Require Import Reals List Arith Bool Lia Lra Psatz.
From Verif Require Import Lib MatrixSpec TensorModel TensorSpec TensorProofs TensorProps HardeningModel HardeningProps VonMisesSpec VonMisesProofs LouModel.
Import ListNotations.
Local Open Scope R_scope.

(** ** Vocabulary *)
(** permutation symbol and determinant *)
Definition levi (i j k : nat) : R :=
  match i, j, k with
  | 0, 1, 2 | 1, 2, 0 | 2, 0, 1 => 1%R
  | 0, 2, 1 | 2, 1, 0 | 1, 0, 2 => (-1)%R
  | _, _, _ => 0%R
  end%nat.
Definition det (a : T2) : R :=
  rsum 3 (fun i => rsum 3 (fun j => rsum 3 (fun k => levi i j k * a 0%nat i * a 1%nat j * a 2%nat k))).
Definition J2 (s : T2) : R := trace 3 (mul2 3 (deviator3 s) (deviator3 s)) / 2.
Definition J3 (s : T2) : R := det (deviator3 s).
Definition shift (s : T2) (p : R) : T2 := fun i j => s i j + p * ident i j.
Definition orthogonal (q : T2) : Prop := eq2 3 (mul2 3 q (transp q)) ident.
Definition rotate (q s : T2) : T2 := mul2 3 (mul2 3 q s) (transp q).

Ltac open3 := cbv [get_stress_invariants v_i1 v_i2 v_i3 v_j1 v_j2 v_j3 J2 J3 det levi trace mul2 transp deviator3 ident shift rotate
                   ttrace tmatmul tdet tadj nxt rsum Nat.eqb ddot22_1 ddot42_1 ddot sum2] in *.
(** ** C43: invariants *)
(** i1, i2, i3 are the coefficients of the characteristic polynomial *)
Theorem principal_invariants : forall s x,
  det (fun i j => x * ident i j - s i j) =
  x ^ 3 - v_i1 (get_stress_invariants s) * x ^ 2 + v_i2 (get_stress_invariants s) * x - v_i3 (get_stress_invariants s).
Proof. intros s x. open3. field. Qed.
(** j2 and j3 are invariants of the deviatoric stress *)
Theorem deviatoric_invariants : forall s,
  v_j2 (get_stress_invariants s) = J2 s /\ v_j3 (get_stress_invariants s) = J3 s.
Proof. intros s. split; open3; field. Qed.
Theorem second_invariant_norm : forall s, symmetric 3 s ->
  v_j2 (get_stress_invariants s) = ddot 3 (deviator3 s) (deviator3 s) / 2 /\ 0 <= v_j2 (get_stress_invariants s).
Proof.
  intros s Hs. assert (E : v_j2 (get_stress_invariants s) = ddot 3 (deviator3 s) (deviator3 s) / 2).
  { assert (H01 : s 1%nat 0%nat = s 0%nat 1%nat) by (apply Hs; lia). assert (H02 : s 2%nat 0%nat = s 0%nat 2%nat) by (apply Hs; lia).
    assert (H12 : s 2%nat 1%nat = s 1%nat 2%nat) by (apply Hs; lia). open3. rewrite H01, H02, H12. field. }
  split; [exact E|]. rewrite E. pose proof (ddot_nonneg (deviator3 s)). lra.
Qed.
(** a hydrostatic stress changes neither *)
Theorem hydrostatic_independence : forall s p,
  v_j2 (get_stress_invariants (shift s p)) = v_j2 (get_stress_invariants s) /\
  v_j3 (get_stress_invariants (shift s p)) = v_j3 (get_stress_invariants s) /\
  v_i1 (get_stress_invariants (shift s p)) = v_i1 (get_stress_invariants s) + 3 * p.
Proof. intros s p. repeat split; open3; field. Qed.

Lemma det_mul : forall a b, det (mul2 3 a b) = det a * det b.
Proof. intros. open3. ring. Qed.
Lemma det_transp : forall a, det (transp a) = det a.
Proof. intros. open3. ring. Qed.
Lemma det_ext : forall a b, eq2 3 a b -> det a = det b.
Proof.
  intros a b H. unfold det. apply rsum_ext. intros i Hi. apply rsum_ext. intros j Hj. apply rsum_ext. intros k Hk.
  rewrite (H 0%nat i), (H 1%nat j), (H 2%nat k) by lia. reflexivity.
Qed.
Lemma det_ident : det ident = 1.
Proof. open3. ring. Qed.
Lemma charpoly_rotate : forall q s x, orthogonal q ->
  det (fun i j => x * ident i j - rotate q s i j) = det (fun i j => x * ident i j - s i j).
Proof.
  intros q s x Hq.
  assert (E : eq2 3 (fun i j => x * ident i j - rotate q s i j) (mul2 3 (mul2 3 q (fun i j => x * ident i j - s i j)) (transp q))).
  { intros i j Hi Hj. rewrite <- (Hq i j Hi Hj). destruct i as [|[|[|]]]; try lia; destruct j as [|[|[|]]]; try lia; clear Hq; open3; ring. }
  rewrite (det_ext _ _ E), !det_mul, det_transp.
  assert (D : det q * det q = 1) by (rewrite <- (det_transp q) at 2; rewrite <- det_mul, (det_ext _ _ Hq); apply det_ident).
  replace (det q * det (fun i j => x * ident i j - s i j) * det q) with (det q * det q * det (fun i j => x * ident i j - s i j)) by ring. rewrite D. ring.
Qed.
(** the invariants do not depend on the frame *)
Theorem invariants_isotropic : forall q s, orthogonal q -> get_stress_invariants (rotate q s) = get_stress_invariants s.
Proof.
  intros q s Hq. assert (P : forall x, _) by (intros x; pose proof (charpoly_rotate q s x Hq) as H; rewrite !principal_invariants in H; exact H).
  pose proof (P 0) as P0. pose proof (P 1) as P1. pose proof (P (-1)) as Pm.
  assert (E1 : v_i1 (get_stress_invariants (rotate q s)) = v_i1 (get_stress_invariants s)) by lra.
  assert (E2 : v_i2 (get_stress_invariants (rotate q s)) = v_i2 (get_stress_invariants s)) by lra.
  assert (E3 : v_i3 (get_stress_invariants (rotate q s)) = v_i3 (get_stress_invariants s)) by lra.
  unfold get_stress_invariants in *. cbn [v_i1 v_i2 v_i3] in *. rewrite E3, E2, E1. reflexivity.
Qed.

(** ** C43: effective stress *)
Lemma pow_third_root : forall x, 0 <= x -> pow_third (sqrt (x ^ 3)) = Some (sqrt x).
Proof.
  intros x Hx. unfold pow_third. pose proof (sqrt_pos (x ^ 3)) as Hp. destruct (rltb (sqrt (x ^ 3)) 0) eqn:E; [apply rltb_iff in E; lra|].
  destruct (Req_EM_T (sqrt (x ^ 3)) 0) as [E0|E0].
  - f_equal. apply sqrt_eq_0 in E0; [|now apply pow_le]. assert (x = 0); [|subst; now rewrite sqrt_0].
    destruct (Req_dec x 0); [assumption|]. exfalso. apply (pow_nonzero x 3) in H. contradiction.
  - f_equal. assert (Hx0 : 0 < x). { destruct Hx as [Hx| <-]; [exact Hx|]. exfalso. apply E0. replace (0 ^ 3) with 0 by ring. apply sqrt_0. }
    assert (H3 : 0 < x ^ 3) by (apply pow_lt; exact Hx0).
    rewrite <- (Rpower_sqrt (x ^ 3)) by exact H3. rewrite Rpower_mult. rewrite <- (Rpower_pow 3 x) by exact Hx0. rewrite Rpower_mult.
    rewrite <- (Rpower_sqrt x) by exact Hx0. f_equal. cbn. field.
Qed.
Lemma lou_root_0 : forall j2 j3, 0 <= j2 -> lou_root 0 0 j2 j3 = Some (sqrt j2).
Proof.
  intros j2 j3 H. unfold lou_root, pow_half. replace (j2 ^ 3 - 0 * j3 ^ 2) with (j2 ^ 3) by ring.
  destruct (rltb (j2 ^ 3) 0) eqn:E; [apply rltb_iff in E; pose proof (pow_le j2 3 H); lra|].
  rewrite Rmult_0_l, Rminus_0_r. now apply pow_third_root.
Qed.
(** without the third invariant: Drucker-Prager, with pressure p and J2 *)
Theorem reduces_to_drucker_prager : forall s etay, symmetric 3 s ->
  get_effective_stress s 1 (etay / 3) 0 0 = Some (sqrt (ddot 3 (deviator3 s) (deviator3 s) / 2) + etay * (trace 3 s / 3)).
Proof.
  intros s etay Hs. destruct (second_invariant_norm s Hs) as [E H0]. unfold get_effective_stress. rewrite lou_root_0 by exact H0. f_equal. rewrite E.
  replace (v_i1 (get_stress_invariants s)) with (trace 3 s); [field|]. open3. ring.
Qed.
(** and without pressure: von Mises *)
Theorem reduces_to_von_mises : forall s, symmetric 3 s -> get_effective_stress s (sqrt 3) 0 0 0 = Some (vmises s).
Proof.
  intros s Hs. destruct (second_invariant_norm s Hs) as [E H0]. unfold get_effective_stress. rewrite lou_root_0 by exact H0. f_equal. rewrite E. unfold vmises.
  rewrite Rmult_0_l, Rplus_0_l. rewrite <- sqrt_mult_alt by lra. f_equal. field.
Qed.
Lemma pow_third_scale : forall k x, 0 < k -> pow_third (k ^ 3 * x) = option_map (Rmult k) (pow_third x).
Proof.
  intros k x Hk. assert (H3 : 0 < k ^ 3) by (now apply pow_lt). unfold pow_third. destruct (rltb x 0) eqn:E.
  - apply rltb_iff in E. rewrite (proj2 (rltb_iff (k ^ 3 * x) 0)) by nra. reflexivity.
  - apply rltb_false in E. rewrite (proj2 (rltb_false (k ^ 3 * x) 0)) by nra. destruct (Req_EM_T x 0) as [->|Hx].
    + destruct (Req_EM_T (k ^ 3 * 0) 0) as [_|H]; [|lra]. cbn. now rewrite Rmult_0_r.
    + destruct (Req_EM_T (k ^ 3 * x) 0) as [H|_]; [nra|]. cbn [option_map]. f_equal. rewrite <- Rpower_mult_distr by (auto; lra). f_equal.
      rewrite <- (Rpower_pow 3 k Hk), Rpower_mult. replace (INR 3 * (1 / 3)) with 1 by (cbn; field). now apply Rpower_1.
Qed.
Lemma lou_root_scale : forall k c d j2 j3, 0 < k -> lou_root c d (k ^ 2 * j2) (k ^ 3 * j3) = option_map (Rmult k) (lou_root c d j2 j3).
Proof.
  intros k c d j2 j3 Hk. unfold lou_root, pow_half. replace ((k ^ 2 * j2) ^ 3 - c * (k ^ 3 * j3) ^ 2) with ((k ^ 3 * k ^ 3) * (j2 ^ 3 - c * j3 ^ 2)) by ring.
  assert (H3 : 0 < k ^ 3) by (now apply pow_lt). set (w := j2 ^ 3 - c * j3 ^ 2). destruct (rltb w 0) eqn:E.
  - apply rltb_iff in E. rewrite (proj2 (rltb_iff (k ^ 3 * k ^ 3 * w) 0)) by (pose proof (Rmult_lt_0_compat _ _ H3 H3); nra). reflexivity.
  - apply rltb_false in E. rewrite (proj2 (rltb_false (k ^ 3 * k ^ 3 * w) 0)) by (pose proof (Rmult_lt_0_compat _ _ H3 H3); nra).
    rewrite sqrt_mult_alt by (pose proof (Rmult_lt_0_compat _ _ H3 H3); lra). rewrite sqrt_square by lra.
    replace (k ^ 3 * sqrt w - d * (k ^ 3 * j3)) with (k ^ 3 * (sqrt w - d * j3)) by ring. now apply pow_third_scale.
Qed.
(** positively homogeneous of degree one, and undefined for the same rays *)
Theorem effective_stress_homogeneous : forall k s a b c d, 0 < k ->
  get_effective_stress (fun i j => k * s i j) a b c d = option_map (Rmult k) (get_effective_stress s a b c d).
Proof.
  intros k s a b c d Hk. unfold get_effective_stress.
  assert (E2 : v_j2 (get_stress_invariants (fun i j => k * s i j)) = k ^ 2 * v_j2 (get_stress_invariants s)) by (open3; field).
  assert (E3 : v_j3 (get_stress_invariants (fun i j => k * s i j)) = k ^ 3 * v_j3 (get_stress_invariants s)) by (open3; field).
  assert (E1 : v_i1 (get_stress_invariants (fun i j => k * s i j)) = k * v_i1 (get_stress_invariants s)) by (open3; ring).
  rewrite E1, E2, E3, lou_root_scale by exact Hk. destruct (lou_root c d _ _) as [w|]; cbn [option_map]; [|reflexivity]. f_equal. ring.
Qed.
(** same value in every frame *)
Theorem effective_stress_isotropic : forall q s a b c d, orthogonal q -> get_effective_stress (rotate q s) a b c d = get_effective_stress s a b c d.
Proof. intros q s a b c d Hq. unfold get_effective_stress. now rewrite invariants_isotropic. Qed.
(** d = 0: tension and compression differ by the pressure term only *)
Theorem effective_stress_even : forall s a b c w,
  get_effective_stress s a b c 0 = Some w ->
  get_effective_stress (fun i j => - s i j) a b c 0 = Some (w - 2 * a * b * trace 3 s).
Proof.
  intros s a b c w. unfold get_effective_stress, lou_root.
  assert (E2 : v_j2 (get_stress_invariants (fun i j => - s i j)) = v_j2 (get_stress_invariants s)) by (open3; field).
  assert (E3 : v_j3 (get_stress_invariants (fun i j => - s i j)) = - v_j3 (get_stress_invariants s)) by (open3; field).
  assert (E1 : v_i1 (get_stress_invariants (fun i j => - s i j)) = - trace 3 s) by (open3; ring).
  assert (E0 : v_i1 (get_stress_invariants s) = trace 3 s) by (open3; ring).
  rewrite E1, E2, E3, E0. replace ((- v_j3 (get_stress_invariants s)) ^ 2) with (v_j3 (get_stress_invariants s) ^ 2) by ring.
  destruct (pow_half _) as [u|]; [|discriminate]. rewrite !Rmult_0_l. destruct (pow_third (u - 0)) as [v|]; [|discriminate]. intros [= <-]. f_equal. ring.
Qed.

(** ** Convexity check *)
(** if the unit sublevel set is convex (midpoints suffice) and the function is
    defined and positive on the unit circle, the check succeeds *)
Definition root_of (c d : R) (s : princ) : option R := convexity_function s c d.
Lemma convexity_scale : forall s k c d, 0 < k -> convexity_function (pdiv s k) c d = option_map (Rmult (/ k)) (convexity_function s c d).
Proof.
  intros [[s1 s2] s3] k c d Hk. unfold pdiv, convexity_function. assert (Hi : 0 < / k) by (now apply Rinv_0_lt_compat).
  rewrite <- lou_root_scale by exact Hi. f_equal; field; lra.
Qed.
Theorem convex_surface_passes : forall c d,
  (forall t, exists x, convexity_function (get_dev_stress t) c d = Some x /\ 0 < x) ->
  (forall p q, convexity_function p c d = Some 1 -> convexity_function q c d = Some 1 ->
     exists x, convexity_function (pmid p q) c d = Some x /\ x <= 1) ->
  check_yield_surface_convexity c d = true.
Proof.
  intros c d Hdef Hmid. unfold check_yield_surface_convexity. apply forallb_forall. intros t _. unfold evaluate_convexity_lode.
  assert (A : forall u, exists p, arc_point u c d = Some p /\ convexity_function p c d = Some 1).
  { intros u. destruct (Hdef u) as [x [Hx Hp]]. unfold arc_point. rewrite Hx. destruct (Req_EM_T x 0); [lra|]. eexists. split; [reflexivity|].
    rewrite convexity_scale by exact Hp. rewrite Hx. cbn. f_equal. field. lra. }
  destruct (A t) as [p [-> Hp]]. destruct (A (t + lode_small)) as [q [-> Hq]]. destruct (Hmid p q Hp Hq) as [x [-> Hx]]. now apply rleb_iff.
Qed.
(** the check accepts exactly when, at every sampled angle, both points of the
    arc exist and the function is defined at their midpoint and at most 1 *)
Theorem convexity_check_exact : forall c d, check_yield_surface_convexity c d = true <->
  forall lode, In lode lode_angles -> exists p q x, arc_point lode c d = Some p /\ arc_point (lode + lode_small) c d = Some q /\
    convexity_function (pmid p q) c d = Some x /\ x <= 1.
Proof.
  intros c d. unfold check_yield_surface_convexity. rewrite forallb_forall. unfold evaluate_convexity_lode. split; intros H lode Hl; specialize (H lode Hl).
  - destruct (arc_point lode c d) as [p|]; [|discriminate]. destruct (arc_point (lode + lode_small) c d) as [q|]; [|discriminate].
    destruct (convexity_function (pmid p q) c d) as [x|] eqn:E; [|discriminate]. exists p, q, x. repeat split; auto. now apply rleb_iff.
  - destruct H as (p & q & x & -> & -> & -> & Hx). now apply rleb_iff.
Qed.
(** Drucker-Prager and von Mises pass *)
Theorem round_surface_passes : check_yield_surface_convexity 0 0 = true.
Proof.
  assert (F : forall s1 s2 s3, convexity_function (s1, s2, s3) 0 0 = Some (sqrt (1/2 * (s1 * s1 + s2 * s2 + s3 * s3)))).
  { intros. unfold convexity_function. apply lou_root_0. nra. }
  apply convex_surface_passes.
  - intros t. unfold get_dev_stress. rewrite F. eexists. split; [reflexivity|]. apply sqrt_lt_R0.
    assert (E : cos (2 * PI / 3 - t) = - (1/2) * cos t + sin (2 * PI / 3) * sin t).
    { rewrite cos_minus. replace (2 * PI / 3) with (2 * (PI / 3)) by field. rewrite cos_2PI3. field. }
    pose proof (sin2_cos2 t) as P. unfold Rsqr in P.
    assert (S : sin (2 * PI / 3) <> 0). { replace (2 * PI / 3) with (2 * (PI / 3)) by field. rewrite sin_2PI3. pose proof (sqrt_lt_R0 3 ltac:(lra)). lra. }
    rewrite E. set (k := sin (2 * PI / 3)) in *. set (u := cos t) in *. set (v := sin t) in *. set (w := cos (4 * PI / 3 - t)).
    destruct (Req_dec u 0) as [U|U]; [|assert (0 < u * u) by nra; pose proof (Rle_0_sqr (- (1/2) * u + k * v)); pose proof (Rle_0_sqr w); unfold Rsqr in *; nra].
    rewrite U in *. assert (v * v = 1) by lra. assert (0 < (k * v) * (k * v)) by (replace ((k * v) * (k * v)) with (k * k * (v * v)) by ring; nra).
    pose proof (Rle_0_sqr w). unfold Rsqr in *. nra.
  - intros [[p1 p2] p3] [[q1 q2] q3]. cbn [pmid]. rewrite !F. intros [= Hp] [= Hq]. eexists. split; [reflexivity|].
    assert (Sp : 1/2 * (p1 * p1 + p2 * p2 + p3 * p3) = 1). { rewrite <- (sqrt_sqrt (1/2 * (p1 * p1 + p2 * p2 + p3 * p3))) by nra. rewrite Hp. ring. }
    assert (Sq : 1/2 * (q1 * q1 + q2 * q2 + q3 * q3) = 1). { rewrite <- (sqrt_sqrt (1/2 * (q1 * q1 + q2 * q2 + q3 * q3))) by nra. rewrite Hq. ring. }
    apply Rle_trans with (sqrt 1); [apply sqrt_le_1_alt|rewrite sqrt_1; lra].
    pose proof (Rle_0_sqr (p1 - q1)). pose proof (Rle_0_sqr (p2 - q2)). pose proof (Rle_0_sqr (p3 - q3)). unfold Rsqr in *. nra.
Qed.

(** ** C44: search for the boundary *)
Lemma atan2_polar : forall x y, let r := sqrt (x * x + y * y) in x = r * cos (atan2 y x) /\ y = r * sin (atan2 y x).
Proof.
  intros x y r. assert (Hr2 : r * r = x * x + y * y) by (apply sqrt_sqrt; nra). assert (Hr : 0 <= r) by apply sqrt_pos.
  unfold atan2. fold r. destruct (Req_EM_T r 0) as [E|E].
  - rewrite E in *. assert (x = 0) by nra. assert (y = 0) by nra. subst x y. split; ring.
  - assert (Hr0 : 0 < r) by lra. assert (Hb : -1 <= x / r <= 1).
    { split; apply (Rmult_le_reg_r r); try exact Hr0; unfold Rdiv; rewrite Rmult_assoc, Rinv_l by exact E; nra. }
    assert (Hs : 1 - (x / r)² = (y / r)²). { unfold Rsqr. apply (Rmult_eq_reg_r (r * r)); [|nra]. field_simplify; [|exact E|exact E]. nra. }
    destruct (rltb y 0) eqn:Ey.
    + apply rltb_iff in Ey. rewrite cos_neg, sin_neg, cos_acos, sin_acos by exact Hb. rewrite Hs, sqrt_Rsqr_abs.
      split; [field; exact E|]. rewrite Rabs_left; [field; exact E|]. apply (Rmult_lt_reg_r r); [exact Hr0|]. unfold Rdiv. rewrite Rmult_assoc, Rinv_l by exact E. lra.
    + apply rltb_false in Ey. rewrite cos_acos, sin_acos by exact Hb. rewrite Hs, sqrt_Rsqr_abs.
      split; [field; exact E|]. rewrite Rabs_right; [field; exact E|]. apply Rle_ge. apply (Rmult_le_reg_r r); [exact Hr0|]. unfold Rdiv. rewrite Rmult_assoc, Rinv_l by exact E. lra.
Qed.

Lemma pow2_succ : forall n j, INR j < 2 ^ n -> INR (S j) <= 2 ^ n.
Proof.
  intros n j H. replace (2 ^ n) with (INR (2 ^ n)) in * by (rewrite pow_INR; f_equal; cbn; ring). apply INR_lt in H. now apply le_INR.
Qed.
Section Boundary.
  Variable conv : R -> R -> bool.
  Variable theta : R.
  Let on_ray (r : R) : bool := conv (r * cos theta) (r * sin theta).
  Let point (r : R) : R * R := (r * cos theta, r * sin theta).

  (** any check: the result is the last of the tested radii, a multiple of the
      final window, next to a change of the check *)
  Lemma search_inv : forall n tol lo up last, lo < up -> (up - lo) / 2 ^ n <= tol -> 0 < tol ->
    exists lo' up' res, search conv theta tol n lo up last = Some res /\ lo <= lo' /\ lo' <= up' /\ up' <= up /\ up' - lo' <= tol /\
      (lo' = lo \/ on_ray lo' = true) /\ (up' = up \/ on_ray up' = false) /\
      ((res = last /\ lo' = lo /\ up' = up) \/ (res = Some (point lo') /\ on_ray lo' = true /\ lo < lo') \/ (res = Some (point up') /\ on_ray up' = false /\ up' < up)).
  Proof.
    induction n as [|n IH]; intros tol lo up last Hlt Hw Ht; cbn [search].
    - cbn in Hw. destruct (rltb tol (up - lo)) eqn:E; [apply rltb_iff in E; lra|]. apply rltb_false in E.
      exists lo, up, last. repeat split; try lra; auto.
    - destruct (rltb tol (up - lo)) eqn:E.
      2:{ apply rltb_false in E. exists lo, up, last. repeat split; try lra; auto. }
      cbv zeta. set (r := (up + lo) / 2). fold (on_ray r). assert (Hr : lo < r < up) by (unfold r; lra).
      assert (P2 : 0 < 2 ^ n) by (apply pow_lt; lra).
      assert (Half : forall a b, b - a = (up - lo) / 2 -> (b - a) / 2 ^ n <= tol).
      { intros a b ->. cbn [pow] in Hw. replace ((up - lo) / 2 / 2 ^ n) with ((up - lo) / (2 * 2 ^ n)) by (field; lra). exact Hw. }
      destruct (on_ray r) eqn:Er.
      + destruct (IH tol r up (Some (point r)) ltac:(lra) (Half r up ltac:(unfold r; lra)) Ht) as [lo' [up' [res [S [H1 [H2 [H3 [H4 [H5 [H6 H7]]]]]]]]]].
        exists lo', up', res. split; [exact S|]. repeat (split; [lra|]). split; [|split].
        * right. destruct H5 as [->|H5]; assumption.
        * exact H6.
        * right. destruct H7 as [[-> [-> ->]]|[[-> [A B]]|[-> [A B]]]]; [left; repeat split; [exact Er|lra]|left; repeat split; [exact A|lra]|right; repeat split; [exact A|lra]].
      + destruct (IH tol lo r (Some (point r)) ltac:(lra) (Half lo r ltac:(unfold r; lra)) Ht) as [lo' [up' [res [S [H1 [H2 [H3 [H4 [H5 [H6 H7]]]]]]]]]].
        exists lo', up', res. split; [exact S|]. repeat (split; [lra|]). split; [exact H5|]. split.
        * right. destruct H6 as [->|H6]; assumption.
        * right. destruct H7 as [[-> [-> ->]]|[[-> [A B]]|[-> [A B]]]]; [right; repeat split; [exact Er|lra]|left; repeat split; [exact A|lra]|right; repeat split; [exact A|lra]].
  Qed.
  Lemma pow23 : (5 - 0) / 2 ^ 23 <= 1 / 1000000.
  Proof. lra. Qed.
  (** the loop ends within 23 passes for every check, so the model is the code *)
  Theorem search_terminates : exists p, directional_convex_boundary conv theta = Some (Ok p).
  Proof.
    unfold directional_convex_boundary, directional_convex_boundary_gen.
    destruct (search_inv 23 (1/1000000) 0 5 None ltac:(lra) pow23 ltac:(lra)) as [lo' [up' [res [S [H1 [H2 [H3 [H4 [H5 [H6 H7]]]]]]]]]].
    rewrite S. destruct H7 as [[-> [-> ->]]|[[-> _]|[-> _]]]; [lra|eauto|eauto].
  Qed.
  (** C44: within the search tolerance of the boundary, in the given direction *)
  Theorem boundary_within_tolerance : forall rho, 0 <= rho < 5 -> (forall r, 0 <= r <= 5 -> on_ray r = true <-> r <= rho) ->
    exists r, directional_convex_boundary conv theta = Some (Ok (point r)) /\ 0 < r < 5 /\ Rabs (r - rho) <= 1 / 1000000.
  Proof.
    intros rho Hrho Hray. unfold directional_convex_boundary, directional_convex_boundary_gen.
    destruct (search_inv 23 (1/1000000) 0 5 None ltac:(lra) pow23 ltac:(lra)) as [lo' [up' [res [S [H1 [H2 [H3 [H4 [H5 [H6 H7]]]]]]]]]].
    assert (Hlo : lo' <= rho). { destruct H5 as [->|H5]; [lra|]. apply (Hray lo'); [lra|exact H5]. }
    assert (Hup : rho < up'). { destruct H6 as [->|H6]; [lra|]. destruct (Rlt_le_dec rho up') as [|Hle]; [assumption|]. apply (Hray up') in Hle; [congruence|lra]. }
    rewrite S. destruct H7 as [[-> [-> ->]]|[[-> [A B]]|[-> [A B]]]]; [lra| |].
    - exists lo'. repeat split; try lra. apply Rabs_le. lra.
    - exists up'. repeat split; try lra. apply Rabs_le. lra.
  Qed.
  (** without any assumption on the domain: a tested change of the check is within
      tolerance, except at the ends of the search interval *)
  Theorem boundary_next_to_change : exists r r_in r_out, directional_convex_boundary conv theta = Some (Ok (point r)) /\ (r = r_in \/ r = r_out) /\
    r_in <= r_out <= r_in + 1 / 1000000 /\ (r_in = 0 \/ on_ray r_in = true) /\ (r_out = 5 \/ on_ray r_out = false).
  Proof.
    unfold directional_convex_boundary, directional_convex_boundary_gen.
    destruct (search_inv 23 (1/1000000) 0 5 None ltac:(lra) pow23 ltac:(lra)) as [lo' [up' [res [S [H1 [H2 [H3 [H4 [H5 [H6 H7]]]]]]]]]].
    rewrite S. destruct H7 as [[-> [-> ->]]|[[-> [A B]]|[-> [A B]]]]; [lra| |]; [exists lo', lo', up'|exists up', lo', up']; repeat split; auto; lra.
  Qed.

  (** which side the returned point is on: parity of the cell of the boundary *)
  Lemma search_parity : forall n m tol lo w k last rho,
    0 < w -> 0 < tol -> (forall r, 0 <= r <= lo + w -> on_ray r = true <-> r <= rho) -> 0 <= lo ->
    lo + w * (INR k / 2 ^ m) <= rho < lo + w * (INR (S k) / 2 ^ m) -> (S k <= 2 ^ m)%nat ->
    (forall i, (i < n)%nat -> tol < w / 2 ^ (m + i)) -> w / 2 ^ (m + n) <= tol ->
    exists j, lo + w * (INR j / 2 ^ (m + n)) <= rho < lo + w * (INR (S j) / 2 ^ (m + n)) /\
      search conv theta tol n (lo + w * (INR k / 2 ^ m)) (lo + w * (INR (S k) / 2 ^ m)) last =
      Some (if Nat.eqb n 0 then last else Some (point (lo + w * (INR (if Nat.odd j then j else S j) / 2 ^ (m + n))))).
  Proof.
    induction n as [|n IH]; intros m tol lo w k last rho Hw Ht Hray Hlo Hk Hkm Hbig Hsmall.
    - rewrite Nat.add_0_r in *. exists k. split; [exact Hk|]. cbn [search Nat.eqb]. assert (P : 0 < 2 ^ m) by (apply pow_lt; lra).
      replace (lo + w * (INR (S k) / 2 ^ m) - (lo + w * (INR k / 2 ^ m))) with (w / 2 ^ m) by (rewrite S_INR; field; lra).
      rewrite (proj2 (rltb_false _ _)) by exact Hsmall. reflexivity.
    - cbn [search]. assert (P : 0 < 2 ^ m) by (apply pow_lt; lra). assert (PS : 2 ^ S m = 2 * 2 ^ m) by reflexivity.
      replace (lo + w * (INR (S k) / 2 ^ m) - (lo + w * (INR k / 2 ^ m))) with (w / 2 ^ m) by (rewrite S_INR; field; lra).
      pose proof (Hbig 0%nat ltac:(lia)) as B0. rewrite Nat.add_0_r in B0. rewrite (proj2 (rltb_iff _ _)) by exact B0. cbv zeta.
      assert (Em : (lo + w * (INR (S k) / 2 ^ m) + (lo + w * (INR k / 2 ^ m))) / 2 = lo + w * (INR (S (2 * k)) / 2 ^ S m)).
      { rewrite PS, !S_INR, mult_INR. cbn [INR]. field. lra. }
      assert (El : lo + w * (INR k / 2 ^ m) = lo + w * (INR (2 * k) / 2 ^ S m)) by (rewrite PS, mult_INR; cbn [INR]; field; lra).
      assert (Eu : lo + w * (INR (S k) / 2 ^ m) = lo + w * (INR (S (S (2 * k))) / 2 ^ S m)) by (rewrite PS, !S_INR, mult_INR; cbn [INR]; field; lra).
      rewrite Em. set (r := lo + w * (INR (S (2 * k)) / 2 ^ S m)). fold (on_ray r). change (r * cos theta, r * sin theta) with (point r).
      assert (Hin : 0 <= r <= lo + w).
      { assert (Q : 0 <= INR (S (2 * k)) / 2 ^ S m <= 1).
        { assert (PSp : 0 < 2 ^ S m) by (apply pow_lt; lra). split; [apply Rmult_le_pos; [apply pos_INR|left; now apply Rinv_0_lt_compat]|].
          apply (Rmult_le_reg_r (2 ^ S m)); [exact PSp|]. unfold Rdiv. rewrite Rmult_assoc, Rinv_l, Rmult_1_r, Rmult_1_l by lra.
          replace 2 with (INR 2) by (cbn; ring). rewrite <- pow_INR. apply le_INR. cbn [Nat.pow]. lia. }
        unfold r. nra. }
      assert (Hbig' : forall i, (i < n)%nat -> tol < w / 2 ^ (S m + i)) by (intros i Hi; replace (S m + i)%nat with (m + S i)%nat by lia; apply Hbig; lia).
      assert (Hsmall' : w / 2 ^ (S m + n) <= tol) by (replace (S m + n)%nat with (m + S n)%nat by lia; exact Hsmall).
      replace (m + S n)%nat with (S m + n)%nat by lia. cbn [Nat.eqb].
      assert (Fin : forall k' , (k' = 2 * k \/ k' = S (2 * k))%nat -> lo + w * (INR k' / 2 ^ S m) <= rho < lo + w * (INR (S k') / 2 ^ S m) ->
        exists j, lo + w * (INR j / 2 ^ (S m + n)) <= rho < lo + w * (INR (S j) / 2 ^ (S m + n)) /\
          search conv theta tol n (lo + w * (INR k' / 2 ^ S m)) (lo + w * (INR (S k') / 2 ^ S m)) (Some (point r)) =
          Some (Some (point (lo + w * (INR (if Nat.odd j then j else S j) / 2 ^ (S m + n)))))).
      { intros k' Hk' Hb. destruct (IH (S m) tol lo w k' (Some (point r)) rho Hw Ht Hray Hlo Hb ltac:(cbn [Nat.pow]; lia) Hbig' Hsmall') as [j [Hj Hs]].
        exists j. split; [exact Hj|]. rewrite Hs. destruct n as [|n']; [|reflexivity]. cbn [Nat.eqb]. rewrite Nat.add_0_r in *.
        assert (j = k'). 
        { assert (PSp : 0 < 2 ^ S m) by (apply pow_lt; lra).
          assert (A1 : INR j < INR (S k')). { destruct Hj as [Hj _], Hb as [_ Hb]. apply (Rmult_lt_reg_r (w / 2 ^ S m)); [unfold Rdiv; apply Rmult_lt_0_compat; [lra|now apply Rinv_0_lt_compat]|].
            replace (INR j * (w / 2 ^ S m)) with (w * (INR j / 2 ^ S m)) by (unfold Rdiv; ring). replace (INR (S k') * (w / 2 ^ S m)) with (w * (INR (S k') / 2 ^ S m)) by (unfold Rdiv; ring). lra. }
          assert (A2 : INR k' < INR (S j)). { destruct Hj as [_ Hj], Hb as [Hb _]. apply (Rmult_lt_reg_r (w / 2 ^ S m)); [unfold Rdiv; apply Rmult_lt_0_compat; [lra|now apply Rinv_0_lt_compat]|].
            replace (INR (S j) * (w / 2 ^ S m)) with (w * (INR (S j) / 2 ^ S m)) by (unfold Rdiv; ring). replace (INR k' * (w / 2 ^ S m)) with (w * (INR k' / 2 ^ S m)) by (unfold Rdiv; ring). lra. }
          apply INR_lt in A1, A2. lia. }
        subst j. f_equal. f_equal. unfold r. f_equal. f_equal. f_equal. f_equal.
        destruct Hk' as [->| ->].
        - replace (Nat.odd (2 * k)) with false; [reflexivity|]. now rewrite Nat.odd_mul.
        - rewrite Nat.odd_succ, Nat.even_mul. reflexivity. }
      destruct (on_ray r) eqn:Er.
      + apply (Hray r Hin) in Er. rewrite Eu. apply Fin; [now right|]. rewrite Eu in Hk. unfold r in Er. lra.
      + assert (Hr : rho < r). { destruct (Rlt_le_dec rho r) as [|Hle]; [assumption|]. apply (Hray r Hin) in Hle. congruence. }
        rewrite El. apply Fin; [now left|]. rewrite El in Hk. unfold r in Hr. lra.
  Qed.
  (** C44: exactly when the returned point is convex *)
  Theorem boundary_side : forall rho j, 0 <= rho < 5 -> (forall r, 0 <= r <= 5 -> on_ray r = true <-> r <= rho) ->
    5 * (INR j / 2 ^ 23) <= rho < 5 * (INR (S j) / 2 ^ 23) ->
    exists c d, directional_convex_boundary conv theta = Some (Ok (c, d)) /\ conv c d = Nat.odd j.
  Proof.
    intros rho j Hrho Hray Hj. assert (P : 0 < 2 ^ 23) by (apply pow_lt; lra).
    destruct (search_parity 23 0 (1/1000000) 0 5 0 None rho) as [j' [Hj' S]]; try lra.
    - intros r Hr. apply Hray. lra.
    - cbn. lra.
    - cbn. lia.
    - intros i Hi. assert (Hp : 2 ^ (0 + i) <= 2 ^ 22) by (apply Rle_pow; [lra|lia]). assert (0 < 2 ^ (0 + i)) by (apply pow_lt; lra).
      apply (Rmult_lt_reg_r (2 ^ (0 + i))); [assumption|]. unfold Rdiv at 2. rewrite Rmult_assoc, Rinv_l by lra. lra.
    - rewrite Nat.add_0_l. lra.
    - rewrite Nat.add_0_l in *. assert (j' = j).
      { assert (A1 : INR j' < INR (Datatypes.S j)) by (apply (Rmult_lt_reg_r (5 / 2 ^ 23)); lra).
        assert (A2 : INR j < INR (Datatypes.S j')) by (apply (Rmult_lt_reg_r (5 / 2 ^ 23)); lra).
        apply INR_lt in A1, A2. lia. }
      subst j'. replace (0 + 5 * (INR 0 / 2 ^ 0)) with 0 in S by (cbn; lra). replace (0 + 5 * (INR 1 / 2 ^ 0)) with 5 in S by (cbn; lra).
      unfold directional_convex_boundary, directional_convex_boundary_gen. rewrite S. cbn [Nat.eqb].
      set (i := if Nat.odd j then j else Datatypes.S j). exists ((0 + 5 * (INR i / 2 ^ 23)) * cos theta), ((0 + 5 * (INR i / 2 ^ 23)) * sin theta). split; [reflexivity|].
      change (on_ray (0 + 5 * (INR i / 2 ^ 23)) = Nat.odd j).
      assert (Hle : 0 <= 0 + 5 * (INR i / 2 ^ 23) <= 5).
      { assert (Jl : INR j < 2 ^ 23) by (apply (Rmult_lt_reg_r (5 / 2 ^ 23)); lra). apply pow2_succ in Jl.
        assert (Ii : INR i <= 2 ^ 23).
        { apply Rle_trans with (INR (Datatypes.S j)); [|exact Jl]. apply le_INR. unfold i. destruct (Nat.odd j); lia. }
        pose proof (pos_INR i). split; [|apply (Rmult_le_reg_r (2 ^ 23)); lra]. assert (0 <= INR i / 2 ^ 23) by (apply Rmult_le_pos; [assumption|left; now apply Rinv_0_lt_compat]). lra. }
      unfold i in *. destruct (Nat.odd j) eqn:O.
      + apply Hray; [exact Hle|]. lra.
      + destruct (on_ray _) eqn:E; [|reflexivity]. apply Hray in E; [|exact Hle]. lra.
  Qed.
End Boundary.

(** C44: the return mapping keeps the direction and ends within the tolerance of
    the boundary; whether the result is convex is decided by [boundary_side] *)
Theorem return_mapping_partial : forall conv c d,
  (conv c d = true -> convexity_return_mapping conv c d = Some (Ok (true, c, d))) /\
  (conv c d = false -> forall rho, 0 <= rho < 5 ->
     (forall r, 0 <= r <= 5 -> conv (r * cos (atan2 d c)) (r * sin (atan2 d c)) = true <-> r <= rho) -> (c <> 0 \/ d <> 0) ->
     exists r k, 0 < k /\ convexity_return_mapping conv c d = Some (Ok (false, k * c, k * d)) /\
       r = sqrt ((k * c) * (k * c) + (k * d) * (k * d)) /\ Rabs (r - rho) <= 1 / 1000000).
Proof.
  intros conv c d. unfold convexity_return_mapping. split; [intros ->; reflexivity|]. intros E rho Hrho Hray Hnz. rewrite E.
  destruct (boundary_within_tolerance conv (atan2 d c) rho Hrho Hray) as [r [-> [Hr Ht]]].
  destruct (atan2_polar c d) as [Pc Pd]. set (q := sqrt (c * c + d * d)) in *. set (t := atan2 d c) in *.
  assert (Hq : 0 < q). { apply sqrt_lt_R0. destruct Hnz; nra. }
  exists r, (r / q). assert (Ec : r / q * c = r * cos t) by (rewrite Pc; field; lra). assert (Ed : r / q * d = r * sin t) by (rewrite Pd; field; lra).
  split; [apply Rmult_lt_0_compat; [lra|now apply Rinv_0_lt_compat]|]. rewrite Ec, Ed. split; [reflexivity|]. split; [|exact Ht].
  replace (r * cos t * (r * cos t) + r * sin t * (r * sin t)) with (r * r * ((sin t)² + (cos t)²)) by (unfold Rsqr; ring). rewrite sin2_cos2, Rmult_1_r.
  symmetry. apply sqrt_square. lra.
Qed.
(** C44 as stated is false: for a disc of radius 5/4 the returned parameters are
    outside *)
Theorem return_mapping_refuted : exists conv c d c' d',
  (forall x y k, 0 <= k <= 1 -> conv x y = true -> conv (k * x) (k * y) = true) /\
  convexity_return_mapping conv c d = Some (Ok (false, c', d')) /\ conv c' d' = false.
Proof.
  set (conv := fun x y : R => rleb (x * x + y * y) (25/16)).
  assert (Hray : forall t r, 0 <= r <= 5 -> conv (r * cos t) (r * sin t) = true <-> r <= 5/4).
  { intros t r Hr. unfold conv. rewrite rleb_iff. replace (r * cos t * (r * cos t) + r * sin t * (r * sin t)) with (r * r * ((sin t)² + (cos t)²)) by (unfold Rsqr; ring).
    rewrite sin2_cos2. split; intros; nra. }
  destruct (boundary_side conv (atan2 0 2) (5/4) (2 * 2 ^ 20) ltac:(lra) (Hray _)) as [c' [d' [S O]]].
  { rewrite S_INR, mult_INR, pow_INR. replace (INR 2) with 2 by (cbn; ring). lra. }
  exists conv, 2, 0, c', d'. split; [|split].
  - intros x y k Hk H. unfold conv in *. apply rleb_iff in H. apply rleb_iff. assert (k * k <= 1) by nra. nra.
  - unfold convexity_return_mapping. assert (E : conv 2 0 = false) by (unfold conv; apply rleb_false; lra). rewrite E, S. reflexivity.
  - rewrite O. now rewrite Nat.odd_mul.
Qed.
(** a search interval within the tolerance never enters the loop *)
Theorem short_interval_refuted : forall conv theta lo up tol, up - lo <= tol -> directional_convex_boundary_gen conv 0 theta lo up tol = Some (Err NameError).
Proof. intros. unfold directional_convex_boundary_gen. cbn. rewrite (proj2 (rltb_false _ _)) by assumption. reflexivity. Qed.

Example invariants_example : let s : T2 := fun i j => match i, j with 0, 0 => 3%R | 0, 1 | 1, 0 => 1%R | _, _ => 0%R end%nat in
  v_i1 (get_stress_invariants s) = 3 /\ v_j2 (get_stress_invariants s) = 4 /\ v_j3 (get_stress_invariants s) = 3.
Proof. cbv zeta. open3. lra. Qed.

Print Assumptions invariants_isotropic.
Print Assumptions return_mapping_partial.
Print Assumptions return_mapping_refuted.
