(** Properties of the plotted yield surfaces (YieldPlotModel.v). *)
From Coq Require Import Reals String List Bool Arith Lia Lra Psatz.
From Verif Require Import Lib PyDict MatrixSpec TensorModel TensorSpec TensorProofs TensorProps HardeningModel HardeningProps
  VonMisesSpec VonMisesProofs LouModel LouProps YieldPlotModel.
Import ListNotations.
Local Open Scope string_scope.
Local Open Scope list_scope.
Local Open Scope R_scope.

(** ** Pi-stress coordinates *)
Lemma sq r : 0 <= r -> sqrt r * sqrt r = r.
Proof. apply sqrt_sqrt. Qed.
Lemma s23 : sqrt (2/3) = 2 * sqrt (1/6).
Proof. apply Rsqr_inj; [apply sqrt_pos|pose proof (sqrt_pos (1/6)); lra|]. unfold Rsqr. rewrite sq by lra.
  replace (2 * sqrt (1/6) * (2 * sqrt (1/6))) with (4 * (sqrt (1/6) * sqrt (1/6))) by ring. rewrite sq by lra. lra. Qed.
Lemma sqrt_inv3 : sqrt (1/3) = / sqrt 3.
Proof. rewrite <- sqrt_inv. f_equal. lra. Qed.

(** The map is an isometry, with the rotation matrix as its inverse. *)
Theorem pi_isometry p1 p2 p3 : let '(s1, s2, s3) := pi_to_principal p1 p2 p3 in
  s1 ^ 2 + s2 ^ 2 + s3 ^ 2 = p1 ^ 2 + p2 ^ 2 + p3 ^ 2.
Proof.
  cbn. rewrite s23. pose proof (sq (1/6) ltac:(lra)) as A. pose proof (sq (1/2) ltac:(lra)) as B. pose proof (sq (1/3) ltac:(lra)) as C.
  set (a := sqrt (1/6)) in *. set (b := sqrt (1/2)) in *. set (c := sqrt (1/3)) in *.
  transitivity (6 * (a * a) * p1 ^ 2 + 2 * (b * b) * p2 ^ 2 + 3 * (c * c) * p3 ^ 2); [ring|]. rewrite A, B, C. field.
Qed.
Theorem pi_inverse p1 p2 p3 : let '(s1, s2, s3) := pi_to_principal p1 p2 p3 in
  forall i, (i < 3)%nat -> pi_rotation i 0%nat * s1 + pi_rotation i 1%nat * s2 + pi_rotation i 2%nat * s3
                           = nth i [p1; p2; p3] 0.
Proof.
  cbn. intros i Hi. rewrite s23.
  pose proof (sq (1/6) ltac:(lra)) as A. pose proof (sq (1/2) ltac:(lra)) as B. pose proof (sq (1/3) ltac:(lra)) as C.
  set (a := sqrt (1/6)) in *. set (b := sqrt (1/2)) in *. set (c := sqrt (1/3)) in *.
  destruct i as [|[|[|i]]]; [| | |lia]; cbn [pi_rotation nth]; fold a b c; rewrite ?s23; fold a.
  - transitivity (6 * (a * a) * p1); [ring|]. rewrite A. field.
  - transitivity (2 * (b * b) * p2); [ring|]. rewrite B. field.
  - transitivity (3 * (c * c) * p3); [ring|]. rewrite C. field.
Qed.
(** The third coordinate is the pressure, the other two the deviator. *)
Theorem pi_invariants p1 p2 p3 : let '(s1, s2, s3) := pi_to_principal p1 p2 p3 in
  let v := get_stress_invariants (diag3 s1 s2 s3) in
  v_i1 v = sqrt 3 * p3 /\ v_j2 v = (p1 ^ 2 + p2 ^ 2) / 2 /\ v_j3 v = (p1 ^ 3 - 3 * p1 * p2 ^ 2) / (3 * sqrt 6).
Proof.
  cbn. rewrite s23.
  pose proof (sq (1/6) ltac:(lra)) as A. pose proof (sq (1/2) ltac:(lra)) as B. pose proof (sq (1/3) ltac:(lra)) as C.
  assert (S3 : 3 * sqrt (1/3) = sqrt 3).
  { rewrite sqrt_inv3. pose proof (sqrt_lt_R0 3 ltac:(lra)). pose proof (sq 3 ltac:(lra)) as E. apply (Rmult_eq_reg_r (sqrt 3)); [|lra].
    rewrite E. field. lra. }
  assert (S6 : sqrt (1/6) = / sqrt 6) by (rewrite <- sqrt_inv; f_equal; lra).
  set (a := sqrt (1/6)) in *. set (b := sqrt (1/2)) in *. set (c := sqrt (1/3)) in *.
  cbv [ttrace tmatmul tdet diag3].
  split; [|split].
  - rewrite <- S3. ring.
  - transitivity (3 * (a * a) * p1 ^ 2 + (b * b) * p2 ^ 2); [field|]. rewrite A, B. field.
  - transitivity (2 * a * (a * a) * p1 ^ 3 - 2 * a * (b * b) * p1 * p2 ^ 2); [field|].
    rewrite A, B. replace (/ (3 * sqrt 6)) with (a / 3).
    + unfold Rdiv. replace (/ (3 * sqrt 6)) with (/ 3 * a); [field|]. rewrite S6. field. apply Rgt_not_eq, sqrt_lt_R0. lra.
    + rewrite S6. field. apply Rgt_not_eq, sqrt_lt_R0. lra.
Qed.

(** ** Von Mises *)
Lemma eps_pos : 0 < eps. Proof. unfold eps. apply Rinv_0_lt_compat. lra. Qed.
Lemma yp_diag3_sym s1 s2 s3 : symmetric 3 (diag3 s1 s2 s3).
Proof. intros i j Hi Hj. destruct i as [|[|[|i]]]; destruct j as [|[|[|j]]]; try lia; reflexivity. Qed.
Lemma j2_pos s1 s2 s3 : 0 <= v_j2 (get_stress_invariants (diag3 s1 s2 s3)).
Proof. apply second_invariant_norm, yp_diag3_sym. Qed.
(** In pi-stresses the elastic domain is a circle, at every pressure, of radius
    sqrt(2/3) times the yield stress up to the perturbation. *)
Theorem von_mises_circle p1 p2 p3 sy : 0 < sy -> let '(s1, s2, s3) := pi_to_principal p1 p2 p3 in
  yf_von_mises s1 s2 s3 sy <= 0 <-> p1 ^ 2 + p2 ^ 2 <= 2 / 3 * sy ^ 2 - 2 * eps.
Proof.
  intros Hs. pose proof (pi_invariants p1 p2 p3) as I. destruct (pi_to_principal p1 p2 p3) as [[s1 s2] s3]. destruct I as [_ [J _]].
  unfold yf_von_mises. rewrite J. pose proof eps_pos as He.
  assert (P : 0 <= 3 * ((p1 ^ 2 + p2 ^ 2) / 2 + eps)) by nra.
  split; intros H.
  - assert (Q : sqrt (3 * ((p1 ^ 2 + p2 ^ 2) / 2 + eps)) <= sy) by lra.
    apply Rsqr_incr_1 in Q; [|apply sqrt_pos|lra]. rewrite Rsqr_sqrt in Q by exact P. unfold Rsqr in Q. nra.
  - assert (Q : sqrt (3 * ((p1 ^ 2 + p2 ^ 2) / 2 + eps)) <= sy); [|lra].
    apply Rsqr_incr_0; [|apply sqrt_pos|lra]. rewrite Rsqr_sqrt by exact P. unfold Rsqr. nra.
Qed.
Lemma sqrt_shift x e : 0 <= x -> 0 <= e -> sqrt x <= sqrt (x + e) <= sqrt x + sqrt e.
Proof.
  intros Hx He. split; [apply sqrt_le_1; lra|].
  apply Rsqr_incr_0; [|apply sqrt_pos|pose proof (sqrt_pos x); pose proof (sqrt_pos e); lra].
  rewrite Rsqr_sqrt by lra. unfold Rsqr. pose proof (sq x Hx). pose proof (sq e He). pose proof (sqrt_pos x). pose proof (sqrt_pos e). nra.
Qed.
(** The plotted function is that of the material model (equivalent stress minus
    yield stress) up to the square root of the perturbation, and never below. *)
Theorem von_mises_agrees s1 s2 s3 sy :
  vmises (diag3 s1 s2 s3) - sy <= yf_von_mises s1 s2 s3 sy <= vmises (diag3 s1 s2 s3) - sy + sqrt (3 * eps).
Proof.
  unfold yf_von_mises, vmises. destruct (second_invariant_norm _ (yp_diag3_sym s1 s2 s3)) as [E P].
  replace (3 / 2 * ddot 3 (deviator3 (diag3 s1 s2 s3)) (deviator3 (diag3 s1 s2 s3)))
    with (3 * v_j2 (get_stress_invariants (diag3 s1 s2 s3))) by (rewrite E; field).
  rewrite Rmult_plus_distr_l. pose proof eps_pos. destruct (sqrt_shift (3 * v_j2 (get_stress_invariants (diag3 s1 s2 s3))) (3 * eps)); lra.
Qed.

(** ** Drucker-Prager *)
Theorem drucker_prager_law s1 s2 s3 sy f : cos f <> 0 ->
  yf_drucker_prager s1 s2 s3 sy f
  = Some (sqrt (v_j2 (get_stress_invariants (diag3 s1 s2 s3)) + eps) + sqrt 3 * sin f * ((s1 + s2 + s3) / 3) - sy).
Proof.
  intros Hc. unfold yf_drucker_prager. pose proof (sqrt_lt_R0 3 ltac:(lra)) as S.
  assert (X : 2 / sqrt 3 * cos f <> 0). { apply Rmult_integral_contrapositive_currified; [|exact Hc]. apply Rgt_not_eq. apply Rdiv_lt_0_compat; lra. }
  destruct (Req_EM_T (2 / sqrt 3 * cos f) 0) as [E|_]; [contradiction|]. f_equal.
  replace (2 / sqrt 3 * cos f * (sy / (2 / sqrt 3 * cos f))) with sy by (field; repeat split; lra || assumption).
  replace (v_i1 (get_stress_invariants (diag3 s1 s2 s3))) with (s1 + s2 + s3) by (cbn; unfold ttrace; cbn; ring).
  replace (3 / sqrt 3) with (sqrt 3); [field|]. apply (Rmult_eq_reg_r (sqrt 3)); [|lra]. rewrite sq by lra. field. lra.
Qed.
(** A cone in pi-stresses: the radius decreases linearly with the pressure. *)
Theorem drucker_prager_cone p1 p2 p3 sy f : cos f <> 0 -> let '(s1, s2, s3) := pi_to_principal p1 p2 p3 in
  exists phi, yf_drucker_prager s1 s2 s3 sy f = Some phi /\
  (phi <= 0 <-> 0 <= sy - sin f * p3 /\ p1 ^ 2 + p2 ^ 2 <= 2 * (sy - sin f * p3) ^ 2 - 2 * eps).
Proof.
  intros Hc. pose proof (pi_invariants p1 p2 p3) as I. destruct (pi_to_principal p1 p2 p3) as [[s1 s2] s3] eqn:Ep. destruct I as [I1 [J _]].
  eexists. split; [apply drucker_prager_law; exact Hc|]. rewrite J.
  assert (T : s1 + s2 + s3 = sqrt 3 * p3). { rewrite <- I1. cbn. unfold ttrace. cbn. ring. }
  rewrite T. replace (sqrt 3 * sin f * (sqrt 3 * p3 / 3)) with ((sqrt 3 * sqrt 3) * (sin f * p3 / 3)) by field. rewrite sq by lra.
  pose proof eps_pos as He. assert (P : 0 <= (p1 ^ 2 + p2 ^ 2) / 2 + eps) by nra.
  set (y := sin f * p3). replace (3 * (y / 3)) with y by field. split.
  - intros H. pose proof (sqrt_pos ((p1 ^ 2 + p2 ^ 2) / 2 + eps)) as S.
    assert (Q : sqrt ((p1 ^ 2 + p2 ^ 2) / 2 + eps) <= sy - y) by lra. split; [lra|].
    apply Rsqr_incr_1 in Q; [|exact S|lra]. rewrite Rsqr_sqrt in Q by exact P. unfold Rsqr in Q. nra.
  - intros [H0 H]. assert (Q : sqrt ((p1 ^ 2 + p2 ^ 2) / 2 + eps) <= sy - y); [|lra].
    apply Rsqr_incr_0; [|apply sqrt_pos|exact H0]. rewrite Rsqr_sqrt by exact P. unfold Rsqr. nra.
Qed.
(** Without friction the cone is a von Mises cylinder, of yield stress sqrt 3
    times larger: the yield stress of this model is that in shear. *)
Theorem drucker_prager_shear s1 s2 s3 sy :
  exists phi, yf_drucker_prager s1 s2 s3 sy 0 = Some phi /\ sqrt 3 * phi = yf_von_mises s1 s2 s3 (sqrt 3 * sy).
Proof.
  eexists. split; [apply drucker_prager_law; rewrite cos_0; lra|]. rewrite sin_0. unfold yf_von_mises.
  rewrite (sqrt_mult_alt 3) by lra. ring.
Qed.
Theorem same_yield_stress_refuted : exists s1 s2 s3 sy phi, 0 < sy /\
  yf_von_mises s1 s2 s3 sy > 0 /\ yf_drucker_prager s1 s2 s3 sy 0 = Some phi /\ phi < 0.
Proof.
  exists (3/2), 0, 0, 1. eexists. split; [lra|].
  assert (J : v_j2 (get_stress_invariants (diag3 (3/2) 0 0)) = 3 / 4) by (cbn; unfold ttrace, tmatmul; cbn; field).
  pose proof eps_pos as He. assert (He1 : eps < 1 / 100) by (unfold eps; lra).
  split; [|split; [apply drucker_prager_law; rewrite cos_0; lra|]].
  - unfold yf_von_mises. rewrite J. apply Rgt_minus, Rlt_gt. apply Rsqr_incrst_0; [|lra|apply sqrt_pos].
    rewrite Rsqr_sqrt by lra. unfold Rsqr. lra.
  - rewrite J, sin_0. assert (Q : sqrt (3 / 4 + eps) < 1); [|lra].
    apply Rsqr_incrst_0; [|apply sqrt_pos|lra]. rewrite Rsqr_sqrt by lra. unfold Rsqr. lra.
Qed.

(** ** Lou-Zhang-Yoon *)
(** Special parameters give the other two functions. *)
Theorem lou_is_von_mises s1 s2 s3 sy : yf_lou_zhang_yoon s1 s2 s3 sy (sqrt 3) 0 0 0 = Some (yf_von_mises s1 s2 s3 sy).
Proof.
  unfold yf_lou_zhang_yoon. pose proof (j2_pos s1 s2 s3) as P. pose proof eps_pos as He.
  pose proof (lou_root_0 (v_j2 (get_stress_invariants (diag3 s1 s2 s3)) + eps) (v_j3 (get_stress_invariants (diag3 s1 s2 s3))) ltac:(lra)) as E.
  unfold lou_root in E. destruct (pow_half _) as [w|]; [|discriminate E]. rewrite E. f_equal. unfold yf_von_mises.
  rewrite Rmult_0_l, Rplus_0_l. rewrite <- sqrt_mult_alt by lra. reflexivity.
Qed.
Theorem lou_is_drucker_prager s1 s2 s3 sy f : cos f <> 0 ->
  yf_lou_zhang_yoon s1 s2 s3 sy 1 (sqrt 3 * sin f / 3) 0 0 = yf_drucker_prager s1 s2 s3 sy f.
Proof.
  intros Hc. rewrite drucker_prager_law by exact Hc. unfold yf_lou_zhang_yoon. pose proof (j2_pos s1 s2 s3) as P. pose proof eps_pos as He.
  pose proof (lou_root_0 (v_j2 (get_stress_invariants (diag3 s1 s2 s3)) + eps) (v_j3 (get_stress_invariants (diag3 s1 s2 s3))) ltac:(lra)) as E.
  unfold lou_root in E. destruct (pow_half _) as [w|]; [|discriminate E]. rewrite E. f_equal.
  replace (v_i1 (get_stress_invariants (diag3 s1 s2 s3))) with (s1 + s2 + s3) by (cbn; unfold ttrace; cbn; ring). field.
Qed.
(** The function differs from that of the material by the perturbation only. *)
Theorem lou_agrees s1 s2 s3 sy a b c d :
  yf_lou_zhang_yoon s1 s2 s3 sy a b c d =
  match lou_root c d (v_j2 (get_stress_invariants (diag3 s1 s2 s3)) + eps) (v_j3 (get_stress_invariants (diag3 s1 s2 s3))) with
  | Some w => Some (a * (b * (s1 + s2 + s3) + w) - sy)
  | None => None
  end.
Proof.
  unfold yf_lou_zhang_yoon, lou_root. destruct (pow_half _) as [w|]; [|reflexivity]. destruct (pow_third _) as [x|]; [|reflexivity].
  replace (v_i1 (get_stress_invariants (diag3 s1 s2 s3))) with (s1 + s2 + s3) by (cbn; unfold ttrace; cbn; ring). reflexivity.
Qed.

(** ** All models *)
Lemma contains_refl_vm : contains "von_mises" "von_mises" = true. Proof. reflexivity. Qed.
(** The order of the principal stresses does not matter. *)
Theorem yield_isotropic s1 s2 s3 sy name ps n :
  yield_function s1 s2 s3 sy name ps n = yield_function s2 s1 s3 sy name ps n /\
  yield_function s1 s2 s3 sy name ps n = yield_function s1 s3 s2 sy name ps n.
Proof.
  assert (A : get_stress_invariants (diag3 s1 s2 s3) = get_stress_invariants (diag3 s2 s1 s3)).
  { unfold get_stress_invariants. cbv [ttrace tmatmul tdet diag3]. f_equal; field. }
  assert (B : get_stress_invariants (diag3 s1 s2 s3) = get_stress_invariants (diag3 s1 s3 s2)).
  { unfold get_stress_invariants. cbv [ttrace tmatmul tdet diag3]. f_equal; field. }
  unfold yield_function, yf_von_mises, yf_drucker_prager, yf_lou_zhang_yoon. split; [rewrite A|rewrite B]; reflexivity.
Qed.
(** Normalisation keeps the surface and both sides of it. *)
Theorem normalised_sign s1 s2 s3 sy name ps : 0 < sy ->
  match yield_function s1 s2 s3 sy name ps false with
  | Err e => yield_function s1 s2 s3 sy name ps true = Err e
  | Ok None => yield_function s1 s2 s3 sy name ps true = Ok None
  | Ok (Some phi) => exists phi', yield_function s1 s2 s3 sy name ps true = Ok (Some phi') /\
      (phi' < 0 <-> phi < 0) /\ (phi' = 0 <-> phi = 0)
  end.
Proof.
  intros Hs. unfold yield_function. match goal with |- context [rbind ?x _] => destruct x as [[phi|]|e] end; cbn [rbind]; try reflexivity.
  destruct (Req_EM_T sy 0) as [E|_]; [lra|]. eexists. split; [reflexivity|].
  assert (Q : phi = (phi / sy) * sy) by (field; lra). split; split; intros H.
  - rewrite Q. nra.
  - apply (Rmult_lt_reg_r sy); [exact Hs|]. rewrite <- Q. lra.
  - rewrite Q, H. ring.
  - rewrite H. unfold Rdiv. ring.
Qed.
(** Names are searched in a fixed order: any name with 'von_mises' in it is von
    Mises, whatever its parameters. *)
Theorem name_order name ps s1 s2 s3 sy :
  contains "von_mises" name = true -> yield_function s1 s2 s3 sy name ps false = Ok (Some (yf_von_mises s1 s2 s3 sy)).
Proof. intros H. unfold yield_function. rewrite H. reflexivity. Qed.
Theorem unknown_model name ps s1 s2 s3 sy n :
  contains "von_mises" name = false -> contains "drucker_prager" name = false -> contains "lou_zhang_yoon" name = false ->
  yield_function s1 s2 s3 sy name ps n = Err RuntimeError.
Proof. intros A B C. unfold yield_function. rewrite A, B, C. reflexivity. Qed.
(** Every point of the batch has the value of its own stresses. *)
Theorem batch_values points sy name ps vals : batched_yield_function points sy name ps = Ok vals ->
  Forall2 (fun p phi => let '(p1, p2, p3) := p in let '(s1, s2, s3) := pi_to_principal p1 p2 p3 in
                        yield_function s1 s2 s3 sy name ps true = Ok phi) points vals.
Proof.
  intros H. apply rmap_ok in H. revert H. generalize points vals. clear. intros points vals H.
  induction H as [|[[p1 p2] p3] phi points vals E F IH]; constructor; [exact E|exact IH].
Qed.
(** The perturbation is absolute: for a yield stress below 1.7e-5 in the units
    of the user the unloaded state is outside the plotted surface. *)
Theorem unloaded_outside_refuted : exists sy, 0 < sy /\ yf_von_mises 0 0 0 sy > 0.
Proof.
  exists (1 / 100000). split; [lra|]. unfold yf_von_mises.
  assert (J : v_j2 (get_stress_invariants (diag3 0 0 0)) = 0) by (cbn; unfold ttrace, tmatmul; cbn; field). rewrite J.
  apply Rgt_minus, Rlt_gt. apply Rsqr_incrst_0; [|lra|apply sqrt_pos]. rewrite Rsqr_sqrt by (unfold eps; lra). unfold Rsqr, eps. lra.
Qed.
Theorem unloaded_inside sy : sqrt (3 * eps) < sy <-> yf_von_mises 0 0 0 sy < 0.
Proof.
  unfold yf_von_mises.
  assert (J : v_j2 (get_stress_invariants (diag3 0 0 0)) = 0) by (cbn; unfold ttrace, tmatmul; cbn; field). rewrite J, Rplus_0_l. lra.
Qed.

(** ** The grid *)
Lemma grid_values m : hd 0 (grid_axis m) = - 2 * m /\ last (grid_axis m) 0 = - 2 * m + 49 * (4 * m / 50).
Proof.
  unfold grid_axis, pi_min, pi_max. split; [cbn [seq map hd INR]; field|].
  replace (seq 0 50) with (seq 0 49 ++ [49%nat]) by reflexivity. rewrite map_app. cbn [map].
  rewrite last_last. replace (INR 49) with 49 by (rewrite INR_IZR_INZ; reflexivity). field.
Qed.
(** Every von Mises surface fits in the grid of the largest yield stress. *)
Theorem von_mises_in_grid p1 p2 p3 sy m : 0 < sy <= m -> (let '(s1, s2, s3) := pi_to_principal p1 p2 p3 in yf_von_mises s1 s2 s3 sy <= 0) ->
  hd 0 (grid_axis m) <= p1 <= last (grid_axis m) 0 /\ hd 0 (grid_axis m) <= p2 <= last (grid_axis m) 0.
Proof.
  intros Hs H. pose proof (von_mises_circle p1 p2 p3 sy ltac:(lra)) as C. destruct (pi_to_principal p1 p2 p3) as [[s1 s2] s3].
  apply C in H. pose proof eps_pos as He. destruct (grid_values m) as [-> ->].
  assert (P1 : p1 * p1 <= m * m) by nra. assert (P2 : p2 * p2 <= m * m) by nra.
  assert (Q1 : - m <= p1 <= m) by (split; nra). assert (Q2 : - m <= p2 <= m) by (split; nra). lra.
Qed.
(** The grid stops one step short of its upper limit, and the second of the
    three ranges is taken between the limits of different directions: it is
    negative, and so is a side of two of the null planes drawn. *)
Theorem grid_short_refuted m : 0 < m -> last (grid_axis m) 0 < pi_max m.
Proof. intros H. destruct (grid_values m) as [_ ->]. unfold pi_max. lra. Qed.
Theorem null_plane_refuted m : 0 < m -> exists a, grid_range_dim m = [a; - a; a] /\ 0 < a.
Proof.
  intros H. exists (49 * (4 * m / 50)). unfold grid_range_dim, grid_bounds. destruct (grid_values m) as [-> ->]. cbn [map nth].
  split; [|lra]. f_equal; [ring|]. f_equal; [ring|]. f_equal. ring.
Qed.

(** ** Concrete cases *)
Example uniaxial_yield : yf_von_mises 250 0 0 250 > 0 /\ yf_von_mises 249 0 0 250 < 0.
Proof.
  pose proof (von_mises_agrees 250 0 0 250) as A. pose proof (von_mises_agrees 249 0 0 250) as B.
  assert (V : forall s, 0 <= s -> vmises (diag3 s 0 0) = s).
  { intros s Hs. unfold vmises. transitivity (sqrt (s * s)); [f_equal|now apply sqrt_square].
    cbv [ddot sum2 rsum deviator3 diag3 ident Nat.eqb trace]. field. }
  rewrite V in B by lra.
  assert (E : sqrt (3 * eps) < 1). { apply Rsqr_incrst_0; [|apply sqrt_pos|lra]. rewrite Rsqr_sqrt by (unfold eps; lra). unfold Rsqr, eps. lra. }
  split; [|lra]. unfold yf_von_mises.
  assert (J : v_j2 (get_stress_invariants (diag3 250 0 0)) = 250 * 250 / 3) by (cbn; unfold ttrace, tmatmul; cbn; field). rewrite J.
  apply Rgt_minus, Rlt_gt. apply Rsqr_incrst_0; [|lra|apply sqrt_pos]. rewrite Rsqr_sqrt by (unfold eps; lra). unfold Rsqr, eps. lra.
Qed.
Example missing_angle : yield_function 1 0 0 1 "drucker_prager_2" [] false = Err KeyError.
Proof. reflexivity. Qed.
Example both_names : contains "von_mises" "hybrid_von_mises_drucker_prager" = true. Proof. reflexivity. Qed.

Print Assumptions pi_isometry.
Print Assumptions pi_inverse.
Print Assumptions pi_invariants.
Print Assumptions von_mises_circle.
Print Assumptions von_mises_agrees.
Print Assumptions drucker_prager_law.
Print Assumptions drucker_prager_cone.
Print Assumptions drucker_prager_shear.
Print Assumptions same_yield_stress_refuted.
Print Assumptions lou_is_von_mises.
Print Assumptions lou_is_drucker_prager.
Print Assumptions lou_agrees.
Print Assumptions yield_isotropic.
Print Assumptions normalised_sign.
Print Assumptions name_order.
Print Assumptions unknown_model.
Print Assumptions batch_values.
Print Assumptions unloaded_outside_refuted.
Print Assumptions unloaded_inside.
Print Assumptions von_mises_in_grid.
Print Assumptions grid_short_refuted.
Print Assumptions null_plane_refuted.
