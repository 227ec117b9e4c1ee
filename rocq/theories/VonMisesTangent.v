(** The consistent tangent of the von Mises material is the derivative of the
    stress update. *)
From Coq Require Import Reals List Arith Bool Lia Lra Psatz.
From Verif Require Import Lib MatrixModel MatrixSpec MatrixProps TensorModel TensorSpec TensorProofs TensorProps HardeningModel HardeningSpec
  HardeningProps ElasticModel ElasticSpec ElasticProofs VonMisesModel VonMisesSpec VonMisesProofs VonMisesProps.
Import ListNotations.
Local Open Scope R_scope.

(** ** Derivatives *)
Lemma dlim_eq f x l l' : derivable_pt_lim f x l -> l = l' -> derivable_pt_lim f x l'.
Proof. intros H <-. exact H. Qed.
Lemma dlim_local f g x l d : 0 < d -> (forall y, Rabs (y - x) < d -> f y = g y) ->
  derivable_pt_lim g x l -> derivable_pt_lim f x l.
Proof.
  intros Hd Q H eps He. destruct (H eps He) as (d1 & H1).
  assert (M : 0 < Rmin d d1) by (apply Rmin_pos; [auto|apply cond_pos]).
  exists (mkposreal _ M). intros h Hh Hl. simpl in Hl.
  pose proof (Rmin_l d d1). pose proof (Rmin_r d d1).
  rewrite (Q (x + h)) by (replace (x + h - x) with h by ring; lra).
  rewrite (Q x) by (replace (x - x) with 0 by ring; rewrite Rabs_R0; auto).
  apply H1; auto. lra.
Qed.
Lemma dlim_ext f g x l : (forall y, f y = g y) -> derivable_pt_lim g x l -> derivable_pt_lim f x l.
Proof. intros Q H. apply (dlim_local f g x l 1); auto. lra. Qed.

Lemma dlim_affine a b : derivable_pt_lim (fun s => a + s * b) 0 b.
Proof.
  intros eps He. exists (mkposreal 1 Rlt_0_1). intros h Hh _.
  replace ((a + (0 + h) * b - (a + 0 * b)) / h - b) with 0 by (field; auto). rewrite Rabs_R0. auto.
Qed.

(** Continuity: a positive quantity stays above a smaller one nearby. *)
Lemma dlim_near f x l c : derivable_pt_lim f x l -> c < f x -> exists d, 0 < d /\ forall y, Rabs (y - x) < d -> c < f y.
Proof.
  intros H L. assert (C : continuity_pt f x) by (apply derivable_continuous_pt; exists l; exact H).
  destruct (C (f x - c)) as (d & Hd & D); [lra|]. exists d. split; [exact Hd|].
  intros y Hy. destruct (Req_dec x y) as [->|N]; [exact L|].
  specialize (D y). unfold dist in D. simpl in D. unfold R_dist in D.
  assert (Rabs (f y - f x) < f x - c).
  { apply D. split; [|exact Hy]. unfold D_x, no_cond. auto. }
  apply Rabs_def2 in H0. lra.
Qed.

(** ** Trial quantities along a strain direction *)
Section Direction.
  Variables (E v : R) (p d : T2).
  Hypothesis (Sp : symmetric 3 p) (Sd : symmetric 3 d).
  Let G := lame_mu E v.
  Let et (s : R) : T2 := fun i j => p i j + s * d i j.
  Let u := deviator3 (sig_of E v p).
  Let w := deviator3 (sig_of E v d).
  Let n0 := tnorm u.
  Hypothesis N0 : 0 < n0.

  Lemma et_symmetric s : symmetric 3 (et s).
  Proof. intros i j Hi Hj. unfold et. rewrite (Sp i j), (Sd i j) by auto. reflexivity. Qed.
  Lemma sig_et s i j : sig_of E v (et s) i j = sig_of E v p i j + s * sig_of E v d i j.
  Proof. unfold sig_of, hooke, trace, et. simpl. ring. Qed.
  Lemma dev_et s i j : deviator3 (sig_of E v (et s)) i j = u i j + s * w i j.
  Proof. unfold u, w, deviator3, trace. simpl. rewrite !sig_et. field. Qed.
  Lemma et_0 i j : et 0 i j = p i j.
  Proof. unfold et. ring. Qed.

  Lemma norm_et s : tnorm (deviator3 (sig_of E v (et s)))
    = sqrt (ddot 3 u u + s * (2 * ddot 3 u w + s * ddot 3 w w)).
  Proof.
    unfold tnorm. f_equal.
    rewrite (ddot_ext _ _ (fun i j => u i j + s * w i j) (fun i j => u i j + s * w i j))
      by (intros i j _ _; apply dev_et).
    unfold ddot, sum2. simpl. ring.
  Qed.

  Let nrm (s : R) : R := tnorm (deviator3 (sig_of E v (et s))).
  Lemma nrm_0 : nrm 0 = n0.
  Proof. unfold nrm, n0. rewrite norm_et. unfold tnorm. f_equal. ring. Qed.

  Lemma nrm_deriv : derivable_pt_lim nrm 0 (ddot 3 u w / n0).
  Proof.
    apply (dlim_ext _ (fun s => sqrt (ddot 3 u u + s * (2 * ddot 3 u w + s * ddot 3 w w)))).
    { intros s. apply norm_et. }
    assert (Q : derivable_pt_lim (fun s => ddot 3 u u + s * (2 * ddot 3 u w + s * ddot 3 w w)) 0 (2 * ddot 3 u w)).
    { eapply dlim_eq.
      - apply (derivable_pt_lim_plus (fun _ => ddot 3 u u) (fun s => s * (2 * ddot 3 u w + s * ddot 3 w w))).
        + apply derivable_pt_lim_const.
        + apply (derivable_pt_lim_mult (fun s => s) (fun s => 2 * ddot 3 u w + s * ddot 3 w w)).
          * apply derivable_pt_lim_id.
          * apply dlim_affine.
      - ring. }
    assert (P : 0 < ddot 3 u u + 0 * (2 * ddot 3 u w + 0 * ddot 3 w w)).
    { replace (ddot 3 u u + 0 * (2 * ddot 3 u w + 0 * ddot 3 w w)) with (ddot 3 u u) by ring.
      rewrite <- tnorm_sq. fold n0. nra. }
    eapply dlim_eq.
    - apply (derivable_pt_lim_comp (fun s => ddot 3 u u + s * (2 * ddot 3 u w + s * ddot 3 w w)) sqrt 0 _
        (/ (2 * sqrt (ddot 3 u u + 0 * (2 * ddot 3 u w + 0 * ddot 3 w w)))) Q).
      apply derivable_pt_lim_sqrt. exact P.
    - replace (ddot 3 u u + 0 * (2 * ddot 3 u w + 0 * ddot 3 w w)) with (ddot 3 u u) by ring.
      fold (tnorm u). fold n0. field. lra.
  Qed.

  (** Von Mises trial stress along the direction. *)
  Let vm (s : R) : R := vmises (sig_of E v (et s)).
  Lemma vm_deriv : derivable_pt_lim vm 0 (sqrt (3 / 2) * (ddot 3 u w / n0)).
  Proof.
    apply (dlim_ext _ (fun s => sqrt (3 / 2) * nrm s)).
    { intros s. apply vmises_norm. }
    apply derivable_pt_lim_scal, nrm_deriv.
  Qed.
  Lemma vm_0 : vm 0 = sqrt (3 / 2) * n0.
  Proof. unfold vm. rewrite vmises_norm. f_equal. apply nrm_0. Qed.

  (** The returned stress for a plastic multiplier [g s]. *)
  Definition returned (g : R -> R) (s : R) : T2 :=
    fun i j => sig_of E v (et s) i j
      - 2 * G * (g s * (sqrt (3 / 2) / nrm s * deviator3 (sig_of E v (et s)) i j)).

  Lemma returned_corrected g s i j : (i < 3)%nat -> (j < 3)%nat -> small < nrm s ->
    sig_of E v (corrected E v (et s) (g s)) i j = returned g s i j.
  Proof.
    intros Hi Hj N. unfold returned, corrected. fold (nrm s).
    set (D := deviator3 (sig_of E v (et s))).
    assert (T : D 0%nat 0%nat + D 1%nat 1%nat + D 2%nat 2%nat = 0).
    { pose proof (deviator_trace (sig_of E v (et s))) as T. unfold trace in T. simpl in T. fold D in T. lra. }
    assert (FF : flow_factor D = sqrt (3 / 2) / nrm s).
    { unfold flow_factor. fold (nrm s). unfold D. fold (nrm s). rewrite (proj2 (rltb_iff _ _) N). field. unfold small in N. lra. }
    rewrite FF. unfold sig_of at 1 2, hooke, trace. simpl. fold G.
    transitivity (lame_lambda E v * (et s 0%nat 0%nat + et s 1%nat 1%nat + et s 2%nat 2%nat
        - g s * (sqrt (3 / 2) / nrm s) * (D 0%nat 0%nat + D 1%nat 1%nat + D 2%nat 2%nat)) * ident i j
      + 2 * G * (et s i j - g s * (sqrt (3 / 2) / nrm s * D i j))); [ring|].
    rewrite T. ring.
  Qed.

  Lemma returned_deriv g g' i j : derivable_pt_lim g 0 g' ->
    derivable_pt_lim (fun s => returned g s i j) 0
      (sig_of E v d i j - 2 * G * sqrt (3 / 2) *
        (g' * (u i j / n0) + g 0 * (w i j / n0 - u i j * ddot 3 u w / (n0 * n0 * n0)))).
  Proof.
    intros Hg.
    apply (dlim_ext _ (fun s => (sig_of E v p i j + s * sig_of E v d i j)
       - 2 * G * sqrt (3 / 2) * (g s * ((u i j + s * w i j) / nrm s)))).
    { intros s. unfold returned. rewrite sig_et, dev_et. unfold Rdiv. ring. }
    assert (NN : nrm 0 <> 0) by (rewrite nrm_0; lra).
    eapply dlim_eq.
    - apply (derivable_pt_lim_minus (fun s => sig_of E v p i j + s * sig_of E v d i j)
        (fun s => 2 * G * sqrt (3 / 2) * (g s * ((u i j + s * w i j) / nrm s)))).
      + apply dlim_affine.
      + apply (derivable_pt_lim_scal (fun s => g s * ((u i j + s * w i j) / nrm s))).
        apply (derivable_pt_lim_mult g (fun s => (u i j + s * w i j) / nrm s)); [exact Hg|].
        apply (derivable_pt_lim_div (fun s => u i j + s * w i j) nrm); [apply dlim_affine|apply nrm_deriv|exact NN].
    - rewrite nrm_0. unfold Rsqr. field. lra.
  Qed.

  (** ** The tangent applied to the direction *)
  Lemma tangent_apply x H t4 flow_t i j : (i < 3)%nat -> (j < 3)%nat -> small < n0 -> G <> 0 ->
    vm_tangent E v G (vmises (sig_of E v p)) flow_t (OPlastic x (Fin H)) = Some t4 ->
    eq2 3 flow_t (fun i j => flow_factor u * u i j) ->
    ddot42 3 t4 d i j = sig_of E v d i j - 2 * G * sqrt (3 / 2) *
        (sqrt (3 / 2) * (ddot 3 u w / n0) / (3 * G + H) * (u i j / n0)
         + x * (w i j / n0 - u i j * ddot 3 u w / (n0 * n0 * n0))).
  Proof.
    intros Hi Hj NS GN ET QF. injection ET as <-. rewrite vmises_norm. fold u n0.
    assert (FF : flow_factor u = sqrt (3 / 2) / n0).
    { unfold flow_factor. fold n0. rewrite (proj2 (rltb_iff _ _) NS). field. lra. }
    rewrite FF in QF.
    set (f1 := x * 6 * G ^ 2 / (sqrt (3 / 2) * n0)).
    set (f2 := 6 * G ^ 2 * (x / (sqrt (3 / 2) * n0) - 1 / (3 * G + H))).
    destruct (id_operators_apply 3 d) as (_ & _ & IS & IT).
    destruct (dev_projection_3d_partial d) as (_ & PD & _).
    assert (SY : symp d i j = d i j) by (unfold symp; rewrite (Sd i j) by auto; field).
    assert (A1 : ddot42 3 (iso_tangent E v) d i j = sig_of E v d i j).
    { transitivity (lame_lambda E v * ddot42_1 3 fodiagtrace d i j + 2 * lame_mu E v * ddot42_1 3 (fosym 3) d i j).
      { unfold ddot42, ddot42_1, sum2, iso_tangent. cbn [rsum]. ring. }
      rewrite IS, IT by auto. rewrite SY. unfold sig_of, hooke. ring. }
    assert (A2 : 2 * G * ddot42_1 3 (fodevprojsym 3) d i j = w i j).
    { rewrite PD by auto. unfold w, sig_of. rewrite deviator_hooke by auto. fold G.
      unfold deviator3. rewrite SY. unfold trace, symp. simpl. field. }
    assert (A3 : ddot 3 u w = 2 * G * ddot 3 u d).
    { rewrite (ddot_ext u w u (fun i j => 2 * G * deviator3 d i j)).
      - assert (T : trace 3 u = 0) by apply deviator_trace. unfold trace in T. simpl in T.
        unfold ddot, sum2, deviator3, trace, ident. simpl.
        replace (u 2%nat 2%nat) with (- u 0%nat 0%nat - u 1%nat 1%nat) by lra. field.
      - intros a b _ _. reflexivity.
      - apply deviator_hooke. }
    set (un := sqrt (2 / 3) * (sqrt (3 / 2) / n0)).
    transitivity (ddot42 3 (iso_tangent E v) d i j - f1 * ddot42_1 3 (fodevprojsym 3) d i j
       + f2 * (un * u i j * (un * ddot 3 u d))).
    { transitivity (ddot42 3 (iso_tangent E v) d i j - f1 * ddot42_1 3 (fodevprojsym 3) d i j
         + f2 * (sqrt (2 / 3) * flow_t i j * (sqrt (2 / 3) * ddot 3 flow_t d))).
      { change (ddot42 3 (fun i j k l => iso_tangent E v i j k l - f1 * fodevprojsym 3 i j k l
           + f2 * (sqrt (2 / 3) * flow_t i j * (sqrt (2 / 3) * flow_t k l))) d i j =
           ddot42 3 (iso_tangent E v) d i j - f1 * ddot42_1 3 (fodevprojsym 3) d i j
           + f2 * (sqrt (2 / 3) * flow_t i j * (sqrt (2 / 3) * ddot 3 flow_t d))).
        generalize f1 f2. intros g1 g2. generalize (iso_tangent E v) (fodevprojsym 3). intros t1 t2.
        unfold ddot42, ddot42_1, ddot, sum2. cbn [rsum]. ring. }
      rewrite (QF i j) by auto.
      rewrite (ddot_ext flow_t d (fun i j => sqrt (3 / 2) / n0 * u i j) d QF) by (intros a b _ _; reflexivity).
      rewrite ddot_scal. unfold un. ring. }
    rewrite A1.
    assert (UN : un = / n0).
    { unfold un. transitivity (sqrt (2/3) * sqrt (3/2) / n0); [field; lra|]. rewrite sqrt23_32. field. lra. }
    rewrite UN. replace (ddot42_1 3 (fodevprojsym 3) d i j) with (w i j / (2 * G)) by (rewrite <- A2; field; auto).
    replace (ddot 3 u d) with (ddot 3 u w / (2 * G)) by (rewrite A3; field; auto).
    pose proof sqrt32_pos as SP. pose proof sqrt32_sq as SQ.
    unfold f1, f2. generalize (ddot 3 u w) as q. intros q.
    generalize (u i j) (w i j) (sig_of E v d i j). intros a b c.
    set (k := sqrt (3 / 2)) in *.
    assert (IK : / k = 2 / 3 * k) by (apply (Rmult_eq_reg_l k); [rewrite Rinv_r by lra; lra|lra]).
    assert (HH : 1 / (3 * G + H) = / (3 * G + H)) by (unfold Rdiv; ring). rewrite HH.
    set (ih := / (3 * G + H)).
    transitivity (c - x * 6 * G ^ 2 * (/ k * / n0) * (b * (/ 2 * / G))
       + 6 * G ^ 2 * (x * (/ k * / n0) - ih) * (/ n0 * a * (/ n0 * (q * (/ 2 * / G))))).
    { rewrite <- !Rinv_mult. unfold Rdiv. reflexivity. }
    rewrite IK.
    transitivity (c - 2 * G * k * (x * (b * / n0)) + 2 * G * k * (x * (/ n0 * a * (/ n0 * (q * / n0))))
       - 3 * G * ih * (/ n0 * a * (/ n0 * q))).
    { field. split; [lra|exact GN]. }
    transitivity (c - 2 * G * k * (x * (b * / n0)) + 2 * G * k * (x * (/ n0 * a * (/ n0 * (q * / n0))))
       - 2 * G * (k * k) * ih * (/ n0 * a * (/ n0 * q))); [rewrite SQ; field; lra|].
    unfold Rdiv. fold ih. rewrite !Rinv_mult. ring.
  Qed.

  (** ** General statement: the tangent differentiates the exact return mapping.
      Partial: for a nonlinear hardening law the code's Newton loop stops within
      a relative tolerance of the exact solution assumed here; with linear
      hardening it reaches it ([linear_tangent_is_derivative]). *)
  Theorem tangent_of_exact_return_partial (y : R -> R) (H acc : R) (g : R -> R) (g' : R) t4 flow_t r i j :
    (i < 3)%nat -> (j < 3)%nat -> small < n0 -> G <> 0 -> 3 * G + H <> 0 -> 0 < r ->
    derivable_pt_lim g 0 g' -> derivable_pt_lim y (acc + g 0) H ->
    (forall s, Rabs s < r -> vm s - 3 * G * g s - y (acc + g s) = 0) ->
    vm_tangent E v G (vmises (sig_of E v p)) flow_t (OPlastic (g 0) (Fin H)) = Some t4 ->
    eq2 3 flow_t (fun i j => flow_factor u * u i j) ->
    derivable_pt_lim (fun s => returned g s i j) 0 (ddot42 3 t4 d i j).
  Proof.
    intros Hi Hj NS GN HN RP Dg Dy EQ ET QF.
    rewrite (tangent_apply (g 0) H t4 flow_t i j Hi Hj NS GN ET QF).
    replace (sqrt (3 / 2) * (ddot 3 u w / n0) / (3 * G + H)) with g'; [apply returned_deriv; exact Dg|].
    assert (D1 : derivable_pt_lim (fun s => vm s - 3 * G * g s - y (acc + g s)) 0
       (sqrt (3 / 2) * (ddot 3 u w / n0) - 3 * G * g' - H * (0 + g'))).
    { apply (derivable_pt_lim_minus (fun s => vm s - 3 * G * g s) (fun s => y (acc + g s))).
      - apply (derivable_pt_lim_minus vm (fun s => 3 * G * g s)); [apply vm_deriv|].
        apply derivable_pt_lim_scal. exact Dg.
      - apply (derivable_pt_lim_comp (fun s => acc + g s) y 0 (0 + g') H); [|exact Dy].
        apply (derivable_pt_lim_plus (fun _ => acc) g); [apply derivable_pt_lim_const|exact Dg]. }
    assert (D2 : derivable_pt_lim (fun s => vm s - 3 * G * g s - y (acc + g s)) 0 0).
    { apply (dlim_local _ (fun _ => 0) 0 0 r RP); [|apply derivable_pt_lim_const].
      intros s Hs. apply EQ. rewrite Rminus_0_r in Hs. exact Hs. }
    pose proof (uniqueness_limite _ _ _ _ D1 D2) as U.
    apply (Rmult_eq_reg_r (3 * G + H)); [|exact HN].
    replace (sqrt (3 / 2) * (ddot 3 u w / n0) / (3 * G + H) * (3 * G + H)) with (sqrt (3 / 2) * (ddot 3 u w / n0))
      by (field; split; [lra|exact HN]). lra.
  Qed.
End Direction.

(** ** Matricial form *)
Lemma dotl6 r v : length r = 6%nat -> length v = 6%nat ->
  dotl r v = lsum (map (fun p => fst p * snd p) (combine r v)).
Proof.
  intros H1 H2. destruct r as [|r0 [|r1 [|r2 [|r3 [|r4 [|r5 [|? r]]]]]]]; try discriminate.
  destruct v as [|v0 [|v1 [|v2 [|v3 [|v4 [|v5 [|? v]]]]]]]; try discriminate.
  unfold dotl. cbn. ring.
Qed.
Lemma mv_mf4 t m d : minor_symmetric 3 t -> symmetric 3 d ->
  vget_tensor_mf4 t 3 order_sym_3d true = Ok m -> mv m (kmf d) = kmf (ddot42 3 t d).
Proof.
  intros MS Sd H.
  destruct (mf4_matvec_sym 3 order_sym_3d t d order_sym_3d_ok MS Sd) as (mc & ma & mr & E1 & E2 & E3 & E4).
  rewrite get_mf4_vectorised in E1 by (apply order_sym_3d_ok).
  rewrite get_mf2_vectorised in E2, E3 by (apply order_sym_3d_ok).
  rewrite mf2_3d in E2, E3. rewrite H in E1. inversion E1; inversion E2; inversion E3; subst.
  rewrite H3. unfold mv, matvec. apply map_ext_in. intros r Hr. symmetry. apply dotl6; [|reflexivity].
  unfold vget_tensor_mf4 in H.
  replace (kelvin_flag 3 order_sym_3d true) with (Ok true) in H by reflexivity.
  cbn [rbind] in H. injection H as <-. cbn [In] in Hr.
  repeat (destruct Hr as [<-|Hr]; [reflexivity|]). contradiction.
Qed.

Lemma fosym_minor : minor_symmetric 3 (fosym 3).
Proof.
  intros i j k l Hi Hj Hk Hl. unfold fosym. rewrite !foid_eq, !fotransp_eq by auto.
  split; ring.
Qed.
Lemma fodiagtrace_minor : minor_symmetric 3 fodiagtrace.
Proof.
  intros i j k l Hi Hj Hk Hl. unfold fodiagtrace, dyad22_1, soid.
  rewrite (Nat.eqb_sym j i), (Nat.eqb_sym l k). auto.
Qed.
Lemma tangent_minor E v G vm flow_t o t4 : symmetric 3 flow_t ->
  vm_tangent E v G vm flow_t o = Some t4 -> minor_symmetric 3 t4.
Proof.
  intros S H i j k l Hi Hj Hk Hl.
  destruct (fosym_minor i j k l Hi Hj Hk Hl) as [A1 A2].
  destruct (fodiagtrace_minor i j k l Hi Hj Hk Hl) as [B1 B2].
  pose proof (S i j Hi Hj) as C1. pose proof (S k l Hk Hl) as C2.
  destruct o as [|x Hs|]; cbn [vm_tangent] in H; [| |discriminate]; injection H as <-;
    unfold iso_tangent, fodevprojsym, dyad22_1.
  - rewrite <- A1, <- A2, <- B1, <- B2. auto.
  - rewrite <- A1, <- A2, <- B1, <- B2, <- C1, <- C2. auto.
Qed.

(** ** The update of the code *)
(** Stress after an update, as a function of the strain increment. *)
Definition stress_after (pt : nat) (E v : R) (hl : hlaw) (st : vm_state) (inc : T2) : list R :=
  match vm_state_update pt E v hl inc st with
  | Ok (st', _) => match vs_stress st' with Some s => s | None => [] end
  | Err _ => []
  end.

(** [m], a matrix in Kelvin form, is the derivative of [stress] at [inc]: the
    directional derivative of every component along every symmetric direction. *)
Definition is_tangent (stress : T2 -> list R) (inc : T2) (m : list (list R)) : Prop :=
  forall d, symmetric 3 d -> forall k, (k < 6)%nat ->
    derivable_pt_lim (fun s => nth k (stress (fun i j => inc i j + s * d i j)) 0) 0 (nth k (mv m (kmf d)) 0).

Lemma kmf_deriv (f : R -> T2) (f' : T2) : (forall i j, (i < 3)%nat -> (j < 3)%nat ->
    derivable_pt_lim (fun s => f s i j) 0 (f' i j)) ->
  forall k, (k < 6)%nat -> derivable_pt_lim (fun s => nth k (kmf (f s)) 0) 0 (nth k (kmf f') 0).
Proof.
  intros H k Hk. destruct k as [|[|[|[|[|[|k]]]]]]; try lia; unfold kmf; cbn [nth];
    try (apply derivable_pt_lim_scal); apply H; lia.
Qed.

(** The same at the level of the three-dimensional core. *)
Definition core_stress (E v : R) (hl : hlaw) (a : R) (q : T2) : list R :=
  match vm_core E v hl (Some (kmf q)) (Some a) with
  | Ok c => match vc_stress c with Some s => s | None => [] end
  | Err _ => []
  end.
Definition core_tangent (E v : R) (hl : hlaw) (a : R) (p : T2) (plast : bool) : Prop :=
  exists c m, vm_core E v hl (Some (kmf p)) (Some a) = Ok c /\ vc_tangent c = Some m /\
    is_plastic (vc_outcome c) = plast /\ length m = 6%nat /\ (forall r, In r m -> length r = 6%nat) /\
    is_tangent (core_stress E v hl a) p m.

Lemma core_stress_ext E v hl a p q : eq2 3 p q -> core_stress E v hl a p = core_stress E v hl a q.
Proof. intros H. unfold core_stress. rewrite (kmf_ext _ _ H). reflexivity. Qed.

Lemma mf4_rows t m : vget_tensor_mf4 t 3 order_sym_3d true = Ok m ->
  length m = 6%nat /\ forall r, In r m -> length r = 6%nat.
Proof.
  intros H. unfold vget_tensor_mf4 in H.
  replace (kelvin_flag 3 order_sym_3d true) with (Ok true) in H by reflexivity.
  cbn [rbind] in H. injection H as <-. split; [reflexivity|]. intros r Hr. cbn [In] in Hr.
  repeat (destruct Hr as [<-|Hr]; [reflexivity|]). contradiction.
Qed.

(** Elastic range: strictly inside the yield surface the tangent is the
    elasticity matrix, and it is the derivative. *)
Lemma elastic_core_tangent E v hl a p y H : symmetric 3 p -> hl a = Some (y, H) -> 0 < y ->
  vmises (hooke (lame_lambda E v) (lame_mu E v) p) < y * (1 + su_conv_tol) -> core_tangent E v hl a p false.
Proof.
  intros Sp HY YP V.
  assert (TP : 0 < su_conv_tol) by (unfold su_conv_tol; lra).
  assert (EL : forall q, symmetric 3 q -> vmises (sig_of E v q) < y * (1 + su_conv_tol) ->
    exists c, vm_core E v hl (Some (kmf q)) (Some a) = Ok c /\ vc_outcome c = OElastic /\
      vc_stress c = Some (kmf (sig_of E v q)) /\
      vc_tangent c = Some (iso_mf (lame_lambda E v) (2 * lame_mu E v))).
  { intros q Sq Vq. destruct (core_3d E v hl q a Sq) as (c & EC & O & D). exists c. split; [exact EC|].
    assert (O' : vc_outcome c = OElastic).
    { rewrite O. unfold return_mapping. rewrite HY. unfold quot_le. destruct (Req_EM_T y 0); [lra|].
      replace (rleb _ _) with true; [reflexivity|]. symmetry. apply rleb_iff.
      apply (Rmult_le_reg_r y); [exact YP|]. unfold Rdiv. rewrite Rmult_assoc, Rinv_l by auto. lra. }
    rewrite O' in D. destruct D as (_ & D2 & _ & D4). auto. }
  destruct (EL p Sp V) as (c & EC & O & _ & TM).
  eexists c, _. split; [exact EC|]. split; [exact TM|]. split; [rewrite O; reflexivity|].
  split; [reflexivity|]. split; [intros r Hr; apply (proj2 (mf4_rows _ _ (iso_tangent_mf E v)) r Hr)|].
  intros d Sd k Hk. rewrite hooke_kmf.
  set (et := fun (s : R) i j => p i j + s * d i j).
  set (u := deviator3 (sig_of E v p)). set (w := deviator3 (sig_of E v d)).
  assert (NV : forall s, vmises (sig_of E v (et s))
    = sqrt (3/2) * sqrt (ddot 3 u u + s * (2 * ddot 3 u w + s * ddot 3 w w))).
  { intros s. rewrite vmises_norm. f_equal. apply (norm_et E v p d s). }
  set (f := fun s => - (3 / 2 * (ddot 3 u u + s * (2 * ddot 3 u w + s * ddot 3 w w)))).
  assert (SQ : forall s, f s = - (vmises (sig_of E v (et s)) * vmises (sig_of E v (et s)))).
  { intros s. rewrite NV. unfold f.
    assert (0 <= ddot 3 u u + s * (2 * ddot 3 u w + s * ddot 3 w w)).
    { replace (ddot 3 u u + s * (2 * ddot 3 u w + s * ddot 3 w w))
        with (ddot 3 (fun i j => u i j + s * w i j) (fun i j => u i j + s * w i j)).
      - apply ddot_nonneg.
      - unfold ddot, sum2. simpl. ring. }
    set (q := ddot 3 u u + s * (2 * ddot 3 u w + s * ddot 3 w w)) in *.
    transitivity (- ((sqrt (3/2) * sqrt (3/2)) * (sqrt q * sqrt q))); [|ring].
    rewrite sqrt32_sq, sqrt_sqrt by auto. reflexivity. }
  assert (Df : exists l, derivable_pt_lim f 0 l).
  { eexists. unfold f. apply derivable_pt_lim_opp, derivable_pt_lim_scal.
    apply (derivable_pt_lim_plus (fun _ => ddot 3 u u) (fun s => s * (2 * ddot 3 u w + s * ddot 3 w w))).
    + apply derivable_pt_lim_const.
    + apply (derivable_pt_lim_mult (fun s => s) (fun s => 2 * ddot 3 u w + s * ddot 3 w w)).
      * apply derivable_pt_lim_id.
      * apply dlim_affine. }
  destruct Df as (l & Df). set (cc := y * (1 + su_conv_tol)) in *.
  assert (CP : 0 < cc) by (unfold cc; nra).
  assert (E0 : forall i j, et 0 i j = p i j) by (intros; unfold et; ring).
  assert (V0 : vmises (sig_of E v (et 0)) = vmises (sig_of E v p)).
  { unfold vmises. f_equal. f_equal. apply ddot_ext; intros i j _ _;
      unfold deviator3, sig_of, hooke, trace; simpl; rewrite !E0; reflexivity. }
  destruct (dlim_near f 0 l (- (cc * cc)) Df) as (r & RP & RN).
  { rewrite SQ, V0. pose proof (vmises_nonneg (sig_of E v p)). unfold sig_of in *. nra. }
  apply (dlim_local _ (fun s => nth k (kmf (sig_of E v (et s))) 0) 0 _ r RP).
  { intros s Hs. specialize (RN s Hs). rewrite SQ in RN.
    assert (Vs : vmises (sig_of E v (et s)) < cc).
    { pose proof (vmises_nonneg (sig_of E v (et s))). nra. }
    pose proof (et_symmetric p d Sp Sd s) as Ss. fold (et s) in Ss.
    destruct (EL (et s) Ss Vs) as (cs & ECs & Os & ST & _).
    fold (et s). unfold core_stress. rewrite ECs, ST. reflexivity. }
  apply (kmf_deriv (fun s => sig_of E v (et s)) (sig_of E v d)); [|exact Hk]. intros i j Hi Hj.
  apply (dlim_ext _ (fun s => sig_of E v p i j + s * sig_of E v d i j)).
  { intros s. apply (sig_et E v p d s). }
  apply dlim_affine.
Qed.

(** Plastic range with linear hardening. *)
Lemma linear_core_tangent E v s0 h a p :
  0 < E -> -1 < v -> 2 * small <= s0 -> 0 <= h -> 0 <= a -> symmetric 3 p ->
  (s0 + h * a) * (1 + su_conv_tol) < vmises (hooke (lame_lambda E v) (lame_mu E v) p) ->
  core_tangent E v (linear_law s0 h) a p true.
Proof.
  intros HE Hv YM Hh HA Sp V.
  set (y0 := s0 + h * a) in *.
  pose proof (shear_positive E v HE Hv) as GP. set (G := lame_mu E v) in *.
  assert (SM : 0 < small) by (unfold small; lra).
  assert (TP : 0 < su_conv_tol) by (unfold su_conv_tol; lra).
  assert (Y0 : s0 <= y0) by (unfold y0; pose proof (Rmult_le_pos h a); lra).
  (* every plastic trial state *)
  assert (PL : forall q, symmetric 3 q -> y0 * (1 + su_conv_tol) < vmises (sig_of E v q) ->
    small < tnorm (deviator3 (sig_of E v q)) /\
    exists c, vm_core E v (linear_law s0 h) (Some (kmf q)) (Some a) = Ok c /\
      let x := (vmises (sig_of E v q) - y0) / (3 * G + h) in
      vc_outcome c = OPlastic x (Fin h) /\ vc_stress c = Some (kmf (sig_of E v (corrected E v q x))) /\
      exists m t4 flow_t, vc_tangent c = Some m /\ vget_tensor_mf4 t4 3 order_sym_3d true = Ok m /\
          vm_tangent E v G (vmises (sig_of E v q)) flow_t (OPlastic x (Fin h)) = Some t4 /\
          eq2 3 flow_t (fun i j => flow_factor (deviator3 (sig_of E v q)) * deviator3 (sig_of E v q) i j)).
  { intros q Sq Vq. split.
    { rewrite vmises_norm in Vq. pose proof sqrt32_pos. pose proof sqrt32_lt2. nra. }
    destruct (linear_update_exact E v s0 h q a HE Hv YM Hh HA Sq) as (c & EC & D). exists c. split; [exact EC|].
    fold G y0 in D. destruct D as [(L & _)|(_ & O & _)]; [lra|]. cbv zeta in *. split; [exact O|].
    destruct (core_3d E v (linear_law s0 h) q a Sq) as (c' & EC' & _ & D'). rewrite EC in EC'.
    injection EC' as <-. rewrite O in D'. destruct D' as (_ & D2 & _ & D4). split; [exact D2|]. exact D4. }
  destruct (PL p Sp V) as (NS & c & EC & O & _ & m & t4 & flow_t & TM & M4 & T4E & QF).
  destruct (mf4_rows _ _ M4) as (L1 & L2).
  exists c, m. split; [exact EC|]. split; [exact TM|]. split; [rewrite O; reflexivity|].
  split; [exact L1|]. split; [exact L2|].
  intros d Sd k Hk.
  assert (SF : symmetric 3 flow_t).
  { intros i j Hi Hj. rewrite !QF by auto. f_equal. apply (deviator_symmetric (sig_of E v p)); auto.
    apply hooke_symmetric. exact Sp. }
  rewrite (mv_mf4 t4 m d (tangent_minor _ _ _ _ _ _ _ SF T4E) Sd M4).
  set (et := fun (s : R) i j => p i j + s * d i j).
  set (g := fun s => (vmises (sig_of E v (et s)) - y0) / (3 * G + h)).
  assert (N0 : 0 < tnorm (deviator3 (sig_of E v p))) by lra.
  pose proof (vm_deriv E v p d N0) as VD. fold (et) in VD.
  assert (E0 : forall i j, et 0 i j = p i j) by (intros; unfold et; ring).
  assert (V0 : vmises (sig_of E v (et 0)) = vmises (sig_of E v p)).
  { unfold vmises. f_equal. f_equal. apply ddot_ext; intros i j _ _;
      unfold deviator3, sig_of, hooke, trace; simpl; rewrite !E0; reflexivity. }
  destruct (dlim_near (fun s => vmises (sig_of E v (et s))) 0 _ (y0 * (1 + su_conv_tol)) VD) as (r & RP & RN).
  { rewrite V0. exact V. }
  apply (dlim_local _ (fun s => nth k (kmf (returned E v p d g s)) 0) 0 _ r RP).
  { intros s Hs. specialize (RN s Hs).
    pose proof (et_symmetric p d Sp Sd s) as Ss. fold (et s) in Ss.
    destruct (PL (et s) Ss RN) as (NSs & cs & ECs & Os & ST & _).
    fold (et s). unfold core_stress. rewrite ECs, ST. f_equal. apply kmf_ext. intros i j Hi Hj.
    apply (returned_corrected E v p d g s i j Hi Hj NSs). }
  apply kmf_deriv; [|exact Hk]. intros i j Hi Hj.
  assert (HN : 3 * G + h <> 0) by lra.
  assert (G0 : g 0 = (vmises (sig_of E v p) - y0) / (3 * G + h)) by (unfold g; rewrite V0; reflexivity).
  apply (tangent_of_exact_return_partial E v p d Sd N0 (fun x => s0 + h * x) h a g
    (sqrt (3 / 2) * (ddot 3 (deviator3 (sig_of E v p)) (deviator3 (sig_of E v d)) / tnorm (deviator3 (sig_of E v p)))
       / (3 * G + h)) t4 flow_t 1 i j Hi Hj NS); auto.
  - fold G. lra.
  - lra.
  - unfold g, Rdiv. rewrite (Rmult_comm _ (/ (3 * G + h))).
    apply (dlim_ext _ (fun s => / (3 * G + h) * (vmises (sig_of E v (et s)) - y0))); [intros; ring|].
    apply derivable_pt_lim_scal. eapply dlim_eq.
    + apply (derivable_pt_lim_minus (fun s => vmises (sig_of E v (et s))) (fun _ => y0)); [exact VD|].
      apply derivable_pt_lim_const.
    + unfold Rdiv. ring.
  - eapply dlim_eq.
    + apply (derivable_pt_lim_plus (fun _ => s0) (fun x => h * x)); [apply derivable_pt_lim_const|].
      apply derivable_pt_lim_scal, derivable_pt_lim_id.
    + ring.
  - intros s _. fold G. change (vmises (sig_of E v (et s)) - 3 * G * g s - (s0 + h * (a + g s)) = 0).
    unfold g, y0. field. exact HN.
  - rewrite G0. exact T4E.
Qed.

(** ** Three dimensions *)
Lemma stress_after_3d E v hl st e eps a inc : vs_e st = Some (kmf e) -> vs_strain st = Some (kmf eps) ->
  vs_acc st = Some a -> stress_after 4 E v hl st inc = core_stress E v hl a (fun i j => e i j + inc i j).
Proof.
  intros E1 E2 E3. unfold stress_after, core_stress, vm_state_update.
  cbn [get_problem_type_parameters rbind Nat.eqb]. rewrite mf2_3d. cbn [rbind].
  rewrite E1, E2, E3. cbn [omap omap2]. rewrite kmf_add.
  destruct (vm_core E v hl _ _) as [c|x]; reflexivity.
Qed.
Lemma lift_3d E v hl st e eps a inc plast : vs_e st = Some (kmf e) -> vs_strain st = Some (kmf eps) ->
  vs_acc st = Some a -> core_tangent E v hl a (fun i j => e i j + inc i j) plast ->
  exists st' m, vm_state_update 4 E v hl inc st = Ok (st', Some m) /\ vs_plast st' = plast /\
    is_tangent (stress_after 4 E v hl st) inc m.
Proof.
  intros E1 E2 E3 (c & m & EC & TM & PL & _ & _ & T).
  unfold vm_state_update. cbn [get_problem_type_parameters rbind Nat.eqb]. rewrite mf2_3d. cbn [rbind].
  rewrite E1, E2, E3. cbn [omap omap2]. rewrite kmf_add, EC. cbn [rbind].
  eexists. exists m. split; [rewrite TM; reflexivity|]. split; [exact PL|].
  intros d Sd k Hk. eapply dlim_ext; [|apply (T d Sd k Hk)]. intros s. cbv beta.
  rewrite (stress_after_3d E v hl st e eps a _ E1 E2 E3). apply (f_equal (fun l => nth k l 0)). apply core_stress_ext.
  intros i j _ _. ring.
Qed.

Theorem elastic_tangent_is_derivative E v hl st e eps a inc y H :
  symmetric 3 e -> symmetric 3 inc ->
  vs_e st = Some (kmf e) -> vs_strain st = Some (kmf eps) -> vs_acc st = Some a ->
  hl a = Some (y, H) -> 0 < y ->
  vmises (hooke (lame_lambda E v) (lame_mu E v) (fun i j => e i j + inc i j)) < y * (1 + su_conv_tol) ->
  exists st' m, vm_state_update 4 E v hl inc st = Ok (st', Some m) /\ vs_plast st' = false /\
    is_tangent (stress_after 4 E v hl st) inc m.
Proof.
  intros Se Si E1 E2 E3 HY YP V. apply (lift_3d E v hl st e eps a); auto.
  apply (elastic_core_tangent E v hl a _ y H); auto.
  intros i j Hi Hj. rewrite (Se i j), (Si i j) by auto. auto.
Qed.

Theorem linear_tangent_is_derivative E v s0 h st e eps a inc :
  0 < E -> -1 < v -> 2 * small <= s0 -> 0 <= h -> 0 <= a -> symmetric 3 e -> symmetric 3 inc ->
  vs_e st = Some (kmf e) -> vs_strain st = Some (kmf eps) -> vs_acc st = Some a ->
  (s0 + h * a) * (1 + su_conv_tol) < vmises (hooke (lame_lambda E v) (lame_mu E v) (fun i j => e i j + inc i j)) ->
  exists st' m, vm_state_update 4 E v (linear_law s0 h) inc st = Ok (st', Some m) /\ vs_plast st' = true /\
    is_tangent (stress_after 4 E v (linear_law s0 h) st) inc m.
Proof.
  intros HE Hv YM Hh HA Se Si E1 E2 E3 V. apply (lift_3d E v (linear_law s0 h) st e eps a); auto.
  apply linear_core_tangent; auto.
  intros i j Hi Hj. rewrite (Se i j), (Si i j) by auto. auto.
Qed.

(** ** Plane strain *)
Definition is_tangent_2d (stress : T2 -> list R) (inc : T2) (m : list (list R)) : Prop :=
  forall d, symmetric 2 d -> forall k, (k < 3)%nat ->
    derivable_pt_lim (fun s => nth k (stress (fun i j => inc i j + s * d i j)) 0) 0 (nth k (mv m (kmf2 d)) 0).
Definition pick_k (k : nat) : nat := match k with O => 0 | 1 => 1 | _ => 3 end.

Lemma core_stress_shape E v hl a q : symmetric 3 q ->
  exists c, vm_core E v hl (Some (kmf q)) (Some a) = Ok c /\
    ((vc_stress c = None /\ vc_e c = None /\ vc_tangent c = None)
     \/ exists s e m, vc_stress c = Some (kmf s) /\ vc_e c = Some (kmf e) /\ vc_tangent c = Some m /\
          length m = 6%nat /\ core_stress E v hl a q = kmf s).
Proof.
  intros S. destruct (core_3d E v hl q a S) as (c & EC & _ & D). exists c. split; [exact EC|].
  unfold core_stress. rewrite EC. destruct (vc_outcome c).
  - destruct D as (D1 & D2 & _ & D4). right. rewrite D2. do 3 eexists. repeat (split; [eassumption || reflexivity|]).
    reflexivity.
  - destruct D as (D1 & D2 & _ & m & t4 & f & D4 & M & _). right. rewrite D2. do 3 eexists.
    split; [reflexivity|]. split; [eassumption|]. split; [eassumption|]. split; [apply (mf4_rows _ _ M)|reflexivity].
  - destruct D as (D1 & D2 & _ & D4). left. auto.
Qed.

Lemma embed_sym e z inc : symmetric 2 e -> symmetric 2 inc ->
  symmetric 3 (fun i j => embed e z i j + embed inc 0 i j).
Proof.
  intros Se Si i j Hi Hj. pose proof (Se 0 1 ltac:(lia) ltac:(lia))%nat as S1.
  pose proof (Si 0 1 ltac:(lia) ltac:(lia))%nat as S2. unfold embed.
  destruct i as [|[|[|i]]]; destruct j as [|[|[|j]]]; try lia; rewrite ?S1, ?S2; reflexivity.
Qed.

Lemma stress_after_2d E v hl st e z eps a inc k : symmetric 2 e -> symmetric 2 inc ->
  vs_e st = Some (kmf2 e) -> vs_e33 st = Some z -> vs_strain st = Some (kmf2 eps) ->
  vs_acc st = Some a -> (k < 3)%nat ->
  nth k (stress_after 1 E v hl st inc) 0
  = nth (pick_k k) (core_stress E v hl a (fun i j => embed e z i j + embed inc 0 i j)) 0.
Proof.
  intros Se Si E1 E1z E2 E3 Hk.
  destruct (core_stress_shape E v hl a _ (embed_sym e z inc Se Si)) as (c & EC & D).
  unfold stress_after, vm_state_update.
  cbn [get_problem_type_parameters rbind Nat.eqb]. rewrite mf2_2d. cbn [rbind].
  rewrite E1, E1z, E2, E3. cbn [omap omap2 lift_res]. unfold kmf2 at 1 2.
  rewrite !to3d. cbn [rbind lift_res omap]. rewrite !embed_kmf, kmf_add. rewrite EC. cbn [rbind].
  unfold kmf at 1. rewrite to2d. cbn [lift_res rbind].
  destruct D as [(D1 & D2 & D3)|(s & ee & m & D1 & D2 & D3 & L6 & CS)].
  - unfold core_stress. rewrite EC, D1, D2, D3. cbn [omap lift_res rbind omap2 vs_stress].
    destruct k as [|[|[|k]]]; try lia; reflexivity.
  - rewrite CS, D1, D2, D3. cbn [omap omap2]. unfold kmf at 1 2. rewrite !to2d. cbn [lift_res rbind].
    unfold vget_state_2Dmf_from_3Dmf_mat. rewrite L6. cbn [Nat.eqb pick_orders].
    replace (Nat.ltb 6 (length order_sym_3d)) with false by reflexivity. cbn [lift_res rbind vs_stress].
    destruct k as [|[|[|k]]]; try lia; reflexivity.
Qed.

Lemma lift_2d E v hl st e z eps a inc plast : symmetric 2 e -> symmetric 2 inc ->
  vs_e st = Some (kmf2 e) -> vs_e33 st = Some z -> vs_strain st = Some (kmf2 eps) -> vs_acc st = Some a ->
  core_tangent E v hl a (fun i j => embed e z i j + embed inc 0 i j) plast ->
  exists st' m, vm_state_update 1 E v hl inc st = Ok (st', Some m) /\ vs_plast st' = plast /\
    is_tangent_2d (stress_after 1 E v hl st) inc m.
Proof.
  intros Se Si E1 E1z E2 E3 (c & m & EC & TM & PL & L1 & L2 & T).
  destruct (core_stress_shape E v hl a _ (embed_sym e z inc Se Si)) as (c' & EC' & D).
  rewrite EC in EC'. injection EC' as <-.
  destruct D as [(_ & _ & D3)|(s & ee & m' & D1 & D2 & D3 & _ & CS)]; [congruence|].
  unfold vm_state_update.
  cbn [get_problem_type_parameters rbind Nat.eqb]. rewrite mf2_2d. cbn [rbind].
  rewrite E1, E1z, E2, E3. cbn [omap omap2 lift_res]. unfold kmf2 at 1 2.
  rewrite !to3d. cbn [rbind lift_res omap]. rewrite !embed_kmf, kmf_add. rewrite EC. cbn [rbind].
  unfold kmf at 1. rewrite to2d. cbn [lift_res rbind].
  rewrite D1, D2, TM. cbn [omap omap2]. unfold kmf at 1 2. rewrite !to2d. cbn [lift_res rbind].
  unfold vget_state_2Dmf_from_3Dmf_mat. rewrite L1. cbn [Nat.eqb pick_orders].
  replace (Nat.ltb 6 (length order_sym_3d)) with false by reflexivity. cbn [lift_res rbind].
  eexists. eexists. split; [reflexivity|]. split; [exact PL|].
  intros d Sd k Hk.
  assert (SdE : symmetric 3 (embed d 0)).
  { intros i j Hi Hj. pose proof (Sd 0 1 ltac:(lia) ltac:(lia))%nat as S1. unfold embed.
    destruct i as [|[|[|i]]]; destruct j as [|[|[|j]]]; try lia; rewrite ?S1; reflexivity. }
  assert (PK : (pick_k k < 6)%nat) by (destruct k as [|[|[|k]]]; cbn; lia).
  eapply dlim_eq.
  - eapply dlim_ext; [|apply (T _ SdE _ PK)]. intros t. cbv beta.
    rewrite (stress_after_2d E v hl st e z eps a _ k Se) by
      (auto; intros i j Hi Hj; rewrite (Si i j), (Sd i j) by auto; auto).
    apply (f_equal (fun l => nth (pick_k k) l 0)). apply core_stress_ext. intros i j Hi Hj. unfold embed.
    destruct i as [|[|[|i]]]; destruct j as [|[|[|j]]]; try lia; ring.
  - destruct m as [|r0 [|r1 [|r2 [|r3 [|r4 [|r5 [|? m]]]]]]]; try discriminate.
    assert (R0 := L2 r0 ltac:(cbn; auto)). assert (R1 := L2 r1 ltac:(cbn; auto)).
    assert (R3 := L2 r3 ltac:(cbn; auto)).
    destruct r0 as [|r00 [|r01 [|r02 [|r03 [|r04 [|r05 [|? r0]]]]]]]; try discriminate.
    destruct r1 as [|r10 [|r11 [|r12 [|r13 [|r14 [|r15 [|? r1]]]]]]]; try discriminate.
    destruct r3 as [|r30 [|r31 [|r32 [|r33 [|r34 [|r35 [|? r3]]]]]]]; try discriminate.
    destruct k as [|[|[|k]]]; try lia; cbn; ring.
Qed.

Theorem elastic_tangent_is_derivative_2d E v hl st e z eps a inc y H :
  symmetric 2 e -> symmetric 2 inc ->
  vs_e st = Some (kmf2 e) -> vs_e33 st = Some z -> vs_strain st = Some (kmf2 eps) -> vs_acc st = Some a ->
  hl a = Some (y, H) -> 0 < y ->
  vmises (hooke (lame_lambda E v) (lame_mu E v) (fun i j => embed e z i j + embed inc 0 i j)) < y * (1 + su_conv_tol) ->
  exists st' m, vm_state_update 1 E v hl inc st = Ok (st', Some m) /\ vs_plast st' = false /\
    is_tangent_2d (stress_after 1 E v hl st) inc m.
Proof.
  intros Se Si E1 E1z E2 E3 HY YP V. apply (lift_2d E v hl st e z eps a); auto.
  apply (elastic_core_tangent E v hl a _ y H); auto. apply embed_sym; auto.
Qed.

Theorem linear_tangent_is_derivative_2d E v s0 h st e z eps a inc :
  0 < E -> -1 < v -> 2 * small <= s0 -> 0 <= h -> 0 <= a -> symmetric 2 e -> symmetric 2 inc ->
  vs_e st = Some (kmf2 e) -> vs_e33 st = Some z -> vs_strain st = Some (kmf2 eps) -> vs_acc st = Some a ->
  (s0 + h * a) * (1 + su_conv_tol)
    < vmises (hooke (lame_lambda E v) (lame_mu E v) (fun i j => embed e z i j + embed inc 0 i j)) ->
  exists st' m, vm_state_update 1 E v (linear_law s0 h) inc st = Ok (st', Some m) /\ vs_plast st' = true /\
    is_tangent_2d (stress_after 1 E v (linear_law s0 h) st) inc m.
Proof.
  intros HE Hv YM Hh HA Se Si E1 E1z E2 E3 V. apply (lift_2d E v (linear_law s0 h) st e z eps a); auto.
  apply linear_core_tangent; auto. apply embed_sym; auto.
Qed.

(** ** Example: a virgin material in shear. *)
Example ex_tangent : exists st st' m, vm_state_init 4 = Ok st /\
  vm_state_update 4 2 0 (linear_law 1 2) (shear 1) st = Ok (st', Some m) /\ vs_plast st' = true /\
  is_tangent (stress_after 4 2 0 (linear_law 1 2) st) (shear 1) m.
Proof.
  unfold vm_state_init. cbn [get_problem_type_parameters rbind]. rewrite mf2_3d. cbn [rbind].
  eexists. assert (S0 : symmetric 3 zero2) by (intros i j _ _; reflexivity).
  assert (S3 : 1 < sqrt 3) by (rewrite <- sqrt_1 at 1; apply sqrt_lt_1; lra).
  destruct (linear_tangent_is_derivative 2 0 1 2
    (VState (Some (kmf zero2)) (Some (kmf zero2)) (Some (kmf zero2)) (Some 0) false false (Some 0) (Some 0))
    zero2 zero2 0 (shear 1)) as (st' & m & U & P & T); auto; try lra; [unfold small; lra|apply shear_symmetric| |].
  - replace (vmises _) with (vmises (sig_of 2 0 (shear 1))).
    + rewrite ex_shear_vm. unfold su_conv_tol. lra.
    + unfold vmises. f_equal. f_equal. apply ddot_ext; intros i j _ _;
        unfold deviator3, sig_of, hooke, trace, zero2; simpl; field.
  - exists st', m. auto.
Qed.
