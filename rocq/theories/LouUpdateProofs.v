(** Lemmas about the residuals and the Jacobian of the Lou return mapping. *)
From Coq Require Import Reals List Arith Bool Lia Lra Psatz.
From Verif Require Import Lib MatrixModel MatrixSpec MatrixProofs MatrixProps TensorModel TensorSpec TensorProofs TensorProps HardeningModel
  HardeningProps ElementProps ElasticModel ElasticSpec ElasticProofs VonMisesModel VonMisesSpec VonMisesProofs VonMisesTangent
  LouModel LouProps LouUpdateModel.
Import ListNotations.
Local Open Scope R_scope.

(** ** Contractions *)
Lemma c44_apply A B X i j : ddot42_1 3 (ddot44_1 3 A B) X i j = ddot42_1 3 A (ddot42_1 3 B X) i j.
Proof. unfold ddot42_1, ddot44_1. cbn [rsum]. ring. Qed.
Lemma c24_swap N T X : ddot22_1 3 (ddot24_1 3 N T) X = ddot22_1 3 N (ddot42_1 3 T X).
Proof. unfold ddot42_1, ddot24_1, ddot22_1. cbn [rsum]. ring. Qed.
Lemma c42_dyad A B X i j : ddot42_1 3 (dyad22_1 A B) X i j = A i j * ddot22_1 3 B X.
Proof. unfold ddot42_1, ddot22_1, dyad22_1. cbn [rsum]. ring. Qed.
Lemma c42_ext A X Y i j : eq2 3 X Y -> ddot42_1 3 A X i j = ddot42_1 3 A Y i j.
Proof. intros H. unfold ddot42_1. apply rsum_ext; intros k Hk. apply rsum_ext; intros l Hl. rewrite H; auto. Qed.
Lemma c22_ext A B X Y : eq2 3 A B -> eq2 3 X Y -> ddot22_1 3 A X = ddot22_1 3 B Y.
Proof. intros H1 H2. unfold ddot22_1. apply rsum_ext; intros k Hk. apply rsum_ext; intros l Hl. rewrite H1, H2; auto. Qed.

(** the deviatoric projection: minor and major symmetries *)
Lemma P_entries i j k l : (i < 3)%nat -> (j < 3)%nat -> (k < 3)%nat -> (l < 3)%nat ->
  fodevprojsym 3 i j k l = / 2 * (soid i k * soid j l + soid i l * soid j k) - 1 / 3 * (soid i j * soid k l).
Proof. intros. unfold fodevprojsym, fosym, fodiagtrace, dyad22_1. rewrite foid_eq, fotransp_eq by auto. reflexivity. Qed.
Lemma P_minor : minor_symmetric 3 (fodevprojsym 3).
Proof.
  intros i j k l Hi Hj Hk Hl. rewrite !P_entries by auto. rewrite (soid_sym j i), (soid_sym l k). split; ring.
Qed.
Lemma P_major i j k l : (i < 3)%nat -> (j < 3)%nat -> (k < 3)%nat -> (l < 3)%nat ->
  fodevprojsym 3 i j k l = fodevprojsym 3 k l i j.
Proof.
  intros. rewrite !P_entries by auto. rewrite (soid_sym k i), (soid_sym l j), (soid_sym k j), (soid_sym l i). ring.
Qed.
Lemma P_apply_dev a : symmetric 3 a -> eq2 3 (ddot42_1 3 (fodevprojsym 3) a) (deviator3 a).
Proof.
  intros S i j Hi Hj. rewrite (proj1 (proj2 (dev_projection_3d_partial a))) by auto.
  assert (E : eq2 3 (symp a) a) by (intros k l Hk Hl; unfold symp; rewrite (S l k) by auto; field).
  unfold deviator3, trace. cbn [rsum]. rewrite !E by lia. reflexivity.
Qed.
Lemma c24_P a : eq2 3 (ddot24_1 3 a (fodevprojsym 3)) (ddot42_1 3 (fodevprojsym 3) a).
Proof.
  intros i j Hi Hj. unfold ddot24_1, ddot42_1. apply rsum_ext; intros k Hk. apply rsum_ext; intros l Hl.
  rewrite (P_major i j k l) by auto. ring.
Qed.
Lemma c42_sym T X : minor_symmetric 3 T -> symmetric 3 (ddot42_1 3 T X).
Proof.
  intros M i j Hi Hj. unfold ddot42_1. apply rsum_ext; intros k Hk. apply rsum_ext; intros l Hl.
  rewrite (proj1 (M i j k l Hi Hj Hk Hl)). reflexivity.
Qed.

(** ** Derivatives along a curve *)
Definition tderiv (A : R -> T2) (dA : T2) : Prop :=
  forall i j, (i < 3)%nat -> (j < 3)%nat -> derivable_pt_lim (fun t => A t i j) 0 (dA i j).

Lemma deriv_c42 T A dA : tderiv A dA -> tderiv (fun t => ddot42_1 3 T (A t)) (ddot42_1 3 T dA).
Proof.
  intros H i j Hi Hj. unfold ddot42_1.
  apply (derivable_pt_lim_rsum 3 (fun k t => rsum 3 (fun l => T i j k l * A t k l)) (fun k => rsum 3 (fun l => T i j k l * dA k l))).
  intros k Hk. apply (derivable_pt_lim_rsum 3 (fun l t => T i j k l * A t k l) (fun l => T i j k l * dA k l)).
  intros l Hl. apply derivable_pt_lim_scal. apply H; auto.
Qed.
Lemma deriv_c22 A dA B dB : tderiv A dA -> tderiv B dB ->
  derivable_pt_lim (fun t => ddot22_1 3 (A t) (B t)) 0 (ddot22_1 3 dA (B 0) + ddot22_1 3 (A 0) dB).
Proof.
  intros HA HB. unfold ddot22_1. rewrite <- rsum_plus.
  apply (derivable_pt_lim_rsum 3 (fun k t => rsum 3 (fun l => A t k l * B t k l))
    (fun k => rsum 3 (fun l => dA k l * B 0 k l) + rsum 3 (fun l => A 0 k l * dB k l))).
  intros k Hk. rewrite <- rsum_plus.
  apply (derivable_pt_lim_rsum 3 (fun l t => A t k l * B t k l) (fun l => dA k l * B 0 k l + A 0 k l * dB k l)).
  intros l Hl. apply (derivable_pt_lim_mult (fun t => A t k l) (fun t => B t k l)); auto.
Qed.

Lemma deriv_det A dA : tderiv A dA ->
  derivable_pt_lim (fun t => tdet (A t)) 0 (rsum 3 (fun i => rsum 3 (fun j => tadj (A 0) j i * dA i j))).
Proof.
  intros H. unfold tdet.
  assert (D : forall i j, (i < 3)%nat -> (j < 3)%nat -> derivable_pt_lim (fun t => A t i j) 0 (dA i j)) by exact H.
  eapply dl_eq.
  - repeat first [apply dl_minus | apply dl_plus | apply dl_mult | apply dl_opp]; apply D; lia.
  - unfold tadj. cbn [rsum nxt]. ring.
Qed.
Lemma deriv_adj A dA i j : tderiv A dA -> (i < 3)%nat -> (j < 3)%nat -> exists d, derivable_pt_lim (fun t => tadj (A t) i j) 0 d.
Proof.
  intros H Hi Hj. unfold tadj. eexists.
  apply dl_minus; apply dl_mult; apply H; (destruct i as [|[|[|i]]], j as [|[|[|j]]]; cbn; lia).
Qed.

(** ** The inverse *)
Definition tinv (a : T2) : T2 := fun i j => tadj a i j / tdet a.
Lemma tinverse_ok a : tdet a <> 0 -> tinverse a = Ok (tinv a).
Proof. intros H. unfold tinverse. destruct (Req_EM_T (tdet a) 0); [contradiction|reflexivity]. Qed.
Lemma tinv_right a : tdet a <> 0 -> eq2 3 (mul2 3 a (tinv a)) ident.
Proof.
  intros H i j Hi Hj. unfold mul2, tinv. cbn [rsum].
  transitivity ((a i 0%nat * tadj a 0%nat j + a i 1%nat * tadj a 1%nat j + a i 2%nat * tadj a 2%nat j) / tdet a); [field; auto|].
  assert (E : a i 0%nat * tadj a 0%nat j + a i 1%nat * tadj a 1%nat j + a i 2%nat * tadj a 2%nat j = tdet a * ident i j).
  { unfold tadj, tdet, ident. destruct i as [|[|[|i]]], j as [|[|[|j]]]; try lia; cbn [nxt Nat.eqb]; ring. }
  rewrite E. field. auto.
Qed.
Lemma tinv_left a : tdet a <> 0 -> eq2 3 (mul2 3 (tinv a) a) ident.
Proof.
  intros H i j Hi Hj. unfold mul2, tinv. cbn [rsum].
  transitivity ((tadj a i 0%nat * a 0%nat j + tadj a i 1%nat * a 1%nat j + tadj a i 2%nat * a 2%nat j) / tdet a); [field; auto|].
  assert (E : tadj a i 0%nat * a 0%nat j + tadj a i 1%nat * a 1%nat j + tadj a i 2%nat * a 2%nat j = tdet a * ident i j).
  { unfold tadj, tdet, ident. destruct i as [|[|[|i]]], j as [|[|[|j]]]; try lia; cbn [nxt Nat.eqb]; ring. }
  rewrite E. field. auto.
Qed.
Lemma tadj_sym a : symmetric 3 a -> symmetric 3 (tadj a).
Proof.
  intros S. assert (H01 : a 1%nat 0%nat = a 0%nat 1%nat) by (apply S; lia).
  assert (H02 : a 2%nat 0%nat = a 0%nat 2%nat) by (apply S; lia). assert (H12 : a 2%nat 1%nat = a 1%nat 2%nat) by (apply S; lia).
  intros i j Hi Hj. unfold tadj. destruct i as [|[|[|i]]], j as [|[|[|j]]]; try lia; cbn [nxt]; rewrite ?H01, ?H02, ?H12; ring.
Qed.
Lemma tinv_sym a : symmetric 3 a -> symmetric 3 (tinv a).
Proof. intros S i j Hi Hj. unfold tinv. rewrite (tadj_sym a S i j) by auto. reflexivity. Qed.

Lemma dlim_near0 f l : derivable_pt_lim f 0 l -> f 0 <> 0 -> exists d, 0 < d /\ forall y, Rabs (y - 0) < d -> f y <> 0.
Proof.
  intros H N. destruct (Rtotal_order (f 0) 0) as [L|[L|L]]; [|contradiction|].
  - destruct (dlim_near (fun t => - f t) 0 (- l) 0) as (d & Hd & D); [apply dl_opp; auto|lra|].
    exists d. split; auto. intros y Hy. specialize (D y Hy). lra.
  - destruct (dlim_near f 0 l 0 H L) as (d & Hd & D). exists d. split; auto. intros y Hy. specialize (D y Hy). lra.
Qed.

Lemma deriv_inv A dA : tderiv A dA -> (forall t, symmetric 3 (A t)) -> tdet (A 0) <> 0 ->
  tderiv (fun t => tinv (A t)) (ddot42_1 3 (fo_dinv_sym (tinv (A 0))) dA).
Proof.
  intros HA SA N. pose proof (deriv_det A dA HA) as HD.
  destruct (dlim_near0 _ _ HD N) as (d & Hd & Near).
  set (A' := fun t => if Req_EM_T (tdet (A t)) 0 then ident else A t).
  set (B' := fun t => if Req_EM_T (tdet (A t)) 0 then ident else tinv (A t)).
  assert (EA : forall t, tdet (A t) <> 0 -> A' t = A t) by (intros t Ht; unfold A'; destruct (Req_EM_T _ _); [contradiction|auto]).
  assert (EB : forall t, tdet (A t) <> 0 -> B' t = tinv (A t)) by (intros t Ht; unfold B'; destruct (Req_EM_T _ _); [contradiction|auto]).
  assert (DI : forall i j, (i < 3)%nat -> (j < 3)%nat -> exists db, derivable_pt_lim (fun t => tinv (A t) i j) 0 db).
  { intros i j Hi Hj. destruct (deriv_adj A dA i j HA Hi Hj) as [da Ha]. eexists. unfold tinv.
    exact (derivable_pt_lim_div (fun t => tadj (A t) i j) (fun t => tdet (A t)) 0 _ _ Ha HD N). }
  assert (DB : exists dB : T2, tderiv (fun t => tinv (A t)) dB).
  { assert (Q : forall i j, exists db, (i < 3)%nat -> (j < 3)%nat -> derivable_pt_lim (fun t => tinv (A t) i j) 0 db).
    { intros i j. destruct (le_lt_dec 3 i); [exists 0; lia|]. destruct (le_lt_dec 3 j); [exists 0; lia|].
      destruct (DI i j) as [db H]; auto. exists db. auto. }
    destruct (Q 0 0)%nat as [b00 H00], (Q 0 1)%nat as [b01 H01], (Q 0 2)%nat as [b02 H02],
      (Q 1 0)%nat as [b10 H10], (Q 1 1)%nat as [b11 H11], (Q 1 2)%nat as [b12 H12],
      (Q 2 0)%nat as [b20 H20], (Q 2 1)%nat as [b21 H21], (Q 2 2)%nat as [b22 H22].
    exists (fun i j => match i, j with
      | 0, 0 => b00 | 0, 1 => b01 | 0, _ => b02
      | 1, 0 => b10 | 1, 1 => b11 | 1, _ => b12
      | _, 0 => b20 | _, 1 => b21 | _, _ => b22 end%nat).
    intros i j Hi Hj. destruct i as [|[|[|i]]], j as [|[|[|j]]]; try lia; auto. }
  destruct DB as [dB DB].
  assert (G : eq2 3 dB (ddot42_1 3 (fo_dinv_sym (B' 0)) dA)).
  { apply (fo_dinv_sym_is_derivative 3 A' B' dA dB 0).
    - intros t. unfold A', B'. destruct (Req_EM_T (tdet (A t)) 0); [apply mul2_ident_r|apply tinv_left; auto].
    - intros t. unfold A', B'. destruct (Req_EM_T (tdet (A t)) 0); [apply mul2_ident_r|apply tinv_right; auto].
    - intros t. unfold A'. destruct (Req_EM_T _ _); [|apply SA]. intros i j _ _. unfold ident. rewrite Nat.eqb_sym. auto.
    - intros t. unfold B'. destruct (Req_EM_T _ _); [|apply tinv_sym, SA]. intros i j _ _. unfold ident. rewrite Nat.eqb_sym. auto.
    - intros i j Hi Hj. apply (dlim_local (fun t => A' t i j) (fun t => A t i j) 0 _ d Hd); [|apply HA; auto].
      intros y Hy. rewrite EA; auto.
    - intros i j Hi Hj. apply (dlim_local (fun t => B' t i j) (fun t => tinv (A t) i j) 0 _ d Hd); [|apply DB; auto].
      intros y Hy. rewrite EB; auto. }
  rewrite (EB 0 N) in G. intros i j Hi Hj. rewrite <- G by auto. apply DB; auto.
Qed.

(** ** Derivatives of the scalar and tensor terms *)
Lemma dl_rpower f a c : derivable_pt_lim f 0 a -> 0 < f 0 ->
  derivable_pt_lim (fun t => Rpower (f t) c) 0 (c * Rpower (f 0) (c - 1) * a).
Proof.
  intros H P. pose proof (derivable_pt_lim_comp f (fun x => Rpower x c) 0 a _ H (derivable_pt_lim_power (f 0) c P)) as Q.
  exact Q.
Qed.
Lemma dl_inv f a : derivable_pt_lim f 0 a -> f 0 <> 0 -> derivable_pt_lim (fun t => / f t) 0 (- a / (f 0 * f 0)).
Proof.
  intros H N. pose proof (derivable_pt_lim_div (fun _ => 1) f 0 0 a (derivable_pt_lim_const 1 0) H N) as Q.
  eapply dlim_eq; [eapply dlim_ext; [|exact Q]|]; [intros y; unfold div_fct, Rdiv; ring|unfold Rsqr; field; auto].
Qed.

Lemma lin_c22 a b A B X : ddot22_1 3 (fun i j => a * A i j + b * B i j) X = a * ddot22_1 3 A X + b * ddot22_1 3 B X.
Proof. unfold ddot22_1. cbn [rsum]. ring. Qed.

Section Along.
  Variables (q : R -> lou_vals) (v : R -> invariants) (dv : R -> derivatives) (X : T2) (x : R).
  Hypothesis Hi1 : derivable_pt_lim (fun t => v_i1 (v t)) 0 (ddot22_1 3 soid X).
  Hypothesis Hj2 : derivable_pt_lim (fun t => v_j2 (v t)) 0 (ddot22_1 3 (d_j2 (dv 0)) X).
  Hypothesis Hj3 : derivable_pt_lim (fun t => v_j3 (v t)) 0 (ddot22_1 3 (d_j3 (dv 0)) X).
  Hypothesis Hdi1 : forall t, d_i1 (dv t) = soid.
  Hypothesis Hdj2 : tderiv (fun t => d_j2 (dv t)) (ddot42_1 3 (d2_j2 (dv 0)) X).
  Hypothesis Hdj3 : tderiv (fun t => d_j3 (dv t)) (ddot42_1 3 (d2_j3 (dv 0)) X).
  Hypothesis Ha : derivable_pt_lim (fun t => q_a (q t)) 0 (q_ah (q 0) * x).
  Hypothesis Hb : derivable_pt_lim (fun t => q_b (q t)) 0 (q_bh (q 0) * x).
  Hypothesis Hc : derivable_pt_lim (fun t => q_c (q t)) 0 (q_ch (q 0) * x).
  Hypothesis Hd : derivable_pt_lim (fun t => q_d (q t)) 0 (q_dh (q 0) * x).
  Hypothesis P4 : 0 < w4 (q 0) (v 0).
  Hypothesis P5 : 0 < w5 (q 0) (v 0).

  Lemma dl_pow3 f a : derivable_pt_lim f 0 a -> derivable_pt_lim (fun t => f t ^ 3) 0 (3 * f 0 ^ 2 * a).
  Proof.
    intros H. eapply dlim_eq; [eapply dlim_ext; [|apply (dl_mult f (fun t => f t ^ 2) 0 _ _ H (dl_pow2 f 0 a H))]|].
    - intros y. cbn. ring.
    - ring.
  Qed.
  Lemma con_dw4 : ddot22_1 3 (dw4 (q 0) (v 0) (dv 0)) X =
    3 * v_j2 (v 0) ^ 2 * ddot22_1 3 (d_j2 (dv 0)) X - 2 * q_c (q 0) * v_j3 (v 0) * ddot22_1 3 (d_j3 (dv 0)) X.
  Proof. unfold dw4, dw2, ddot22_1. cbn [rsum]. ring. Qed.
  Lemma con_dw5 : ddot22_1 3 (dw5 (q 0) (v 0) (dv 0)) X =
    1/2 * Rpower (w4 (q 0) (v 0)) (-1/2) * ddot22_1 3 (dw4 (q 0) (v 0) (dv 0)) X - q_d (q 0) * ddot22_1 3 (d_j3 (dv 0)) X.
  Proof. unfold dw5, dw3. set (z := Rpower _ _). set (D := dw4 _ _ _). unfold ddot22_1. cbn [rsum]. ring. Qed.
  Lemma dl_w4 : derivable_pt_lim (fun t => w4 (q t) (v t)) 0 (ddot22_1 3 (dw4 (q 0) (v 0) (dv 0)) X + dw4_acc (q 0) (v 0) * x).
  Proof.
    rewrite con_dw4. unfold w4, w2, dw4_acc, dw2_acc.
    eapply dl_eq; [apply dl_minus; [apply dl_pow3; exact Hj2|apply dl_mult; [exact Hc|apply dl_pow2; exact Hj3]]|].
    cbv beta. ring.
  Qed.
  Lemma dl_w5 : derivable_pt_lim (fun t => w5 (q t) (v t)) 0 (ddot22_1 3 (dw5 (q 0) (v 0) (dv 0)) X + dw5_acc (q 0) (v 0) * x).
  Proof.
    rewrite con_dw5. unfold w5, dw5_acc. unfold w3, dw3_acc.
    eapply dl_eq; [apply dl_minus; [apply dl_rpower; [exact dl_w4|exact P4]|apply dl_mult; [exact Hd|exact Hj3]]|].
    cbv beta. replace (1 / 2 - 1) with (-1/2) by lra. ring.
  Qed.
  Lemma dl_eff : derivable_pt_lim (fun t => eff_stress (q t) (v t)) 0
    (ddot22_1 3 (flow (q 0) (v 0) (dv 0)) X + deff_dacc (q 0) (v 0) * x).
  Proof.
    assert (E : ddot22_1 3 (flow (q 0) (v 0) (dv 0)) X = q_a (q 0) * (q_b (q 0) * ddot22_1 3 soid X +
      1/3 * Rpower (w5 (q 0) (v 0)) (-2/3) * ddot22_1 3 (dw5 (q 0) (v 0) (dv 0)) X)).
    { unfold flow, dw1. rewrite Hdi1. set (z := Rpower _ _). set (D := dw5 _ _ _). unfold ddot22_1. cbn [rsum]. ring. }
    rewrite E. unfold eff_stress, deff_dacc. unfold w1, dw1_acc.
    eapply dl_eq; [apply dl_mult; [exact Ha|apply dl_plus; [apply dl_mult; [exact Hb|exact Hi1]|
      apply dl_rpower; [exact dl_w5|exact P5]]]|].
    cbv beta. replace (1 / 3 - 1) with (-2/3) by lra. ring.
  Qed.

  Lemma dl_dw4 : tderiv (fun t => dw4 (q t) (v t) (dv t))
    (fun i j => ddot42_1 3 (d2w4 (q 0) (v 0) (dv 0)) X i j + d2w4_acc (q 0) (v 0) (dv 0) i j * x).
  Proof.
    intros i j Hi Hj.
    assert (E : ddot42_1 3 (d2w4 (q 0) (v 0) (dv 0)) X i j =
      6 * v_j2 (v 0) * (d_j2 (dv 0) i j * ddot22_1 3 (d_j2 (dv 0)) X) + 3 * v_j2 (v 0) ^ 2 * ddot42_1 3 (d2_j2 (dv 0)) X i j
      - 2 * q_c (q 0) * (d_j3 (dv 0) i j * ddot22_1 3 (d_j3 (dv 0)) X + v_j3 (v 0) * ddot42_1 3 (d2_j3 (dv 0)) X i j)).
    { unfold d2w4, d2w2, ddot42_1, ddot22_1, dyad22_1. cbn [rsum]. ring. }
    rewrite E. unfold dw4, dw2, d2w4_acc, d2w2_acc.
    eapply dl_eq; [apply dl_minus; [apply dl_mult; [apply dl_mult; [apply dl_const|apply dl_pow2; exact Hj2]|apply Hdj2; auto]|
      apply dl_mult; [apply dl_mult; [apply dl_mult; [apply dl_const|exact Hc]|exact Hj3]|apply Hdj3; auto]]|].
    cbv beta. ring.
  Qed.
  Lemma dl_dw5 : tderiv (fun t => dw5 (q t) (v t) (dv t))
    (fun i j => ddot42_1 3 (d2w5 (q 0) (v 0) (dv 0)) X i j + d2w5_acc (q 0) (v 0) (dv 0) i j * x).
  Proof.
    intros i j Hi Hj.
    assert (E : ddot42_1 3 (d2w5 (q 0) (v 0) (dv 0)) X i j =
      - (1/4) * Rpower (w4 (q 0) (v 0)) (-3/2) * (dw4 (q 0) (v 0) (dv 0) i j * ddot22_1 3 (dw4 (q 0) (v 0) (dv 0)) X)
      + 1/2 * Rpower (w4 (q 0) (v 0)) (-1/2) * ddot42_1 3 (d2w4 (q 0) (v 0) (dv 0)) X i j
      - q_d (q 0) * ddot42_1 3 (d2_j3 (dv 0)) X i j).
    { unfold d2w5, d2w3. set (z := Rpower _ (-3/2)). set (y := Rpower _ (-1/2)). set (D := dw4 _ _ _). set (DD := d2w4 _ _ _).
      unfold ddot42_1, ddot22_1, dyad22_1. cbn [rsum]. ring. }
    rewrite E. unfold dw5, d2w5_acc. unfold dw3, d2w3_acc.
    eapply dl_eq; [apply dl_minus; [apply dl_mult; [apply dl_mult; [apply dl_const|apply dl_rpower; [exact dl_w4|exact P4]]|apply dl_dw4; auto]|
      apply dl_mult; [exact Hd|apply Hdj3; auto]]|].
    cbv beta. replace (-1 / 2 - 1) with (-3/2) by lra. field.
  Qed.
  Lemma dl_flow : tderiv (fun t => flow (q t) (v t) (dv t))
    (fun i j => ddot42_1 3 (dflow_dstress (q 0) (v 0) (dv 0)) X i j + dflow_dacc (q 0) (v 0) (dv 0) i j * x).
  Proof.
    intros i j Hi Hj.
    assert (E : ddot42_1 3 (dflow_dstress (q 0) (v 0) (dv 0)) X i j = 1/3 * q_a (q 0) *
      (- (2/3) * Rpower (w5 (q 0) (v 0)) (-5/3) * (dw5 (q 0) (v 0) (dv 0) i j * ddot22_1 3 (dw5 (q 0) (v 0) (dv 0)) X)
       + Rpower (w5 (q 0) (v 0)) (-2/3) * ddot42_1 3 (d2w5 (q 0) (v 0) (dv 0)) X i j)).
    { unfold dflow_dstress. set (z := Rpower _ (-5/3)). set (y := Rpower _ (-2/3)). set (D := dw5 _ _ _). set (DD := d2w5 _ _ _).
      unfold ddot42_1, ddot22_1, dyad22_1. cbn [rsum]. ring. }
    rewrite E. unfold flow, dflow_dacc. unfold dw1, d2w1_acc.
    eapply dl_eq; [apply dl_mult; [exact Ha|apply dl_plus; [apply dl_mult; [exact Hb|]|
      apply dl_mult; [apply dl_mult; [apply dl_const|apply dl_rpower; [exact dl_w5|exact P5]]|apply dl_dw5; auto]]]|].
    { apply (dlim_ext _ (fun _ => soid i j)); [intros t; rewrite Hdi1; reflexivity|apply dl_const]. }
    cbv beta. rewrite Hdi1. replace (-2 / 3 - 1) with (-5/3) by lra. field.
  Qed.
End Along.

(** ** Invariants along a curve of symmetric stresses *)
Definition dev_of (s : T2) : T2 := ddot42_1 3 (fodevprojsym 3) s.
Definition ders (s : T2) : derivatives :=
  let i := tinv (dev_of s) in
  let w6 := ddot24_1 3 i (fodevprojsym 3) in
  let dj3 : T2 := fun k l => tdet (dev_of s) * w6 k l in
  Der soid (dev_of s) dj3 (fodevprojsym 3)
    (fun k l m n => dyad22_1 w6 dj3 k l m n +
       tdet (dev_of s) * ddot44_1 3 (ddot44_1 3 (fodevprojsym 3) (fo_dinv_sym i)) (fodevprojsym 3) k l m n).
Lemma ders_ok s : tdet (dev_of s) <> 0 -> get_stress_invariants_derivatives s = Ok (ders s).
Proof. intros H. unfold get_stress_invariants_derivatives. fold (dev_of s). rewrite (tinverse_ok _ H). reflexivity. Qed.
Lemma ders_err s : tdet (dev_of s) = 0 -> get_stress_invariants_derivatives s = Err RuntimeError.
Proof.
  intros H. unfold get_stress_invariants_derivatives. fold (dev_of s). unfold tinverse.
  destruct (Req_EM_T (tdet (dev_of s)) 0); [reflexivity|contradiction].
Qed.
Lemma dev_of_sym s : symmetric 3 (dev_of s).
Proof. apply c42_sym, P_minor. Qed.
Lemma tdet_ext a b : eq2 3 a b -> tdet a = tdet b.
Proof. intros H. unfold tdet. rewrite !H by lia. reflexivity. Qed.
Lemma j3_det s : symmetric 3 s -> v_j3 (get_stress_invariants s) = tdet (dev_of s).
Proof.
  intros S. rewrite (tdet_ext (dev_of s) (deviator3 s) (P_apply_dev s S)). rewrite (proj2 (deviatoric_invariants s)). open3. ring.
Qed.

Section Curve.
  Variables (sig : R -> T2) (X : T2).
  Hypothesis HS : tderiv sig X.
  Hypothesis Ssig : forall t, symmetric 3 (sig t).
  Hypothesis SX : symmetric 3 X.

  Lemma curve_i1 : derivable_pt_lim (fun t => v_i1 (get_stress_invariants (sig t))) 0 (ddot22_1 3 soid X).
  Proof.
    cbn [get_stress_invariants v_i1]. unfold ttrace. eapply dl_eq; [apply dl_plus; [apply dl_plus|]; apply HS; lia|].
    unfold ddot22_1, soid. cbn [rsum Nat.eqb]. ring.
  Qed.
  Lemma curve_j2 : derivable_pt_lim (fun t => v_j2 (get_stress_invariants (sig t))) 0 (ddot22_1 3 (dev_of (sig 0)) X).
  Proof.
    rewrite (c22_ext (dev_of (sig 0)) (deviator3 (sig 0)) X X (P_apply_dev _ (Ssig 0)) (fun i j _ _ => eq_refl)).
    cbn [get_stress_invariants v_j2]. unfold ttrace, tmatmul.
    assert (D : forall i j, (i < 3)%nat -> (j < 3)%nat -> derivable_pt_lim (fun t => sig t i j) 0 (X i j)) by exact HS.
    eapply dl_eq.
    - repeat first [apply dl_const | apply dl_pow2 | apply dl_minus | apply dl_plus | apply dl_mult]; apply D; lia.
    - cbv beta. open3. rewrite (Ssig 0 1 0)%nat, (Ssig 0 2 0)%nat, (Ssig 0 2 1)%nat by lia.
      rewrite (SX 1 0)%nat, (SX 2 0)%nat, (SX 2 1)%nat by lia. field.
  Qed.
  Lemma curve_dev : tderiv (fun t => dev_of (sig t)) (ddot42_1 3 (fodevprojsym 3) X).
  Proof. apply deriv_c42. exact HS. Qed.
  Hypothesis N0 : tdet (dev_of (sig 0)) <> 0.
  Lemma curve_j3 : derivable_pt_lim (fun t => v_j3 (get_stress_invariants (sig t))) 0 (ddot22_1 3 (d_j3 (ders (sig 0))) X).
  Proof.
    apply (dlim_ext _ (fun t => tdet (dev_of (sig t)))); [intros t; apply j3_det, Ssig|].
    eapply dl_eq; [apply (deriv_det _ _ curve_dev)|].
    cbn [ders d_j3]. set (D := tdet (dev_of (sig 0))) in *.
    transitivity (D * ddot22_1 3 (ddot24_1 3 (tinv (dev_of (sig 0))) (fodevprojsym 3)) X); [|unfold ddot22_1; cbn [rsum]; ring].
    rewrite c24_swap. set (Y := ddot42_1 3 (fodevprojsym 3) X). unfold ddot22_1, tinv. fold D.
    pose proof (tadj_sym _ (dev_of_sym (sig 0))) as TS.
    cbn [rsum]. rewrite (TS 1 0)%nat, (TS 2 0)%nat, (TS 2 1)%nat by lia. field. exact N0.
  Qed.
  Lemma curve_dj3 : tderiv (fun t => d_j3 (ders (sig t))) (ddot42_1 3 (d2_j3 (ders (sig 0))) X).
  Proof.
    intros i j Hi Hj.
    pose proof (deriv_inv _ _ curve_dev (fun t => dev_of_sym (sig t)) N0) as DI.
    pose proof (deriv_c42 (fodevprojsym 3) _ _ DI) as DW.
    apply (dlim_ext _ (fun t => tdet (dev_of (sig t)) * ddot42_1 3 (fodevprojsym 3) (tinv (dev_of (sig t))) i j)).
    { intros t. cbn [ders d_j3]. rewrite c24_P by auto. reflexivity. }
    eapply dl_eq; [apply dl_mult; [|apply DW; auto]|].
    - apply (dlim_ext _ (fun t => v_j3 (get_stress_invariants (sig t)))); [intros t; symmetry; apply j3_det, Ssig|]. apply curve_j3.
    - cbv beta. cbn [ders d2_j3].
      set (i0 := tinv (dev_of (sig 0))). set (D := tdet (dev_of (sig 0))).
      set (M := ddot44_1 3 (ddot44_1 3 (fodevprojsym 3) (fo_dinv_sym i0)) (fodevprojsym 3)).
      set (w := ddot24_1 3 i0 (fodevprojsym 3)).
      transitivity (w i j * ddot22_1 3 (fun k l => D * w k l) X + D * ddot42_1 3 M X i j).
      + cbn [ders d_j3]. fold D i0 w. unfold M. rewrite c44_apply, c44_apply. rewrite <- (c24_P i0 i j Hi Hj). fold w. ring.
      + unfold ddot42_1, ddot22_1, dyad22_1. cbn [rsum]. ring.
  Qed.
End Curve.

(** ** The hardening laws *)
(** [smooth_law hl x]: near x the law has a finite value and slope, and the
    slope is the derivative at x. *)
Definition smooth_law (hl : hlaw) (x : R) : Prop :=
  exists (f h : R -> R) (r : R), 0 < r /\
    (forall y, Rabs (y - x) < r -> hl y = Some (f y, Fin (h y))) /\ derivable_pt_lim f x (h x).
Definition smooth_laws (L : lou_laws) (x : R) : Prop :=
  smooth_law (l_y L) x /\ smooth_law (l_a L) x /\ smooth_law (l_b L) x /\ smooth_law (l_c L) x /\ smooth_law (l_d L) x.

Lemma laws_along L (acc : R -> R) x : derivable_pt_lim acc 0 x -> smooth_laws L (acc 0) ->
  exists (q : R -> lou_vals) r, 0 < r /\ (forall t, Rabs (t - 0) < r -> lou_values L (acc t) = Some (q t)) /\
    derivable_pt_lim (fun t => q_y (q t)) 0 (q_yh (q 0) * x) /\ derivable_pt_lim (fun t => q_a (q t)) 0 (q_ah (q 0) * x) /\
    derivable_pt_lim (fun t => q_b (q t)) 0 (q_bh (q 0) * x) /\ derivable_pt_lim (fun t => q_c (q t)) 0 (q_ch (q 0) * x) /\
    derivable_pt_lim (fun t => q_d (q t)) 0 (q_dh (q 0) * x).
Proof.
  intros HA (Ly & La & Lb & Lc & Ld).
  destruct Ly as (fy & hy & ry & Ry & Ey & Dy), La as (fa & ha & ra & Ra & Ea & Da), Lb as (fb & hb & rb & Rb & Eb & Db),
    Lc as (fc & hc & rc & Rc & Ec & Dc), Ld as (fd & hd & rd & Rd & Ed & Dd).
  assert (C : continuity_pt acc 0) by (apply derivable_continuous_pt; exists x; exact HA).
  assert (NB : forall r, 0 < r -> exists d, 0 < d /\ forall t, Rabs (t - 0) < d -> Rabs (acc t - acc 0) < r).
  { intros r Hr. destruct (C r Hr) as (d & Hd & D). exists d. split; [exact Hd|]. intros t Ht.
    destruct (Req_dec 0 t) as [<-|N]; [rewrite Rminus_diag_eq, Rabs_R0 by auto; exact Hr|].
    specialize (D t). unfold dist in D. simpl in D. unfold R_dist in D. apply D. split; [split; [exact I|auto]|exact Ht]. }
  destruct (NB ry Ry) as (d1 & D1 & N1), (NB ra Ra) as (d2 & D2 & N2), (NB rb Rb) as (d3 & D3 & N3),
    (NB rc Rc) as (d4 & D4 & N4), (NB rd Rd) as (d5 & D5 & N5).
  exists (fun t => Vals (fy (acc t)) (hy (acc t)) (fa (acc t)) (ha (acc t)) (fb (acc t)) (hb (acc t)) (fc (acc t)) (hc (acc t)) (fd (acc t)) (hd (acc t))).
  exists (Rmin d1 (Rmin d2 (Rmin d3 (Rmin d4 d5)))).
  split; [repeat apply Rmin_pos; auto|]. split.
  - intros t Ht.
    assert (T1 : Rabs (t - 0) < d1) by (eapply Rlt_le_trans; [exact Ht|apply Rmin_l]).
    assert (H2 : Rabs (t - 0) < Rmin d2 (Rmin d3 (Rmin d4 d5))) by (eapply Rlt_le_trans; [exact Ht|apply Rmin_r]).
    assert (T2' : Rabs (t - 0) < d2) by (eapply Rlt_le_trans; [exact H2|apply Rmin_l]).
    assert (H3 : Rabs (t - 0) < Rmin d3 (Rmin d4 d5)) by (eapply Rlt_le_trans; [exact H2|apply Rmin_r]).
    assert (T3 : Rabs (t - 0) < d3) by (eapply Rlt_le_trans; [exact H3|apply Rmin_l]).
    assert (H4 : Rabs (t - 0) < Rmin d4 d5) by (eapply Rlt_le_trans; [exact H3|apply Rmin_r]).
    assert (T4' : Rabs (t - 0) < d4) by (eapply Rlt_le_trans; [exact H4|apply Rmin_l]).
    assert (T5 : Rabs (t - 0) < d5) by (eapply Rlt_le_trans; [exact H4|apply Rmin_r]).
    unfold lou_values, fin_law. rewrite Ey, Ea, Eb, Ec, Ed by auto. reflexivity.
  - cbn [q_y q_yh q_a q_ah q_b q_bh q_c q_ch q_d q_dh].
    repeat split; [exact (derivable_pt_lim_comp acc fy 0 _ _ HA Dy)|exact (derivable_pt_lim_comp acc fa 0 _ _ HA Da)|
      exact (derivable_pt_lim_comp acc fb 0 _ _ HA Db)|exact (derivable_pt_lim_comp acc fc 0 _ _ HA Dc)|
      exact (derivable_pt_lim_comp acc fd 0 _ _ HA Dd)].
Qed.

(** ** Neighbourhoods *)
Definition near0 (P : R -> Prop) : Prop := exists r, 0 < r /\ forall t, Rabs (t - 0) < r -> P t.
Lemma near0_and P Q : near0 P -> near0 Q -> near0 (fun t => P t /\ Q t).
Proof.
  intros (r & Hr & A) (s & Hs & B). exists (Rmin r s). split; [apply Rmin_pos; auto|]. intros t Ht.
  split; [apply A|apply B]; (eapply Rlt_le_trans; [exact Ht|]); [apply Rmin_l|apply Rmin_r].
Qed.
Lemma near0_impl (P Q : R -> Prop) : near0 P -> (forall t, P t -> Q t) -> near0 Q.
Proof. intros (r & Hr & A) H. exists r. auto. Qed.
Lemma near0_true (P : R -> Prop) : (forall t, P t) -> near0 P.
Proof. intros H. exists 1. split; [lra|auto]. Qed.
Lemma near0_at (P : R -> Prop) : near0 P -> P 0.
Proof. intros (r & Hr & A). apply A. rewrite Rminus_diag_eq, Rabs_R0 by auto. exact Hr. Qed.

Lemma tderiv_sym A dA : tderiv A dA -> (forall t, symmetric 3 (A t)) -> symmetric 3 dA.
Proof.
  intros H S i j Hi Hj. apply (uniqueness_limite (fun t => A t i j) 0); [apply H; auto|].
  apply (dlim_ext _ (fun t => A t j i)); [intros t; apply S; auto|apply H; auto].
Qed.

(** ** Symmetries of the terms *)
Lemma flow_sym q v s : symmetric 3 (flow q v (ders s)).
Proof.
  assert (S3 : symmetric 3 (d_j3 (ders s))).
  { intros i j Hi Hj. cbn [ders d_j3]. rewrite !c24_P by auto. rewrite (c42_sym (fodevprojsym 3) _ P_minor i j Hi Hj). reflexivity. }
  intros i j Hi Hj. unfold flow, dw1, dw5, dw4, dw3, dw2. rewrite (S3 i j Hi Hj). cbn [ders d_i1 d_j2].
  rewrite (dev_of_sym s i j Hi Hj), (soid_sym j i). reflexivity.
Qed.
Definition left_minor (T : T4) : Prop := forall i j k l, (i < 3)%nat -> (j < 3)%nat -> (k < 3)%nat -> (l < 3)%nat -> T i j k l = T j i k l.
Lemma dflow_left_minor q v s : left_minor (dflow_dstress q v (ders s)).
Proof.
  assert (S3 : forall i j, (i < 3)%nat -> (j < 3)%nat -> d_j3 (ders s) i j = d_j3 (ders s) j i).
  { intros i j Hi Hj. cbn [ders d_j3]. rewrite !c24_P by auto. rewrite (c42_sym (fodevprojsym 3) _ P_minor i j Hi Hj). reflexivity. }
  assert (S4 : forall i j, (i < 3)%nat -> (j < 3)%nat -> dw4 q v (ders s) i j = dw4 q v (ders s) j i).
  { intros i j Hi Hj. unfold dw4, dw2. rewrite (S3 i j Hi Hj). cbn [ders d_j2]. rewrite (dev_of_sym s i j Hi Hj). reflexivity. }
  assert (S5 : forall i j, (i < 3)%nat -> (j < 3)%nat -> dw5 q v (ders s) i j = dw5 q v (ders s) j i).
  { intros i j Hi Hj. unfold dw5, dw3. rewrite (S3 i j Hi Hj), (S4 i j Hi Hj). reflexivity. }
  assert (P' : forall i j k l, (i < 3)%nat -> (j < 3)%nat -> (k < 3)%nat -> (l < 3)%nat ->
    fodevprojsym 3 i j k l = fodevprojsym 3 j i k l) by (intros; apply P_minor; auto).
  assert (SD : forall i j k l, (i < 3)%nat -> (j < 3)%nat -> (k < 3)%nat -> (l < 3)%nat -> d2_j3 (ders s) i j k l = d2_j3 (ders s) j i k l).
  { intros i j k l Hi Hj Hk Hl. cbn [ders d2_j3]. unfold dyad22_1. rewrite (c24_P _ i j Hi Hj), (c24_P _ j i Hj Hi).
    rewrite (c42_sym (fodevprojsym 3) _ P_minor i j Hi Hj). f_equal. f_equal.
    unfold ddot44_1. apply rsum_ext; intros a Ha. apply rsum_ext; intros b Hb. f_equal.
    apply rsum_ext; intros c Hc. apply rsum_ext; intros d Hd. rewrite (P' i j); auto. }
  intros i j k l Hi Hj Hk Hl. unfold dflow_dstress, d2w5, d2w4, d2w3, d2w2, dyad22_1.
  rewrite (S5 i j Hi Hj), (S4 i j Hi Hj), (S3 i j Hi Hj), (SD i j k l Hi Hj Hk Hl). cbn [ders d_j2 d2_j2].
  rewrite (dev_of_sym s i j Hi Hj), (P' i j k l Hi Hj Hk Hl). reflexivity.
Qed.
Lemma right_minor_44 A C : minor_symmetric 3 C -> left_minor A -> minor_symmetric 3 (ddot44_1 3 A C).
Proof.
  intros M LA i j k l Hi Hj Hk Hl. unfold ddot44_1. split.
  - apply rsum_ext; intros a Ha. apply rsum_ext; intros b Hb. rewrite (LA i j); auto.
  - apply rsum_ext; intros a Ha. apply rsum_ext; intros b Hb. rewrite (proj2 (M a b k l Ha Hb Hk Hl)). reflexivity.
Qed.
Lemma c24_sym N C : minor_symmetric 3 C -> symmetric 3 (ddot24_1 3 N C).
Proof.
  intros M i j Hi Hj. unfold ddot24_1. apply rsum_ext; intros a Ha. apply rsum_ext; intros b Hb.
  rewrite (proj2 (M a b i j Ha Hb Hi Hj)). reflexivity.
Qed.

(** ** Rows of the matrix *)
Lemma dotl_kmf a b : symmetric 3 a -> symmetric 3 b -> dotl (kmf a) (kmf b) = ddot22_1 3 a b.
Proof.
  intros Sa Sb. unfold dotl, kmf, ddot22_1. cbn [length rsum nth].
  rewrite (Sa 1 0)%nat, (Sa 2 0)%nat, (Sa 2 1)%nat, (Sb 1 0)%nat, (Sb 2 0)%nat, (Sb 2 1)%nat by lia.
  pose proof sqrt2_sq as Q. set (z := sqrt 2) in *.
  transitivity (a 0%nat 0%nat * b 0%nat 0%nat + a 1%nat 1%nat * b 1%nat 1%nat + a 2%nat 2%nat * b 2%nat 2%nat
    + (z * z) * (a 0%nat 1%nat * b 0%nat 1%nat + a 1%nat 2%nat * b 1%nat 2%nat + a 0%nat 2%nat * b 0%nat 2%nat)); [ring|rewrite Q; ring].
Qed.
Lemma dotl_bordered r u a b x y : length r = 6%nat -> length u = 6%nat ->
  dotl (r ++ [a; b]) (u ++ [x; y]) = dotl r u + a * x + b * y.
Proof.
  intros H1 H2. destruct r as [|r0 [|r1 [|r2 [|r3 [|r4 [|r5 [|? r]]]]]]]; try discriminate.
  destruct u as [|v0 [|v1 [|v2 [|v3 [|v4 [|v5 [|? u]]]]]]]; try discriminate. unfold dotl. cbn. ring.
Qed.
Lemma matvec_bordered m c1 c2 ra aa ab rb ba bb u x y :
  length m = 6%nat -> (forall r, In r m -> length r = 6%nat) -> length c1 = 6%nat -> length c2 = 6%nat ->
  length ra = 6%nat -> length rb = 6%nat -> length u = 6%nat ->
  let J := map (fun p : list R * (R * R) => fst p ++ [fst (snd p); snd (snd p)]) (combine m (combine c1 c2)) ++ [ra ++ [aa; ab]; rb ++ [ba; bb]] in
  (forall k, (k < 6)%nat -> nth k (matvec J (u ++ [x; y])) 0 = nth k (mv m u) 0 + nth k c1 0 * x + nth k c2 0 * y) /\
  nth 6 (matvec J (u ++ [x; y])) 0 = dotl ra u + aa * x + ab * y /\
  nth 7 (matvec J (u ++ [x; y])) 0 = dotl rb u + ba * x + bb * y.
Proof.
  intros Hm Hr H1 H2 Ha Hb Hu J.
  destruct m as [|m0 [|m1 [|m2 [|m3 [|m4 [|m5 [|? m]]]]]]]; try discriminate.
  destruct c1 as [|v0 [|v1 [|v2 [|v3 [|v4 [|v5 [|? c1]]]]]]]; try discriminate.
  destruct c2 as [|z0 [|z1 [|z2 [|z3 [|z4 [|z5 [|? c2]]]]]]]; try discriminate.
  unfold J, matvec, mv. cbn [combine map app fst snd nth].
  split; [|split; apply dotl_bordered; auto].
  intros k Hk. destruct k as [|[|[|[|[|[|k]]]]]]; try lia; cbn [nth];
    (rewrite dotl_bordered by (auto; apply Hr; cbn; auto 10); rewrite dotl6 by (auto; apply Hr; cbn; auto 10); reflexivity).
Qed.
