(** Lemmas about the von Mises state update. *)
From Coq Require Import Reals List Arith Bool Lia Lra Psatz.
From Verif Require Import Lib MatrixModel MatrixSpec TensorModel TensorSpec HardeningModel HardeningProps
  ElasticModel ElasticSpec ElasticProofs VonMisesModel VonMisesSpec.
Import ListNotations.
Local Open Scope R_scope.

Ltac list_eq := repeat match goal with
  | |- Ok _ = Ok _ => apply f_equal | |- Some _ = Some _ => apply f_equal
  | |- cons _ _ = cons _ _ => apply f_equal2 | |- nil = nil => reflexivity end.

Lemma sqrt32_sq : sqrt (3 / 2) * sqrt (3 / 2) = 3 / 2.
Proof. apply sqrt_sqrt. lra. Qed.
Lemma sqrt32_pos : 0 < sqrt (3 / 2).
Proof. apply sqrt_lt_R0. lra. Qed.
Lemma sqrt32_lt2 : sqrt (3 / 2) < 2.
Proof. pose proof sqrt32_sq. pose proof sqrt32_pos. nra. Qed.
Lemma sqrt23_32 : sqrt (2 / 3) * sqrt (3 / 2) = 1.
Proof. rewrite <- sqrt_mult by lra. replace (2 / 3 * (3 / 2)) with 1 by field. apply sqrt_1. Qed.

(** ** Matricial forms as tensors *)
Lemma kmf_norm s : symmetric 3 s -> vnorm (kmf s) = tnorm s.
Proof.
  intros S. unfold vnorm, tnorm, kmf, ddot, sum2. f_equal. simpl.
  rewrite (S 1 0)%nat, (S 2 0)%nat, (S 2 1)%nat by lia.
  assert (K : forall x, sqrt 2 * x * (sqrt 2 * x) = 2 * (x * x)).
  { intros x. transitivity (sqrt 2 * sqrt 2 * (x * x)); [ring|rewrite sqrt2_sq; ring]. }
  rewrite !K.
  ring.
Qed.
Lemma dev_kmf s : mv (iso_mf (-(1/3)) 1) (kmf s) = kmf (deviator3 s).
Proof.
  unfold kmf. rewrite mv_iso. unfold deviator3, trace, ident. simpl. list_eq; field.
Qed.
Lemma kmf_scale c s : vscale c (kmf s) = kmf (fun i j => c * s i j).
Proof. unfold vscale, kmf. simpl. list_eq; ring. Qed.
Lemma kmf_sub a b : vsub (kmf a) (kmf b) = kmf (fun i j => a i j - b i j).
Proof. unfold vsub, kmf. simpl. list_eq; ring. Qed.

Lemma deviator_symmetric s : symmetric 3 s -> symmetric 3 (deviator3 s).
Proof. intros S i j Hi Hj. unfold deviator3, ident. rewrite (S i j) by auto. rewrite (Nat.eqb_sym i j). reflexivity. Qed.
Lemma hooke_symmetric l m e : symmetric 3 e -> symmetric 3 (hooke l m e).
Proof. intros S i j Hi Hj. unfold hooke, ident. rewrite (S i j) by auto. rewrite (Nat.eqb_sym i j). reflexivity. Qed.
Lemma deviator_trace s : trace 3 (deviator3 s) = 0.
Proof. unfold trace, deviator3, trace, ident. simpl. field. Qed.
Lemma deviator_hooke l m e : eq2 3 (deviator3 (hooke l m e)) (fun i j => 2 * m * deviator3 e i j).
Proof.
  intros i j Hi Hj. unfold deviator3, hooke, trace, ident. simpl.
  destruct (Nat.eqb i j); field.
Qed.

Lemma ddot_ext a b a' b' : eq2 3 a a' -> eq2 3 b b' -> ddot 3 a b = ddot 3 a' b'.
Proof. intros A B. unfold ddot, sum2. apply rsum_ext. intros i Hi. apply rsum_ext. intros j Hj. rewrite A, B; auto. Qed.
Lemma ddot_scal c a b : ddot 3 (fun i j => c * a i j) b = c * ddot 3 a b.
Proof. unfold ddot, sum2. simpl. ring. Qed.
Lemma ddot_scal2 c a : ddot 3 (fun i j => c * a i j) (fun i j => c * a i j) = c * c * ddot 3 a a.
Proof. unfold ddot, sum2. simpl. ring. Qed.
Lemma ddot_nonneg a : 0 <= ddot 3 a a.
Proof. unfold ddot, sum2. apply rsum_nonneg. intros. apply rsum_nonneg. intros. apply Rle_0_sqr. Qed.

Lemma tnorm_scale c a : tnorm (fun i j => c * a i j) = Rabs c * tnorm a.
Proof.
  unfold tnorm. rewrite ddot_scal2, sqrt_mult; [|nra|apply ddot_nonneg].
  f_equal. replace (c * c) with (Rsqr c) by reflexivity. apply sqrt_Rsqr_abs.
Qed.
Lemma tnorm_ext a b : eq2 3 a b -> tnorm a = tnorm b.
Proof. intros Q. unfold tnorm. f_equal. apply ddot_ext; auto. Qed.
Lemma tnorm_nonneg a : 0 <= tnorm a.
Proof. apply sqrt_pos. Qed.
Lemma tnorm_sq a : tnorm a * tnorm a = ddot 3 a a.
Proof. apply sqrt_sqrt, ddot_nonneg. Qed.

Lemma vmises_norm s : vmises s = sqrt (3 / 2) * tnorm (deviator3 s).
Proof. unfold vmises, tnorm. apply sqrt_mult; [lra|apply ddot_nonneg]. Qed.
Lemma vmises_nonneg s : 0 <= vmises s.
Proof. apply sqrt_pos. Qed.

(** ** Newton loop: whatever it returns satisfies the convergence test. *)
Lemma newton_result hl vm G acc tol : forall fuel first x x' H,
  newton hl vm G acc tol fuel first x = Some (x', H) ->
  exists y, hl (acc + x') = Some (y, H) /\ y <> 0 /\ Rabs (vm - 3 * G * x' - y) < tol * Rabs y.
Proof.
  induction fuel as [|f IH]; intros first x x' H; simpl;
    destruct (hl (acc + x)) as [[y S]|] eqn:E; try discriminate;
    destruct (quot_lt (Rabs (vm - 3 * G * x - y)) (Rabs y) tol && negb first) eqn:T.
  1,3: intros Q; inversion Q; subst x' S; apply andb_true_iff in T; destruct T as [T _];
       unfold quot_lt in T; destruct (Req_EM_T (Rabs y) 0) as [|N]; [discriminate|];
       apply rltb_iff in T; exists y; split; auto; split;
       [intros ->; apply N, Rabs_R0|];
       assert (P : 0 < Rabs y) by (pose proof (Rabs_pos y); lra);
       apply (Rmult_lt_compat_r (Rabs y)) in T; auto;
       unfold Rdiv in T; rewrite Rmult_assoc, Rinv_l, Rmult_1_r in T; auto.
  - discriminate.
  - destruct S as [h|]; [|apply IH]. destruct (Req_EM_T (- 3 * G - h) 0); [discriminate|apply IH].
Qed.

(** The correction test is never taken on the first pass. *)
Lemma newton_first hl vm G acc tol fuel x :
  newton hl vm G acc tol (S fuel) true x =
  match hl (acc + x) with
  | None => None
  | Some (y, Infinite) => newton hl vm G acc tol fuel false x
  | Some (y, Fin h) => if Req_EM_T (- 3 * G - h) 0 then None
                       else newton hl vm G acc tol fuel false (x + - (vm - 3 * G * x - y) / (- 3 * G - h))
  end.
Proof.
  cbn [newton]. destruct (hl (acc + x)) as [[y [h|]]|]; auto; rewrite andb_false_r; reflexivity.
Qed.

(** ** The three outcomes of the return mapping *)
Lemma return_mapping_elastic hl G vm acc : return_mapping hl G vm acc = OElastic ->
  exists y h, hl acc = Some (y, h) /\ y <> 0 /\ (0 < y -> vm <= y * (1 + su_conv_tol)).
Proof.
  unfold return_mapping. destruct (hl acc) as [[y h]|]; [|discriminate].
  destruct (quot_le (vm - y) y su_conv_tol) eqn:Q.
  - intros _. exists y, h. unfold quot_le in Q. destruct (Req_EM_T y 0); [discriminate|].
    apply rleb_iff in Q. split; auto. split; auto. intros P.
    apply (Rmult_le_compat_r y) in Q; [|lra]. unfold Rdiv in Q. rewrite Rmult_assoc, Rinv_l in Q by auto. lra.
  - destruct (newton _ _ _ _ _ _ _ _) as [[x H]|]; discriminate.
Qed.

Lemma return_mapping_plastic hl G vm acc x H : return_mapping hl G vm acc = OPlastic x H ->
  exists y0 h0 y, hl acc = Some (y0, h0) /\ (0 < y0 -> y0 * (1 + su_conv_tol) < vm) /\
    hl (acc + x) = Some (y, H) /\ y <> 0 /\ Rabs (vm - 3 * G * x - y) < su_conv_tol * Rabs y.
Proof.
  unfold return_mapping. destruct (hl acc) as [[y0 h0]|]; [|discriminate].
  destruct (quot_le (vm - y0) y0 su_conv_tol) eqn:Q; [discriminate|].
  destruct (newton _ _ _ _ _ _ _ _) as [[x' H']|] eqn:N; [|discriminate].
  intros E. inversion E; subst x' H'. destruct (newton_result _ _ _ _ _ _ _ _ _ _ N) as (y & A & B & C).
  exists y0, h0, y. split; auto. split; auto. intros P. unfold quot_le in Q.
  destruct (Req_EM_T y0 0); [lra|]. apply rleb_false in Q.
  apply (Rmult_lt_compat_r y0) in Q; [|lra]. unfold Rdiv in Q. rewrite Rmult_assoc, Rinv_l in Q by auto. lra.
Qed.

(** Sign of the plastic multiplier. *)
Lemma multiplier_positive hl G vm acc x H : 0 <= G -> law_above 0 hl -> law_monotone hl ->
  return_mapping hl G vm acc = OPlastic x H ->
  (forall y h, hl acc = Some (y, h) -> 0 < y) -> 0 < x.
Proof.
  intros HG LA LM R P.
  destruct (return_mapping_plastic _ _ _ _ _ _ R) as (y0 & h0 & y & E0 & V & E1 & NZ & C).
  pose proof (P _ _ E0) as P0. specialize (V P0).
  destruct (Rlt_le_dec 0 x) as [|L]; auto. exfalso.
  pose proof (LM _ _ _ _ _ _ (ltac:(lra) : acc + x <= acc) E1 E0) as M.
  pose proof (LA _ _ _ E1) as Py. rewrite (Rabs_right y) in C by lra.
  apply Rabs_def2 in C. assert (0 < su_conv_tol) by (unfold su_conv_tol; lra). nra.
Qed.

(** ** The three-dimensional core on tensors *)
Lemma flow_kmf s : symmetric 3 s ->
  flow_vector (kmf s) = kmf (fun i j => sqrt (3 / 2) * (if rltb small (tnorm s) then 1 / tnorm s else 0) * s i j).
Proof. intros S. unfold flow_vector. rewrite kmf_norm by auto. rewrite kmf_scale. reflexivity. Qed.

Lemma vm_equivalent_kmf s : symmetric 3 s -> vm_equivalent (kmf (deviator3 s)) = vmises s.
Proof.
  intros S. unfold vm_equivalent. rewrite kmf_norm by (apply deviator_symmetric; auto).
  symmetry. apply vmises_norm.
Qed.

Definition flow_factor (s : T2) : R :=
  sqrt (3 / 2) * (if rltb small (tnorm s) then 1 / tnorm s else 0).

(** Trial stress and its deviator. *)
Definition sig_of (E v : R) (et : T2) : T2 := hooke (lame_lambda E v) (lame_mu E v) et.
Definition corrected (E v : R) (et : T2) (x : R) : T2 :=
  let s := deviator3 (sig_of E v et) in fun i j => et i j - x * (flow_factor s * s i j).

Lemma core_3d E v hl et acc : symmetric 3 et ->
  let sig := sig_of E v et in
  let s := deviator3 sig in
  exists c, vm_core E v hl (Some (kmf et)) (Some acc) = Ok c /\
    vc_outcome c = return_mapping hl (lame_mu E v) (vmises sig) acc /\
    match vc_outcome c with
    | OElastic => vc_e c = Some (kmf et) /\ vc_stress c = Some (kmf sig) /\ vc_acc c = Some acc /\
        vc_tangent c = Some (iso_mf (lame_lambda E v) (2 * lame_mu E v))
    | OPlastic x H => vc_e c = Some (kmf (corrected E v et x)) /\
        vc_stress c = Some (kmf (sig_of E v (corrected E v et x))) /\ vc_acc c = Some (acc + x) /\
        exists m t4 flow_t, vc_tangent c = Some m /\ vget_tensor_mf4 t4 3 order_sym_3d true = Ok m /\
          vm_tangent E v (lame_mu E v) (vmises sig) flow_t (OPlastic x H) = Some t4 /\
          eq2 3 flow_t (fun i j => flow_factor s * s i j)
    | OFailed => vc_e c = None /\ vc_stress c = None /\ vc_acc c = None /\ vc_tangent c = None
    end.
Proof.
  intros S sig s. unfold vm_core. rewrite devproj_mf, iso_tangent_mf. cbn [rbind]. rewrite hooke_kmf.
  fold (sig_of E v et). fold sig. rewrite dev_kmf. fold s.
  assert (Ss : symmetric 3 sig) by (apply hooke_symmetric; auto).
  assert (Sd : symmetric 3 s) by (apply deviator_symmetric; auto).
  replace (vm_equivalent (kmf s)) with (vmises sig) by (symmetry; apply vm_equivalent_kmf; auto).
  rewrite (flow_kmf s Sd). fold (flow_factor s).
  destruct (from_kmf (fun i j => flow_factor s * s i j)) as (ft & Ef & Qf).
  { intros i j Hi Hj. rewrite (Sd i j) by auto. reflexivity. }
  rewrite Ef. cbn [rbind].
  assert (MV : forall e, mv (iso_mf (lame_lambda E v) (2 * lame_mu E v)) (kmf e) = kmf (sig_of E v e))
    by (intros; apply hooke_kmf).
  destruct (return_mapping hl (lame_mu E v) (vmises sig) acc) as [|x H|] eqn:RM.
  - cbn [vm_tangent]. rewrite iso_tangent_mf. cbn [rbind]. eexists. split; [reflexivity|].
    split; [reflexivity|]. cbn. auto.
  - destruct (vm_tangent E v (lame_mu E v) (vmises sig) ft (OPlastic x H)) as [t4|] eqn:T; [|discriminate].
    destruct (vget_tensor_mf4 t4 3 order_sym_3d true) as [m|] eqn:M; [|discriminate]. cbn [rbind].
    rewrite kmf_scale, kmf_sub. fold (corrected E v et x). rewrite MV.
    eexists. split; [reflexivity|]. split; [reflexivity|].
    cbn [vc_outcome vc_e vc_stress vc_acc vc_tangent].
    split; [reflexivity|]. split; [reflexivity|]. split; [reflexivity|].
    exists m, t4, ft. auto.
  - cbn [vm_tangent rbind]. eexists. split; [reflexivity|]. split; [reflexivity|]. cbn. auto.
Qed.

(** The corrected strain: symmetric, same trace, radial return of the stress. *)
Lemma corrected_symmetric E v et x : symmetric 3 et -> symmetric 3 (corrected E v et x).
Proof.
  intros S i j Hi Hj.
  assert (D : symmetric 3 (deviator3 (sig_of E v et))) by (apply deviator_symmetric, hooke_symmetric; auto).
  unfold corrected. rewrite (S i j Hi Hj), (D i j Hi Hj). reflexivity.
Qed.
Lemma corrected_trace E v et x : trace 3 (corrected E v et x) = trace 3 et.
Proof.
  unfold corrected. set (s := deviator3 (sig_of E v et)).
  assert (T : trace 3 s = 0) by apply deviator_trace. unfold trace in *. simpl in *.
  replace (s 2%nat 2%nat) with (- s 0%nat 0%nat - s 1%nat 1%nat) by lra. ring.
Qed.
Lemma corrected_dev_stress E v et x :
  eq2 3 (deviator3 (sig_of E v (corrected E v et x)))
    (fun i j => (1 - 2 * lame_mu E v * x * flow_factor (deviator3 (sig_of E v et)))
                * deviator3 (sig_of E v et) i j).
Proof.
  intros i j Hi Hj. unfold sig_of at 1. rewrite deviator_hooke by auto.
  assert (D : deviator3 (corrected E v et x) i j
    = deviator3 et i j - x * (flow_factor (deviator3 (sig_of E v et)) * deviator3 (sig_of E v et) i j)).
  { unfold deviator3 at 1. rewrite corrected_trace. unfold corrected, deviator3. ring. }
  rewrite D.
  pose proof (deviator_hooke (lame_lambda E v) (lame_mu E v) et i j Hi Hj) as Q. fold (sig_of E v et) in Q.
  rewrite Q. ring.
Qed.

Lemma corrected_vmises E v et x : small < tnorm (deviator3 (sig_of E v et)) ->
  vmises (sig_of E v (corrected E v et x)) = Rabs (vmises (sig_of E v et) - 3 * lame_mu E v * x).
Proof.
  intros N. rewrite !vmises_norm, (tnorm_ext _ _ (corrected_dev_stress E v et x)), tnorm_scale.
  set (n := tnorm (deviator3 (sig_of E v et))) in *.
  assert (P : 0 < n) by (unfold small in N; lra).
  unfold flow_factor. fold n. rewrite (proj2 (rltb_iff _ _) N).
  rewrite <- (Rabs_right n) at 2 by lra. rewrite <- (Rabs_right (sqrt (3 / 2))) at 1 by (pose proof sqrt32_pos; lra).
  rewrite <- !Rabs_mult. f_equal. pose proof sqrt32_sq as S.
  transitivity (sqrt (3 / 2) * n - 2 * lame_mu E v * x * (sqrt (3/2) * sqrt (3 / 2))); [field; lra|rewrite S; field].
Qed.

Lemma corrected_plastic_norm E v et x : small < tnorm (deviator3 (sig_of E v et)) -> 0 <= x ->
  sqrt (2 / 3) * tnorm (fun i j => et i j - corrected E v et x i j) = x.
Proof.
  intros N X.
  set (n := tnorm (deviator3 (sig_of E v et))) in *.
  assert (P : 0 < n) by (unfold small in N; lra).
  rewrite (tnorm_ext _ (fun i j => x * flow_factor (deviator3 (sig_of E v et)) * deviator3 (sig_of E v et) i j)).
  2: { intros i j _ _. unfold corrected. ring. }
  rewrite tnorm_scale. fold n. unfold flow_factor. fold n. rewrite (proj2 (rltb_iff _ _) N).
  pose proof sqrt32_pos. pose proof sqrt23_32 as Q.
  rewrite Rabs_right.
  - transitivity (x * (sqrt (2/3) * sqrt (3 / 2))); [field; lra|rewrite Q; ring].
  - apply Rle_ge. apply Rmult_le_pos; auto. apply Rmult_le_pos; [lra|].
    apply Rmult_le_pos; [lra|]. left. apply Rinv_0_lt_compat. auto.
Qed.
