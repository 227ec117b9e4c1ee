(** Vectorised Lou-Zhang-Yoon material: agreement with the standard class,
    meaning of an accepted step, and cases where it raises or differs. *)
From Coq Require Import Reals List Arith Bool Lia Lra Psatz FunctionalExtensionality.
From Verif Require Import Lib MatrixModel MatrixSpec MatrixProofs MatrixProps TensorModel TensorSpec TensorProofs TensorProps HardeningModel
  HardeningProps ElementProps ElasticModel ElasticSpec ElasticProofs VonMisesModel VonMisesSpec VonMisesProofs VonMisesProps VonMisesTangent
  LouModel LouProps LouUpdateModel LouUpdateProofs LouUpdateProps VLouModel.
Import ListNotations.
Local Open Scope R_scope.

(** ** Vocabulary *)
(** The laws of the yield parameters taken as constant around each point. *)
Definition flat (hl : hlaw) : hlaw := fun x => match hl x with Some (y, _) => Some (y, Fin 0) | None => None end.
Definition assumed_laws (fixed : bool) (L : lou_laws) : lou_laws :=
  if fixed then Laws (l_y L) (flat (l_a L)) (flat (l_b L)) (flat (l_c L)) (flat (l_d L)) (l_assoc L) else L.

Lemma flat_value hl x : law_value (flat hl) x = law_value hl x.
Proof. unfold law_value, flat. destruct (hl x) as [[y h]|]; reflexivity. Qed.
Lemma flat_const hl : (forall x y h, hl x = Some (y, h) -> h = Fin 0) -> flat hl = hl.
Proof.
  intros H. apply functional_extensionality. intros x. unfold flat. destruct (hl x) as [[y h]|] eqn:E; [|reflexivity].
  rewrite (H x y h E). reflexivity.
Qed.

(** ** Residuals *)
Lemma values_assumed fixed L acc : vl_values fixed L acc = lou_values (assumed_laws fixed L) acc.
Proof.
  destruct fixed; [|reflexivity]. unfold vl_values, lou_values, assumed_laws, fin_law, flat. cbn [l_y l_a l_b l_c l_d].
  destruct (l_y L acc) as [[y [yh|]]|]; try reflexivity.
  destruct (l_a L acc) as [[a ah]|]; try reflexivity.
  destruct (l_b L acc) as [[b bh]|]; try reflexivity.
  destruct (l_c L acc) as [[c ch]|]; try reflexivity.
  destruct (l_d L acc) as [[d dh]|]; reflexivity.
Qed.
Lemma assoc_assumed fixed L : l_assoc (assumed_laws fixed L) = l_assoc L.
Proof. destruct fixed; reflexivity. Qed.
Lemma slopes_flat L acc q : lou_values (assumed_laws true L) acc = Some q -> q_ah q = 0 /\ q_bh q = 0 /\ q_ch q = 0 /\ q_dh q = 0.
Proof.
  unfold lou_values, assumed_laws, fin_law, flat. cbn [l_y l_a l_b l_c l_d].
  destruct (l_y L acc) as [[y [yh|]]|]; try discriminate;
  destruct (l_a L acc) as [[a ah]|]; try discriminate;
  destruct (l_b L acc) as [[b bh]|]; try discriminate;
  destruct (l_c L acc) as [[c ch]|]; try discriminate;
  destruct (l_d L acc) as [[d dh]|]; try discriminate.
  intros H. injection H as <-. auto.
Qed.

Lemma vl_grj_assumed fixed L C y0 e et acc acc_old g :
  vl_residual_and_jacobian fixed L C (Some y0) e et acc acc_old g =
  get_residual_and_jacobian (assumed_laws fixed L) C y0 e et acc acc_old g.
Proof.
  unfold vl_residual_and_jacobian, get_residual_and_jacobian. rewrite values_assumed, assoc_assumed.
  destruct (get_stress_invariants_derivatives (ddot42_1 3 C e)) as [dv|x]; cbn [rbind]; [|reflexivity].
  destruct (lou_values (assumed_laws fixed L) acc) as [q|] eqn:Q; [|reflexivity].
  destruct fixed; [|reflexivity].
  destruct (slopes_flat L acc q Q) as (Ha & Hb & Hc & Hd).
  set (v := get_stress_invariants (ddot42_1 3 C e)).
  assert (W4 : dw4_acc q v = 0) by (unfold dw4_acc, dw2_acc; rewrite Hc; ring).
  assert (W5 : dw5_acc q v = 0) by (unfold dw5_acc, dw3_acc; rewrite W4, Hd; ring).
  assert (FA : forall i j, dflow_dacc q v dv i j = 0).
  { intros i j. unfold dflow_dacc, d2w1_acc, d2w5_acc, d2w4_acc, d2w2_acc, d2w3_acc. rewrite W4, W5, Ha, Hb, Hc, Hd. ring. }
  assert (EA : deff_dacc q v = 0) by (unfold deff_dacc, dw1_acc; rewrite W5, Ha, Hb; ring).
  assert (Z12 : (fun i j => g * dflow_dacc q v dv i j) = zero2).
  { apply functional_extensionality. intros i. apply functional_extensionality. intros j. rewrite FA. unfold zero2. ring. }
  rewrite Z12, EA.
  assert (DD : forall N, ddot22_1 3 N (dflow_dacc q v dv) = 0).
  { intros N. rewrite (c22_ext N N _ zero2); [|intros i j _ _; reflexivity|intros i j _ _; apply FA].
    unfold ddot22_1, zero2. cbn [rsum]. ring. }
  rewrite DD, Rmult_0_r.
  replace (1 - 0) with 1 by ring. replace (1 / y0 * (0 - q_yh q)) with (- q_yh q / y0) by (unfold Rdiv; ring). reflexivity.
Qed.
Lemma vl_grj_none fixed L C e et acc acc_old g o :
  vl_residual_and_jacobian fixed L C None e et acc acc_old g = Ok o -> o = None.
Proof.
  unfold vl_residual_and_jacobian. destruct (get_stress_invariants_derivatives _) as [dv|]; cbn [rbind]; [|discriminate].
  destruct (vl_values fixed L acc); intros H; injection H as <-; reflexivity.
Qed.

(** ** The loop of the return to the surface *)
Lemma vnorm_zeros l : (forall x, In x l -> x = 0) -> vnorm l = 0.
Proof.
  intros Hl. unfold vnorm. transitivity (sqrt 0); [f_equal|apply sqrt_0]. induction l as [|x l IH]; [reflexivity|]. cbn. rewrite (Hl x) by (left; auto).
  rewrite IH by (intros y Hy; apply Hl; right; auto). ring.
Qed.
Lemma null_norm et a : vl_diter_norm et a [0; 0; 0; 0; 0; 0; 0; 0] = 0.
Proof.
  unfold vl_diter_norm. apply vnorm_zeros. intros x Hx. cbn [nth] in Hx. unfold Rdiv in Hx. rewrite Rmult_0_l in Hx. apply in_app_or in Hx. destruct Hx as [Hx|Hx].
  - destruct (rltb small (fnorm et)); cbn in Hx; rewrite ?Rmult_0_l in Hx; intuition.
  - destruct (rltb small a); cbn in Hx; intuition.
Qed.
Lemma null_tensor : vget_tensor_from_mf2 (firstn 6 [0; 0; 0; 0; 0; 0; 0; 0]) 3 order_sym_3d true = Ok zero2.
Proof.
  unfold vget_tensor_from_mf2. replace (kelvin_flag 3 order_sym_3d true) with (Ok true) by reflexivity. cbn [rbind].
  match goal with |- (if ?c then _ else _) = _ => replace c with false by reflexivity end.
  match goal with |- (if ?c then _ else _) = _ => replace c with false by reflexivity end.
  f_equal. apply functional_extensionality. intros i. apply functional_extensionality. intros j. unfold zero2.
  destruct (sym_index i j order_sym_3d) as [m|]; [|reflexivity].
  replace (nth m (firstn 6 [0; 0; 0; 0; 0; 0; 0; 0]) 0) with 0 by (do 7 (destruct m as [|m]; [reflexivity|]); reflexivity). ring.
Qed.
Lemma null_update (e : T2) acc g : ((fun i j => e i j + zero2 i j) : T2, acc + nth 6 [0; 0; 0; 0; 0; 0; 0; 0] 0, g + nth 7 [0; 0; 0; 0; 0; 0; 0; 0] 0) = (e, acc, g).
Proof.
  cbn [nth]. rewrite !Rplus_0_r. f_equal. f_equal. apply functional_extensionality. intros i. apply functional_extensionality. intros j. unfold zero2. ring.
Qed.

Section Loops.
  Variable solve : list (list R) -> list R -> res (option (list R)).
  Variables (fixed : bool) (L : lou_laws) (C : T4) (y0 : option R) (et : T2) (acc_old : R).
  Notation loop := (vl_surface_loop solve fixed L C y0 et acc_old).

  Lemma loop_none : forall left nr diter r, loop false nr left diter None = Ok r -> snd r = false.
  Proof.
    induction left as [|l IH]; intros nr diter r; cbn [vl_surface_loop rbind]; intros H.
    - injection H as <-. reflexivity.
    - apply (IH _ _ _ H).
  Qed.
  Lemma loop_avoid : forall left nr diter x r, loop true nr left diter (Some x) = Ok r -> r = (Some x, true).
  Proof.
    induction left as [|l IH]; intros nr diter [[e acc] g] r; cbn [vl_surface_loop];
      destruct (vl_residual_and_jacobian fixed L C y0 e et acc acc_old g) as [o|]; cbn [rbind]; try discriminate;
      (match goal with |- rbind ?s _ = _ -> _ => destruct s as [d|] end; cbn [rbind]; [|discriminate]); rewrite null_tensor; cbn [rbind]; rewrite null_update.
    - intros H. injection H as <-. reflexivity.
    - apply IH.
  Qed.
  Lemma loop_avoid_runs o : forall left nr diter e acc g,
    vl_residual_and_jacobian fixed L C y0 e et acc acc_old g = Ok o ->
    (forall J b, exists d, solve J b = Ok d) ->
    loop true nr left diter (Some (e, acc, g)) = Ok (Some (e, acc, g), true).
  Proof.
    intros left nr diter e acc g G SV. revert nr diter. induction left as [|l IH]; intros nr diter; cbn [vl_surface_loop]; rewrite G; cbn [rbind];
      (match goal with |- rbind ?s _ = _ => assert (SS : exists d, s = Ok d) end;
       [destruct o as [s|]; [rewrite mf2_3d; apply SV|eexists; reflexivity]|]); destruct SS as (d & ->); cbn [rbind];
      rewrite null_tensor; cbn [rbind]; rewrite null_update; auto.
  Qed.

  Definition accepted (s : lou_system) (nr : nat) (diter : option R) : bool :=
    rltb (vl_residual_norm et acc_old s) su_conv_tol && olt diter su_conv_tol && Nat.ltb 0 nr.
  Lemma loop_stable e acc g s : vl_residual_and_jacobian fixed L C y0 e et acc acc_old g = Ok (Some s) ->
    forall left nr diter r, accepted s nr diter = true -> loop false nr left diter (Some (e, acc, g)) = Ok r -> r = (Some (e, acc, g), true).
  Proof.
    intros G. induction left as [|l IH]; intros nr diter r A; cbn [vl_surface_loop]; rewrite G; cbn [rbind]; fold (accepted s nr diter); rewrite A;
      (match goal with |- rbind ?s _ = _ -> _ => destruct s as [d|] end; cbn [rbind]; [|discriminate]); rewrite null_tensor; cbn [rbind]; rewrite null_update.
    - intros H. injection H as <-. reflexivity.
    - cbn [omap]. rewrite null_norm. apply IH. unfold accepted in *. apply andb_prop in A. destruct A as [A _]. apply andb_prop in A. destruct A as [A _].
      rewrite A. cbn [olt andb Nat.ltb Nat.leb]. rewrite andb_true_r. apply rltb_iff. unfold su_conv_tol. lra.
  Qed.

  Lemma loop_some : forall left nr diter x, loop false nr left diter (Some x) <> Ok (None, true).
  Proof.
    induction left as [|l IH]; intros nr diter [[e acc] g] H; pose proof H as H0; cbn [vl_surface_loop] in H;
      destruct (vl_residual_and_jacobian fixed L C y0 e et acc acc_old g) as [[s|]|] eqn:G; cbn [rbind] in H; try discriminate.
    - fold (accepted s nr diter) in H. destruct (accepted s nr diter) eqn:A.
      + discriminate (loop_stable e acc g s G 0 nr diter _ A H0).
      + repeat match type of H with rbind ?m _ = _ => destruct m; cbn [rbind] in H; [|discriminate] end. discriminate H.
    - fold (accepted s nr diter) in H. destruct (accepted s nr diter) eqn:A.
      + discriminate (loop_stable e acc g s G (S l) nr diter _ A H0).
      + match type of H with rbind ?m _ = _ => destruct m as [[d|]|]; cbn [rbind] in H; [| |discriminate] end.
        * destruct (vget_tensor_from_mf2 (firstn 6 d) 3 order_sym_3d true) as [de|]; cbn [rbind] in H; [|discriminate]. apply (IH _ _ _ H).
        * apply loop_none in H. discriminate.
    - apply loop_none in H. discriminate.
  Qed.

  (** An accepted iterate solves the equations. *)
  Lemma loop_sound : forall left nr diter e acc g e' acc' g', symmetric 3 e ->
    loop false nr left diter (Some (e, acc, g)) = Ok (Some (e', acc', g'), true) ->
    symmetric 3 e' /\ exists s, vl_residual_and_jacobian fixed L C y0 e' et acc' acc_old g' = Ok (Some s) /\
      surface_error et acc_old (rj_1 s) (rj_2 s) (rj_3 s) < / 1000000.
  Proof.
    assert (ACC : forall s nr diter, accepted s nr diter = true -> surface_error et acc_old (rj_1 s) (rj_2 s) (rj_3 s) < / 1000000).
    { intros s nr diter B. unfold accepted in B. apply andb_prop in B. destruct B as [B _]. apply andb_prop in B. destruct B as [B _]. apply rltb_iff in B.
      unfold vl_residual_norm in B. unfold surface_error, relative. rewrite !rltb_dec in B. unfold small, su_conv_tol in B.
      change (fnorm (rj_1 s)) with (tnorm (rj_1 s)) in B. change (fnorm et) with (tnorm et) in B.
      destruct (Rlt_dec (tnorm et) (/ 100000000)); destruct (Rlt_dec (Rabs acc_old) (/ 100000000));
        try (rewrite (rabs_div (rj_2 s) acc_old) in B); exact B. }
    induction left as [|l IH]; intros nr diter e acc g e' acc' g' Se H; pose proof H as H0; cbn [vl_surface_loop] in H;
      destruct (vl_residual_and_jacobian fixed L C y0 e et acc acc_old g) as [[s|]|] eqn:G; cbn [rbind] in H; try discriminate.
    - fold (accepted s nr diter) in H. destruct (accepted s nr diter) eqn:A.
      + pose proof (loop_stable e acc g s G 0 nr diter _ A H0) as Q. injection Q as -> -> ->. split; [exact Se|]. exists s. split; [exact G|]. apply (ACC _ _ _ A).
      + exfalso. repeat match type of H with rbind ?m _ = _ => destruct m; cbn [rbind] in H; [|discriminate] end. discriminate H.
    - fold (accepted s nr diter) in H. destruct (accepted s nr diter) eqn:A.
      + pose proof (loop_stable e acc g s G (S l) nr diter _ A H0) as Q. injection Q as -> -> ->. split; [exact Se|]. exists s. split; [exact G|]. apply (ACC _ _ _ A).
      + match type of H with rbind ?m _ = _ => destruct m as [[d|]|]; cbn [rbind] in H; [| |discriminate] end.
        * destruct (vget_tensor_from_mf2 (firstn 6 d) 3 order_sym_3d true) as [de|] eqn:FD; cbn [rbind] in H; [|discriminate].
          apply (IH _ _ _ _ _ _ _ _) in H; [exact H|]. pose proof (from_mf2_sym _ _ FD) as Sd. intros i j Hi Hj. rewrite (Se i j Hi Hj), (Sd i j Hi Hj). reflexivity.
        * apply loop_none in H. discriminate.
    - apply loop_none in H. discriminate.
  Qed.
End Loops.

Lemma loop_y0_none solve fixed L C et acc_old : forall left nr diter x r,
  vl_surface_loop solve fixed L C None et acc_old false nr left diter x = Ok r -> snd r = false.
Proof.
  intros left nr diter [[[e acc] g]|] r; [|apply loop_none].
  destruct left as [|l]; cbn [vl_surface_loop];
    destruct (vl_residual_and_jacobian fixed L C None e et acc acc_old g) as [o|] eqn:G; cbn [rbind]; try discriminate;
    apply vl_grj_none in G; subst o; cbn [rbind]; [intros H; injection H as <-; reflexivity|apply loop_none].
Qed.
(** The loop of the standard class accepts what the vectorised loop accepts. *)
Lemma loop_agrees solve fixed L C y0 et acc_old : 0 <= acc_old -> forall left nr fuel diter e acc g e' acc' g', (left <= fuel)%nat ->
  vl_surface_loop solve fixed L C (Some y0) et acc_old false nr left (Some diter) (Some (e, acc, g)) = Ok (Some (e', acc', g'), true) ->
  surface_newton solve (assumed_laws fixed L) C y0 et acc_old fuel (Nat.eqb nr 0) diter e acc g = Ok (Some (e', acc', g')).
Proof.
  intros A0.
  assert (AB : Rabs acc_old = acc_old) by (apply Rabs_right; lra).
  assert (NR : forall nr, negb (Nat.eqb nr 0) = Nat.ltb 0 nr) by (intros [|n]; reflexivity).
  induction left as [|l IH]; intros nr fuel diter e acc g e' acc' g' LE H; pose proof H as H0; cbn [vl_surface_loop] in H; rewrite vl_grj_assumed in H;
    destruct (get_residual_and_jacobian (assumed_laws fixed L) C y0 e et acc acc_old g) as [[s|]|] eqn:G; cbn [rbind] in H; try discriminate.
  - fold (accepted et acc_old s nr (Some diter)) in H. destruct (accepted et acc_old s nr (Some diter)) eqn:A.
    + pose proof G as G'. rewrite <- vl_grj_assumed in G'. pose proof (loop_stable solve _ _ _ _ _ _ e acc g s G' 0 nr _ _ A H0) as Q. injection Q as -> -> ->.
      destruct fuel as [|f]; cbn [surface_newton]; rewrite G; cbn [rbind]; rewrite mf2_3d; cbn [rbind]; rewrite NR;
        unfold accepted, vl_residual_norm in A; cbn [olt] in A; rewrite A; reflexivity.
    + exfalso. repeat match type of H with rbind ?m _ = _ => destruct m; cbn [rbind] in H; [|discriminate] end. discriminate H.
  - destruct fuel as [|f]; [lia|]. cbn [surface_newton]. rewrite G. cbn [rbind]. rewrite mf2_3d in *. cbn [rbind] in *. rewrite NR.
    fold (accepted et acc_old s nr (Some diter)) in H. destruct (accepted et acc_old s nr (Some diter)) eqn:A.
    + pose proof G as G'. rewrite <- vl_grj_assumed in G'. pose proof (loop_stable solve _ _ _ _ _ _ e acc g s G' (S l) nr _ _ A H0) as Q. injection Q as -> -> ->.
      unfold accepted, vl_residual_norm in A; cbn [olt] in A; rewrite A; reflexivity.
    + unfold accepted, vl_residual_norm in A; cbn [olt] in A; rewrite A.
      destruct (solve (rj_J s) (map Ropp (kmf (rj_1 s) ++ [rj_2 s; rj_3 s]))) as [[d|]|]; cbn [rbind] in *; [| |discriminate].
      * destruct (vget_tensor_from_mf2 (firstn 6 d) 3 order_sym_3d true) as [de|] eqn:FD; cbn [rbind] in *; [|discriminate].
        cbn [omap] in H. rewrite AB. apply (IH (S nr) f _ _ _ _ _ _ _ ltac:(lia)) in H. exact H.
      * apply loop_none in H. discriminate.
  - apply loop_none in H. discriminate.
Qed.

(** ** The loop of the return to the apex *)
Section ApexLoop.
  Variables (L : lou_laws) (K alpha p acc_old : R).
  Notation loop := (vl_apex_loop L K alpha p acc_old).
  Lemma apex_none : forall left nr diter, snd (loop false nr left diter None) = false.
  Proof. induction left as [|l IH]; intros nr diter; cbn [vl_apex_loop]; [reflexivity|]. apply IH. Qed.

  Definition apex_norm (y r : R) : R := if rltb (Rabs y) small then Rabs r else Rabs r / Rabs y.
  Definition apex_accepted (y r : R) (nr : nat) (diter : option R) : bool := rltb (apex_norm y r) su_conv_tol && olt diter su_conv_tol && Nat.ltb 0 nr.
  Lemma apex_stable x y H beta : vl_apex_values L (acc_old + alpha * x) = Some (y, H, beta) ->
    forall left nr diter, apex_accepted y (y * beta - (p - K * x)) nr diter = true -> loop false nr left diter (Some x) = (Some x, true).
  Proof.
    intros V. induction left as [|l IH]; intros nr diter A; cbn [vl_apex_loop]; rewrite V; fold (apex_norm y (y * beta - (p - K * x)));
      fold (apex_accepted y (y * beta - (p - K * x)) nr diter); rewrite A; cbn [omap2]; rewrite Rplus_0_r; [reflexivity|].
    apply IH. unfold apex_accepted in *. apply andb_prop in A. destruct A as [A _]. apply andb_prop in A. destruct A as [A _]. rewrite A.
    cbn [omap olt andb Nat.ltb Nat.leb]. rewrite andb_true_r. apply rltb_iff. unfold Rdiv. rewrite Rmult_0_l. destruct (rltb small acc_old); rewrite Rabs_R0; unfold su_conv_tol; lra.
  Qed.
  Lemma apex_some : forall left nr diter x, loop false nr left diter (Some x) <> (None, true).
  Proof.
    induction left as [|l IH]; intros nr diter x Q; cbn [vl_apex_loop] in Q.
    - match type of Q with (omap2 _ _ (if ?c then _ else _), _) = _ => destruct c end; [discriminate|]. discriminate (f_equal snd Q).
    - match type of Q with vl_apex_loop _ _ _ _ _ _ _ _ _ (omap2 _ _ ?d) = _ => destruct d as [dd|] end; cbn [omap2] in Q; [apply (IH _ _ _ Q)|].
      apply (f_equal snd) in Q. rewrite apex_none in Q. discriminate.
  Qed.
  Lemma apex_sound : forall left nr diter x x', loop false nr left diter (Some x) = (Some x', true) ->
    exists y H beta, vl_apex_values L (acc_old + alpha * x') = Some (y, H, beta) /\ apex_norm y (y * beta - (p - K * x')) < / 1000000.
  Proof.
    assert (AN : forall y r nr diter, apex_accepted y r nr diter = true -> apex_norm y r < / 1000000).
    { intros y r nr diter B. unfold apex_accepted in B. apply andb_prop in B. destruct B as [B _]. apply andb_prop in B. destruct B as [B _]. apply rltb_iff in B. exact B. }
    induction left as [|l IH]; intros nr diter x x' Q; pose proof Q as Q0; cbn [vl_apex_loop] in Q;
      destruct (vl_apex_values L (acc_old + alpha * x)) as [[[y H] beta]|] eqn:V.
    - fold (apex_norm y (y * beta - (p - K * x))) in Q. fold (apex_accepted y (y * beta - (p - K * x)) nr diter) in Q.
      destruct (apex_accepted y (y * beta - (p - K * x)) nr diter) eqn:A; [|discriminate (f_equal snd Q)].
      rewrite (apex_stable x y H beta V 0 nr diter A) in Q0. injection Q0 as <-. exists y, H, beta. split; [exact V|]. apply (AN _ _ _ _ A).
    - discriminate.
    - fold (apex_norm y (y * beta - (p - K * x))) in Q. fold (apex_accepted y (y * beta - (p - K * x)) nr diter) in Q.
      destruct (apex_accepted y (y * beta - (p - K * x)) nr diter) eqn:A.
      + rewrite (apex_stable x y H beta V (S l) nr diter A) in Q0. injection Q0 as <-. exists y, H, beta. split; [exact V|]. apply (AN _ _ _ _ A).
      + destruct (vl_apex_correction K alpha beta (y * beta - (p - K * x)) H) as [d|]; cbn [omap omap2] in Q; [apply (IH _ _ _ _ Q)|].
        apply (f_equal snd) in Q. rewrite apex_none in Q. discriminate.
    - cbn [omap omap2] in Q. apply (f_equal snd) in Q. rewrite apex_none in Q. discriminate.
  Qed.
End ApexLoop.

Definition regular_b (L : lou_laws) : Prop :=
  (forall x b h, l_b L x = Some (b, h) -> 1 / 1000000 <= b) /\
  (forall a h b h', l_a L 0 = Some (a, h) -> l_b L 0 = Some (b, h') -> 1 / 1000000 <= 3 * a * b).
Lemma safe_regular x : 1 / 1000000 <= x -> vl_safe x = x.
Proof. intros H. unfold vl_safe. rewrite Rabs_right by lra. apply Rmax_left. exact H. Qed.

Lemma apex_loop_agrees L K alpha p acc_old : regular_b L -> 0 <= acc_old -> forall left nr fuel diter x x', (left <= fuel)%nat ->
  vl_apex_loop L K alpha p acc_old false nr left (Some diter) (Some x) = (Some x', true) ->
  apex_newton L K alpha p acc_old fuel (Nat.eqb nr 0) diter x = Some x'.
Proof.
  intros (RB & _) A0.
  assert (AB : Rabs acc_old = acc_old) by (apply Rabs_right; lra).
  assert (NR : forall nr, negb (Nat.eqb nr 0) = Nat.ltb 0 nr) by (intros [|n]; reflexivity).
  assert (VS : forall z, match vl_apex_values L z with
     | Some (y, H, beta) => exists a b, apex_state L z = Some (y, H, a, b) /\ a * b <> 0 /\ beta = 1 / (3 * a * b)
     | None => True end).
  { intros z. unfold vl_apex_values, apex_state. destruct (l_y L z) as [[y H]|]; [|exact I]. destruct (l_a L z) as [[a ha]|]; [|exact I].
    destruct (l_b L z) as [[b hb]|] eqn:B; [|exact I]. destruct (Req_EM_T a 0) as [|NA]; [exact I|]. pose proof (RB z b hb B) as PB.
    exists a, b. split; [reflexivity|]. split; [apply Rmult_integral_contrapositive_currified; [exact NA|lra]|]. rewrite safe_regular by exact PB. reflexivity. }
  induction left as [|l IH]; intros nr fuel diter x x' LE Q; pose proof Q as Q0; cbn [vl_apex_loop] in Q;
    pose proof (VS (acc_old + alpha * x)) as V; destruct (vl_apex_values L (acc_old + alpha * x)) as [[[y H] beta]|] eqn:VE.
  - fold (apex_norm y (y * beta - (p - K * x))) in Q. fold (apex_accepted y (y * beta - (p - K * x)) nr (Some diter)) in Q.
    destruct (apex_accepted y (y * beta - (p - K * x)) nr (Some diter)) eqn:A; [|discriminate (f_equal snd Q)].
    rewrite (apex_stable L K alpha p acc_old x y H beta VE 0 nr _ A) in Q0. injection Q0 as <-.
    destruct V as (a & b & ST & NZ & ->). unfold apex_accepted, apex_norm in A. cbn [olt] in A.
    destruct fuel as [|f]; cbn [apex_newton]; rewrite ST; (destruct (Req_EM_T (a * b) 0); [contradiction|]); rewrite NR, A; reflexivity.
  - discriminate.
  - destruct V as (a & b & ST & NZ & ->). destruct fuel as [|f]; [lia|].
    fold (apex_norm y (y * (1 / (3 * a * b)) - (p - K * x))) in Q. fold (apex_accepted y (y * (1 / (3 * a * b)) - (p - K * x)) nr (Some diter)) in Q.
    cbn [apex_newton]; rewrite ST; (destruct (Req_EM_T (a * b) 0); [contradiction|]); rewrite NR.
    destruct (apex_accepted y (y * (1 / (3 * a * b)) - (p - K * x)) nr (Some diter)) eqn:A.
    + rewrite (apex_stable L K alpha p acc_old x y H _ VE (S l) nr _ A) in Q0. injection Q0 as <-.
      unfold apex_accepted, apex_norm in A. cbn [olt] in A. rewrite A. reflexivity.
    + unfold apex_accepted, apex_norm in A. cbn [olt] in A. rewrite A. destruct H as [h|]; cbn [vl_apex_correction] in Q.
      * destruct (Req_EM_T (alpha * (1 / (3 * a * b)) * h + K) 0).
        { cbn [omap omap2] in Q. apply (f_equal snd) in Q. rewrite apex_none in Q. discriminate. }
        cbn [omap omap2] in Q. rewrite AB. apply (IH (S nr) f _ _ _ ltac:(lia) Q).
      * destruct (Req_EM_T (alpha * (1 / (3 * a * b))) 0).
        { cbn [omap omap2] in Q. apply (f_equal snd) in Q. rewrite apex_none in Q. discriminate. }
        cbn [omap omap2] in Q. rewrite Rplus_0_r in Q.
        replace (Rabs (if rltb small acc_old then 0 / acc_old else 0)) with 0 in Q
          by (unfold Rdiv; rewrite Rmult_0_l; destruct (rltb small acc_old); rewrite Rabs_R0; reflexivity).
        apply (IH (S nr) f _ _ _ ltac:(lia) Q).
  - cbn [omap omap2] in Q. apply (f_equal snd) in Q. rewrite apex_none in Q. discriminate.
Qed.

(** ** Agreement with the standard class *)
Lemma apex_state_assumed fixed L z : apex_state (assumed_laws fixed L) z = apex_state L z.
Proof.
  destruct fixed; [|reflexivity]. unfold apex_state, assumed_laws, flat. cbn [l_y l_a l_b].
  destruct (l_y L z) as [[y H]|]; [|reflexivity]. destruct (l_a L z) as [[a ha]|]; [|reflexivity]. destruct (l_b L z) as [[b hb]|]; reflexivity.
Qed.
Lemma apex_newton_assumed fixed L K alpha p acc_old : forall fuel first diter x,
  apex_newton (assumed_laws fixed L) K alpha p acc_old fuel first diter x = apex_newton L K alpha p acc_old fuel first diter x.
Proof.
  induction fuel as [|f IH]; intros first diter x; cbn [apex_newton]; rewrite apex_state_assumed;
    destruct (apex_state L (acc_old + alpha * x)) as [[[[y H] a] b]|]; try reflexivity;
    destruct (Req_EM_T (a * b) 0); try reflexivity;
    (match goal with |- (if ?c then _ else _) = _ => destruct c end); try reflexivity.
  destruct H; destruct (Req_EM_T _ 0); try reflexivity; apply IH.
Qed.
Lemma apex_alpha_assumed fixed L : apex_alpha (assumed_laws fixed L) = apex_alpha L.
Proof.
  destruct fixed; [|reflexivity]. unfold apex_alpha, assumed_laws, flat. cbn [l_a l_b].
  destruct (l_a L 0) as [[a ha]|]; [|reflexivity]. destruct (l_b L 0) as [[b hb]|]; reflexivity.
Qed.
Lemma value_assumed fixed L x :
  law_value (l_y (assumed_laws fixed L)) x = law_value (l_y L) x /\ law_value (l_a (assumed_laws fixed L)) x = law_value (l_a L) x /\
  law_value (l_b (assumed_laws fixed L)) x = law_value (l_b L) x /\ law_value (l_c (assumed_laws fixed L)) x = law_value (l_c L) x /\
  law_value (l_d (assumed_laws fixed L)) x = law_value (l_d L) x.
Proof. destruct fixed; cbn [assumed_laws l_y l_a l_b l_c l_d]; rewrite ?flat_value; auto. Qed.
Lemma effective_assumed fixed L x s : lou_effective (assumed_laws fixed L) x s = lou_effective L x s.
Proof. unfold lou_effective. destruct (value_assumed fixed L x) as (_ & -> & -> & -> & ->). reflexivity. Qed.
Lemma y_assumed fixed L : l_y (assumed_laws fixed L) = l_y L.
Proof. destruct fixed; reflexivity. Qed.

Lemma alpha_regular L alpha : regular_b L -> vl_alpha L = Some alpha -> apex_alpha L = Some alpha.
Proof.
  intros (_ & RE). unfold vl_alpha, apex_alpha. destruct (l_a L 0) as [[a ha]|] eqn:A; [|discriminate]. destruct (l_b L 0) as [[b hb]|] eqn:B; [|discriminate].
  pose proof (RE a ha b hb eq_refl eq_refl) as P. rewrite (safe_regular _ P). destruct (Req_EM_T (3 * a * b) 0); [lra|]. auto.
Qed.
Lemma kmf_scale_soid k : kmf (fun i j => k * soid i j) = vscale k (kmf soid).
Proof. unfold kmf, vscale, soid. cbn [map Nat.eqb]. list_eq; ring. Qed.

Lemma vl_core_agrees solve fixed E v L et a o : 1 + v <> 0 -> 1 - 2 * v <> 0 -> E <> 0 -> regular_b L -> 0 <= a ->
  vl_core solve fixed true E v L (Some et) (Some a) = Ok o -> vl_ok o = true ->
  lou_core solve E v (assumed_laws fixed L) (Some et) (Some a) = Ok (LCore (vl_e o) (vl_stress o) (vl_acc o) (vl_plast o) false).
Proof.
  intros V1 V2 HE RB A0. unfold vl_core, lou_core. rewrite iso_tangent_mf, mf2_3d. cbn [rbind]. 
  match goal with |- context[mv ?m et] => set (Cm := m) end.
  destruct (vget_tensor_from_mf2 (mv Cm et) 3 order_sym_3d true) as [tr|] eqn:Ftr; cbn [rbind]; [|discriminate].
  destruct (vget_tensor_from_mf2 et 3 order_sym_3d true) as [et_t|] eqn:Fet; cbn [rbind]; [|discriminate].
  fold (law_value (l_a L) a). fold (law_value (l_b L) a). fold (law_value (l_c L) a). fold (law_value (l_d L) a). fold (law_value (l_y L) a).
  fold (lou_effective L a tr).
  unfold lou_return. fold (law_value (l_a (assumed_laws fixed L)) a). fold (law_value (l_b (assumed_laws fixed L)) a).
  fold (law_value (l_c (assumed_laws fixed L)) a). fold (law_value (l_d (assumed_laws fixed L)) a). fold (law_value (l_y (assumed_laws fixed L)) a).
  fold (lou_effective (assumed_laws fixed L) a tr). rewrite effective_assumed.
  destruct (value_assumed fixed L a) as (-> & -> & -> & _ & _).
  set (el := match lou_effective L a tr with Some f => _ | None => false end).
  unfold vl_plastic_step. fold (law_value (l_a L) a). fold (law_value (l_b L) a). fold (law_value (l_y L) a).
  set (ia := match law_value (l_y L) a with Some y => _ | None => false end).
  destruct (vl_plastic_step_cone solve fixed L (iso_tangent E v) Cm (el || ia) et_t a) as [cone|] eqn:CO; cbn [rbind]; [|discriminate].
  destruct el.
  { intros H _. injection H as <-. reflexivity. }
  cbn [orb] in CO. destruct ia.
  - intros H OK. injection H as <-. unfold vl_plastic_step_apex in *. destruct (vl_alpha L) as [alpha|] eqn:AL; [|cbn [vl_ok orb negb] in OK; discriminate OK].
    rewrite apex_alpha_assumed, (alpha_regular L alpha RB AL). cbn [orb negb] in *.
    destruct (vl_apex_loop L (bulk E v) alpha (1/3 * ttrace tr) a false 0 vl_max_n_iterations (Some 0) (Some 0)) as [[x|] [|]] eqn:LP; cbn [vl_ok] in OK; try discriminate OK.
    2: { exfalso. apply (apex_some _ _ _ _ _ _ _ _ _ LP). }
    rewrite apex_newton_assumed.
    pose proof (apex_loop_agrees L _ _ _ a RB A0 vl_max_n_iterations 0 su_max_n_iterations 0 0 x ltac:(unfold vl_max_n_iterations, su_max_n_iterations; lia) LP) as AG.
    cbn [Nat.eqb] in AG. rewrite AG.
    cbn [rbind vl_e vl_stress vl_acc vl_plast]. rewrite mf2_3d. cbn [rbind]. unfold Cm. rewrite hooke_kmf.
    rewrite (kmf_scale_soid (1 / (3 * bulk E v) * (1 / 3 * ttrace tr - bulk E v * x))). do 3 f_equal.
    rewrite <- (kmf_scale_soid (1 / 3 * ttrace tr - bulk E v * x)). apply kmf_ext. intros i j Hi Hj.
    pose proof (bulk_hooke E v (1 / 3 * ttrace tr - bulk E v * x) V1 V2 HE i j Hi Hj) as BH. unfold sig_of in BH. rewrite BH. reflexivity.
  - intros H OK. injection H as <-. unfold vl_plastic_step_cone in CO. rewrite y_assumed.
    destruct (vl_surface_loop solve fixed L (iso_tangent E v) (omap fst (l_y L 0)) et_t a false 0 vl_max_n_iterations (Some 0) (Some (et_t, a, 0))) as [[[[[e' a'] g]|] [|]]|] eqn:LP;
      cbn [rbind] in CO; try discriminate CO; try (injection CO as <-; discriminate OK).
    + rewrite mf2_3d in CO. cbn [rbind] in CO. injection CO as <-.
      destruct (l_y L 0) as [[y0 h0]|] eqn:Y0; cbn [omap fst] in LP.
      * pose proof (loop_agrees solve fixed L _ y0 et_t a A0 vl_max_n_iterations 0 su_max_n_iterations 0 et_t a 0 e' a' g ltac:(unfold vl_max_n_iterations, su_max_n_iterations; lia) LP) as AG.
        cbn [Nat.eqb] in AG. rewrite AG. cbn [rbind]. rewrite mf2_3d. reflexivity.
      * exfalso. apply loop_y0_none in LP. discriminate LP.
    + exfalso. apply (loop_some _ _ _ _ _ _ _ _ _ _ _ LP).
Qed.

(** * The two classes agree *)
Theorem vlou_agrees_with_standard solve fixed pt E v L inc st st' ap : 1 + v <> 0 -> 1 - 2 * v <> 0 -> E <> 0 -> regular_b L ->
  (forall a, vs_acc st = Some a -> 0 <= a) ->
  vl_state_update solve fixed true pt E v L inc st = Ok (st', ap) -> vs_fail st' = false ->
  lou_state_update solve pt E v (assumed_laws fixed L) inc st = Ok st'.
Proof.
  intros V1 V2 HE RB PA. unfold vl_state_update, lou_state_update.
  destruct (get_problem_type_parameters pt) as [[[n order] z]|]; cbn [rbind]; [|discriminate].
  destruct (vget_tensor_mf2 inc n order true) as [im|]; cbn [rbind]; [|discriminate].
  assert (CORE : forall et o, vl_core solve fixed true E v L et (vs_acc st) = Ok o -> negb (vl_ok o) = false ->
    lou_core solve E v (assumed_laws fixed L) et (vs_acc st) = Ok (LCore (vl_e o) (vl_stress o) (vl_acc o) (vl_plast o) false)).
  { intros et o VC OK. apply negb_false_iff in OK. destruct et as [et|]; [destruct (vs_acc st) as [a|] eqn:EA|].
    - apply vl_core_agrees; auto.
    - unfold vl_core in VC. rewrite iso_tangent_mf, mf2_3d in VC. cbn [rbind] in VC. injection VC as <-. discriminate.
    - unfold vl_core in VC. rewrite iso_tangent_mf, mf2_3d in VC. cbn [rbind] in VC. injection VC as <-. discriminate. }
  destruct (Nat.eqb pt 4).
  - destruct (vl_core solve fixed true E v L _ (vs_acc st)) as [o|] eqn:VC; cbn [rbind]; [|discriminate].
    intros H F. injection H as <- _. cbn [vs_fail] in F. rewrite (CORE _ _ VC F). cbn [rbind lc_e lc_stress lc_acc lc_plast lc_fail]. rewrite F. reflexivity.
  - destruct (Nat.eqb pt 1); [|discriminate].
    destruct (vget_state_3Dmf_from_2Dmf im 0) as [i3|]; cbn [rbind]; [|discriminate].
    destruct (lift_res (omap2 vget_state_3Dmf_from_2Dmf (vs_e st) (vs_e33 st))) as [eo|]; cbn [rbind]; [|discriminate].
    destruct (vl_core solve fixed true E v L _ (vs_acc st)) as [o|] eqn:VC; cbn [rbind]; [|discriminate].
    destruct (lift_res (omap vget_state_2Dmf_from_3Dmf (omap _ eo))) as [t2|] eqn:E2; cbn [rbind]; [|discriminate].
    destruct (lift_res (omap vget_state_2Dmf_from_3Dmf (vl_e o))) as [e2|] eqn:E3; cbn [rbind]; [|discriminate].
    destruct (lift_res (omap vget_state_2Dmf_from_3Dmf (vl_stress o))) as [s2|] eqn:E4; cbn [rbind]; [|discriminate].
    intros H F. injection H as <- _. cbn [vs_fail] in F. rewrite (CORE _ _ VC F). cbn [rbind lc_e lc_stress lc_acc lc_plast lc_fail].
    cbn [rbind]. rewrite E3. cbn [rbind]. rewrite E4. cbn [rbind]. rewrite F. reflexivity.
Qed.

(** * What an accepted step satisfies, for all flags and laws *)
Definition safe_apex_step (E v : R) (L : lou_laws) (et : T2) (a : R) (e' : T2) (a' : R) : Prop :=
  let p := trace 3 (sig_of E v et) / 3 in
  let bounded (x : R) := Rmax (Rabs x) (1 / 1000000) in
  exists x alpha a0 b0 y aa bb,
    law_value (l_a L) 0 = Some a0 /\ law_value (l_b L) 0 = Some b0 /\
    alpha = 2 * sqrt 3 / 3 * sqrt (1 - (3 * a0 * b0) ^ 2 / 3) / bounded (3 * a0 * b0) /\
    a' = a + alpha * x /\ eq2 3 (sig_of E v e') (fun i j => (p - bulk E v * x) * ident i j) /\
    law_value (l_y L) a' = Some y /\ law_value (l_a L) a' = Some aa /\ law_value (l_b L) a' = Some bb /\ aa <> 0 /\
    relative (Rabs (y / (3 * aa * bounded bb) - (p - bulk E v * x))) (Rabs y) < / 1000000.

Theorem vlou_step_3d solve fixed apex E v L st e eps a inc st' ap : 1 + v <> 0 -> 1 - 2 * v <> 0 -> E <> 0 ->
  symmetric 3 e -> symmetric 3 inc -> vs_e st = Some (kmf e) -> vs_strain st = Some (kmf eps) -> vs_acc st = Some a ->
  vl_state_update solve fixed apex 4 E v L inc st = Ok (st', ap) ->
  let et : T2 := fun i j => e i j + inc i j in
  vs_strain st' = Some (kmf (fun i j => eps i j + inc i j)) /\ (ap = true -> apex = true /\ vs_plast st' = true) /\
  ((vs_fail st' = true /\ vs_plast st' = true /\ vs_e st' = None /\ vs_stress st' = None /\ vs_acc st' = None) \/
   exists e' a', vs_fail st' = false /\ symmetric 3 e' /\ vs_e st' = Some (kmf e') /\ vs_stress st' = Some (kmf (sig_of E v e')) /\
     vs_acc st' = Some a' /\
     if vs_plast st' then (if ap then safe_apex_step E v L et a e' a' else surface_step E v L et a e' a') else elastic_step E v L et a e' a').
Proof.
  intros V1 V2 HE Se Si E1 E2 E3 H et.
  assert (Set_ : symmetric 3 et) by (intros i j Hi Hj; unfold et; rewrite (Se i j), (Si i j) by auto; reflexivity).
  unfold vl_state_update in H. cbn [get_problem_type_parameters rbind Nat.eqb] in H. rewrite mf2_3d in H. cbn [rbind] in H.
  rewrite E1, E2, E3 in H. cbn [omap omap2] in H. rewrite kmf_add, kmf_sub, kmf_add in H. fold et in H.
  unfold vl_core in H. rewrite iso_tangent_mf, mf2_3d in H. cbn [rbind] in H. rewrite hooke_kmf in H. fold (sig_of E v et) in H.
  destruct (from_kmf (sig_of E v et) (hooke_symmetric _ _ _ Set_)) as (tr & Ftr & Etr).
  destruct (from_kmf et Set_) as (et_t & Fet & Eet).
  rewrite Ftr, Fet in H. cbn [rbind] in H.
  assert (STR : kmf (fun i j => e i j + inc i j + (eps i j - e i j)) = kmf (fun i j => eps i j + inc i j)) by (apply kmf_ext; intros i j _ _; ring).
  rewrite STR in H.
  fold (law_value (l_a L) a) in H. fold (law_value (l_b L) a) in H. fold (law_value (l_c L) a) in H. fold (law_value (l_d L) a) in H. fold (law_value (l_y L) a) in H.
  fold (lou_effective L a tr) in H. rewrite (effective_ext L a _ _ Etr) in H.
  assert (PT : 1/3 * ttrace tr = trace 3 (sig_of E v et) / 3).
  { unfold ttrace, trace. rewrite !Etr by lia. cbn [rsum]. field. }
  set (el := match lou_effective L a (sig_of E v et) with Some f => _ | None => false end) in H.
  destruct (vl_plastic_step solve fixed apex E v L _ (kmf soid) el et_t tr a) as [o|] eqn:PS; cbn [rbind] in H; [|discriminate].
  injection H as <- <-.
  destruct el eqn:EL.
  { cbn [vl_elastic_step vs_strain vs_fail vs_plast vs_e vs_stress vs_acc vl_e vl_stress vl_acc vl_plast vl_ok vl_isapex negb].
    split; [reflexivity|]. split; [discriminate|]. right. exists et, a. repeat (split; auto).
    unfold el in EL. destruct (lou_effective L a (sig_of E v et)) as [f|] eqn:F; [|discriminate].
    destruct (law_value (l_y L) a) as [y|] eqn:Y; [|discriminate]. exists f, y. split; auto. split; auto. unfold yield_quot_le in EL.
    destruct (Req_EM_T y 0) as [Z|Z]; [apply rltb_iff in EL|apply rleb_iff in EL].
    - split; [contradiction|]. intros _. lra.
    - split; [intros _; exact EL|contradiction]. }
  unfold vl_plastic_step in PS. rewrite PT in PS. fold (law_value (l_a L) a) in PS. fold (law_value (l_b L) a) in PS. fold (law_value (l_y L) a) in PS.
  match type of PS with context[orb false ?c] => set (ia := c) in PS end. cbn [orb] in PS.
  destruct (vl_plastic_step_cone solve fixed L (iso_tangent E v) _ ia et_t a) as [cone|] eqn:CO; cbn [rbind] in PS; [|discriminate].
  injection PS as <-. destruct ia eqn:IA.
  - (* apex *)
    assert (AX : apex = true) by (unfold ia in IA; destruct apex; [reflexivity|discriminate]).
    unfold vl_plastic_step_apex. cbn [negb]. destruct (vl_alpha L) as [alpha|] eqn:AL.
    2: { cbn [vs_strain vs_fail vs_plast vs_e vs_stress vs_acc vl_e vl_stress vl_acc vl_plast vl_ok vl_isapex negb]. split; [reflexivity|]. split; [auto|]. left. auto. }
    destruct (vl_apex_loop L (bulk E v) alpha (trace 3 (sig_of E v et) / 3) a false 0 vl_max_n_iterations (Some 0) (Some 0)) as [[x|] [|]] eqn:LP;
      cbn [vs_strain vs_fail vs_plast vs_e vs_stress vs_acc vl_e vl_stress vl_acc vl_plast vl_ok vl_isapex negb]; (split; [reflexivity|]); (split; [auto|]).
    2: left; auto. 2: exfalso; apply (apex_some _ _ _ _ _ _ _ _ _ LP). 2: left; auto.
    right. set (p := trace 3 (sig_of E v et) / 3) in *. set (e' := fun i j => 1 / (3 * bulk E v) * (p - bulk E v * x) * soid i j).
    exists e', (a + alpha * x). split; [reflexivity|]. split; [intros i j Hi Hj; unfold e'; rewrite (soid_sym j i); reflexivity|].
    split; [unfold e'; rewrite (kmf_scale_soid (1 / (3 * bulk E v) * (p - bulk E v * x))); reflexivity|].
    split; [rewrite <- kmf_scale_soid; f_equal; apply kmf_ext; intros i j Hi Hj; unfold e'; rewrite (bulk_hooke E v _ V1 V2 HE i j Hi Hj); reflexivity|].
    split; [reflexivity|].
    destruct (apex_sound _ _ _ _ _ _ _ _ _ _ LP) as (y & H & beta & VA & NR).
    clear LP CO. unfold vl_alpha in AL. destruct (l_a L 0) as [[a0 h0]|] eqn:A0; [|discriminate AL]. destruct (l_b L 0) as [[b0 h1]|] eqn:B0; [|discriminate AL].
    destruct (rltb (1 - 1 / 3 * (3 * a0 * b0) ^ 2) 0); [discriminate AL|]. injection AL as <-.
    unfold vl_apex_values in VA. set (a' := a + _ * x) in *.
    destruct (l_y L a') as [[y' H']|] eqn:Y; [|discriminate VA]. destruct (l_a L a') as [[aa ha]|] eqn:AA; [|discriminate VA].
    destruct (l_b L a') as [[bb hb]|] eqn:BB; [|discriminate VA]. destruct (Req_EM_T aa 0) as [|NA]; [discriminate VA|]. injection VA as <- <- <-.
    exists x, (2 * sqrt 3 / 3 * sqrt (1 - 1 / 3 * (3 * a0 * b0) ^ 2) / vl_safe (3 * a0 * b0)), a0, b0, y', aa, bb.
    unfold law_value. rewrite A0, B0, Y, AA, BB. split; [reflexivity|]. split; [reflexivity|].
    split; [unfold vl_safe; replace ((3 * a0 * b0) ^ 2 / 3) with (1 / 3 * (3 * a0 * b0) ^ 2) by field; reflexivity|].
    split; [reflexivity|].
    split; [intros i j Hi Hj; unfold e'; rewrite (bulk_hooke E v _ V1 V2 HE i j Hi Hj); reflexivity|].
    repeat (split; [auto|]). unfold apex_norm in NR. rewrite rltb_dec in NR. unfold small in NR. unfold relative.
    fold (vl_safe bb). replace (y' / (3 * aa * vl_safe bb)) with (y' * (1 / (3 * aa * vl_safe bb))) by (unfold Rdiv; ring). destruct (Rlt_dec (Rabs y') (/ 100000000)); exact NR.
  - (* surface *)
    unfold vl_plastic_step_cone in CO.
    destruct (vl_surface_loop solve fixed L (iso_tangent E v) (omap fst (l_y L 0)) et_t a false 0 vl_max_n_iterations (Some 0) (Some (et_t, a, 0))) as [[[[[e' a'] g]|] [|]]|] eqn:LP;
      cbn [rbind] in CO; try discriminate CO.
    2: injection CO as <-; cbn [vs_strain vs_fail vs_plast vs_e vs_stress vs_acc vl_e vl_stress vl_acc vl_plast vl_ok vl_isapex negb]; split; [reflexivity|]; split; [discriminate|]; left; auto.
    2: exfalso; apply (loop_some _ _ _ _ _ _ _ _ _ _ _ LP).
    2: injection CO as <-; cbn [vs_strain vs_fail vs_plast vs_e vs_stress vs_acc vl_e vl_stress vl_acc vl_plast vl_ok vl_isapex negb]; split; [reflexivity|]; split; [discriminate|]; left; auto.
    rewrite mf2_3d in CO. cbn [rbind] in CO. rewrite hooke_kmf in CO. injection CO as <-.
    cbn [vs_strain vs_fail vs_plast vs_e vs_stress vs_acc vl_e vl_stress vl_acc vl_plast vl_ok vl_isapex negb]. split; [reflexivity|]. split; [discriminate|]. right.
    assert (Se_ : symmetric 3 et_t) by (intros i j Hi Hj; rewrite !Eet by auto; apply Set_; auto).
    destruct (loop_sound solve fixed L _ _ _ _ _ _ _ _ _ _ _ _ _ Se_ LP) as (Se' & s & G & ER).
    clear LP. exists e', a'. split; [reflexivity|]. split; [exact Se'|]. split; [reflexivity|]. split; [reflexivity|]. split; [reflexivity|].
    destruct (l_y L 0) as [[y0 h0]|] eqn:Y0; cbn [omap fst] in G; [|apply vl_grj_none in G; discriminate G].
    rewrite vl_grj_assumed in G.
    destruct (lou_residuals_are_backward_euler _ _ _ _ _ _ _ _ _ (iso_minor E v) G) as (N & f & y & GR & F & Y & NZ & R1 & R2 & R3).
    pose proof (iso_apply E v e' Se') as IAp. change (ddot42_1 3 (iso_tangent E v) e') with (ddot42 3 (iso_tangent E v) e') in IAp.
    rewrite effective_assumed in F. rewrite (proj1 (value_assumed fixed L a')) in Y. rewrite assoc_assumed in R2.
    assert (FE : lou_effective (assumed_laws fixed L) a' = lou_effective L a') by (apply functional_extensionality; intros z; apply effective_assumed).
    rewrite FE in GR.
    exists g, N, f, y, y0. unfold law_value at 1. rewrite Y0. split; auto. split; auto. split; auto.
    split; [rewrite <- (effective_ext _ _ _ _ IAp); exact F|].
    split.
    { destruct GR as [SN' GR]. split; auto. intros sg X E0. apply GR. intros i j Hi Hj. rewrite E0, IAp by auto. reflexivity. }
    rewrite R2, R3 in ER. unfold surface_error in *.
    rewrite (tnorm_ext (rj_1 s) (fun i j => e' i j - et i j + g * N i j)) in ER by (intros i j Hi Hj; rewrite R1, Eet by auto; reflexivity).
    rewrite (tnorm_ext et_t et Eet) in ER. exact ER.
Qed.

(** * Trial states without third deviatoric invariant raise, elastic or not *)
Theorem vlou_singular_deviator_raises solve fixed apex E v L st e a inc : symmetric 3 e -> symmetric 3 inc ->
  vs_e st = Some (kmf e) -> vs_acc st = Some a ->
  J3 (sig_of E v (fun i j => e i j + inc i j)) = 0 ->
  vl_state_update solve fixed apex 4 E v L inc st = Err RuntimeError.
Proof.
  intros Se Si E1 E3. set (et := fun i j => e i j + inc i j). set (sig := sig_of E v et). intros Z.
  assert (Set_ : symmetric 3 et) by (intros i j Hi Hj; unfold et; rewrite (Se i j), (Si i j) by auto; reflexivity).
  unfold vl_state_update. cbn [get_problem_type_parameters rbind Nat.eqb]. rewrite mf2_3d. cbn [rbind].
  rewrite E1, E3. cbn [omap]. rewrite kmf_add. fold et.
  unfold vl_core. rewrite iso_tangent_mf, mf2_3d. cbn [rbind]. rewrite hooke_kmf. fold (sig_of E v et). fold sig.
  assert (Ss : symmetric 3 sig) by (apply hooke_symmetric; auto).
  destruct (from_kmf sig Ss) as (tr & Ftr & Etr). destruct (from_kmf et Set_) as (et_t & Fet & Eet).
  rewrite Ftr, Fet. cbn [rbind].
  assert (Set2 : symmetric 3 et_t) by (intros i j Hi Hj; rewrite !Eet by auto; apply Set_; auto).
  assert (GE : forall y0, vl_residual_and_jacobian fixed L (iso_tangent E v) y0 et_t et_t a a 0 = Err RuntimeError).
  { intros y0. unfold vl_residual_and_jacobian. rewrite ders_err; [reflexivity|].
    rewrite <- j3_det by (apply c42_sym, iso_minor).
    rewrite (inv_ext _ sig); [rewrite (proj2 (deviatoric_invariants sig)); exact Z|].
    intros i j Hi Hj. rewrite (iso_apply E v et_t Set2 i j Hi Hj). unfold sig, sig_of, hooke, trace. cbn [rsum]. rewrite !Eet by lia. reflexivity. }
  assert (CO : forall Ce b, vl_plastic_step_cone solve fixed L (iso_tangent E v) Ce b et_t a = Err RuntimeError).
  { intros Ce b. unfold vl_plastic_step_cone, vl_max_n_iterations.
    assert (LE : forall n diter, vl_surface_loop solve fixed L (iso_tangent E v) (omap fst (l_y L 0)) et_t a b 0 n diter (Some (et_t, a, 0)) = Err RuntimeError).
    { intros n diter. destruct n; cbn [vl_surface_loop]; rewrite GE; reflexivity. }
    rewrite LE. reflexivity. }
  unfold vl_plastic_step. rewrite CO. reflexivity.
Qed.

(** A null increment from the virgin state is elastic for the standard class
    and an exception for the vectorised one. *)
Theorem vlou_null_increment_refuted : exists L, regular_b L /\ forall solve fixed apex,
  lou_state_update solve 4 1 0 L zero2 virgin = Ok virgin /\
  vl_state_update solve fixed apex 4 1 0 L zero2 virgin = Err RuntimeError.
Proof.
  exists (const_laws 1 1 (1/3) 0 0 true). split.
  { split; unfold const_laws, l_a, l_b, const_law; intros.
    - match goal with H : _ = Some _ |- _ => injection H as <- <- end. lra.
    - repeat match goal with H : _ = Some _ |- _ => injection H as <- <- end. lra. }
  intros solve fixed apex.
  assert (Z0 : forall i j, zero2 i j = 0) by reflexivity.
  assert (SZ : eq2 3 (sig_of 1 0 (fun i j => zero2 i j + zero2 i j)) zero2).
  { intros i j Hi Hj. rewrite unit_modulus by auto. rewrite Z0. ring. }
  split.
  - unfold lou_state_update. cbn [get_problem_type_parameters rbind Nat.eqb]. rewrite mf2_3d. cbn [rbind].
    change (vs_e virgin) with (Some (kmf zero2)). change (vs_strain virgin) with (Some (kmf zero2)). change (vs_acc virgin) with (Some 0). cbn [omap omap2]. rewrite kmf_add, kmf_sub, kmf_add.
    set (et := fun i j : nat => zero2 i j + zero2 i j) in *.
    assert (St : symmetric 3 et) by (intros i j Hi Hj; reflexivity).
    unfold lou_core. rewrite iso_tangent_mf. cbn [rbind]. rewrite hooke_kmf. fold (sig_of 1 0 et).
    assert (Ss : symmetric 3 (sig_of 1 0 et)) by (intros i j Hi Hj; rewrite !SZ by auto; reflexivity).
    destruct (from_kmf (sig_of 1 0 et) Ss) as (tr & Ftr & Etr). destruct (from_kmf et St) as (et_t & Fet & Eet).
    rewrite Ftr, Fet. cbn [rbind].
    assert (LR : lou_return solve 1 0 (const_laws 1 1 (1/3) 0 0 true) et_t tr 0 = Ok LElastic).
    { unfold lou_return. cbn [const_laws l_a l_b l_c l_d l_y const_law].
      assert (EF : get_effective_stress tr 1 (1/3) 0 0 = Some 0).
      { unfold get_effective_stress. rewrite (inv_ext tr (sig_of 1 0 et) Etr). fold (get_effective_stress (sig_of 1 0 et) 1 (1/3) 0 0).
        rewrite (reduces_to_drucker_prager (sig_of 1 0 et) 1 Ss). f_equal.
        assert (TZ : trace 3 (sig_of 1 0 et) = 0) by (unfold trace; cbn [rsum]; rewrite !SZ by lia; rewrite !Z0; ring).
        assert (DZ : ddot 3 (deviator3 (sig_of 1 0 et)) (deviator3 (sig_of 1 0 et)) / 2 = 0).
        { unfold ddot, sum2, deviator3. rewrite TZ. cbn [rsum]. rewrite !SZ by lia. rewrite !Z0. field. }
        rewrite TZ, DZ, sqrt_0. field. }
      rewrite EF. assert (YQ : yield_quot_le (0 - 1) 1 = true).
      { unfold yield_quot_le. destruct (Req_EM_T 1 0); [lra|]. apply rleb_iff. unfold su_conv_tol. lra. }
      rewrite YQ. reflexivity. }
    rewrite LR. cbn [rbind lc_e lc_stress lc_acc lc_plast lc_fail]. unfold virgin.
    assert (KZ : kmf et = kmf zero2) by (apply kmf_ext; intros i j _ _; unfold et, zero2; ring).
    assert (KS : kmf (sig_of 1 0 et) = kmf zero2) by (apply kmf_ext; intros i j Hi Hj; apply SZ; auto).
    rewrite KZ, KS. do 2 f_equal. f_equal. apply kmf_ext. intros i j _ _. unfold et, zero2. ring.
  - apply (vlou_singular_deviator_raises solve fixed apex 1 0 _ virgin zero2 0 zero2); try reflexivity; try (intros i j Hi Hj; reflexivity).
    unfold J3, deviator3, det. cbn [rsum].
    assert (TZ : trace 3 (sig_of 1 0 (fun i j => zero2 i j + zero2 i j)) = 0) by (unfold trace; cbn [rsum]; rewrite !SZ by lia; rewrite !Z0; ring).
    rewrite TZ, !SZ by lia. rewrite !Z0. unfold levi. field.
Qed.

(** ** Perfectly plastic return to the apex *)
Lemma vl_apex_perfect y a b c d assoc K alpha p acc n : a <> 0 -> K <> 0 ->
  vl_apex_loop (const_laws y a b c d assoc) K alpha p acc false 0 (S (S n)) (Some 0) (Some 0) = (Some ((p - y / (3 * a * vl_safe b)) / K), true).
Proof.
  intros NA HK. set (L := const_laws y a b c d assoc). set (beta := 1 / (3 * a * vl_safe b)). set (z := (p - y / (3 * a * vl_safe b)) / K).
  assert (SP : 0 < vl_safe b) by (unfold vl_safe; eapply Rlt_le_trans; [|apply Rmax_r]; lra).
  assert (V : forall x, vl_apex_values L x = Some (y, Fin 0, beta)).
  { intros x. unfold vl_apex_values, L, const_laws, l_y, l_a, l_b, const_law. destruct (Req_EM_T a 0); [contradiction|reflexivity]. }
  assert (R0 : y * beta - (p - K * z) = 0) by (unfold beta, z; field; repeat split; auto; lra).
  assert (JK : alpha * beta * 0 + K = K) by ring.
  assert (N0 : rltb (apex_norm y 0) su_conv_tol = true).
  { apply rltb_iff. unfold apex_norm, su_conv_tol, Rdiv. rewrite Rabs_R0, Rmult_0_l. destruct (rltb _ _); lra. }
  assert (T0 : rltb 0 su_conv_tol = true) by (apply rltb_iff; unfold su_conv_tol; lra).
  cbn [vl_apex_loop]. rewrite V. cbn [Nat.ltb Nat.leb]. rewrite andb_false_r. cbn [vl_apex_correction]. rewrite JK.
  destruct (Req_EM_T K 0); [contradiction|]. cbn [omap omap2].
  replace (0 + - (y * beta - (p - K * 0)) / K) with z by (unfold z, beta; field; repeat split; auto; lra).
  rewrite V. rewrite R0. fold (apex_norm y 0).
  match goal with |- context[if ?cc then Some 0 else _] => destruct cc eqn:CC end; cbn [omap omap2].
  - rewrite Rplus_0_r. apply (apex_stable L K alpha p acc z y (Fin 0) beta (V _)). rewrite R0. unfold apex_accepted. rewrite N0. cbn [olt andb Nat.ltb Nat.leb].
    rewrite andb_true_r. unfold Rdiv. rewrite Rmult_0_l. destruct (rltb small acc); rewrite Rabs_R0; exact T0.
  - assert (C0 : vl_apex_correction K alpha beta 0 (Fin 0) = Some 0).
    { cbn [vl_apex_correction]. rewrite JK. destruct (Req_EM_T K 0); [contradiction|]. f_equal. unfold Rdiv. rewrite Ropp_0. ring. }
    rewrite C0. cbn [omap]. rewrite Rplus_0_r. apply (apex_stable L K alpha p acc z y (Fin 0) beta (V _)). rewrite R0. unfold apex_accepted. rewrite N0. cbn [olt andb Nat.ltb Nat.leb].
    rewrite andb_true_r. unfold Rdiv. rewrite Rmult_0_l. destruct (rltb small acc); rewrite Rabs_R0; exact T0.
Qed.

(** Uniaxial trial stress returned to the apex: b = s/3 with s = 1 or -1. *)
Section Uniaxial.
  Variables (solve : list (list R) -> list R -> res (option (list R))) (s : R).
  Hypothesis SV : forall J b, exists d, solve J b = Ok d.
  Hypothesis Hs : s = 1 \/ s = -1.
  Let L := const_laws 1 1 (s / 3) 0 0 true.
  Let et : T2 := fun i j => zero2 i j + diag3 6 0 0 i j.
  Let k := 2 * sqrt 3 / 3 * sqrt (2 / 3).

  Lemma s_sq : s * s = 1.
  Proof. destruct Hs as [-> | ->]; ring. Qed.
  Lemma safe_s : vl_safe (s / 3) = 1 / 3.
  Proof.
    unfold vl_safe. assert (A : Rabs (s / 3) = 1 / 3) by (destruct Hs as [-> | ->]; [rewrite Rabs_right by lra; reflexivity|rewrite Rabs_left by lra; field]).
    rewrite A. apply Rmax_left. lra.
  Qed.
  Lemma safe_eta : vl_safe (3 * 1 * (s / 3)) = 1.
  Proof.
    unfold vl_safe. assert (A : Rabs (3 * 1 * (s / 3)) = 1).
    { replace (3 * 1 * (s / 3)) with s by field. destruct Hs as [-> | ->]; [apply Rabs_R1|rewrite Rabs_left by lra; ring]. }
    rewrite A. apply Rmax_left. lra.
  Qed.
  Lemma eta_sq : 1 - 1 / 3 * (3 * 1 * (s / 3)) ^ 2 = 2 / 3.
  Proof. replace ((3 * 1 * (s / 3)) ^ 2) with (s * s) by field. rewrite s_sq. field. Qed.
  Lemma et_sig : eq2 3 (sig_of 1 0 et) (diag3 6 0 0).
  Proof. intros i j Hi Hj. rewrite unit_modulus by auto. unfold et, zero2. ring. Qed.
  Lemma et_sym : symmetric 3 et.
  Proof. intros i j Hi Hj. unfold et. rewrite (diag3_sym 6 0 0 i j Hi Hj). reflexivity. Qed.
  Lemma sig_sym : symmetric 3 (sig_of 1 0 et).
  Proof. apply hooke_symmetric. apply et_sym. Qed.
  Lemma plastic_trial tr : eq2 3 tr (sig_of 1 0 et) -> get_effective_stress tr 1 (s / 3) 0 0 = Some (sqrt 12 + s * 2).
  Proof.
    intros Etr. unfold get_effective_stress. rewrite (inv_ext tr (sig_of 1 0 et) Etr). fold (get_effective_stress (sig_of 1 0 et) 1 (s/3) 0 0).
    rewrite (reduces_to_drucker_prager (sig_of 1 0 et) s sig_sym). f_equal.
    assert (T : trace 3 (sig_of 1 0 et) = 6) by (unfold trace; cbn [rsum]; rewrite !et_sig by lia; unfold diag3; ring).
    assert (D : ddot 3 (deviator3 (sig_of 1 0 et)) (deviator3 (sig_of 1 0 et)) / 2 = 12).
    { unfold ddot, sum2, deviator3. rewrite T. cbn [rsum]. rewrite !et_sig by lia. unfold diag3, ident. cbn [Nat.eqb]. field. }
    rewrite T, D. field.
  Qed.
  Lemma not_elastic : yield_quot_le (sqrt 12 + s * 2 - 1) 1 = false.
  Proof.
    unfold yield_quot_le. destruct (Req_EM_T 1 0); [lra|]. destruct (rleb _ _) eqn:B; auto. apply rleb_iff in B. unfold su_conv_tol in B.
    assert (34 / 10 < sqrt 12) by (rewrite <- (sqrt_square (34/10)) by lra; apply sqrt_lt_1; lra). destruct Hs as [-> | ->]; lra.
  Qed.
  Lemma apex_trial : is_apex_return 1 1 (s / 3) 2 = true.
  Proof.
    unfold is_apex_return. destruct (Req_EM_T 1 0); [lra|]. apply rltb_iff. fold (vl_safe (s / 3)). rewrite safe_s. unfold apex_switch_tol. lra.
  Qed.

  Lemma vectorised_apex fixed : exists st', vl_state_update solve fixed true 4 1 0 L (diag3 6 0 0) virgin = Ok (st', true) /\
    vs_fail st' = false /\ vs_acc st' = Some (0 + k * 3) /\ vs_stress st' = Some (kmf ident).
  Proof.
    unfold vl_state_update. cbn [get_problem_type_parameters rbind Nat.eqb]. rewrite mf2_3d. cbn [rbind].
    change (vs_e virgin) with (Some (kmf zero2)). change (vs_acc virgin) with (Some 0). cbn [omap]. rewrite kmf_add. fold et.
    unfold vl_core. rewrite iso_tangent_mf, mf2_3d. cbn [rbind]. rewrite hooke_kmf. fold (sig_of 1 0 et).
    destruct (from_kmf (sig_of 1 0 et) sig_sym) as (tr & Ftr & Etr). destruct (from_kmf et et_sym) as (et_t & Fet & Eet).
    rewrite Ftr, Fet. cbn [rbind L const_laws l_a l_b l_c l_d l_y const_law]. rewrite (plastic_trial tr Etr), not_elastic.
    assert (PT : 1 / 3 * ttrace tr = 2) by (unfold ttrace; rewrite !Etr, !et_sig by lia; unfold diag3; field).
    unfold vl_plastic_step. rewrite PT. cbn [L const_laws l_a l_b l_c l_d l_y const_law]. rewrite apex_trial. cbn [orb negb].
    assert (CO : exists cone, vl_plastic_step_cone solve fixed L (iso_tangent 1 0) (iso_mf (lame_lambda 1 0) (2 * lame_mu 1 0)) true et_t 0 = Ok cone).
    { unfold vl_plastic_step_cone. assert (G : exists o, vl_residual_and_jacobian fixed L (iso_tangent 1 0) (Some 1) et_t et_t 0 0 0 = Ok o).
      { rewrite vl_grj_assumed. set (L' := assumed_laws fixed L). set (q := Vals 1 0 1 0 (s/3) 0 0 0 0 0).
        assert (Q : lou_values L' 0 = Some q) by (unfold L', L; destruct fixed; reflexivity).
        assert (AS : l_assoc L' = true) by (unfold L'; destruct fixed; reflexivity).
        assert (OK : c_ok L' (iso_tangent 1 0) 1 (diag3 6 0 0) 0 q) by (apply uniaxial_ok; try reflexivity; auto; lra).
        assert (EE : eq2 3 et_t (diag3 6 0 0)) by (intros i j Hi Hj; rewrite Eet by auto; unfold et, zero2; ring).
        assert (CE : eq2 3 (ddot42_1 3 (iso_tangent 1 0) et_t) (ddot42_1 3 (iso_tangent 1 0) (diag3 6 0 0))) by (intros i j Hi Hj; apply c42_ext; exact EE).
        assert (OK' : c_ok L' (iso_tangent 1 0) 1 et_t 0 q).
        { unfold c_ok in *. rewrite (dev_of_ext _ _ CE), (inv_ext _ _ CE), (ders_ext _ _ CE). exact OK. }
        destruct (grj_closed L' (iso_tangent 1 0) 1 et_t et_t 0 0 0 q OK') as (m & _ & G). rewrite G. eexists. reflexivity. }
      destruct G as (o & G). change (omap fst (l_y L 0)) with (Some 1).
      rewrite (loop_avoid_runs solve fixed L _ _ _ _ o _ _ _ _ _ _ G SV). cbn [rbind]. rewrite mf2_3d. eexists. reflexivity. }
    destruct CO as (cone & ->). cbn [rbind]. unfold vl_plastic_step_apex.
    assert (AL : vl_alpha L = Some k).
    { unfold vl_alpha, L, const_laws, l_a, l_b, const_law. rewrite eta_sq, safe_eta.
      destruct (rltb (2 / 3) 0) eqn:B; [apply rltb_iff in B; lra|]. unfold k. f_equal. field. }
    rewrite AL. unfold vl_max_n_iterations, L. rewrite vl_apex_perfect by (try lra; unfold bulk; lra). rewrite safe_s.
    assert (BK : bulk 1 0 = 1 / 3) by (unfold bulk; field). rewrite BK.
    replace ((2 - 1 / (3 * 1 * (1 / 3))) / (1 / 3)) with 3 by field.
    eexists. split; [reflexivity|]. cbn [vs_fail vs_acc vs_stress vl_ok vl_acc vl_stress negb]. split; [reflexivity|]. split; [reflexivity|].
    f_equal. rewrite <- (kmf_scale_soid (2 - 1 / 3 * 3)). apply kmf_ext. intros i j _ _. unfold soid, ident. destruct (Nat.eqb i j); field.
  Qed.
  Lemma standard_apex : exists st', lou_state_update solve 4 1 0 L (diag3 6 0 0) virgin = Ok st' /\
    vs_fail st' = false /\ vs_acc st' = Some (0 + k / s * ((2 - s) * 3)) /\ vs_stress st' = Some (kmf (fun i j => s * ident i j)).
  Proof.
    unfold lou_state_update. cbn [get_problem_type_parameters rbind Nat.eqb]. rewrite mf2_3d. cbn [rbind].
    change (vs_e virgin) with (Some (kmf zero2)). change (vs_acc virgin) with (Some 0). cbn [omap]. rewrite kmf_add. fold et.
    unfold lou_core. rewrite iso_tangent_mf. cbn [rbind]. rewrite hooke_kmf. fold (sig_of 1 0 et).
    destruct (from_kmf (sig_of 1 0 et) sig_sym) as (tr & Ftr & Etr). destruct (from_kmf et et_sym) as (et_t & Fet & Eet).
    rewrite Ftr, Fet. cbn [rbind].
    assert (PT : 1 / 3 * ttrace tr = 2) by (unfold ttrace; rewrite !Etr, !et_sig by lia; unfold diag3; field).
    assert (S0 : s <> 0) by (destruct Hs as [-> | ->]; lra).
    assert (BK : bulk 1 0 = 1 / 3) by (unfold bulk; field).
    assert (LR : lou_return solve 1 0 L et_t tr 0 =
      Ok (LApex ((2 - s) * 3) (fun i j => 1 / (3 * (1/3)) * (2 - 1/3 * ((2 - s) * 3)) * soid i j) (0 + k / s * ((2 - s) * 3)))).
    { unfold lou_return. rewrite PT. cbn [L const_laws l_a l_b l_c l_d l_y const_law]. rewrite (plastic_trial tr Etr), not_elastic, apex_trial.
      fold (const_law 1) (const_law (s / 3)) (const_law 0).
      change (Laws (const_law 1) (const_law 1) (const_law (s/3)) (const_law 0) (const_law 0) true) with L.
      assert (AL : apex_alpha L = Some (k / s)).
      { unfold apex_alpha, L, const_laws, l_a, l_b, const_law. rewrite eta_sq. destruct (Req_EM_T (3 * 1 * (s / 3)) 0) as [Q|_]; [exfalso; apply S0; lra|].
        destruct (rltb (2 / 3) 0) eqn:B; [apply rltb_iff in B; lra|]. unfold k. f_equal. field. exact S0. }
      rewrite AL, BK. unfold su_max_n_iterations, L. rewrite apex_newton_perfect by (try lra; intros Q; apply S0; lra).
      replace ((2 - 1 / (3 * 1 * (s / 3))) / (1 / 3)) with ((2 - s) * 3); [reflexivity|].
      pose proof s_sq as Q. replace (1 / (3 * 1 * (s / 3))) with s; [field|]. apply (Rmult_eq_reg_r s); [|exact S0]. rewrite Q. field. exact S0. }
    rewrite LR. cbn [rbind]. rewrite mf2_3d. cbn [rbind]. rewrite hooke_kmf.
    eexists. split; [reflexivity|]. cbn [vs_fail vs_acc vs_stress lc_fail lc_acc lc_stress]. split; [reflexivity|]. split; [reflexivity|].
    f_equal. apply kmf_ext. intros i j Hi Hj. pose proof (bulk_hooke 1 0 (2 - 1/3 * ((2 - s) * 3)) ltac:(lra) ltac:(lra) ltac:(lra) i j Hi Hj) as BH.
    rewrite BK in BH. unfold sig_of in BH. rewrite BH. field.
  Qed.
End Uniaxial.

(** A negative parameter b: the same trial state is returned to opposite
    stresses by the two classes, for every linear solver that does not raise. *)
Theorem vlou_negative_b_refuted : exists L inc, forall solve fixed, (forall J b, exists d, solve J b = Ok d) ->
  exists s1 s2 a1 a2, lou_state_update solve 4 1 0 L inc virgin = Ok s1 /\ vl_state_update solve fixed true 4 1 0 L inc virgin = Ok (s2, true) /\
    vs_fail s1 = false /\ vs_fail s2 = false /\ vs_acc s1 = Some a1 /\ vs_acc s2 = Some a2 /\ a1 < 0 < a2 /\
    vs_stress s1 = Some (kmf (fun i j => - ident i j)) /\ vs_stress s2 = Some (kmf ident).
Proof.
  exists (const_laws 1 1 (-1 / 3) 0 0 true), (diag3 6 0 0). intros solve fixed SV.
  destruct (vectorised_apex solve (-1) SV (or_intror eq_refl) fixed) as (s2 & V1 & V2 & V3 & V4).
  destruct (standard_apex solve (-1) (or_intror eq_refl)) as (s1 & S1 & S2 & S3 & S4).
  exists s1, s2. do 2 eexists. split; [exact S1|]. split; [exact V1|]. split; [exact S2|]. split; [exact V2|]. split; [exact S3|]. split; [exact V3|].
  split.
  - assert (0 < 2 * sqrt 3 / 3 * sqrt (2 / 3)) by (apply Rmult_lt_0_compat; [pose proof (sqrt_lt_R0 3); lra|apply sqrt_lt_R0; lra]).
    set (k := 2 * sqrt 3 / 3 * sqrt (2 / 3)) in *. replace (k / -1) with (- k) by field. split; lra.
  - split; [|exact V4]. rewrite S4. f_equal. apply kmf_ext. intros i j _ _. ring.
Qed.

(** Non-vacuity: with a positive parameter the same trial state is returned to
    the same apex by both classes. *)
Example vlou_apex_case : exists st', vl_state_update zero_solve true true 4 1 0 (const_laws 1 1 (1 / 3) 0 0 true) (diag3 6 0 0) virgin = Ok (st', true) /\
  vs_fail st' = false /\ vs_stress st' = Some (kmf ident) /\ regular_b (const_laws 1 1 (1 / 3) 0 0 true) /\
  lou_state_update zero_solve 4 1 0 (const_laws 1 1 (1 / 3) 0 0 true) (diag3 6 0 0) virgin = Ok st'.
Proof.
  destruct (vectorised_apex zero_solve 1 (fun J b => ex_intro _ _ eq_refl) (or_introl eq_refl) true) as (st' & V1 & V2 & V3 & V4).
  assert (RB : regular_b (const_laws 1 1 (1 / 3) 0 0 true)).
  { split; unfold const_laws, l_a, l_b, const_law; intros.
    - match goal with H : _ = Some _ |- _ => injection H as <- <- end. lra.
    - repeat match goal with H : _ = Some _ |- _ => injection H as <- <- end. lra. }
  exists st'. split; [exact V1|]. split; [exact V2|]. split; [exact V4|]. split; [exact RB|].
  pose proof (vlou_agrees_with_standard zero_solve true 4 1 0 _ (diag3 6 0 0) virgin st' true ltac:(lra) ltac:(lra) ltac:(lra) RB) as A.
  apply A; [|exact V1|exact V2]. intros a Ha. injection Ha as <-. lra.
Qed.

Print Assumptions vlou_agrees_with_standard.
Print Assumptions vlou_step_3d.
Print Assumptions vlou_singular_deviator_raises.
Print Assumptions vlou_null_increment_refuted.
Print Assumptions vlou_negative_b_refuted.
