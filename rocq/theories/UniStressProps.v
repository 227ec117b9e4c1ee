(** Uniaxial stress paths: theorems. *)
From Coq Require Import Reals String Ascii List Bool Arith ZArith Lia Lra.
Import ListNotations.
From Verif Require Import Lib PyStr PyDict HardeningModel HardeningProps MatDataModel MatDataProps MeanMetricsModel UniStressModel.
From Verif Require MeanMetricsProps.
Local Open Scope list_scope.
Local Open Scope R_scope.

(** ** Forward *)
Lemma same_shape_len a : forall b, same_shape a b = true -> length a = length b /\
  forall i, (i < length a)%nat -> length (nth i a []) = length (nth i b []).
Proof.
  induction a as [|r a IH]; intros [|s b]; cbn [same_shape]; try discriminate; intros H; [split; auto; simpl; lia|].
  apply andb_true_iff in H as [H1 H2]. apply Nat.eqb_eq in H1. destruct (IH b H2) as (A & B). split; [simpl; lia|].
  intros [|i] Hi; cbn [nth length] in *; auto. apply B. lia.
Qed.
Lemma same_shape_ok a : forall b, length a = length b ->
  (forall i, (i < length a)%nat -> length (nth i a []) = length (nth i b [])) -> same_shape a b = true.
Proof.
  induction a as [|r a IH]; intros [|s b] L H; cbn [same_shape length] in *; auto; try lia.
  pose proof (H 0%nat ltac:(lia)) as H0. cbn [nth] in H0. apply Nat.eqb_eq in H0. rewrite H0. cbn [andb]. apply IH; [lia|].
  intros i Hi. apply (H (S i)). lia.
Qed.
(** The stress path of a forward has the shape of the strain path, for the two
    known models only. *)
Theorem forward_shape vm gru name t c p s : forward_material vm gru name t c p = Ok s ->
  (name = "von_mises" \/ name = "gru")%string /\ length s = length p /\
  forall i, (i < length p)%nat -> length (nth i s []) = length (nth i p []).
Proof.
  unfold forward_material. destruct (String.eqb_spec name "von_mises") as [->|N1]; cbn [rbind].
  - destruct (same_shape (vm p) p) eqn:E; [|discriminate]. intros H. injection H as <-.
    apply same_shape_len in E as (A & B). rewrite <- A. auto.
  - destruct (String.eqb_spec name "gru") as [->|N2]; cbn [rbind]; [|discriminate].
    destruct (same_shape _ p) eqn:E; [|discriminate]. intros H. injection H as <-.
    apply same_shape_len in E as (A & B). rewrite <- A. auto.
Qed.
Theorem forward_unknown vm gru name t c p : name <> "von_mises"%string -> name <> "gru"%string ->
  forward_material vm gru name t c p = Err ValueError.
Proof. intros A B. unfold forward_material. apply String.eqb_neq in A, B. now rewrite A, B. Qed.
Lemma nth_firstn_lt {A} (d : A) : forall n j l, (j < n)%nat -> nth j (firstn n l) d = nth j l d.
Proof.
  induction n as [|n IH]; intros j l H; [lia|]. destruct l as [|a l]; [reflexivity|]. cbn [firstn].
  destruct j as [|j]; [reflexivity|]. cbn [nth]. apply IH. lia.
Qed.
(** The recurrent model sees the strain with temperature and composition at the
    end of every step, and its first six outputs are the stresses. *)
Theorem gru_forward vm gru t c p s i : forward_material vm gru "gru" t c p = Ok s -> (i < length p)%nat ->
  nth i (gru_features t c p) [] = nth i p [] ++ [t; c] /\
  forall j, (j < 6)%nat -> nth j (nth i s []) 0 = nth j (nth i (gru (gru_features t c p)) []) 0.
Proof.
  intros H Hi. pose proof (forward_shape _ _ _ _ _ _ _ H) as (_ & L & _). split.
  - unfold gru_features. rewrite (nth_indep _ [] ((fun r => r ++ [t; c]) [])) by (now rewrite map_length).
    apply (map_nth (fun r => r ++ [t; c])).
  - unfold forward_material in H. cbn [String.eqb Ascii.eqb Bool.eqb rbind] in H.
    destruct (same_shape _ p); [|discriminate]. injection H as <-. rewrite map_length in L.
    intros j Hj.
    rewrite (nth_indep (map (firstn 6) (gru (gru_features t c p))) [] (firstn 6 [])) by (rewrite map_length; lia).
    rewrite (map_nth (firstn 6)).
    now apply nth_firstn_lt.
Qed.

Section Laws.
  Variable forward : spath -> res spath.
  Variable jac : spath -> R -> R * R -> (R * R) * (R * R).
  Variable tol : R.
  Variable max_iter : nat.
  Hypothesis SHAPE : forall p s, forward p = Ok s -> length s = length p.

  Lemma solve2_sound j r dx : solve2 j r = Some dx ->
    fst (fst j) * fst dx + snd (fst j) * snd dx = - fst r /\ fst (snd j) * fst dx + snd (snd j) * snd dx = - snd r.
  Proof.
    destruct j as ((a, b), (c, d)), r as (r, s). cbn [solve2 fst snd]. destruct (Req_EM_T _ 0); [discriminate|].
    intros H. injection H as <-. cbn [fst snd]. split; field; auto.
  Qed.
  (** The k-th Newton iterate of a step. *)
  Fixpoint iterate (k : nat) (path : spath) (e : R) : res (R * R) :=
    match k with
    | O => Ok (0, 0)
    | S k => rbind (iterate k path e) (fun x =>
             rbind (residual forward path e x) (fun r =>
             match solve2 (jac path e x) r with None => Err RuntimeError
             | Some dx => Ok (fst x + fst dx, snd x + snd dx) end))
    end.
  Definition converged (path : spath) (e : R) (x : R * R) : Prop :=
    exists r, residual forward path e x = Ok r /\ e <> 0 /\ sqrt (fst r * fst r + snd r * snd r) < tol * Rabs e.
  Lemma small_residual_iff r e : small_residual tol r e = true <->
    e <> 0 /\ sqrt (fst r * fst r + snd r * snd r) < tol * Rabs e.
  Proof.
    unfold small_residual. destruct (Req_EM_T e 0) as [->|N]; [split; [discriminate|tauto]|].
    pose proof (Rabs_pos_lt e N) as P. rewrite rltb_iff. split; [intros H; split; auto|intros [_ H]].
    - apply (Rmult_lt_compat_r (Rabs e)) in H; auto. unfold Rdiv in H. rewrite Rmult_assoc, Rinv_l in H by lra. lra.
    - apply (Rmult_lt_reg_r (Rabs e)); auto. unfold Rdiv. rewrite Rmult_assoc, Rinv_l by lra. lra.
  Qed.
  Lemma newton_law path e : forall fuel k x y, iterate k path e = Ok x ->
    newton forward jac tol fuel path e x = Ok y ->
    exists m, (k <= m <= k + fuel)%nat /\ iterate m path e = Ok y /\
      (m = (k + fuel)%nat \/ converged path e y) /\
      forall j z, (k <= j < m)%nat -> iterate j path e = Ok z -> ~ converged path e z.
  Proof.
    induction fuel as [|f IH]; intros k x y K H; cbn [newton] in H.
    { injection H as <-. exists k. split; [lia|]. split; auto. split; [left; lia|]. intros; lia. }
    destruct (residual forward path e x) as [r|] eqn:E; cbn [rbind] in H; [|discriminate].
    destruct (small_residual tol r e) eqn:SM.
    - injection H as <-. exists k. split; [lia|]. split; auto. split; [right|intros; lia].
      exists r. split; auto. now apply small_residual_iff.
    - destruct (solve2 (jac path e x) r) as [dx|] eqn:SV; [|discriminate].
      destruct (IH (S k) (fst x + fst dx, snd x + snd dx) y) as (m & M1 & M2 & M3 & M4); [|exact H|].
      { cbn [iterate]. rewrite K. cbn [rbind]. rewrite E. cbn [rbind]. now rewrite SV. }
      exists m. split; [lia|]. split; auto. split; [destruct M3; [left; lia|auto]|].
      intros j z J Z. destruct (Nat.eq_dec j k) as [->|]; [|apply (M4 j z); auto; lia].
      rewrite K in Z. injection Z as <-. intros (r' & R1 & R2). rewrite E in R1. injection R1 as <-.
      apply small_residual_iff in R2. congruence.
  Qed.

  Lemma steps_law : forall es path p, uni_steps forward jac tol max_iter es path = Ok p ->
    length p = (length path + length es)%nat /\ firstn (length path) p = path /\
    forall i, (i < length es)%nat -> exists x,
      nth (length path + i) p [] = uni_row (fst x) (snd x) (nth i es 0) /\
      newton forward jac tol max_iter (firstn (length path + i) p) (nth i es 0) (0, 0) = Ok x.
  Proof.
    induction es as [|e t IH]; intros path p H; cbn [uni_steps] in H.
    { injection H as <-. split; [simpl; lia|]. split; [apply firstn_all|]. simpl; lia. }
    destruct (newton _ _ _ _ _ _ _) as [x|] eqn:N; cbn [rbind] in H; [|discriminate].
    destruct (IH _ _ H) as (L & F & G). rewrite app_length in *. cbn [length] in *.
    assert (F0 : firstn (length path) p = path).
    { apply (f_equal (firstn (length path))) in F. rewrite firstn_firstn, Nat.min_l in F by lia.
      rewrite F, firstn_app, firstn_all, Nat.sub_diag. cbn. apply app_nil_r. }
    split; [lia|]. split; auto. intros [|i] Hi.
    - exists x. rewrite Nat.add_0_r. cbn [nth]. rewrite F0. split; auto.
      replace (nth (length path) p []) with (nth (length path) (firstn (length path + 1) p) []).
      + rewrite F, app_nth2, Nat.sub_diag by lia. reflexivity.
      + rewrite <- (firstn_skipn (length path + 1) p) at 2. rewrite app_nth1; auto. rewrite firstn_length. lia.
    - destruct (G i ltac:(lia)) as (y & Y1 & Y2). exists y. cbn [nth].
      replace (length path + S i)%nat with (length path + 1 + i)%nat by lia. auto.
  Qed.

  (** ** The path *)
  (** The returned path follows the prescribed strain from the second step on,
      without shear; the lateral strains of a step are a Newton iterate, the
      first one that meets the criterion or the last one. *)
  Theorem uniaxial_path es p s : uniaxial forward jac tol max_iter es = Ok (p, s) ->
    length p = length es /\ forward p = Ok s /\
    (es <> [] -> nth 0 p [] = uni_row 0 0 0) /\
    forall i, (0 < i < length es)%nat -> exists x m,
      nth i p [] = uni_row (fst x) (snd x) (nth i es 0) /\
      (m <= max_iter)%nat /\ iterate m (firstn i p) (nth i es 0) = Ok x /\
      (m = max_iter \/ converged (firstn i p) (nth i es 0) x) /\
      forall j z, (j < m)%nat -> iterate j (firstn i p) (nth i es 0) = Ok z -> ~ converged (firstn i p) (nth i es 0) z.
  Proof.
    unfold uniaxial. destruct es as [|e t]; cbn [rbind].
    { destruct (forward []) as [s'|] eqn:E; cbn [rbind]; [|discriminate]. intros H. injection H as <- <-.
      split; auto. split; auto. split; [congruence|]. simpl; lia. }
    destruct (uni_steps _ _ _ _ t _) as [q|] eqn:U; cbn [rbind]; [|discriminate].
    destruct (forward q) as [s'|] eqn:E; cbn [rbind]; [|discriminate]. intros H. injection H as <- <-.
    destruct (steps_law _ _ _ U) as (L & F & G). cbn [length] in *. split; [lia|]. split; auto. split.
    - intros _. destruct q as [|r q]; [discriminate|]. cbn [firstn] in F. injection F as ->. reflexivity.
    - intros [|i] Hi; [lia|]. destruct (G i ltac:(lia)) as (x & X1 & X2). cbn [Nat.add] in *. cbn [nth].
      destruct (newton_law _ _ max_iter 0 _ _ eq_refl X2) as (m & M1 & M2 & M3 & M4).
      exists x, m. split; [exact X1|]. split; [lia|]. split; auto. split; [exact M3|]. intros j z J. apply M4. lia.
  Qed.

  (** Materials whose stress depends on the strains so far. *)
  Definition causal : Prop := forall p s i, forward p = Ok s -> (i < length p)%nat ->
    exists s', forward (firstn (S i) p) = Ok s' /\ nth i s' [] = nth i s [].
  (** For a causal material the returned stress of a converged step is uniaxial
      up to the tolerance. *)
  Theorem uniaxial_converged es p s i : causal -> uniaxial forward jac tol max_iter es = Ok (p, s) -> (0 < i < length es)%nat ->
    (forall x, iterate max_iter (firstn i p) (nth i es 0) = Ok x -> converged (firstn i p) (nth i es 0) x) ->
    sqrt (nth 0 (nth i s []) 0 * nth 0 (nth i s []) 0 + nth 1 (nth i s []) 0 * nth 1 (nth i s []) 0) < tol * Rabs (nth i es 0).
  Proof.
    intros C H Hi LAST. destruct (uniaxial_path _ _ _ H) as (L & F & _ & G).
    destruct (G i Hi) as (x & m & R & _ & M2 & M3 & _).
    assert (CV : converged (firstn i p) (nth i es 0) x) by (destruct M3 as [->|]; auto).
    destruct CV as (r & R1 & _ & R3). unfold residual in R1.
    assert (PX : firstn i p ++ [uni_row (fst x) (snd x) (nth i es 0)] = firstn (S i) p).
    { rewrite <- R. clear - Hi L. assert (Q : (i < length p)%nat) by lia. clear Hi L es. revert i Q.
      induction p as [|a p IH]; intros i Q; [simpl in Q; lia|]. destruct i as [|i]; [reflexivity|].
      cbn [firstn nth app]. f_equal. apply IH. cbn [length] in Q. lia. }
    rewrite PX in R1. destruct (C p s i F ltac:(lia)) as (s' & S1 & S2). rewrite S1 in R1. cbn [rbind] in R1. injection R1 as <-.
    unfold lateral in R3. cbn [fst snd] in R3. rewrite (SHAPE _ _ S1), firstn_length in R3.
    replace (Nat.min (S i) (length p) - 1)%nat with i in R3 by lia. rewrite S2 in R3. exact R3.
  Qed.
End Laws.

(** ** Linear elasticity *)
Section Elastic.
  Variable lam mu : R.
  Hypothesis MU : 0 < mu.
  Hypothesis BULK : 0 < 3 * lam + 2 * mu.
  Definition el_row (r : list R) : list R :=
    let tr := nth 0 r 0 + nth 1 r 0 + nth 2 r 0 in
    [lam * tr + 2 * mu * nth 0 r 0; lam * tr + 2 * mu * nth 1 r 0; lam * tr + 2 * mu * nth 2 r 0;
     2 * mu * nth 3 r 0; 2 * mu * nth 4 r 0; 2 * mu * nth 5 r 0].
  Definition el_forward (p : spath) : res spath := Ok (map el_row p).
  Definition el_jac (_ : spath) (_ : R) (_ : R * R) : (R * R) * (R * R) := ((lam + 2 * mu, lam), (lam, lam + 2 * mu)).
  Definition nu : R := lam / (2 * (lam + mu)).
  Definition young_el : R := mu * (3 * lam + 2 * mu) / (lam + mu).
  Lemma lam_mu : 0 < lam + mu.
  Proof. lra. Qed.
  Lemma el_residual path e x : residual el_forward path e x
    = Ok (lam * (fst x + snd x + e) + 2 * mu * fst x, lam * (fst x + snd x + e) + 2 * mu * snd x).
  Proof.
    unfold residual, el_forward, lateral. cbn [rbind]. rewrite map_app. cbn [map]. rewrite app_length, map_length. cbn [length].
    replace (length path + 1 - 1)%nat with (length path) by lia.
    rewrite app_nth2 by (rewrite map_length; lia). rewrite map_length, Nat.sub_diag. reflexivity.
  Qed.
  Lemma el_solve r s : solve2 ((lam + 2 * mu, lam), (lam, lam + 2 * mu)) (r, s)
    = Some ((lam * s - (lam + 2 * mu) * r) / (4 * mu * (lam + mu)), (lam * r - (lam + 2 * mu) * s) / (4 * mu * (lam + mu))).
  Proof.
    unfold solve2. cbn [fst snd]. pose proof lam_mu.
    replace ((lam + 2 * mu) * (lam + 2 * mu) - lam * lam) with (4 * mu * (lam + mu)) by ring.
    destruct (Req_EM_T _ 0) as [E|_]; [|reflexivity]. exfalso. assert (0 < 4 * mu * (lam + mu)) by (apply Rmult_lt_0_compat; lra). lra.
  Qed.
  (** One iteration gives the exact lateral contraction, and further ones keep it. *)
  Lemma el_newton_fixed tol path e : forall fuel, newton el_forward el_jac tol fuel path e (- nu * e, - nu * e) = Ok (- nu * e, - nu * e).
  Proof.
    pose proof lam_mu as LM.
    induction fuel as [|f IH]; cbn [newton]; auto. rewrite el_residual. cbn [rbind fst snd].
    assert (Z : lam * (- nu * e + - nu * e + e) + 2 * mu * (- nu * e) = 0) by (unfold nu; field; lra).
    rewrite Z. destruct (small_residual _ _ _); auto. unfold el_jac. rewrite el_solve. cbn [fst snd].
    replace (- nu * e + (lam * 0 - (lam + 2 * mu) * 0) / (4 * mu * (lam + mu))) with (- nu * e) by (field; lra). apply IH.
  Qed.
  Lemma el_newton tol fuel path e : (0 < fuel)%nat -> tol <= sqrt 2 * Rabs lam \/ lam = 0 ->
    newton el_forward el_jac tol fuel path e (0, 0) = Ok (- nu * e, - nu * e).
  Proof.
    intros Hf HT. pose proof lam_mu as LM. destruct fuel as [|f]; [lia|]. cbn [newton]. rewrite el_residual. cbn [rbind fst snd].
    destruct HT as [HT|HT].
    - assert (SM : small_residual tol (lam * (0 + 0 + e) + 2 * mu * 0, lam * (0 + 0 + e) + 2 * mu * 0) e = false).
      { destruct (small_residual _ _ _) eqn:Q; auto. apply small_residual_iff in Q as [N Q]. cbn [fst snd] in Q. exfalso.
        replace ((lam * (0 + 0 + e) + 2 * mu * 0) * (lam * (0 + 0 + e) + 2 * mu * 0) + (lam * (0 + 0 + e) + 2 * mu * 0) * (lam * (0 + 0 + e) + 2 * mu * 0))
          with (2 * (lam * e)²) in Q by (unfold Rsqr; ring).
        rewrite sqrt_mult in Q by (lra || apply Rle_0_sqr). rewrite sqrt_Rsqr_abs, Rabs_mult in Q.
        pose proof (Rabs_pos_lt e N). nra. }
      rewrite SM. unfold el_jac. rewrite el_solve. cbn [fst snd].
      match goal with |- newton _ _ _ _ _ _ (?a, ?b) = _ => assert (A : a = - nu * e) by (unfold nu; field; lra);
        assert (B : b = - nu * e) by (unfold nu; field; lra); rewrite A; try rewrite B end. apply el_newton_fixed.
    - assert (NZ : nu = 0) by (unfold nu; rewrite HT; field; lra).
      assert (Z : - nu * e = 0) by (rewrite NZ; ring). 
      pose proof (el_newton_fixed tol path e (S f)) as W. rewrite Z in W |- *. cbn [newton] in W. rewrite el_residual in W. exact W.
  Qed.
  (** For linear isotropic elasticity the path is exactly that of a uniaxial
      tension: lateral strains by Poisson's ratio, one stress by Young's modulus. *)
  Theorem elastic_uniaxial tol max_iter e0 es : (0 < max_iter)%nat -> tol <= sqrt 2 * Rabs lam \/ lam = 0 ->
    exists p s, uniaxial el_forward el_jac tol max_iter (e0 :: es) = Ok (p, s) /\
      p = uni_row 0 0 0 :: map (fun e => uni_row (- nu * e) (- nu * e) e) es /\
      s = [0; 0; 0; 0; 0; 0] :: map (fun e => [0; 0; young_el * e; 0; 0; 0]) es.
  Proof.
    intros HM HT. pose proof lam_mu as LM.
    assert (U : forall es path, uni_steps el_forward el_jac tol max_iter es path
      = Ok (path ++ map (fun e => uni_row (- nu * e) (- nu * e) e) es)).
    { clear es. induction es as [|e t IH]; intros path; cbn [uni_steps map]; [now rewrite app_nil_r|].
      rewrite el_newton by auto. cbn [rbind fst snd]. rewrite IH, <- app_assoc. reflexivity. }
    unfold uniaxial. rewrite U. cbn [rbind app]. unfold el_forward. cbn [rbind]. eexists. eexists. split; [reflexivity|].
    split; auto. cbn [map]. f_equal.
    - unfold el_row, uni_row. cbn [nth]. do 6 (apply (f_equal2 (@cons R)); [ring|]). reflexivity.
    - rewrite map_map. apply map_ext. intros e. unfold el_row, uni_row, young_el, nu. cbn [nth].
      do 6 (apply (f_equal2 (@cons R)); [field; lra|]). reflexivity.
  Qed.
End Elastic.

(** An unknown model is refused whatever the path. *)
Theorem uniaxial_unknown_model vm gru name t c jac tol max_iter es :
  name <> "von_mises"%string -> name <> "gru"%string ->
  uniaxial (forward_material vm gru name t c) jac tol max_iter es = Err ValueError.
Proof.
  intros A B. unfold uniaxial. destruct es as [|e es]; cbn [rbind]; [now rewrite forward_unknown|].
  destruct (uni_steps _ jac tol max_iter es _) as [p|x] eqn:U; cbn [rbind]; [now rewrite forward_unknown|].
  f_equal. revert U. generalize [uni_row 0 0 0]. induction es as [|e' t' IH]; intros path U; cbn [uni_steps] in U; [discriminate|].
  destruct max_iter as [|k]; cbn [newton rbind] in U; [eapply IH; exact U|].
  unfold residual in U. rewrite forward_unknown in U by auto. cbn [rbind] in U. congruence.
Qed.

(** ** Claims that fail *)
(** A step that does not converge is stored without notice: two iterates
    alternate and the lateral stress stays at one, whatever the number of
    iterations. *)
Definition cyc_row (r : list R) : list R :=
  [nth 0 r 0 * nth 0 r 0 + nth 0 r 0 + 1; nth 1 r 0; nth 2 r 0; 0; 0; 0].
Definition cyc_forward (p : spath) : res spath := Ok (map cyc_row p).
Definition cyc_jac (_ : spath) (_ : R) (x : R * R) : (R * R) * (R * R) := ((2 * fst x + 1, 0), (0, 1)).
Lemma cyc_jac_is_derivative path e x : derivable_pt_lim
  (fun a => match residual cyc_forward path e (a, snd x) with Ok r => fst r | Err _ => 0 end) (fst x) (fst (fst (cyc_jac path e x))).
Proof.
  assert (E : forall a, match residual cyc_forward path e (a, snd x) with Ok r => fst r | Err _ => 0 end = a * a + a + 1).
  { intros a. unfold residual, cyc_forward, lateral. cbn [rbind]. rewrite map_app. cbn [map]. rewrite app_length, map_length. cbn [length].
    replace (length path + 1 - 1)%nat with (length path) by lia.
    rewrite app_nth2 by (rewrite map_length; lia). rewrite map_length, Nat.sub_diag. reflexivity. }
  apply (derivable_pt_lim_ext (fun a => a * a + a + 1)); [intros; symmetry; apply E|]. cbn [cyc_jac fst].
  replace (2 * fst x + 1) with (1 * fst x + fst x * 1 + 1 + 0) by ring.
  apply (derivable_pt_lim_plus (fun a => a * a + a) (fun _ => 1)); [|apply derivable_pt_lim_const].
  apply (derivable_pt_lim_plus (fun a => a * a) (fun a => a)); [|apply derivable_pt_lim_id].
  apply (derivable_pt_lim_mult (fun a => a) (fun a => a)); apply derivable_pt_lim_id.
Qed.
Theorem unconverged_silent_refuted tol max_iter e : 0 < tol -> tol * Rabs e <= 1 ->
  exists p s, uniaxial cyc_forward cyc_jac tol max_iter [0; e] = Ok (p, s) /\ nth 0 (nth 1 s []) 0 = 1.
Proof.
  intros T HE.
  assert (RS : forall path a, residual cyc_forward path e (a, 0) = Ok (a * a + a + 1, 0)).
  { intros path a. unfold residual, cyc_forward, lateral. cbn [rbind]. rewrite map_app. cbn [map]. rewrite app_length, map_length. cbn [length].
    replace (length path + 1 - 1)%nat with (length path) by lia.
    rewrite app_nth2 by (rewrite map_length; lia). rewrite map_length, Nat.sub_diag. reflexivity. }
  assert (SM : forall a, (a = 0 \/ a = -1) -> small_residual tol (a * a + a + 1, 0) e = false).
  { intros a Ha. destruct (small_residual _ _ _) eqn:Q; auto. apply small_residual_iff in Q as [_ Q]. cbn [fst snd] in Q. exfalso.
    replace ((a * a + a + 1) * (a * a + a + 1) + 0 * 0) with 1 in Q by (destruct Ha; subst; ring). rewrite sqrt_1 in Q. lra. }
  assert (N : forall fuel path a, (a = 0 \/ a = -1) -> exists b, (b = 0 \/ b = -1) /\ newton cyc_forward cyc_jac tol fuel path e (a, 0) = Ok (b, 0)).
  { induction fuel as [|f IH]; intros path a Ha; cbn [newton]; [eauto|]. rewrite RS. cbn [rbind]. rewrite (SM a Ha).
    assert (SV : solve2 (cyc_jac path e (a, 0)) (a * a + a + 1, 0) = Some (-1 - 2 * a, 0)).
    { unfold cyc_jac, solve2. cbn [fst snd]. destruct (Req_EM_T _ 0) as [Z|Z]; [exfalso; destruct Ha; subst; lra|].
      f_equal. f_equal; destruct Ha; subst; field. }
    rewrite SV. cbn [fst snd]. rewrite Rplus_0_l. apply IH. destruct Ha; subst; [right|left]; ring. }
  destruct (N max_iter [uni_row 0 0 0] 0 (or_introl eq_refl)) as (b & Hb & E).
  unfold uniaxial. cbn [uni_steps]. rewrite E. cbn [rbind fst snd app]. unfold cyc_forward at 1. cbn [rbind].
  eexists. eexists. split; [reflexivity|]. cbn [map nth cyc_row uni_row]. destruct Hb; subst; ring.
Qed.
(** The first prescribed strain is ignored. *)
Theorem first_strain_refuted forward jac tol max_iter e p s :
  uniaxial forward jac tol max_iter [e] = Ok (p, s) -> p = [uni_row 0 0 0].
Proof.
  unfold uniaxial. cbn [uni_steps rbind]. destruct (forward _); cbn [rbind]; [|discriminate]. intros H. now injection H as <- _.
Qed.
(** Without iterations, or with a criterion looser than the first Lame constant,
    the lateral strains stay at zero: the stress is that of a confined bar. *)
Theorem loose_tolerance_refuted : exists lam mu tol p s, 0 < lam /\ 0 < mu /\
  uniaxial (el_forward lam mu) (el_jac lam mu) tol 30 [0; 1] = Ok (p, s) /\
  nth 1 p [] = uni_row 0 0 1 /\ nth 0 (nth 1 s []) 0 = 1.
Proof.
  exists 1, 1, 2.
  assert (E : newton (el_forward 1 1) (el_jac 1 1) 2 30 [uni_row 0 0 0] 1 (0, 0) = Ok (0, 0)).
  { change 30%nat with (S 29). generalize 29%nat as f. intros f. cbn [newton]. rewrite el_residual. cbn [rbind fst snd].
    assert (SM : small_residual 2 (1 * (0 + 0 + 1) + 2 * 1 * 0, 1 * (0 + 0 + 1) + 2 * 1 * 0) 1 = true).
    { apply small_residual_iff. cbn [fst snd]. split; [lra|]. rewrite Rabs_R1.
      replace ((1 * (0 + 0 + 1) + 2 * 1 * 0) * (1 * (0 + 0 + 1) + 2 * 1 * 0) + (1 * (0 + 0 + 1) + 2 * 1 * 0) * (1 * (0 + 0 + 1) + 2 * 1 * 0)) with 2 by ring.
      pose proof (sqrt_lt_1 2 4 ltac:(lra) ltac:(lra) ltac:(lra)) as Q. replace 4 with (2 * 2) in Q by ring. rewrite sqrt_square in Q by lra. lra. }
    now rewrite SM. }
  unfold uniaxial. cbn [uni_steps]. rewrite E. cbn [rbind fst snd app]. unfold el_forward at 1. cbn [rbind].
  eexists. eexists. split; [lra|]. split; [lra|]. split; [reflexivity|]. split; [reflexivity|]. cbn. ring.
Qed.
(** Compositions closer than one percent share a key, and the later data set
    replaces the earlier one. *)
Theorem key_collision_refuted : exists c c', c <> c' /\ forall t, data_key t c = data_key t c'.
Proof.
  exists (291 / 1000), (295 / 1000). split; [lra|]. intros t. unfold data_key.
  assert (A : ztrunc (291 / 1000 * 100) = 29%Z) by (unfold ztrunc; destruct (Rlt_dec _ 0); [lra|]; apply int_part_is; lra).
  assert (B : ztrunc (295 / 1000 * 100) = 29%Z) by (unfold ztrunc; destruct (Rlt_dec _ 0); [lra|]; apply int_part_is; lra).
  now rewrite A, B.
Qed.

(** Compositions in whole hundredths have their own entry each. *)
Lemma ztrunc_hundredth k : ztrunc (INR k / 100 * 100) = Z.of_nat k.
Proof.
  pose proof (pos_INR k). unfold ztrunc. destruct (Rlt_dec _ 0); [lra|]. apply int_part_is; rewrite <- INR_IZR_INZ; lra.
Qed.
Lemma data_key_inj t k t' k' : data_key t (INR k / 100) = data_key t' (INR k' / 100) -> t = t' /\ k = k'.
Proof.
  unfold data_key. rewrite !ztrunc_hundredth, !Nat2Z.id. cbn [append]. intros H. injection H as H.
  change ("_C_" ++ nat_str k)%string with (String "_"%char ("C_" ++ nat_str k)%string) in H.
  change ("_C_" ++ nat_str k')%string with (String "_"%char ("C_" ++ nat_str k')%string) in H. split.
  - apply (f_equal take_digits) in H. rewrite !MeanMetricsProps.take_digits_app in H by (auto using nat_str_digits). now apply nat_str_inj.
  - apply (f_equal skip_digits) in H. rewrite !skip_digits_app in H by (auto using nat_str_digits). cbn [append] in H. injection H as H. now apply nat_str_inj.
Qed.
Lemma fold_entries {A Q} (key : Q -> string) (f : Q -> A) (L : list Q) : forall d q, (forall q', In q' L -> key q' = key q -> f q' = f q) ->
  gget String.eqb (fold_left (fun d q => gset String.eqb d (key q) (f q)) L d) (key q)
  = if existsb (fun q' => String.eqb (key q') (key q)) L then Some (f q) else gget String.eqb d (key q).
Proof.
  induction L as [|x L IH]; intros d q H; cbn [fold_left existsb]; auto.
  rewrite IH by (intros q' I; apply H; now right). destruct (String.eqb_spec (key x) (key q)) as [E|E]; cbn [orb].
  - destruct (existsb _ L); auto. rewrite E, gget_gset_same by apply String.eqb_eq. f_equal. apply H; [now left|auto].
  - destruct (existsb _ L); auto. rewrite (gget_gset_other String.eqb String.eqb_eq); auto.
Qed.
Theorem dataset_entries {A} (temps ks : list nat) (f : nat -> R -> A) t k : In t temps -> In k ks ->
  gget String.eqb (build_dataset temps (map (fun k => INR k / 100) ks) f) (data_key t (INR k / 100)) = Some (f t (INR k / 100)).
Proof.
  intros T K. unfold build_dataset.
  rewrite (fold_entries (fun tc => data_key (fst tc) (snd tc)) (fun tc => f (fst tc) (snd tc)) _ [] (t, INR k / 100)).
  - cbn [fst snd]. assert (E : existsb (fun q' => String.eqb (data_key (fst q') (snd q')) (data_key t (INR k / 100)))
      (list_prod temps (map (fun k => INR k / 100) ks)) = true).
    { apply existsb_exists. exists (t, INR k / 100). split; [|apply String.eqb_refl].
      apply in_prod; auto. apply in_map_iff. eauto. }
    now rewrite E.
  - intros (t', c') I E. apply in_prod_iff in I as (_ & I). apply in_map_iff in I as (k' & <- & _). cbn [fst snd] in *.
    apply data_key_inj in E as (-> & ->). reflexivity.
Qed.

(** ** Case *)
Example ex_elastic : exists p s,
  uniaxial (el_forward 1 1) (el_jac 1 1) (1 / 100) 30 [0; 1; -2] = Ok (p, s) /\
  nth 1 p [] = uni_row (- (1 / 4)) (- (1 / 4)) 1 /\ nth 2 (nth 2 s []) 0 = -5.
Proof.
  destruct (elastic_uniaxial 1 1 ltac:(lra) ltac:(lra) (1 / 100) 30 0 [1; -2]) as (p & s & E & P & Q); [lia| |].
  { left. rewrite Rabs_R1. pose proof (sqrt_lt_1 1 2 ltac:(lra) ltac:(lra) ltac:(lra)). rewrite sqrt_1 in H. lra. }
  exists p, s. split; auto. subst. cbn [map nth]. unfold nu, young_el. split; [|field].
  unfold uni_row. f_equal; [field|]. f_equal. field.
Qed.

Print Assumptions forward_shape.
Print Assumptions uniaxial_path.
Print Assumptions uniaxial_converged.
Print Assumptions elastic_uniaxial.
Print Assumptions unconverged_silent_refuted.
Print Assumptions loose_tolerance_refuted.
Print Assumptions dataset_entries.
