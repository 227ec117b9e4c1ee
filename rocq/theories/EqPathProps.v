(** Figures of a material response path and of a state variable (C134). *)
From Coq Require Import String Reals List Bool Arith Lia Lra.
From Verif Require Import Lib PyDict PyStr MatrixModel MatrixSpec FeaturesSpec ResponseModel ResponseProps StressSpaceModel EqPathModel.
Import ListNotations.
Local Open Scope string_scope.
Local Open Scope list_scope.
Local Open Scope R_scope.

(** ** Equivalent strain and stress *)
(** Deviator and squared norm, written out. *)
Definition dev (s : T2) : T2 := fun i j => s i j - (if Nat.eqb i j then (s 0%nat 0%nat + s 1%nat 1%nat + s 2%nat 2%nat) / 3 else 0).
Definition norm2 (s : T2) : R :=
  s 0%nat 0%nat ^ 2 + s 0%nat 1%nat ^ 2 + s 0%nat 2%nat ^ 2 + s 1%nat 0%nat ^ 2 + s 1%nat 1%nat ^ 2 + s 1%nat 2%nat ^ 2 + s 2%nat 0%nat ^ 2 + s 2%nat 1%nat ^ 2 + s 2%nat 2%nat ^ 2.
Definition mean (s : T2) : R := (s 0%nat 0%nat + s 1%nat 1%nat + s 2%nat 2%nat) / 3.
Definition shear_sum (s : T2) : R := s 0%nat 1%nat + s 0%nat 2%nat + s 1%nat 2%nat + s 1%nat 0%nat + s 2%nat 0%nat + s 2%nat 1%nat.
(** von Mises equivalent stress and strain *)
Definition vm_stress (s : T2) : R := sqrt (3 / 2 * norm2 (dev s)).
Definition vm_strain (s : T2) : R := sqrt (2 / 3 * norm2 (dev s)).
Lemma norm2_nonneg s : 0 <= norm2 s.
Proof. unfold norm2. repeat apply Rplus_le_le_0_compat; apply pow2_ge_0. Qed.
Lemma frob_value s : frobenius 3 (minus_mean 3 s) = sqrt (norm2 (dev s) + 2 * mean s * (3 * mean s - shear_sum s)).
Proof. unfold frobenius, minus_mean, norm2, dev, mean, shear_sum, sum2. f_equal. cbn [rsum Nat.eqb]. field. Qed.
Lemma frob_nonneg s : 0 <= norm2 (dev s) + 2 * mean s * (3 * mean s - shear_sum s).
Proof. 
  replace (norm2 (dev s) + 2 * mean s * (3 * mean s - shear_sum s)) with (norm2 (fun i j => s i j - mean s)); [apply norm2_nonneg|].
  unfold norm2, dev, mean, shear_sum. cbn [Nat.eqb]. field.
Qed.
(** The plotted values are the von Mises ones exactly without mean value or when
    three times the mean value is the sum of the shear components. *)
Lemma sqrt_scaled_iff c a b : 0 < c -> 0 <= a -> 0 <= b -> (sqrt c * sqrt a = sqrt (c * b) <-> a = b).
Proof.
  intros C A B. rewrite <- sqrt_mult by lra. split; intros H; [|now subst].
  apply sqrt_inj in H; [|apply Rmult_le_pos; lra|apply Rmult_le_pos; lra]. apply Rmult_eq_reg_l in H; lra.
Qed.
Lemma zero_iff p q : (forall x : R, x + 2 * p * (3 * p - q) = x <-> p = 0 \/ 3 * p = q).
Proof.
  intros x. split; intros H.
  - assert (Z : p * (3 * p - q) = 0) by lra. apply Rmult_integral in Z as [Z|Z]; [now left|right; lra].
  - destruct H as [-> | <-]; lra.
Qed.
Theorem eq_stress_iff : forall s, eq_stress 3 s = vm_stress s <-> mean s = 0 \/ 3 * mean s = shear_sum s.
Proof.
  intros s. unfold eq_stress, vm_stress. rewrite frob_value. rewrite sqrt_scaled_iff; [apply zero_iff|lra|apply frob_nonneg|apply norm2_nonneg].
Qed.
Theorem eq_strain_iff : forall s, eq_strain 3 s = vm_strain s <-> mean s = 0 \/ 3 * mean s = shear_sum s.
Proof.
  intros s. unfold eq_strain, vm_strain. rewrite frob_value. rewrite sqrt_scaled_iff; [apply zero_iff|lra|apply frob_nonneg|apply norm2_nonneg].
Qed.
(** Refuted: in uniaxial tension the plotted equivalent stress is the stress
    multiplied by the square root of two. *)
Definition uniaxial (x : R) : T2 := fun i j => if Nat.eqb i 0 && Nat.eqb j 0 then x else 0.
Theorem uniaxial_eq_refuted : forall x, 0 < x -> vm_stress (uniaxial x) = x /\ eq_stress 3 (uniaxial x) = sqrt 2 * x.
Proof.
  intros x X. split.
  - unfold vm_stress. replace (3 / 2 * norm2 (dev (uniaxial x))) with (x * x); [apply sqrt_square; lra|].
    unfold norm2, dev, uniaxial. cbn [Nat.eqb andb]. field.
  - unfold eq_stress. rewrite frob_value, <- sqrt_mult by (lra || apply frob_nonneg).
    replace (3 / 2 * (norm2 (dev (uniaxial x)) + 2 * mean (uniaxial x) * (3 * mean (uniaxial x) - shear_sum (uniaxial x)))) with (2 * (x * x)).
    + rewrite sqrt_mult by nra. rewrite sqrt_square by lra. reflexivity.
    + unfold norm2, dev, mean, shear_sum, uniaxial. cbn [Nat.eqb andb]. field.
Qed.
(** Refuted: a hydrostatic stress has an equivalent stress of three times its
    mean value. *)
Theorem hydrostatic_eq_refuted : forall p, vm_stress (fun i j => if Nat.eqb i j then p else 0) = 0 /\ eq_stress 3 (fun i j => if Nat.eqb i j then p else 0) = 3 * Rabs p.
Proof.
  intros p. split.
  - unfold vm_stress. match goal with |- sqrt ?a = 0 => replace a with 0; [apply sqrt_0|] end. unfold norm2, dev. cbn [Nat.eqb]. field.
  - unfold eq_stress. rewrite frob_value, <- sqrt_mult by (lra || apply frob_nonneg).
    match goal with |- sqrt ?a = _ => replace a with (Rsqr (3 * p)) by (unfold Rsqr, norm2, dev, mean, shear_sum; cbn [Nat.eqb]; field) end.
    rewrite sqrt_Rsqr_abs, Rabs_mult, (Rabs_right 3) by lra. reflexivity.
Qed.

(** ** The figure *)
Section Figure.
  Variables (n : nat) (eo so : list comp).
  Hypothesis EO : sym_order n eo.
  Hypothesis SO : sym_order n so.
  (** A path of symmetric tensors, stored by components. *)
  Definition path_of (p : rpath) (E S : nat -> T2) : Prop :=
    forall t, (t < length (p_time p))%nat -> symmetric n (E t) /\ symmetric n (S t) /\
      exists e s, nth_error (p_strain p) t = Some e /\ nth_error (p_stress p) t = Some s /\ stores eo (E t) e /\ stores so (S t) s.
  Lemma rsum_ext m f g : (forall i, (i < m)%nat -> f i = g i) -> rsum m f = rsum m g.
  Proof. induction m as [|m IH]; intros H; cbn; [reflexivity|]. rewrite IH by (intros; apply H; lia). rewrite H by lia. reflexivity. Qed.
  Lemma frob_ext a b : eq2 n a b -> frobenius n (minus_mean n a) = frobenius n (minus_mean n b).
  Proof.
    intros Q. unfold frobenius, sum2. f_equal. apply rsum_ext. intros i I. apply rsum_ext. intros j J. unfold minus_mean.
    rewrite (rsum_ext n (fun k => a k k) (fun k => b k k)) by (intros; apply Q; lia). rewrite (Q i j) by lia. reflexivity.
  Qed.
  Lemma rmap_seq {A B} (f : A -> res B) (g : A -> B) l : (forall t, In t l -> f t = Ok (g t)) -> rmap f l = Ok (map g l).
  Proof. induction l as [|a l IH]; intros H; cbn; [reflexivity|]. rewrite (H a) by now left. cbn. rewrite IH by (intros; apply H; now right). reflexivity. Qed.
  Lemma curve_value m p E S : path_of p E S ->
    eq_curve true n eo so m p = Ok (map (fun t => (eq_strain n (E t), eq_stress n (S t))) (seq 0 (length (p_time p))) ++ repeat (0, 0) (m - length (p_time p))).
  Proof.
    intros P. unfold eq_curve. rewrite (rmap_seq _ (fun t => (eq_strain n (E t), eq_stress n (S t)))).
    - cbn [rbind]. unfold pad. rewrite map_length, seq_length. reflexivity.
    - intros t T. apply in_seq in T. destruct (P t) as (SE & SS & e & s & He & Hs & Te & Ts); [lia|]. unfold eq_point. rewrite He, Hs.
      destruct (build_tensor_reads n eo (E t) e EO SE Te) as (u & -> & U). cbn [rbind]. destruct (build_tensor_reads n so (S t) s SO SS Ts) as (v & -> & V). cbn [rbind].
      unfold eq_strain, eq_stress. rewrite (frob_ext _ _ U), (frob_ext _ _ V). reflexivity.
  Qed.
  (** Every path has its curve, one point for each of its times. *)
  Theorem eq_figure_law : forall paths (E S : nat -> nat -> T2), n = 3%nat -> paths <> [] ->
    (forall k p, nth_error paths k = Some p -> path_of p (E k) (S k)) ->
    exists cs, eq_figure true n eo so paths = Ok (Some cs) /\ length cs = length paths /\
      forall k p, nth_error paths k = Some p -> exists c, nth_error cs k = Some c /\ length c = n_time_max (map p_time paths) /\
        forall t, (t < length (p_time p))%nat -> nth_error c t = Some (eq_strain 3 (E k t), eq_stress 3 (S k t)).
  Proof.
    intros paths E S N NE P. set (m := n_time_max (map p_time paths)).
    set (g := fun k p => map (fun t => (eq_strain n (E k t), eq_stress n (S k t))) (seq 0 (length (p_time p))) ++ repeat (0, 0) (m - length (p_time p))).
    exists (map (fun kp => g (fst kp) (snd kp)) (combine (seq 0 (length paths)) paths)).
    assert (C : forall l a, (forall k p, nth_error l k = Some p -> eq_curve true n eo so m p = Ok (g (a + k)%nat p)) ->
      rmap (eq_curve true n eo so m) l = Ok (map (fun kp => g (fst kp) (snd kp)) (combine (seq a (length l)) l))).
    { induction l as [|p l IH]; intros a H; [reflexivity|]. cbn [rmap length seq combine map fst snd]. rewrite (H 0%nat p eq_refl). cbn [rbind]. rewrite Nat.add_0_r.
      rewrite (IH (Datatypes.S a)); [reflexivity|]. intros k q Hk. rewrite (H (Datatypes.S k) q Hk). do 2 f_equal. lia. }
    split; [|split].
    - unfold eq_figure. destruct paths as [|p0 r]; [congruence|]. fold m. rewrite (C _ 0%nat) by (intros k p Hk; apply curve_value; exact (P k p Hk)). cbn [rbind]. rewrite N. reflexivity.
    - rewrite map_length, combine_length, seq_length. lia.
    - intros k p Hk. exists (g k p). rewrite nth_error_map.
      assert (D : forall l a k, nth_error l k = Some p -> nth_error (combine (seq a (length l)) l) k = Some ((a + k)%nat, p)).
      { induction l as [|q l IH]; intros a [|k'] H; try discriminate; cbn.
        - injection H as ->. now rewrite Nat.add_0_r.
        - rewrite (IH (Datatypes.S a) k' H). do 2 f_equal. lia. }
      rewrite (D paths 0%nat k Hk). split; [reflexivity|]. unfold g. split.
      + rewrite app_length, map_length, seq_length, repeat_length.
        assert (L : (length (p_time p) <= m)%nat).
        { unfold m, n_time_max. pose proof (proj1 (list_max_le (map (@length R) (map p_time paths)) _) (le_n _)) as F. rewrite Forall_forall in F. apply F. rewrite map_map. apply in_map_iff. exists p. split; [reflexivity|eapply nth_error_In; eassumption]. }
        lia.
      + intros t T. rewrite nth_error_app1 by (rewrite map_length, seq_length; lia). rewrite N, nth_error_map. 
        rewrite (nth_error_nth' (seq 0 (length (p_time p))) 0%nat) by (rewrite seq_length; lia). rewrite seq_nth by lia. reflexivity.
  Qed.
  (** Refuted: a path shorter than the longest one goes back to the origin. *)
  Theorem short_path_refuted : forall paths (E S : nat -> T2) p, n = 3%nat -> path_of p E S -> In p paths ->
    forall cs, eq_figure true n eo so paths = Ok (Some cs) -> (length (p_time p) < n_time_max (map p_time paths))%nat ->
    exists c, In c cs /\ forall t, (length (p_time p) <= t < n_time_max (map p_time paths))%nat -> nth_error c t = Some (0, 0).
  Proof.
    intros paths E S p N P I cs F L. unfold eq_figure in F. destruct paths as [|p0 r]; [destruct I|].
    remember (p0 :: r) as paths. clear Heqpaths p0 r. set (m := n_time_max (map p_time paths)) in *.
    destruct (rmap (eq_curve true n eo so m) paths) as [l|] eqn:R; cbn [rbind] in F; [|discriminate]. rewrite N in F. cbn in F. injection F as <-.
    assert (J : forall l ps, rmap (eq_curve true n eo so m) ps = Ok l -> In p ps -> exists c, In c l /\ eq_curve true n eo so m p = Ok c).
    { clear. intros l ps. revert l. induction ps as [|q ps IH]; intros l R I; [destruct I|]. cbn [rmap] in R. destruct (eq_curve true n eo so m q) as [c|] eqn:Q; cbn [rbind] in R; [|discriminate].
      destruct (rmap (eq_curve true n eo so m) ps) as [cs|] eqn:R'; cbn [rbind] in R; [|discriminate]. injection R as <-. destruct I as [->|I].
      - exists c. split; [now left|exact Q].
      - destruct (IH cs eq_refl I) as (c' & A & B). exists c'. split; [now right|exact B]. }
    destruct (J l paths R I) as (c & Ic & Ec). exists c. split; [exact Ic|]. intros t T. rewrite (curve_value m p E S P) in Ec. injection Ec as <-.
    rewrite nth_error_app2 by (rewrite map_length, seq_length; lia). rewrite map_length, seq_length.
    rewrite (nth_error_nth' _ (0, 0)) by (rewrite repeat_length; lia). rewrite nth_repeat. reflexivity.
  Qed.
End Figure.
(** There is a figure exactly in three dimensions, and never without paths. *)
Theorem eq_figure_shown : forall b n eo so paths r, eq_figure b n eo so paths = Ok r -> paths <> [] /\ (r <> None <-> n = 3%nat).
Proof.
  intros b n eo so paths r H. unfold eq_figure in H. destruct paths as [|p l]; [discriminate|]. split; [discriminate|].
  destruct (rmap _ (p :: l)) as [cs|]; cbn [rbind] in H; [|discriminate]. injection H as <-. destruct (Nat.eqb_spec n 3) as [E|E]; split; intros Q; congruence.
Qed.
(** Refuted: the figure of finite strain paths shows their equivalent values. *)
Theorem finite_figure_refuted : forall eo so paths cs, eq_figure false 3 eo so paths = Ok (Some cs) -> forall c, In c cs -> forall x, In x c -> x = (0, 0).
Proof.
  intros eo so paths cs F. unfold eq_figure in F. destruct paths as [|p0 r]; [discriminate|]. remember (p0 :: r) as paths. clear Heqpaths p0 r. set (m := n_time_max (map p_time paths)) in *. clearbody m.
  destruct (rmap (eq_curve false 3 eo so m) paths) as [l|] eqn:R; cbn [rbind] in F; [|discriminate]. cbn in F. injection F as <-.
  revert l R. induction paths as [|p ps IH]; intros l R c C x X; cbn [rmap] in R; [injection R as <-; destruct C|].
  destruct (eq_curve false 3 eo so m p) as [c0|] eqn:Q; cbn [rbind] in R; [|discriminate].
  destruct (rmap (eq_curve false 3 eo so m) ps) as [cs|] eqn:R'; cbn [rbind] in R; [|discriminate]. injection R as <-. destruct C as [<-|C]; [|eapply IH; eauto].
  unfold eq_curve in Q. destruct (rmap (eq_point false 3 eo so p) (seq 0 (length (p_time p)))) as [v|] eqn:V; cbn [rbind] in Q; [|discriminate]. injection Q as <-. unfold pad in X. apply in_app_or in X as [X|X]; [|now apply repeat_spec in X].
  clear -V X. revert v V X. induction (seq 0 (length (p_time p))) as [|i l IH]; intros v V X; cbn [rmap] in V; [injection V as <-; destruct X|].
  destruct (eq_point false 3 eo so p i) as [y|] eqn:Y; cbn [rbind] in V; [|discriminate]. destruct (rmap (eq_point false 3 eo so p) l) as [w|] eqn:W; cbn [rbind] in V; [|discriminate]. injection V as <-. destruct X as [<-|X]; [|eauto].
  unfold eq_point in Y. destruct (nth_error (p_strain p) i), (nth_error (p_stress p) i); try discriminate. destruct (build_tensor 3 eo l0 false); cbn [rbind] in Y; [|discriminate]. destruct (build_tensor 3 so l1 false); cbn [rbind] in Y; [|discriminate]. now injection Y as <-.
Qed.

(** ** Components *)
Lemma prefix_eq a b c : (a ++ b)%string = (a ++ c)%string -> b = c.
Proof. induction a as [|x a IH]; cbn; intros H; [exact H|]. injection H as H. auto. Qed.
Lemma combine_seq_nth {A} (l : list A) a k x : nth_error l k = Some x -> nth_error (combine (seq a (length l)) l) k = Some ((a + k)%nat, x).
Proof.
  revert a k. induction l as [|q l IH]; intros a [|k] H; try discriminate; cbn.
  - injection H as ->. now rewrite Nat.add_0_r.
  - rewrite (IH (S a) k H). do 2 f_equal. lia.
Qed.
(** The j-th curve of the figure shows the j-th component over the times. *)
Theorem component_figure_law : forall what comps times rows, length rows = length times -> (forall r, In r rows -> (length comps <= length r)%nat) ->
  exists fig, comp_figure what comps times rows = Ok fig /\ length fig = length comps /\
  forall j c, nth_error comps j = Some c -> exists pts, nth_error fig j = Some ((what ++ " " ++ nat_str (fst c) ++ nat_str (snd c))%string, pts) /\ length pts = length times /\
  forall t, (t < length times)%nat -> nth_error pts t = Some (nth t times 0, nth j (nth t rows []) 0).
Proof.
  intros what comps times rows L W. set (col := fun j => map (fun r => nth j r 0) rows).
  assert (C : forall j, (j < length comps)%nat -> comp_column (length times) rows j = Ok (col j)).
  { intros j J. unfold comp_column. assert (M : rmap (fun r => match nth_error r j with Some x => Ok x | None => Err IndexError end) rows = Ok (col j)).
    { unfold col. clear -W J. induction rows as [|r l IH]; [reflexivity|]. cbn [rmap map]. rewrite (nth_error_nth' r 0) by (specialize (W r (or_introl eq_refl)); lia). cbn [rbind]. rewrite IH by (intros; apply W; now right). reflexivity. }
    rewrite M. cbn [rbind]. unfold col at 1. rewrite map_length, L, Nat.eqb_refl. reflexivity. }
  exists (map (fun jc => ((what ++ " " ++ comp_name (snd jc))%string, combine times (col (fst jc)))) (combine (seq 0 (length comps)) comps)). split; [|split].
  - unfold comp_figure. apply rmap_seq. intros [j c] I. cbn [fst snd]. apply in_combine_l in I. apply in_seq in I. rewrite C by lia. reflexivity.
  - rewrite map_length, combine_length, seq_length. lia.
  - intros j c J. rewrite nth_error_map, (combine_seq_nth _ 0%nat j c J). cbn [option_map fst snd Nat.add]. eexists. split; [reflexivity|].
    assert (LC : length (col j) = length times) by (unfold col; rewrite map_length; exact L). split; [rewrite combine_length; lia|]. intros t T.
    rewrite (nth_error_nth' _ (0, 0)) by (rewrite combine_length; lia). rewrite combine_nth by (symmetry; exact LC). do 2 f_equal.
    unfold col. rewrite (nth_indep _ 0 ((fun r => nth j r 0) [])) by (fold (col j); lia). rewrite (map_nth (fun r => nth j r 0)). reflexivity.
Qed.
(** ** State variable *)
(** Histories of one state variable with the times of every path. *)
Theorem state_figure_law : forall ts ss, ts <> [] -> length ts = length ss ->
  (forall k t s, nth_error ts k = Some t -> nth_error ss k = Some s -> t <> [] /\ s_cols s = 1%nat /\ length (concat (s_rows s)) = length t) ->
  exists cs values, plot_state (Many ts) (Many (ss)) = Ok (cs, values) /\ values = concat (map (fun s => concat (s_rows s)) ss) /\ length cs = length ss /\
  forall k t s, nth_error ts k = Some t -> nth_error ss k = Some s -> exists c, nth_error cs k = Some c /\
  (forall i, (i < length t)%nat -> nth_error c i = Some (Some (nth i t 0, nth i (concat (s_rows s)) 0))) /\
  forall i p, nth_error c i = Some (Some p) -> (i < length t)%nat.
Proof.
  intros ts ss NE L H. set (m := n_time_max ts).
  set (g := fun t s => map Some (combine t (concat (s_rows s))) ++ repeat (@None (R * R)) (m - length t)).
  assert (AT : forall k, (k < length ss)%nat -> exists t s, nth_error ts k = Some t /\ nth_error ss k = Some s).
  { intros k K. exists (nth k ts []), (nth k ss (mkState 0 [])). split; apply nth_error_nth'; lia. }
  exists (map (fun k => g (nth k ts []) (nth k ss (mkState 0 []))) (seq 0 (length ss))), (concat (map (fun s => concat (s_rows s)) ss)). split; [|split; [reflexivity|split]].
  - unfold plot_state. cbn [arg_len]. rewrite L, Nat.eqb_refl. cbn [negb].
    assert (CT : check_times ts = Ok ts).
    { unfold check_times. destruct ts as [|t0 tl]; [congruence|]. remember (t0 :: tl) as ts. destruct (existsb (fun t => Nat.eqb (length t) 0) ts) eqn:X; [|reflexivity]. apply existsb_exists in X as (t & I & Z).
      apply In_nth_error in I as (k & K). assert (KL : (k < length ss)%nat) by (rewrite <- L; apply nth_error_Some; congruence). destruct (AT k KL) as (t' & s & A & B). destruct (H k t' s A B) as (N & _). rewrite K in A. injection A as <-. destruct t; [congruence|discriminate]. }
    rewrite CT. cbn [rbind]. unfold state_figures. destruct ss as [|s0 sl] eqn:ES; [destruct ts; [congruence|discriminate]|]. rewrite <- ES in *.
    assert (ALL : forall s, In s ss -> s_cols s = 1%nat).
    { intros s I. apply In_nth_error in I as (k & K). assert (KL : (k < length ss)%nat) by (apply nth_error_Some; congruence). destruct (AT k KL) as (t & s' & A & B). rewrite K in B. injection B as <-. now destruct (H k t s A K) as (_ & ? & _). }
    rewrite (ALL s0) by (rewrite ES; now left). cbn [Nat.eqb negb].
    rewrite (rmap_seq _ (fun k => g (nth k ts []) (nth k ss (mkState 0 [])))).
    + cbn [rbind]. replace (forallb (fun s => Nat.eqb (s_cols s) 1) ss) with true; [reflexivity|]. symmetry. apply forallb_forall. intros s I. rewrite (ALL s I). reflexivity.
    + intros k K. apply in_seq in K. destruct (AT k) as (t & s & A & B); [lia|]. rewrite A. rewrite (nth_error_nth _ _ [] A). rewrite (nth_error_nth _ _ s0 B), (nth_error_nth _ _ (mkState 0 []) B).
      destruct (H k t s A B) as (_ & _ & Q). unfold state_column. rewrite Q, Nat.eqb_refl. cbn [rbind]. unfold pad, g. rewrite map_length, combine_length, Q, Nat.min_id. reflexivity.
  - rewrite map_length, seq_length. reflexivity.
  - intros k t s A B. assert (K : (k < length ss)%nat) by (apply nth_error_Some; congruence). exists (g t s). split.
    + rewrite nth_error_map, (nth_error_nth' (seq 0 (length ss)) 0%nat) by (rewrite seq_length; exact K). rewrite seq_nth by exact K. cbn [option_map Nat.add]. rewrite (nth_error_nth _ _ [] A), (nth_error_nth _ _ (mkState 0 []) B). reflexivity.
    + destruct (H k t s A B) as (_ & _ & Q). unfold g. split.
      * intros i I. rewrite nth_error_app1 by (rewrite map_length, combine_length; lia). rewrite nth_error_map, (nth_error_nth' _ (0, 0)) by (rewrite combine_length; lia). rewrite combine_nth by (symmetry; exact Q). reflexivity.
      * intros i p I. destruct (Nat.lt_ge_cases i (length t)) as [|G]; [assumption|]. rewrite nth_error_app2 in I by (rewrite map_length, combine_length; lia). apply nth_error_In in I. apply repeat_spec in I. discriminate.
Qed.
(** One path alone is the list of this path. *)
Theorem single_state : forall t s, plot_state (One t) (One s) = plot_state (Many [t]) (Many [s]).
Proof. reflexivity. Qed.
(** Other numbers of histories and paths are refused. *)
Theorem state_numbers : forall ts ss, length ts <> length ss -> plot_state (Many ts) (Many ss) = Err RuntimeError.
Proof. intros ts ss N. cbn. destruct (Nat.eqb_spec (length ts) (length ss)); [contradiction|reflexivity]. Qed.
(** State variables of several components are refused. *)
Theorem state_components : forall ts s ss, (forall t, In t ts -> t <> []) -> length ts = S (length ss) -> s_cols s <> 1%nat -> plot_state (Many ts) (Many (s :: ss)) = Err RuntimeError.
Proof.
  intros ts s ss N L C. unfold plot_state. cbn [arg_len length]. rewrite L, Nat.eqb_refl. cbn [negb]. unfold check_times. destruct ts as [|t l]; [discriminate|]. remember (t :: l) as ts.
  replace (existsb (fun t => Nat.eqb (length t) 0) ts) with false.
  - cbn [rbind state_figures]. destruct (Nat.eqb_spec (s_cols s) 1); [contradiction|reflexivity].
  - symmetry. apply not_true_is_false. intros X. apply existsb_exists in X as (x & I & Z). specialize (N x I). destruct x; [congruence|discriminate].
Qed.
(** Refuted: one history with a list of paths, or the reverse, is refused with
    RuntimeError: with equal lengths another exception is raised. *)
Theorem mixed_state_refuted : forall t ss s ts, t <> [] -> length t = length ss -> ts <> [] -> (forall x, In x ts -> x <> []) -> length ts = length (s_rows s) ->
  plot_state (One t) (Many ss) = Err TypeError /\ plot_state (Many ts) (One s) = Err IndexError.
Proof.
  intros t ss s ts T L NE N M. cbn. rewrite L, M, !Nat.eqb_refl. cbn. split; [destruct t; [congruence|reflexivity]|].
  unfold check_times. destruct ts as [|a l]; [congruence|]. remember (a :: l) as ts. replace (existsb (fun t => Nat.eqb (length t) 0) ts) with false; [reflexivity|].
  symmetry. apply not_true_is_false. intros X. apply existsb_exists in X as (x & I & Z). specialize (N x I). destruct x; [congruence|discriminate].
Qed.
(** Refuted: a state path that does not have the length of its times is refused:
    a single value is shown at all times. *)
Theorem single_value_refuted : forall t x, t <> [] -> exists c, plot_state (One t) (One (mkState 1 [[x]])) = Ok ([c], [x]) /\ forall i, (i < length t)%nat -> nth_error c i = Some (Some (nth i t 0, x)).
Proof.
  intros t x T. exists (map Some (combine t (repeat x (length t)))). split.
  - cbn. unfold check_times. cbn. destruct t as [|a l]; [congruence|]. cbn [length Nat.eqb orb rbind state_figures s_cols negb seq rmap nth_error nth]. unfold state_column. cbn [s_rows concat app length].
    assert (P : forall v : list R, length v = length (a :: l) -> pad None (n_time_max [a :: l]) (map Some (combine (a :: l) v)) = map Some (combine (a :: l) v)).
    { intros v V. unfold pad. replace (n_time_max [a :: l]) with (length (a :: l)) by (unfold n_time_max; cbn; lia). rewrite map_length, combine_length, V, Nat.min_id, Nat.sub_diag. apply app_nil_r. }
    destruct l as [|b l]; [reflexivity|]. specialize (P (repeat x (length (a :: b :: l))) (repeat_length _ _)). cbn [length Nat.eqb rbind] in *. rewrite P. reflexivity.
  - intros i I. rewrite nth_error_map, (nth_error_nth' _ (0, 0)) by (rewrite combine_length, repeat_length; lia). rewrite combine_nth by (symmetry; apply repeat_length). rewrite (nth_indep (repeat x (length t)) 0 x) by (rewrite repeat_length; exact I). rewrite nth_repeat. reflexivity.
Qed.
(** A path of two times of simple shear and one of one time. *)
Definition shear_order : list comp := [(1, 1); (2, 2); (3, 3); (1, 2); (2, 3); (1, 3)]%nat.
Example eq_case : eq_stress 3 (fun i j => if Nat.eqb i j then 0 else 1) = 3 /\ eq_figure true 3 shear_order shear_order [] = Err ValueError.
Proof.
  split; [|reflexivity].
  rewrite (proj2 (eq_stress_iff _)); [|left; unfold mean; cbn; lra]. unfold vm_stress. replace (3 / 2 * norm2 _) with (3 * 3); [apply sqrt_square; lra|]. unfold norm2, dev. cbn [Nat.eqb]. field.
Qed.
Example path_case : path_of 3 shear_order shear_order (mkPath [0] [[1; 0; 0; 0; 0; 0]] [[2; 0; 0; 0; 0; 0]]) (fun _ => uniaxial 1) (fun _ => uniaxial 2).
Proof.
  assert (S : forall x, symmetric 3 (uniaxial x)) by (intros x [|[|[|i]]] [|[|[|j]]] I J; try lia; reflexivity).
  assert (T : forall x, stores shear_order (uniaxial x) [x; 0; 0; 0; 0; 0]).
  { intros x. split; [reflexivity|]. intros [|[|[|[|[|[|m]]]]]] c H; try (injection H as <-; reflexivity). destruct m; discriminate. }
  intros [|t] H; [|cbn in H; lia]. split; [apply S|split; [apply S|]]. exists [1; 0; 0; 0; 0; 0], [2; 0; 0; 0; 0; 0]. auto.
Qed.
Example state_case : plot_state (Many [[0; 1]; [0]]) (Many [mkState 1 [[5]; [6]]; mkState 1 [[7]]]) = Ok ([[Some (0, 5); Some (1, 6)]; [Some (0, 7); None]], [5; 6; 7]).
Proof. reflexivity. Qed.
Example comp_case : comp_figure "Strain" [(1, 1); (1, 2)]%nat [0; 1] [[2; 3]; [4; 5]] = Ok [("Strain 11", [(0, 2); (1, 4)]); ("Strain 12", [(0, 3); (1, 5)])].
Proof. reflexivity. Qed.

Print Assumptions eq_stress_iff.
Print Assumptions eq_strain_iff.
Print Assumptions uniaxial_eq_refuted.
Print Assumptions hydrostatic_eq_refuted.
Print Assumptions eq_figure_law.
Print Assumptions eq_figure_shown.
Print Assumptions short_path_refuted.
Print Assumptions finite_figure_refuted.
Print Assumptions component_figure_law.
Print Assumptions state_figure_law.
Print Assumptions single_state.
Print Assumptions state_numbers.
Print Assumptions state_components.
Print Assumptions mixed_state_refuted.
Print Assumptions single_value_refuted.
