(** C61 losses and C62 prediction metrics. *)
From Coq Require Import Reals String List Arith Lia Lra Bool Permutation.
From Verif Require Import Lib HardeningModel HardeningProps ScalerModel PyDict MetricsModel.
Import ListNotations.
Local Open Scope R_scope.
Local Open Scope list_scope.

(** ** Mean relative error *)
Definition mean_of {A} (f : A -> R) (l : list A) : R := lsum (map f l) / INR (length l).

Lemma nsum_some {A} (f : A -> R) (l : list A) : nsum (map (fun a => Some (f a)) l) = Some (lsum (map f l)).
Proof. induction l as [|a l IH]; cbn; [reflexivity|]. unfold nsum in IH. rewrite IH. reflexivity. Qed.
Lemma nmean_some {A} (f : A -> R) (l : list A) : l <> [] -> nmean (map (fun a => Some (f a)) l) = Some (mean_of f l).
Proof.
  intros N. unfold nmean, mean_of. rewrite map_length. destruct l as [|a l]; [congruence|].
  rewrite nsum_some. reflexivity.
Qed.
Lemma length_pos {A} (l : list A) : l <> [] -> 0 < INR (length l).
Proof. intros N. apply lt_0_INR. destruct l; [congruence|]. cbn. lia. Qed.

(** What an error is divided by. *)
Definition scale (mode : zero_handling) (small t : R) : R :=
  match mode with
  | Absolute => if Rlt_dec (Rabs t) small then 1 else Rabs t
  | Clip => Rmax (Rabs t) small
  | Regularizer => Rabs t + small
  end.
Definition relative (mode : zero_handling) (small : R) (p : R * R) : R :=
  Rabs (fst p - snd p) / scale mode small (snd p).

Lemma scale_pos mode small t : 0 < small -> 0 < scale mode small t.
Proof.
  intros H. pose proof (Rabs_pos t) as P. destruct mode; cbn [scale].
  - destruct (Rlt_dec (Rabs t) small); lra.
  - pose proof (Rmax_r (Rabs t) small). lra.
  - lra.
Qed.
Lemma fdiv_some a b : b <> 0 -> fdiv a b = Some (a / b).
Proof. intros H. unfold fdiv. destruct (Req_EM_T b 0); [contradiction|reflexivity]. Qed.
Lemma mre_entry_relative mode small p : 0 < small -> mre_entry mode small p = Some (relative mode small p).
Proof.
  intros H. pose proof (scale_pos mode small (snd p) H) as P. unfold mre_entry, relative.
  destruct mode; cbn [scale] in *.
  - destruct (Rlt_dec (Rabs (snd p)) small) as [L|L].
    + rewrite (proj2 (rltb_iff _ _) L). f_equal. field.
    + destruct (rltb (Rabs (snd p)) small) eqn:E; [apply rltb_iff in E; contradiction|]. apply fdiv_some. lra.
  - apply fdiv_some. lra.
  - apply fdiv_some. lra.
Qed.
(** The loss is the mean of the relative errors: always a number. *)
Theorem mre_is_mean : forall mode small l, 0 < small -> l <> [] ->
  mre mode small l = Some (mean_of (relative mode small) l).
Proof.
  intros mode small l H N. unfold mre. rewrite <- nmean_some by auto. f_equal. apply map_ext.
  intros p. apply mre_entry_relative. auto.
Qed.

Lemma lsum_nonneg_map {A} (f : A -> R) l : (forall a, In a l -> 0 <= f a) -> 0 <= lsum (map f l).
Proof.
  induction l as [|a l IH]; intros H; cbn; [lra|].
  pose proof (H a (or_introl eq_refl)). assert (0 <= lsum (map f l)) by (apply IH; intros; apply H; right; auto). lra.
Qed.
Lemma lsum_zero_map {A} (f : A -> R) l : (forall a, In a l -> 0 <= f a) -> lsum (map f l) = 0 -> forall a, In a l -> f a = 0.
Proof.
  induction l as [|b l IH]; intros H E a I; [contradiction|]. cbn in E.
  pose proof (H b (or_introl eq_refl)) as B. assert (P : 0 <= lsum (map f l)) by (apply lsum_nonneg_map; intros; apply H; right; auto).
  destruct I as [->|I]; [lra|]. apply IH; auto; [intros; apply H; right; auto|lra].
Qed.
Lemma mean_le {A} (f g : A -> R) l : l <> [] -> (forall a, In a l -> f a <= g a) -> mean_of f l <= mean_of g l.
Proof.
  intros N H. unfold mean_of. apply Rmult_le_compat_r; [left; apply Rinv_0_lt_compat, length_pos; auto|].
  clear N. induction l as [|a l IH]; cbn; [lra|]. pose proof (H a (or_introl eq_refl)).
  assert (lsum (map f l) <= lsum (map g l)) by (apply IH; intros; apply H; right; auto). lra.
Qed.
Lemma mean_ext {A} (f g : A -> R) l : (forall a, In a l -> f a = g a) -> mean_of f l = mean_of g l.
Proof. intros H. unfold mean_of. f_equal. f_equal. apply map_ext_in. auto. Qed.
Lemma mean_scal {A} (f : A -> R) k l : mean_of (fun a => k * f a) l = k * mean_of f l.
Proof.
  unfold mean_of. replace (lsum (map (fun a => k * f a) l)) with (k * lsum (map f l)); [unfold Rdiv; ring|].
  induction l as [|a l IH]; cbn; [ring|]. rewrite <- IH. ring.
Qed.
Lemma mean_const {A} k (l : list A) : l <> [] -> mean_of (fun _ => k) l = k.
Proof.
  intros N. unfold mean_of. replace (lsum (map (fun _ => k) l)) with (k * INR (length l)).
  - field. pose proof (length_pos l N). lra.
  - clear N. induction l as [|a l IH]; [cbn; ring|]. cbn [map lsum length]. rewrite S_INR. cbn in IH.
    change (lsum (k :: map (fun _ => k) l)) with (k + lsum (map (fun _ => k) l)). rewrite <- IH. ring.
Qed.
Lemma relative_nonneg mode small p : 0 < small -> 0 <= relative mode small p.
Proof.
  intros H. unfold relative. apply Rmult_le_pos; [apply Rabs_pos|].
  left. apply Rinv_0_lt_compat, scale_pos. auto.
Qed.
(** It is zero exactly for a perfect prediction. *)
Theorem mre_zero_iff : forall mode small l v, 0 < small -> mre mode small l = Some v ->
  0 <= v /\ (v = 0 <-> forall p, In p l -> fst p = snd p).
Proof.
  intros mode small l v H E.
  assert (N : l <> []) by (intros ->; discriminate E).
  rewrite mre_is_mean in E by auto. injection E as <-. pose proof (length_pos l N) as P.
  assert (Q : forall p, In p l -> 0 <= relative mode small p) by (intros; apply relative_nonneg; auto).
  split.
  - unfold mean_of. apply Rmult_le_pos; [apply lsum_nonneg_map; auto|]. left. apply Rinv_0_lt_compat; auto.
  - split.
    + intros Z p I.
      assert (S0 : lsum (map (relative mode small) l) = 0).
      { unfold mean_of in Z. apply Rmult_integral in Z. destruct Z as [Z|Z]; auto.
        pose proof (Rinv_0_lt_compat _ P). lra. }
      pose proof (lsum_zero_map _ _ Q S0 p I) as R0. unfold relative in R0.
      pose proof (scale_pos mode small (snd p) H) as SP. apply Rmult_integral in R0. destruct R0 as [R0|R0].
      * apply Rminus_diag_uniq. destruct (Req_dec (fst p - snd p) 0); auto. apply Rabs_no_R0 in H0. contradiction.
      * pose proof (Rinv_0_lt_compat _ SP). lra.
    + intros Z. rewrite (mean_ext _ (fun _ => 0)); [apply mean_const; auto|].
      intros p I. unfold relative. rewrite (Z p I), Rminus_diag_eq, Rabs_R0 by auto. unfold Rdiv. ring.
Qed.
(** The mean of no entry is NaN. *)
Theorem mre_empty : forall mode small, mre mode small [] = None.
Proof. reflexivity. Qed.
(** A uniform relative error is the loss; a relative error bound is a loss bound. *)
Theorem mre_bound : forall mode small l e v, 0 < small -> mode <> Regularizer ->
  mre mode small l = Some v -> (forall p, In p l -> small <= Rabs (snd p) /\ Rabs (fst p - snd p) <= e * Rabs (snd p)) -> v <= e.
Proof.
  intros mode small l e v H M E B. assert (N : l <> []) by (intros ->; discriminate E).
  rewrite mre_is_mean in E by auto. injection E as <-.
  rewrite <- (mean_const e l N). apply mean_le; auto. intros p I. destruct (B p I) as [B1 B2].
  assert (SC : scale mode small (snd p) = Rabs (snd p)).
  { destruct mode; cbn [scale]; [|apply Rmax_left; auto|congruence]. destruct (Rlt_dec _ _); lra. }
  unfold relative. rewrite SC. apply (Rmult_le_reg_r (Rabs (snd p))); [lra|].
  replace (Rabs (fst p - snd p) / Rabs (snd p) * Rabs (snd p)) with (Rabs (fst p - snd p)) by (field; lra). exact B2.
Qed.
Theorem mre_uniform : forall mode small l e, 0 < small -> mode <> Regularizer -> l <> [] ->
  (forall p, In p l -> small <= Rabs (snd p) /\ fst p = (1 + e) * snd p) -> mre mode small l = Some (Rabs e).
Proof.
  intros mode small l e H M N B. rewrite mre_is_mean by auto. f_equal.
  rewrite <- (mean_const (Rabs e) l N). apply mean_ext. intros p I. destruct (B p I) as [B1 B2].
  assert (SC : scale mode small (snd p) = Rabs (snd p)).
  { destruct mode; cbn [scale]; [|apply Rmax_left; auto|congruence]. destruct (Rlt_dec _ _); lra. }
  unfold relative. rewrite SC, B2. replace ((1 + e) * snd p - snd p) with (e * snd p) by ring.
  rewrite Rabs_mult. field. lra.
Qed.
(** How the three strategies compare. *)
Theorem mre_modes : forall small l, 0 < small -> l <> [] ->
  exists va vc vr, mre Absolute small l = Some va /\ mre Clip small l = Some vc /\ mre Regularizer small l = Some vr
    /\ vr <= vc <= 2 * vr /\ (small <= 1 -> va <= vc)
    /\ ((forall p, In p l -> small <= Rabs (snd p)) -> va = vc).
Proof.
  intros small l H N.
  exists (mean_of (relative Absolute small) l), (mean_of (relative Clip small) l), (mean_of (relative Regularizer small) l).
  rewrite !mre_is_mean by auto. do 3 (split; [reflexivity|]).
  assert (D : forall a b c, 0 <= a -> 0 < b -> b <= c -> a / c <= a / b).
  { intros a b c A B C. apply Rmult_le_compat_l; auto. apply Rinv_le_contravar; auto. }
  repeat split.
  - apply mean_le; auto. intros p _. unfold relative. apply D; [apply Rabs_pos|apply (scale_pos Clip); auto|].
    cbn [scale]. pose proof (Rabs_pos (snd p)). apply Rmax_lub; lra.
  - rewrite <- mean_scal. apply mean_le; auto. intros p _. unfold relative.
    pose proof (scale_pos Clip small (snd p) H) as P1. pose proof (scale_pos Regularizer small (snd p) H) as P2.
    cbn [scale] in *. replace (2 * (Rabs (fst p - snd p) / (Rabs (snd p) + small))) with (Rabs (fst p - snd p) / ((Rabs (snd p) + small) / 2)).
    + apply D; [apply Rabs_pos|lra|]. pose proof (Rmax_l (Rabs (snd p)) small). pose proof (Rmax_r (Rabs (snd p)) small). lra.
    + field. lra.
  - intros S1. apply mean_le; auto. intros p _. unfold relative. cbn [scale].
    destruct (Rlt_dec (Rabs (snd p)) small) as [L|L].
    + rewrite Rmax_right by lra. apply D; [apply Rabs_pos|lra|lra].
    + rewrite Rmax_left by lra. lra.
  - intros B. apply mean_ext. intros p I. unfold relative. cbn [scale]. specialize (B p I).
    destruct (Rlt_dec (Rabs (snd p)) small) as [L|L]; [lra|]. rewrite Rmax_left by lra. reflexivity.
Qed.
(** Away from the threshold the loss does not depend on the units. *)
Theorem mre_units : forall mode small l k, 0 < small -> mode <> Regularizer -> k <> 0 ->
  (forall p, In p l -> small <= Rabs (snd p) /\ small <= Rabs (k * snd p)) ->
  mre mode small (map (fun p => (k * fst p, k * snd p)) l) = mre mode small l.
Proof.
  intros mode small l k H M K B. destruct l as [|q l]; [reflexivity|]. set (L := q :: l) in *.
  assert (N : L <> []) by discriminate.
  rewrite (mre_is_mean mode small L) by auto. rewrite mre_is_mean by (auto; discriminate). f_equal.
  unfold mean_of. rewrite map_length, map_map. f_equal. f_equal. apply map_ext_in. intros p I.
  destruct (B p I) as [B1 B2]. unfold relative. cbn [fst snd].
  assert (SC : forall t, small <= Rabs t -> scale mode small t = Rabs t).
  { intros t T. destruct mode; cbn [scale]; [|apply Rmax_left; auto|congruence]. destruct (Rlt_dec _ _); lra. }
  rewrite !SC by auto. rewrite <- Rmult_minus_distr_l, !Rabs_mult. field.
  split; [lra|]. apply Rabs_no_R0. auto.
Qed.
(** The order of the entries does not matter. *)
Theorem mre_permutation : forall mode small l l', 0 < small -> Permutation l l' -> mre mode small l = mre mode small l'.
Proof.
  intros mode small l l' H P. destruct l as [|p l].
  - apply Permutation_nil in P. subst. reflexivity.
  - assert (N : l' <> []) by (intros ->; apply Permutation_sym, Permutation_nil in P; discriminate).
    rewrite !mre_is_mean by (auto; discriminate). f_equal. unfold mean_of. rewrite (Permutation_length P). f_equal.
    apply lsum_perm. apply Permutation_map. auto.
Qed.
Theorem get_pytorch_loss_labels : forall loss_type zero small,
  (get_pytorch_loss loss_type zero small = Err RuntimeError <->
     (loss_type <> "mse" /\ (loss_type <> "mre" \/ (zero <> "absolute" /\ zero <> "clip" /\ zero <> "regularizer")))%string).
Proof.
  intros lt z s. unfold get_pytorch_loss, zero_handling_of.
  destruct (String.eqb_spec lt "mse") as [->|N1]; [split; [discriminate|intros [A _]; congruence]|].
  destruct (String.eqb_spec lt "mre") as [->|N2]; [|split; auto].
  destruct (String.eqb_spec z "clip") as [->|M1]; [split; [discriminate|intros [_ [A|[_ [A _]]]]; congruence]|].
  destruct (String.eqb_spec z "absolute") as [->|M2]; [split; [discriminate|intros [_ [A|[A _]]]; congruence]|].
  destruct (String.eqb_spec z "regularizer") as [->|M3]; [split; [discriminate|intros [_ [A|[_ [_ A]]]]; congruence]|].
  split; auto.
Qed.

(** ** Gradients *)
(** The entries with the input of entry [j] replaced. *)
Definition with_input (l : list (R * R)) (j : nat) (x : R) : list (R * R) :=
  firstn j l ++ (x, snd (nth j l (0, 0))) :: skipn (S j) l.
Lemma with_input_nonempty l j x : with_input l j x <> [].
Proof. unfold with_input. destruct (firstn j l); discriminate. Qed.
Lemma with_input_length l j x : (j < length l)%nat -> length (with_input l j x) = length l.
Proof.
  intros H. unfold with_input. rewrite app_length. cbn [length]. rewrite firstn_length, skipn_length. lia.
Qed.

Lemma sgn_derivative t x : x <> t -> derivable_pt_lim (fun v => Rabs (v - t)) x (sgn (x - t)).
Proof.
  intros N. unfold sgn.
  assert (D : derivable_pt_lim (fun v => v - t) x 1).
  { replace 1 with (1 - 0) by ring. apply derivable_pt_lim_minus; [apply derivable_pt_lim_id|apply derivable_pt_lim_const]. }
  destruct (rltb 0 (x - t)) eqn:E.
  - apply rltb_iff in E. replace 1 with (1 * 1) by ring.
    apply (derivable_pt_lim_comp (fun v => v - t) Rabs x 1 1 D). apply Rabs_derive_1. auto.
  - assert (x - t < 0). { destruct (Rlt_dec 0 (x - t)) as [L|L]; [apply rltb_iff in L; congruence|]. lra. }
    rewrite (proj2 (rltb_iff _ _) H). replace (-1) with (-1 * 1) by ring.
    apply (derivable_pt_lim_comp (fun v => v - t) Rabs x 1 (-1) D). apply Rabs_derive_2. auto.
Qed.
(** The computed gradient: the derivative of the loss, wherever there is one,
    except for a null target in the default strategy. *)
Theorem mre_gradient_partial : forall mode small l j, 0 < small -> (j < length l)%nat ->
  let x := fst (nth j l (0, 0)) in let t := snd (nth j l (0, 0)) in
  (mode = Absolute -> t <> 0) -> x <> t ->
  exists f g, (forall v, mre mode small (with_input l j v) = Some (f v))
    /\ mre_backward mode small l j = Some g /\ derivable_pt_lim f x g.
Proof.
  intros mode small l j H J x t T X.
  exists (fun v => mean_of (relative mode small) (with_input l j v)), (sgn (x - t) * / scale mode small t * / INR (length l)).
  assert (P : 0 < INR (length l)) by (apply lt_0_INR; lia).
  pose proof (scale_pos mode small t H) as SP.
  split; [|split].
  - intros v. apply mre_is_mean; auto. apply with_input_nonempty.
  - unfold mre_backward. fold x t. destruct mode; cbn [scale] in *.
    + rewrite fdiv_some by (apply Rabs_no_R0; auto). cbn [nadd fmap]. f_equal.
      pose proof (Rabs_no_R0 t (T eq_refl)) as TN.
      destruct (Rlt_dec (Rabs t) small) as [L|L].
      * rewrite (proj2 (rltb_iff _ _) L). field. split; auto. lra.
      * destruct (rltb (Rabs t) small) eqn:E; [apply rltb_iff in E; contradiction|]. field. split; auto. lra.
    + rewrite fdiv_some by lra. cbn [fmap]. f_equal. field. split; lra.
    + rewrite fdiv_some by lra. cbn [fmap]. f_equal. field. split; lra.
  - set (c := lsum (map (relative mode small) (firstn j l)) + lsum (map (relative mode small) (skipn (S j) l))).
    apply (derivable_pt_lim_ext (fun v => (Rabs (v - t) * / scale mode small t + c) * / INR (length l))).
    + intros v. unfold mean_of. rewrite with_input_length by auto. unfold with_input. fold t.
      rewrite map_app, lsum_app. cbn [map]. change (lsum (relative mode small (v, t) :: map (relative mode small) (skipn (S j) l)))
        with (relative mode small (v, t) + lsum (map (relative mode small) (skipn (S j) l))).
      change (relative mode small (v, t)) with (Rabs (v - t) / scale mode small t). unfold c, Rdiv. ring.
    + assert (K : forall f g k, derivable_pt_lim f x g -> derivable_pt_lim (fun v => f v * k) x (g * k)).
      { intros f g k F. replace (g * k) with (g * k + f x * 0) by ring.
        apply (derivable_pt_lim_mult f (fun _ => k) x g 0 F). apply derivable_pt_lim_const. }
      apply (K (fun v => Rabs (v - t) * / scale mode small t + c)).
      replace (sgn (x - t) * / scale mode small t) with (sgn (x - t) * / scale mode small t + 0) by ring.
      apply (derivable_pt_lim_plus (fun v => Rabs (v - t) * / scale mode small t) (fun _ => c)); [|apply derivable_pt_lim_const].
      apply (K (fun v => Rabs (v - t))). apply sgn_derivative. auto.
Qed.
(** In the default strategy every null target makes the gradient NaN ... *)
Theorem mre_null_target_gradient : forall small l j, 0 < small ->
  snd (nth j l (0, 0)) = 0 -> mre_backward Absolute small l j = None.
Proof.
  intros small l j H T. unfold mre_backward. rewrite T, Rabs_R0. rewrite (proj2 (rltb_iff _ _) H).
  unfold fdiv. destruct (Req_EM_T 0 0); [reflexivity|congruence].
Qed.
(** ... although the loss is a number with a derivative there. *)
Theorem mre_gradient_refuted : exists l,
  mre Absolute (/ 100000) l = Some (1 / 2) /\ mre_backward Absolute (/ 100000) l 0 = None
  /\ exists f, (forall v, mre Absolute (/ 100000) (with_input l 0 v) = Some (f v)) /\ derivable_pt_lim f 1 (1 / 2).
Proof.
  assert (SM : 0 < / 100000) by lra. exists [(1, 0); (2, 2)]. repeat split.
  - rewrite mre_is_mean by (auto; discriminate). f_equal. unfold mean_of, relative. cbn [map fst snd length scale].
    destruct (Rlt_dec (Rabs 0) (/ 100000)) as [L|L]; [|rewrite Rabs_R0 in L; lra].
    replace (1 - 0) with 1 by ring. replace (2 - 2) with 0 by ring. rewrite Rabs_R0, Rabs_R1. unfold Rdiv. rewrite Rmult_0_l. simpl. field.
  - apply mre_null_target_gradient; auto.
  - exists (fun v => mean_of (relative Absolute (/ 100000)) (with_input [(1, 0); (2, 2)] 0 v)). split.
    + intros v. apply mre_is_mean; auto. discriminate.
    + apply (derivable_pt_lim_ext (fun v => Rabs (v - 0) * (1 / 2))).
      * intros v. unfold mean_of, relative. cbn [with_input firstn skipn app nth map fst snd length scale].
        destruct (Rlt_dec (Rabs 0) (/ 100000)) as [L|L]; [|rewrite Rabs_R0 in L; lra].
        replace (2 - 2) with 0 by ring. rewrite Rabs_R0. unfold Rdiv. rewrite Rmult_0_l. simpl. field.
      * enough (Q : derivable_pt_lim (fun v => Rabs (v - 0) * (1 / 2)) 1 (1 * (1 / 2) + Rabs (1 - 0) * 0)).
        { replace (1 * (1 / 2) + Rabs (1 - 0) * 0) with (1 / 2) in Q by ring. exact Q. }
        apply (derivable_pt_lim_mult (fun v => Rabs (v - 0)) (fun _ => 1 / 2) 1 1 0); [|apply derivable_pt_lim_const].
        pose proof (sgn_derivative 0 1 ltac:(lra)) as S. unfold sgn in S.
        rewrite (proj2 (rltb_iff 0 (1 - 0))) in S by lra. exact S.
Qed.

(** ** Prediction metrics *)
(** The metrics of one feature, by definition. *)
Definition spec_mse (l : list (R * R)) : R := mean_of (fun p => (fst p - snd p) * (fst p - snd p)) l.
Definition spec_metric (label : string) (out target : list R) : R :=
  if String.eqb label "mse" then spec_mse (combine out target)
  else if String.eqb label "rmse" then sqrt (spec_mse (combine out target))
  else if String.eqb label "mav" then mean_of Rabs out
  else mean_of Rabs target.
(** Stored results with predictions and ground truth of the same shape. *)
Definition complete (d : list (string * stored)) (out target : list (list R)) (n_time : nat) : Prop :=
  dget d "features_out" = Some (Tensor2 out) /\ dget d "targets" = Some (Tensor2 target)
  /\ length target = length out /\ (0 < n_time)%nat
  /\ Forall (fun c => length c = n_time) out /\ Forall (fun c => length c = n_time) target.

Lemma metric_value_spec label out target : length out = length target -> out <> [] -> known_metric label = true ->
  metric_value label out target = Ok (Some (spec_metric label out target)).
Proof.
  intros L N K. unfold metric_value, spec_metric.
  assert (NT : target <> []) by (intros ->; destruct out; [congruence|discriminate]).
  assert (Q : rmean (map (fun x => x ^ 2) (map (fun p => fst p - snd p) (combine out target))) = Some (spec_mse (combine out target))).
  { unfold rmean. rewrite !map_map. rewrite nmean_some.
    - unfold spec_mse. f_equal. apply mean_ext. intros. ring.
    - destruct out, target; try congruence; discriminate. }
  assert (A : forall l, l <> [] -> rmean (map Rabs l) = Some (mean_of Rabs l)).
  { intros l NL. unfold rmean. rewrite map_map. apply nmean_some. auto. }
  destruct (String.eqb_spec label "mse") as [->|N1].
  - cbn [orb]. unfold bsub. rewrite (proj2 (Nat.eqb_eq _ _) L). cbn [rbind]. rewrite Q. reflexivity.
  - destruct (String.eqb_spec label "rmse") as [->|N2].
    + cbn [orb]. unfold bsub. rewrite (proj2 (Nat.eqb_eq _ _) L). cbn [rbind]. rewrite Q. reflexivity.
    + cbn [orb]. rewrite !A by auto. unfold known_metric in K.
      rewrite (proj2 (String.eqb_neq _ _) N1), (proj2 (String.eqb_neq _ _) N2) in K. cbn [orb] in K.
      destruct (String.eqb_spec label "mav") as [->|N3]; [reflexivity|]. cbn [orb] in K. rewrite K. reflexivity.
Qed.
Lemma features_loop_spec d out target n_time label idxs : complete d out target n_time -> known_metric label = true ->
  (forall i, In i idxs -> (i < length out)%nat) ->
  features_loop d label idxs = Ok (map (fun i => Some (spec_metric label (nth i out []) (nth i target []))) idxs).
Proof.
  intros [A [B [L [T [F1 F2]]]]] K. induction idxs as [|i rest IH]; intros H; [reflexivity|].
  cbn [features_loop map]. unfold get_feature_data, rget. rewrite A, B. cbn [get_column].
  assert (Hi : (i < length out)%nat) by (apply H; left; auto).
  rewrite (nth_error_nth' out [] Hi). rewrite (nth_error_nth' target []) by lia. cbn [rbind fst snd].
  rewrite Forall_forall in F1, F2.
  pose proof (F1 _ (nth_In out [] Hi)) as E1. assert (Ht : (i < length target)%nat) by lia. pose proof (F2 _ (nth_In target [] Ht)) as E2.
  rewrite metric_value_spec by (auto; try congruence; intros Z; rewrite Z in E1; cbn in E1; lia).
  cbn [rbind]. rewrite IH by (intros; apply H; right; auto). reflexivity.
Qed.
(** All requested metrics and no others, each the defined value for each
    feature. *)
Theorem metrics_values : forall d out target n_time labels, complete d out target n_time ->
  (forall l, In l labels -> known_metric l = true) ->
  exists r, compute_prediction_metrics (Some (Results d)) labels = Ok r
    /\ forall l, (In l labels -> exists vs, dget r l = Some vs /\ length vs = length out
                   /\ forall i, (i < length out)%nat -> nth i vs None = Some (spec_metric l (nth i out []) (nth i target [])))
              /\ (~ In l labels -> dget r l = None).
Proof.
  intros d out target n_time labels C K.
  unfold compute_prediction_metrics, get_sample_n_features, rget. rewrite (proj1 C). cbn [rbind].
  enough (G : forall acc, (forall l, In l labels -> known_metric l = true) ->
    exists r, metrics_loop d (length out) labels acc = Ok r /\
      forall l, dget r l = if in_dec string_dec l labels
                           then Some (map (fun i => Some (spec_metric l (nth i out []) (nth i target []))) (seq 0 (length out)))
                           else dget acc l).
  { destruct (G [] K) as [r [E Q]]. exists r. split; [exact E|]. intros l. rewrite Q.
    destruct (in_dec string_dec l labels) as [I|I]; split; intros J; try contradiction; [|reflexivity].
    eexists. split; [reflexivity|]. rewrite map_length, seq_length. split; [reflexivity|].
    intros i Hi. etransitivity; [apply nth_map_seq; auto|reflexivity]. }
  clear K. induction labels as [|m rest IH]; intros acc K.
  - exists acc. split; [reflexivity|]. intros l. reflexivity.
  - cbn [metrics_loop]. rewrite (K m (or_introl eq_refl)).
    rewrite (features_loop_spec d out target n_time) by first [exact C | apply K; left; auto; fail | intros i I; apply in_seq in I; lia]. cbn [rbind].
    destruct (IH (dset acc m (map (fun i => Some (spec_metric m (nth i out []) (nth i target []))) (seq 0 (length out))))) as [r [E Q]].
    { intros l I. apply K. right; auto. }
    exists r. split; [exact E|]. intros l. rewrite Q.
    destruct (string_dec m l) as [->|N].
    + destruct (in_dec string_dec l (l :: rest)) as [I|I]; [|exfalso; apply I; left; auto].
      destruct (in_dec string_dec l rest); [reflexivity|]. apply dget_dset_same.
    + rewrite (dget_dset_other _ _ _ _ N).
      destruct (in_dec string_dec l rest) as [I|I]; destruct (in_dec string_dec l (m :: rest)) as [J|J]; auto.
      * exfalso. apply J. right; auto.
      * exfalso. destruct J as [J|J]; [congruence|contradiction].
Qed.
(** Errors: a missing file, an unknown metric, missing ground truth. *)
Theorem metrics_missing_file : forall labels, compute_prediction_metrics None labels = Err RuntimeError.
Proof. reflexivity. Qed.
Theorem metrics_unknown_label : forall d out target n_time labels, complete d out target n_time ->
  (exists l, In l labels /\ known_metric l = false) ->
  compute_prediction_metrics (Some (Results d)) labels = Err RuntimeError.
Proof.
  intros d out target n_time labels C U.
  unfold compute_prediction_metrics, get_sample_n_features, rget. rewrite (proj1 C). cbn [rbind].
  generalize (@nil (string * list num)). induction labels as [|m rest IH]; intros acc; [destruct U as [l [[] _]]|].
  cbn [metrics_loop]. destruct (known_metric m) eqn:E; [|reflexivity].
  rewrite (features_loop_spec d out target n_time) by first [exact C | exact E | intros i I; apply in_seq in I; lia]. cbn [rbind].
  apply IH. destruct U as [l [[->|I] K]]; [congruence|]. exists l. auto.
Qed.
Theorem metrics_need_targets : forall d out labels, dget d "features_out" = Some (Tensor2 out) -> out <> [] ->
  (dget d "targets" = None \/ dget d "targets" = Some NoneValue) -> labels <> [] ->
  compute_prediction_metrics (Some (Results d)) labels = Err RuntimeError.
Proof.
  intros d out labels A N T L. unfold compute_prediction_metrics, get_sample_n_features, rget. rewrite A. cbn [rbind].
  destruct labels as [|m rest]; [congruence|]. cbn [metrics_loop]. destruct (known_metric m); [|reflexivity].
  destruct out as [|c out]; [congruence|]. cbn [length seq features_loop]. unfold get_feature_data, rget. rewrite A.
  cbn [get_column nth_error rbind]. destruct T as [T|T]; rewrite T; reflexivity.
Qed.
(** The mean absolute value of a prediction does not involve the ground truth,
    but it is refused without it. *)
Theorem mav_without_targets_refuted : exists d, dget d "features_out" = Some (Tensor2 [[1; -3]])
  /\ metric_value "mav" [1; -3] [] = Ok (Some 2)
  /\ compute_prediction_metrics (Some (Results d)) ["mav"%string] = Err RuntimeError.
Proof.
  exists [("features_out"%string, Tensor2 [[1; -3]])]. split; [reflexivity|]. split.
  - unfold metric_value. cbn [String.eqb Ascii.eqb Bool.eqb orb]. f_equal. unfold rmean. rewrite map_map, nmean_some by discriminate.
    f_equal. unfold mean_of. cbn [map lsum length]. rewrite Rabs_R1, (Rabs_left (-3)) by lra. simpl. field.
  - eapply metrics_need_targets; [reflexivity|discriminate|left; reflexivity|discriminate].
Qed.

(** Relations between the metrics of one feature. *)
Lemma spec_mse_nonneg l : l <> [] -> 0 <= spec_mse l.
Proof.
  intros N. unfold spec_mse, mean_of. apply Rmult_le_pos; [apply lsum_nonneg_map; intros; apply Rle_0_sqr|].
  left. apply Rinv_0_lt_compat, length_pos. auto.
Qed.
Theorem rmse_squared : forall out target, length out = length target -> out <> [] ->
  spec_metric "rmse" out target * spec_metric "rmse" out target = spec_metric "mse" out target.
Proof.
  intros out target L N. unfold spec_metric. cbn [String.eqb Ascii.eqb Bool.eqb]. apply sqrt_sqrt, spec_mse_nonneg.
  destruct out, target; try congruence; discriminate.
Qed.
Theorem mse_zero_iff : forall out target, length out = length target -> out <> [] ->
  (spec_metric "mse" out target = 0 <-> out = target).
Proof.
  intros out target L N. unfold spec_metric. cbn [String.eqb Ascii.eqb Bool.eqb].
  assert (NC : combine out target <> []) by (destruct out, target; try congruence; discriminate).
  pose proof (length_pos _ NC) as P. split.
  - intros Z. unfold spec_mse, mean_of in Z. apply Rmult_integral in Z. destruct Z as [Z|Z]; [|pose proof (Rinv_0_lt_compat _ P); lra].
    assert (Q := lsum_zero_map _ _ (fun a _ => Rle_0_sqr (fst a - snd a)) Z).
    clear - L Q. revert target L Q. induction out as [|x out IH]; intros [|y target] L Q; try discriminate; [reflexivity|].
    f_equal.
    + specialize (Q (x, y) (or_introl eq_refl)). cbn [fst snd] in Q. apply Rmult_integral in Q. lra.
    + apply IH; [cbn in L; lia|]. intros a I. apply Q. right. auto.
  - intros <-. unfold spec_mse. rewrite (mean_ext _ (fun _ => 0)); [apply mean_const; auto|].
    intros [x y] I. assert (x = y).
    { clear - I. induction out as [|a out IH]; [contradiction|]. destruct I as [I|I]; [congruence|auto]. }
    subst. cbn. ring.
Qed.

Lemma mean_plus {A} (f g : A -> R) l : mean_of (fun a => f a + g a) l = mean_of f l + mean_of g l.
Proof. unfold mean_of. rewrite lsum_map_plus. unfold Rdiv. ring. Qed.
(** Jensen: the mean absolute error is at most the root mean square error. *)
Lemma mean_abs_rms {A} (f : A -> R) l : l <> [] -> mean_of (fun a => Rabs (f a)) l <= sqrt (mean_of (fun a => f a * f a) l).
Proof.
  intros N. set (m := mean_of (fun a => Rabs (f a)) l). set (q := mean_of (fun a => f a * f a) l).
  assert (0 <= m).
  { unfold m, mean_of. apply Rmult_le_pos; [apply lsum_nonneg_map; intros; apply Rabs_pos|]. left. apply Rinv_0_lt_compat, length_pos; auto. }
  rewrite <- (sqrt_square m) by auto. apply sqrt_le_1_alt.
  assert (Z : 0 <= mean_of (fun a => (Rabs (f a) - m) * (Rabs (f a) - m)) l).
  { unfold mean_of. apply Rmult_le_pos; [apply lsum_nonneg_map; intros; apply Rle_0_sqr|]. left. apply Rinv_0_lt_compat, length_pos; auto. }
  rewrite (mean_ext _ (fun a => (f a * f a + (-2 * m) * Rabs (f a)) + m * m)) in Z.
  - rewrite !mean_plus, mean_scal, mean_const in Z by auto. fold m q in Z. lra.
  - intros a _. pose proof (Rsqr_abs (f a)) as S. unfold Rsqr in S. rewrite S. ring.
Qed.
Lemma mean_fst (f : R -> R) (out target : list R) : length out = length target ->
  mean_of (fun p => f (fst p)) (combine out target) = mean_of f out.
Proof.
  intros L. unfold mean_of. rewrite combine_length, <- L, Nat.min_id. f_equal.
  revert target L. induction out as [|x out IH]; intros [|y target] L; try discriminate; [reflexivity|].
  cbn [combine map lsum fst]. rewrite IH by (cbn in L; lia). reflexivity.
Qed.
Lemma mean_snd (f : R -> R) (out target : list R) : length out = length target ->
  mean_of (fun p => f (snd p)) (combine out target) = mean_of f target.
Proof.
  intros L. unfold mean_of. rewrite combine_length, L, Nat.min_id. f_equal.
  revert target L. induction out as [|x out IH]; intros [|y target] L; try discriminate; [reflexivity|].
  cbn [combine map lsum snd]. rewrite IH by (cbn in L; lia). reflexivity.
Qed.
Theorem mav_within_rmse : forall out target, length out = length target -> out <> [] ->
  Rabs (spec_metric "mav" out target - spec_metric "mav_gt" out target) <= spec_metric "rmse" out target.
Proof.
  intros out target L N. unfold spec_metric. cbn [String.eqb Ascii.eqb Bool.eqb].
  assert (NC : combine out target <> []) by (destruct out, target; try congruence; discriminate).
  eapply Rle_trans; [|apply (mean_abs_rms (fun p => fst p - snd p) _ NC)].
  rewrite <- (mean_fst Rabs out target L), <- (mean_snd Rabs out target L).
  apply Rabs_le. split.
  - assert (T : mean_of (fun p => Rabs (snd p)) (combine out target) <= mean_of (fun p => Rabs (fst p) + Rabs (fst p - snd p)) (combine out target)).
    { apply mean_le; auto. intros [x y] _. cbn. pose proof (Rabs_triang x (y - x)) as T. replace (x + (y - x)) with y in T by ring.
      rewrite Rabs_minus_sym. lra. }
    rewrite mean_plus in T. lra.
  - assert (T : mean_of (fun p => Rabs (fst p)) (combine out target) <= mean_of (fun p => Rabs (snd p) + Rabs (fst p - snd p)) (combine out target)).
    { apply mean_le; auto. intros [x y] _. cbn. pose proof (Rabs_triang y (x - y)) as T. replace (y + (x - y)) with x in T by ring. lra. }
    rewrite mean_plus in T. lra.
Qed.
(** The mean of the feature errors is the training loss of the sample. *)
Lemma concat_len (pairs : list (list (R * R))) n : Forall (fun c => length c = n) pairs -> length (concat pairs) = (length pairs * n)%nat.
Proof. induction 1; cbn; [reflexivity|]. rewrite app_length, IHForall. lia. Qed.
Theorem mse_is_training_loss : forall out target n_time, length out = length target -> out <> [] -> (0 < n_time)%nat ->
  Forall (fun c => length c = n_time) out -> Forall (fun c => length c = n_time) target ->
  mse_loss (concat (map (fun p => combine (fst p) (snd p)) (combine out target)))
  = Some (mean_of (fun p => spec_metric "mse" (fst p) (snd p)) (combine out target)).
Proof.
  intros out target n L N P F1 F2. set (pairs := map (fun p => combine (fst p) (snd p)) (combine out target)).
  assert (F : Forall (fun c => length c = n) pairs).
  { apply Forall_forall. intros c I. apply in_map_iff in I. destruct I as [[a b] [<- I]].
    rewrite Forall_forall in F1, F2. pose proof (F1 a (in_combine_l _ _ _ _ I)). pose proof (F2 b (in_combine_r _ _ _ _ I)).
    cbn [fst snd]. rewrite combine_length. lia. }
  assert (NP : length pairs = length out) by (unfold pairs; rewrite map_length, combine_length; lia).
  assert (PO : (0 < length out)%nat) by (destruct out; [congruence|cbn; lia]).
  assert (NC : concat pairs <> []).
  { intros Z. pose proof (concat_len pairs n F) as C. rewrite Z in C. cbn in C. nia. }
  unfold mse_loss. rewrite nmean_some by auto. f_equal. unfold mean_of at 1 2.
  rewrite (concat_len pairs n F), NP, combine_length, <- L, Nat.min_id.
  rewrite mult_INR.
  assert (I1 : 0 < INR (length out)) by (apply lt_0_INR; auto). assert (I2 : 0 < INR n) by (apply lt_0_INR; auto).
  replace (lsum (map (fun p => spec_metric "mse" (fst p) (snd p)) (combine out target)))
    with (lsum (map (fun a => (fst a - snd a) * (fst a - snd a)) (concat pairs)) / INR n); [field; lra|].
  clear NC PO NP N. unfold pairs in *. clear pairs L. revert F. generalize (combine out target). intros l F.
  induction l as [|[a b] l IH]; cbn [map concat lsum]; [unfold Rdiv; ring|].
  inversion F; subst. rewrite map_app, lsum_app, <- IH by auto. unfold spec_metric at 1. cbn [String.eqb Ascii.eqb Bool.eqb fst snd].
  unfold spec_mse, mean_of. cbn [fst snd] in *. unfold Rdiv. ring.
Qed.

(** ** Concrete cases *)
Example mre_case : mre Absolute (/ 100000) [(11, 10); (-3, -2); (5, 0)] = Some (28 / 15).
Proof.
  rewrite mre_is_mean by (try discriminate; lra). f_equal. unfold mean_of, relative. cbn [map fst snd length lsum scale].
  rewrite Rabs_R0, (Rabs_right 10), (Rabs_left (-2)), (Rabs_right (11 - 10)), (Rabs_left (-3 - -2)), (Rabs_right (5 - 0)) by lra.
  destruct (Rlt_dec 10 (/ 100000)); [lra|]. destruct (Rlt_dec (- -2) (/ 100000)); [lra|]. destruct (Rlt_dec 0 (/ 100000)); [|lra].
  simpl. field.
Qed.
Example metrics_case : exists r, compute_prediction_metrics
    (Some (Results [("features_out", Tensor2 [[1; 2]; [0; 4]]); ("targets", Tensor2 [[1; 4]; [0; 4]])]%string)) ["mse"; "mav"]%string = Ok r
  /\ (exists vs, dget r "mse" = Some vs /\ nth 0 vs None = Some 2 /\ nth 1 vs None = Some 0) /\ dget r "rmse" = None.
Proof.
  destruct (metrics_values [("features_out", Tensor2 [[1; 2]; [0; 4]]); ("targets", Tensor2 [[1; 4]; [0; 4]])]%string
    [[1; 2]; [0; 4]] [[1; 4]; [0; 4]] 2 ["mse"; "mav"]%string) as [r [E Q]].
  - repeat split; try lia; repeat constructor.
  - intros l [<-|[<-|[]]]; reflexivity.
  - exists r. split; [exact E|]. split.
    + destruct (proj1 (Q "mse"%string) (or_introl eq_refl)) as [vs [D [_ V]]]. exists vs. split; [exact D|].
      rewrite !V by (cbn; lia). cbn [nth]. unfold spec_metric. cbn [String.eqb Ascii.eqb Bool.eqb].
      unfold spec_mse, mean_of. cbn [combine map lsum fst snd length]. split; f_equal; simpl; field.
    + apply (proj2 (Q "rmse"%string)). intros [I|[I|[]]]; discriminate.
Qed.

Print Assumptions mre_gradient_partial.
Print Assumptions mre_gradient_refuted.
Print Assumptions metrics_values.
Print Assumptions mse_is_training_loss.
