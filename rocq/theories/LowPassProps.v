(** C60: the frequency low-pass denoiser is the orthogonal projection onto the
    frequencies up to the cutoff. *)
From Coq Require Import Reals List Arith ZArith Lia Lra Bool.
From Verif Require Import Lib HardeningModel HardeningProps DenoiseModel DenoiseProps LowPassModel.
Import ListNotations.
Local Open Scope R_scope.

(** ** Sums of cosines over a period *)
Lemma INR_nz n : (0 < n)%nat -> INR n <> 0.
Proof. intros H. apply not_0_INR. lia. Qed.

Lemma telescope_cos c phi n :
  2 * sin (c / 2) * rsum n (fun u => cos (phi + c * INR u))
  = sin (phi + c * INR n - c / 2) - sin (phi - c / 2).
Proof.
  induction n as [|n IH].
  - simpl. replace (phi + c * 0 - c / 2) with (phi - c / 2) by lra. ring.
  - cbn [rsum]. rewrite Rmult_plus_distr_l, IH, S_INR.
    replace (phi + c * (INR n + 1) - c / 2) with ((phi + c * INR n) + c / 2) by lra.
    replace (phi + c * INR n - c / 2) with ((phi + c * INR n) - c / 2) by lra.
    rewrite sin_plus, sin_minus. ring.
Qed.

Lemma sin_shift_period x (a : Z) : sin (x + 2 * PI * IZR a) = sin x.
Proof.
  destruct (Z_le_gt_dec 0 a) as [H|H].
  - rewrite <- (Z2Nat.id a H), <- INR_IZR_INZ.
    replace (x + 2 * PI * INR (Z.to_nat a)) with (x + 2 * INR (Z.to_nat a) * PI) by ring. apply sin_period.
  - set (y := x + 2 * PI * IZR a).
    replace x with (y + 2 * INR (Z.to_nat (- a)) * PI).
    + rewrite sin_period. reflexivity.
    + rewrite INR_IZR_INZ, Z2Nat.id by lia. unfold y. rewrite opp_IZR. ring.
Qed.
Lemma cos_shift_period x (a : Z) : cos (x + 2 * PI * IZR a) = cos x.
Proof.
  rewrite <- !sin_shift. rewrite <- (sin_shift_period (PI / 2 - x) (- a)). f_equal. rewrite opp_IZR. ring.
Qed.

Lemma period_sum n (a : Z) phi : (0 < n)%nat ->
  rsum n (fun u => cos (phi + 2 * PI * IZR a / INR n * INR u))
  = if Z.eqb (a mod Z.of_nat n) 0 then INR n * cos phi else 0.
Proof.
  intros Hn. pose proof (INR_nz n Hn) as NZ. destruct (Z.eqb_spec (a mod Z.of_nat n) 0) as [D|D].
  - apply Z.mod_divide in D; [|lia]. destruct D as [q ->]. rewrite <- rsum_const. apply rsum_ext.
    intros u _. rewrite mult_IZR, <- INR_IZR_INZ.
    replace (phi + 2 * PI * (IZR q * INR n) / INR n * INR u) with (phi + 2 * PI * IZR (q * Z.of_nat u)).
    + apply cos_shift_period.
    + rewrite mult_IZR, <- INR_IZR_INZ. field. auto.
  - pose proof (telescope_cos (2 * PI * IZR a / INR n) phi n) as T.
    replace (phi + 2 * PI * IZR a / INR n * INR n - 2 * PI * IZR a / INR n / 2)
      with ((phi - 2 * PI * IZR a / INR n / 2) + 2 * PI * IZR a) in T by (field; auto).
    rewrite sin_shift_period in T. rewrite Rminus_diag_eq in T by reflexivity.
    apply Rmult_integral in T. destruct T as [T|T]; [|exact T].
    exfalso. apply D. assert (S0 : sin (2 * PI * IZR a / INR n / 2) = 0) by lra.
    apply sin_eq_0_0 in S0. destruct S0 as [q Q].
    assert (E : IZR a = IZR q * INR n).
    { pose proof PI_neq0 as P. apply (Rmult_eq_reg_l PI); auto.
      replace (PI * IZR a) with (2 * PI * IZR a / INR n / 2 * INR n) by (field; auto). rewrite Q. ring. }
    rewrite INR_IZR_INZ, <- mult_IZR in E. apply eq_IZR in E. rewrite E. apply Z.mod_mul. lia.
Qed.

(** ** Products of tones *)
Definition neg (n k : nat) : nat := if Nat.eqb k 0 then 0%nat else (n - k)%nat.
Lemma neg_lt n k : (k < n)%nat -> (neg n k < n)%nat.
Proof. unfold neg. destruct (Nat.eqb_spec k 0); lia. Qed.
Lemma neg_neg n k : (k < n)%nat -> neg n (neg n k) = k.
Proof. unfold neg. intros H. destruct (Nat.eqb_spec k 0); [subst; auto|]. destruct (Nat.eqb_spec (n - k) 0); lia. Qed.

Lemma angle_neg n k t x : (k < n)%nat -> cos (x + angle n (neg n k) t) = cos (x - angle n k t).
Proof.
  intros H. pose proof (INR_nz n ltac:(lia)) as NZ. unfold neg, angle. destruct (Nat.eqb_spec k 0) as [->|N].
  - simpl. f_equal. field. auto.
  - rewrite minus_INR by lia.
    replace (x + 2 * PI * (INR n - INR k) * INR t / INR n)
      with ((x - 2 * PI * INR k * INR t / INR n) + 2 * PI * IZR (Z.of_nat t)).
    + apply cos_shift_period.
    + rewrite <- INR_IZR_INZ. field. auto.
Qed.

Definition ind (b : bool) : R := if b then 1 else 0.

Lemma mod_small_0 n (a : Z) : (0 < n)%nat -> (- Z.of_nat n < a < Z.of_nat n)%Z ->
  Z.eqb (a mod Z.of_nat n) 0 = Z.eqb a 0.
Proof.
  intros Hn H. destruct (Z.eqb_spec a 0) as [->|N]; [reflexivity|].
  apply Z.eqb_neq. intros M. apply Z.mod_divide in M; [|lia]. destruct M as [q ->].
  assert (q = 0 \/ 1 <= q \/ q <= -1)%Z as [Q|[Q|Q]] by lia; nia.
Qed.
Lemma mod_neg_sum n k l : (k < n)%nat -> (l < n)%nat ->
  Z.eqb ((- (Z.of_nat k + Z.of_nat l)) mod Z.of_nat n) 0 = Nat.eqb l (neg n k).
Proof.
  intros Hk Hl. unfold neg. destruct (Nat.eqb_spec k 0) as [->|N].
  - rewrite mod_small_0 by lia. destruct (Nat.eqb_spec l 0); [subst; reflexivity|]. apply Z.eqb_neq. lia.
  - destruct (Nat.eqb_spec l (n - k)) as [->|M].
    + apply Z.eqb_eq. replace (- (Z.of_nat k + Z.of_nat (n - k)))%Z with ((-1) * Z.of_nat n)%Z by lia.
      apply Z.mod_mul. lia.
    + apply Z.eqb_neq. intros D. apply Z.mod_divide in D; [|lia]. destruct D as [q E].
      assert (q = -1 \/ 0 <= q \/ q <= -2)%Z as [Q|[Q|Q]] by lia; nia.
Qed.

Lemma tone_product n k l al be : (k < n)%nat -> (l < n)%nat ->
  rsum n (fun u => cos (al - angle n k u) * cos (angle n l u - be))
  = INR n / 2 * (ind (Nat.eqb l k) * cos (al - be) + ind (Nat.eqb l (neg n k)) * cos (al + be)).
Proof.
  intros Hk Hl. pose proof (INR_nz n ltac:(lia)) as NZ.
  rewrite (rsum_ext _ _ (fun u =>
    / 2 * (cos ((al - be) + 2 * PI * IZR (Z.of_nat l - Z.of_nat k) / INR n * INR u)
           + cos ((al + be) + 2 * PI * IZR (- (Z.of_nat k + Z.of_nat l)) / INR n * INR u)))).
  - rewrite rsum_scal, rsum_plus, !period_sum by lia.
    rewrite mod_neg_sum, mod_small_0 by lia.
    replace (Z.of_nat l - Z.of_nat k =? 0)%Z with (Nat.eqb l k).
    + unfold ind. destruct (Nat.eqb l k), (Nat.eqb l (neg n k)); field.
    + destruct (Nat.eqb_spec l k); symmetry; [apply Z.eqb_eq|apply Z.eqb_neq]; lia.
  - intros u _. rewrite opp_IZR, plus_IZR, minus_IZR, <- !INR_IZR_INZ. unfold angle.
    replace (al - be + 2 * PI * (INR l - INR k) / INR n * INR u)
      with ((al - 2 * PI * INR k * INR u / INR n) + (2 * PI * INR l * INR u / INR n - be)) by (field; auto).
    replace (al + be + 2 * PI * - (INR k + INR l) / INR n * INR u)
      with ((al - 2 * PI * INR k * INR u / INR n) - (2 * PI * INR l * INR u / INR n - be)) by (field; auto).
    rewrite (cos_plus (al - 2 * PI * INR k * INR u / INR n)), (cos_minus (al - 2 * PI * INR k * INR u / INR n)). field.
Qed.

Lemma rsum_pick n k f : (k < n)%nat -> rsum n (fun l => ind (Nat.eqb l k) * f l) = f k.
Proof.
  intros H. rewrite (rsum_single n k); auto.
  - rewrite Nat.eqb_refl. unfold ind. ring.
  - intros i Hi N. apply Nat.eqb_neq in N. rewrite N. unfold ind. ring.
Qed.

(** ** The filter as a linear operator *)
Definition proj (n : nat) (m : nat -> R) (x : nat -> R) (t : nat) : R :=
  / INR n * rsum n (fun k => m k * rsum n (fun s => x s * cos (angle n k t - angle n k s))).

Lemma proj_ext n m m' x x' t : (forall k, (k < n)%nat -> m k = m' k) -> (forall s, (s < n)%nat -> x s = x' s) ->
  proj n m x t = proj n m' x' t.
Proof.
  intros M X. unfold proj. f_equal. apply rsum_ext. intros k Hk. rewrite (M k Hk). f_equal.
  apply rsum_ext. intros s Hs. rewrite (X s Hs). reflexivity.
Qed.

(** Correlation of the filtered signal with a tone. *)
Lemma proj_tone n m x l be : (l < n)%nat ->
  rsum n (fun t => proj n m x t * cos (angle n l t - be))
  = (m l + m (neg n l)) / 2 * rsum n (fun s => x s * cos (angle n l s - be)).
Proof.
  intros Hl. pose proof (INR_nz n ltac:(lia)) as NZ.
  rewrite (rsum_ext _ _ (fun t => rsum n (fun k => / INR n * m k * rsum n (fun s => x s * (cos (- angle n k s + angle n k t) * cos (angle n l t - be)))))).
  2:{ intros t _. unfold proj. rewrite <- rsum_scal, <- rsum_scal_r. apply rsum_ext. intros k _.
      rewrite <- !rsum_scal, <- rsum_scal_r. apply rsum_ext. intros s _.
      replace (- angle n k s + angle n k t) with (angle n k t - angle n k s) by ring. ring. }
  rewrite rsum_swap.
  rewrite (rsum_ext _ _ (fun k => ind (Nat.eqb k l) * (m l / 2 * rsum n (fun s => x s * cos (angle n l s - be)))
     + ind (Nat.eqb k (neg n l)) * (m (neg n l) / 2 * rsum n (fun s => x s * cos (angle n l s - be))))).
  { rewrite rsum_plus, !rsum_pick by (auto; apply neg_lt; auto). field. }
  intros k Hk. rewrite rsum_scal. rewrite rsum_swap.
  rewrite (rsum_ext _ _ (fun s => x s * (INR n / 2 * (ind (Nat.eqb l k) * cos (angle n k s - be) + ind (Nat.eqb l (neg n k)) * cos (angle n k s + be))))).
  2:{ intros s _. rewrite rsum_scal. f_equal. rewrite <- tone_product by auto. apply rsum_ext. intros u _.
      rewrite <- (cos_neg (- angle n k s + angle n k u)). f_equal. f_equal. ring. }
  destruct (Nat.eqb_spec k l) as [->|N1].
  - rewrite Nat.eqb_refl. destruct (Nat.eqb_spec l (neg n l)) as [E|N2].
    + rewrite <- E. unfold ind.
      rewrite (rsum_ext _ _ (fun s => INR n * (x s * cos (angle n l s - be)))).
      * rewrite rsum_scal. field. auto.
      * intros s _. replace (cos (angle n l s + be)) with (cos (angle n l s - be)); [field|].
        rewrite <- (cos_neg (angle n l s - be)). replace (- (angle n l s - be)) with (be - angle n l s) by ring.
        rewrite <- angle_neg by auto. rewrite <- E. f_equal. ring.
    + unfold ind.
      rewrite (rsum_ext _ _ (fun s => INR n / 2 * (x s * cos (angle n l s - be)))).
      * rewrite rsum_scal. field. auto.
      * intros s _. ring.
  - replace (Nat.eqb l k) with false by (symmetry; apply Nat.eqb_neq; auto).
    destruct (Nat.eqb_spec k (neg n l)) as [->|N2].
    + rewrite neg_neg, Nat.eqb_refl by auto. unfold ind.
      rewrite (rsum_ext _ _ (fun s => INR n / 2 * (x s * cos (angle n l s - be)))).
      * rewrite rsum_scal. field. auto.
      * intros s _. rewrite (Rplus_comm (angle n (neg n l) s)), angle_neg by auto.
        rewrite <- (cos_neg (be - angle n l s)). replace (- (be - angle n l s)) with (angle n l s - be) by ring. ring.
    + replace (Nat.eqb l (neg n k)) with false.
      * unfold ind. rewrite (rsum_ext _ _ (fun _ => 0)) by (intros; ring). rewrite rsum_zero by auto. ring.
      * symmetry. apply Nat.eqb_neq. intros E. apply N2. rewrite E, neg_neg; auto.
Qed.

Lemma proj_proj n m m' x t : (t < n)%nat ->
  proj n m (proj n m' x) t = proj n (fun k => m k * ((m' k + m' (neg n k)) / 2)) x t.
Proof.
  intros Ht. unfold proj at 1 3. f_equal. apply rsum_ext. intros k Hk.
  rewrite (rsum_ext _ _ (fun s => proj n m' x s * cos (angle n k s - angle n k t))).
  2:{ intros s _. rewrite <- (cos_neg (angle n k t - angle n k s)). f_equal. f_equal. ring. }
  rewrite proj_tone by auto.
  rewrite (rsum_ext _ (fun s => x s * cos (angle n k t - angle n k s)) (fun s => x s * cos (angle n k s - angle n k t))).
  2:{ intros s _. rewrite <- (cos_neg (angle n k t - angle n k s)). f_equal. f_equal. ring. }
  ring.
Qed.

Lemma angle_sym n k t : angle n k t = angle n t k.
Proof. unfold angle. replace (2 * PI * INR k * INR t) with (2 * PI * INR t * INR k) by ring. reflexivity. Qed.

Lemma proj_all n x t : (t < n)%nat -> proj n (fun _ => 1) x t = x t.
Proof.
  intros Ht. pose proof (INR_nz n ltac:(lia)) as NZ. unfold proj.
  rewrite (rsum_ext _ _ (fun k => rsum n (fun s => x s * cos (angle n k t - angle n k s)))) by (intros; ring).
  rewrite rsum_swap. rewrite (rsum_ext _ _ (fun s => ind (Nat.eqb s t) * (x s * INR n))).
  - rewrite rsum_pick by auto. field. auto.
  - intros s Hs. rewrite rsum_scal.
    rewrite (rsum_ext _ _ (fun k => cos (0 + 2 * PI * IZR (Z.of_nat t - Z.of_nat s) / INR n * INR k))).
    + rewrite period_sum by lia. rewrite mod_small_0 by lia. rewrite cos_0.
      replace (Z.of_nat t - Z.of_nat s =? 0)%Z with (Nat.eqb s t).
      * unfold ind. destruct (Nat.eqb s t); ring.
      * destruct (Nat.eqb_spec s t); symmetry; [apply Z.eqb_eq|apply Z.eqb_neq]; lia.
    + intros k _. rewrite minus_IZR, <- !INR_IZR_INZ. unfold angle. f_equal. field. auto.
Qed.

Lemma proj_sym n m x y :
  rsum n (fun t => proj n m x t * y t) = rsum n (fun t => x t * proj n m y t).
Proof.
  assert (E : forall x y, rsum n (fun t => proj n m x t * y t)
    = / INR n * rsum n (fun k => m k * rsum n (fun t => rsum n (fun s => x s * y t * cos (angle n k t - angle n k s))))).
  { intros a b. rewrite <- rsum_scal.
    rewrite (rsum_ext _ _ (fun t => rsum n (fun k => / INR n * (m k * rsum n (fun s => a s * b t * cos (angle n k t - angle n k s)))))).
    - rewrite rsum_swap. apply rsum_ext. intros k _. rewrite rsum_scal, rsum_scal. reflexivity.
    - intros t _. unfold proj. rewrite Rmult_assoc, <- rsum_scal_r, <- rsum_scal. apply rsum_ext. intros k _.
      rewrite Rmult_assoc, <- rsum_scal_r. do 2 f_equal. apply rsum_ext. intros. ring. }
  rewrite E. rewrite (rsum_ext _ (fun t => x t * proj n m y t) (fun t => proj n m y t * x t)) by (intros; ring).
  rewrite E. f_equal. apply rsum_ext. intros k _. f_equal. rewrite rsum_swap. apply rsum_ext. intros t _.
  apply rsum_ext. intros s _. rewrite <- (cos_neg (angle n k s - angle n k t)). replace (- (angle n k s - angle n k t)) with (angle n k t - angle n k s) by ring. ring.
Qed.

(** ** The passed frequencies *)
Definition freq (n k : nat) : R := INR (Nat.min k (n - k)) / INR n.
Lemma fftfreq_abs n k : (k < n)%nat -> Rabs (fftfreq n k) = freq n k.
Proof.
  intros H. pose proof (lt_0_INR n ltac:(lia)) as P. unfold fftfreq, freq.
  pose proof (Nat.div_mod (n - 1) 2 ltac:(lia)) as D. pose proof (Nat.mod_upper_bound (n - 1) 2 ltac:(lia)) as U.
  destruct (Nat.leb_spec k ((n - 1) / 2)) as [L|L].
  - rewrite Nat.min_l by lia. apply Rabs_right. apply Rle_ge, Rmult_le_pos; [apply pos_INR|].
    apply Rlt_le, Rinv_0_lt_compat; auto.
  - rewrite Nat.min_r by lia. rewrite minus_INR by lia. rewrite Rabs_left.
    + field. lra.
    + pose proof (Rinv_0_lt_compat _ P) as I. pose proof (lt_INR _ _ H) as J.
      pose proof (Rmult_lt_0_compat (INR n - INR k) (/ INR n) ltac:(lra) I) as M. unfold Rdiv. lra.
Qed.
Lemma low_pass_filter_iff n c k : (k < n)%nat -> low_pass_filter n c k = true <-> freq n k <= c.
Proof. intros H. unfold low_pass_filter. rewrite rleb_iff, fftfreq_abs; auto. reflexivity. Qed.
Lemma freq_neg n k : (k < n)%nat -> freq n (neg n k) = freq n k.
Proof.
  intros H. unfold freq, neg. destruct (Nat.eqb_spec k 0) as [->|N]; [reflexivity|].
  do 2 f_equal. lia.
Qed.
Definition mask (n : nat) (c : R) (k : nat) : R := ind (low_pass_filter n c k).
Lemma mask_neg n c k : (k < n)%nat -> mask n c (neg n k) = mask n c k.
Proof.
  intros H. unfold mask. f_equal. apply eq_true_iff_eq. rewrite !low_pass_filter_iff by (auto; apply neg_lt; auto).
  rewrite freq_neg; auto. reflexivity.
Qed.
Lemma mask_min n c d k : (k < n)%nat -> mask n c k * mask n d k = mask n (Rmin c d) k.
Proof.
  intros H. unfold mask.
  replace (low_pass_filter n (Rmin c d) k) with (low_pass_filter n c k && low_pass_filter n d k)%bool.
  - unfold ind. destruct (low_pass_filter n c k), (low_pass_filter n d k); simpl; ring.
  - apply eq_true_iff_eq. rewrite andb_true_iff, !low_pass_filter_iff by auto. split.
    + intros [A B]. apply Rmin_glb; auto.
    + intros A. split; eapply Rle_trans; eauto; [apply Rmin_l|apply Rmin_r].
Qed.
Lemma mask_pass n c k : (k < n)%nat -> freq n k <= c -> mask n c k = 1.
Proof. intros H A. unfold mask. apply low_pass_filter_iff in A; auto. rewrite A. reflexivity. Qed.
Lemma mask_stop n c k : (k < n)%nat -> c < freq n k -> mask n c k = 0.
Proof.
  intros H A. unfold mask. destruct (low_pass_filter n c k) eqn:E; [|reflexivity].
  apply low_pass_filter_iff in E; auto. lra.
Qed.
Lemma freq_bounds n k : (k < n)%nat -> 0 <= freq n k <= / 2.
Proof.
  intros H. pose proof (lt_0_INR n ltac:(lia)) as P. unfold freq. split.
  - apply Rmult_le_pos; [apply pos_INR|]. apply Rlt_le, Rinv_0_lt_compat; auto.
  - apply (Rmult_le_reg_r (INR n)); auto. replace (INR (Nat.min k (n - k)) / INR n * INR n) with (INR (Nat.min k (n - k))) by (field; lra).
    assert (2 * INR (Nat.min k (n - k)) <= INR n); [|lra].
    replace 2 with (INR 2) by reflexivity. rewrite <- mult_INR. apply le_INR. lia.
Qed.

Lemma low_pass1_length c x : length (low_pass1 c x) = length x.
Proof. unfold low_pass1, ifft_real. rewrite map_length, seq_length. reflexivity. Qed.
Lemma low_pass1_nth c x t : (t < length x)%nat ->
  nth t (low_pass1 c x) 0 = proj (length x) (mask (length x) c) (fun s => nth s x 0) t.
Proof.
  intros H. unfold low_pass1, ifft_real.
  rewrite nth_map_seq by auto. unfold proj. f_equal. apply rsum_ext. intros k Hk.
  unfold filtered, dft. cbn [fst snd]. unfold mask, ind.
  rewrite (rsum_ext _ (fun s => nth s x 0 * cos (angle (length x) k t - angle (length x) k s))
    (fun s => cos (angle (length x) k t) * (nth s x 0 * cos (angle (length x) k s)) + sin (angle (length x) k t) * (nth s x 0 * sin (angle (length x) k s)))).
  - rewrite rsum_plus, !rsum_scal. ring.
  - intros s _. rewrite cos_minus. ring.
Qed.
Lemma list_eq_nth (x y : list R) : length x = length y ->
  (forall t, (t < length x)%nat -> nth t x 0 = nth t y 0) -> x = y.
Proof. intros L E. apply (nth_ext _ _ 0 0); auto. Qed.

(** A cutoff at or above the Nyquist frequency changes nothing. *)
Theorem low_pass_all_frequencies : forall c x, / 2 <= c -> low_pass1 c x = x.
Proof.
  intros c x H. apply list_eq_nth; rewrite low_pass1_length; auto. intros t Ht.
  rewrite low_pass1_nth by auto. rewrite (proj_ext _ _ (fun _ => 1) _ (fun s => nth s x 0)); auto.
  - rewrite proj_all; auto.
  - intros k Hk. apply mask_pass; auto. pose proof (freq_bounds _ k Hk). lra.
Qed.
(** A negative cutoff removes everything, the mean included. *)
Theorem low_pass_no_frequency : forall c x t, c < 0 -> nth t (low_pass1 c x) 0 = 0.
Proof.
  intros c x t H. destruct (le_lt_dec (length x) t) as [L|L].
  - apply nth_overflow. rewrite low_pass1_length. auto.
  - rewrite low_pass1_nth by auto. unfold proj. rewrite rsum_zero; [ring|]. intros k Hk.
    rewrite mask_stop; auto; [ring|]. pose proof (freq_bounds _ k Hk). lra.
Qed.

Theorem low_pass_linear : forall c a b x y, length x = length y ->
  low_pass1 c (combine_lin a b x y) = combine_lin a b (low_pass1 c x) (low_pass1 c y).
Proof.
  intros c a b x y L.
  assert (LL : length (low_pass1 c x) = length (low_pass1 c y)) by (rewrite !low_pass1_length; auto).
  apply list_eq_nth.
  - rewrite low_pass1_length, !combine_lin_len, low_pass1_length; auto.
  - rewrite low_pass1_length, combine_lin_len by auto. intros t Ht.
    rewrite combine_lin_nth by (auto; rewrite low_pass1_length; auto).
    rewrite !low_pass1_nth by (rewrite ?combine_lin_len by auto; lia). rewrite combine_lin_len, <- L by auto.
    unfold proj.
    rewrite (rsum_ext _ _ (fun k => a * (mask (length x) c k * rsum (length x) (fun s => nth s x 0 * cos (angle (length x) k t - angle (length x) k s)))
       + b * (mask (length x) c k * rsum (length x) (fun s => nth s y 0 * cos (angle (length x) k t - angle (length x) k s))))).
    + rewrite rsum_plus, !rsum_scal. ring.
    + intros k _. rewrite (rsum_ext _ _ (fun s => a * (nth s x 0 * cos (angle (length x) k t - angle (length x) k s)) + b * (nth s y 0 * cos (angle (length x) k t - angle (length x) k s)))).
      * rewrite rsum_plus, !rsum_scal. ring.
      * intros s Hs. rewrite combine_lin_nth by auto. ring.
Qed.

(** Two filters in a row are the one with the smaller cutoff. *)
Theorem low_pass_compose : forall c d x, low_pass1 c (low_pass1 d x) = low_pass1 (Rmin c d) x.
Proof.
  intros c d x. apply list_eq_nth; rewrite ?low_pass1_length; auto. intros t Ht.
  rewrite !low_pass1_nth by (rewrite ?low_pass1_length; auto). rewrite low_pass1_length.
  rewrite (proj_ext _ _ (mask (length x) c) _ (proj (length x) (mask (length x) d) (fun s => nth s x 0))); auto.
  - rewrite proj_proj by auto. apply proj_ext; auto. intros k Hk. rewrite mask_neg by auto.
    rewrite <- mask_min by auto. field.
  - intros s Hs. apply low_pass1_nth. auto.
Qed.
Theorem low_pass_idempotent : forall c x, low_pass1 c (low_pass1 c x) = low_pass1 c x.
Proof. intros c x. rewrite low_pass_compose, Rmin_left by lra. reflexivity. Qed.

(** The residual is orthogonal to every filtered signal. *)
Theorem low_pass_orthogonal : forall c x y, length x = length y ->
  rsum (length x) (fun t => (nth t x 0 - nth t (low_pass1 c x) 0) * nth t (low_pass1 c y) 0) = 0.
Proof.
  intros c x y L. set (n := length x). set (X := fun s => nth s x 0). set (Y := fun s => nth s y 0).
  set (P := proj n (mask n c)).
  rewrite (rsum_ext _ _ (fun t => X t * P Y t - P X t * P Y t)).
  - rewrite rsum_minus. unfold P at 2. rewrite (proj_sym n (mask n c) X (P Y)).
    rewrite <- rsum_minus. apply rsum_zero. intros t Ht. rewrite <- Rmult_minus_distr_l.
    replace (P Y t - proj n (mask n c) (P Y) t) with 0; [ring|]. unfold P. rewrite proj_proj by auto.
    rewrite (proj_ext n (fun k => mask n c k * ((mask n c k + mask n c (neg n k)) / 2)) (mask n c) Y Y); auto; [ring|].
    intros k Hk. rewrite mask_neg by auto. replace (mask n c k * ((mask n c k + mask n c k) / 2)) with (mask n c k * mask n c k) by field.
    rewrite mask_min, Rmin_left by (auto; lra). reflexivity.
  - intros t Ht. rewrite !low_pass1_nth by (unfold n in Ht; lia). rewrite <- L. fold n X Y P. change (nth t x 0) with (X t). ring.
Qed.
Definition energy (x : list R) : R := rsum (length x) (fun t => nth t x 0 * nth t x 0).
(** ... so the filter splits the energy and never increases it, *)
Theorem low_pass_energy : forall c x,
  energy x = energy (low_pass1 c x)
             + rsum (length x) (fun t => (nth t x 0 - nth t (low_pass1 c x) 0) * (nth t x 0 - nth t (low_pass1 c x) 0)).
Proof.
  intros c x. pose proof (low_pass_orthogonal c x x eq_refl) as O. unfold energy. rewrite low_pass1_length.
  rewrite <- rsum_plus. apply Rminus_diag_uniq. rewrite <- rsum_minus.
  rewrite (rsum_ext _ _ (fun t => 2 * ((nth t x 0 - nth t (low_pass1 c x) 0) * nth t (low_pass1 c x) 0))).
  - rewrite rsum_scal, O. ring.
  - intros. ring.
Qed.
Theorem low_pass_contracts : forall c x, energy (low_pass1 c x) <= energy x.
Proof.
  intros c x. rewrite (low_pass_energy c x).
  enough (0 <= rsum (length x) (fun t => (nth t x 0 - nth t (low_pass1 c x) 0) * (nth t x 0 - nth t (low_pass1 c x) 0))) by lra.
  apply rsum_nonneg. intros t Ht.
  apply Rle_0_sqr.
Qed.
(** ... and its output is the closest band-limited signal. *)
Theorem low_pass_best : forall c x z, length z = length x -> low_pass1 c z = z ->
  energy (combine_lin 1 (-1) x (low_pass1 c x)) <= energy (combine_lin 1 (-1) x z).
Proof.
  intros c x z L B. pose proof (low_pass_orthogonal c x (combine_lin 1 (-1) x z)) as O.
  rewrite combine_lin_len in O by auto. specialize (O eq_refl). rewrite low_pass_linear, B in O by auto.
  unfold energy. rewrite !combine_lin_len by (rewrite ?low_pass1_length; auto).
  apply Rge_le, Rminus_ge, Rle_ge. rewrite <- rsum_minus.
  set (e := fun t => nth t (low_pass1 c x) 0 - nth t z 0).
  rewrite (rsum_ext _ _ (fun t => 2 * ((nth t x 0 - nth t (low_pass1 c x) 0) * nth t (combine_lin 1 (-1) (low_pass1 c x) z) 0) + e t * e t)).
  - rewrite rsum_plus, rsum_scal, O. replace (2 * 0) with 0 by ring. rewrite Rplus_0_l. apply rsum_nonneg.
    intros t _. apply Rle_0_sqr.
  - intros t Ht. rewrite !combine_lin_nth by (rewrite ?low_pass1_length; auto). unfold e. ring.
Qed.

(** The spectrum of the output: the coefficients up to the cutoff are kept,
    the others are zero. *)
Theorem low_pass_spectrum : forall c x k, (k < length x)%nat ->
  (freq (length x) k <= c -> dft (low_pass1 c x) k = dft x k)
  /\ (c < freq (length x) k -> dft (low_pass1 c x) k = (0, 0)).
Proof.
  intros c x k Hk.
  assert (E : forall be, rsum (length x) (fun t => nth t (low_pass1 c x) 0 * cos (angle (length x) k t - be))
            = mask (length x) c k * rsum (length x) (fun t => nth t x 0 * cos (angle (length x) k t - be))).
  { intros be. rewrite (rsum_ext _ _ (fun t => proj (length x) (mask (length x) c) (fun s => nth s x 0) t * cos (angle (length x) k t - be))).
    - rewrite proj_tone by auto. rewrite mask_neg by auto. field.
    - intros t Ht. rewrite low_pass1_nth by auto. reflexivity. }
  assert (C : forall y, rsum (length x) (fun t => nth t y 0 * cos (angle (length x) k t - 0)) = rsum (length x) (fun t => nth t y 0 * cos (angle (length x) k t))).
  { intros y. apply rsum_ext. intros t _. rewrite Rminus_0_r. reflexivity. }
  assert (S : forall y, rsum (length x) (fun t => nth t y 0 * cos (angle (length x) k t - PI / 2)) = rsum (length x) (fun t => nth t y 0 * sin (angle (length x) k t))).
  { intros y. apply rsum_ext. intros t _. f_equal. rewrite <- cos_neg. rewrite <- cos_shift. f_equal. ring. }
  pose proof (E 0) as E0. pose proof (E (PI / 2)) as E1. rewrite !C in E0. rewrite !S in E1.
  split; intros H; unfold dft; rewrite low_pass1_length, E0, E1.
  - rewrite mask_pass by auto. rewrite !Rmult_1_l. reflexivity.
  - rewrite mask_stop by auto. rewrite !Rmult_0_l, Ropp_0. reflexivity.
Qed.

(** The mean is kept. *)
Theorem low_pass_mean : forall c x, 0 <= c ->
  rsum (length x) (fun t => nth t (low_pass1 c x) 0) = rsum (length x) (fun t => nth t x 0).
Proof.
  intros c x H. destruct (length x) as [|n] eqn:L; [reflexivity|].
  assert (K : (0 < length x)%nat) by lia.
  destruct (low_pass_spectrum c x 0 K) as [A _].
  assert (F : freq (length x) 0 <= c) by (unfold freq; simpl; unfold Rdiv; lra).
  apply A in F. apply (f_equal fst) in F. unfold dft in F. cbn [fst] in F. rewrite low_pass1_length, L in F.
  rewrite (rsum_ext _ (fun t => nth t (low_pass1 c x) 0) (fun t => nth t (low_pass1 c x) 0 * cos (angle (S n) 0 t))).
  - rewrite F. apply rsum_ext. intros t _. unfold angle. simpl. replace (2 * PI * 0 * INR t / _) with 0 by (unfold Rdiv; ring). rewrite cos_0. ring.
  - intros t _. unfold angle. simpl. replace (2 * PI * 0 * INR t / _) with 0 by (unfold Rdiv; ring). rewrite cos_0. ring.
Qed.

(** A pure tone passes unchanged or vanishes. *)
Definition tone (n j : nat) (A phi : R) : list R := map (fun t => A * cos (2 * PI * INR j * INR t / INR n + phi)) (seq 0 n).
Theorem low_pass_tone : forall n j A phi c, (2 * j <= n)%nat -> (j < n)%nat ->
  (INR j / INR n <= c -> low_pass1 c (tone n j A phi) = tone n j A phi)
  /\ (c < INR j / INR n -> low_pass1 c (tone n j A phi) = repeat 0 n).
Proof.
  intros n j A phi c H2 Hj. pose proof (INR_nz n ltac:(lia)) as NZ.
  assert (L : length (tone n j A phi) = n) by (unfold tone; rewrite map_length, seq_length; auto).
  assert (N : forall t, (t < n)%nat -> nth t (tone n j A phi) 0 = A * cos (angle n j t + phi)).
  { intros t Ht. unfold tone.
    rewrite nth_map_seq by auto. reflexivity. }
  assert (F : freq n j = INR j / INR n) by (unfold freq; rewrite Nat.min_l by lia; reflexivity).
  assert (Q : forall t, (t < n)%nat -> nth t (low_pass1 c (tone n j A phi)) 0 = mask n c j * nth t (tone n j A phi) 0).
  { intros t Ht. rewrite low_pass1_nth by (rewrite L; auto). rewrite L.
    rewrite <- (proj_all n (fun t => nth t (tone n j A phi) 0) t Ht). unfold proj.
    rewrite (Rmult_comm (mask n c j)), Rmult_assoc, <- rsum_scal_r. f_equal.
    apply rsum_ext. intros k Hk.
    enough (Z : k <> j -> k <> neg n j -> rsum n (fun s => nth s (tone n j A phi) 0 * cos (angle n k t - angle n k s)) = 0).
    { destruct (Nat.eq_dec k j) as [->|N1]; [ring|]. destruct (Nat.eq_dec k (neg n j)) as [->|N2].
      - rewrite mask_neg by auto. ring.
      - rewrite (Z N1 N2). ring. }
    intros N1 N2.
    rewrite (rsum_ext _ _ (fun s => A * (cos (angle n k t - angle n k s) * cos (angle n j s - (- phi))))).
    - rewrite rsum_scal, tone_product by auto.
      replace (Nat.eqb j k) with false by (symmetry; apply Nat.eqb_neq; auto).
      replace (Nat.eqb j (neg n k)) with false; [unfold ind; ring|].
      symmetry. apply Nat.eqb_neq. intros E. apply N2. rewrite E, neg_neg; auto.
    - intros s Hs. rewrite N by auto. replace (angle n j s - - phi) with (angle n j s + phi) by ring. ring. }
  split; intros H.
  - apply list_eq_nth; rewrite ?low_pass1_length, L; auto. intros t Ht. rewrite Q by auto.
    rewrite mask_pass by (auto; rewrite F; auto). ring.
  - apply list_eq_nth; rewrite ?low_pass1_length, L; [rewrite repeat_length; auto|]. intros t Ht. rewrite Q by auto.
    rewrite mask_stop by (auto; rewrite F; auto). rewrite nth_repeat. ring.
Qed.

(** ** The denoiser on a features tensor *)
Theorem denoise_low_pass_effect : forall c cycles tensor,
  denoise_low_pass c false cycles tensor = Ok (if Nat.eqb cycles 0 then tensor else map (low_pass1 c) tensor).
Proof.
  intros c cycles. induction cycles as [|k IH]; intros tensor; [reflexivity|].
  cbn [denoise_low_pass low_pass rbind Nat.eqb]. rewrite IH. destruct k; [reflexivity|]. cbn [Nat.eqb].
  rewrite map_map. f_equal. apply map_ext. apply low_pass_idempotent.
Qed.
(** Shapes are kept. *)
Theorem denoise_low_pass_shape : forall c plot cycles tensor out,
  denoise_low_pass c plot cycles tensor = Ok out -> map (@length R) out = map (@length R) tensor.
Proof.
  intros c plot cycles. induction cycles as [|k IH]; intros tensor out H; cbn [denoise_low_pass] in H; [congruence|].
  assert (M : map (@length R) (map (low_pass1 c) tensor) = map (@length R) tensor).
  { rewrite map_map. apply map_ext. intros. apply low_pass1_length. }
  unfold low_pass in H. destruct plot.
  - destruct (plot_data_fits _ _); cbn [rbind] in H; [|discriminate]. apply IH in H. rewrite H. exact M.
  - cbn [rbind] in H. apply IH in H. rewrite H. exact M.
Qed.
(** Asking for the plot must not change the result; it raises as soon as the
    number of features exceeds a quarter of the number of steps. *)
Theorem low_pass_plot_refuted : forall c n m, (0 < m)%nat -> (n / 2 < 2 * m)%nat ->
  exists tensor, length tensor = m /\ Forall (fun col => length col = n) tensor
    /\ low_pass c true tensor = Err IndexError /\ low_pass c false tensor <> Err IndexError.
Proof.
  intros c n m Hm H. exists (repeat (repeat 0 n) m). rewrite repeat_length. repeat split.
  - apply Forall_forall. intros col I. apply repeat_spec in I. subst. apply repeat_length.
  - unfold low_pass, plot_data_fits. rewrite repeat_length. destruct m as [|m]; [lia|]. cbn [repeat].
    rewrite repeat_length. replace (Nat.leb (2 * S m) (n / 2)) with false; [reflexivity|].
    symmetry. apply Nat.leb_gt. auto.
  - discriminate.
Qed.
Theorem low_pass_plot_partial : forall c n tensor, Forall (fun col => length col = n) tensor ->
  (4 * length tensor <= n)%nat -> low_pass c true tensor = low_pass c false tensor.
Proof.
  intros c n tensor F H. unfold low_pass, plot_data_fits. destruct tensor as [|col rest]; [reflexivity|].
  inversion F; subst. replace (Nat.leb _ _) with true; [reflexivity|].
  symmetry. apply Nat.leb_le. apply Nat.div_le_lower_bound; simpl length in *; lia.
Qed.

(** ** Concrete cases *)
(** An alternating signal of four steps on top of a mean of 2: a cutoff of 0.3
    keeps the mean only. *)
Example low_pass_alternating : low_pass1 (3 / 10) [5; -1; 5; -1] = [2; 2; 2; 2].
Proof.
  replace [5; -1; 5; -1] with (combine_lin 1 1 (tone 4 0 2 0) (tone 4 2 3 0)).
  - assert (L : forall j A p, length (tone 4 j A p) = 4%nat) by reflexivity.
    rewrite low_pass_linear by (rewrite !L; reflexivity).
    destruct (low_pass_tone 4 0 2 0 (3 / 10)) as [A _]; [lia|lia|]. rewrite A by (simpl; lra).
    destruct (low_pass_tone 4 2 3 0 (3 / 10)) as [_ B]; [lia|lia|]. rewrite B by (simpl; lra).
    unfold combine_lin, tone. cbn [seq map combine repeat fst snd].
    replace (INR 0) with 0 by reflexivity.
    assert (Z : forall t, 2 * PI * 0 * t / INR 4 + 0 = 0) by (intros; unfold Rdiv; ring).
    rewrite !Z, cos_0. repeat (f_equal; [ring|]). f_equal. ring.
  - unfold combine_lin, tone. cbn [seq map combine fst snd].
    assert (Z : forall t, 2 * PI * INR 0 * t / INR 4 + 0 = 0) by (intros; simpl; unfold Rdiv; ring).
    assert (W : forall t, 2 * PI * INR 2 * t / INR 4 + 0 = PI * t) by (intros; simpl; field).
    rewrite !Z, !W, cos_0.
    assert (C0 : cos (PI * INR 0) = 1) by (simpl; rewrite Rmult_0_r; apply cos_0).
    assert (C1 : cos (PI * INR 1) = -1) by (simpl; rewrite Rmult_1_r; apply cos_PI).
    assert (C2 : cos (PI * INR 2) = 1) by (replace (PI * INR 2) with (2 * PI) by (simpl; ring); apply cos_2PI).
    assert (C3 : cos (PI * INR 3) = -1).
    { replace (PI * INR 3) with (PI + 2 * PI * IZR 1) by (simpl; ring). rewrite cos_shift_period. apply cos_PI. }
    rewrite C0, C1, C2, C3. repeat (f_equal; [ring|]). f_equal. ring.
Qed.
Example low_pass_plot_case : exists tensor, length tensor = 3%nat /\ Forall (fun col => length col = 10%nat) tensor
  /\ low_pass (/ 4) true tensor = Err IndexError.
Proof.
  destruct (low_pass_plot_refuted (/ 4) 10 3) as [T [A [B [C _]]]]; [lia|simpl; lia|]. exists T. auto.
Qed.

Print Assumptions low_pass_best.
Print Assumptions low_pass_tone.
Print Assumptions low_pass_spectrum.
Print Assumptions denoise_low_pass_effect.
