(** Denoising by moving windows: length, constants, range, linearity and
    reproduction of polynomial paths. *)
From Coq Require Import Reals List Arith Bool Lia Lra.
From Verif Require Import Lib DenoiseModel.
Import ListNotations.
Local Open Scope R_scope.

(** ** What a windowed filter is, independently of the padding: the value at t is
    the weighted sum of the data around t, indices cut to the data *)
Definition window_sum (ker x : list R) (t : nat) : R :=
  let h := (length ker / 2)%nat in
  rsum (length ker) (fun k => nth k ker 0 * nth (Nat.min (length x - 1) (t + k - h)) x 0).

Lemma nth_repeat_lt : forall (v : R) k i d, (i < k)%nat -> nth i (repeat v k) d = v.
Proof. intros v k. induction k as [|k IH]; intros i d Hi; [lia|]. destruct i; [reflexivity|]. cbn. apply IH. lia. Qed.
Lemma last_nth_eq : forall (x : list R), last x 0 = nth (length x - 1) x 0.
Proof.
  induction x as [|a [|b t] IH]; [reflexivity|reflexivity|]. change (last (a :: b :: t) 0) with (last (b :: t) 0). rewrite IH.
  cbn [length]. replace (S (S (length t)) - 1)%nat with (S (S (length t) - 1)) by lia. reflexivity.
Qed.
Lemma pad_len : forall w x, (1 <= w)%nat -> length (pad w x) = (length x + (w - 1))%nat.
Proof.
  intros w x Hw. unfold pad, pad_left, pad_right. rewrite !app_length, !repeat_length.
  assert (w / 2 <= w - 1)%nat by (apply Nat.lt_succ_r; replace (S (w - 1)) with w by lia; apply Nat.div_lt; lia). lia.
Qed.
Lemma pad_nth : forall w x j, (1 <= w)%nat -> (1 <= length x)%nat -> (j < length x + (w - 1))%nat ->
  nth j (pad w x) 0 = nth (Nat.min (length x - 1) (j - w / 2)) x 0.
Proof.
  intros w x j Hw Hx Hj. unfold pad, pad_left, pad_right.
  assert (w / 2 <= w - 1)%nat by (apply Nat.lt_succ_r; replace (S (w - 1)) with w by lia; apply Nat.div_lt; lia).
  set (h := (w / 2)%nat) in *.
  destruct (Nat.lt_ge_cases j h) as [L|L].
  - rewrite app_nth1 by (rewrite repeat_length; exact L). rewrite nth_repeat_lt by exact L.
    replace (j - h)%nat with 0%nat by lia. rewrite Nat.min_0_r. now destruct x.
  - rewrite app_nth2 by (rewrite repeat_length; exact L). rewrite repeat_length.
    destruct (Nat.lt_ge_cases (j - h) (length x)) as [L2|L2].
    + rewrite app_nth1 by exact L2. now rewrite Nat.min_r by lia.
    + rewrite app_nth2 by exact L2. rewrite nth_repeat_lt by lia. rewrite Nat.min_l by lia. apply last_nth_eq.
Qed.

Theorem filter1_length : forall ker x, (1 <= length ker)%nat -> length (filter1 ker x) = length x.
Proof. intros. unfold filter1, conv. rewrite map_length, seq_length, pad_len by assumption. lia. Qed.
Theorem filter1_value : forall ker x t, (1 <= length ker)%nat -> (t < length x)%nat ->
  nth t (filter1 ker x) 0 = window_sum ker x t.
Proof.
  intros ker x t Hk Ht. pose proof (filter1_length ker x Hk) as L. unfold filter1, conv in *.
  set (F := fun t => rsum (length ker) (fun k => nth k ker 0 * nth (t + k) (pad (length ker) x) 0)) in *.
  rewrite (nth_indep _ 0 (F 0%nat)) by (rewrite L; exact Ht).
  rewrite map_nth, seq_nth by (rewrite pad_len by assumption; lia). unfold F, window_sum. cbn [Nat.add].
  apply rsum_ext. intros k Hkk. rewrite pad_nth by lia. reflexivity.
Qed.
Lemma filter1_ext : forall ker x y, (1 <= length ker)%nat -> length y = length x ->
  (forall t, (t < length x)%nat -> nth t y 0 = window_sum ker x t) -> filter1 ker x = y.
Proof.
  intros ker x y Hk L H. apply (nth_ext _ _ 0 0); [now rewrite filter1_length|].
  rewrite filter1_length by exact Hk. intros t Ht. rewrite filter1_value by assumption. symmetry. now apply H.
Qed.

Lemma mean_len : forall w, length (mean_kernel w) = w.
Proof. intros. apply repeat_length. Qed.
Lemma mean_nth : forall w k, (k < w)%nat -> nth k (mean_kernel w) 0 = 1 / INR w.
Proof. intros. now apply nth_repeat_lt. Qed.
Lemma mean_sum : forall w, (1 <= w)%nat -> rsum w (fun k => nth k (mean_kernel w) 0) = 1.
Proof.
  intros w Hw. rewrite (rsum_ext w _ (fun _ => 1 / INR w)) by (intros; now apply mean_nth). rewrite rsum_const. field.
  apply not_0_INR. lia.
Qed.

(** ** Consequences for one feature *)
Definition weights_sum_to_one (ker : list R) : Prop := rsum (length ker) (fun k => nth k ker 0) = 1.
Theorem filter1_constant : forall ker v n, (1 <= length ker)%nat -> weights_sum_to_one ker -> filter1 ker (repeat v n) = repeat v n.
Proof.
  intros ker v n Hk Hs. apply filter1_ext; [exact Hk|reflexivity|]. rewrite repeat_length. intros t Ht.
  rewrite nth_repeat_lt by exact Ht. unfold window_sum. cbv zeta. rewrite repeat_length.
  rewrite (rsum_ext _ _ (fun k => nth k ker 0 * v)).
  - rewrite rsum_scal_r. rewrite Hs. ring.
  - intros k _. rewrite nth_repeat_lt by lia. reflexivity.
Qed.
Theorem filter1_range : forall ker x lo hi, (1 <= length ker)%nat -> weights_sum_to_one ker ->
  (forall k, (k < length ker)%nat -> 0 <= nth k ker 0) -> (forall v, In v x -> lo <= v <= hi) ->
  forall v, In v (filter1 ker x) -> lo <= v <= hi.
Proof.
  intros ker x lo hi Hk Hs Hp Hx v Hv. destruct (In_nth _ _ 0 Hv) as [t [Ht <-]]. rewrite filter1_length in Ht by exact Hk.
  rewrite filter1_value by assumption. unfold window_sum. cbv zeta.
  assert (Hb : forall k, lo <= nth (Nat.min (length x - 1) (t + k - length ker / 2)) x 0 <= hi)
    by (intros k; apply Hx, nth_In; lia).
  split.
  - rewrite <- (Rmult_1_l lo), <- Hs, <- rsum_scal_r. apply rsum_le. intros k Hkk. apply Rmult_le_compat_l; [now apply Hp|apply Hb].
  - rewrite <- (Rmult_1_l hi), <- Hs, <- rsum_scal_r. apply rsum_le. intros k Hkk. apply Rmult_le_compat_l; [now apply Hp|apply Hb].
Qed.
Definition combine_lin (a b : R) (x y : list R) : list R := map (fun p => a * fst p + b * snd p) (combine x y).
Lemma combine_lin_nth : forall a b x y t, length x = length y -> (t < length x)%nat ->
  nth t (combine_lin a b x y) 0 = a * nth t x 0 + b * nth t y 0.
Proof.
  intros a b x. induction x as [|u x IH]; intros y t L Ht; [cbn in Ht; lia|]. destruct y as [|v y]; [discriminate|].
  destruct t as [|t]; [reflexivity|]. cbn in *. apply IH; lia.
Qed.
Lemma combine_lin_len : forall a b x y, length x = length y -> length (combine_lin a b x y) = length x.
Proof. intros. unfold combine_lin. rewrite map_length, combine_length. lia. Qed.
Theorem filter1_linear : forall ker a b x y, (1 <= length ker)%nat -> length x = length y ->
  filter1 ker (combine_lin a b x y) = combine_lin a b (filter1 ker x) (filter1 ker y).
Proof.
  intros ker a b x y Hk L. apply filter1_ext; [exact Hk| |].
  - rewrite !combine_lin_len; rewrite ?filter1_length; auto.
  - rewrite combine_lin_len by exact L. intros t Ht.
    rewrite combine_lin_nth by (rewrite !filter1_length by exact Hk; lia).
    rewrite !filter1_value by (exact Hk || lia). unfold window_sum. cbv zeta. rewrite combine_lin_len by exact L.
    rewrite <- !rsum_scal, <- rsum_plus. apply rsum_ext. intros k _. rewrite combine_lin_nth by lia. rewrite L. ring.
Qed.

(** polynomials by their coefficients *)
Fixpoint peval (c : list R) (s : R) : R := match c with [] => 0 | a :: t => a + s * peval t s end.
Fixpoint padd (a b : list R) : list R :=
  match a, b with [], _ => b | _, [] => a | u :: a', v :: b' => (u + v) :: padd a' b' end.
Lemma peval_padd : forall a b s, peval (padd a b) s = peval a s + peval b s.
Proof. induction a as [|u a IH]; intros [|v b] s; cbn; try ring. rewrite IH. ring. Qed.
Lemma padd_len : forall a b, (length b <= length a)%nat -> length (padd a b) = length a.
Proof. induction a as [|u a IH]; intros [|v b] H; cbn in *; try lia. rewrite IH; lia. Qed.
Lemma peval_scale : forall k a s, peval (map (Rmult k) a) s = k * peval a s.
Proof. intros k a s. induction a as [|u a IH]; cbn; [ring|]. rewrite IH. ring. Qed.
(** a polynomial around another point *)
Lemma taylor : forall c t, exists b, length b = length c /\ forall s, peval c (t + s) = peval b s.
Proof.
  induction c as [|a c IH]; intros t; [exists []; split; [reflexivity|reflexivity]|].
  destruct (IH t) as [b [L H]]. exists (padd (a :: b) (map (Rmult t) b)). split.
  - rewrite padd_len; cbn; [lia|rewrite map_length; lia].
  - intros s. rewrite peval_padd, peval_scale. cbn [peval]. rewrite H. ring.
Qed.

(** weights that reproduce polynomials with p coefficients at the window centre *)
Definition reproduces (ker : list R) (p : nat) : Prop := forall c, (length c <= p)%nat ->
  rsum (length ker) (fun k => nth k ker 0 * peval c (INR k - INR (length ker / 2))) = peval c 0.
(** it is enough that the moments of the weights are those of the identity *)
Theorem moments_suffice : forall ker p,
  (forall j, (j < p)%nat -> rsum (length ker) (fun k => nth k ker 0 * (INR k - INR (length ker / 2)) ^ j) = if (j =? 0)%nat then 1 else 0) ->
  reproduces ker p.
Proof.
  intros ker p Hm c Hc. set (h := INR (length ker / 2)) in *.
  assert (G : forall c i, (i + length c <= p)%nat ->
    rsum (length ker) (fun k => nth k ker 0 * ((INR k - h) ^ i * peval c (INR k - h))) = if (i =? 0)%nat then peval c 0 else 0).
  { clear c Hc. induction c as [|a c IH]; intros i Hi; cbn [peval].
    - rewrite (rsum_ext _ _ (fun _ => 0)) by (intros; ring). rewrite rsum_const. destruct (i =? 0)%nat; ring.
    - cbn [length] in Hi.
      rewrite (rsum_ext _ _ (fun k => a * (nth k ker 0 * (INR k - h) ^ i) + nth k ker 0 * ((INR k - h) ^ (S i) * peval c (INR k - h)))).
      2:{ intros k _. cbn [pow]. ring. }
      rewrite rsum_plus, rsum_scal, Hm by lia. rewrite IH by lia. cbn [Nat.eqb]. destruct (i =? 0)%nat; ring. }
  specialize (G c 0%nat ltac:(lia)). cbn [Nat.eqb] in G. rewrite <- G. apply rsum_ext. intros. cbn [pow]. ring.
Qed.

(** C38: weights that reproduce polynomials leave polynomial stretches of data
    unchanged where the window stays inside the stretch *)
Theorem filter1_polynomial : forall ker p c x lo hi, (1 <= length ker)%nat -> reproduces ker p -> (length c <= p)%nat ->
  (hi < length x)%nat -> (forall i, (lo <= i <= hi)%nat -> nth i x 0 = peval c (INR i)) ->
  forall t, (lo + length ker / 2 <= t)%nat -> (t + (length ker - 1 - length ker / 2) <= hi)%nat ->
  nth t (filter1 ker x) 0 = peval c (INR t).
Proof.
  intros ker p c x lo hi Hk Hr Hc Hhi Hx t H1 H2.
  assert (length ker / 2 <= length ker - 1)%nat by (apply Nat.lt_succ_r; replace (S (length ker - 1)) with (length ker) by lia; apply Nat.div_lt; lia).
  rewrite filter1_value by lia. unfold window_sum. cbv zeta. set (h := (length ker / 2)%nat) in *.
  destruct (taylor c (INR t)) as [b [Lb Hb]].
  rewrite (rsum_ext _ _ (fun k => nth k ker 0 * peval b (INR k - INR h))).
  - specialize (Hr b ltac:(lia)). fold h in Hr. rewrite Hr, <- Hb. now rewrite Rplus_0_r.
  - intros k Hkk. rewrite Nat.min_r by lia. rewrite Hx by lia. rewrite <- Hb. do 2 f_equal.
    rewrite minus_INR, plus_INR by lia. ring.
Qed.

Lemma rsum_INR : forall n, rsum n INR = INR n * (INR n - 1) / 2.
Proof. induction n as [|n IH]; [cbn; field|]. cbn [rsum]. rewrite IH, S_INR. field. Qed.
(** odd windows are centred *)
Theorem mean_kernel_odd : forall h, reproduces (mean_kernel (2 * h + 1)) 2.
Proof.
  intros h. apply moments_suffice. rewrite mean_len. intros j Hj. set (w := (2 * h + 1)%nat).
  assert (Hw : (w / 2 = h)%nat) by (unfold w; rewrite Nat.add_comm, Nat.mul_comm, Nat.div_add by lia; reflexivity).
  rewrite Hw. destruct j as [|[|j]]; [| |lia]; cbn [pow Nat.eqb].
  - rewrite (rsum_ext _ _ (fun k => nth k (mean_kernel w) 0)) by (intros; ring). apply mean_sum. unfold w. lia.
  - assert (Hn : INR w = 2 * INR h + 1) by (unfold w; rewrite plus_INR, mult_INR; cbn; ring). pose proof (pos_INR h).
    rewrite (rsum_ext _ _ (fun k => 1 / INR w * (INR k - INR h))) by (intros; rewrite mean_nth by assumption; ring).
    rewrite rsum_scal, rsum_minus, rsum_INR, rsum_const, Hn. field. lra.
Qed.
Lemma mean_sums : forall w, (1 <= w)%nat -> weights_sum_to_one (mean_kernel w).
Proof. intros w Hw. unfold weights_sum_to_one. rewrite mean_len. now apply mean_sum. Qed.
Lemma mean_nonneg : forall w k, (k < length (mean_kernel w))%nat -> 0 <= nth k (mean_kernel w) 0.
Proof.
  intros w k Hk. rewrite mean_len in Hk. rewrite mean_nth by exact Hk. apply Rmult_le_pos; [lra|]. left. apply Rinv_0_lt_compat, lt_0_INR. lia.
Qed.

(** ** The tensor and the denoising cycles *)
Lemma iter_map : forall {A} (f : A -> A) n l, Nat.iter n (map f) l = map (Nat.iter n f) l.
Proof.
  induction n as [|n IH]; intros l; [symmetry; apply map_id|].
  change (map f (Nat.iter n (map f) l) = map (fun x => f (Nat.iter n f x)) l). rewrite IH, map_map. reflexivity.
Qed.
(** C38: features are filtered one by one, the cycles are repetitions *)
Theorem denoise_features : forall m ker n tensor, kernel_of m = Some ker ->
  denoise m n tensor = Ok (map (Nat.iter n (filter1 ker)) tensor).
Proof.
  intros m ker n tensor H. destruct m; cbn in H; try discriminate; injection H as <-; cbn [denoise];
    unfold moving_average, savitzky_golay; now rewrite iter_map.
Qed.
Theorem denoise_fails_iff : forall m n tensor, denoise m n tensor = Err RuntimeError <-> m = Unknown_method.
Proof. intros [w|c|] n tensor; cbn; split; intros H; congruence. Qed.

Lemma denoise_iter_len : forall ker n x, (1 <= length ker)%nat -> length (Nat.iter n (filter1 ker) x) = length x.
Proof. induction n as [|n IH]; intros x Hk; [reflexivity|].
  change (length (filter1 ker (Nat.iter n (filter1 ker) x)) = length x). rewrite filter1_length by exact Hk. now apply IH. Qed.

(** C38: the shape of the tensor is kept *)
Theorem denoise_shape : forall m ker n tensor out, kernel_of m = Some ker -> (1 <= length ker)%nat ->
  denoise m n tensor = Ok out -> map (@length R) out = map (@length R) tensor.
Proof.
  intros m ker n tensor out Hk Hl H. rewrite (denoise_features _ _ _ _ Hk) in H. injection H as <-.
  rewrite map_map. apply map_ext. intros x. now apply denoise_iter_len.
Qed.
(** C38: moving averages, any number of cycles, every feature *)
Theorem moving_average_constant : forall w n (vs : list (R * nat)) out, (1 <= w)%nat ->
  let tensor := map (fun p => repeat (fst p) (snd p)) vs in
  denoise (Moving_average w) n tensor = Ok out -> out = tensor.
Proof.
  intros w n vs out Hw tensor H. rewrite (denoise_features (Moving_average w) (mean_kernel w) _ _ eq_refl) in H. injection H as <-. unfold tensor.
  rewrite map_map. apply map_ext. intros [v k]. cbn [fst snd]. induction n as [|n IH]; [reflexivity|].
  change (filter1 (mean_kernel w) (Nat.iter n (filter1 (mean_kernel w)) (repeat v k)) = repeat v k). rewrite IH.
  apply filter1_constant; [rewrite mean_len; exact Hw|now apply mean_sums].
Qed.
Theorem moving_average_range : forall w n tensor out lo hi, (1 <= w)%nat ->
  denoise (Moving_average w) n tensor = Ok out ->
  forall f, (forall v, In v (nth f tensor []) -> lo <= v <= hi) -> forall v, In v (nth f out []) -> lo <= v <= hi.
Proof.
  intros w n tensor out lo hi Hw H f Hf. rewrite (denoise_features (Moving_average w) (mean_kernel w) _ _ eq_refl) in H. injection H as <-.
  assert (E : nth f (map (Nat.iter n (filter1 (mean_kernel w))) tensor) [] = Nat.iter n (filter1 (mean_kernel w)) (nth f tensor [])
              \/ nth f (map (Nat.iter n (filter1 (mean_kernel w))) tensor) [] = []).
  { destruct (Nat.lt_ge_cases f (length tensor)) as [L|L].
    - left. rewrite (nth_indep _ [] (Nat.iter n (filter1 (mean_kernel w)) [])) by (rewrite map_length; exact L). apply map_nth.
    - right. apply nth_overflow. rewrite map_length. exact L. }
  destruct E as [-> | ->]; [|intros v []].
  induction n as [|n IH]; [exact Hf|].
  apply (filter1_range (mean_kernel w) (Nat.iter n (filter1 (mean_kernel w)) (nth f tensor []))); [rewrite mean_len; exact Hw|now apply mean_sums|apply mean_nonneg|exact IH].
Qed.
Theorem denoise_linear : forall ker n a b x y, (1 <= length ker)%nat -> length x = length y ->
  Nat.iter n (filter1 ker) (combine_lin a b x y) = combine_lin a b (Nat.iter n (filter1 ker) x) (Nat.iter n (filter1 ker) y).
Proof.
  induction n as [|n IH]; intros a b x y Hk L; [reflexivity|].
  change (filter1 ker (Nat.iter n (filter1 ker) (combine_lin a b x y)) =
          combine_lin a b (filter1 ker (Nat.iter n (filter1 ker) x)) (filter1 ker (Nat.iter n (filter1 ker) y))).
  rewrite IH by assumption. apply filter1_linear; [exact Hk|]. now rewrite !denoise_iter_len.
Qed.
(** C38: affine stretches are reproduced away from their ends by odd windows *)
Theorem moving_average_affine : forall h n tensor out f a b lo hi, (f < length tensor)%nat ->
  denoise (Moving_average (2 * h + 1)) n tensor = Ok out ->
  (hi < length (nth f tensor []))%nat -> (forall i, (lo <= i <= hi)%nat -> nth i (nth f tensor []) 0 = a + b * INR i) ->
  forall t, (lo + n * h <= t)%nat -> (t + n * h <= hi)%nat -> nth t (nth f out []) 0 = a + b * INR t.
Proof.
  intros h n tensor out f a b lo hi Hf H Hhi Hx. rewrite (denoise_features (Moving_average (2 * h + 1)) (mean_kernel (2 * h + 1)) _ _ eq_refl) in H. injection H as <-.
  set (ker := mean_kernel (2 * h + 1)).
  rewrite (nth_indep _ [] (Nat.iter n (filter1 ker) [])) by (rewrite map_length; exact Hf). rewrite map_nth.
  assert (Lk : length ker = (2 * h + 1)%nat) by apply mean_len.
  assert (Hh : (length ker / 2 = h)%nat) by (rewrite Lk, Nat.add_comm, Nat.mul_comm, Nat.div_add by lia; reflexivity).
  assert (Pe : forall i, peval [a; b] (INR i) = a + b * INR i) by (intros; cbn; ring).
  induction n as [|n IH]; intros t H1 H2.
  - cbn. apply Hx. lia.
  - rewrite <- Pe. change (Nat.iter (S n) (filter1 ker) (nth f tensor [])) with (filter1 ker (Nat.iter n (filter1 ker) (nth f tensor []))).
    apply (filter1_polynomial ker 2 [a; b] _ (lo + n * h) (hi - n * h)); rewrite ?Hh, ?Lk.
    + lia.
    + apply mean_kernel_odd.
    + cbn. lia.
    + rewrite denoise_iter_len by lia. lia.
    + intros i Hi. rewrite Pe. apply IH; lia.
    + lia.
    + lia.
Qed.
(** C38, counterexample: even windows shift affine paths *)
Theorem even_window_refuted : exists out, denoise (Moving_average 2) 1 [[0; 1; 2; 3]] = Ok [out] /\ nth 2 out 0 <> 2.
Proof.
  eexists. split; [reflexivity|]. cbn. lra.
Qed.
(** non-vacuity: a window of three over a path with a bump *)
Example moving_average_case : denoise (Moving_average 3) 1 [[0; 3; 0; 0]] = Ok [[1; 1; 1; 0]].
Proof.
  cbn. do 2 f_equal. unfold filter1, conv, pad, pad_left, pad_right, mean_kernel. cbn.
  f_equal; [lra|f_equal; [lra|f_equal; [lra|f_equal; lra]]].
Qed.

Print Assumptions denoise_shape.
Print Assumptions moving_average_range.
Print Assumptions moving_average_affine.
Print Assumptions filter1_polynomial.
