(** Loading incrementation: number of increments, load paths, bounds. *)
From Coq Require Import Reals List Arith Bool Lia Lra Psatz.
From Verif Require Import Lib PyDict HardeningModel HardeningProps StrainPathModel StrainPathProps DeformModel DeformProps LinksLoadModel.
Import ListNotations.
Local Open Scope R_scope.
Local Open Scope list_scope.

(** ** Specification *)
Fixpoint total (f : list R) : R := match f with [] => 0 | x :: t => x + total t end.
(** The total load factor after [k] increments *)
Definition load_at (f : list R) (k : nat) : R := total (firstn k f).
(** A loading that starts at zero, goes up to 1 in [n] even increments, and then
    back and forth between 1 and [low] with the same increments; [r] changes of
    direction, then constant. *)
Definition turning (low : R) (j : nat) : R := if Nat.even j then 1 else low.
Definition back_and_forth (low : R) (n w r : nat) (f : list R) : Prop :=
  (forall i, (i <= n)%nat -> load_at f i = INR i / INR n) /\
  (forall j i, (j < r)%nat -> (i <= w)%nat ->
     load_at f (n + j * w + i) = turning low j + (turning low (S j) - turning low j) * (INR i / INR w)) /\
  (forall k, (n + r * w <= k)%nat -> load_at f k = turning low r).

Lemma total_app a b : total (a ++ b) = total a + total b.
Proof. induction a as [|x a IH]; cbn; [lra|]. rewrite IH. lra. Qed.
Lemma total_repeat x k : total (repeat x k) = INR k * x.
Proof. induction k as [|k IH]; [cbn; lra|]. cbn [repeat total]. rewrite IH, S_INR. lra. Qed.
Lemma firstn_repeat {A} (x : A) k n : firstn k (repeat x n) = repeat x (Nat.min k n).
Proof. revert n. induction k as [|k IH]; intros [|n]; cbn; [reflexivity|reflexivity|reflexivity|]. now rewrite IH. Qed.
Lemma load_app_l a b k : (k <= length a)%nat -> load_at (a ++ b) k = load_at a k.
Proof. intros H. unfold load_at. rewrite firstn_app. replace (k - length a)%nat with 0%nat by lia. cbn [firstn]. now rewrite app_nil_r. Qed.
Lemma load_app_r a b k : (length a <= k)%nat -> load_at (a ++ b) k = total a + load_at b (k - length a).
Proof. intros H. unfold load_at. rewrite firstn_app, total_app, (firstn_all2 a) by exact H. reflexivity. Qed.
Lemma load_repeat x n k : load_at (repeat x n) k = INR (Nat.min k n) * x.
Proof. unfold load_at. now rewrite firstn_repeat, total_repeat. Qed.

(** The lines of the reversals *)
Fixpoint swings (r w : nat) (d : R) : list R :=
  match r with O => [] | S r => repeat (- d) w ++ swings r w (- d) end.
Lemma reversals_swings r w d l : reversals r w d l = l ++ swings r w d.
Proof. revert d l. induction r as [|r IH]; intros d l; cbn; [now rewrite app_nil_r|]. rewrite IH. now rewrite <- app_assoc. Qed.
Lemma swings_length r w d : length (swings r w d) = (r * w)%nat.
Proof. revert d. induction r as [|r IH]; intros d; [reflexivity|]. cbn [swings]. rewrite app_length, repeat_length, IH. reflexivity. Qed.
Lemma swings_at r w : forall d j i, (j < r)%nat -> (i <= w)%nat ->
  load_at (swings r w d) (j * w + i)
  = (if Nat.even j then 0 else - (INR w * d)) + (if Nat.even j then - d else d) * INR i.
Proof.
  induction r as [|r IH]; intros d j i Hj Hi; [lia|]. cbn [swings]. destruct j as [|j].
  - rewrite load_app_l by (rewrite repeat_length; lia). rewrite load_repeat, Nat.min_l by lia. cbn [Nat.even Nat.mul Nat.add]. ring.
  - rewrite load_app_r by (rewrite repeat_length; lia). rewrite repeat_length, total_repeat.
    replace (S j * w + i - w)%nat with (j * w + i)%nat by lia. rewrite IH by lia.
    rewrite Nat.even_succ, <- Nat.negb_even. destruct (Nat.even j); cbn [negb]; ring.
Qed.
Lemma swings_total r w d : total (swings r w d) = if Nat.even r then 0 else - (INR w * d).
Proof.
  revert d. induction r as [|r IH]; intros d; [reflexivity|]. cbn [swings]. rewrite total_app, total_repeat, IH.
  rewrite Nat.even_succ, <- Nat.negb_even. destruct (Nat.even r); cbn [negb]; ring.
Qed.
Lemma load_zeros k m : load_at (repeat 0 m) k = 0.
Proof. rewrite load_repeat. ring. Qed.
Lemma load_all f k : (length f <= k)%nat -> load_at f k = total f.
Proof. intros H. unfold load_at. now rewrite firstn_all2. Qed.

Lemma swing_path (n sw r m : nat) : (0 < n)%nat -> (0 < sw)%nat ->
  back_and_forth (1 - INR sw) n (sw * n) r ((repeat (1 / INR n) n ++ swings r (sw * n) (1 / INR n)) ++ repeat 0 m).
Proof.
  intros Hn Hs. assert (Pn : 0 < INR n) by (now apply lt_0_INR). assert (Ps : 0 < INR sw) by (now apply lt_0_INR).
  split; [|split].
  - intros i Hi. rewrite load_app_l by (rewrite app_length, repeat_length; lia). rewrite load_app_l by (rewrite repeat_length; lia).
    rewrite load_repeat, Nat.min_l by lia. field. lra.
  - intros j i Hj Hi. rewrite load_app_l by (rewrite app_length, repeat_length, swings_length; nia).
    rewrite load_app_r by (rewrite repeat_length; lia). rewrite repeat_length, total_repeat.
    replace (n + j * (sw * n) + i - n)%nat with (j * (sw * n) + i)%nat by lia. rewrite swings_at by assumption.
    unfold turning. rewrite Nat.even_succ, <- Nat.negb_even. rewrite mult_INR. destruct (Nat.even j); cbn [negb]; field; lra.
  - intros k Hk. rewrite load_app_r by (rewrite app_length, repeat_length, swings_length; lia).
    rewrite load_zeros, total_app, total_repeat, swings_total, mult_INR. unfold turning. destruct (Nat.even r); field; lra.
Qed.

(** ** Stepped loadings *)
(** The number of increments in the header is the number of lines. *)
Theorem load_count fit m t n_inc n_reverse draws n f :
  links_loading fit m t n_inc n_reverse draws = Ok (ListedLoading n f) -> n = n_inc /\ length f = n_inc.
Proof.
  assert (S : stepped_loading t n_inc n_reverse = Ok (ListedLoading n f) -> n = n_inc /\ length f = n_inc).
  { unfold stepped_loading. destruct (match t with CyclicPlus => _ | CyclicSym => _ | _ => _ end); [discriminate|].
    set (r := match t with Proportional => 0%nat | _ => n_reverse end).
    set (n_mon := match t with CyclicSym => _ | _ => _ end). set (sw := match t with CyclicSym => 2%nat | _ => 1%nat end).
    destruct (Nat.eqb n_mon 0); [discriminate|]. intros E. injection E as <- <-. split; [reflexivity|].
    rewrite reversals_swings, !app_length, repeat_length, swings_length.
    assert (L : (n_mon * (sw * r + 1) <= n_inc)%nat).
    { unfold n_mon, sw. destruct t; match goal with |- context [Nat.div n_inc ?d] => pose proof (Nat.mul_div_le n_inc d ltac:(lia)); nia end. }
    destruct (Nat.ltb_spec (n_mon * (sw * r + 1)) n_inc); [rewrite repeat_length|cbn [length]]; nia. }
  destruct m, t; cbn [links_loading]; try discriminate; try exact S.
  unfold polynomial_loading. intros E. injection E as <- <-. split; [reflexivity|]. now rewrite map_length, seq_length.
Qed.

(** The segments of a stepped loading: changes of direction, lowest value and
    number of even ramps. *)
Definition directions (t : load_type) (r : nat) : nat := match t with Proportional => 0%nat | _ => r end.
Definition lowest (t : load_type) : R := match t with CyclicSym => -1 | _ => 0 end.
Definition sweep (t : load_type) : nat := match t with CyclicSym => 2%nat | _ => 1%nat end.
Definition ramps (t : load_type) (r : nat) : nat := (1 + sweep t * directions t r)%nat.

Lemma stepped_form fit t n_inc n_reverse draws : t <> PolynomialLoad -> (ramps t n_reverse <= n_inc)%nat ->
  let n := Nat.div n_inc (ramps t n_reverse) in
  (0 < n)%nat /\ (n * ramps t n_reverse <= n_inc < n * ramps t n_reverse + ramps t n_reverse)%nat /\
  links_loading fit IncrementList t n_inc n_reverse draws = Ok (ListedLoading n_inc
    ((repeat (1 / INR n) n ++ swings (directions t n_reverse) (sweep t * n) (1 / INR n)) ++ repeat 0 (n_inc - n * ramps t n_reverse))).
Proof.
  intros Ht Hn n.
  assert (E : links_loading fit IncrementList t n_inc n_reverse draws = stepped_loading t n_inc n_reverse) by (now destruct t).
  rewrite E. clear E.
  assert (R0 : ramps t n_reverse <> 0%nat) by (unfold ramps; lia).
  assert (B : (n * ramps t n_reverse <= n_inc < n * ramps t n_reverse + ramps t n_reverse)%nat).
  { unfold n. pose proof (Nat.mul_div_le n_inc _ R0). pose proof (Nat.mul_succ_div_gt n_inc _ R0). lia. }
  assert (P : (0 < n)%nat) by (unfold n; apply Nat.div_str_pos; lia).
  split; [exact P|]. split; [exact B|]. unfold stepped_loading.
  assert (G : match t with CyclicSym => Nat.div n_inc (2 * match t with Proportional => 0%nat | _ => n_reverse end + 1)
              | _ => Nat.div n_inc (match t with Proportional => 0%nat | _ => n_reverse end + 1) end = n).
  { unfold n, ramps, sweep, directions. destruct t; f_equal; lia. }
  rewrite G. change (match t with Proportional => 0%nat | _ => n_reverse end) with (directions t n_reverse).
  change (match t with CyclicSym => 2%nat | _ => 1%nat end) with (sweep t).
  assert (F : match t with CyclicPlus => Nat.ltb n_inc (directions t n_reverse + 1)
              | CyclicSym => Nat.ltb n_inc (2 * directions t n_reverse + 1) | _ => false end = false).
  { clear -Hn. unfold ramps in Hn. destruct t; try reflexivity; apply Nat.ltb_ge; unfold sweep, directions in *; lia. }
  rewrite F. replace (Nat.eqb n 0) with false by (symmetry; apply Nat.eqb_neq; lia). rewrite reversals_swings.
  replace (n * (sweep t * directions t n_reverse + 1))%nat with (n * ramps t n_reverse)%nat by (unfold ramps; lia).
  destruct (Nat.ltb_spec (n * ramps t n_reverse) n_inc) as [L|L]; [reflexivity|].
  replace (n_inc - n * ramps t n_reverse)%nat with 0%nat by lia. reflexivity.
Qed.
(** With enough increments, the loading ramps up to one and goes back and forth
    between one and the lowest value; each ramp has the same number of
    increments, and fewer null increments remain than there are ramps. *)
Theorem stepped_path fit t n_inc n_reverse draws : t <> PolynomialLoad -> (ramps t n_reverse <= n_inc)%nat ->
  exists f n, links_loading fit IncrementList t n_inc n_reverse draws = Ok (ListedLoading n_inc f) /\
    (0 < n)%nat /\ (n * ramps t n_reverse <= n_inc < n * ramps t n_reverse + ramps t n_reverse)%nat /\
    back_and_forth (lowest t) n (sweep t * n) (directions t n_reverse) f.
Proof.
  intros Ht Hn. destruct (stepped_form fit t n_inc n_reverse draws Ht Hn) as [P [B E]].
  eexists _, _. split; [exact E|]. split; [exact P|]. split; [exact B|].
  replace (lowest t) with (1 - INR (sweep t)) by (destruct t; cbn; lra).
  apply swing_path; [exact P|destruct t; cbn; lia].
Qed.
(** Too few increments are refused. *)
Theorem stepped_refused fit t n_inc n_reverse draws : t <> PolynomialLoad -> (n_inc < ramps t n_reverse)%nat ->
  links_loading fit IncrementList t n_inc n_reverse draws
  = Err (match t with Proportional => ZeroDivisionError | _ => RuntimeError end).
Proof.
  intros Ht Hn. destruct t; [| | |congruence]; cbn [links_loading]; unfold stepped_loading, ramps, sweep, directions in *.
  - assert (n_inc = 0)%nat as -> by lia. reflexivity.
  - now replace (Nat.ltb n_inc (n_reverse + 1)) with true by (symmetry; apply Nat.ltb_lt; lia).
  - now replace (Nat.ltb n_inc (2 * n_reverse + 1)) with true by (symmetry; apply Nat.ltb_lt; lia).
Qed.
(** Number of increments only: proportional loading or nothing *)
Theorem even_loading fit t n_inc n_reverse draws :
  links_loading fit NIncrements t n_inc n_reverse draws
  = match t with Proportional => Ok (EvenLoading n_inc) | _ => Err RuntimeError end.
Proof. now destruct t. Qed.

Lemma between (a b s lo hi : R) : lo <= a <= hi -> lo <= b <= hi -> 0 <= s <= 1 -> lo <= a + (b - a) * s <= hi.
Proof. intros. nra. Qed.
Lemma fraction_unit i w : (i <= w)%nat -> (0 < w)%nat -> 0 <= INR i / INR w <= 1.
Proof.
  intros H1 H2. assert (P : 0 < INR w) by (now apply lt_0_INR). split.
  - apply Rmult_le_pos; [apply pos_INR|]. left. now apply Rinv_0_lt_compat.
  - apply (Rmult_le_reg_r (INR w)); [exact P|]. unfold Rdiv. rewrite Rmult_assoc, Rinv_l, Rmult_1_r, Rmult_1_l by lra. now apply le_INR.
Qed.
(** At all times the load factor lies between the lowest value, or zero, and one. *)
Theorem stepped_bounds fit t n_inc n_reverse draws n f k : t <> PolynomialLoad ->
  links_loading fit IncrementList t n_inc n_reverse draws = Ok (ListedLoading n f) ->
  lowest t <= load_at f k <= 1.
Proof.
  intros Ht H. destruct (Nat.le_gt_cases (ramps t n_reverse) n_inc) as [L|L].
  2:{ rewrite stepped_refused in H by assumption. destruct t; discriminate H. }
  destruct (stepped_path fit t n_inc n_reverse draws Ht L) as [g [m [E [P [_ [B1 [B2 B3]]]]]]]. rewrite E in H. injection H as _ <-.
  assert (Lo : lowest t <= 0) by (destruct t; cbn; lra).
  assert (T : forall j, lowest t <= turning (lowest t) j <= 1) by (intros j; unfold turning; destruct (Nat.even j); lra).
  assert (W : (0 < sweep t * m)%nat) by (destruct t; cbn; lia).
  destruct (Nat.le_gt_cases k m) as [C|C].
  - rewrite B1 by exact C. pose proof (fraction_unit k m C P). lra.
  - destruct (Nat.le_gt_cases (m + directions t n_reverse * (sweep t * m)) k) as [D|D]; [rewrite B3 by exact D; apply T|].
    set (w := (sweep t * m)%nat) in *.
    pose proof (Nat.div_mod (k - m) w ltac:(lia)) as Q. pose proof (Nat.mod_upper_bound (k - m) w ltac:(lia)) as U.
    replace k with (m + Nat.div (k - m) w * w + (k - m) mod w)%nat by lia.
    rewrite B2; [|apply Nat.div_lt_upper_bound; lia|lia]. apply between; [apply T|apply T|]. apply fraction_unit; lia.
Qed.

(** ** Printed factors *)
Lemma drift eps rnd : 0 <= eps -> (forall x, Rabs (rnd x - x) <= eps * Rabs x) -> forall f k,
  Rabs (load_at (map rnd f) k - load_at f k) <= eps * total (map Rabs f).
Proof.
  intros He H. unfold load_at. induction f as [|x f IH]; intros [|k]; cbn [map firstn total].
  - rewrite Rminus_0_r, Rabs_R0. lra.
  - rewrite Rminus_0_r, Rabs_R0. lra.
  - rewrite Rminus_0_r, Rabs_R0. assert (T : 0 <= total (map Rabs f)).
    { clear. induction f as [|y f IH]; cbn; [lra|]. pose proof (Rabs_pos y). lra. }
    pose proof (Rabs_pos x). nra.
  - replace (rnd x + total (firstn k (map rnd f)) - (x + total (firstn k f))) with
      ((rnd x - x) + (total (firstn k (map rnd f)) - total (firstn k f))) by ring.
    eapply Rle_trans; [apply Rabs_triang|]. specialize (IH k). specialize (H x). lra.
Qed.
Lemma map_repeat_R {A B} (g : A -> B) x k : map g (repeat x k) = repeat (g x) k.
Proof. induction k as [|k IH]; [reflexivity|]. cbn. now rewrite IH. Qed.
Lemma total_abs_repeat x k : total (map Rabs (repeat x k)) = INR k * Rabs x.
Proof. rewrite map_repeat_R. apply total_repeat. Qed.
Lemma total_abs_swings r w : forall d, total (map Rabs (swings r w d)) = INR r * (INR w * Rabs d).
Proof.
  induction r as [|r IH]; intros d; [cbn; lra|]. cbn [swings]. rewrite map_app, total_app, total_abs_repeat, IH, S_INR, !Rabs_Ropp. ring.
Qed.
(** Printed with relative precision [eps], the load factors drift from the path
    by at most [eps] times the number of ramps. *)
Theorem written_drift fit t n_inc n_reverse draws n f eps rnd k : t <> PolynomialLoad -> 0 <= eps ->
  (forall x, Rabs (rnd x - x) <= eps * Rabs x) ->
  links_loading fit IncrementList t n_inc n_reverse draws = Ok (ListedLoading n f) ->
  Rabs (load_at (map rnd f) k - load_at f k) <= eps * INR (ramps t n_reverse).
Proof.
  intros Ht He Hr H. destruct (Nat.le_gt_cases (ramps t n_reverse) n_inc) as [L|L].
  2:{ rewrite stepped_refused in H by assumption. destruct t; discriminate H. }
  destruct (stepped_form fit t n_inc n_reverse draws Ht L) as [P [_ E]]. rewrite E in H.
  apply (f_equal (fun r => match r with Ok (ListedLoading _ g) => g | _ => [] end)) in H. cbv beta iota in H. subst f.
  eapply Rle_trans; [apply drift; eassumption|]. apply Rmult_le_compat_l; [exact He|].
  rewrite !map_app, !total_app, !total_abs_repeat, total_abs_swings, Rabs_R0, Rmult_0_r, Rplus_0_r.
  set (m := Nat.div _ _) in *. assert (Pm : 0 < INR m) by (now apply lt_0_INR).
  rewrite Rabs_pos_eq by (left; apply Rdiv_lt_0_compat; lra). unfold ramps. rewrite plus_INR, !mult_INR. cbn [INR].
  right. field. lra.
Qed.
Lemma abs_le x a : Rabs x <= a -> - a <= x <= a.
Proof. unfold Rabs. destruct (Rcase_abs x); lra. Qed.
(** Rounding of a number between 0.1 and 1 to nine digits *)
Definition nine_digits (rnd : R -> R) : Prop := forall x, 1 / 10 <= x < 1 ->
  (exists k : Z, rnd x = IZR k / 1000000000) /\ forall k : Z, Rabs (rnd x - x) <= Rabs (IZR k / 1000000000 - x).
(** The printed factors do not end at one: three increments stay below, six go
    beyond. *)
Theorem written_total_refuted fit rnd r draws : nine_digits rnd ->
  (exists f, links_loading fit IncrementList Proportional 3 r draws = Ok (ListedLoading 3 f) /\ load_at (map rnd f) 3 < 1) /\
  (exists f, links_loading fit IncrementList Proportional 6 r draws = Ok (ListedLoading 6 f) /\ 1 < load_at (map rnd f) 6).
Proof.
  intros N. split.
  - eexists. split; [reflexivity|]. cbn. destruct (N (1 / 3) ltac:(lra)) as [[k E] H]. specialize (H 333333333%Z).
    replace (1 / (1 + 1 + 1)) with (1 / 3) by field. rewrite E in *.
    assert (A : Rabs (333333333 / 1000000000 - 1 / 3) = 1 / 3000000000) by (rewrite Rabs_left by lra; lra). rewrite A in H.
    apply abs_le in H. assert (K : (k < 333333334)%Z) by (apply lt_IZR; lra). assert (K2 : (k <= 333333333)%Z) by lia. apply IZR_le in K2. lra.
  - eexists. split; [reflexivity|]. cbn. destruct (N (1 / 6) ltac:(lra)) as [[k E] H]. specialize (H 166666667%Z).
    replace (1 / (1 + 1 + 1 + 1 + 1 + 1)) with (1 / 6) by field. rewrite E in *.
    assert (A : Rabs (166666667 / 1000000000 - 1 / 6) = 1 / 3000000000) by (rewrite Rabs_pos_eq by lra; lra). rewrite A in H.
    apply abs_le in H. assert (K : (166666666 < k)%Z) by (apply lt_IZR; lra). assert (K2 : (166666667 <= k)%Z) by lia. apply IZR_le in K2. lra.
Qed.

(** ** Polynomial loadings *)
(** The fit passes through the control points (np.polyfit with as many
    coefficients as points). *)
Definition fit_correct (fit : list R -> list R -> list R) : Prop := forall ts vs,
  NoDup ts -> length vs = length ts ->
  length (fit ts vs) = length ts /\ forall k, (k < length ts)%nat -> polynomial (fit ts vs) (nth k ts 0) = nth k vs 0.
Theorem fit_exists : exists fit, fit_correct fit.
Proof.
  destruct solver_exists as [solve SC].
  exists (fun ts vs => solve (map (fun t => map (fun k => t ^ k) (seq 0 (length ts))) ts) vs).
  intros ts vs ND Lv. set (n := length ts).
  destruct (SC n (map (fun t => map (fun k => t ^ k) (seq 0 n)) ts) vs) as [L E].
  - apply map_length.
  - exact Lv.
  - intros a A. apply in_map_iff in A as [t [<- _]]. now rewrite map_length, seq_length.
  - intros x LX Z. apply (roots_null ts); auto.
    intros y Y. rewrite <- (vander_row x y n) by auto. apply Z. apply in_map_iff. now exists y.
  - split; [exact L|]. intros k K. specialize (E k K).
    rewrite (nth_indep _ [] (map (fun k0 => 0 ^ k0) (seq 0 n))) in E by (now rewrite map_length).
    rewrite (map_nth (fun t => map (fun k => t ^ k) (seq 0 n))) in E. rewrite vander_row in E by auto. rewrite polynomial_horner. exact E.
Qed.

Lemma Rabs_div_R a b : b <> 0 -> Rabs (a / b) = Rabs a * / Rabs b.
Proof. intros H. unfold Rdiv. rewrite Rabs_mult. now rewrite Rabs_inv. Qed.
Lemma firstn_seq_R k n : (k <= n)%nat -> firstn k (seq 0 n) = seq 0 k.
Proof.
  intros H. replace n with (k + (n - k))%nat by lia. rewrite seq_app, firstn_app, firstn_all2 by (rewrite seq_length; lia).
  rewrite seq_length, Nat.sub_diag. cbn [firstn]. apply app_nil_r.
Qed.
(** The bound scaling with symmetric bounds *)
Lemma bound_scale_sym d h : exists s, bound_scale (-1) 1 d (d :: h) = map (Rmult s) (d :: h) /\ 0 < s <= 1 /\
  (forall v, In v (d :: h) -> Rabs (s * v) <= 1) /\ (s = 1 \/ exists v, In v (d :: h) /\ Rabs (s * v) = 1) /\
  ((forall v, In v (d :: h) -> Rabs v <= 1) -> s = 1).
Proof.
  set (g := d :: h). unfold bound_scale. pose proof (rmin_l_in d h) as Imn. pose proof (rmax_l_in d h) as Imx. fold g in Imn, Imx.
  assert (Id : map (Rmult 1) g = g) by (rewrite <- (map_id g) at 2; apply map_ext; intros; ring).
  destruct (rltb 0 (rmax_l (Rabs d) (map Rabs g))) eqn:E0.
  2:{ exists 1. rewrite Id. split; [reflexivity|]. split; [lra|]. split; [|split; [now left|reflexivity]].
      intros v Hv. assert (Q : ~ 0 < rmax_l (Rabs d) (map Rabs g)) by (rewrite <- rltb_iff; congruence).
      pose proof (rmax_l_ge (Rabs d) (map Rabs g) (Rabs v) (in_map Rabs g v Hv)). rewrite Rmult_1_l. lra. }
  cbv zeta. set (mn := rmin_l d g) in *. set (mx := rmax_l d g) in *.
  assert (Hb : forall w, In w g -> mn <= w <= mx) by (intros w Hw; split; [now apply rmin_l_le|now apply rmax_l_ge]).
  assert (Low : forall a b, rltb a b = false -> b <= a) by (intros a b Q; apply Rnot_lt_le; rewrite <- rltb_iff; congruence).
  assert (Case : forall x, In x g -> 1 < Rabs x -> (forall w, In w g -> Rabs w <= Rabs x) -> forall s, s = / Rabs x ->
    map (Rmult s) g = map (Rmult s) g /\ 0 < s <= 1 /\ (forall v, In v g -> Rabs (s * v) <= 1) /\
    (s = 1 \/ (exists v, In v g /\ Rabs (s * v) = 1)) /\ ((forall v, In v g -> Rabs v <= 1) -> s = 1)).
  { intros x Hx H1 Hm s ->. assert (Px : 0 < / Rabs x) by (apply Rinv_0_lt_compat; lra).
    assert (A : forall v, Rabs (/ Rabs x * v) = / Rabs x * Rabs v) by (intros v; rewrite Rabs_mult, (Rabs_pos_eq (/ Rabs x)) by lra; reflexivity).
    split; [reflexivity|]. split; [split; [exact Px|]; rewrite <- Rinv_1; apply Rinv_le_contravar; lra|].
    split; [intros v Hv; rewrite A; specialize (Hm v Hv); apply (Rmult_le_reg_l (Rabs x)); [lra|]; rewrite <- Rmult_assoc, Rinv_r by lra; lra|].
    split; [right; exists x; split; [exact Hx|]; rewrite A; field; lra|]. intros Q. specialize (Q x Hx). lra. }
  destruct (rltb mn (-1)) eqn:El; destruct (rltb 1 mx) eqn:Eu; cbn [orb].
  - apply rltb_iff in El, Eu. rewrite (Rabs_pos_eq (-1 - mn)), (Rabs_left (1 - mx)) by lra.
    destruct (rltb (- (1 - mx)) (-1 - mn)) eqn:Ed.
    + apply rltb_iff in Ed. eexists. apply (Case mn Imn).
      * rewrite Rabs_left; lra.
      * intros w Hw. specialize (Hb w Hw). rewrite (Rabs_left mn) by lra. apply Rabs_le. lra.
      * rewrite Rabs_div_R by lra. rewrite (Rabs_left (-1)) by lra. unfold Rdiv. ring.
    + apply Low in Ed. eexists. apply (Case mx Imx).
      * rewrite Rabs_pos_eq; lra.
      * intros w Hw. specialize (Hb w Hw). rewrite (Rabs_pos_eq mx) by lra. apply Rabs_le. lra.
      * rewrite Rabs_div_R by lra. rewrite Rabs_R1. unfold Rdiv. ring.
  - apply rltb_iff in El. apply Low in Eu. rewrite (Rabs_pos_eq (-1 - mn)) by lra.
    replace (rltb 0 (-1 - mn)) with true by (symmetry; apply rltb_iff; lra). eexists. apply (Case mn Imn).
    + rewrite Rabs_left; lra.
    + intros w Hw. specialize (Hb w Hw). rewrite (Rabs_left mn) by lra. apply Rabs_le. lra.
    + rewrite Rabs_div_R by lra. rewrite (Rabs_left (-1)) by lra. unfold Rdiv. ring.
  - apply rltb_iff in Eu. apply Low in El. rewrite (Rabs_left (1 - mx)) by lra.
    replace (rltb (- (1 - mx)) 0) with false by (symmetry; apply not_true_iff_false; rewrite rltb_iff; lra). eexists. apply (Case mx Imx).
    + rewrite Rabs_pos_eq; lra.
    + intros w Hw. specialize (Hb w Hw). rewrite (Rabs_pos_eq mx) by lra. apply Rabs_le. lra.
    + rewrite Rabs_div_R by lra. rewrite Rabs_R1. unfold Rdiv. ring.
  - apply Low in El, Eu. exists 1. rewrite Id. split; [reflexivity|]. split; [lra|].
    split; [intros v Hv; specialize (Hb v Hv); rewrite Rmult_1_l; apply Rabs_le; lra|]. split; [now left|reflexivity].
Qed.
Lemma telescope (h : list R) n k : (k <= n)%nat ->
  load_at (map (fun i => nth (S i) h 0 - nth i h 0) (seq 0 n)) k = nth k h 0 - nth 0 h 0.
Proof.
  intros H. unfold load_at. rewrite firstn_map, firstn_seq_R by exact H. clear n H.
  induction k as [|k IH]; [cbn; lra|]. rewrite seq_S, map_app, total_app, IH. cbn [Nat.add map total]. lra.
Qed.
Lemma linspace_nth n k : (k <= n)%nat -> nth k (StrainPathModel.linspace 0 1 (n + 1)) 0 = INR k / INR n.
Proof.
  intros H. unfold StrainPathModel.linspace. set (g := fun i => 0 + INR i * ((1 - 0) / INR (n + 1 - 1))).
  rewrite (nth_indep _ 0 (g 0%nat)) by (rewrite map_length, seq_length; lia).
  rewrite map_nth, seq_nth by lia. unfold g. replace (n + 1 - 1)%nat with n by lia. cbn [Nat.add]. unfold Rdiv. ring.
Qed.
Lemma linspace_nodup n : (1 <= n)%nat -> NoDup (StrainPathModel.linspace 0 1 (n + 1)).
Proof.
  intros H. unfold StrainPathModel.linspace. apply FinFun.Injective_map_NoDup; [|apply seq_NoDup]. intros i j E.
  replace (n + 1 - 1)%nat with n in E by lia. assert (P : 0 < (1 - 0) / INR n) by (apply Rdiv_lt_0_compat; [lra|now apply lt_0_INR]).
  apply INR_eq. apply (Rmult_eq_reg_r ((1 - 0) / INR n)); lra.
Qed.
(** The load factors are those of the polynomial through the control values, zero
    at the beginning, times a factor of at most one; they never leave [-1, 1], and
    reach a bound if the factor is not one; the factor is one if the polynomial
    keeps the bounds. *)
Theorem polynomial_path fit n_inc r draws : fit_correct fit -> (2 <= length draws)%nat -> (1 <= n_inc)%nat ->
  exists coefs s f,
    links_loading fit IncrementList PolynomialLoad n_inc r draws = Ok (ListedLoading n_inc f) /\
    length coefs = length draws /\ polynomial coefs 0 = 0 /\
    (forall j, (0 < j < length draws)%nat -> polynomial coefs (INR j / INR (length draws - 1)) = nth j draws 0) /\
    (forall k, (k <= n_inc)%nat -> load_at f k = s * polynomial coefs (INR k / INR n_inc)) /\
    (forall k, Rabs (load_at f k) <= 1) /\ 0 < s <= 1 /\
    (s = 1 \/ exists k, (k <= n_inc)%nat /\ Rabs (load_at f k) = 1) /\
    ((forall k, (k <= n_inc)%nat -> Rabs (polynomial coefs (INR k / INR n_inc)) <= 1) -> s = 1).
Proof.
  intros F Hd Hn. set (nc := (length draws - 1)%nat). assert (Ed : length draws = (nc + 1)%nat) by lia.
  set (coefs := fit (StrainPathModel.linspace 0 1 (length draws)) (upd draws 0 0)).
  assert (Ll : forall n, length (StrainPathModel.linspace 0 1 n) = n) by (intros; unfold StrainPathModel.linspace; now rewrite map_length, seq_length).
  destruct (F (StrainPathModel.linspace 0 1 (length draws)) (upd draws 0 0)) as [Lc Ec].
  { rewrite Ed. apply linspace_nodup. lia. } { now rewrite upd_length, Ll. }
  fold coefs in Lc, Ec. rewrite Ll in Lc, Ec.
  assert (Ec' : forall j, (j <= nc)%nat -> polynomial coefs (INR j / INR nc) = nth j (upd draws 0 0) 0).
  { intros j Hj. rewrite <- Ec by lia. f_equal. rewrite Ed. symmetry. now apply linspace_nth. }
  assert (U : exists x t, draws = x :: t) by (destruct draws as [|x t]; [cbn in Hd; lia|eauto]). destruct U as [x [t Edr]].
  assert (P0 : polynomial coefs 0 = 0).
  { pose proof (Ec' 0%nat ltac:(lia)) as Q. cbn [INR] in Q. replace (0 / INR nc) with 0 in Q by (unfold Rdiv; ring).
    rewrite Q, Edr. reflexivity. }
  set (hist := map (polynomial coefs) (StrainPathModel.linspace 0 1 (n_inc + 1))).
  assert (Nh : forall k, (k <= n_inc)%nat -> nth k hist 0 = polynomial coefs (INR k / INR n_inc)).
  { intros k Hk. unfold hist. rewrite (nth_indep _ 0 (polynomial coefs 0)) by (rewrite map_length, Ll; lia). rewrite map_nth. now rewrite linspace_nth. }
  assert (Lh : length hist = (n_inc + 1)%nat) by (unfold hist; now rewrite map_length, Ll).
  assert (Hh : exists d h, hist = d :: h) by (destruct hist as [|d h]; [cbn in Lh; lia|eauto]). destruct Hh as [d [h Eh]].
  destruct (bound_scale_sym d h) as [s [Es [Hs [Hb [Ho Hi]]]]].
  exists coefs, s, (map (fun i => nth (S i) (map (Rmult s) hist) 0 - nth i (map (Rmult s) hist) 0) (seq 0 n_inc)).
  assert (El : links_loading fit IncrementList PolynomialLoad n_inc r draws
    = Ok (ListedLoading n_inc (map (fun i => nth (S i) (map (Rmult s) hist) 0 - nth i (map (Rmult s) hist) 0) (seq 0 n_inc)))).
  { cbn [links_loading]. unfold polynomial_loading, load_history. fold coefs. fold hist.
    replace (bound_scale (-1) 1 (hd 0 hist) hist) with (map (Rmult s) hist); [reflexivity|]. rewrite Eh. cbn [hd]. symmetry. exact Es. }
  assert (Nm : forall k, (k <= n_inc)%nat -> nth k (map (Rmult s) hist) 0 = s * polynomial coefs (INR k / INR n_inc)).
  { intros k Hk. rewrite (nth_indep _ 0 (s * 0)) by (rewrite map_length; lia). now rewrite map_nth, Nh. }
  assert (La : forall k, (k <= n_inc)%nat -> load_at (map (fun i => nth (S i) (map (Rmult s) hist) 0 - nth i (map (Rmult s) hist) 0) (seq 0 n_inc)) k = s * polynomial coefs (INR k / INR n_inc)).
  { intros k Hk. rewrite telescope by exact Hk. rewrite !Nm by lia. cbn [INR]. replace (0 / INR n_inc) with 0 by (unfold Rdiv; ring). rewrite P0. ring. }
  assert (Ih : forall k, (k <= n_inc)%nat -> In (polynomial coefs (INR k / INR n_inc)) (d :: h)).
  { intros k Hk. rewrite <- Nh by exact Hk. rewrite <- Eh. apply nth_In. lia. }
  assert (Hk' : forall v, In v (d :: h) -> exists k, (k <= n_inc)%nat /\ v = polynomial coefs (INR k / INR n_inc)).
  { intros v Hv. rewrite <- Eh in Hv. destruct (In_nth _ _ 0 Hv) as [k [Hk Ev]]. exists k. split; [lia|]. rewrite <- Nh by lia. now symmetry. }
  split; [exact El|]. split; [exact Lc|]. split; [exact P0|]. split.
  { intros j Hj. rewrite Ec' by lia. rewrite Edr. destruct j as [|j]; [lia|]. reflexivity. }
  split; [exact La|]. split.
  { intros k. destruct (Nat.le_gt_cases k n_inc) as [Hk|Hk]; [rewrite La by exact Hk; now apply Hb, Ih|].
    unfold load_at. rewrite firstn_all2 by (rewrite map_length, seq_length; lia).
    pose proof (La n_inc (le_n _)) as Q. unfold load_at in Q. rewrite firstn_all2 in Q by (rewrite map_length, seq_length; lia). rewrite Q. now apply Hb, Ih. }
  split; [exact Hs|]. split.
  - destruct Ho as [->|[v [Hv Ev]]]; [now left|]. right. destruct (Hk' v Hv) as [k [Hk ->]]. exists k. split; [exact Hk|]. now rewrite La.
  - intros Q. apply Hi. intros v Hv. destruct (Hk' v Hv) as [k [Hk ->]]. now apply Q.
Qed.

Lemma variation f : forall a, (forall k, Rabs (a + load_at f k) <= 1) -> total (map Rabs f) <= 2 * INR (length f).
Proof.
  unfold load_at. induction f as [|x f IH]; intros a H; [cbn; lra|]. cbn [map total length]. rewrite S_INR.
  assert (I : total (map Rabs f) <= 2 * INR (length f)).
  { apply (IH (a + x)). intros k. specialize (H (S k)). cbn [firstn total] in H. now rewrite Rplus_assoc. }
  pose proof (abs_le _ _ (H 0%nat)) as H0. pose proof (abs_le _ _ (H 1%nat)) as H1. cbn [firstn total] in H0, H1.
  assert (Rabs x <= 2) by (apply Rabs_le; lra). lra.
Qed.
Theorem polynomial_drift fit n_inc r draws n f eps rnd k : fit_correct fit -> (2 <= length draws)%nat -> (1 <= n_inc)%nat ->
  0 <= eps -> (forall x, Rabs (rnd x - x) <= eps * Rabs x) ->
  links_loading fit IncrementList PolynomialLoad n_inc r draws = Ok (ListedLoading n f) ->
  Rabs (load_at (map rnd f) k - load_at f k) <= eps * (2 * INR n_inc).
Proof.
  intros F Hd Hn He Hr H. destruct (polynomial_path fit n_inc r draws F Hd Hn) as [c [s [g [E [_ [_ [_ [_ [B _]]]]]]]]].
  pose proof (load_count _ _ _ _ _ _ _ _ H) as [-> Lf]. rewrite E in H.
  apply (f_equal (fun r => match r with Ok (ListedLoading _ g) => g | _ => [] end)) in H. cbv beta iota in H. subst g.
  eapply Rle_trans; [apply drift; eassumption|]. apply Rmult_le_compat_l; [exact He|]. rewrite <- Lf. apply (variation f 0).
  intros k'. rewrite Rplus_0_l. apply B.
Qed.

(** ** Cases *)
(** Seven increments with one reversal between 1 and -1: ramps of two. *)
Example sym_case fit draws :
  exists f, links_loading fit IncrementList CyclicSym 7 1 draws = Ok (ListedLoading 7 f) /\
    map (load_at f) (seq 0 8) = [0; 1 / 2; 1; 1 / 2; 0; - (1 / 2); -1; -1].
Proof. eexists. split; [reflexivity|]. cbn. repeat (apply f_equal2; [lra|]). reflexivity. Qed.
Example plus_case fit draws :
  exists f, links_loading fit IncrementList CyclicPlus 7 2 draws = Ok (ListedLoading 7 f) /\
    map (load_at f) (seq 0 8) = [0; 1 / 2; 1; 1 / 2; 0; 1 / 2; 1; 1].
Proof. eexists. split; [reflexivity|]. cbn. repeat (apply f_equal2; [lra|]). reflexivity. Qed.
Example too_few fit draws : links_loading fit IncrementList CyclicSym 2 1 draws = Err RuntimeError /\
  links_loading fit IncrementList Proportional 0 1 draws = Err ZeroDivisionError /\ links_loading fit NIncrements CyclicPlus 5 1 draws = Err RuntimeError.
Proof. repeat split. Qed.
(** Two control points: a line to the second draw. *)
Example poly_case fit : fit_correct fit -> exists f,
  links_loading fit IncrementList PolynomialLoad 2 0 [3 / 10; 1 / 2] = Ok (ListedLoading 2 f) /\ load_at f 0 = 0 /\ load_at f 1 = 1 / 4 /\ load_at f 2 = 1 / 2.
Proof.
  intros F. destruct (polynomial_path fit 2 0 [3 / 10; 1 / 2] F ltac:(cbn; lia) ltac:(lia)) as [c [s [f [E [Lc [P0 [Pj [La [B [Hs [Ho Hi]]]]]]]]]]].
  exists f. split; [exact E|]. pose proof (Pj 1%nat ltac:(cbn; lia)) as P1. cbn in P1.
  cbn [length] in Lc. destruct c as [|c0 [|c1 [|? ?]]]; try discriminate Lc.
  rewrite polynomial_horner in P0, P1. cbn [horner] in P0, P1.
  assert (C0 : c0 = 0) by lra. assert (C1 : c1 = 1 / 2) by (replace (1 / 1) with 1 in P1 by field; lra). subst.
  assert (V : forall x, polynomial [0; 1 / 2] x = x / 2) by (intros x; rewrite polynomial_horner; cbn [horner]; field).
  assert (S1 : s = 1).
  { apply Hi. intros k Hk. rewrite V. pose proof (fraction_unit k 2 Hk ltac:(lia)). apply Rabs_le. lra. }
  subst s. repeat split; rewrite La by lia; rewrite V; cbn; lra.
Qed.

Print Assumptions load_count.
Print Assumptions stepped_path.
Print Assumptions stepped_refused.
Print Assumptions even_loading.
Print Assumptions stepped_bounds.
Print Assumptions written_drift.
Print Assumptions written_total_refuted.
Print Assumptions fit_exists.
Print Assumptions polynomial_path.
Print Assumptions polynomial_drift.
