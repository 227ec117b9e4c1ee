(** Theorems about the hardening laws. *)
From Coq Require Import Reals List Arith Bool Lia Lra Psatz.
From Verif Require Import Lib HardeningModel HardeningSpec.
Import ListNotations.
Local Open Scope R_scope.

Lemma rleb_iff x y : rleb x y = true <-> x <= y.
Proof. unfold rleb. destruct (Rle_dec x y); split; intros; auto; discriminate. Qed.
Lemma rleb_false x y : rleb x y = false <-> y < x.
Proof. unfold rleb. destruct (Rle_dec x y); split; intros; auto; try discriminate; lra. Qed.
Lemma rltb_iff x y : rltb x y = true <-> x < y.
Proof. unfold rltb. destruct (Rlt_dec x y); split; intros; auto; discriminate. Qed.
Lemma rltb_false x y : rltb x y = false <-> y <= x.
Proof. unfold rltb. destruct (Rlt_dec x y); split; intros; auto; try discriminate; lra. Qed.
Lemma relu_nonneg x : 0 <= relu x.
Proof. unfold relu. apply Rmax_r. Qed.
Lemma relu_pos x : 0 <= x -> relu x = x.
Proof. intros. unfold relu. apply Rmax_left. lra. Qed.
Lemma relu_neg x : x <= 0 -> relu x = 0.
Proof. intros. unfold relu. apply Rmax_right. lra. Qed.
Lemma relu_lip x y : Rabs (relu x - relu y) <= Rabs (x - y).
Proof.
  unfold relu, Rmax. destruct (Rle_dec x 0), (Rle_dec y 0); unfold Rabs;
  repeat match goal with |- context [Rcase_abs ?a] => destruct (Rcase_abs a) end; lra.
Qed.
Lemma relu_mono x y : x <= y -> relu x <= relu y.
Proof. intros. unfold relu, Rmax. destruct (Rle_dec x 0), (Rle_dec y 0); lra. Qed.


Lemma count_gen x : forall (l : list R) k, (k <= length l)%nat ->
  (forall i, (i < k)%nat -> nth i l 0 <= x) ->
  (forall i, (k <= i)%nat -> (i < length l)%nat -> x < nth i l 0) ->
  count_ge x l = k.
Proof.
  induction l as [|a t IH]; intros k Hk L U.
  - simpl in Hk. unfold count_ge. simpl. lia.
  - unfold count_ge. simpl. destruct k as [|k].
    + pose proof (U 0%nat ltac:(lia) ltac:(simpl; lia)) as U0. simpl in U0.
      rewrite (proj2 (rleb_false a x) U0). apply (IH 0%nat); [lia|intros; lia|].
      intros i _ Hi. apply (U (S i)); simpl; lia.
    + pose proof (L 0%nat ltac:(lia)) as L0. simpl in L0.
      rewrite (proj2 (rleb_iff a x) L0). simpl. f_equal. apply IH; [simpl in Hk; lia| |].
      * intros i Hi. apply (L (S i)). lia.
      * intros i Hi Hl. apply (U (S i)); simpl; lia.
Qed.

Lemma last_nth (l : list R) : last l 0 = nth (length l - 1) l 0.
Proof.
  induction l as [|a [|b t] IH]; try reflexivity.
  change (last (a :: b :: t) 0) with (last (b :: t) 0). rewrite IH.
  replace (length (a :: b :: t) - 1)%nat with (S (length (b :: t) - 1)) by (simpl; lia). reflexivity.
Qed.

Definition clamp (lo hi x : R) : R := Rmin hi (Rmax lo x).
Lemma clamp_lip lo hi x y : Rabs (clamp lo hi x - clamp lo hi y) <= Rabs (x - y).
Proof.
  unfold clamp. unfold Rmax. destruct (Rle_dec lo x), (Rle_dec lo y); unfold Rmin;
  repeat match goal with |- context [Rle_dec ?a ?b] => destruct (Rle_dec a b) end; unfold Rabs;
  repeat match goal with |- context [Rcase_abs ?a] => destruct (Rcase_abs a) end; lra.
Qed.
Lemma clamp_mono lo hi x y : x <= y -> clamp lo hi x <= clamp lo hi y.
Proof.
  intros. unfold clamp. unfold Rmax. destruct (Rle_dec lo x), (Rle_dec lo y); unfold Rmin;
  repeat match goal with |- context [Rle_dec ?a ?b] => destruct (Rle_dec a b) end; lra.
Qed.
Lemma clamp_below lo hi x : lo <= hi -> x <= lo -> clamp lo hi x = lo.
Proof. intros. unfold clamp. rewrite Rmax_left by lra. apply Rmin_right. lra. Qed.
Lemma clamp_above lo hi x : lo <= hi -> hi <= x -> clamp lo hi x = hi.
Proof. intros. unfold clamp. rewrite Rmax_right by lra. apply Rmin_left. lra. Qed.
Lemma clamp_in lo hi x : lo <= x <= hi -> clamp lo hi x = x.
Proof. intros. unfold clamp. rewrite Rmax_right by lra. apply Rmin_right. lra. Qed.

Lemma pl_unfold pts acc : (2 <= length pts)%nat ->
  piecewise_linear pts acc
  = rbind (torch_interp (relu acc) (map fst pts) (map snd pts) (nth 0 (map snd pts) 0) (last (map snd pts) 0))
      (fun y => Ok (y, Fin (if rltb (relu acc) (nth 0 (map fst pts) 0) then 0
               else if rleb (last (map fst pts) 0) (relu acc) then 0
               else hardening_slope (relu acc) (map fst pts) (map snd pts)))).
Proof. destruct pts; [simpl; lia|reflexivity]. Qed.

Section Points.
  Variable pts : list (R * R).
  Hypothesis N2 : (2 <= length pts)%nat.
  Hypothesis ASC : ascending pts.
  Let A i := fst (nth i pts (0, 0)).
  Let B i := snd (nth i pts (0, 0)).
  Let n := length pts.

  Lemma A_lt i j : (i < j)%nat -> (j < n)%nat -> A i < A j.
  Proof. intros. apply ASC; auto. Qed.
  Lemma A_le i j : (i <= j)%nat -> (j < n)%nat -> A i <= A j.
  Proof.
    intros H1 H2. destruct (Nat.eq_dec i j) as [->|]; [lra|]. left. apply A_lt; lia.
  Qed.
  Lemma nth_A i : nth i (map fst pts) 0 = A i.
  Proof. unfold A. change 0 with (fst (0, 0)) at 1. apply map_nth. Qed.
  Lemma nth_B i : nth i (map snd pts) 0 = B i.
  Proof. unfold B. change 0 with (snd (0, 0)) at 1. apply map_nth. Qed.
  Lemma last_A : last (map fst pts) 0 = A (n - 1).
  Proof. rewrite last_nth, map_length, nth_A. reflexivity. Qed.
  Lemma last_B : last (map snd pts) 0 = B (n - 1).
  Proof. rewrite last_nth, map_length, nth_B. reflexivity. Qed.

  Lemma bracket_in x k : (S k < n)%nat -> A k <= x < A (S k) -> bracket x (map fst pts) = k.
  Proof.
    intros Hk [L U]. unfold bracket. rewrite (count_gen x _ (S k)).
    - rewrite map_length. fold n. lia.
    - rewrite map_length. fold n. lia.
    - intros i Hi. rewrite nth_A. pose proof (A_le i k ltac:(lia) ltac:(lia)). lra.
    - intros i H1 H2. rewrite map_length in H2. fold n in H2. rewrite nth_A.
      pose proof (A_le (S k) i ltac:(lia) ltac:(lia)). lra.
  Qed.
  Lemma bracket_last x : A (n - 1) <= x -> bracket x (map fst pts) = (n - 2)%nat.
  Proof.
    intros L. unfold bracket. rewrite (count_gen x _ n).
    - rewrite map_length. fold n. lia.
    - rewrite map_length. fold n. lia.
    - intros i Hi. rewrite nth_A. pose proof (A_le i (n - 1) ltac:(lia) ltac:(unfold n in *; lia)). lra.
    - intros i H1 H2. rewrite map_length in H2. fold n in H2. lia.
  Qed.

  (** Every strain lies below, inside or above the points. *)
  Lemma locate x m : (m < n)%nat -> A 0 <= x -> x < A m -> exists k, (S k <= m)%nat /\ A k <= x < A (S k).
  Proof.
    induction m as [|m IH]; intros Hm L U; [lra|].
    destruct (Rle_lt_dec (A m) x) as [Q|Q].
    - exists m. split; [lia|lra].
    - destruct IH as (k & Hk & K); [lia|auto|auto|]. exists k. split; [lia|auto].
  Qed.

  (** ** The law returns a point of the curve and the chord slope. *)
  Theorem pl_law_on_curve acc : exists y h,
    piecewise_linear pts acc = Ok (y, Fin h) /\ on_curve pts (relu acc) y /\
    (relu acc <= A 0 \/ A (n - 1) <= relu acc -> h = 0) /\
    (forall k, (S k < n)%nat -> A k <= relu acc < A (S k) -> A 0 < relu acc -> h = chord pts k).
  Proof.
    rewrite (pl_unfold pts acc N2).
    set (x := relu acc). unfold torch_interp. rewrite map_length. fold n.
    destruct (Nat.leb_spec n 1); [unfold n in *; lia|]. cbn [rbind].
    rewrite !nth_A, !nth_B, last_A, last_B.
    eexists. eexists. split; [reflexivity|].
    assert (SG : forall z, 0 < z -> sign (relu z) = 1).
    { intros z Hz. rewrite relu_pos by lra. unfold sign. destruct (Rlt_dec 0 z); lra. }
    assert (SZ : forall z, z <= 0 -> sign (relu z) = 0).
    { intros z Hz. rewrite relu_neg by lra. unfold sign. destruct (Rlt_dec 0 0); lra. }
    split; [|split].
    - destruct (rltb (A (n - 1)) x) eqn:E1.
      { apply rltb_iff in E1. right. left. fold n. unfold A, B in *. split; [lra|auto]. }
      apply rltb_false in E1. destruct (rltb x (A 0)) eqn:E2.
      { apply rltb_iff in E2. left. unfold A, B in *. split; [lra|auto]. }
      apply rltb_false in E2. right. right.
      destruct (Req_dec x (A (n - 1))) as [Q|Q].
      + rewrite (bracket_last x) by lra. exists (n - 2)%nat. fold n.
        assert (D : A (n - 2) < A (S (n - 2))) by (apply A_lt; unfold n in *; lia).
        replace (S (n - 2)) with (n - 1)%nat in * by (unfold n in *; lia). split; [unfold n in *; lia|].
        unfold chord. replace (S (n - 2)) with (n - 1)%nat by (unfold n in *; lia).
        fold (A (n-2)) (A (n-1)) (B (n-1)) (B (n-2)).
        split; [lra|]. field. lra.
      + destruct (locate x (n - 1)) as (k & Hk & K); [unfold n in *; lia|auto|lra|].
        rewrite (bracket_in x k) by (auto; unfold n in *; lia). exists k. fold n. split; [unfold n in *; lia|].
        unfold chord. fold (A k) (A (S k)) (B k) (B (S k)). split; [lra|]. field. lra.
    - intros [H1|H1].
      + destruct (rltb x (A 0)) eqn:E2; auto. apply rltb_false in E2.
        destruct (rleb (A (n - 1)) x); auto. unfold hardening_slope. rewrite !nth_A.
        rewrite (SZ (x - A 0)) by (unfold x in *; lra). ring.
      + destruct (rltb x (A 0)); auto. unfold x in *. rewrite (proj2 (rleb_iff _ _) H1). auto.
    - intros k Hk K P. fold x in K, P.
      destruct (rltb x (A 0)) eqn:E2; [apply rltb_iff in E2; lra|].
      assert (A (S k) <= A (n - 1)) by (apply A_le; unfold n in *; lia).
      destruct (rleb (A (n - 1)) x) eqn:E3; [apply rleb_iff in E3; lra|].
      unfold hardening_slope. rewrite last_A, !nth_A.
      rewrite SG, SG by lra. rewrite (bracket_in x k) by auto. rewrite !nth_B.
      unfold chord. fold (A k) (A (S k)) (B k) (B (S k)). ring.
  Qed.

  (** Closed form used to derive continuity and monotonicity. *)
  Definition hinge (x : R) : R :=
    B 0 + rsum (n - 1) (fun k => chord pts k * (clamp (A k) (A (S k)) x - A k)).

  Lemma chord_step k : (S k < n)%nat -> chord pts k * (A (S k) - A k) = B (S k) - B k.
  Proof.
    intros H. pose proof (A_lt k (S k) ltac:(lia) H) as D. unfold chord. unfold A, B in *. field. lra.
  Qed.

  Lemma hinge_prefix x : forall m, (m <= n - 1)%nat -> (forall i, (i < m)%nat -> A (S i) <= x) ->
    rsum m (fun k => chord pts k * (clamp (A k) (A (S k)) x - A k)) = B m - B 0.
  Proof.
    induction m as [|m IH]; intros Hm L; [simpl; lra|]. cbn [rsum]. rewrite IH by (auto; lia).
    pose proof (A_lt m (S m) ltac:(lia) ltac:(lia)).
    rewrite clamp_above by (try lra; apply L; lia). rewrite chord_step by lia. ring.
  Qed.
  Lemma hinge_seg x k : (S k < n)%nat -> A k <= x <= A (S k) ->
    forall m, (k < m)%nat -> (m <= n - 1)%nat ->
    rsum m (fun k => chord pts k * (clamp (A k) (A (S k)) x - A k))
    = B k - B 0 + chord pts k * (x - A k).
  Proof.
    intros Hk K. induction m as [|m IH]; intros L U; [lia|]. cbn [rsum].
    destruct (Nat.eq_dec k m) as [->|].
    - rewrite hinge_prefix; [|lia|].
      + rewrite clamp_in by lra. ring.
      + intros i Hi. pose proof (A_le (S i) m ltac:(lia) ltac:(lia)). lra.
    - rewrite IH by lia. rewrite clamp_below; [ring| |].
      + left. apply A_lt; lia.
      + pose proof (A_le (S k) m ltac:(lia) ltac:(lia)). lra.
  Qed.

  Lemma on_curve_hinge x y : on_curve pts x y -> y = hinge x.
  Proof.
    intros [[H ->]|[[H ->]|(k & Hk & K & ->)]]; unfold hinge;
    [fold (A 0) in H|fold n in H|fold n in Hk]; fold n; fold (A 0) (B 0).
    - rewrite rsum_zero; [ring|]. intros i Hi. rewrite clamp_below; [ring| |].
      + left. apply A_lt; lia.
      + pose proof (A_le 0 i ltac:(lia) ltac:(lia)). lra.
    - fold (A (n - 1)) in H. fold (B (n - 1)). rewrite hinge_prefix; [ring|lia|].
      intros i Hi. pose proof (A_le (S i) (n - 1) ltac:(lia) ltac:(unfold n in *; lia)). lra.
    - fold (A k) (A (S k)) in K. fold (A k) (B k). rewrite (hinge_seg x k) by (auto; lia). ring.
  Qed.

  Corollary on_curve_unique x y y' : on_curve pts x y -> on_curve pts x y' -> y = y'.
  Proof. intros H H'. rewrite (on_curve_hinge x y H), (on_curve_hinge x y' H'). reflexivity. Qed.

  Definition pl_yield (acc : R) : R :=
    match piecewise_linear pts acc with Ok (y, _) => y | Err _ => 0 end.
  Definition pl_slope (acc : R) : R :=
    match piecewise_linear pts acc with Ok (_, Fin h) => h | _ => 0 end.

  Lemma pl_yield_curve acc : on_curve pts (relu acc) (pl_yield acc).
  Proof.
    destruct (pl_law_on_curve acc) as (y & h & E & C & _). unfold pl_yield. rewrite E. exact C.
  Qed.
  Lemma pl_yield_hinge acc : pl_yield acc = hinge (relu acc).
  Proof. apply on_curve_hinge, pl_yield_curve. Qed.

  (** The points themselves are interpolated. *)
  Theorem pl_interpolates k : (k < n)%nat -> 0 <= A k -> pl_yield (A k) = B k.
  Proof.
    intros Hk P. apply (on_curve_unique (A k)).
    - rewrite <- (relu_pos (A k)) at 1 by auto. apply pl_yield_curve.
    - destruct (Nat.eq_dec (S k) n) as [Q|Q].
      + right. left. fold n. replace (n - 1)%nat with k by lia. unfold A, B. split; [lra|auto].
      + right. right. exists k. fold n. split; [lia|].
        pose proof (A_lt k (S k) ltac:(lia) ltac:(lia)). fold (A k) (A (S k)) (B k). split; [lra|]. ring.
  Qed.

  (** Lipschitz continuity. *)
  Theorem pl_lipschitz : exists L, 0 <= L /\ forall x y, Rabs (pl_yield x - pl_yield y) <= L * Rabs (x - y).
  Proof.
    exists (rsum (n - 1) (fun k => Rabs (chord pts k))). split.
    { apply rsum_nonneg. intros. apply Rabs_pos. }
    intros x y. rewrite !pl_yield_hinge. unfold hinge.
    set (u := relu x). set (w := relu y).
    assert (U : Rabs (u - w) <= Rabs (x - y)) by apply relu_lip.
    replace (B 0 + rsum (n - 1) (fun k => chord pts k * (clamp (A k) (A (S k)) u - A k))
      - (B 0 + rsum (n - 1) (fun k => chord pts k * (clamp (A k) (A (S k)) w - A k))))
      with (rsum (n - 1) (fun k => chord pts k * (clamp (A k) (A (S k)) u - A k)
              - chord pts k * (clamp (A k) (A (S k)) w - A k))) by (rewrite rsum_minus; ring).
    rewrite <- rsum_scal_r. clear - U. induction (n - 1)%nat as [|m IH].
    { simpl. rewrite Rabs_R0. lra. }
    cbn [rsum]. eapply Rle_trans; [apply Rabs_triang|]. apply Rplus_le_compat; [exact IH|].
    replace (chord pts m * (clamp (A m) (A (S m)) u - A m) - chord pts m * (clamp (A m) (A (S m)) w - A m))
      with (chord pts m * (clamp (A m) (A (S m)) u - clamp (A m) (A (S m)) w)) by ring.
    rewrite Rabs_mult. apply Rmult_le_compat_l; [apply Rabs_pos|].
    eapply Rle_trans; [apply clamp_lip|exact U].
  Qed.

  Theorem pl_continuous x : continuity_pt pl_yield x.
  Proof.
    destruct pl_lipschitz as (L & HL & LIP). intros eps He.
    exists (eps / (L + 1)). split; [apply Rdiv_lt_0_compat; lra|].
    intros y [_ D]. unfold dist in *. simpl in *. unfold R_dist in *.
    eapply Rle_lt_trans; [apply LIP|].
    apply Rle_lt_trans with ((L + 1) * Rabs (y - x)).
    { apply Rmult_le_compat_r; [apply Rabs_pos|lra]. }
    apply (Rmult_lt_compat_l (L + 1)) in D; [|lra].
    replace ((L + 1) * (eps / (L + 1))) with eps in D by (field; lra). exact D.
  Qed.

  (** The slope is the derivative away from the points, and vanishes with the
      derivative outside. *)
  Lemma local_linear f x m d : 0 < d ->
    (forall y, Rabs (y - x) < d -> f y = f x + m * (y - x)) -> derivable_pt_lim f x m.
  Proof.
    intros Hd H eps He. exists (mkposreal d Hd). intros h Hh Hlt. simpl in Hlt.
    rewrite (H (x + h)) by (replace (x + h - x) with h by ring; auto).
    replace ((f x + m * (x + h - x) - f x) / h - m) with 0 by (field; auto). rewrite Rabs_R0. auto.
  Qed.

  Theorem pl_slope_is_derivative_partial acc :
    0 < acc -> (forall k, (k < n)%nat -> acc <> A k) ->
    derivable_pt_lim pl_yield acc (pl_slope acc).
  Proof.
    intros P NB.
    destruct (pl_law_on_curve acc) as (y & h & E & C & S0 & S1).
    assert (SL : pl_slope acc = h) by (unfold pl_slope; rewrite E; auto). rewrite SL.
    rewrite relu_pos in * by lra.
    destruct (Rlt_le_dec acc (A 0)) as [L|L].
    - rewrite S0 by (left; lra). apply (local_linear _ _ _ (Rmin acc (A 0 - acc))).
      { apply Rmin_pos; lra. }
      intros z Hz. pose proof (Rmin_l acc (A 0 - acc)). pose proof (Rmin_r acc (A 0 - acc)).
      apply Rabs_def2 in Hz.
      assert (Q : forall t, 0 <= t -> t <= A 0 -> pl_yield t = B 0).
      { intros t T1 T2. apply (on_curve_unique t); [rewrite <- (relu_pos t) at 1 by auto; apply pl_yield_curve|].
        left. auto. }
      rewrite !Q by lra. ring.
    - destruct (Rlt_le_dec acc (A (n - 1))) as [U|U].
      + destruct (locate acc (n - 1)) as (k & Hk & K); [unfold n in *; lia|auto|auto|].
        assert (acc <> A k) by (apply NB; lia).
        assert (A 0 < acc) by (assert (acc <> A 0) by (apply NB; unfold n in *; lia); lra).
        rewrite (S1 k) by (auto; lia).
        apply (local_linear _ _ _ (Rmin acc (Rmin (acc - A k) (A (S k) - acc)))).
        { repeat apply Rmin_pos; lra. }
        intros z Hz.
        pose proof (Rmin_l acc (Rmin (acc - A k) (A (S k) - acc))).
        pose proof (Rmin_r acc (Rmin (acc - A k) (A (S k) - acc))).
        pose proof (Rmin_l (acc - A k) (A (S k) - acc)). pose proof (Rmin_r (acc - A k) (A (S k) - acc)).
        apply Rabs_def2 in Hz.
        assert (Q : forall t, 0 <= t -> A k <= t <= A (S k) -> pl_yield t = B k + chord pts k * (t - A k)).
        { intros t T1 T2. apply (on_curve_unique t); [rewrite <- (relu_pos t) at 1 by auto; apply pl_yield_curve|].
          right. right. exists k. split; [fold n; lia|auto]. }
        rewrite !Q by lra. ring.
      + assert (acc <> A (n - 1)) by (apply NB; unfold n in *; lia).
        rewrite S0 by (right; lra). apply (local_linear _ _ _ (Rmin acc (acc - A (n - 1)))).
        { apply Rmin_pos; lra. }
        intros z Hz. pose proof (Rmin_l acc (acc - A (n - 1))). pose proof (Rmin_r acc (acc - A (n - 1))).
        apply Rabs_def2 in Hz.
        assert (Q : forall t, 0 <= t -> A (n - 1) <= t -> pl_yield t = B (n - 1)).
        { intros t T1 T2. apply (on_curve_unique t); [rewrite <- (relu_pos t) at 1 by auto; apply pl_yield_curve|].
          right. left. auto. }
        rewrite !Q by lra. ring.
  Qed.

  (** At interior points the slope is that of the segment to the right. *)
  Theorem pl_slope_at_points k : (0 < k)%nat -> (S k < n)%nat -> 0 <= A k -> pl_slope (A k) = chord pts k.
  Proof.
    intros K0 K1 P. destruct (pl_law_on_curve (A k)) as (y & h & E & C & S0 & S1).
    unfold pl_slope. rewrite E. rewrite relu_pos in * by auto. apply S1; auto.
    - pose proof (A_lt k (S k) ltac:(lia) K1). lra.
    - apply A_lt; lia.
  Qed.

  (** At the first point the reported slope is zero, whatever the first
      segment. *)
  Theorem pl_slope_first_point : 0 <= A 0 -> pl_slope (A 0) = 0.
  Proof.
    intros P. destruct (pl_law_on_curve (A 0)) as (y & h & E & C & S0 & S1).
    unfold pl_slope. rewrite E. rewrite relu_pos in * by auto. apply S0. left. lra.
  Qed.

  (** Non-decreasing points give a non-decreasing law. *)
  Theorem pl_monotone : nondecreasing pts -> forall x y, x <= y -> pl_yield x <= pl_yield y.
  Proof.
    intros ND x y H. rewrite !pl_yield_hinge. unfold hinge. apply Rplus_le_compat_l.
    apply rsum_le. intros i Hi. apply Rmult_le_compat_l.
    - unfold chord. pose proof (A_lt i (S i) ltac:(lia) ltac:(lia)) as D. unfold A in D.
      apply Rmult_le_pos; [pose proof (ND i ltac:(fold n; lia)); lra|].
      left. apply Rinv_0_lt_compat. lra.
    - apply Rplus_le_compat_r. apply clamp_mono, relu_mono, H.
  Qed.

  (** The first yield stress bounds the law from below, the last from above. *)
  Theorem pl_bounds : nondecreasing pts -> forall x, B 0 <= pl_yield x <= B (n - 1).
  Proof.
    intros ND x. rewrite pl_yield_hinge.
    assert (M : forall z w, z <= w -> hinge z <= hinge w).
    { intros z w H. unfold hinge. apply Rplus_le_compat_l. apply rsum_le. intros i Hi. apply Rmult_le_compat_l.
      - unfold chord. pose proof (A_lt i (S i) ltac:(lia) ltac:(lia)) as D. unfold A in D.
        apply Rmult_le_pos; [pose proof (ND i ltac:(fold n; lia)); lra|].
        left. apply Rinv_0_lt_compat. lra.
      - apply Rplus_le_compat_r. apply clamp_mono, H. }
    assert (L : hinge (Rmin (relu x) (A 0)) = B 0).
    { symmetry. apply on_curve_hinge. left. split; [apply Rmin_r|reflexivity]. }
    assert (U : hinge (Rmax (relu x) (A (n - 1))) = B (n - 1)).
    { symmetry. apply on_curve_hinge. right. left. split; [apply Rmax_r|reflexivity]. }
    split.
    - rewrite <- L. apply M, Rmin_l.
    - rewrite <- U. apply M, Rmax_l.
  Qed.
End Points.

(** One point (or none) is rejected. *)
Theorem pl_too_few_points pts acc : (length pts <= 1)%nat -> piecewise_linear pts acc = Err IndexError.
Proof. destruct pts as [|p [|q t]]; simpl; intros H; try reflexivity. lia. Qed.

(** The slope at the first point is not the (right) derivative. *)
Theorem pl_first_slope_refuted : exists pts,
  ascending pts /\ (2 <= length pts)%nat /\
  (forall x, 0 <= x <= 1 -> pl_yield pts x = 2 + 3 * x) /\ pl_slope pts 0 = 0.
Proof.
  exists [(0, 2); (1, 5)].
  assert (ASC : ascending [(0, 2); (1, 5)]).
  { intros i j H1 H2. simpl in H2. destruct j as [|[|j]]; try lia. destruct i; [|lia]. simpl. lra. }
  assert (N2 : (2 <= length ([(0, 2); (1, 5)]%R : list (R * R)))%nat) by (simpl; lia).
  split; auto. split; auto. split.
  - intros x Hx. apply (on_curve_unique _ N2 ASC x).
    + rewrite <- (relu_pos x) at 1 by lra. apply pl_yield_curve; auto.
    + right. right. exists 0%nat. unfold chord. simpl. split; [lia|]. split; [lra|]. field.
  - apply pl_slope_first_point with (pts := [(0, 2); (1, 5)]); auto. simpl. lra.
Qed.

(** ** Linear hardening *)
Definition law_yield (f : R -> option (R * slope)) (acc : R) : R :=
  match f acc with Some (y, _) => y | None => 0 end.

Theorem linear_value s0 a acc : 0 <= acc -> linear_law s0 a acc = Some (s0 + a * acc, Fin a).
Proof. intros H. unfold linear_law. rewrite relu_pos; auto. Qed.

Theorem linear_slope_is_derivative_partial s0 a acc : 0 < acc ->
  exists y, linear_law s0 a acc = Some (y, Fin a) /\ derivable_pt_lim (law_yield (linear_law s0 a)) acc a.
Proof.
  intros H. eexists. split; [reflexivity|]. apply (local_linear _ _ _ acc); auto.
  intros y Hy. apply Rabs_def2 in Hy. unfold law_yield, linear_law. rewrite !relu_pos by lra. ring.
Qed.

(** The linear law is constant at negative strains but still reports a slope. *)
Theorem linear_negative_slope_refuted : exists s0 a acc, acc < 0 /\
  linear_law s0 a acc = Some (s0, Fin a) /\ a <> 0 /\
  derivable_pt_lim (law_yield (linear_law s0 a)) acc 0.
Proof.
  exists 1, 2, (-1). split; [lra|]. split.
  { unfold linear_law. rewrite relu_neg by lra. rewrite Rmult_0_r, Rplus_0_r. reflexivity. }
  split; [lra|]. apply (local_linear _ _ _ 1); [lra|].
  intros y Hy. apply Rabs_def2 in Hy. unfold law_yield, linear_law. rewrite !relu_neg by lra. ring.
Qed.

(** ** Nadai-Ludwik hardening *)
Lemma tpow_pos x b : 0 < x -> tpow x b = EFin (Rpower x b).
Proof. intros H. unfold tpow. destruct (Rlt_dec 0 x); [auto|contradiction]. Qed.

Theorem nadai_value s0 a b ep0 acc : 0 <= acc -> 0 < acc + 2 * ep0 ->
  nadai_ludwik s0 a b ep0 acc
  = Some (s0 + a * Rpower (acc + 2 * ep0) b, Fin (a * b * Rpower (acc + 2 * ep0) (b - 1))).
Proof.
  intros H P. unfold nadai_ludwik. rewrite relu_pos by auto.
  replace (acc + ep0 + ep0) with (acc + 2 * ep0) by ring. rewrite !tpow_pos by auto. reflexivity.
Qed.

Theorem nadai_slope_is_derivative_partial s0 a b ep0 acc : 0 < acc -> 0 <= ep0 ->
  exists y h, nadai_ludwik s0 a b ep0 acc = Some (y, Fin h) /\
  derivable_pt_lim (law_yield (nadai_ludwik s0 a b ep0)) acc h.
Proof.
  intros H P. eexists. eexists. split; [apply nadai_value; lra|].
  assert (D : derivable_pt_lim (fun x => s0 + a * Rpower (x + 2 * ep0) b) acc
            (0 + a * (b * Rpower (acc + 2 * ep0) (b - 1) * (1 + 0)))).
  { apply (derivable_pt_lim_plus (fun _ => s0) (fun x => a * Rpower (x + 2 * ep0) b)).
    { apply derivable_pt_lim_const. }
    apply (derivable_pt_lim_scal (fun x => Rpower (x + 2 * ep0) b)).
    apply (derivable_pt_lim_comp (fun x => x + 2 * ep0) (fun x => Rpower x b)).
    - apply (derivable_pt_lim_plus (fun x => x) (fun _ => 2 * ep0)).
      + apply derivable_pt_lim_id.
      + apply derivable_pt_lim_const.
    - apply derivable_pt_lim_power. lra. }
  replace (0 + a * (b * Rpower (acc + 2 * ep0) (b - 1) * (1 + 0)))
    with (a * b * Rpower (acc + 2 * ep0) (b - 1)) in D by ring.
  intros eps He. destruct (D eps He) as (d & Hd).
  assert (M : 0 < Rmin d acc) by (apply Rmin_pos; [apply cond_pos|auto]).
  exists (mkposreal _ M). intros h Hh Hlt. simpl in Hlt.
  pose proof (Rmin_l d acc). pose proof (Rmin_r d acc).
  assert (Hb : - acc < h) by (apply Rabs_def2 in Hlt; lra).
  specialize (Hd h Hh ltac:(lra)). unfold law_yield. rewrite !nadai_value by lra. exact Hd.
Qed.

(** The documented formula adds the offset ep0 once: the law does not. *)
Theorem nadai_offset_refuted : exists s0 a b ep0 acc, 0 <= acc /\ 0 < ep0 /\
  exists y h, nadai_ludwik s0 a b ep0 acc = Some (y, h) /\ y <> s0 + a * Rpower (ep0 + acc) b.
Proof.
  exists 1, 1, 1, 1, 1. split; [lra|]. split; [lra|]. eexists. eexists.
  split; [apply nadai_value; lra|]. rewrite !Rpower_1 by lra. lra.
Qed.

(** Without offset the slope of an unloaded material is infinite. *)
Theorem nadai_initial_slope_infinite s0 a b : 0 < b < 1 -> a <> 0 ->
  nadai_ludwik s0 a b 0 0 = Some (s0, Infinite).
Proof.
  intros Hb Ha. unfold nadai_ludwik. rewrite relu_pos by lra. rewrite !Rplus_0_r. unfold tpow.
  destruct (Rlt_dec 0 0); [lra|]. destruct (Req_EM_T 0 0); [|lra].
  destruct (Rlt_dec 0 b); [|lra]. destruct (Rlt_dec 0 (b - 1)); [lra|].
  destruct (Req_EM_T (b - 1) 0); [lra|]. rewrite Rmult_0_r, Rplus_0_r.
  destruct (Req_EM_T (a * b) 0) as [E|E]; auto. exfalso.
  apply Rmult_integral in E. destruct E; lra.
Qed.

(** Monotone in the plastic strain for non-negative parameters. *)
Theorem nadai_monotone s0 a b ep0 x y : 0 <= a -> 0 < b -> 0 < ep0 -> 0 <= x <= y ->
  law_yield (nadai_ludwik s0 a b ep0) x <= law_yield (nadai_ludwik s0 a b ep0) y.
Proof.
  intros Ha Hb He H. unfold law_yield. rewrite !nadai_value by lra.
  apply Rplus_le_compat_l, Rmult_le_compat_l; auto. apply Rle_Rpower_l; lra.
Qed.

(** ** Selection *)
Theorem unknown_law_rejected : get_hardening_law HOther = Err RuntimeError.
Proof. reflexivity. Qed.

Theorem law_selection n f : get_hardening_law n = Ok f ->
  match n with
  | HPiecewiseLinear => forall pts acc, f (PPoints pts) acc = rbind (piecewise_linear pts acc) (fun r => Ok (Some r))
  | HLinear => forall s0 a acc, f (PLin s0 a) acc = Ok (linear_law s0 a acc)
  | HNadaiLudwik => forall s0 a b ep0 acc, f (PNadai s0 a b ep0) acc = Ok (nadai_ludwik s0 a b ep0 acc)
  | HOther => False
  end.
Proof. destruct n; intros H; inversion H; reflexivity. Qed.

(** ** Concrete cases *)
Definition ex_pts : list (R * R) := [(0, 2); (1, 5); (3, 6)].
Lemma ex_pts_ascending : ascending ex_pts.
Proof.
  intros i j H1 H2. simpl in H2. destruct j as [|[|[|j]]]; try lia;
  destruct i as [|[|i]]; try lia; simpl; lra.
Qed.
Example ex_pl_values : pl_yield ex_pts 1 = 5 /\ pl_yield ex_pts 2 = 11/2 /\ pl_yield ex_pts 9 = 6
  /\ pl_slope ex_pts 2 = 1/2 /\ pl_slope ex_pts 1 = 1/2.
Proof.
  assert (N2 : (2 <= length ex_pts)%nat) by (simpl; lia). pose proof ex_pts_ascending as ASC.
  split; [|split; [|split; [|split]]].
  - apply (pl_interpolates ex_pts N2 ASC 1); simpl; [lia|lra].
  - apply (on_curve_unique _ N2 ASC 2).
    + rewrite <- (relu_pos 2) at 1 by lra. apply pl_yield_curve; auto.
    + right. right. exists 1%nat. unfold chord. simpl. split; [lia|]. split; [lra|]. field.
  - apply (on_curve_unique _ N2 ASC 9).
    + rewrite <- (relu_pos 9) at 1 by lra. apply pl_yield_curve; auto.
    + right. left. simpl. split; [lra|auto].
  - destruct (pl_law_on_curve ex_pts N2 ASC 2) as (y & h & E & _ & _ & S1).
    unfold pl_slope. rewrite E. rewrite relu_pos in S1 by lra.
    rewrite (S1 1%nat); [unfold chord; simpl; field|simpl; lia|simpl; lra|simpl; lra].
  - change 1 with (fst (nth 1 ex_pts (0, 0))) at 1. rewrite (pl_slope_at_points ex_pts N2 ASC 1); [unfold chord; simpl; field|lia|simpl; lia|simpl; lra].
Qed.
Example ex_nadai : nadai_ludwik 1 2 2 1 3 = Some (1 + 2 * Rpower (3 + 2 * 1) 2, Fin (2 * 2 * Rpower (3 + 2 * 1) (2 - 1))).
Proof. apply nadai_value; lra. Qed.
