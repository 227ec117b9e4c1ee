(** Strain paths: cycles, bounds and prescribed increments. *)
From Coq Require Import Reals List Arith Bool Lia Lra.
From Verif Require Import Lib HardeningModel HardeningProps StrainPathModel.
Import ListNotations.
Local Open Scope R_scope.

(** ** Cycles *)
(** the position on the forward path at time t: a triangle wave *)
Definition wave (m t : nat) : nat := let k := (t mod (2 * m))%nat in if (k <=? m)%nat then k else (2 * m - k)%nat.

Section Cycles.
  Context {A : Type} (d : A).
  Lemma more_cycles_eq : forall k (f b path : list A), more_cycles f b k path = path ++ concat (repeat (f ++ b) k).
  Proof.
    induction k as [|k IH]; intros f b path; cbn; [now rewrite app_nil_r|]. rewrite IH. now rewrite <- !app_assoc.
  Qed.
  Lemma nth_cycles : forall c (l : list A) t, (t < c * length l)%nat -> nth t (concat (repeat l c)) d = nth (t mod length l) l d.
  Proof.
    induction c as [|c IH]; intros l t Ht; cbn in Ht; [lia|]. cbn [repeat concat].
    destruct (Nat.lt_ge_cases t (length l)) as [L|L].
    - rewrite app_nth1 by exact L. now rewrite Nat.mod_small.
    - rewrite app_nth2 by exact L. rewrite IH by lia.
      replace (t mod length l)%nat with ((t - length l) mod length l)%nat; [reflexivity|].
      replace t with ((t - length l) + 1 * length l)%nat at 2 by lia. rewrite Nat.mod_add by lia. reflexivity.
  Qed.
  Lemma removelast_len : forall l : list A, length (removelast l) = (length l - 1)%nat.
  Proof. induction l as [|x [|y t] IH]; cbn in *; [reflexivity|reflexivity|]. rewrite IH. lia. Qed.
  Lemma removelast_nth : forall (l : list A) i, (i < length l - 1)%nat -> nth i (removelast l) d = nth i l d.
  Proof.
    induction l as [|x [|y t] IH]; intros i Hi; cbn in Hi; [lia|lia|]. destruct i as [|i]; [reflexivity|].
    cbn [removelast nth]. apply (IH i). cbn. lia.
  Qed.
  Lemma backward_len : forall f : list A, length (backward f) = (length f - 2)%nat.
  Proof.
    intros f. unfold backward. rewrite rev_length.
    assert (E : length (tl (removelast f)) = (length (removelast f) - 1)%nat) by (destruct (removelast f); cbn; lia).
    rewrite E, removelast_len. lia.
  Qed.
  Lemma cycle_nth : forall (f : list A) k, (2 <= length f)%nat -> (k < 2 * (length f - 1))%nat ->
    nth k (f ++ backward f) d = nth (if (k <=? length f - 1)%nat then k else 2 * (length f - 1) - k)%nat f d.
  Proof.
    intros f k Hf Hk. destruct (k <=? length f - 1)%nat eqn:E.
    - apply Nat.leb_le in E. apply app_nth1. lia.
    - apply Nat.leb_gt in E. rewrite app_nth2 by lia.
      assert (Ht : forall (l : list A) j, nth j (tl l) d = nth (S j) l d) by (intros [|x l] j; cbn; [now destruct j|reflexivity]).
      assert (El : length (tl (removelast f)) = (length f - 2)%nat).
      { assert (E' : length (tl (removelast f)) = (length (removelast f) - 1)%nat) by (destruct (removelast f); cbn; lia).
        rewrite E', removelast_len. lia. }
      unfold backward. rewrite rev_nth by lia. rewrite El, Ht, removelast_nth by lia. f_equal. lia.
  Qed.

  (** C36: the exact shape of a cyclic path *)
  Theorem cyclic_path_shape : forall n_time n_cycle (f : list A), (0 < n_cycle)%nat -> (2 * n_cycle + 1 <= n_time)%nat ->
    length f = n_forward n_time n_cycle ->
    let m := (length f - 1)%nat in
    length (cyclic n_time n_cycle f) = n_time /\
    forall t, (t < n_time)%nat -> nth t (cyclic n_time n_cycle f) d =
      if (t <? 2 * n_cycle * m)%nat then nth (wave m t) f d else nth 0 f d.
  Proof.
    intros n c f Hc Hn Hf m.
    assert (Hm : m = ((n - 1) / (2 * c))%nat) by (unfold m; rewrite Hf; unfold n_forward; lia).
    assert (Hm1 : (1 <= m)%nat) by (rewrite Hm; apply Nat.div_le_lower_bound; lia).
    assert (Hmn : (2 * c * m <= n - 1)%nat) by (rewrite Hm; apply Nat.mul_div_le; lia).
    assert (Lf : (2 <= length f)%nat) by (unfold m in Hm1; lia).
    assert (Ex : exists init f', f = init :: f') by (destruct f; [cbn in Lf; lia|eauto]). destruct Ex as [init [f' Ef]].
    assert (Lc : length (f ++ backward f) = (2 * m)%nat) by (rewrite app_length, backward_len; unfold m; lia).
    set (body := concat (repeat (f ++ backward f) c)).
    assert (Lb : length body = (2 * c * m)%nat).
    { unfold body. clear - Lc. induction c as [|c IH]; [reflexivity|]. cbn [repeat concat]. rewrite app_length, IH, Lc. lia. }
    assert (Ebody : more_cycles f (backward f) (c - 1) (f ++ backward f) = body).
    { rewrite more_cycles_eq. unfold body. destruct c as [|c]; [lia|]. cbn [repeat concat]. now rewrite Nat.sub_succ, Nat.sub_0_r. }
    assert (Ecyc : cyclic n c f = (body ++ [init]) ++ repeat init (n - length (body ++ [init]))).
    { unfold cyclic. rewrite Ebody. now rewrite Ef. }
    assert (Lbi : length (body ++ [init]) = (2 * c * m + 1)%nat) by (rewrite app_length, Lb; reflexivity).
    assert (H0 : nth 0 f d = init) by (rewrite Ef; reflexivity).
    split.
    - rewrite Ecyc, app_length, repeat_length, Lbi. lia.
    - intros t Ht. rewrite Ecyc. destruct (t <? 2 * c * m)%nat eqn:E.
      + apply Nat.ltb_lt in E. rewrite app_nth1 by lia. rewrite app_nth1 by lia.
        unfold body. rewrite nth_cycles by (rewrite Lc; lia). rewrite Lc.
        rewrite cycle_nth; [reflexivity|exact Lf|]. fold m. apply Nat.mod_upper_bound. lia.
      + apply Nat.ltb_ge in E. rewrite H0. destruct (Nat.eq_dec t (2 * c * m)) as [->|Hne].
        * rewrite app_nth1 by lia. rewrite app_nth2 by lia. rewrite Lb, Nat.sub_diag. reflexivity.
        * rewrite app_nth2 by lia.
          assert (Hrep : forall k i, (i < k)%nat -> nth i (repeat init k) d = init).
          { clear. induction k as [|k IH]; intros i Hi; [lia|]. destruct i; [reflexivity|]. cbn. apply IH. lia. }
          apply Hrep. lia.
  Qed.

  (** C36: start, end, retracing and repetition *)
  Theorem cyclic_path_structure : forall n_time n_cycle (f : list A), (0 < n_cycle)%nat -> (2 * n_cycle + 1 <= n_time)%nat ->
    length f = n_forward n_time n_cycle ->
    let m := (length f - 1)%nat in
    let p := cyclic n_time n_cycle f in
    (1 <= m)%nat /\ length p = n_time /\ nth 0 p d = nth 0 f d /\ nth (n_time - 1) p d = nth 0 f d /\
    (forall t, (t <= m)%nat -> nth t p d = nth t f d) /\
    (forall j k, (j < n_cycle)%nat -> (k <= m)%nat -> nth (2 * m * j + (2 * m - k)) p d = nth (2 * m * j + k) p d) /\
    (forall t, (t + 2 * m <= 2 * n_cycle * m)%nat -> nth (t + 2 * m) p d = nth t p d).
  Proof.
    intros n c f Hc Hn Hf m p. destruct (cyclic_path_shape n c f Hc Hn Hf) as [L S]. fold m in S. fold p in L, S.
    assert (Hm : m = ((n - 1) / (2 * c))%nat) by (unfold m; rewrite Hf; unfold n_forward; lia).
    assert (Hm1 : (1 <= m)%nat) by (rewrite Hm; apply Nat.div_le_lower_bound; lia).
    assert (Hmn : (2 * c * m <= n - 1)%nat) by (rewrite Hm; apply Nat.mul_div_le; lia).
    (* values up to and including the end of the last cycle follow the wave *)
    assert (S' : forall t, (t <= 2 * c * m)%nat -> nth t p d = nth (wave m t) f d).
    { intros t Ht. rewrite S by lia. destruct (t <? 2 * c * m)%nat eqn:E; [reflexivity|]. apply Nat.ltb_ge in E.
      replace t with (2 * c * m)%nat by lia. unfold wave. replace (2 * c * m)%nat with (c * (2 * m))%nat by lia.
      rewrite Nat.mod_mul by lia. reflexivity. }
    split; [exact Hm1|]. split; [exact L|]. split; [|split; [|split; [|split]]].
    - rewrite S' by lia. unfold wave. rewrite Nat.mod_small by lia. reflexivity.
    - rewrite S by lia. destruct (n - 1 <? 2 * c * m)%nat eqn:E; [|reflexivity]. apply Nat.ltb_lt in E. lia.
    - intros t Ht. assert (t <= 2 * c * m)%nat by nia. rewrite S' by lia. unfold wave. rewrite Nat.mod_small by lia.
      rewrite (proj2 (Nat.leb_le t m)) by lia. reflexivity.
    - intros j k Hj Hk. assert (2 * m * j + 2 * m <= 2 * c * m)%nat by nia. rewrite !S' by lia. f_equal. unfold wave.
      rewrite !(Nat.add_comm (2 * m * j)), !(Nat.mul_comm (2 * m) j), !Nat.mod_add by lia.
      rewrite (Nat.mod_small k) by lia. rewrite (proj2 (Nat.leb_le k m)) by lia.
      destruct (Nat.eq_dec k 0) as [->|Hk0].
      + rewrite Nat.sub_0_r, Nat.mod_same by lia. reflexivity.
      + rewrite (Nat.mod_small (2 * m - k)) by lia. destruct (2 * m - k <=? m)%nat eqn:E; [apply Nat.leb_le in E|]; lia.
    - intros t Ht. rewrite !S' by lia. f_equal. unfold wave. replace (t + 2 * m)%nat with (t + 1 * (2 * m))%nat by lia.
      rewrite Nat.mod_add by lia. reflexivity.
  Qed.

  (** C36: too few points are rejected, and nothing else *)
  Theorem generate_fails_iff : forall n_time n_cycle (fwd : nat -> list A),
    (exists e, generate n_time n_cycle fwd = Err e) <-> (0 < n_cycle)%nat /\ (n_time < 2 * n_cycle + 1)%nat.
  Proof.
    intros. unfold generate. destruct (0 <? n_cycle)%nat eqn:E1.
    - apply Nat.ltb_lt in E1. destruct (n_time <? 2 * n_cycle + 1)%nat eqn:E2.
      + apply Nat.ltb_lt in E2. split; [auto|]. intros _. eauto.
      + apply Nat.ltb_ge in E2. split; [intros [e H]; discriminate|]. lia.
    - apply Nat.ltb_ge in E1. split; [intros [e H]; discriminate|]. lia.
  Qed.
  Theorem generate_length : forall n_time n_cycle (fwd : nat -> list A) p, (forall n, length (fwd n) = n) ->
    generate n_time n_cycle fwd = Ok p -> length p = n_time.
  Proof.
    intros n c fwd p Hl H. unfold generate in H. destruct (0 <? c)%nat eqn:E1; [|injection H as <-; apply Hl].
    apply Nat.ltb_lt in E1. destruct (n <? 2 * c + 1)%nat eqn:E2; [discriminate|]. apply Nat.ltb_ge in E2. injection H as <-.
    apply cyclic_path_shape; [exact E1|exact E2|apply Hl].
  Qed.
End Cycles.
Lemma backward_in : forall {A} (f : list A) v, In v (backward f) -> In v f.
Proof.
  intros A f v H. unfold backward in H. apply in_rev in H.
  assert (Ht : forall l : list A, In v (tl l) -> In v l) by (intros [|x l] H'; [exact H'|now right]). apply Ht in H. clear Ht.
  revert H. induction f as [|x [|y t] IH]; cbn; [tauto|tauto|]. intros [->|H]; [auto|]. right. now apply IH.
Qed.
Theorem cyclic_subset : forall {A} n_time n_cycle (f : list A) v, In v (cyclic n_time n_cycle f) -> In v f.
Proof.
  intros A n c f v H. destruct f as [|init f']; [exact H|]. unfold cyclic in H. set (f := init :: f') in *.
  assert (Hi : In init f) by now left.
  apply in_app_or in H as [H|H]; [|apply repeat_spec in H; now subst v].
  apply in_app_or in H as [H|[<-|[]]]; [|exact Hi]. rewrite more_cycles_eq in H.
  assert (Hfb : In v (f ++ backward f) -> In v f) by (intros H'; apply in_app_or in H' as [H'|H']; [exact H'|now apply backward_in]).
  apply in_app_or in H as [H|H]; [now apply Hfb|].
  induction (c - 1)%nat as [|k IH]; [destruct H|]. cbn [repeat concat] in H. apply in_app_or in H as [H|H]; auto.
Qed.
Example cyclic_case : cyclic 12 2 [0; 1; 2]%nat = [0; 1; 2; 1; 0; 1; 2; 1; 0; 0; 0; 0]%nat.
Proof. reflexivity. Qed.

(** ** Bounds *)
Lemma linspace_nth : forall a b n i, (i < n)%nat -> nth i (linspace a b n) 0 = a + INR i * ((b - a) / INR (n - 1)).
Proof.
  intros a b n i Hi. unfold linspace.
  rewrite (nth_indep _ 0 (a + INR 0 * ((b - a) / INR (n - 1)))) by (rewrite map_length, seq_length; exact Hi).
  rewrite (map_nth (fun i => a + INR i * ((b - a) / INR (n - 1)))). now rewrite seq_nth.
Qed.
Lemma linspace_len : forall a b n, length (linspace a b n) = n.
Proof. intros. unfold linspace. now rewrite map_length, seq_length. Qed.
Lemma isclose_same : forall l, isclose l l = true.
Proof.
  intros. unfold isclose. apply rleb_iff. replace (l - l) with 0 by ring. rewrite Rabs_R0. pose proof (Rabs_pos l). lra.
Qed.

(** C37: a component that is not constant runs linearly from zero to its final
    value *)
Theorem proportional_linear : forall l u x n i, isclose l u = false -> (i < n)%nat ->
  nth i (proportional_comp l u x n) 0 = INR i / INR (n - 1) * (if (n =? 1)%nat then 0 else denormalise l u x).
Proof.
  intros l u x n i Hc Hi. unfold proportional_comp. rewrite Hc.
  assert (Hlu : l <> u) by (intros ->; rewrite isclose_same in Hc; discriminate).
  rewrite (nth_indep _ 0 (denormalise l u 0)) by (rewrite map_length, linspace_len; exact Hi).
  rewrite map_nth, linspace_nth by exact Hi. destruct (n =? 1)%nat eqn:E.
  - apply Nat.eqb_eq in E. subst n. replace i with 0%nat by lia. unfold denormalise. cbn [INR Nat.sub].
    rewrite Rmult_0_l, Rmult_0_r, Rplus_0_r. field. lra.
  - apply Nat.eqb_neq in E. unfold denormalise. field. split; [|lra]. apply not_0_INR. lia.
Qed.
(** C37: within the bounds when they enclose zero *)
Theorem proportional_within_bounds_partial : forall l u x n v, l <= 0 <= u -> -1 <= x <= 1 ->
  In v (proportional_comp l u x n) -> l <= v <= u.
Proof.
  intros l u x n v Hlu Hx Hv. destruct (In_nth _ _ 0 Hv) as [i [Hi <-]].
  destruct (isclose l u) eqn:Ec.
  - unfold proportional_comp in *. rewrite Ec in *. rewrite linspace_len in Hi. rewrite linspace_nth by exact Hi.
    replace (l - l) with 0 by ring. unfold Rdiv. rewrite Rmult_0_l, Rmult_0_r. lra.
  - assert (Hin : (i < n)%nat) by (unfold proportional_comp in Hi; rewrite Ec, map_length, linspace_len in Hi; exact Hi).
    rewrite proportional_linear by assumption. destruct (n =? 1)%nat eqn:E; [lra|]. apply Nat.eqb_neq in E.
    assert (Hs : 0 <= INR i / INR (n - 1) <= 1).
    { assert (0 < INR (n - 1)) by (apply lt_0_INR; lia). assert (INR i <= INR (n - 1)) by (apply le_INR; lia).
      pose proof (pos_INR i). split; [apply Rmult_le_pos; [lra|left; now apply Rinv_0_lt_compat]|].
      apply (Rmult_le_reg_r (INR (n - 1))); [lra|]. unfold Rdiv. rewrite Rmult_assoc, Rinv_l by lra. lra. }
    assert (Hd : l <= denormalise l u x <= u) by (unfold denormalise; nra).
    set (s := INR i / INR (n - 1)) in *. set (e := denormalise l u x) in *. nra.
Qed.
Theorem proportional_starts_at_zero : forall l u x n, isclose l u = false -> (0 < n)%nat -> nth 0 (proportional_comp l u x n) 0 = 0.
Proof. intros. rewrite proportional_linear by assumption. cbn [INR]. unfold Rdiv. ring. Qed.
(** C37, counterexample: bounds that exclude zero strain are violated by the start *)
Theorem proportional_out_of_bounds_refuted : exists l u x n v, l <= u /\ -1 <= x <= 1 /\ In v (proportional_comp l u x n) /\ v < l.
Proof.
  exists 1, 2, 0, 2%nat, 0. split; [lra|]. split; [lra|].
  assert (Hc : isclose 1 2 = false).
  { unfold isclose. apply rleb_false. replace (1 - 2) with (- (1)) by ring. rewrite Rabs_Ropp, Rabs_R1, (Rabs_pos_eq 2); lra. }
  split; [|lra]. rewrite <- (proportional_starts_at_zero 1 2 0 2 Hc ltac:(lia)) at 1. apply nth_In.
  unfold proportional_comp. rewrite Hc, map_length, linspace_len. lia.
Qed.

Lemma rmin_l_le : forall d h v, In v h -> rmin_l d h <= v.
Proof.
  intros d h v. induction h as [|x t IH]; [intros []|]. intros [->|H]; unfold rmin_l in *; cbn.
  - apply Rmin_l.
  - eapply Rle_trans; [apply Rmin_r|auto].
Qed.
Lemma rmax_l_ge : forall d h v, In v h -> v <= rmax_l d h.
Proof.
  intros d h v. induction h as [|x t IH]; [intros []|]. intros [->|H]; unfold rmax_l in *; cbn.
  - apply Rmax_l.
  - eapply Rle_trans; [apply (IH H)|apply Rmax_r].
Qed.
Lemma rmin_l_in : forall d t, In (rmin_l d (d :: t)) (d :: t).
Proof.
  assert (G : forall d t, rmin_l d t = d \/ In (rmin_l d t) t).
  { intros d t. induction t as [|x t IH]; [now left|]. unfold rmin_l in *. cbn.
    apply (Rmin_case x (fold_right Rmin d t) (fun r => r = d \/ x = r \/ In r t)); [auto|tauto]. }
  intros d t. destruct (G d (d :: t)) as [-> | H]; [now left|exact H].
Qed.
Lemma rmax_l_in : forall d t, In (rmax_l d (d :: t)) (d :: t).
Proof.
  assert (G : forall d t, rmax_l d t = d \/ In (rmax_l d t) t).
  { intros d t. induction t as [|x t IH]; [now left|]. unfold rmax_l in *. cbn.
    apply (Rmax_case x (fold_right Rmax d t) (fun r => r = d \/ x = r \/ In r t)); [auto|tauto]. }
  intros d t. destruct (G d (d :: t)) as [-> | H]; [now left|exact H].
Qed.

(** C37: scaling of a history enforces the bounds when they enclose zero and
    the history exceeds them on one side only *)
Theorem random_within_bounds_partial : forall l u d h v, l <= 0 <= u ->
  (rmin_l d (d :: h) < l -> u < rmax_l d (d :: h) -> False) ->
  In v (bound_scale l u d (d :: h)) -> l <= v <= u.
Proof.
  intros l u d h v Hlu Hone Hv. set (g := d :: h) in *. unfold bound_scale in Hv.
  pose proof (rmin_l_in d h) as Imn. pose proof (rmax_l_in d h) as Imx. fold g in Imn, Imx.
  destruct (rltb 0 (rmax_l (Rabs d) (map Rabs g))) eqn:E0.
  - cbv zeta in Hv. set (mn := rmin_l d g) in *. set (mx := rmax_l d g) in *.
    assert (Hb : forall w, In w g -> mn <= w <= mx) by (intros w Hw; split; [now apply rmin_l_le|now apply rmax_l_ge]).
    destruct (rltb mn l) eqn:El; destruct (rltb u mx) eqn:Eu; cbn [orb] in Hv.
    + apply rltb_iff in El, Eu. exfalso. now apply Hone.
    + apply rltb_iff in El. apply rltb_false in Eu.
      assert (H1 : rltb 0 (Rabs (l - mn)) = true) by (apply rltb_iff; rewrite Rabs_pos_eq; lra). rewrite H1 in Hv.
      apply in_map_iff in Hv as [w [<- Hw]]. specialize (Hb w Hw).
      assert (Es : Rabs (l / mn) = l / mn).
      { apply Rabs_pos_eq. replace (l / mn) with ((- l) / (- mn)) by (field; lra). apply Rmult_le_pos; [lra|]. left. apply Rinv_0_lt_compat. lra. }
      rewrite Es. assert (Hs : 0 <= l / mn <= 1).
      { split; [rewrite <- Es; apply Rabs_pos|]. apply (Rmult_le_reg_r (- mn)); [lra|].
        replace (l / mn * - mn) with (- l) by (field; lra). lra. }
      assert (Hl : l / mn * mn = l) by (field; lra). set (s := l / mn) in *. nra.
    + apply rltb_false in El. apply rltb_iff in Eu.
      assert (H1 : rltb (Rabs (u - mx)) 0 = false) by (apply rltb_false; apply Rabs_pos). rewrite H1 in Hv.
      apply in_map_iff in Hv as [w [<- Hw]]. specialize (Hb w Hw).
      assert (Es : Rabs (u / mx) = u / mx).
      { apply Rabs_pos_eq. apply Rmult_le_pos; [lra|]. left. apply Rinv_0_lt_compat. lra. }
      rewrite Es. assert (Hs : 0 <= u / mx <= 1).
      { split; [rewrite <- Es; apply Rabs_pos|]. apply (Rmult_le_reg_r mx); [lra|].
        replace (u / mx * mx) with u by (field; lra). lra. }
      assert (Hl : u / mx * mx = u) by (field; lra). set (s := u / mx) in *. nra.
    + apply rltb_false in El, Eu. specialize (Hb v Hv). lra.
  - apply rltb_false in E0. assert (Hz : Rabs v <= 0) by (eapply Rle_trans; [apply (rmax_l_ge (Rabs d)); apply in_map; exact Hv|exact E0]).
    pose proof (Rabs_pos v). assert (v = 0) by (destruct (Req_dec v 0) as [->|N]; [reflexivity|apply Rabs_pos_lt in N; lra]). lra.
Qed.
(** C37, counterexample: exceeded on both sides, the scaling restores only one *)
Theorem random_out_of_bounds_refuted : exists l u d h v, l <= 0 <= u /\ In v (bound_scale l u d (d :: h)) /\ u < v.
Proof.
  exists (-10), 1, 0, [-12; 2.5], (Rabs (-10 / -12) * 2.5).
  assert (Emn : rmin_l 0 [0; -12; 2.5] = -12) by (unfold rmin_l; cbn; unfold Rmin; repeat destruct (Rle_dec _ _); lra).
  assert (Emx : rmax_l 0 [0; -12; 2.5] = 2.5) by (unfold rmax_l; cbn; unfold Rmax; repeat destruct (Rle_dec _ _); lra).
  assert (Es : Rabs (-10 / -12) = 10 / 12) by (rewrite Rabs_pos_eq; lra).
  split; [lra|]. split; [|rewrite Es; lra]. unfold bound_scale. cbv zeta. rewrite Emn, Emx.
  rewrite (proj2 (rltb_iff 0 _)).
  2:{ apply (Rlt_le_trans _ (Rabs (-12))); [rewrite Rabs_left; lra|]. apply rmax_l_ge. cbn. auto. }
  rewrite (proj2 (rltb_iff (-12) (-10))), (proj2 (rltb_iff 1 2.5)) by lra. cbn [orb].
  rewrite (proj2 (rltb_iff (Rabs (1 - 2.5)) (Rabs (-10 - -12)))).
  2:{ rewrite (Rabs_left (1 - 2.5)), (Rabs_pos_eq (-10 - -12)); lra. }
  cbn. auto.
Qed.
(** C37: whole generated paths, cycles included *)
Theorem generated_proportional_partial : forall n_time n_cycle l u x p v, l <= 0 <= u -> -1 <= x <= 1 ->
  generate n_time n_cycle (proportional_comp l u x) = Ok p -> In v p -> l <= v <= u.
Proof.
  intros n c l u x p v Hlu Hx H Hv. unfold generate in H. destruct (0 <? c)%nat.
  - destruct (n <? 2 * c + 1)%nat; [discriminate|]. injection H as <-. apply cyclic_subset in Hv.
    eapply proportional_within_bounds_partial; eauto.
  - injection H as <-. eapply proportional_within_bounds_partial; eauto.
Qed.
Theorem generated_random_partial : forall n_time n_cycle l u (gp : nat -> list R) p v, l <= 0 <= u ->
  (forall n d h, (if isclose l u then linspace l l (length (gp n)) else map (denormalise l u) (gp n)) = d :: h ->
     rmin_l d (d :: h) < l -> u < rmax_l d (d :: h) -> False) ->
  generate n_time n_cycle (fun n => random_comp l u (gp n)) = Ok p -> In v p -> l <= v <= u.
Proof.
  intros n c l u gp p v Hlu Hone H Hv.
  assert (G : forall k w, In w (random_comp l u (gp k)) -> l <= w <= u).
  { intros k w Hw. unfold random_comp in Hw. cbv zeta in Hw. specialize (Hone k).
    destruct (if isclose l u then linspace l l (length (gp k)) else map (denormalise l u) (gp k)) as [|d h]; [destruct Hw|].
    eapply random_within_bounds_partial; [exact Hlu|now apply Hone|exact Hw]. }
  unfold generate in H. destruct (0 <? c)%nat.
  - destruct (n <? 2 * c + 1)%nat; [discriminate|]. injection H as <-. apply cyclic_subset in Hv. now apply G in Hv.
  - injection H as <-. now apply G in Hv.
Qed.
(** C37: the first value of a history is kept at zero by the scaling *)
Theorem bound_scale_keeps_zero : forall l u h, hd 0 (bound_scale l u 0 (0 :: h)) = 0.
Proof.
  intros. unfold bound_scale. destruct (rltb 0 _); [|reflexivity]. cbv zeta.
  destruct (rltb (rmin_l 0 (0 :: h)) l || rltb u (rmax_l 0 (0 :: h)))%bool; [|reflexivity]. cbn. ring.
Qed.

(** ** Prescribed increments *)
Definition tdiff (a b : T2) : T2 := fun i j => a i j - b i j.
Lemma build2 : forall a b c, let T := build (comp_order 2) [a; b; c] in
  T 0%nat 0%nat = a /\ T 1%nat 1%nat = b /\ T 0%nat 1%nat = c /\ T 1%nat 0%nat = c.
Proof. intros. unfold T, build, comp_order, tset. cbn. auto. Qed.
Lemma build3 : forall a b c x y z, let T := build (comp_order 3) [a; b; c; x; y; z] in
  T 0%nat 0%nat = a /\ T 1%nat 1%nat = b /\ T 2%nat 2%nat = c /\ T 0%nat 1%nat = x /\ T 1%nat 0%nat = x /\
  T 1%nat 2%nat = y /\ T 2%nat 1%nat = y /\ T 0%nat 2%nat = z /\ T 2%nat 0%nat = z.
Proof. intros. unfold T, build, comp_order, tset. cbn. repeat split. Qed.

(** reading the components back and building the tensor again *)
Lemma build_read : forall n (T : T2), n = 2%nat \/ n = 3%nat -> (forall i j, T i j = T j i) ->
  forall i j, (i < n)%nat -> (j < n)%nat -> build (comp_order n) (map (fun ij => T (fst ij) (snd ij)) (comp_order n)) i j = T i j.
Proof.
  intros n T [-> | ->] Hs i j Hi Hj.
  - destruct i as [|[|i]]; destruct j as [|[|j]]; try lia; unfold build, comp_order, tset; cbn; auto.
  - destruct i as [|[|[|i]]]; destruct j as [|[|[|j]]]; try lia; unfold build, comp_order, tset; cbn; auto.
Qed.
Lemma build_sym : forall n row, n = 2%nat \/ n = 3%nat -> length row = length (comp_order n) ->
  forall i j, build (comp_order n) row i j = build (comp_order n) row j i.
Proof.
  intros n row [-> | ->] Hl i j; cbn in Hl.
  - destruct row as [|a [|b [|c [|? ?]]]]; cbn in Hl; try lia. unfold build, comp_order, tset. cbn.
    destruct i as [|[|i]]; destruct j as [|[|j]]; reflexivity.
  - destruct row as [|a [|b [|c [|x [|y [|z [|? ?]]]]]]]; cbn in Hl; try lia. unfold build, comp_order, tset. cbn.
    destruct i as [|[|[|i]]]; destruct j as [|[|[|j]]]; reflexivity.
Qed.

Lemma frob_scale : forall n k T, 0 <= k -> frob n (fun i j => k * T i j) = k * frob n T.
Proof.
  intros n k T Hk. unfold frob.
  replace (sum2 n (fun i j => k * T i j * (k * T i j))) with ((k * k) * sum2 n (fun i j => T i j * T i j)).
  - rewrite sqrt_mult_alt by nra. now rewrite sqrt_square.
  - unfold sum2. rewrite <- rsum_scal. apply rsum_ext. intros i _. rewrite <- rsum_scal. apply rsum_ext. intros. ring.
Qed.

Lemma enforce_row_ok : forall n c old trial r, n = 2%nat \/ n = 3%nat -> 0 < c ->
  length old = length (comp_order n) -> length trial = length (comp_order n) ->
  enforce_row n c old trial = Some r ->
  length r = length (comp_order n) /\ frob n (tdiff (build (comp_order n) r) (build (comp_order n) old)) = c.
Proof.
  intros n c old trial r Hn Hc Ho Ht H. unfold enforce_row in H. cbv zeta in H.
  destruct (rltb 0 _) eqn:E; [|discriminate]. apply rltb_iff in E. injection H as <-.
  split; [apply map_length|].
  set (e := build (comp_order n) trial) in *. set (e0 := build (comp_order n) old) in *.
  set (nrm := frob n (fun i j => e i j - e0 i j)) in *.
  set (S := fun i j => e0 i j + c * ((e i j - e0 i j) / nrm)).
  assert (Hsym : forall i j, S i j = S j i).
  { intros i j. unfold S, e, e0. now rewrite (build_sym n trial Hn Ht i j), (build_sym n old Hn Ho i j). }
  assert (Ef : frob n (tdiff (build (comp_order n) (map (fun ij => S (fst ij) (snd ij)) (comp_order n))) e0)
             = frob n (fun i j => (c / nrm) * (e i j - e0 i j))).
  { unfold frob. f_equal. apply sum2_ext. intros i j Hi Hj. unfold tdiff. rewrite build_read by assumption. unfold S.
    assert (R : e0 i j + c * ((e i j - e0 i j) / nrm) - e0 i j = c / nrm * (e i j - e0 i j)) by (field; lra). now rewrite R. }
  unfold S in Ef. cbv beta in Ef. rewrite Ef, frob_scale.
  - fold nrm. field. lra.
  - apply Rmult_le_pos; [lra|]. left. now apply Rinv_0_lt_compat.
Qed.

(** C37: prescribed increment norms are met at every step *)
Theorem increments_met : forall n c rows p, n = 2%nat \/ n = 3%nat ->
  Forall (fun r => length r = length (comp_order n)) rows -> enforce n c rows = Ok (Some p) ->
  length p = length rows /\ hd [] p = hd [] rows /\
  forall i, (S i < length p)%nat ->
    frob n (tdiff (build (comp_order n) (nth (S i) p [])) (build (comp_order n) (nth i p []))) = c.
Proof.
  intros n c rows p Hn Hl H. unfold enforce in H. destruct rows as [|r [|r1 t]].
  - injection H as <-. repeat split; auto. cbn. lia.
  - injection H as <-. repeat split; auto. cbn. lia.
  - destruct (rleb c 0) eqn:Ec; [discriminate|]. apply rleb_false in Ec.
    destruct (enforce_from n c r (r1 :: t)) as [q|] eqn:Eq; cbn [option_map] in H; [|discriminate H]. injection H as <-.
    inversion_clear Hl as [|? ? Hr Ht].
    assert (G : forall rows old q, length old = length (comp_order n) -> Forall (fun r => length r = length (comp_order n)) rows ->
      enforce_from n c old rows = Some q -> length q = length rows /\
      forall i, (i < length q)%nat -> frob n (tdiff (build (comp_order n) (nth i q [])) (build (comp_order n) (nth i (old :: q) []))) = c).
    { clear - Hn Ec. induction rows as [|r rows IH]; intros old q Ho Hl H; cbn in H.
      - injection H as <-. split; [reflexivity|]. cbn. lia.
      - inversion_clear Hl as [|? ? Hr Ht]. destruct (enforce_row n c old r) as [r'|] eqn:Er; [|discriminate].
        destruct (enforce_from n c r' rows) as [q'|] eqn:Eq; [|cbn in H; discriminate H]. cbn in H. injection H as <-.
        destruct (enforce_row_ok n c old r r' Hn Ec Ho Hr Er) as [Lr Fr].
        destruct (IH r' q' Lr Ht Eq) as [Lq Fq]. split; [cbn; lia|]. intros i Hi. destruct i as [|i]; [exact Fr|].
        cbn in Hi. apply (Fq i). lia. }
    destruct (G _ _ _ Hr Ht Eq) as [Lq Fq]. split; [cbn; cbn in Lq; lia|]. split; [reflexivity|].
    intros i Hi. cbn in Hi. apply (Fq i). lia.
Qed.
(** C37: rejected exactly for a non-positive norm *)
Theorem enforce_fails_iff : forall n c rows, enforce n c rows = Err RuntimeError <-> c <= 0 /\ (2 <= length rows)%nat.
Proof.
  intros n c rows. unfold enforce. destruct rows as [|r [|r1 t]]; cbn [length].
  - split; [discriminate|]. lia.
  - split; [discriminate|]. lia.
  - destruct (rleb c 0) eqn:E.
    + apply rleb_iff in E. split; [intros _; split; [exact E|lia]|reflexivity].
    + apply rleb_false in E. split; [discriminate|]. lra.
Qed.
(** C37, counterexample: a vanishing increment gives an undefined path *)
Theorem zero_increment_refuted : exists rows, enforce 2 1 rows = Ok None.
Proof.
  exists [[0; 0; 0]; [0; 0; 0]]. unfold enforce. rewrite (proj2 (rleb_false 1 0)) by lra. cbn [enforce_from].
  assert (Ef : frob 2 (fun i j => build (comp_order 2) [0; 0; 0] i j - build (comp_order 2) [0; 0; 0] i j) = 0).
  { transitivity (sqrt 0); [unfold frob; f_equal; unfold sum2, rsum, build, comp_order, tset; cbn; ring|apply sqrt_0]. }
  unfold enforce_row. cbv zeta. rewrite Ef, (proj2 (rltb_false 0 0)) by lra. reflexivity.
Qed.
(** C37, counterexample: prescribed increments may leave the bounds *)
Theorem increments_leave_bounds_refuted : exists rows p, (forall r v, In r rows -> In v r -> -1 <= v <= 1) /\
  enforce 2 5 rows = Ok (Some p) /\ exists r v, In r p /\ In v r /\ 1 < v.
Proof.
  exists [[0; 0; 0]; [1; 0; 0]], [[0; 0; 0]; [5; 0; 0]]. split; [|split].
  - intros r v [<-|[<-|[]]] Hv; cbn in Hv; intuition lra.
  - assert (Ef : frob 2 (fun i j => build (comp_order 2) [1; 0; 0] i j - build (comp_order 2) [0; 0; 0] i j) = 1).
    { transitivity (sqrt 1); [unfold frob; f_equal; unfold sum2, rsum, build, comp_order, tset; cbn; ring|apply sqrt_1]. }
    unfold enforce. rewrite (proj2 (rleb_false 5 0)) by lra. cbn [enforce_from]. unfold enforce_row. cbv zeta. rewrite Ef.
    rewrite (proj2 (rltb_iff 0 1)) by lra. unfold build, comp_order, tset. cbn.
    assert (E1 : 0 + 5 * ((1 - 0) / 1) = 5) by field. assert (E0 : 0 + 5 * ((0 - 0) / 1) = 0) by field.
    rewrite E1, E0. reflexivity.
  - exists [5; 0; 0], 5. cbn. split; [auto|split; [auto|lra]].
Qed.

(** non-vacuity: a proportional component over five times *)
Example proportional_case : exists p, generate 5 2 (proportional_comp (-2) 4 (1 / 3)) = Ok p /\ nth 1 p 0 = 2.
Proof.
  eexists. split; [reflexivity|]. cbn -[proportional_comp].
  assert (Hc : isclose (-2) 4 = false).
  { unfold isclose. apply rleb_false. rewrite (Rabs_left (-2 - 4)), (Rabs_pos_eq 4); lra. }
  unfold proportional_comp. rewrite Hc. cbn. unfold denormalise. field.
Qed.

Print Assumptions cyclic_path_structure.
Print Assumptions proportional_within_bounds_partial.
Print Assumptions random_within_bounds_partial.
Print Assumptions increments_met.
