(** Preview of the iterations of a data set pruning (C127). *)
From Coq Require Import String List Arith Bool ZArith QArith Qround Lia Lqa Permutation.
From Verif Require Import Lib PyDict DatasetModel DatasetSpec DatasetProps PruningModel PruningProps PrunePreviewModel.
Import ListNotations.
Local Open Scope nat_scope.
Local Open Scope list_scope.

(** ** What both compute: the sizes of a run without rejected steps *)
Fixpoint sizes (s : scheduler) (k n : nat) : nat := match k with 0 => n | S k' => let m := sizes s k' n in m - n_prun s m end.
Lemma sizes_shift s : forall k n, sizes s (S k) n = sizes s k (n - n_prun s n).
Proof. induction k; intros n; [reflexivity|]. cbn [sizes] in *. rewrite <- IHk. reflexivity. Qed.
Lemma sizes_le s : forall k n, sizes s k n <= n.
Proof. induction k; intros n; cbn; [lia|]. specialize (IHk n). lia. Qed.

(** ** The preview *)
Lemma preview_step_inv p n_full n_dev n : preview_step p n_full n_dev = Ok (Some n) ->
  n = n_prun (p_sched p) n_dev /\ ((p_ratio_max p <= 1)%Q -> n <= n_dev).
Proof.
  unfold preview_step. destruct (dlookup _ "training") as [a|]; [|discriminate]. cbn [rbind].
  destruct (dlookup _ "validation") as [b|]; [|discriminate]. cbn [rbind]. unfold preview_admissible.
  set (nt := (Z.of_nat n_dev - _)%Z). destruct (n_dev <=? p_dev_min p); [discriminate|]. destruct (Qle_bool _ _); [discriminate|].
  destruct (Z.ltb_spec nt (Z.of_nat (p_test_min p))) as [|G]; [discriminate|]. destruct (Z.eqb_spec nt 0) as [|Z0]; [discriminate|].
  cbn [rbind]. destruct (qltb _ _) eqn:Q; [discriminate|]. cbn [negb]. intros [= <-]. split; [reflexivity|]. intros R.
  unfold qltb in Q. apply negb_false_iff, Qle_bool_iff in Q. revert Q. generalize (n_prun (p_sched p) n_dev). intros n Q.
  assert (P : (0 < inject_Z nt)%Q) by (change 0%Q with (inject_Z 0); rewrite <- Zlt_Qlt; lia).
  assert (L : (qn n <= inject_Z nt)%Q).
  { assert (E1 : (qn n == qn n / inject_Z nt * inject_Z nt)%Q) by (field; lra).
    assert (E2 : (qn n / inject_Z nt * inject_Z nt <= 1 * inject_Z nt)%Q) by (apply Qmult_le_compat_r; lra). lra. }
  unfold qn in L. rewrite <- Zle_Qle in L. lia.
Qed.
Lemma preview_loop_rows p n_full a : dget (p_iter_sizes p) "training" = Some a -> (p_ratio_max p <= 1)%Q ->
  forall fuel iter n_dev n_unused l, preview_loop p n_full fuel iter n_dev n_unused = Ok l ->
  forall k r, nth_error l k = Some r ->
  let m := sizes (p_sched p) (match iter with 0 => k | S _ => S k end) n_dev in
  r_dev r = m /\ r_train r = floor_size a m /\ r_valid r = m - floor_size a m /\ r_unused r + m = n_unused + n_dev.
Proof.
  intros T RM. induction fuel as [|fuel IH]; intros iter n_dev n_unused l H k r K; cbn in H; [injection H as <-; destruct k; discriminate|].
  assert (D : dlookup (p_iter_sizes p) "training" = Ok a) by (unfold dlookup; rewrite T; reflexivity).
  assert (G : forall d u, rbind (dlookup (p_iter_sizes p) "training") (fun a =>
      if p_iter_max p <=? iter then Ok [mkRow d (floor_size a d) (d - floor_size a d) u]
      else rbind (preview_loop p n_full fuel (S iter) d u) (fun l => Ok (mkRow d (floor_size a d) (d - floor_size a d) u :: l))) = Ok l ->
      let m := sizes (p_sched p) k d in
      r_dev r = m /\ r_train r = floor_size a m /\ r_valid r = m - floor_size a m /\ r_unused r + m = u + d).
  { intros d u E. rewrite D in E. cbn [rbind] in E. destruct (p_iter_max p <=? iter).
    - injection E as <-. destruct k as [|k]; [|destruct k; discriminate]. injection K as <-. cbn. repeat split; lia.
    - destruct (preview_loop p n_full fuel (S iter) d u) as [l'|] eqn:L; [|discriminate]. cbn [rbind] in E. injection E as <-.
      destruct k as [|k]; [injection K as <-; cbn; repeat split; lia|]. cbn [nth_error] in K.
      exact (IH (S iter) d u l' L k r K). }
  destruct iter as [|iter]; [exact (G n_dev n_unused H)|].
  destruct (preview_step p n_full n_dev) as [[n|]|] eqn:P; [|injection H as <-; destruct k; discriminate|discriminate]. cbn [rbind] in H.
  destruct (preview_step_inv _ _ _ _ P) as [E L]. specialize (L RM). specialize (G _ _ H). cbv zeta in *.
  rewrite sizes_shift, <- E. destruct G as (G1 & G2 & G3 & G4). repeat split; auto. lia.
Qed.
(** Rows of the preview: the sizes add up, and the sequence of development sizes
    is that of the schedule. *)
Theorem preview_rows : forall p n_full l a, dget (p_iter_sizes p) "training" = Some a -> (0 <= a <= 1)%Q -> (p_ratio_max p <= 1)%Q ->
  preview p n_full = Ok l -> forall k r, nth_error l k = Some r ->
  r_dev r = sizes (p_sched p) k n_full /\ r_dev r + r_unused r = n_full /\ r_train r + r_valid r = r_dev r /\
  (qn (r_train r) <= a * qn (r_dev r) < qn (r_train r) + 1)%Q.
Proof.
  intros p n_full l a T A RM H k r K. unfold preview in H. destruct (n_full =? 0); [discriminate|].
  destruct (preview_loop_rows p n_full a T RM _ _ _ _ _ H k r K) as (E1 & E2 & E3 & E4). cbv zeta in *.
  set (m := sizes (p_sched p) k n_full) in *. clearbody m. destruct (floor_nat m a (proj1 A)) as [F1 F2].
  assert (LE : floor_size a m <= m).
  { apply Nat2Z.inj_le. rewrite Zle_Qle. eapply Qle_trans; [exact F1|]. setoid_replace (inject_Z (Z.of_nat m)) with (inject_Z (Z.of_nat m) * 1)%Q at 2 by ring.
    rewrite !(Qmult_comm (inject_Z (Z.of_nat m))). apply Qmult_le_compat_r; [apply A|]. change 0%Q with (inject_Z 0). rewrite <- Zle_Qle. lia. }
  repeat split; try lia; rewrite E2, E1; unfold qn, floor_size; lra.
Qed.
Theorem preview_number : forall p n_full l, preview p n_full = Ok l -> 1 <= length l <= p_iter_max p + 1.
Proof.
  intros p n_full l H. unfold preview in H. destruct (n_full =? 0); [discriminate|].
  assert (G : forall fuel iter d u l, preview_loop p n_full fuel iter d u = Ok l -> length l <= fuel).
  { induction fuel as [|fuel IH]; intros iter d u l0 E; cbn in E; [injection E as <-; cbn; lia|].
    assert (B : forall d u, rbind (dlookup (p_iter_sizes p) "training") (fun a =>
      if p_iter_max p <=? iter then Ok [mkRow d (floor_size a d) (d - floor_size a d) u]
      else rbind (preview_loop p n_full fuel (S iter) d u) (fun l => Ok (mkRow d (floor_size a d) (d - floor_size a d) u :: l))) = Ok l0 -> length l0 <= S fuel).
    { intros d' u' E'. destruct (dlookup _ _); [|discriminate]. cbn [rbind] in E'. destruct (_ <=? _); [injection E' as <-; cbn; lia|].
      destruct (preview_loop p n_full fuel (S iter) d' u') eqn:L; [|discriminate]. injection E' as <-. cbn. apply IH in L. lia. }
    destruct iter; [exact (B _ _ E)|]. destruct (preview_step p n_full d) as [[n|]|]; [exact (B _ _ E)|injection E as <-; cbn; lia|discriminate]. }
  split; [|apply G in H; lia]. cbn in H. destruct (dlookup _ _); [|discriminate]. cbn [rbind] in H.
  destruct (_ <=? _); [injection H as <-; cbn; lia|]. destruct (preview_loop _ _ _ _ _ _); [|discriminate]. injection H as <-. cbn. lia.
Qed.

(** ** The pruning *)
Section Run.
  Context {A K : Type}.
  Variables (kleb : K -> K -> bool) (k0 : K).
  Lemma prune_rows p perm perm' losses : (forall k n, Permutation (perm k n) (seq 0 n)) -> (forall k t, length (losses k t) = length t) -> (p_ratio_max p <= 1)%Q ->
    forall fuel iter (dev unused : list A) h, pruning_loop kleb k0 p perm perm' losses fuel iter dev unused = Ok h ->
    forall k du, nth_error h k = Some du ->
    let m := sizes (p_sched p) (match iter with 0 => k | S _ => S k end) (length dev) in
    length (fst du) = m /\ length (snd du) + m = length unused + length dev.
  Proof.
    intros HP HL RM. induction fuel as [|fuel IH]; intros iter dev unused h H k du E; cbn in H; [injection H as <-; destruct k; discriminate|].
    assert (G : forall d u, rbind (split_dataset (perm' iter) (length d) (p_iter_sizes p)) (fun _ =>
          if (p_iter_max p <=? iter)%nat then Ok [(d, u)]
          else rbind (pruning_loop kleb k0 p perm perm' losses fuel (S iter) d u) (fun r => Ok ((d, u) :: r))) = Ok h ->
        let m := sizes (p_sched p) k (length d) in length (fst du) = m /\ length (snd du) + m = length u + length d).
    { intros d u X. destruct (split_dataset (perm' iter) (length d) (p_iter_sizes p)); [|discriminate X]. cbn [rbind] in X. destruct (p_iter_max p <=? iter).
      - injection X as <-. destruct k as [|k]; [|destruct k; discriminate]. injection E as <-. cbn. split; lia.
      - destruct (pruning_loop kleb k0 p perm perm' losses fuel (S iter) d u) as [r|] eqn:L; [|discriminate X]. injection X as <-.
        destruct k as [|k]; [injection E as <-; cbn; split; lia|]. exact (IH (S iter) d u r L k du E). }
    destruct iter as [|iter]; [exact (G dev unused H)|].
    destruct (pruning_step _ _ _ _ _ dev unused) as [[[ok dev'] unused']|] eqn:P; [|discriminate]. cbn [rbind] in H.
    destruct ok; [|injection H as <-; destruct k; discriminate]. specialize (G _ _ H). cbv zeta in *.
    destruct (pruning_step_counts kleb k0 _ _ _ _ _ _ _ (HP _ _) (HL _) RM P) as (C1 & C2 & _).
    rewrite sizes_shift. replace (length dev - n_prun (p_sched p) (length dev)) with (length dev') by lia. destruct G as [G1 G2]. split; [exact G1|]. lia.
  Qed.
  (** As far as both go, the preview shows the sizes of the development and
      unused data sets of the run. *)
  Theorem preview_agrees : forall p perm perm' losses (full : list A) hist l a,
    (forall k n, Permutation (perm k n) (seq 0 n)) -> (forall k t, length (losses k t) = length t) -> (p_ratio_max p <= 1)%Q ->
    dget (p_iter_sizes p) "training" = Some a ->
    prune kleb k0 p perm perm' losses full = Ok hist -> preview p (length full) = Ok l ->
    forall k du r, nth_error hist k = Some du -> nth_error l k = Some r -> r_dev r = length (fst du) /\ r_unused r = length (snd du).
  Proof.
    intros p perm perm' losses full hist l a HP HL RM T H P k du r N N'. unfold preview in P. destruct (length full =? 0); [discriminate|].
    destruct (preview_loop_rows p _ a T RM _ _ _ _ _ P k r N') as (E1 & _ & _ & E4).
    destruct (prune_rows p perm perm' losses HP HL RM _ _ _ _ _ H k du N) as (F1 & F2). cbv zeta in *. cbn [length] in *. split; lia.
  Qed.
End Run.
(** The training data set of an iteration has the rounded up size, that of the
    preview the rounded down one. *)
Theorem run_training_size : forall n r s t v, (0 <= r)%Q -> (0 <= s)%Q -> (r + s == 1)%Q -> split_lens n [r; s] = [t; v] ->
  (r * qn n <= qn t < r * qn n + 1)%Q /\ t + v = n.
Proof.
  intros n r s t v R S E H. unfold split_lens in H. set (l := lens0 n [r; s]) in *. cbn [length] in H.
  assert (L : l = [floor_size r n; floor_size s n]) by reflexivity. clearbody l. subst l. cbn [nsum fold_right] in H.
  destruct (floor_nat n r R) as [A1 A2]. destruct (floor_nat n s S) as [B1 B2].
  change (Z.to_nat (Qfloor (inject_Z (Z.of_nat n) * r))) with (floor_size r n) in *.
  change (Z.to_nat (Qfloor (inject_Z (Z.of_nat n) * s))) with (floor_size s n) in *.
  set (f := floor_size r n) in *. set (g := floor_size s n) in *. clearbody f g.
  assert (N : (inject_Z (Z.of_nat n) * r + inject_Z (Z.of_nat n) * s == inject_Z (Z.of_nat n))%Q) by (rewrite <- Qmult_plus_distr_r, E; ring).
  assert (U : (inject_Z (Z.of_nat f) + inject_Z (Z.of_nat g) <= inject_Z (Z.of_nat n))%Q) by lra.
  assert (V : (inject_Z (Z.of_nat n) < inject_Z (Z.of_nat f) + inject_Z (Z.of_nat g) + inject_Z 2)%Q) by (change (inject_Z 2) with (2 # 1)%Q; lra).
  rewrite <- inject_Z_plus in U. rewrite <- Zle_Qle in U. rewrite <- inject_Z_plus, <- (inject_Z_plus _ 2) in V. rewrite <- Zlt_Qlt in V.
  assert (C : n - (f + (g + 0)) = 0 \/ n - (f + (g + 0)) = 1) by lia. unfold qn. destruct C as [C|C]; rewrite C in H; cbn in H; injection H as <- <-.
  - assert (X : n = f + g) by lia. split; [|lia]. rewrite X in *. rewrite Nat2Z.inj_add, inject_Z_plus in *. split; lra.
  - assert (X : n = f + g + 1) by lia. split; [|lia]. rewrite Nat2Z.inj_succ. unfold Z.succ. rewrite inject_Z_plus. change (inject_Z 1) with 1%Q in *.
    split; [lra|]. assert (Y : (inject_Z (Z.of_nat n) == inject_Z (Z.of_nat f) + inject_Z (Z.of_nat g) + 1)%Q).
    { rewrite X. rewrite !Nat2Z.inj_add, !inject_Z_plus. change (inject_Z (Z.of_nat 1)) with 1%Q. reflexivity. }
    lra.
Qed.

(** ** Where they differ *)
Definition small_params (max : nat) (ratio_min : Q) (test_min : nat) (ratio_max : Q) := mkParams (Constant 5) max 10 ratio_min test_min ratio_max
  [("training"%string, 7#10); ("validation"%string, 2#10); ("testing"%string, 1#10)]
  [("training"%string, 8#10); ("validation"%string, 2#10)] 100.
Definition run (p : params) (n : nat) := prune Nat.leb 0 p (fun _ n => seq 0 n) (fun _ n => seq 0 n) (fun _ t => t) (seq 0 n).
(** The preview announces the end although the run goes on: the run compares the
    development data set with the minimum size of the testing data set. *)
Theorem preview_too_short_refuted : exists p n l h, preview p n = Ok l /\ run p n = Ok h /\ length l = 1 /\ length h = 6.
Proof.
  exists (small_params 5 (1#20) 20 1), 100. eexists. eexists. split; [vm_compute; reflexivity|]. split; [vm_compute; reflexivity|]. split; reflexivity.
Qed.
(** The same at the minimum ratio, which only the preview excludes. *)
Theorem preview_ratio_refuted : exists p n l h, preview p n = Ok l /\ run p n = Ok h /\ map r_dev l = [100; 95; 90] /\ map (fun du => length (fst du)) h = [100; 95; 90; 85].
Proof.
  exists (small_params 5 (90#100) 1 1), 100. eexists. eexists. split; [vm_compute; reflexivity|]. split; [vm_compute; reflexivity|]. split; reflexivity.
Qed.
(** The preview announces iterations that the run does not do: it counts the
    samples left over by rounding to the testing data set. *)
Theorem preview_too_long_refuted : exists p n l h, preview p n = Ok l /\ run p n = Ok h /\ length h < length l.
Proof.
  exists (small_params 8 (1#20) 1 (1#2)), 109. eexists. eexists. split; [vm_compute; reflexivity|]. split; [vm_compute; reflexivity|]. vm_compute. lia.
Qed.
(** The announced training data set is smaller than that of the run. *)
Theorem preview_train_refuted : exists p n l, preview p n = Ok l /\ map r_train l = [11] /\ split_lens n (map snd (p_iter_sizes p)) = [12; 2].
Proof. exists (small_params 0 (1#20) 1 1), 14. eexists. split; [vm_compute; reflexivity|]. split; reflexivity. Qed.
(** When the preview announces a step: the testing data set has the samples left
    by the rounded down training and validation data sets. *)
Definition rounded_down (t : nat) (x : Q) : Prop := (qn t <= x < qn t + 1)%Q.
Lemma rounded_unique t u x : rounded_down t x -> rounded_down u x -> t = u.
Proof.
  unfold rounded_down, qn. intros (A & B) (C & D).
  assert (E1 : (inject_Z (Z.of_nat t) < inject_Z (Z.of_nat u + 1))%Q) by (rewrite inject_Z_plus; change (inject_Z 1) with 1%Q; lra).
  assert (E2 : (inject_Z (Z.of_nat u) < inject_Z (Z.of_nat t + 1))%Q) by (rewrite inject_Z_plus; change (inject_Z 1) with 1%Q; lra).
  rewrite <- Zlt_Qlt in E1, E2. lia.
Qed.
Theorem preview_step_iff : forall p n_full n_dev a b ta tb n, dget (p_step_sizes p) "training" = Some a -> dget (p_step_sizes p) "validation" = Some b -> (0 <= a)%Q -> (0 <= b)%Q ->
  rounded_down ta (a * qn n_dev) -> rounded_down tb (b * qn n_dev) -> let n_test := (Z.of_nat n_dev - Z.of_nat ta - Z.of_nat tb)%Z in
  (preview_step p n_full n_dev = Ok (Some n) <-> n = n_prun (p_sched p) n_dev /\ p_dev_min p < n_dev /\ (p_ratio_min p < qn n_dev / qn n_full)%Q /\
    (Z.of_nat (p_test_min p) <= n_test)%Z /\ n_test <> 0%Z /\ (qn n / inject_Z n_test <= p_ratio_max p)%Q).
Proof.
  intros p n_full n_dev a b ta tb n A B PA PB RA RB n_test.
  assert (F : forall v t, (0 <= v)%Q -> rounded_down t (v * qn n_dev) -> floor_size v n_dev = t).
  { intros v t V R. apply (rounded_unique _ _ (v * qn n_dev)); [|exact R]. unfold rounded_down, floor_size. destruct (floor_nat n_dev v V) as (F1 & F2). unfold qn. split; lra. }
  unfold preview_step, dlookup. rewrite A, B. cbn [rbind]. rewrite (F a ta PA RA), (F b tb PB RB). replace (Z.of_nat n_dev - Z.of_nat (ta + tb))%Z with n_test by (unfold n_test; lia).
  clearbody n_test. unfold preview_admissible.
  destruct (Nat.leb_spec n_dev (p_dev_min p)) as [G1|G1]; [split; [discriminate|intros (_ & G & _); lia]|].
  destruct (Qle_bool (qn n_dev / qn n_full) (p_ratio_min p)) eqn:G2; [apply Qle_bool_iff in G2; split; [discriminate|intros (_ & _ & G & _); lra]|].
  destruct (Z.ltb_spec n_test (Z.of_nat (p_test_min p))) as [G3|G3]; [split; [discriminate|intros (_ & _ & _ & G & _); lia]|].
  destruct (Z.eqb_spec n_test 0) as [G4|G4]; [split; [discriminate|intros (_ & _ & _ & _ & G & _); contradiction]|]. cbn [rbind].
  assert (G2' : (p_ratio_min p < qn n_dev / qn n_full)%Q).
  { apply Qnot_le_lt. intros C. apply Qle_bool_iff in C. congruence. }
  unfold qltb. rewrite negb_involutive. destruct (Qle_bool (qn (n_prun (p_sched p) n_dev) / inject_Z n_test) (p_ratio_max p)) eqn:G5.
  - apply Qle_bool_iff in G5. split; [intros E; injection E as E; subst n; auto 8|intros (-> & _); reflexivity].
  - split; [discriminate|intros (-> & _ & _ & _ & _ & G)]. apply Qle_bool_iff in G. congruence.
Qed.
Example preview_case : preview (small_params 2 (1#20) 1 1) 100 = Ok [mkRow 100 80 20 0; mkRow 95 76 19 5; mkRow 90 72 18 10].
Proof. reflexivity. Qed.

Print Assumptions preview_rows.
Print Assumptions preview_number.
Print Assumptions preview_step_iff.
Print Assumptions preview_agrees.
Print Assumptions run_training_size.
Print Assumptions preview_too_short_refuted.
Print Assumptions preview_ratio_refuted.
Print Assumptions preview_too_long_refuted.
Print Assumptions preview_train_refuted.
