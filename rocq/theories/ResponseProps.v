(** C75, C76: tensors, stress invariants and the stress response of a strain
    path. *)
From Coq Require Import String Reals List Arith Bool Lia Lra Permutation.
From Verif Require Import Lib PyDict MatrixModel MatrixSpec MatrixProofs MatrixProps TensorModel TensorSpec TensorProofs
  ElasticModel ElasticSpec ElasticProofs ElasticProps FeaturesSpec RcModel RcProps ResponseModel.
Import ListNotations.
Local Open Scope list_scope.
Local Open Scope R_scope.

(** ** Tensors from components *)
Definition writes (arr : list R) (sym : bool) (kc : nat * comp) : list ((nat * nat) * R) :=
  ((row (snd kc), col (snd kc)), nth (fst kc) arr 0) ::
  (if sym && negb (Nat.eqb (row (snd kc)) (col (snd kc))) then [((col (snd kc), row (snd kc)), nth (fst kc) arr 0)] else []).
Lemma build_writes n comps arr sym : (forall c, In c comps -> comp_in n c) -> (length comps <= length arr)%nat ->
  build_tensor n comps arr sym = Ok (fold_left wr2 (flat_map (writes arr sym) (combine (seq 0 (length comps)) comps)) zero2).
Proof.
  intros C L. unfold build_tensor. generalize zero2.
  assert (G : forall kc, In kc (combine (seq 0 (length comps)) comps) -> (fst kc < length arr)%nat /\ comp_in n (snd kc)).
  { intros [k c] I. pose proof (in_combine_l _ _ _ _ I) as I1. apply in_combine_r in I. apply in_seq in I1. cbn. split; [lia|auto]. }
  revert G. generalize (combine (seq 0 (length comps)) comps). induction l as [|kc l IH]; intros G t; [reflexivity|].
  cbn [rfold flat_map]. destruct (G kc (or_introl eq_refl)) as (G1 & G2). unfold assign_comp at 1.
  destruct (row_lt n (snd kc) G2) as (R1 & R2).
  apply Nat.ltb_lt in G1, R1, R2. rewrite G1, R1, R2. cbn [negb andb rbind]. rewrite fold_left_app.
  rewrite IH by (intros; apply G; right; auto). f_equal. f_equal. unfold writes, wr2. cbn [fold_left fst snd].
  destruct (sym && negb (row (snd kc) =? col (snd kc))); reflexivity.
Qed.
Lemma in_writes comps arr sym w : In w (flat_map (writes arr sym) (combine (seq 0 (length comps)) comps)) ->
  exists k c, nth_error comps k = Some c /\ snd w = nth k arr 0 /\
    (fst w = (row c, col c) \/ (sym = true /\ row c <> col c /\ fst w = (col c, row c))).
Proof.
  intros I. apply in_flat_map in I. destruct I as ((k & c) & I & W).
  assert (N : nth_error comps k = Some c).
  { assert (A : forall (l : list comp) a, In (k, c) (combine (seq a (length l)) l) -> exists m, k = (a + m)%nat /\ nth_error l m = Some c).
    { induction l as [|x l IH]; intros a H; [destruct H|]. cbn in H. destruct H as [H|H].
      - injection H as <- <-. exists 0%nat. split; [lia|reflexivity].
      - destruct (IH _ H) as (m & -> & E). exists (S m). split; [lia|exact E]. }
    destruct (A comps 0%nat I) as (m & -> & E). exact E. }
  exists k, c. split; auto. unfold writes in W. cbn [fst snd] in W. destruct W as [<-|W]; [cbn; auto|].
  destruct sym; cbn [andb] in W; [|destruct W]. destruct (Nat.eqb_spec (row c) (col c)); cbn [negb] in W; [destruct W|].
  destruct W as [<-|[]]. cbn. auto.
Qed.
Lemma writes_in comps arr sym k c : nth_error comps k = Some c ->
  In ((row c, col c), nth k arr 0) (flat_map (writes arr sym) (combine (seq 0 (length comps)) comps)) /\
  (sym = true -> row c <> col c -> In ((col c, row c), nth k arr 0) (flat_map (writes arr sym) (combine (seq 0 (length comps)) comps))).
Proof.
  intros N.
  assert (I : In (k, c) (combine (seq 0 (length comps)) comps)).
  { assert (A : forall (l : list comp) a m, nth_error l m = Some c -> In ((a + m)%nat, c) (combine (seq a (length l)) l)).
    { induction l as [|x l IH]; intros a [|m] H; try discriminate; cbn in *.
      - injection H as ->. left. f_equal. lia.
      - right. replace (a + S m)%nat with (S a + m)%nat by lia. apply IH, H. }
    apply (A comps 0%nat k N). }
  split; [|intros S N']; apply in_flat_map; exists (k, c); (split; [exact I|]); unfold writes; cbn [fst snd]; [left; auto|].
  right. rewrite S. apply Nat.eqb_neq in N'. rewrite N'. left. reflexivity.
Qed.

Theorem build_tensor_reads : forall n order t arr, sym_order n order -> symmetric n t -> stores order t arr ->
  exists u, build_tensor n order arr true = Ok u /\ eq2 n u t.
Proof.
  intros n order t arr SO SY (L & ST). destruct SO as (ND & IN & TOT & ASY).
  rewrite build_writes by (auto; lia). eexists. split; [reflexivity|]. intros i j Hi Hj. apply wr2_val.
  - destruct (TOT (i + 1) (j + 1))%nat as [I|I]; try lia; destruct (In_nth_error _ _ I) as (k & K).
    + eexists. split; [apply (proj1 (writes_in order arr true k _ K))|]. unfold row, col; cbn. f_equal; lia.
    + destruct (Nat.eq_dec i j) as [->|NE].
      * eexists. split; [apply (proj1 (writes_in order arr true k _ K))|]. unfold row, col; cbn. f_equal; lia.
      * eexists. split; [apply (proj2 (writes_in order arr true k _ K)); unfold row, col; cbn; [auto|lia]|]. unfold row, col; cbn. f_equal; lia.
  - intros w I E. destruct (in_writes _ _ _ _ I) as (k & c & K & V & P). rewrite V, (ST k c K). rewrite E in P.
    destruct P as [P|(_ & _ & P)]; injection P as -> ->; unfold row, col in *; [reflexivity|]. apply SY; auto.
Qed.
Theorem store_tensor_reads : forall n order t, (forall c, In c order -> comp_in n c) ->
  exists arr, store_tensor n order t = Ok arr /\ stores order t arr.
Proof.
  intros n order t IN. exists (map (fun c => t (row c) (col c)) order). split.
  - unfold store_tensor. apply rmap_all. intros c I. destruct (row_lt n c (IN c I)) as (A & B).
    apply Nat.ltb_lt in A, B. rewrite A, B. reflexivity.
  - split; [apply map_length|]. intros m c E.
    rewrite (nth_indep _ 0 (t (row (0, 0)%nat) (col (0, 0)%nat))) by (rewrite map_length; apply nth_error_Some; congruence).
    rewrite (map_nth (fun c => t (row c) (col c))), (nth_error_nth _ _ _ E). reflexivity.
Qed.
Theorem build_tensor_full : forall n order t arr, full_order n order -> stores order t arr ->
  exists u, build_tensor n order arr false = Ok u /\ eq2 n u t.
Proof.
  intros n order t arr (ND & IN) (L & ST). rewrite build_writes by (try lia; intros c I; apply IN; auto).
  eexists. split; [reflexivity|]. intros i j Hi Hj. apply wr2_val.
  - assert (I : In (i + 1, j + 1)%nat order) by (apply IN; unfold comp_in; cbn; lia).
    destruct (In_nth_error _ _ I) as (k & K).
    eexists. split; [apply (proj1 (writes_in order arr false k _ K))|]. unfold row, col; cbn. f_equal; lia.
  - intros w I E. destruct (in_writes _ _ _ _ I) as (k & c & K & V & P). rewrite V, (ST k c K). rewrite E in P.
    destruct P as [P|(Q & _)]; [|discriminate]. injection P as -> ->. reflexivity.
Qed.

(** ** Checked strain tensors *)
Definition order_of (order : list (list nat)) : list comp := map (fun c => (nth 0 c 0%nat, nth 1 c 0%nat)) order.
Lemma checks_spec n order arr sym r : build_strain_tensor n arr order sym = Ok r ->
  NoDup (order_of order) /\ (forall c, In c (order_of order) -> comp_in n c) /\
  length order = (if sym then n * (n + 1) / 2 else n * n)%nat /\ build_tensor n (order_of order) arr sym = Ok r.
Proof.
  unfold build_strain_tensor. fold (order_of order).
  destruct (existsb _ (concat order)) eqn:E1; [discriminate|]. destruct (existsb _ order) eqn:E2; [discriminate|].
  destruct (Nat.eqb_spec (length (nodup (list_eq_dec Nat.eq_dec) order)) (length order)) as [E3|]; cbn [negb]; [|discriminate].
  assert (A2 : forall c, In c order -> length c = 2%nat).
  { intros c I. destruct (Nat.eqb_spec (length c) 2) as [|N]; auto.
    enough (existsb (fun c => negb (Nat.eqb (length c) 2)) order = true) by congruence.
    apply existsb_exists. exists c. split; auto. apply Nat.eqb_neq in N. rewrite N. reflexivity. }
  assert (A1 : forall c x, In c order -> In x c -> (1 <= x <= n)%nat).
  { intros c x I X. destruct (Nat.leb 1 x && Nat.leb x n) eqn:Q.
    - apply andb_true_iff in Q. destruct Q as (Q1 & Q2). apply Nat.leb_le in Q1, Q2. lia.
    - enough (existsb (fun x => negb (Nat.leb 1 x && Nat.leb x n)) (concat order) = true) by congruence.
      apply existsb_exists. exists x. split; [|rewrite Q; reflexivity]. apply in_concat. eauto. }
  assert (ND : NoDup order).
  { rewrite <- (app_nil_r order). clear - E3.
    assert (G : forall l, length (nodup (list_eq_dec Nat.eq_dec) l) = length l -> nodup (list_eq_dec Nat.eq_dec) l = l).
    { induction l as [|x l IH]; intros H; [reflexivity|]. cbn in *. destruct (in_dec _ x l) as [I|I].
      - exfalso. assert (length (nodup (list_eq_dec Nat.eq_dec) l) <= length l)%nat; [|lia]. clear. induction l as [|y l IH]; [auto|]. cbn. destruct (in_dec _ y l); cbn; lia.
      - cbn in H. f_equal. apply IH. lia. }
    rewrite app_nil_r. rewrite <- (G order E3). apply NoDup_nodup. }
  intros H.
  assert (LEN : length order = (if sym then n * (n + 1) / 2 else n * n)%nat /\ build_tensor n (order_of order) arr sym = Ok r).
  { destruct sym; cbn [andb negb] in H.
    - destruct (Nat.eqb_spec (2 * length order) (n * (n + 1))) as [Q|]; cbn [negb] in H; [|discriminate]. split; auto.
      rewrite <- Q, Nat.mul_comm, Nat.div_mul; lia.
    - destruct (Nat.eqb_spec (length order) (n * n)) as [Q|]; cbn [negb] in H; [|discriminate]. auto. }
  split; [|split; [|exact LEN]].
  - unfold order_of. clear - ND A2. induction ND as [|c l NI ND IH]; [constructor|]. cbn. constructor; [|apply IH; intros; apply A2; right; auto].
    intros I. apply in_map_iff in I. destruct I as (d & Q & I). apply NI. replace c with d; auto.
    pose proof (A2 c (or_introl eq_refl)) as LC. pose proof (A2 d (or_intror I)) as LD.
    destruct c as [|c1 [|c2 [|]]], d as [|d1 [|d2 [|]]]; try discriminate. cbn in Q. injection Q as -> ->. reflexivity.
  - intros c I. unfold order_of in I. apply in_map_iff in I. destruct I as (d & <- & I).
    pose proof (A2 d I) as LD. pose proof (A1 d) as B. destruct d as [|d1 [|d2 [|]]]; try discriminate.
    unfold comp_in. cbn [nth fst snd]. split; apply (B _ I); cbn; auto.
Qed.
Lemma pigeon (l m : list comp) : NoDup l -> incl l m -> length l = length m -> incl m l.
Proof. intros. apply NoDup_length_incl; auto. lia. Qed.
(** Without symmetry an accepted order is complete: the tensor is determined. *)
Theorem strain_tensor_complete_partial : forall n arr order r, build_strain_tensor n arr order false = Ok r ->
  full_order n (order_of order) /\
  forall t, stores (order_of order) t (firstn (length order) arr) -> eq2 n r t.
Proof.
  intros n arr order r H. destruct (checks_spec _ _ _ _ _ H) as (ND & IN & L & B).
  assert (FO : full_order n (order_of order)).
  { split; auto. intros c. split; auto. intros C. apply (pigeon (order_of order) (pairs n) ND).
    - intros d I. apply in_pairs, IN, I.
    - unfold order_of at 1. rewrite map_length, L. assert (full_order n (pairs n)) as F by (split; [apply NoDup_pairs|apply in_pairs]).
      symmetry. apply (full_order_length n _ F).
    - apply in_pairs, C. }
  split; auto. intros t (LS & ST).
  assert (LA : (length order <= length arr)%nat).
  { rewrite firstn_length in LS. unfold order_of in LS. rewrite map_length in LS. lia. }
  assert (BE : forall m, (m < length order)%nat -> nth m (firstn (length order) arr) 0 = nth m arr 0).
  { intros m Hm. rewrite <- (firstn_skipn (length order) arr) at 2. rewrite app_nth1; auto. rewrite firstn_length. lia. }
  rewrite build_writes in B by (auto; unfold order_of; rewrite map_length; lia). injection B as <-.
  intros i j Hi Hj. apply wr2_val.
  - assert (I : In (i + 1, j + 1)%nat (order_of order)) by (apply FO; unfold comp_in; cbn; lia).
    destruct (In_nth_error _ _ I) as (k & K).
    eexists. split; [apply (proj1 (writes_in _ arr false k _ K))|]. unfold row, col; cbn. f_equal; lia.
  - intros w I E. destruct (in_writes _ _ _ _ I) as (k & c & K & V & P). rewrite V.
    assert (KL : (k < length order)%nat) by (assert (k < length (order_of order))%nat by (apply nth_error_Some; congruence); unfold order_of in *; rewrite map_length in *; lia).
    rewrite <- (BE k KL), (ST k c K). rewrite E in P. destruct P as [P|(Q & _)]; [|discriminate]. injection P as -> ->. reflexivity.
Qed.
(** Under symmetry an incomplete order is accepted: the missing component is
    silently null; and a wrong number of components is not reported as such. *)
Theorem strain_tensor_incomplete_refuted : exists r, build_strain_tensor 2 [1; 2; 3] [[1; 1]; [1; 2]; [2; 1]]%nat true = Ok r /\
  r 1%nat 1%nat = 0 /\ r 0%nat 1%nat = 3 /\ ~ In (2, 2)%nat (order_of [[1; 1]; [1; 2]; [2; 1]]%nat).
Proof. eexists. split; [reflexivity|]. split; [reflexivity|]. split; [reflexivity|]. cbn. intros [H|[H|[H|[]]]]; discriminate. Qed.
Theorem strain_tensor_count_refuted : forall arr, build_strain_tensor 2 arr [[1; 1]; [2; 2]]%nat true = Err TypeError.
Proof. reflexivity. Qed.

(** ** Stress invariants *)
Theorem invariants_principal : forall s, let '((i1, i2, i3), (_, j2, j3)) := compute_stress_invariants s in
  principal_invariants s i1 i2 i3 /\ principal_invariants (deviator3 s) 0 (- j2) j3.
Proof.
  intros s. cbv [compute_stress_invariants]. unfold principal_invariants, deviator3, det3, trace, ident, np_trace, np_matmul, np_det3.
  cbn [rsum Nat.eqb]. split; intros x; field.
Qed.
Theorem invariants_j2 : forall s, symmetric 3 s -> let '(_, (j1, j2, _)) := compute_stress_invariants s in
  j1 = trace 3 (deviator3 s) /\ j2 = / 2 * ddot 3 (deviator3 s) (deviator3 s) /\ 0 <= j2.
Proof.
  intros s SY. cbv [compute_stress_invariants]. unfold deviator3, trace, ident, np_trace, np_matmul, ddot, sum2.
  assert (S1 : s 1%nat 0%nat = s 0%nat 1%nat) by (apply SY; lia). assert (S2 : s 2%nat 0%nat = s 0%nat 2%nat) by (apply SY; lia).
  assert (S3 : s 2%nat 1%nat = s 1%nat 2%nat) by (apply SY; lia).
  cbn [rsum Nat.eqb]. rewrite S1, S2, S3. split; [field|]. split; [field|].
  generalize (s 0%nat 0%nat) (s 0%nat 1%nat) (s 0%nat 2%nat) (s 1%nat 1%nat) (s 1%nat 2%nat) (s 2%nat 2%nat). intros a b c d e f.
  assert (G : 1 / 3 * (0 + a + d + f) ^ 2 - 5 / 10 * ((0 + a + d + f) ^ 2 - (0 + (0 + a * a + b * b + c * c) + (0 + b * b + d * d + e * e) + (0 + c * c + e * e + f * f)))
    = ((a - d) ^ 2 + (d - f) ^ 2 + (f - a) ^ 2) / 6 + (b ^ 2 + c ^ 2 + e ^ 2)) by field.
  rewrite G. pose proof (pow2_ge_0 (a - d)). pose proof (pow2_ge_0 (d - f)). pose proof (pow2_ge_0 (f - a)).
  pose proof (pow2_ge_0 b). pose proof (pow2_ge_0 c). pose proof (pow2_ge_0 e). lra.
Qed.

(** ** Stress response *)
Section Path.
  Variable n : nat.
  Variable cos : list comp.
  Variable su : T2 -> rc_state -> rc_state.
  Variable init : rc_state.
  Variable feats : list (string * nat).
  Variable noisy : bool.
  Variable order : list comp.
  Hypothesis SC : sym_order n cos.
  Hypothesis SO : sym_order n order.
  (** the update depends on the entries of the strain increment only *)
  Hypothesis su_ext : forall e e' s, eq2 n e e' -> su e s = su e' s.
  Hypothesis ND : NoDup (map fst feats).

  (** The vector stores the tensor in Kelvin notation. *)
  Definition kelvin (t : T2) (mf : list R) : Prop :=
    symmetric n t /\ length mf = length cos /\
    forall m c, nth_error cos m = Some c ->
      nth m mf 0 = (if Nat.eqb (fst c) (snd c) then 1 else sqrt 2) * t (fst c - 1)%nat (snd c - 1)%nat.
  Lemma kelvin_tensor mf : length mf = length cos -> exists t, get_tensor_from_mf2 mf n cos true = Ok t /\ kelvin t mf.
  Proof.
    intros L. destruct (from_mf2_sym mf n cos SC L) as (t & E & V). exists t. split; auto.
    assert (VC : forall m c, nth_error cos m = Some c -> t (row c) (col c) = 1 / kf c * nth m mf 0 /\ t (col c) (row c) = 1 / kf c * nth m mf 0).
    { intros m c Q. pose proof (V m) as H. rewrite (nth_error_nth _ _ _ Q) in H. apply H. apply nth_error_Some. congruence. }
    split; [|split; auto].
    - intros i j Hi Hj. destruct SC as (_ & _ & TOT & _). destruct (TOT (i + 1) (j + 1))%nat as [I|I]; try lia;
        destruct (In_nth_error _ _ I) as (m & Q); destruct (VC m _ Q) as (A & B); unfold row, col in A, B; cbn [fst snd] in A, B;
        replace (i + 1 - 1)%nat with i in A, B by lia; replace (j + 1 - 1)%nat with j in A, B by lia; congruence.
    - intros m c Q. destruct (VC m c Q) as (A & _). unfold row, col in A. rewrite A.
      unfold kf, offdiag. assert (S2 : sqrt 2 <> 0) by (apply Rgt_not_eq, sqrt_lt_R0; lra).
      destruct (Nat.eqb (fst c) (snd c)); cbn [negb]; field. exact S2.
  Qed.
  Lemma kelvin_unique t t' mf : kelvin t mf -> kelvin t' mf -> eq2 n t t'.
  Proof.
    intros (S1 & _ & K1) (S2 & _ & K2) i j Hi Hj. destruct SC as (_ & _ & TOT & _).
    assert (SQ : 0 < sqrt 2) by (apply sqrt_lt_R0; lra).
    assert (G : forall a b, In (a + 1, b + 1)%nat cos -> t a b = t' a b).
    { intros a b I. destruct (In_nth_error _ _ I) as (m & Q). pose proof (K1 m _ Q) as A. pose proof (K2 m _ Q) as B.
      cbn [fst snd] in A, B. replace (a + 1 - 1)%nat with a in A, B by lia. replace (b + 1 - 1)%nat with b in A, B by lia.
      rewrite A in B. destruct (a + 1 =? b + 1)%nat; [lra|]. apply Rmult_eq_reg_l in B; [auto|lra]. }
    destruct (TOT (i + 1) (j + 1))%nat as [I|I]; try lia; [apply G; auto|]. rewrite (S1 i j), (S2 i j) by auto. apply G; auto.
  Qed.

  (** The components of the stress of a state. *)
  Definition stress_row_of (s : rc_state) (r : list R) : Prop :=
    exists mf t, dget (rc_vars s) "stress_mf" = Some mf /\ kelvin t mf /\ stores order t r.
  (** The row of a state variable: the components of a strain, the entries, or
      the number repeated. *)
  Definition var_row_of (s : rc_state) (f : string * nat) (r : list R) : Prop :=
    exists v, dget (rc_vars s) (fst f) = Some v /\ length r = snd f /\
      if is_strain_var (fst f) then exists t, kelvin t v /\ stores order t r
      else r = v \/ (length v = 1%nat /\ forall x, In x r -> x = nth 0 v 0).
  Definition has_stress (s : rc_state) : Prop := exists mf, dget (rc_vars s) "stress_mf" = Some mf /\ length mf = length cos.
  Definition has_var (s : rc_state) (f : string * nat) : Prop := exists v, dget (rc_vars s) (fst f) = Some v /\
    if is_strain_var (fst f) then length v = length cos /\ snd f = length order else length v = snd f \/ length v = 1%nat.

  Lemma order_in c : In c order -> comp_in n c. Proof. apply SO. Qed.
  Lemma set_row_ok m t v w : (t < length m)%nat -> length (nth t m []) = w -> length v = w \/ length v = 1%nat ->
    exists r, set_row m t v = Ok (upd m t r) /\ length r = w /\ (r = v \/ (length v = 1%nat /\ forall x, In x r -> x = nth 0 v 0)).
  Proof.
    intros L W H. unfold set_row. apply Nat.ltb_lt in L. rewrite L, W. cbn [negb].
    destruct (Nat.eqb_spec (length v) w) as [Q|Q]; [exists v; auto|]. destruct H as [H|H]; [contradiction|]. rewrite H. cbn [Nat.eqb].
    exists (repeat (nth 0 v 0) w). split; [reflexivity|]. split; [apply repeat_length|]. right. split; auto. intros x I. apply repeat_spec in I. auto.
  Qed.
  Lemma set_row_same m t v : (t < length m)%nat -> length (nth t m []) = length v -> set_row m t v = Ok (upd m t v).
  Proof. intros L W. unfold set_row. apply Nat.ltb_lt in L. rewrite L, W, Nat.eqb_refl. reflexivity. Qed.
  Lemma stress_emit s : has_stress s -> exists mf t r, dget (rc_vars s) "stress_mf" = Some mf /\ get_tensor_from_mf2 mf n cos true = Ok t /\
    store_tensor n order t = Ok r /\ length r = length order /\ stress_row_of s r.
  Proof.
    intros (mf & D & L). destruct (kelvin_tensor mf L) as (t & E & K). destruct (store_tensor_reads n order t order_in) as (r & S & ST).
    exists mf, t, r. repeat (split; auto). apply ST. exists mf, t. auto.
  Qed.
  Lemma var_emit s t sp f m : has_var s f -> dget sp (fst f) = Some m -> (t < length m)%nat -> length (nth t m []) = snd f ->
    exists r, store_state_var n cos noisy order s t sp f = Ok (dset sp (fst f) (upd m t r)) /\ var_row_of s f r.
  Proof.
    intros (v & D & H) M L W. unfold store_state_var. rewrite D. unfold dlookup. rewrite M. destruct (is_strain_var (fst f)) eqn:SV.
    - destruct H as (H1 & H2). destruct (kelvin_tensor v H1) as (T & E & K). rewrite E. cbn [rbind].
      destruct (store_tensor_reads n order T order_in) as (r & S & ST). rewrite S. cbn [rbind].
      assert (LR : length r = snd f) by (rewrite H2; apply ST). rewrite set_row_same by (auto; congruence). cbn [rbind].
      exists r. split; auto. exists v. rewrite SV. split; auto. split; auto. exists T. auto.
    - cbn [rbind]. destruct (set_row_ok m t v (snd f) L W H) as (r & Q & L' & R'). rewrite Q. cbn [rbind].
      exists r. split; auto. exists v. rewrite SV. auto.
  Qed.

  Section Available.
    (** the available state variables *)
    Variable A : string -> bool.
    Lemma features_step s t fs : forall sp, NoDup (map fst fs) -> NoDup (dkeys sp) ->
      (forall f, In f fs -> A (fst f) = true -> has_var s f /\ exists m, dget sp (fst f) = Some m /\ (t < length m)%nat /\ length (nth t m []) = snd f) ->
      (forall f, In f fs -> A (fst f) = false -> dget (rc_vars s) (fst f) = None /\ (noisy = false \/ dget sp (fst f) <> None)) ->
      exists sp', rfold (store_state_var n cos noisy order s t) fs sp = Ok sp' /\ NoDup (dkeys sp') /\
        (forall x, ~ In x (map fst fs) -> dget sp' x = dget sp x) /\
        (forall f, In f fs -> A (fst f) = true -> exists m r, dget sp (fst f) = Some m /\ dget sp' (fst f) = Some (upd m t r) /\ var_row_of s f r) /\
        (forall f, In f fs -> A (fst f) = false -> dget sp' (fst f) = None).
    Proof.
      induction fs as [|f fs IH]; intros sp NDF NDS HA HU.
      - exists sp. split; [reflexivity|]. split; auto. split; auto. split; intros f [].
      - cbn [rfold]. inversion NDF as [|? ? NI NDF']; subst.
        destruct (A (fst f)) eqn:AF.
        + destruct (HA f (or_introl eq_refl) AF) as (HV & m & M & L & W). destruct (var_emit s t sp f m HV M L W) as (r & E & VR).
          rewrite E. cbn [rbind].
          assert (NEQ : forall g, In g fs -> fst f <> fst g) by (intros g I Q; apply NI; rewrite Q; apply in_map; auto).
          destruct (IH (dset sp (fst f) (upd m t r))) as (sp' & E' & N' & O' & A' & U'); auto.
          * apply (gset_nodup String.eqb String.eqb_eq); auto.
          * intros g I G. destruct (HA g (or_intror I) G) as (HVg & mg & Mg & Lg & Wg). split; auto. exists mg.
            rewrite dget_dset_other by auto. auto.
          * intros g I G. destruct (HU g (or_intror I) G) as (H1 & H2). split; auto. rewrite dget_dset_other by auto. auto.
          * exists sp'. split; auto. split; auto. split; [|split].
            -- intros x I. rewrite O' by (intros Q; apply I; right; auto). apply dget_dset_other. intros Q; apply I; left; auto.
            -- intros g [<-|I] G.
               ++ exists m, r. split; auto. split; auto. rewrite O' by auto. apply dget_dset_same.
               ++ destruct (A' g I G) as (mg & rg & Q1 & Q2 & Q3). rewrite dget_dset_other in Q1 by auto. eauto.
            -- intros g [<-|I] G; [congruence|]. auto.
        + destruct (HU f (or_introl eq_refl) AF) as (H1 & H2). unfold store_state_var at 1. rewrite H1.
          assert (NEQ : forall g, In g fs -> fst f <> fst g) by (intros g I Q; apply NI; rewrite Q; apply in_map; auto).
          assert (STEP : exists sp1, match dget sp (fst f) with Some _ => Ok (ddel sp (fst f)) | None => if noisy then Err KeyError else Ok sp end = Ok sp1 /\
             NoDup (dkeys sp1) /\ dget sp1 (fst f) = None /\ forall x, fst f <> x -> dget sp1 x = dget sp x).
          { destruct (dget sp (fst f)) eqn:Q.
            - eexists. split; [reflexivity|]. split; [apply (gdel_nodup String.eqb); auto|]. split; [apply (gget_gdel_same String.eqb String.eqb_eq); auto|].
              intros x NX. apply (gget_gdel_other String.eqb String.eqb_eq); auto.
            - destruct H2 as [-> |H2]; [|contradiction]. exists sp. auto. }
          destruct STEP as (sp1 & -> & N1 & D1 & O1). cbn [rbind].
          destruct (IH sp1) as (sp' & E' & N' & O' & A' & U'); auto.
          * intros g I G. destruct (HA g (or_intror I) G) as (HVg & mg & Mg & Lg & Wg). split; auto. exists mg. rewrite O1 by auto. auto.
          * intros g I G. destruct (HU g (or_intror I) G) as (Q1 & Q2). split; auto. rewrite O1 by auto. auto.
          * exists sp'. split; auto. split; auto. split; [|split].
            -- intros x I. rewrite O' by (intros Q; apply I; right; auto). apply O1. intros Q; apply I; left; auto.
            -- intros g [<-|I] G; [congruence|]. destruct (A' g I G) as (mg & rg & Q1 & Q2 & Q3). rewrite O1 in Q1 by auto. eauto.
            -- intros g [<-|I] G; [|auto]. rewrite O' by auto. auto.
    Qed.

    Variable rows : list (list R).
    Variable E : nat -> T2.
    Hypothesis ES : forall k, (k < length rows)%nat -> symmetric n (E k) /\ stores order (E k) (nth k rows []).
    Notation st := (state_at su init E).
    (** every state reached has a stress, and the available variables *)
    Definition reached (k : nat) : Prop := (1 <= k < length rows)%nat /\ forall j, (1 <= j <= k)%nat -> rc_fail (st j) = false.
    Hypothesis WF : forall k, reached k -> has_stress (st k).
    Hypothesis AV : forall k f, reached k -> In f feats -> if A (fst f) then has_var (st k) f else dget (rc_vars (st k)) (fst f) = None.
    (** the script for noisy data sets *)
    Hypothesis NS : noisy = false \/ (length rows <= 2)%nat \/ forall f, In f feats -> A (fst f) = true.

    (** state of the arrays before the step at time t *)
    Definition table_ok (w t : nat) (m : list (list R)) (P : nat -> list R -> Prop) : Prop :=
      length m = length rows /\ (forall k, (k < length rows)%nat -> length (nth k m []) = w) /\
      nth 0 m [] = repeat 0 w /\ forall k, (1 <= k < t)%nat -> P k (nth k m []).
    Definition loop_inv (t : nat) (o : path_out) : Prop :=
      po_fail o = false /\ NoDup (dkeys (po_state o)) /\
      table_ok (length order) t (po_stress o) (fun k => stress_row_of (st k)) /\
      (forall x, ~ In x (map fst feats) -> dget (po_state o) x = None) /\
      (forall f, In f feats -> A (fst f) = true -> exists m, dget (po_state o) (fst f) = Some m /\ table_ok (snd f) t m (fun k => var_row_of (st k) f)) /\
      (forall f, In f feats -> A (fst f) = false -> if Nat.eqb t 1 then dget (po_state o) (fst f) = Some (np_zeros (length rows) (snd f)) else dget (po_state o) (fst f) = None).
    Lemma table_step w t m P r : table_ok w t m P -> (1 <= t < length rows)%nat -> length r = w -> P t r ->
      table_ok w (S t) (upd m t r) P.
    Proof.
      intros (L & W & Z & H) Ht Lr Pr. split; [rewrite upd_length; auto|]. split; [|split].
      - intros k Hk. rewrite nth_upd by lia. destruct (Nat.eqb_spec k t); auto.
      - rewrite nth_upd by lia. destruct (Nat.eqb_spec 0 t); [lia|auto].
      - intros k Hk. rewrite nth_upd by lia. destruct (Nat.eqb_spec k t) as [->|]; auto. apply H. lia.
    Qed.
    Lemma increments k : (S k < length rows)%nat -> exists e0 e1, build_tensor n order (nth k rows []) true = Ok e0 /\
      build_tensor n order (nth (S k) rows []) true = Ok e1 /\ forall s, su (fun i j => e1 i j - e0 i j) s = su (fun i j => E (S k) i j - E k i j) s.
    Proof.
      intros Hk. destruct (ES k ltac:(lia)) as (S0 & T0). destruct (ES (S k) Hk) as (S1 & T1).
      destruct (build_tensor_reads n order (E k) _ SO S0 T0) as (e0 & B0 & Q0). destruct (build_tensor_reads n order (E (S k)) _ SO S1 T1) as (e1 & B1 & Q1).
      exists e0, e1. split; auto. split; auto. intros s. apply su_ext. intros i j Hi Hj. rewrite Q0, Q1 by auto. reflexivity.
    Qed.
    Lemma skipn_cons_nth (l : list (list R)) t : (t < length l)%nat -> skipn t l = nth t l [] :: skipn (S t) l.
    Proof. revert t. induction l as [|x l IHl]; intros [|t] H; cbn in *; try lia; auto. apply IHl. lia. Qed.
    Lemma loop_spec : forall d t o, (t + d = length rows)%nat -> (1 <= t)%nat -> loop_inv t o -> (forall j, (1 <= j < t)%nat -> rc_fail (st j) = false) ->
      exists o', stress_loop n cos su feats noisy order t (st (t - 1)) (nth (t - 1) rows []) (skipn t rows) o = Ok o' /\
        (po_fail o' = true <-> exists k, (t <= k < length rows)%nat /\ rc_fail (st k) = true) /\
        (po_fail o' = false -> loop_inv (length rows) o').
    Proof.
      induction d as [|d IH]; intros t o Ht H1 INV NF.
      - rewrite skipn_all2 by lia. exists o. split; [reflexivity|]. destruct INV as (F & INV).
        split; [|intros _; replace (length rows) with t at 1 by lia; split; auto].
        rewrite F. split; [discriminate|]. intros (k & Hk & _). lia.
      - assert (SK : skipn t rows = nth t rows [] :: skipn (S t) rows).
        { apply skipn_cons_nth. lia. }
        rewrite SK. cbn [stress_loop]. destruct (increments (t - 1)) as (e0 & e1 & B0 & B1 & SU); [lia|].
        replace (S (t - 1)) with t in * by lia. rewrite B0, B1. cbn [rbind]. rewrite SU.
        assert (ST : su (fun i j => E t i j - E (t - 1)%nat i j) (st (t - 1)) = st t).
        { destruct t as [|t']; [lia|]. cbn [state_at]. rewrite Nat.sub_succ, Nat.sub_0_r. reflexivity. }
        rewrite ST. destruct (rc_fail (st t)) eqn:FT.
        + eexists. split; [reflexivity|]. cbn [po_fail]. split; [|discriminate]. split; auto. intros _. exists t. split; [lia|auto].
        + assert (RT : reached t). { split; [lia|]. intros j Hj. destruct (Nat.eq_dec j t) as [->|]; [auto|]. apply NF. lia. }
          destruct (stress_emit (st t) (WF t RT)) as (mf & T & r & D & G & STO & LR & SR).
          unfold dlookup. rewrite D. cbn [rbind]. rewrite G. cbn [rbind]. rewrite STO. cbn [rbind].
          destruct INV as (F & NDK & TS & OT & TA & TU). pose proof TS as (L & W & _).
          rewrite set_row_same; [|lia|rewrite LR; apply W; lia].
          cbn [rbind].
          destruct (features_step (st t) t feats (po_state o) ND NDK) as (sp' & -> & N' & O' & A' & U').
          * intros f I AF. pose proof (AV t f RT I) as HV. rewrite AF in HV. split; auto. destruct (TA f I AF) as (m & M & (Lm & Wm & _)).
            exists m. split; auto. split; [lia|]. apply Wm. lia.
          * intros f I AF. pose proof (AV t f RT I) as HV. rewrite AF in HV. split; auto.
            destruct NS as [NS'|[NS'|NS']]; [auto| |]; [|specialize (NS' f I); congruence].
            right. specialize (TU f I AF). replace t with 1%nat in TU by lia. cbn [Nat.eqb] in TU. congruence.
          * cbn [rbind].
            replace (st t) with (st (S t - 1)) by (f_equal; lia). replace (nth t rows []) with (nth (S t - 1) rows []) by (f_equal; lia).
            destruct (IH (S t) {| po_stress := upd (po_stress o) t r; po_state := sp'; po_fail := false |}) as (o' & E' & F' & I'); try lia.
            -- split; [reflexivity|]. cbn [po_state po_stress]. split; auto. split; [apply table_step; auto; lia|]. split; [|split].
               ++ intros x I. rewrite O' by auto. auto.
               ++ intros f I AF. destruct (A' f I AF) as (m & rm & M & M' & V). destruct (TA f I AF) as (m' & M2 & TB).
                  assert (m' = m) by congruence. subst m'. exists (upd m t rm). split; auto. apply table_step; auto; [lia|].
                  destruct V as (v & _ & LV & _). auto.
               ++ intros f I AF. destruct (Nat.eqb_spec (S t) 1); [lia|]. auto.
            -- intros j Hj. destruct (Nat.eq_dec j t) as [->|]; [auto|]. apply NF. lia.
            -- exists o'. split; auto. split; auto. rewrite F'. split; intros (k & Hk & Q2); exists k; (split; [|auto]); [lia|].
               destruct (Nat.eq_dec k t) as [->|]; [congruence|lia].
    Qed.

    Lemma init_tables fs : forall (d0 : dict (list (list R))), NoDup (map fst fs) ->
      let d := fold_left (fun d f => dset d (fst f) (np_zeros (length rows) (snd f))) fs d0 in
      (NoDup (dkeys d0) -> NoDup (dkeys d)) /\ (forall f, In f fs -> dget d (fst f) = Some (np_zeros (length rows) (snd f))) /\
      (forall x, ~ In x (map fst fs) -> dget d x = dget d0 x).
    Proof.
      induction fs as [|f fs IH]; intros d0 NDF d; [subst d; cbn; split; [auto|]; split; [intros f []|auto]|].
      inversion NDF as [|? ? NI NDF']; subst.
      destruct (IH (dset d0 (fst f) (np_zeros (length rows) (snd f))) NDF') as (H1 & H2 & H3). cbv zeta in *. cbn [fold_left] in d. fold d in H1, H2, H3.
      split; [|split].
      - intros H. apply H1. apply (gset_nodup String.eqb String.eqb_eq). auto.
      - intros g [<-|I]; [|auto]. rewrite H3 by auto. apply dget_dset_same.
      - intros x I. cbn in I. rewrite H3 by tauto. apply dget_dset_other. tauto.
    Qed.
    Lemma zeros_table w P : (1 <= length rows)%nat -> table_ok w 1 (np_zeros (length rows) w) P.
    Proof.
      intros H. unfold np_zeros. split; [apply repeat_length|].
      assert (G : forall k, (k < length rows)%nat -> nth k (repeat (repeat 0 w) (length rows)) [] = repeat 0 w).
      { intros k Hk. rewrite (nth_indep _ [] (repeat 0 w)) by (rewrite repeat_length; auto). apply nth_repeat. }
      split; [intros k Hk; rewrite G by auto; apply repeat_length|]. split; [apply G; lia|]. intros k Hk. lia.
    Qed.

    (** The response of a strain path: the rows of stress and of the state
        variables are those of the states driven by the increments of strain,
        after a first row of zeros. *)
    Theorem stress_path_law : (1 <= length rows)%nat ->
      exists o, compute_stress_path n cos su init feats noisy order rows = Ok o /\
        (po_fail o = true <-> exists k, (1 <= k < length rows)%nat /\ rc_fail (st k) = true) /\
        (po_fail o = false ->
          (length (po_stress o) = length rows /\ nth 0 (po_stress o) [] = repeat 0 (length order) /\
           forall k, (1 <= k < length rows)%nat -> stress_row_of (st k) (nth k (po_stress o) [])) /\
          (forall f, In f feats -> A (fst f) = true -> exists m, dget (po_state o) (fst f) = Some m /\
             length m = length rows /\ nth 0 m [] = repeat 0 (snd f) /\
             forall k, (1 <= k < length rows)%nat -> var_row_of (st k) f (nth k m [])) /\
          (forall f, In f feats -> A (fst f) = false -> (2 <= length rows)%nat -> dget (po_state o) (fst f) = None) /\
          (forall x, ~ In x (map fst feats) -> dget (po_state o) x = None)).
    Proof.
      intros H1. unfold compute_stress_path.
      destruct rows as [|r rest] eqn:ER; [cbn in H1; lia|]. rewrite <- ER in *. clear H1.
      set (o := {| po_stress := _; po_state := _; po_fail := false |}).
      assert (LR : (1 <= length rows)%nat) by (rewrite ER; cbn; lia).
      destruct (init_tables feats [] ND) as (I1 & I2 & I3). cbv zeta in *.
      destruct (loop_spec (length rows - 1) 1 o) as (o' & E' & F & INV); [lia|lia| | |].
      - split; [reflexivity|]. cbn [po_state po_stress o]. split; [apply I1; constructor|]. split; [apply zeros_table; auto|].
        split; [intros x I; rewrite I3 by auto; reflexivity|]. split.
        + intros f I _. eexists. split; [apply I2; auto|]. apply zeros_table; auto.
        + intros f I _. cbn [Nat.eqb]. apply I2; auto.
      - intros j Hj. lia.
      - exists o'. replace (skipn 1 rows) with rest in E' by (rewrite ER; reflexivity). replace (nth (1 - 1) rows []) with r in E' by (rewrite ER; reflexivity).
        split; [exact E'|]. split; [exact F|]. intros NF. destruct (INV NF) as (_ & _ & (S1 & S2 & S3 & S4) & OT & TA & TU).
        split; [auto|]. split; [|split; [|auto]].
        + intros f I AF. destruct (TA f I AF) as (m & M & (M1 & M2 & M3 & M4)). exists m. auto.
        + intros f I AF L. specialize (TU f I AF). destruct (Nat.eqb_spec (length rows) 1); [lia|auto].
    Qed.
  End Available.

  (** uniqueness of the rows *)
  Lemma stores_unique t t' r r' : eq2 n t t' -> stores order t r -> stores order t' r' -> r = r'.
  Proof.
    intros Q (L1 & S1) (L2 & S2). apply (nth_ext _ _ 0 0); [congruence|]. intros m Hm.
    destruct (nth_error order m) as [c|] eqn:N; [|apply nth_error_None in N; lia]. rewrite (S1 m c N), (S2 m c N).
    destruct (row_lt n c (order_in c (nth_error_In _ _ N))) as (A & B). apply Q; auto.
  Qed.
  Lemma stress_row_unique s r r' : stress_row_of s r -> stress_row_of s r' -> r = r'.
  Proof.
    intros (mf & t & D & K & S1) (mf' & t' & D' & K' & S2). assert (mf' = mf) by congruence. subst.
    apply (stores_unique t t'); auto. apply (kelvin_unique t t' mf); auto.
  Qed.
  Lemma var_row_unique s f r r' : var_row_of s f r -> var_row_of s f r' -> r = r'.
  Proof.
    intros (v & D & L & H) (v' & D' & L' & H'). assert (v' = v) by congruence. subst v'. destruct (is_strain_var (fst f)).
    - destruct H as (t & K & S1), H' as (t' & K' & S2). apply (stores_unique t t'); auto. apply (kelvin_unique t t' v); auto.
    - destruct H as [->|(H1 & H2)], H' as [->|(H3 & H4)]; auto.
      + apply (nth_ext _ _ 0 0); [congruence|]. intros m Hm. assert (m = 0)%nat by lia. subst. symmetry. apply H4. apply nth_In. lia.
      + apply (nth_ext _ _ 0 0); [congruence|]. intros m Hm. assert (m = 0)%nat by lia. subst. apply H2. apply nth_In. lia.
      + apply (nth_ext _ _ 0 0); [congruence|]. intros m Hm. rewrite (H2 (nth m r 0)) by (apply nth_In; auto). symmetry. apply H4. apply nth_In. lia.
  Qed.
End Path.

(** ** Agreement with the recurrent constitutive model *)
Lemma vbuild_reads n order r : sym_order n order -> length r = length order ->
  symmetric n (vbuild order r) /\ stores order (vbuild order r) r.
Proof.
  intros SO L. pose proof SO as (ND & IN & TOT & ASY).
  assert (G : forall m c, nth_error order m = Some c -> vbuild order r (row c) (col c) = nth m r 0 /\ vbuild order r (col c) (row c) = nth m r 0).
  { intros m c Q. destruct (row_lt n c (IN c (nth_error_In _ _ Q))) as (A & B).
    assert (U : forall a b k, sym_index a b order = Some k -> (a = row c /\ b = col c) \/ (a = col c /\ b = row c) -> (a < n)%nat -> (b < n)%nat -> k = m).
    { intros a b k S P Ha Hb. apply sym_index_some in S. destruct S as (Lk & S).
      assert (NK : nth_error order k = Some (nth k order (0, 0)%nat)) by (apply nth_error_nth'; auto).
      set (ck := nth k order (0, 0)%nat) in *. pose proof (IN c (nth_error_In _ _ Q)) as IC. pose proof (IN ck (nth_error_In _ _ NK)) as ICK.
      assert (EQ : ck = c \/ (ck = (snd c, fst c))).
      { destruct c as [c1 c2], ck as [k1 k2]. unfold row, col, comp_in in *. cbn [fst snd] in *.
        destruct P as [(-> & ->)|(-> & ->)], S as [(S1 & S2)|(S1 & S2)]; [left|right|right|left]; f_equal; lia. }
      assert (EQ2 : ck = c).
      { destruct EQ as [EQ|EQ]; auto. destruct (Nat.eq_dec (fst c) (snd c)) as [E|NE]; [rewrite EQ; destruct c; cbn in *; congruence|].
        exfalso. apply (ASY (fst c) (snd c)); auto; [destruct c; apply (nth_error_In _ _ Q)|rewrite <- EQ; apply (nth_error_In _ _ NK)]. }
      rewrite EQ2 in NK. apply (NoDup_nth_error order); auto. congruence. }
    unfold vbuild. destruct (sym_index_sym n order (row c) (col c) SO A B) as (k & K). destruct (sym_index_sym n order (col c) (row c) SO B A) as (k' & K').
    rewrite K, K'. rewrite (U _ _ _ K), (U _ _ _ K'); auto. }
  split.
  - intros i j Hi Hj. destruct (TOT (i + 1) (j + 1))%nat as [I|I]; try lia; destruct (In_nth_error _ _ I) as (m & Q); destruct (G m _ Q) as (A & B);
      unfold row, col in A, B; cbn [fst snd] in A, B; replace (i + 1 - 1)%nat with i in A, B by lia; replace (j + 1 - 1)%nat with j in A, B by lia; congruence.
  - split; auto. intros m c Q. symmetry. apply (G m c Q).
Qed.
Section Agree.
  Variable n : nat.
  Variable order : list comp.
  Variable su : T2 -> rc_state -> rc_state.
  Variable init : rc_state.
  Variable feats : list (string * nat).
  Hypothesis SO : sym_order n order.
  Lemma vstore_stores t : stores order t (vstore order t).
  Proof.
    split; [apply map_length|]. intros m c E. unfold vstore.
    rewrite (nth_indep _ 0 ((fun c => t (row c) (col c)) (0, 0)%nat)) by (rewrite map_length; apply nth_error_Some; congruence).
    rewrite (map_nth (fun c => t (row c) (col c))), (nth_error_nth _ _ _ E). reflexivity.
  Qed.
  Lemma tensor_comps_ok mf : length mf = length order -> exists t r, tensor_comps n order mf = Ok r /\ kelvin n order t mf /\ stores order t r.
  Proof.
    intros L. destruct (from_mf2_vectorised_sym_partial mf n order SO L) as (t & t' & G & V & Q).
    destruct (kelvin_tensor n order SO mf L) as (t1 & G1 & K). assert (t1 = t) by congruence. subst t1.
    exists t, (vstore order t'). unfold tensor_comps. rewrite V. split; [reflexivity|]. split; auto.
    destruct (vstore_stores t') as (A & B). split; auto. intros m c N. rewrite (B m c N).
    destruct (row_lt n c) as (C1 & C2); [apply SO; eapply nth_error_In; eauto|]. symmetry. apply Q; auto.
  Qed.
  Lemma emit_std_rows s : has_stress order s -> (forall f, In f feats -> has_var order order s f) ->
    exists r rs, emit_std n order feats s = Ok (r, concat rs) /\ stress_row_of n order order s r /\ Forall2 (var_row_of n order order s) feats rs.
  Proof.
    intros (mf & D & L) HV. unfold emit_std, stress_row, dlookup. rewrite D. cbn [rbind].
    destruct (tensor_comps_ok mf L) as (t & r & -> & K & S1). cbn [rbind].
    assert (G : exists rs, rmap (state_var_std n order s) feats = Ok rs /\ Forall2 (var_row_of n order order s) feats rs).
    { clear D L K S1. induction feats as [|f fs IH]; [exists []; split; [reflexivity|constructor]|].
      destruct IH as (rs & E & F); [intros g I; apply HV; right; auto|].
      destruct (HV f (or_introl eq_refl)) as (v & D & H). cbn [rmap]. unfold state_var_std at 1. rewrite D.
      assert (ONE : exists r, (if is_strain_var (fst f) then rbind (tensor_comps n order v) (fit (snd f)) else fit (snd f) v) = Ok r /\ var_row_of n order order s f r).
      { destruct (is_strain_var (fst f)) eqn:SV.
        - destruct H as (H1 & H2). destruct (tensor_comps_ok v H1) as (T & q & -> & KT & ST). cbn [rbind]. exists q. unfold fit.
          rewrite H2. replace (length q =? length order) with true by (symmetry; apply Nat.eqb_eq; apply ST).
          split; auto. exists v. rewrite SV. split; auto. split; [rewrite H2; apply ST|]. eauto.
        - unfold fit. destruct (Nat.eqb_spec (length v) (snd f)) as [Q|Q].
          + exists v. split; auto. exists v. rewrite SV. auto.
          + destruct H as [H|H]; [contradiction|]. rewrite H. cbn [Nat.eqb]. eexists. split; [reflexivity|]. exists v. rewrite SV.
            split; auto. split; [apply repeat_length|]. right. split; auto. intros x I. apply repeat_spec in I. auto. }
      destruct ONE as (q & -> & Vq). cbn [rbind]. rewrite E. cbn [rbind]. exists (q :: rs). split; auto. }
    destruct G as (rs & -> & F). cbn [rbind]. exists r, rs. split; auto. split; auto. exists mf, t. auto.
  Qed.
  Lemma loop_err emit : forall rows s old e, rc_loop order su true emit s old rows = Err e ->
    e = RuntimeError \/ exists k, (k < length rows)%nat /\ emit (state_at su s (tensors order (old :: rows)) (S k)) = Err e /\
      forall j, (j <= k)%nat -> rc_fail (state_at su s (tensors order (old :: rows)) (S j)) = false.
  Proof.
    induction rows as [|r t IH]; intros s old e H; [discriminate|]. cbn [rc_loop andb] in H.
    set (s' := su (increment order old r) s) in *.
    assert (Hs : forall k, state_at su s (tensors order (old :: r :: t)) (S k) = state_at su s' (tensors order (r :: t)) k).
    { intros k. rewrite state_at_shift. reflexivity. }
    destruct (rc_fail s') eqn:F; [left; congruence|]. destruct (emit s') as [o|e'] eqn:EM; cbn [rbind] in H.
    - destruct (rc_loop order su true emit s' r t) as [os|e'] eqn:L; cbn [rbind] in H; [discriminate|]. injection H as ->.
      destruct (IH _ _ _ L) as [->|(k & Hk & Q & NF)]; [auto|]. right. exists (S k). cbn [length]. split; [lia|]. rewrite Hs. split; auto.
      intros [|j] Hj; rewrite Hs; [exact F|]. apply NF. lia.
    - injection H as ->. right. exists 0%nat. cbn [length]. split; [lia|]. rewrite Hs. split; [exact EM|]. intros j Hj. assert (j = 0)%nat by lia. subst. rewrite Hs. exact F.
  Qed.

  Hypothesis su_ext : forall e e' s, eq2 n e e' -> su e s = su e' s.
  Hypothesis ND : NoDup (map fst feats).
  Variable noisy : bool.
  Variable rows : list (list R).
  Hypothesis W : forall r, In r rows -> length r = length order.
  Notation st := (state_at su init (tensors order rows)).
  Hypothesis AV : forall k, (1 <= k < length rows)%nat -> (forall j, (1 <= j <= k)%nat -> rc_fail (st j) = false) ->
    has_stress order (st k) /\ forall f, In f feats -> has_var order order (st k) f.
  Lemma first_row_concat (fs : list (string * nat)) : zeros (n_state fs) = concat (map (fun f => repeat 0 (snd f)) fs).
  Proof.
    unfold n_state, zeros. induction fs as [|f fs IH]; [reflexivity|]. cbn [map fold_right concat].
    rewrite repeat_app, IH. reflexivity.
  Qed.

  (** The data set generator and the recurrent constitutive model give the same
      response to a strain path, and fail on the same paths. *)
  Theorem recurrent_model_agrees : (1 <= length rows)%nat ->
    exists o, compute_stress_path n order su init feats noisy order rows = Ok o /\
      (if po_fail o then path_std n order su init feats true rows = Err RuntimeError
       else exists out tab, path_std n order su init feats true rows = Ok out /\
         (forall f, In f feats -> dget (po_state o) (fst f) = Some (tab f)) /\
         out = map (fun k => (nth k (po_stress o) [], concat (map (fun f => nth k (tab f) []) feats))) (seq 0 (length rows))).
  Proof.
    intros L1.
    assert (ES : forall k, (k < length rows)%nat -> symmetric n (tensors order rows k) /\ stores order (tensors order rows k) (nth k rows [])).
    { intros k Hk. apply vbuild_reads; auto. apply W, nth_In. auto. }
    destruct (stress_path_law n order su init feats noisy order SO SO su_ext ND (fun _ => true) rows (tensors order rows) ES) as (o & E & F & H); auto.
    { intros k (R1 & R2). apply AV; auto. }
    { intros k f (R1 & R2) I. apply AV; auto. }
    exists o. split; auto. destruct (po_fail o) eqn:PF.
    - destruct (path_std n order su init feats true rows) as [out|e] eqn:P.
      + exfalso. apply (response_is_incremental n order su init feats true) in P; [|intros Q; rewrite Q in L1; cbn in L1; lia].
        destruct P as (_ & _ & P). destruct (proj1 F eq_refl) as ([|k] & Hk & Q); [lia|]. destruct (P k ltac:(lia)) as (G & _). cbn [andb] in G. congruence.
      + f_equal. unfold path_std in P. destruct rows as [|r rest] eqn:ER; [discriminate|]. rewrite <- ER in *.
        destruct (rc_loop order su true (emit_std n order feats) init r rest) as [os|e'] eqn:LO; cbn [rbind] in P; [discriminate|]. injection P as ->.
        destruct (loop_err _ _ _ _ _ LO) as [->|(k & Hk & Q & NF)]; auto. exfalso. rewrite <- ER in Q, NF.
        destruct (AV (S k)) as (HS & HV); [rewrite ER; cbn; lia| |].
        { intros [|j] Hj; [lia|]. apply NF. lia. }
        destruct (emit_std_rows _ HS HV) as (r' & rs & Q' & _). congruence.
    - destruct (H eq_refl) as ((S1 & S2 & S3) & TA & _ & _).
      assert (NF : forall j, (1 <= j < length rows)%nat -> rc_fail (st j) = false).
      { intros j Hj. destruct (rc_fail (st j)) eqn:Q; auto. assert (false = true) by (apply F; eauto). discriminate. }
      set (tab := fun f : string * nat => match dget (po_state o) (fst f) with Some m => m | None => [] end).
      assert (TT : forall f, In f feats -> dget (po_state o) (fst f) = Some (tab f) /\ nth 0 (tab f) [] = repeat 0 (snd f) /\
                   forall k, (1 <= k < length rows)%nat -> var_row_of n order order (st k) f (nth k (tab f) [])).
      { intros f I. destruct (TA f I eq_refl) as (m & M & _ & M0 & MK). unfold tab. rewrite M. auto. }
      eexists. exists tab. split; [|split; [intros f I; apply TT; auto|reflexivity]].
      apply response_is_incremental; [intros Q; rewrite Q in L1; cbn in L1; lia|].
      rewrite map_length, seq_length. split; auto.
      assert (NM : forall k, (k < length rows)%nat -> nth k (map (fun k => (nth k (po_stress o) [], concat (map (fun f => nth k (tab f) []) feats))) (seq 0 (length rows))) ([], [])
                   = (nth k (po_stress o) [], concat (map (fun f => nth k (tab f) []) feats))).
      { intros k Hk. rewrite nth_map_seq by auto. reflexivity. }
      split.
      + rewrite NM by lia. rewrite S2, first_row_concat. f_equal. f_equal. apply map_ext_in. intros f I. apply TT; auto.
      + intros k Hk. cbv zeta. rewrite NF by lia. split; [reflexivity|]. rewrite NM by auto.
        destruct (AV (S k)) as (HS & HV); [lia|intros j Hj; apply NF; lia|].
        destruct (emit_std_rows _ HS HV) as (r & rs & -> & SR & VR). f_equal. f_equal.
        * apply (stress_row_unique n order order SO SO (st (S k))); auto. apply S3. lia.
        * f_equal. assert (VR2 : forall f, In f feats -> var_row_of n order order (st (S k)) f (nth (S k) (tab f) [])) by (intros f I; apply TT; auto; lia).
          clear - VR VR2 SO. induction VR as [|f r fs rs V VR IH]; [reflexivity|]. cbn [map]. f_equal.
          -- apply (var_row_unique n order order SO SO (st (S k)) f); auto. apply VR2. left; auto.
          -- apply IH. intros g I. apply VR2. right; auto.
  Qed.
End Agree.

(** ** Elastic data sets: the stress is that of the strain measured from the
    first strain of the path *)
Definition el_enc (st : el_state) : rc_state :=
  {| rc_vars := [("e_strain_mf"%string, el_e st); ("strain_mf"%string, el_strain st); ("stress_mf"%string, el_stress st)]; rc_fail := false |}.
Definition el_dec (s : rc_state) : el_state :=
  let g k := match dget (rc_vars s) k with Some v => v | None => [] end in
  EState (g "e_strain_mf"%string) (g "strain_mf"%string) (g "stress_mf"%string) 0 0.
Definition el_su (props : list (pname * R)) (e : T2) (s : rc_state) : rc_state :=
  match el_state_update 4 Isotropic props e (el_dec s) with Ok r => el_enc (fst r) | Err _ => {| rc_vars := []; rc_fail := true |} end.
Definition el_start : rc_state := el_enc (EState (kmf zero2) (kmf zero2) (kmf zero2) 0 0).
Lemma el_su_ext props e e' s : eq2 3 e e' -> el_su props e s = el_su props e' s.
Proof.
  intros Q. unfold el_su, el_state_update. cbn [get_problem_type_parameters rbind]. rewrite !mf2_3d, (kmf_ext e e' Q). reflexivity.
Qed.
Lemma el_states E v props Eps : pget props PE = Some E -> pget props Pv = Some v -> forall k,
  exists st, state_at (el_su props) el_start Eps k = el_enc st /\ el_e st = kmf (fun i j => Eps k i j - Eps 0%nat i j) /\
    el_strain st = kmf (fun i j => Eps k i j - Eps 0%nat i j) /\
    el_stress st = kmf (hooke (lame_lambda E v) (lame_mu E v) (fun i j => Eps k i j - Eps 0%nat i j)).
Proof.
  intros HE Hv. induction k as [|k (st & S & A & B & C)].
  - eexists. split; [reflexivity|]. cbn [el_e el_strain el_stress].
    assert (Q : eq2 3 zero2 (fun i j => Eps 0%nat i j - Eps 0%nat i j)) by (intros i j _ _; unfold zero2; lra).
    rewrite <- (kmf_ext _ _ Q). split; auto. split; auto. apply kmf_ext. intros i j Hi Hj. unfold hooke, trace, zero2. cbn [rsum]. ring.
  - cbn [state_at]. rewrite S. set (inc := fun i j : nat => Eps (Datatypes.S k) i j - Eps k i j).
    assert (D : el_e (el_dec (el_enc st)) = el_e st /\ el_strain (el_dec (el_enc st)) = el_strain st /\ el_stress (el_dec (el_enc st)) = el_stress st) by (split; [|split]; reflexivity).
    destruct D as (D1 & D2 & D3).
    destruct (el_run_3d E v props HE Hv [inc] (el_dec (el_enc st)) (fun i j => Eps k i j - Eps 0%nat i j)) as (st' & RUN & A' & B' & C'); [congruence|congruence|congruence|].
    unfold el_su. cbn [el_run] in RUN. destruct (el_state_update 4 Isotropic props inc (el_dec (el_enc st))) as [r|] eqn:U; [|discriminate].
    cbn [rbind] in RUN. injection RUN as ->. exists st'. split; [reflexivity|].
    assert (Q : eq2 3 (fun i j => Eps k i j - Eps 0%nat i j + tsum [inc] i j) (fun i j => Eps (Datatypes.S k) i j - Eps 0%nat i j)).
    { intros i j _ _. unfold tsum, inc. cbn [map lsum fold_right]. lra. }
    rewrite <- (kmf_ext _ _ Q). split; auto. split; auto. rewrite C'. apply kmf_ext. intros i j Hi Hj. unfold hooke, trace. cbn [rsum]. rewrite !Q by lia. reflexivity.
Qed.
Lemma kmf_kelvin t : symmetric 3 t -> kelvin 3 order_sym_3d t (kmf t).
Proof.
  intros S. split; auto. split; [reflexivity|]. intros m c N.
  do 6 (destruct m as [|m]; [cbn in N; injection N as <-; cbn [kmf nth fst snd Nat.eqb Nat.sub]; ring|]). destruct m; discriminate.
Qed.
Lemma hooke_sym lam mu t : symmetric 3 t -> symmetric 3 (hooke lam mu t).
Proof. intros S i j Hi Hj. unfold hooke, ident. rewrite (S i j Hi Hj), (Nat.eqb_sym i j). reflexivity. Qed.
Lemma order_3d : sym_order 3 order_sym_3d.
Proof.
  split; [|split; [|split]].
  - repeat constructor; cbn; intuition discriminate.
  - intros c I. cbn in I. unfold comp_in. intuition (subst; cbn; lia).
  - intros i j Hi Hj. destruct i as [|[|[|[|i]]]], j as [|[|[|[|j]]]]; try lia; cbn; tauto.
  - intros i j N I1 I2. cbn in I1, I2. repeat destruct I1 as [I1|I1]; try contradiction; injection I1 as <- <-; cbn in N; intuition discriminate.
Qed.

Theorem elastic_response_3d : forall E v props order rows Eps noisy,
  pget props PE = Some E -> pget props Pv = Some v -> sym_order 3 order -> (1 <= length rows)%nat ->
  (forall k, (k < length rows)%nat -> symmetric 3 (Eps k) /\ stores order (Eps k) (nth k rows [])) ->
  exists o, compute_stress_path 3 order_sym_3d (el_su props) el_start [("strain_mf"%string, length order)] noisy order rows = Ok o /\
    po_fail o = false /\ length (po_stress o) = length rows /\
    (forall k, (k < length rows)%nat ->
      stores order (hooke (lame_lambda E v) (lame_mu E v) (fun i j => Eps k i j - Eps 0%nat i j)) (nth k (po_stress o) [])) /\
    exists m, dget (po_state o) "strain_mf"%string = Some m /\ length m = length rows /\
      forall k, (k < length rows)%nat -> stores order (fun i j => Eps k i j - Eps 0%nat i j) (nth k m []).
Proof.
  intros E v props order rows Eps noisy HE Hv SO L ES.
  pose proof (el_states E v props Eps HE Hv) as ST.
  assert (SYM : forall k, (k < length rows)%nat -> symmetric 3 (fun i j => Eps k i j - Eps 0%nat i j)).
  { intros k Hk i j Hi Hj. destruct (ES k Hk) as (A & _). destruct (ES 0%nat ltac:(lia)) as (B & _). rewrite (A i j), (B i j) by auto. reflexivity. }
  assert (ZERO : forall t, (forall i j, (i < 3)%nat -> (j < 3)%nat -> t i j = 0) -> stores order t (repeat 0 (length order))).
  { intros t T. split; [apply repeat_length|]. intros m c N. rewrite nth_repeat. symmetry. apply T; apply (row_lt 3 c); apply SO; eapply nth_error_In; eauto. }
  assert (EQS : forall t t' r, eq2 3 t t' -> stores order t r -> stores order t' r).
  { intros t t' r Q (S1 & S2). split; auto. intros m c N. rewrite (S2 m c N).
    destruct (row_lt 3 c) as (C1 & C2); [apply SO; eapply nth_error_In; eauto|]. apply Q; auto. }
  destruct (stress_path_law 3 order_sym_3d (el_su props) el_start [("strain_mf"%string, length order)] noisy order order_3d SO (el_su_ext props)
    ltac:(repeat constructor; cbn; tauto) (fun _ => true) rows Eps ES) as (o & R1 & R2 & R3); auto.
  - intros k _. destruct (ST k) as (st & -> & _ & _ & C). exists (el_stress st). split; [reflexivity|]. rewrite C. reflexivity.
  - intros k f _ [<-|[]]. destruct (ST k) as (st & -> & _ & B & _). exists (el_strain st). split; [reflexivity|]. cbn [fst snd].
    replace (is_strain_var "strain_mf") with true by reflexivity. rewrite B. split; reflexivity.
  - exists o. split; auto.
    assert (NF : po_fail o = false).
    { destruct (po_fail o); auto. destruct (proj1 R2 eq_refl) as (k & _ & F). destruct (ST k) as (st & Q & _). rewrite Q in F. discriminate. }
    split; auto. destruct (R3 NF) as ((S1 & S2 & S3) & TA & _ & OT). split; auto. split.
    + intros k Hk. destruct k as [|k].
      * rewrite S2. apply ZERO. intros i j Hi Hj. unfold hooke, trace. cbn [rsum]. ring.
      * destruct (S3 (S k) ltac:(lia)) as (mf & t & D & K & SR). destruct (ST (S k)) as (st & Q & _ & _ & C). rewrite Q in D.
        injection D as <-. rewrite C in K. apply (EQS t); auto.
        apply (kelvin_unique 3 order_sym_3d order_3d _ _ _ K). apply kmf_kelvin, hooke_sym, SYM. auto.
    + destruct (TA ("strain_mf"%string, length order) (or_introl eq_refl) eq_refl) as (m & M & M1 & M2 & M3). exists m. split; [exact M|split; auto].
      intros k Hk. destruct k as [|k].
      * rewrite M2. cbn [snd]. apply ZERO. intros i j Hi Hj. lra.
      * destruct (M3 (S k) ltac:(lia)) as (w & D & _ & H). destruct (ST (S k)) as (st & Q & _ & B & _). rewrite Q in D.
           injection D as <-. cbn [fst] in H. replace (is_strain_var "strain_mf") with true in H by reflexivity. destruct H as (t & K & SR).
           rewrite B in K. apply (EQS t); auto. apply (kelvin_unique 3 order_sym_3d order_3d _ _ _ K). apply kmf_kelvin, SYM. auto.
Qed.
Definition const_path : list (list R) := [[1; 0; 0; 0; 0; 0]; [1; 0; 0; 0; 0; 0]].
Definition const_eps : nat -> T2 := fun _ i j => if Nat.eqb i 0 && Nat.eqb j 0 then 1 else 0.
Lemma const_stores : forall k, (k < 2)%nat -> symmetric 3 (const_eps k) /\ stores order_sym_3d (const_eps k) (nth k const_path []).
Proof.
  intros k Hk. assert (Q : nth k const_path [] = [1; 0; 0; 0; 0; 0]) by (destruct k as [|[|k]]; [reflexivity..|lia]). rewrite Q. split.
  - intros i j Hi Hj. unfold const_eps. destruct i, j; reflexivity.
  - split; [reflexivity|]. intros m c N. do 6 (destruct m as [|m]; [cbn in N; injection N as <-; reflexivity|]). destruct m; discriminate.
Qed.
(** The stress is not that of the strain stored with it when the first strain
    of the path is not null. *)
Theorem elastic_total_strain_refuted : exists E v props o,
  pget props PE = Some E /\ pget props Pv = Some v /\ 0 < E /\ 0 < v < 1 / 2 /\
  compute_stress_path 3 order_sym_3d (el_su props) el_start [("strain_mf"%string, 6%nat)] false order_sym_3d const_path = Ok o /\
  po_fail o = false /\ ~ stores order_sym_3d (hooke (lame_lambda E v) (lame_mu E v) (const_eps 1)) (nth 1 (po_stress o) []).
Proof.
  destruct (elastic_response_3d 1 (1 / 4) [(PE, 1); (Pv, 1 / 4)] order_sym_3d const_path const_eps false eq_refl eq_refl order_3d) as (o & E & F & _ & S & _);
    [cbn; lia|exact const_stores|].
  exists 1, (1 / 4), [(PE, 1); (Pv, 1 / 4)], o. repeat (split; [try reflexivity; lra|]). split; [exact E|]. split; [exact F|].
  intros (_ & B). destruct (S 1%nat) as (_ & A); [cbn; lia|]. specialize (A 0%nat (1, 1)%nat eq_refl). specialize (B 0%nat (1, 1)%nat eq_refl).
  rewrite A in B. unfold hooke, trace, ident, lame_lambda, lame_mu, const_eps in B. cbn in B. lra.
Qed.

(** ** Unavailable state variables *)
Definition plain_su (e : T2) (s : rc_state) : rc_state := {| rc_vars := [("stress_mf"%string, [e 0%nat 0%nat])]; rc_fail := false |}.
Definition plain_init : rc_state := {| rc_vars := [("stress_mf"%string, [0])]; rc_fail := false |}.
Notation plain noisy := (compute_stress_path 1 [(1, 1)%nat] plain_su plain_init [("acc_p_strain"%string, 1%nat)] noisy [(1, 1)%nat]).
(** Dropped for paths of two or more times, kept (as zeros) for one time; and
    the script for noisy data sets fails from the third time on. *)
Theorem unavailable_variable_refuted :
  (forall x o, plain false [[x]] = Ok o -> po_state o = [("acc_p_strain"%string, [[0]])]) /\
  (forall x y o, plain false [[x]; [y]] = Ok o -> po_state o = []) /\
  (forall x y z, plain true [[x]; [y]; [z]] = Err KeyError) /\
  (forall x y z, exists o, plain false [[x]; [y]; [z]] = Ok o /\ po_fail o = false /\ po_state o = []).
Proof.
  split; [|split; [|split]].
  - intros x o H. injection H as <-. reflexivity.
  - intros x y o H. lazy -[Rmult Rplus Rminus Rdiv Rinv IZR] in H. injection H as <-. reflexivity.
  - intros x y z. reflexivity.
  - intros x y z. eexists. split; [reflexivity|]. split; reflexivity.
Qed.
(** A strain path of three times. *)
Example ex_elastic_response : exists o,
  compute_stress_path 3 order_sym_3d (el_su [(PE, 5 / 2); (Pv, 1 / 4)]) el_start [("strain_mf"%string, 6%nat)] false order_sym_3d
    [[0; 0; 0; 0; 0; 0]; [1; 0; 0; 1; 0; 0]; [2; 1; 0; 0; 0; 0]] = Ok o /\
  po_stress o = [[0; 0; 0; 0; 0; 0]; [3; 1; 1; 2; 0; 0]; [7; 5; 3; 0; 0; 0]].
Proof.
  set (rows := [[0; 0; 0; 0; 0; 0]; [1; 0; 0; 1; 0; 0]; [2; 1; 0; 0; 0; 0]]).
  assert (ES : forall k, (k < length rows)%nat -> symmetric 3 (tensors order_sym_3d rows k) /\ stores order_sym_3d (tensors order_sym_3d rows k) (nth k rows [])).
  { intros k Hk. apply vbuild_reads; [apply order_3d|]. destruct k as [|[|[|k]]]; [reflexivity..|cbn in Hk; lia]. }
  destruct (elastic_response_3d (5 / 2) (1 / 4) [(PE, 5 / 2); (Pv, 1 / 4)] order_sym_3d rows _ false eq_refl eq_refl order_3d ltac:(cbn; lia) ES) as (o & E & _ & L & S & _).
  exists o. split; [exact E|]. apply (nth_ext _ _ [] []); [rewrite L; reflexivity|]. intros k Hk. rewrite L in Hk. destruct (S k Hk) as (L' & V).
  assert (Q : forall m c, nth_error order_sym_3d m = Some c -> hooke (lame_lambda (5 / 2) (1 / 4)) (lame_mu (5 / 2) (1 / 4))
      (fun i j => tensors order_sym_3d rows k i j - tensors order_sym_3d rows 0 i j) (fst c - 1)%nat (snd c - 1)%nat
      = nth m (nth k [[0; 0; 0; 0; 0; 0]; [3; 1; 1; 2; 0; 0]; [7; 5; 3; 0; 0; 0]] []) 0).
  { intros m c N. unfold hooke, trace, ident, lame_lambda, lame_mu, tensors, vbuild.
    do 6 (destruct m as [|m]; [cbn in N; injection N as <-; destruct k as [|[|[|k]]]; [cbn; lra..|cbn in Hk; lia]|]). destruct m; discriminate. }
  apply (nth_ext _ _ 0 0). { rewrite L'. destruct k as [|[|[|k]]]; [reflexivity..|cbn in Hk; lia]. }
  intros m Hm. rewrite L' in Hm. destruct (nth_error order_sym_3d m) as [c|] eqn:N; [|apply nth_error_None in N; lia].
  rewrite (V m c N). apply Q; auto.
Qed.
Print Assumptions stress_path_law.
Print Assumptions recurrent_model_agrees.
Print Assumptions elastic_response_3d.
