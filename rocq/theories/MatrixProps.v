(** Theorems about tensor storage in matricial form (C01 - C04). *)
From Coq Require Import Reals List Arith Bool Lia Lra Permutation.
From Verif Require Import Lib MatrixModel MatrixSpec MatrixProofs.
Import ListNotations.
Local Open Scope R_scope.

(** ** The default orders of the two problem types are admissible. *)
Ltac nodup_lit := repeat (constructor; [simpl; intuition congruence|]); constructor.

Example order_sym_2d_ok : sym_order 2 order_sym_2d.
Proof.
  split; [|split; [|split]].
  - nodup_lit.
  - unfold comp_in; simpl; intros c [<-|[<-|[<-|[]]]]; simpl; lia.
  - intros i j Hi Hj. assert (i = 1 \/ i = 2)%nat by lia. assert (j = 1 \/ j = 2)%nat by lia.
    destruct H as [-> | ->], H0 as [-> | ->]; simpl; tauto.
  - intros i j Hij I J; simpl in I, J; intuition congruence.
Qed.

Example order_sym_3d_ok : sym_order 3 order_sym_3d.
Proof.
  split; [|split; [|split]].
  - nodup_lit.
  - unfold comp_in; simpl; intros c H; repeat destruct H as [<-|H]; simpl; try lia.
  - intros i j Hi Hj. assert (i = 1 \/ i = 2 \/ i = 3)%nat by lia.
    assert (j = 1 \/ j = 2 \/ j = 3)%nat by lia.
    destruct H as [-> | [-> | ->]], H0 as [-> | [-> | ->]]; simpl; tauto.
  - intros i j Hij I J; simpl in I, J; intuition congruence.
Qed.

Example order_nsym_2d_ok : full_order 2 order_nsym_2d.
Proof.
  split.
  - nodup_lit.
  - unfold comp_in; intros [a b]; split; simpl.
    + intros H; repeat destruct H as [[= <- <-]|H]; simpl; try lia.
    + intros [H1 H2]. assert (a = 1 \/ a = 2)%nat by lia. assert (b = 1 \/ b = 2)%nat by lia.
      destruct H as [-> | ->], H0 as [-> | ->]; simpl; tauto.
Qed.

Example order_nsym_3d_ok : full_order 3 order_nsym_3d.
Proof.
  split.
  - nodup_lit.
  - unfold comp_in; intros [a b]; split; simpl.
    + intros H; repeat destruct H as [[= <- <-]|H]; simpl; try lia.
    + intros [H1 H2]. assert (a = 1 \/ a = 2 \/ a = 3)%nat by lia.
      assert (b = 1 \/ b = 2 \/ b = 3)%nat by lia.
      destruct H as [-> | [-> | ->]], H0 as [-> | [-> | ->]]; simpl; tauto.
Qed.

(** Every accepted problem type comes with admissible orders. *)
Theorem problem_type_orders pt n osym onsym :
  get_problem_type_parameters pt = Ok (n, osym, onsym) ->
  sym_order n osym /\ full_order n onsym.
Proof.
  unfold get_problem_type_parameters.
  destruct pt as [|[|[|[|[|pt]]]]]; intros H; inversion H; subst;
    auto using order_sym_2d_ok, order_sym_3d_ok, order_nsym_2d_ok, order_nsym_3d_ok.
Qed.

(** * C01: round trips *)

(** Second order, symmetric storage, Kelvin notation: storing and rebuilding a
    symmetric tensor is the identity. *)
Theorem mf2_roundtrip_sym n order t :
  sym_order n order -> symmetric n t ->
  exists mf t', get_tensor_mf2 t n order true = Ok mf /\
    get_tensor_from_mf2 mf n order true = Ok t' /\ eq2 n t' t.
Proof.
  intros H S. destruct (kelvin_sym_factor n order H) as (k & E & F & _).
  exists (map (fun c => kfac k c * t (row c) (col c)) order).
  destruct (from_mf2_sym (map (fun c => kfac k c * t (row c) (col c)) order) n order H)
    as (t' & Et & V); [apply map_length|].
  exists t'. split; [apply get_tensor_mf2_eq; auto using sym_order_ok|]. split; auto.
  intros i j Hi Hj. destruct (sym_order_locate n order i j H Hi Hj) as (m & Hm & L).
  specialize (V m Hm). simpl in V, L. rewrite nth_map_comp in V by auto.
  assert (I : In (nth m order (0,0)%nat) order) by (apply nth_In; auto).
  rewrite (F _ I) in V. destruct V as [V1 V2].
  pose proof (kf_pos (nth m order (0,0)%nat)).
  destruct L as [[<- <-]|[<- <-]].
  - rewrite V1. field; auto.
  - rewrite V2. rewrite (S (col _) (row _)) by auto. field; auto.
Qed.

(** Second order, full storage: storing and rebuilding any tensor is the
    identity, whatever the Kelvin flag. *)
Theorem mf2_roundtrip_full n order kelvin t :
  full_order n order ->
  exists mf t', get_tensor_mf2 t n order kelvin = Ok mf /\
    get_tensor_from_mf2 mf n order kelvin = Ok t' /\ eq2 n t' t.
Proof.
  intros H. pose proof (kelvin_flag_full n order kelvin H) as E.
  exists (map (fun c => kfac false c * t (row c) (col c)) order).
  destruct (from_mf2_full (map (fun c => kfac false c * t (row c) (col c)) order)
              n order kelvin H) as (t' & Et & V); [apply map_length|].
  exists t'. split; [apply get_tensor_mf2_eq; auto using full_order_ok|]. split; auto.
  intros i j Hi Hj. destruct (full_order_locate n order i j H Hi Hj) as (m & Hm & L).
  specialize (V m Hm). simpl in V, L. rewrite nth_map_comp in V by auto.
  destruct L as [<- <-]. rewrite V. unfold kfac. simpl. ring.
Qed.

(** Rebuilding then storing returns the same vector (nothing in the matricial
    form is lost), and the rebuilt tensor is symmetric. *)
Theorem mf2_roundtrip_back_sym n order mf :
  sym_order n order -> length mf = length order ->
  exists t, get_tensor_from_mf2 mf n order true = Ok t /\ symmetric n t /\
    get_tensor_mf2 t n order true = Ok mf.
Proof.
  intros H L. destruct (kelvin_sym_factor n order H) as (k & E & F & _).
  destruct (from_mf2_sym mf n order H L) as (t & Et & V).
  exists t. split; auto. split.
  - intros i j Hi Hj. destruct (sym_order_locate n order i j H Hi Hj) as (m & Hm & Lc).
    specialize (V m Hm). simpl in V, Lc. destruct V as [V1 V2].
    destruct Lc as [[<- <-]|[<- <-]]; congruence.
  - rewrite (get_tensor_mf2_eq _ _ _ _ k) by auto using sym_order_ok. f_equal.
    apply nth_ext with (d := 0) (d' := 0); [rewrite map_length; auto|].
    intros m Hm. rewrite map_length in Hm. rewrite nth_map_comp by auto.
    destruct (V m Hm) as [V1 _]. simpl in V1. rewrite V1, F by (apply nth_In; auto).
    pose proof (kf_pos (nth m order (0,0)%nat)). field; auto.
Qed.

Theorem mf2_roundtrip_back_full n order kelvin mf :
  full_order n order -> length mf = length order ->
  exists t, get_tensor_from_mf2 mf n order kelvin = Ok t /\
    get_tensor_mf2 t n order kelvin = Ok mf.
Proof.
  intros H L. pose proof (kelvin_flag_full n order kelvin H) as E.
  destruct (from_mf2_full mf n order kelvin H L) as (t & Et & V).
  exists t. split; auto.
  rewrite (get_tensor_mf2_eq _ _ _ _ false) by auto using full_order_ok. f_equal.
  apply nth_ext with (d := 0) (d' := 0); [rewrite map_length; auto|].
  intros m Hm. rewrite map_length in Hm. rewrite nth_map_comp by auto.
  pose proof (V m Hm) as V1. simpl in V1. rewrite V1. unfold kfac; simpl; ring.
Qed.

(** Fourth order. *)
Theorem mf4_roundtrip_sym n order t :
  sym_order n order -> minor_symmetric n t ->
  exists mf t', get_tensor_mf4 t n order true = Ok mf /\
    get_tensor_from_mf4 mf n order true = Ok t' /\ eq4 n t' t.
Proof.
  intros H S. destruct (kelvin_sym_factor n order H) as (k & E & F & _).
  set (f := fun c d => kfac k c * kfac k d * t (row c) (col c) (row d) (col d)).
  exists (map (fun c => map (fun d => f c d) order) order).
  destruct (from_mf4_sym _ n order H (mat_ok_map f order)) as (t' & Et & V).
  exists t'. split; [apply get_tensor_mf4_eq; auto using sym_order_ok|]. split; auto.
  intros i j a b Hi Hj Ha Hb.
  destruct (sym_order_locate n order i j H Hi Hj) as (p & Hp & Lp).
  destruct (sym_order_locate n order a b H Ha Hb) as (q & Hq & Lq).
  specialize (V p q Hp Hq). simpl in V, Lp, Lq. rewrite nth_map_comp2 in V by auto.
  unfold f in V. rewrite !F in V by (apply nth_In; auto).
  set (c := nth p order (0,0)%nat) in *. set (d := nth q order (0,0)%nat) in *.
  assert (K : 1 / (kf c * kf d) * (kf c * kf d * t (row c) (col c) (row d) (col d))
              = t (row c) (col c) (row d) (col d)).
  { pose proof (kf_pos c). pose proof (kf_pos d). field; auto. }
  rewrite K in V. destruct V as (V1 & V2 & V3 & V4).
  destruct Lp as [[<- <-]|[<- <-]], Lq as [[<- <-]|[<- <-]].
  - auto.
  - rewrite V3. destruct (S (row c) (col c) (row d) (col d)); auto.
  - rewrite V2. destruct (S (row c) (col c) (row d) (col d)); auto.
  - rewrite V4. destruct (S (row c) (col c) (row d) (col d)) as [S1 S2]; auto.
    destruct (S (col c) (row c) (row d) (col d)); auto. congruence.
Qed.

Theorem mf4_roundtrip_full n order kelvin t :
  full_order n order ->
  exists mf t', get_tensor_mf4 t n order kelvin = Ok mf /\
    get_tensor_from_mf4 mf n order kelvin = Ok t' /\ eq4 n t' t.
Proof.
  intros H. pose proof (kelvin_flag_full n order kelvin H) as E.
  set (f := fun c d => kfac false c * kfac false d * t (row c) (col c) (row d) (col d)).
  exists (map (fun c => map (fun d => f c d) order) order).
  destruct (from_mf4_full _ n order kelvin H (mat_ok_map f order)) as (t' & Et & V).
  exists t'. split; [apply get_tensor_mf4_eq; auto using full_order_ok|]. split; auto.
  intros i j a b Hi Hj Ha Hb.
  destruct (full_order_locate n order i j H Hi Hj) as (p & Hp & Lp).
  destruct (full_order_locate n order a b H Ha Hb) as (q & Hq & Lq).
  specialize (V p q Hp Hq). simpl in V, Lp, Lq. rewrite nth_map_comp2 in V by auto.
  destruct Lp as [<- <-], Lq as [<- <-]. rewrite V. unfold f, kfac. simpl. ring.
Qed.

Theorem mf4_roundtrip_back_sym n order mf :
  sym_order n order -> length mf = length order ->
  (forall r, In r mf -> length r = length order) ->
  exists t, get_tensor_from_mf4 mf n order true = Ok t /\ minor_symmetric n t /\
    get_tensor_mf4 t n order true = Ok mf.
Proof.
  intros H L1 L2. assert (M : mat_ok mf (length order)) by (split; auto).
  destruct (kelvin_sym_factor n order H) as (k & E & F & _).
  destruct (from_mf4_sym mf n order H M) as (t & Et & V).
  exists t. split; auto. split.
  - intros i j a b Hi Hj Ha Hb.
    destruct (sym_order_locate n order i j H Hi Hj) as (p & Hp & Lp).
    destruct (sym_order_locate n order a b H Ha Hb) as (q & Hq & Lq).
    specialize (V p q Hp Hq). simpl in V, Lp, Lq. destruct V as (V1 & V2 & V3 & V4).
    destruct Lp as [[<- <-]|[<- <-]], Lq as [[<- <-]|[<- <-]]; split; congruence.
  - rewrite (get_tensor_mf4_eq _ _ _ _ k) by auto using sym_order_ok. f_equal.
    apply mat_ext with (n := length order); auto.
    + apply map_length.
    + intros r I. apply in_map_iff in I. destruct I as (c & <- & _). apply map_length.
    + intros p q Hp Hq.
      rewrite (nth_map_comp2 (fun c d => kfac k c * kfac k d * t (row c) (col c) (row d) (col d))) by auto.
      destruct (V p q Hp Hq) as [V1 _]. simpl in V1.
      rewrite V1, !F by (apply nth_In; auto).
      pose proof (kf_pos (nth p order (0,0)%nat)).
      pose proof (kf_pos (nth q order (0,0)%nat)). field; auto.
Qed.

(** Without Kelvin notation the loop version does NOT rebuild the lower
    triangle of a symmetric tensor: the round trip is refuted. *)
Theorem mf2_roundtrip_sym_nokelvin_refuted :
  exists t mf t', symmetric 2 t /\
    get_tensor_mf2 t 2 order_sym_2d false = Ok mf /\
    get_tensor_from_mf2 mf 2 order_sym_2d false = Ok t' /\ ~ eq2 2 t' t.
Proof.
  exists (fun _ _ => 1). eexists. eexists.
  split; [intros i j _ _; auto|]. split; [reflexivity|]. split; [reflexivity|].
  intros H. specialize (H 1%nat 0%nat). unfold set2, zero2 in H. simpl in H.
  assert (0 = 1) by (apply H; lia). lra.
Qed.

(** A symmetric tensor stored without Kelvin notation is still stored without
    loss: the vectorised reader rebuilds it. *)
Theorem mf2_roundtrip_sym_vectorised n order kelvin t :
  sym_order n order -> symmetric n t ->
  exists mf t', vget_tensor_mf2 t n order kelvin = Ok mf /\
    vget_tensor_from_mf2 mf n order kelvin = Ok t' /\ eq2 n t' t.
Proof.
  intros H S. destruct (kelvin_flag_sym' n order kelvin H) as (k & E).
  exists (map (fun c => kfac k c * t (row c) (col c)) order). eexists.
  split; [apply vget_tensor_mf2_eq; auto|].
  split.
  { unfold vget_tensor_from_mf2. rewrite E. simpl.
    rewrite map_length, Nat.eqb_refl. simpl.
    rewrite (sym_index_total_sym n order H). simpl. reflexivity. }
  intros i j Hi Hj. destruct (sym_index_sym n order i j H Hi Hj) as [m Em].
  rewrite Em. apply sym_index_some in Em. simpl in Em. destruct Em as [Hm L].
  rewrite nth_map_comp by auto. pose proof (kfac_rev_pos k (nth m order (0,0)%nat)).
  destruct L as [[<- <-]|[<- <-]].
  - field; auto.
  - rewrite (S (col _)) by auto. field; auto.
Qed.

(** * C02: isometry and homomorphism *)
Theorem mf2_isometry_sym n order a b :
  sym_order n order -> symmetric n a -> symmetric n b ->
  exists ma mb, get_tensor_mf2 a n order true = Ok ma /\
    get_tensor_mf2 b n order true = Ok mb /\ dotl ma mb = ddot n a b.
Proof.
  intros H Sa Sb. destruct (kelvin_sym_factor n order H) as (k & E & F & _).
  do 2 eexists. split; [apply get_tensor_mf2_eq; eauto using sym_order_ok|].
  split; [apply get_tensor_mf2_eq; eauto using sym_order_ok|].
  rewrite dotl_map. unfold ddot. rewrite (sum2_sym_order n order); auto.
  - apply lsum_map_ext. intros c I. rewrite F by auto. ring.
  - intros i j Hi Hj. rewrite (Sa i j), (Sb i j); auto.
Qed.

Theorem mf2_isometry_full n order kelvin a b :
  full_order n order ->
  exists ma mb, get_tensor_mf2 a n order kelvin = Ok ma /\
    get_tensor_mf2 b n order kelvin = Ok mb /\ dotl ma mb = ddot n a b.
Proof.
  intros H. pose proof (kelvin_flag_full n order kelvin H).
  do 2 eexists. split; [apply get_tensor_mf2_eq; eauto using full_order_ok|].
  split; [apply get_tensor_mf2_eq; eauto using full_order_ok|].
  rewrite dotl_map. unfold ddot. rewrite (sum2_full_order n order); auto.
  apply lsum_map_ext. intros c I. unfold kfac. simpl. ring.
Qed.

Theorem mf4_matvec_sym n order c a :
  sym_order n order -> minor_symmetric n c -> symmetric n a ->
  exists mc ma mr, get_tensor_mf4 c n order true = Ok mc /\
    get_tensor_mf2 a n order true = Ok ma /\
    get_tensor_mf2 (ddot42 n c a) n order true = Ok mr /\ matvec mc ma = mr.
Proof.
  intros H Sc Sa. destruct (kelvin_sym_factor n order H) as (k & E & F & _).
  do 3 eexists. split; [apply get_tensor_mf4_eq; eauto using sym_order_ok|].
  split; [apply get_tensor_mf2_eq; eauto using sym_order_ok|].
  split; [apply get_tensor_mf2_eq; eauto using sym_order_ok|].
  unfold matvec. rewrite map_map. apply map_ext_in. intros x I.
  rewrite dotl_map. unfold ddot42.
  pose proof H as (_ & R & _). destruct (row_lt n x (R x I)).
  rewrite (sum2_sym_order n order); auto.
  - rewrite <- lsum_map_scal. apply lsum_map_ext. intros y Iy.
    rewrite !F by auto. ring.
  - intros i j Hi Hj. destruct (Sc (row x) (col x) i j) as [_ ->]; auto.
    rewrite (Sa i j); auto.
Qed.

Theorem mf4_matmul_sym n order c d :
  sym_order n order -> minor_symmetric n c -> minor_symmetric n d ->
  exists mc md mr, get_tensor_mf4 c n order true = Ok mc /\
    get_tensor_mf4 d n order true = Ok md /\
    get_tensor_mf4 (ddot44 n c d) n order true = Ok mr /\
    matmul mc md (length order) = mr.
Proof.
  intros H Sc Sd. destruct (kelvin_sym_factor n order H) as (k & E & F & _).
  set (f := fun t : T4 => fun c d => kfac k c * kfac k d * t (row c) (col c) (row d) (col d)).
  exists (map (fun x => map (fun y => f c x y) order) order),
         (map (fun x => map (fun y => f d x y) order) order),
         (map (fun x => map (fun y => f (ddot44 n c d) x y) order) order).
  split; [apply get_tensor_mf4_eq; auto using sym_order_ok|].
  split; [apply get_tensor_mf4_eq; auto using sym_order_ok|].
  split; [apply get_tensor_mf4_eq; auto using sym_order_ok|].
  unfold matmul. rewrite map_map. apply map_ext_in. intros x Ix.
  apply nth_ext with (d := 0) (d' := 0); [rewrite !map_length, seq_length; auto|].
  intros q Hq. rewrite !map_length, seq_length in Hq.
  rewrite nth_map_seq by auto. rewrite map_length.
  rewrite (nth_map_comp (fun y => f (ddot44 n c d) x y)) by auto.
  set (y := nth q order (0,0)%nat). assert (Iy : In y order) by (apply nth_In; auto).
  pose proof H as (_ & R & _).
  destruct (row_lt n x (R x Ix)). destruct (row_lt n y (R y Iy)).
  unfold f at 3, ddot44.
  rewrite (sum2_sym_order n order _ H).
  - rewrite <- lsum_map_scal, lsum_nth, map_length. apply rsum_ext. intros i Hi.
    rewrite (nth_map_comp (fun y0 => f c x y0)) by auto.
    rewrite nth_map_comp2 by auto. fold y.
    rewrite (nth_map_comp (fun z => kfac k x * kfac k y *
       (kf z * kf z * (c (row x) (col x) (row z) (col z) * d (row z) (col z) (row y) (col y))))) by auto.
    unfold f. rewrite !F by (auto; apply nth_In; auto). ring.
  - intros i j Hi Hj. destruct (Sc (row x) (col x) i j) as [_ ->]; auto.
    destruct (Sd i j (row y) (col y)) as [-> _]; auto.
Qed.

(** * C03: loop and vectorised versions agree *)
Theorem get_mf2_vectorised t n order kelvin :
  NoDup order -> (forall c, In c order -> comp_in n c) ->
  get_tensor_mf2 t n order kelvin = vget_tensor_mf2 t n order kelvin.
Proof.
  intros ND R. assert (O : order_ok n order = true) by (apply order_ok_iff; auto).
  destruct (kelvin_flag n order kelvin) as [k|e] eqn:E.
  - rewrite (get_tensor_mf2_eq _ _ _ _ k), (vget_tensor_mf2_eq _ _ _ _ k); auto.
  - unfold get_tensor_mf2, vget_tensor_mf2. rewrite O, E. reflexivity.
Qed.

Theorem get_mf4_vectorised t n order kelvin :
  NoDup order -> (forall c, In c order -> comp_in n c) ->
  get_tensor_mf4 t n order kelvin = vget_tensor_mf4 t n order kelvin.
Proof.
  intros ND R. assert (O : order_ok n order = true) by (apply order_ok_iff; auto).
  destruct (kelvin_flag n order kelvin) as [k|e] eqn:E.
  - rewrite (get_tensor_mf4_eq _ _ _ _ k), (vget_tensor_mf4_eq _ _ _ _ k); auto.
  - unfold get_tensor_mf4, vget_tensor_mf4. rewrite O, E. reflexivity.
Qed.

(** Partial: Kelvin notation only; without it see from_mf2_vectorised_nokelvin_refuted. *)
Theorem from_mf2_vectorised_sym_partial mf n order :
  sym_order n order -> length mf = length order ->
  exists t t', get_tensor_from_mf2 mf n order true = Ok t /\
    vget_tensor_from_mf2 mf n order true = Ok t' /\ eq2 n t t'.
Proof.
  intros H L. destruct (kelvin_sym_factor n order H) as (k & E & F & _).
  destruct (from_mf2_sym mf n order H L) as (t & Et & V).
  exists t. eexists. split; auto. split.
  { unfold vget_tensor_from_mf2. rewrite E. simpl. rewrite L, Nat.eqb_refl. simpl.
    rewrite (sym_index_total_sym n order H). reflexivity. }
  intros i j Hi Hj. destruct (sym_index_sym n order i j H Hi Hj) as [m Em].
  rewrite Em. apply sym_index_some in Em. simpl in Em. destruct Em as [Hm Lc].
  specialize (V m Hm). simpl in V. destruct V as [V1 V2].
  rewrite F by (apply nth_In; auto).
  destruct Lc as [[<- <-]|[<- <-]]; [rewrite V1|rewrite V2]; ring.
Qed.

Theorem from_mf2_vectorised_full mf n order kelvin :
  full_order n order -> length mf = length order ->
  exists t t', get_tensor_from_mf2 mf n order kelvin = Ok t /\
    vget_tensor_from_mf2 mf n order kelvin = Ok t' /\ eq2 n t t'.
Proof.
  intros H L. pose proof (kelvin_flag_full n order kelvin H) as E.
  destruct (from_mf2_full mf n order kelvin H L) as (t & Et & V).
  exists t. eexists. split; auto. split.
  { unfold vget_tensor_from_mf2. rewrite E. simpl. rewrite L, Nat.eqb_refl. simpl.
    rewrite (sym_index_total_full n order H). reflexivity. }
  intros i j Hi Hj. destruct (sym_index_full n order i j H Hi Hj) as (m & Em & Hm & <- & <-).
  rewrite Em. pose proof (V m Hm) as V1. simpl in V1. rewrite V1. unfold kfac. simpl. field.
Qed.

(** Partial: Kelvin notation only. *)
Theorem from_mf4_vectorised_sym_partial mf n order :
  sym_order n order -> length mf = length order ->
  (forall r, In r mf -> length r = length order) ->
  exists t t', get_tensor_from_mf4 mf n order true = Ok t /\
    vget_tensor_from_mf4 mf n order true = Ok t' /\ eq4 n t t'.
Proof.
  intros H L1 L2. assert (M : mat_ok mf (length order)) by (split; auto).
  destruct (kelvin_sym_factor n order H) as (k & E & F & _).
  destruct (from_mf4_sym mf n order H M) as (t & Et & V).
  exists t. eexists. split; auto. split.
  { unfold vget_tensor_from_mf4. rewrite E. simpl. rewrite (mat_ok_forallb mf _ M). simpl.
    rewrite (sym_index_total_sym n order H). reflexivity. }
  intros i j a b Hi Hj Ha Hb.
  destruct (sym_index_sym n order i j H Hi Hj) as [p Ep].
  destruct (sym_index_sym n order a b H Ha Hb) as [q Eq].
  rewrite Ep, Eq. apply sym_index_some in Ep, Eq. simpl in Ep, Eq.
  destruct Ep as [Hp Lp], Eq as [Hq Lq].
  specialize (V p q Hp Hq). simpl in V. destruct V as (V1 & V2 & V3 & V4).
  rewrite !F by (apply nth_In; auto).
  pose proof (kf_pos (nth p order (0,0)%nat)). pose proof (kf_pos (nth q order (0,0)%nat)).
  destruct Lp as [[<- <-]|[<- <-]], Lq as [[<- <-]|[<- <-]];
    [rewrite V1|rewrite V3|rewrite V2|rewrite V4]; field; auto.
Qed.

Theorem from_mf4_vectorised_full mf n order kelvin :
  full_order n order -> length mf = length order ->
  (forall r, In r mf -> length r = length order) ->
  exists t t', get_tensor_from_mf4 mf n order kelvin = Ok t /\
    vget_tensor_from_mf4 mf n order kelvin = Ok t' /\ eq4 n t t'.
Proof.
  intros H L1 L2. assert (M : mat_ok mf (length order)) by (split; auto).
  pose proof (kelvin_flag_full n order kelvin H) as E.
  destruct (from_mf4_full mf n order kelvin H M) as (t & Et & V).
  exists t. eexists. split; auto. split.
  { unfold vget_tensor_from_mf4. rewrite E. simpl. rewrite (mat_ok_forallb mf _ M). simpl.
    rewrite (sym_index_total_full n order H). reflexivity. }
  intros i j a b Hi Hj Ha Hb.
  destruct (sym_index_full n order i j H Hi Hj) as (p & Ep & Hp & <- & <-).
  destruct (sym_index_full n order a b H Ha Hb) as (q & Eq & Hq & <- & <-).
  rewrite Ep, Eq. pose proof (V p q Hp Hq) as V1. simpl in V1. rewrite V1.
  unfold kfac. simpl. field.
Qed.

(** The agreement fails for a symmetric order without Kelvin notation: the
    loop version leaves the transposed component at zero. *)
Theorem from_mf2_vectorised_nokelvin_refuted :
  exists mf t t', get_tensor_from_mf2 mf 2 order_sym_2d false = Ok t /\
    vget_tensor_from_mf2 mf 2 order_sym_2d false = Ok t' /\ ~ eq2 2 t t'.
Proof.
  exists [0; 0; 1]. eexists. eexists. split; [reflexivity|]. split; [reflexivity|].
  intros H. specialize (H 1%nat 0%nat). unfold set2, zero2, kfac in H. simpl in H.
  assert (0 = 1 * (1 / 1)) by (apply H; lia). lra.
Qed.

(** An accepted order need not be complete: the loop version silently drops
    component 22 of the order 11,12,21 (it has the size of a symmetric 2D
    order), while the vectorised reader raises. *)
Theorem incomplete_order_accepted :
  let order := [(1,1); (1,2); (2,1)]%nat in
  (forall t, exists mf t', get_tensor_mf2 t 2 order true = Ok mf /\
     get_tensor_from_mf2 mf 2 order true = Ok t' /\ t' 1%nat 1%nat = 0) /\
  (forall mf, length mf = 3%nat -> vget_tensor_from_mf2 mf 2 order true = Err ValueError).
Proof.
  intros order. split.
  - intros t. do 2 eexists. split; [reflexivity|]. split; [reflexivity|]. reflexivity.
  - intros mf L. unfold vget_tensor_from_mf2. simpl. rewrite L. reflexivity.
Qed.

(** * C04: 2D / 3D conversions *)

(** The 3D matricial form built from the 2D one is the matricial form of the
    tensor with zero out-of-plane shear and the given 33 entry. *)
Theorem state_3d_from_2d_sym a c33 pt :
  pt <> 3%nat -> pt <> 4%nat ->
  exists mf2 mf3, get_tensor_mf2 a 2 order_sym_2d true = Ok mf2 /\
    get_state_3Dmf_from_2Dmf pt mf2 c33 = Ok mf3 /\
    get_tensor_mf2 (embed3 a c33) 3 order_sym_3d true = Ok mf3.
Proof.
  intros H3 H4. do 2 eexists. split; [reflexivity|].
  unfold get_state_3Dmf_from_2Dmf. simpl length. cbn [Nat.eqb pick_orders].
  apply Nat.eqb_neq in H3, H4. rewrite H3, H4. split; [reflexivity|].
  cbv -[sqrt Rmult Rplus IZR]. do 2 f_equal.
  repeat (f_equal; try ring).
Qed.

Theorem state_3d_from_2d_nsym a c33 pt :
  pt <> 3%nat -> pt <> 4%nat ->
  exists mf2 mf3, get_tensor_mf2 a 2 order_nsym_2d true = Ok mf2 /\
    get_state_3Dmf_from_2Dmf pt mf2 c33 = Ok mf3 /\
    get_tensor_mf2 (embed3 a c33) 3 order_nsym_3d true = Ok mf3.
Proof.
  intros H3 H4. do 2 eexists. split; [reflexivity|].
  unfold get_state_3Dmf_from_2Dmf. simpl length. cbn [Nat.eqb pick_orders].
  apply Nat.eqb_neq in H3, H4. rewrite H3, H4. split; [reflexivity|].
  cbv -[sqrt Rmult Rplus IZR]. do 2 f_equal.
  repeat (f_equal; try ring).
Qed.

(** 2D -> 3D -> 2D is the identity on every 2D vector. *)
Theorem state_2d_3d_roundtrip mf2 c33 pt :
  (length mf2 = 3 \/ length mf2 = 4)%nat -> pt <> 3%nat -> pt <> 4%nat ->
  exists mf3, get_state_3Dmf_from_2Dmf pt mf2 c33 = Ok mf3 /\
    get_state_2Dmf_from_3Dmf mf3 = Ok mf2.
Proof.
  intros L H3 H4. unfold get_state_3Dmf_from_2Dmf.
  apply Nat.eqb_neq in H3, H4.
  destruct L as [L|L];
    repeat (destruct mf2 as [|? mf2]; [discriminate|]);
    (destruct mf2; [|discriminate]); eexists; simpl; rewrite H3, H4; split; reflexivity.
Qed.

(** 3D -> 2D keeps exactly the in-plane entries of the stored tensor. *)
Theorem state_2d_from_3d_sym t :
  exists mf3 mf2, get_tensor_mf2 t 3 order_sym_3d true = Ok mf3 /\
    get_state_2Dmf_from_3Dmf mf3 = Ok mf2 /\
    get_tensor_mf2 t 2 order_sym_2d true = Ok mf2.
Proof. do 2 eexists. repeat split; reflexivity. Qed.

Theorem state_2d_from_3d_nsym t :
  exists mf3 mf2, get_tensor_mf2 t 3 order_nsym_3d true = Ok mf3 /\
    get_state_2Dmf_from_3Dmf mf3 = Ok mf2 /\
    get_tensor_mf2 t 2 order_nsym_2d true = Ok mf2.
Proof. do 2 eexists. repeat split; reflexivity. Qed.

(** Same for fourth-order tensors (tangent moduli). *)
Theorem state_2d_from_3d_mat_sym t :
  exists mf3 mf2, get_tensor_mf4 t 3 order_sym_3d true = Ok mf3 /\
    get_state_2Dmf_from_3Dmf_mat mf3 = Ok mf2 /\
    get_tensor_mf4 t 2 order_sym_2d true = Ok mf2.
Proof. do 2 eexists. repeat split; reflexivity. Qed.

(** Vectorised versions agree with the loop versions. *)
Theorem state_3d_vectorised mf2 c33 pt :
  (length mf2 = 3 \/ length mf2 = 4)%nat -> pt <> 3%nat -> pt <> 4%nat ->
  get_state_3Dmf_from_2Dmf pt mf2 c33 = vget_state_3Dmf_from_2Dmf mf2 c33.
Proof.
  intros L H3 H4. unfold get_state_3Dmf_from_2Dmf, vget_state_3Dmf_from_2Dmf.
  apply Nat.eqb_neq in H3, H4.
  destruct L as [L|L];
    repeat (destruct mf2 as [|? mf2]; [discriminate|]);
    (destruct mf2; [|discriminate]); simpl; rewrite H3, H4; simpl;
    f_equal; repeat (f_equal; try ring).
Qed.

Theorem state_2d_vectorised mf3 :
  (length mf3 = 6 \/ length mf3 = 9)%nat ->
  get_state_2Dmf_from_3Dmf mf3 = vget_state_2Dmf_from_3Dmf mf3.
Proof.
  intros L.
  destruct L as [L|L];
    repeat (destruct mf3 as [|? mf3]; [discriminate|]);
    (destruct mf3; [|discriminate]); reflexivity.
Qed.

Theorem state_2d_mat_vectorised mf3 :
  (length mf3 = 6 \/ length mf3 = 9)%nat ->
  get_state_2Dmf_from_3Dmf_mat mf3 = vget_state_2Dmf_from_3Dmf_mat mf3.
Proof.
  intros L.
  destruct L as [L|L];
    repeat (destruct mf3 as [|? mf3]; [discriminate|]);
    (destruct mf3; [|discriminate]); reflexivity.
Qed.

(** Non-vacuity: a concrete symmetric tensor, an order different from the
    default one, and the resulting vector. *)
Example mf2_example :
  let t : T2 := fun i j => INR (i + j) in
  symmetric 2 t /\ sym_order 2 [(2,1); (1,1); (2,2)]%nat /\
  get_tensor_mf2 t 2 [(2,1); (1,1); (2,2)]%nat true
  = Ok [sqrt 2 * 1; 1 * 0; 1 * 2].
Proof.
  intros t. split; [|split].
  - intros i j _ _. unfold t. rewrite Nat.add_comm; auto.
  - split; [|split; [|split]].
    + nodup_lit.
    + unfold comp_in; simpl; intros c [<-|[<-|[<-|[]]]]; simpl; lia.
    + intros i j Hi Hj. assert (i = 1 \/ i = 2)%nat by lia. assert (j = 1 \/ j = 2)%nat by lia.
      destruct H as [-> | ->], H0 as [-> | ->]; simpl; tauto.
    + intros i j Hij I J; simpl in I, J; intuition congruence.
  - cbv -[sqrt Rmult Rplus IZR INR]. unfold INR. do 2 f_equal.
Qed.

(** A minor-symmetric fourth-order tensor that is not constant. *)
Example minor_symmetric_example :
  minor_symmetric 3 (fun i j k l => INR (i + j) + INR (k * l)).
Proof.
  intros i j k l _ _ _ _. rewrite (Nat.add_comm i j), (Nat.mul_comm k l). auto.
Qed.

Print Assumptions mf2_roundtrip_sym.
Print Assumptions mf4_roundtrip_sym.
Print Assumptions mf4_matmul_sym.
Print Assumptions from_mf4_vectorised_full.
Print Assumptions state_3d_vectorised.
