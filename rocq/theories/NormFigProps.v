(** Norms, increments, distributions and pairs of strain paths (C143). *)
From Coq Require Import String Reals List Bool Arith Lia Lra.
From Verif Require Import Lib PyDict PyStr MatrixModel MatrixSpec MatrixProps FeaturesSpec ResponseModel ResponseProps StressSpaceModel EqPathModel EqPathProps DataPlotModel DataPlotProps NormFigModel.
Import ListNotations.
Local Open Scope string_scope.
Local Open Scope list_scope.
Local Open Scope R_scope.

(** The norm of a tensor. *)
Definition tnorm (n : nat) (e : T2) : R := sqrt (rsum n (fun i => rsum n (fun j => e i j ^ 2))).
Lemma frob_norm n a b : eq2 n a b -> frobenius n a = tnorm n b.
Proof.
  intros Q. unfold frobenius, tnorm, sum2. f_equal. apply rsum_ext. intros i I. apply rsum_ext. intros j J. rewrite (Q i j) by lia. ring.
Qed.
(** A path of symmetric tensors, stored by components. *)
Definition tensors (n : nat) (order : list comp) (t : list R) (rows : list (list R)) (E : nat -> T2) : Prop :=
  length rows = length t /\ forall i, (i < length t)%nat -> symmetric n (E i) /\ exists e, nth_error rows i = Some e /\ stores order (E i) e.

Section Laws.
  Variables (n : nat) (order : list comp).
  Hypothesis ORD : sym_order n order.
  Lemma row_reads t rows E i : tensors n order t rows E -> (i < length t)%nat -> exists u, row_tensor true n order rows i = Ok u /\ eq2 n u (E i).
  Proof.
    intros (_ & P) I. destruct (P i I) as (S & e & He & St). unfold row_tensor. rewrite He.
    destruct (build_tensor_reads n order (E i) e ORD S St) as (u & -> & U). eauto.
  Qed.
  Lemma norm_value m t rows E : tensors n order t rows E ->
    norm_column true n order m t rows = Ok (map (fun i => Some (nth i t 0, tnorm n (E i))) (seq 0 (length t)) ++ repeat None (m - length t)).
  Proof.
    intros P. unfold norm_column.
    rewrite (map_ok _ (fun it => Some (snd it, tnorm n (E (fst it))))).
    - cbn [rbind]. unfold pad. rewrite map_length, combine_length, seq_length, Nat.min_id. f_equal. f_equal.
      apply nth_ext with (d := None) (d' := None); [rewrite !map_length, combine_length, !seq_length; lia|]. intros i I.
      rewrite map_length, combine_length, seq_length, Nat.min_id in I.
      rewrite (nth_indep _ None (Some (snd (0%nat, 0), tnorm n (E (fst (0%nat, 0)))))) by (rewrite map_length, combine_length, seq_length; lia).
      rewrite (map_nth (fun it => Some (snd it, tnorm n (E (fst it))))). rewrite combine_nth by apply seq_length. rewrite seq_nth by exact I. cbn [fst snd Nat.add].
      rewrite (nth_indep _ None (Some (nth 0 t 0, tnorm n (E 0%nat)))) by (rewrite map_length, seq_length; exact I).
      rewrite (map_nth (fun i => Some (nth i t 0, tnorm n (E i)))). rewrite seq_nth by exact I. reflexivity.
    - intros [i x] I. apply in_combine_l, in_seq in I. cbn [fst snd]. destruct (row_reads t rows E i P) as (u & -> & U); [lia|]. cbn [rbind].
      rewrite (frob_norm n u (E i) U). reflexivity.
  Qed.
  Lemma time_le (ts : list (list R)) t : In t ts -> (length t <= n_time_max ts)%nat.
  Proof.
    unfold n_time_max. intros I. pose proof (proj1 (list_max_le (map (@length R) ts) (list_max (map (@length R) ts))) (le_n _)) as F.
    rewrite Forall_forall in F. apply F, in_map, I.
  Qed.
  Lemma pairwise {A B C} (f : A * B -> res C) (g : nat -> C) : forall (l : list A) (l' : list B) s, length l = length l' ->
    (forall k a b, nth_error l k = Some a -> nth_error l' k = Some b -> f (a, b) = Ok (g (s + k)%nat)) -> rmap f (combine l l') = Ok (map g (seq s (length l))).
  Proof.
    induction l as [|a l IH]; intros [|b l'] s L H; try discriminate; [reflexivity|]. cbn [combine rmap length seq map].
    rewrite (H 0%nat a b eq_refl eq_refl), Nat.add_0_r. cbn [rbind]. rewrite (IH l' (S s)); [reflexivity|cbn in L; lia|].
    intros k x y Ex Ey. rewrite (H (S k) x y Ex Ey). f_equal. f_equal. lia.
  Qed.
  Definition all_tensors (times : list (list R)) (paths : list (list (list R))) (E : nat -> nat -> T2) : Prop :=
    length times = length paths /\ forall k t p, nth_error times k = Some t -> nth_error paths k = Some p -> tensors n order t p (E k).
  (** Every path has its curve: the norm of its tensor at each of its times and
      nothing after its last time. *)
  Theorem norm_figure_law : forall times paths E, all_tensors times paths E ->
    exists cs, norm_figure true n order times paths = Ok cs /\ length cs = length times /\
    forall k t, nth_error times k = Some t -> exists c, nth_error cs k = Some c /\
      (forall i, (i < length t)%nat -> nth_error c i = Some (Some (nth i t 0, tnorm n (E k i)))) /\
      (forall i x, nth_error c i = Some (Some x) -> (i < length t)%nat).
  Proof.
    intros times paths E (L & H). unfold norm_figure. set (m := n_time_max times).
    set (g := fun k => map (fun i => Some (nth i (nth k times []) 0, tnorm n (E k i))) (seq 0 (length (nth k times []))) ++ repeat None (m - length (nth k times []))).
    rewrite (pairwise _ g times paths 0%nat L).
    - eexists. split; [reflexivity|]. split; [rewrite map_length, seq_length; reflexivity|]. intros k t Et.
      assert (K : (k < length times)%nat) by (apply nth_error_Some; congruence).
      exists (g k). split; [rewrite (map_nth_error g k (seq 0 (length times)) (d := k)); [reflexivity|]; rewrite (nth_error_nth' _ 0%nat) by (rewrite seq_length; exact K); rewrite seq_nth by exact K; reflexivity|].
      unfold g. rewrite (nth_error_nth _ _ _ Et). split.
      + intros i I. rewrite nth_error_app1 by (rewrite map_length, seq_length; exact I).
        apply (map_nth_error (fun i => Some (nth i t 0, tnorm n (E k i)))). rewrite (nth_error_nth' _ 0%nat) by (rewrite seq_length; exact I). rewrite seq_nth by exact I. reflexivity.
      + intros i x Q. destruct (Nat.lt_ge_cases i (length t)) as [|G]; [assumption|]. rewrite nth_error_app2 in Q by (rewrite map_length, seq_length; exact G).
        apply nth_error_In, repeat_spec in Q. discriminate.
    - intros k t p Et Ep. cbn [fst snd Nat.add]. rewrite (norm_value m t p (E k) (H k t p Et Ep)). unfold g. rewrite (nth_error_nth _ _ _ Et). reflexivity.
  Qed.
  (** The distribution of the norms: the values that are not missing are the
      norms of all paths at all their times. *)
  Theorem norm_hist_law : forall times paths E, all_tensors times paths E ->
    exists l, norm_hist true n order times paths = Ok l /\
    flat_map (fun x => match x with Some v => [v] | None => [] end) l = concat (map (fun k => map (fun i => tnorm n (E k i)) (seq 0 (length (nth k times [])))) (seq 0 (length times))).
  Proof.
    intros times paths E (L & H). unfold norm_hist, norm_figure. set (m := n_time_max times).
    set (g := fun k => map (fun i => Some (nth i (nth k times []) 0, tnorm n (E k i))) (seq 0 (length (nth k times []))) ++ repeat None (m - length (nth k times []))).
    rewrite (pairwise _ g times paths 0%nat L).
    2:{ intros k t p Et Ep. cbn [fst snd Nat.add]. rewrite (norm_value m t p (E k) (H k t p Et Ep)). unfold g. rewrite (nth_error_nth _ _ _ Et). reflexivity. }
    cbn [rbind]. eexists. split; [reflexivity|]. generalize (seq 0 (length times)) as ks. intros ks.
    induction ks as [|k ks IH]; [reflexivity|]. cbn [map concat]. rewrite flat_map_app, IH. f_equal. unfold g. rewrite map_app, flat_map_app.
    assert (Z : forall q, flat_map (fun x : option R => match x with Some v => [v] | None => [] end) (map (option_map snd) (repeat (@None (R * R)) q)) = []) by (induction q; [reflexivity|assumption]).
    rewrite Z, app_nil_r. generalize (seq 0 (length (nth k times []))) as is. intros is. induction is as [|i is IHi]; [reflexivity|]. cbn [map flat_map option_map snd app]. rewrite IHi. reflexivity.
  Qed.
  Lemma inc_value m t rows E : tensors n order t rows E -> (0 < length t)%nat ->
    inc_column true n order m t rows = Ok (((0, 0) :: map (fun i => (nth i t 0, tnorm n (fun a b => E i a b - E (i - 1)%nat a b))) (seq 1 (length t - 1))) ++ repeat (0, 0) (m - length t)).
  Proof.
    intros P L. unfold inc_column. rewrite (map_ok _ (fun i => (nth i t 0, tnorm n (fun a b => E i a b - E (i - 1)%nat a b)))).
    - cbn [rbind]. unfold pad. cbn [length]. rewrite map_length, seq_length. replace (S (length t - 1)) with (length t) by lia. reflexivity.
    - intros i I. apply in_seq in I. unfold inc_point. rewrite (nth_error_nth' t 0) by lia.
      destruct (row_reads t rows E i P) as (u & -> & U); [lia|]. destruct (row_reads t rows E (i - 1)%nat P) as (v & -> & V); [lia|]. cbn [rbind].
      rewrite (frob_norm n _ (fun a b => E i a b - E (i - 1)%nat a b)); [reflexivity|]. intros a b A B. rewrite (U a b A B), (V a b A B). reflexivity.
  Qed.
  (** Every path has its curve of increments: from the second time on the norm of
      the difference to the time before. *)
  Theorem inc_figure_law : forall times paths E, all_tensors times paths E -> (forall t, In t times -> (0 < length t)%nat) ->
    exists cs, inc_figure true n order times paths = Ok cs /\ length cs = length times /\
    forall k t, nth_error times k = Some t -> exists c, nth_error cs k = Some c /\ length c = n_time_max times /\ nth_error c 0 = Some (0, 0) /\
      (forall i, (S i < length t)%nat -> nth_error c (S i) = Some (nth (S i) t 0, tnorm n (fun a b => E k (S i) a b - E k i a b))) /\
      (forall i, (length t <= i < n_time_max times)%nat -> nth_error c i = Some (0, 0)).
  Proof.
    intros times paths E (L & H) POS. unfold inc_figure. set (m := n_time_max times).
    set (g := fun k => let t := nth k times [] in ((0, 0) :: map (fun i => (nth i t 0, tnorm n (fun a b => E k i a b - E k (i - 1)%nat a b))) (seq 1 (length t - 1))) ++ repeat (0, 0) (m - length t)).
    rewrite (pairwise _ g times paths 0%nat L).
    - eexists. split; [reflexivity|]. split; [rewrite map_length, seq_length; reflexivity|]. intros k t Et.
      assert (K : (k < length times)%nat) by (apply nth_error_Some; congruence).
      pose proof (POS t (nth_error_In _ _ Et)) as Pt. pose proof (time_le times t (nth_error_In _ _ Et)) as Mt. fold m in Mt.
      exists (g k). split; [rewrite (map_nth_error g k (seq 0 (length times)) (d := k)); [reflexivity|]; rewrite (nth_error_nth' _ 0%nat) by (rewrite seq_length; exact K); rewrite seq_nth by exact K; reflexivity|].
      unfold g. rewrite (nth_error_nth _ _ _ Et). cbv zeta. split; [rewrite app_length; cbn [length]; rewrite map_length, seq_length, repeat_length; lia|]. split; [reflexivity|]. split.
      + intros i I. cbn [app nth_error]. rewrite nth_error_app1 by (rewrite map_length, seq_length; lia).
        rewrite (map_nth_error (fun i => (nth i t 0, tnorm n (fun a b => E k i a b - E k (i - 1)%nat a b))) i (seq 1 (length t - 1)) (d := S i)).
        * replace (S i - 1)%nat with i by lia. reflexivity.
        * rewrite (nth_error_nth' _ 0%nat) by (rewrite seq_length; lia). rewrite seq_nth by lia. reflexivity.
      + intros i I. rewrite nth_error_app2 by (cbn [length]; rewrite map_length, seq_length; lia). cbn [length]. rewrite map_length, seq_length.
        apply nth_error_repeat. lia.
    - intros k t p Et Ep. cbn [fst snd Nat.add]. rewrite (inc_value m t p (E k) (H k t p Et Ep)) by (apply POS, (nth_error_In _ _ Et)). unfold g. rewrite (nth_error_nth _ _ _ Et). reflexivity.
  Qed.
  (** Refuted: a shown point belongs to a time of its path.  A shorter path goes
      back to the origin, and so does every path at its first time, whatever this
      time is. *)
  Theorem inc_origin_refuted : forall times paths E k t, all_tensors times paths E -> (forall t, In t times -> (0 < length t)%nat) ->
    nth_error times k = Some t -> exists cs c, inc_figure true n order times paths = Ok cs /\ nth_error cs k = Some c /\ nth_error c 0 = Some (0, 0) /\
    ((length t < n_time_max times)%nat -> nth_error c (length t) = Some (0, 0)).
  Proof.
    intros times paths E k t A P Et. destruct (inc_figure_law times paths E A P) as (cs & E1 & _ & Q). destruct (Q k t Et) as (c & C1 & _ & C2 & _ & C3).
    exists cs, c. repeat split; auto.
  Qed.
  (** Refuted: the distribution is that of the increments.  It has one more value
      for each path, a zero. *)
  Theorem inc_hist_refuted : forall times paths E, all_tensors times paths E -> (forall t, In t times -> (0 < length t)%nat) ->
    inc_hist true n order times paths = Ok (concat (map (fun k => 0 :: map (fun i => tnorm n (fun a b => E k (S i) a b - E k i a b)) (seq 0 (length (nth k times []) - 1))) (seq 0 (length times)))).
  Proof.
    intros times paths E (L & H) POS. unfold inc_hist, inc_figure. set (m := n_time_max times).
    set (g := fun k => let t := nth k times [] in ((0, 0) :: map (fun i => (nth i t 0, tnorm n (fun a b => E k i a b - E k (i - 1)%nat a b))) (seq 1 (length t - 1))) ++ repeat (0, 0) (m - length t)).
    rewrite (pairwise _ g times paths 0%nat L).
    2:{ intros k t p Et Ep. cbn [fst snd Nat.add]. rewrite (inc_value m t p (E k) (H k t p Et Ep)) by (apply POS, (nth_error_In _ _ Et)). unfold g. rewrite (nth_error_nth _ _ _ Et). reflexivity. }
    cbn [rbind]. f_equal. f_equal.
    assert (X : forall s (l : list (list R)), (forall k, (k < length l)%nat -> nth (s + k) times [] = nth k l []) -> (forall t, In t l -> (0 < length t)%nat) ->
      map (fun tc => firstn (length (fst tc)) (map snd (snd tc))) (combine l (map g (seq s (length l)))) =
      map (fun k => 0 :: map (fun i => tnorm n (fun a b => E k (S i) a b - E k i a b)) (seq 0 (length (nth k times []) - 1))) (seq s (length l))).
    { intros s l. revert s. induction l as [|t l IH]; intros s Q P; [reflexivity|]. cbn [length seq map combine fst snd]. f_equal.
      - unfold g. specialize (Q 0%nat ltac:(cbn; lia)). rewrite Nat.add_0_r in Q. cbn [nth] in Q. rewrite Q. cbv zeta. specialize (P t (or_introl eq_refl)).
        rewrite map_app. rewrite firstn_app, firstn_all2 by (rewrite map_length; cbn [length]; rewrite map_length, seq_length; lia).
        rewrite map_length. cbn [length]. rewrite map_length, seq_length. replace (length t - S (length t - 1))%nat with 0%nat by lia. cbn [firstn]. rewrite app_nil_r.
        cbn [map snd]. f_equal. rewrite map_map. rewrite <- seq_shift, map_map. apply map_ext. intros i. cbn [snd]. replace (S i - 1)%nat with i by lia. reflexivity.
      - apply IH; [|intros x I; apply P; right; exact I]. intros k K. specialize (Q (S k) ltac:(cbn; lia)). cbn [nth] in Q. rewrite <- Q. f_equal. lia. }
    apply (X 0%nat times); [intros; reflexivity|exact POS].
  Qed.
End Laws.
(** Finite strains: no increments are shown for a path of two times or more. *)
Theorem finite_increments_refused : forall n order times paths, (exists k t, nth_error times k = Some t /\ (1 < length t)%nat) -> length times = length paths ->
  forall cs, inc_figure false n order times paths <> Ok cs.
Proof.
  intros n order times paths (k & t & Et & Lt) L cs E. unfold inc_figure in E. apply rmap_ok in E.
  destruct (nth_error paths k) as [p|] eqn:Ep; [|apply nth_error_None in Ep; assert (k < length times)%nat by (apply nth_error_Some; congruence); lia].
  assert (I : In (t, p) (combine times paths)).
  { clear - Et Ep. revert paths k Et Ep. induction times as [|a l IH]; intros [|b l'] [|k] E1 E2; try discriminate; cbn in *; [left; congruence|right; eauto]. }
  assert (Z : exists c, inc_column false n order (n_time_max times) t p = Ok c).
  { clear - E I. induction E as [|a b l r H F IH]; [destruct I|]. destruct I as [->|I]; [exists b; exact H|auto]. }
  destruct Z as [c Z]. unfold inc_column in Z. destruct (length t) as [|[|j]] eqn:Lj; [lia|lia|]. cbn [Nat.sub seq rmap] in Z. unfold inc_point at 1 in Z.
  destruct (nth_error t 1); [|discriminate]. destruct (row_tensor false n order p 1); [|discriminate]. destruct (row_tensor false n order p (1 - 1)); discriminate.
Qed.
(** The distribution of a component has its values in all paths. *)
Theorem comp_hists_law : forall order what paths, Forall (Forall (fun r => (length order <= length r)%nat)) paths ->
  exists hs, comp_hists order what paths = Ok hs /\ length hs = length order /\
  forall j c, nth_error order j = Some c -> nth_error hs j = Some ((what ++ " " ++ comp_name c)%string, map (fun r => nth j r 0) (concat paths)).
Proof.
  intros order what paths F. unfold comp_hists.
  rewrite (map_ok _ (fun jc : nat * comp => ((what ++ " " ++ comp_name (snd jc))%string, map (fun r => nth (fst jc) r 0) (concat paths)))).
  - eexists. split; [reflexivity|]. split; [rewrite map_length, combine_length, seq_length; lia|]. intros j c E.
    assert (Lj : (j < length order)%nat) by (apply nth_error_Some; congruence).
    rewrite (map_nth_error _ j (combine (seq 0 (length order)) order) (d := (j, c))); [reflexivity|].
    rewrite (nth_error_nth' _ (0%nat, c)) by (rewrite combine_length, seq_length; lia).
    rewrite combine_nth by apply seq_length. rewrite seq_nth by exact Lj. rewrite (nth_error_nth _ _ _ E). reflexivity.
  - intros [j c] I. apply in_combine_l, in_seq in I. cbn [fst snd]. rewrite (map_ok _ (fun p => map (fun r => nth j r 0) p)).
    + cbn [rbind]. rewrite concat_map. reflexivity.
    + intros p Ip. rewrite Forall_forall in F. apply (column_ok p j (length order)); [apply F, Ip|lia].
Qed.

(** The pairs: both components of every path at each of its times. *)
Lemma index_of l c j : NoDup l -> nth_error l j = Some c -> comp_index l c = Ok j.
Proof.
  revert j. induction l as [|d l IH]; intros j ND E; [destruct j; discriminate|]. inversion ND; subst. cbn [comp_index]. unfold comp_eqb.
  destruct j as [|j]; cbn in E.
  - injection E as ->. rewrite !Nat.eqb_refl. reflexivity.
  - destruct (Nat.eqb_spec (fst c) (fst d)), (Nat.eqb_spec (snd c) (snd d)); cbn [andb]; try (rewrite (IH j) by assumption; reflexivity).
    exfalso. apply H1. destruct c, d; cbn in *; subst. eapply nth_error_In, E.
Qed.
Theorem pair_figure_law : forall order times paths cx cy jx jy, NoDup order -> nth_error order jx = Some cx -> nth_error order jy = Some cy ->
  length times = length paths ->
  (forall k t p, nth_error times k = Some t -> nth_error paths k = Some p -> length p = length t /\ Forall (fun r => (length order <= length r)%nat) p) ->
  exists cs, pair_figure order times paths (cx, cy) = Ok cs /\ length cs = length times /\
  forall k t p, nth_error times k = Some t -> nth_error paths k = Some p -> exists c, nth_error cs k = Some c /\
    (forall i, (i < length t)%nat -> nth_error c i = Some (Some (nth jx (nth i p []) 0, nth jy (nth i p []) 0))) /\
    (forall i x, nth_error c i = Some (Some x) -> (i < length t)%nat).
Proof.
  intros order times paths cx cy jx jy ND Ex Ey L H. unfold pair_figure. cbn [fst snd]. rewrite (index_of _ _ _ ND Ex), (index_of _ _ _ ND Ey). cbn [rbind].
  set (m := n_time_max times).
  set (g := fun k => pad None m (map Some (combine (map (fun r => nth jx r 0) (nth k paths [])) (map (fun r => nth jy r 0) (nth k paths []))))).
  assert (Lx : (jx < length order)%nat) by (apply nth_error_Some; congruence). assert (Ly : (jy < length order)%nat) by (apply nth_error_Some; congruence).
  rewrite (pairwise _ g times paths 0%nat L).
  - eexists. split; [reflexivity|]. split; [rewrite map_length, seq_length; reflexivity|]. intros k t p Et Ep. destruct (H k t p Et Ep) as (Lp & _).
    assert (K : (k < length times)%nat) by (apply nth_error_Some; congruence).
    exists (g k). split; [rewrite (map_nth_error g k (seq 0 (length times)) (d := k)); [reflexivity|]; rewrite (nth_error_nth' _ 0%nat) by (rewrite seq_length; exact K); rewrite seq_nth by exact K; reflexivity|].
    unfold g, pad. rewrite (nth_error_nth _ _ _ Ep). split.
    + intros i I. rewrite nth_error_app1 by (rewrite map_length, combine_length, !map_length; lia). apply map_nth_error.
      rewrite (nth_error_nth' _ (nth jx [] 0, nth jy [] 0)) by (rewrite combine_length, !map_length; lia). rewrite combine_nth by (rewrite !map_length; reflexivity).
      rewrite (map_nth (fun r => nth jx r 0)), (map_nth (fun r => nth jy r 0)). reflexivity.
    + intros i x Q. destruct (Nat.lt_ge_cases i (length t)) as [|G]; [assumption|]. rewrite nth_error_app2 in Q by (rewrite map_length, combine_length, !map_length; lia).
      apply nth_error_In, repeat_spec in Q. discriminate.
  - intros k t p Et Ep. destruct (H k t p Et Ep) as (Lp & F). cbn [fst snd Nat.add]. rewrite (column_ok p jx _ F Lx), (column_ok p jy _ F Ly). cbn [rbind].
    rewrite map_length, Lp, Nat.eqb_refl. unfold g. rewrite (nth_error_nth _ _ _ Ep). reflexivity.
Qed.
(** In three dimensions the pairs are those of the first component with all
    others and of the second with the third normal one: a shear component under
    its transposed name is not found. *)
Theorem transposed_pair_refuted : sym_order 3 [(1, 1); (2, 2); (3, 3); (1, 2); (2, 3); (3, 1)]%nat /\ forall times paths r, pair_figures true 3 [(1, 1); (2, 2); (3, 3); (1, 2); (2, 3); (3, 1)]%nat times paths <> Ok r.
Proof.
  split.
  { split; [|split; [|split]].
  - nodup_lit.
  - unfold comp_in; simpl; intros c H; repeat destruct H as [<-|H]; simpl; try lia.
  - intros i j Hi Hj. assert (i = 1 \/ i = 2 \/ i = 3)%nat by lia.
    assert (j = 1 \/ j = 2 \/ j = 3)%nat by lia.
    destruct H as [-> | [-> | ->]], H0 as [-> | [-> | ->]]; simpl; tauto.
  - intros i j Hij I J; simpl in I, J; intuition congruence. }
  intros times paths r E. unfold pair_figures in E. cbn [strain_pairs rbind Nat.eqb] in E. apply rmap_ok in E.
  assert (I : forall pr, In pr [((1, 1), (2, 2)); ((1, 1), (3, 3)); ((2, 2), (3, 3)); ((1, 1), (1, 2)); ((1, 1), (2, 3)); ((1, 1), (1, 3))]%nat ->
    exists f, pair_figure [(1, 1); (2, 2); (3, 3); (1, 2); (2, 3); (3, 1)]%nat times paths pr = Ok f).
  { clear - E. induction E as [|a b l l' H F IH]; intros pr I; [destruct I|]. destruct I as [->|I]; [|auto].
    destruct (pair_figure _ times paths pr) as [f|]; [eauto|discriminate]. }
  destruct (I ((1, 1), (1, 3))%nat ltac:(cbn; tauto)) as [f Q]. discriminate.
Qed.

Example increments_case : inc_hist true 3 order_sym_3d [[1; 2]] [[[1; 0; 0; 0; 0; 0]; [4; 0; 0; 0; 0; 0]]] = Ok [0; 3].
Proof.
  assert (S : forall x, symmetric 3 (uniaxial x)) by (intros x [|[|[|i]]] [|[|[|j]]] I J; try lia; reflexivity).
  assert (T : forall x, stores order_sym_3d (uniaxial x) [x; 0; 0; 0; 0; 0]).
  { intros x. split; [reflexivity|]. intros [|[|[|[|[|[|m]]]]]] c H; try (injection H as <-; reflexivity). destruct m; discriminate. }
  rewrite (inc_hist_refuted 3 order_sym_3d order_sym_3d_ok _ _ (fun _ i => uniaxial (if Nat.eqb i 0 then 1 else 4))).
  - cbn [length seq map concat nth Nat.sub Nat.eqb app]. f_equal. f_equal. f_equal. unfold tnorm. match goal with |- sqrt ?a = _ => replace a with (3 * 3); [apply sqrt_square; lra|] end.
    cbn [rsum]. unfold uniaxial. cbn [Nat.eqb andb]. ring.
  - split; [reflexivity|]. intros [|k] t p Et Ep; [|destruct k; discriminate]. injection Et as <-. injection Ep as <-. split; [reflexivity|].
    intros [|[|i]] I; [| |cbn in I; lia]; (split; [apply S|]); eexists; (split; [reflexivity|]); apply T.
  - intros t [<-|[]]. cbn. lia.
Qed.
Example pairs_case : pair_figure [(1, 1); (1, 2)]%nat [[0; 1]; [0]] [[[2; 3]; [4; 5]]; [[6; 7]]] ((1, 2), (1, 1))%nat = Ok [[Some (3, 2); Some (5, 4)]; [Some (7, 6); None]].
Proof. reflexivity. Qed.

Print Assumptions norm_figure_law.
Print Assumptions inc_figure_law.
Print Assumptions inc_origin_refuted.
Print Assumptions inc_hist_refuted.
Print Assumptions finite_increments_refused.
Print Assumptions comp_hists_law.
Print Assumptions pair_figure_law.
Print Assumptions transposed_pair_refuted.
Print Assumptions norm_hist_law.
