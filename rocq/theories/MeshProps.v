(** Assembly: conservation, adjointness, vectorised agreement (C13, C14). *)
From Coq Require Import Reals List Arith ZArith Lia Lra Bool Permutation.
From Verif Require Import Lib MeshModel MeshSpec.
Import ListNotations.
Local Open Scope R_scope.

Lemma list_ext_nth (a b : list R) :
  length a = length b -> (forall k, (k < length a)%nat -> nth k a 0 = nth k b 0) -> a = b.
Proof. intros L H. apply (nth_ext a b 0 0); auto. Qed.

Lemma slice_bounds n p nd :
  (p * nd + nd <= n)%nat ->
  slice_lo n (Z.of_nat p * Z.of_nat nd) = (p * nd)%nat /\
  slice_hi n (Z.of_nat p * Z.of_nat nd + Z.of_nat nd) = (p * nd + nd)%nat.
Proof.
  intros H. unfold slice_lo, slice_hi, norm_bound.
  rewrite <- Nat2Z.inj_mul.
  revert H. generalize (p * nd)%nat. intros m H.
  split; destruct (Z.ltb_spec (Z.of_nat m) 0); destruct (Z.ltb_spec (Z.of_nat m + Z.of_nat nd) 0); lia.
Qed.

Lemma slice_block a i nd :
  (i * nd + nd <= length a)%nat ->
  slice a (Z.of_nat (i * nd)) (Z.of_nat (i * nd) + Z.of_nat nd)
  = map (fun d => nth (i * nd + d) a 0) (seq 0 nd).
Proof.
  intros H. unfold slice. rewrite Nat2Z.inj_mul.
  destruct (slice_bounds (length a) i nd H) as [-> ->].
  apply list_ext_nth.
  - rewrite firstn_length, skipn_length, map_length, seq_length. lia.
  - intros k Hk. rewrite firstn_length, skipn_length in Hk.
    rewrite nth_map_seq by lia.
    rewrite <- (firstn_skipn (i * nd) a) at 2.
    rewrite app_nth2 by (rewrite firstn_length; lia). rewrite firstn_length.
    replace (i * nd + k - Nat.min (i * nd) (length a))%nat with k by lia.
    assert (Q : forall (l : list R) m k, (k < m)%nat -> nth k (firstn m l) 0 = nth k l 0).
    { induction l as [|x l IH]; intros m j Hj; destruct m, j; simpl; auto; try lia. apply IH. lia. }
    apply Q. lia.
Qed.

Lemma slice_update_block op arr p nd vals :
  (p * nd + nd <= length arr)%nat -> length vals = nd ->
  slice_update op arr (Z.of_nat p * Z.of_nat nd) (Z.of_nat p * Z.of_nat nd + Z.of_nat nd) vals
  = Ok (map (fun k => if (Nat.leb (p * nd) k && Nat.ltb k (p * nd + nd))%bool
                      then op (nth k arr 0) (nth (k - p * nd) vals 0) else nth k arr 0)
            (seq 0 (length arr))).
Proof.
  intros H L. unfold slice_update. destruct (slice_bounds (length arr) p nd H) as [-> ->].
  replace (p * nd + nd - p * nd)%nat with nd by lia. rewrite L, Nat.eqb_refl. reflexivity.
Qed.

Lemma block_lt p nd d n : (p < n)%nat -> (d < nd)%nat -> (p * nd + d < n * nd)%nat.
Proof. intros. assert ((S p) * nd <= n * nd)%nat by (apply Nat.mul_le_mono_r; lia). simpl in *. lia. Qed.

Lemma block_ge p nd n : (p < n)%nat -> (p * nd + nd <= n * nd)%nat.
Proof. intros. assert ((S p) * nd <= n * nd)%nat by (apply Nat.mul_le_mono_r; lia). simpl in *. lia. Qed.

Lemma in_block p q nd d : (d < nd)%nat ->
  (Nat.leb (p * nd) (q * nd + d) && Nat.ltb (q * nd + d) (p * nd + nd))%bool = Nat.eqb q p.
Proof.
  intros H. destruct (Nat.eqb_spec q p) as [->|N].
  - apply andb_true_iff. rewrite Nat.leb_le, Nat.ltb_lt. lia.
  - apply andb_false_iff. rewrite Nat.leb_gt, Nat.ltb_ge.
    destruct (Nat.lt_ge_cases q p).
    + left. assert ((S q) * nd <= p * nd)%nat by (apply Nat.mul_le_mono_r; lia). simpl in *. lia.
    + right. assert ((S p) * nd <= q * nd)%nat by (apply Nat.mul_le_mono_r; lia). simpl in *. lia.
Qed.

Lemma slice_update_nth op arr p nd vals r q d n :
  length arr = (n * nd)%nat -> (p < n)%nat -> length vals = nd -> (q < n)%nat -> (d < nd)%nat ->
  slice_update op arr (Z.of_nat p * Z.of_nat nd) (Z.of_nat p * Z.of_nat nd + Z.of_nat nd) vals = Ok r ->
  nth (q * nd + d) r 0
  = if Nat.eqb q p then op (nth (q * nd + d) arr 0) (nth d vals 0) else nth (q * nd + d) arr 0.
Proof.
  intros L Hp Lv Hq Hd E.
  rewrite slice_update_block in E by (auto; rewrite L; apply block_ge; auto).
  inversion E; subst r. rewrite nth_map_seq by (rewrite L; apply block_lt; auto).
  rewrite in_block by auto. destruct (Nat.eqb_spec q p) as [->|]; auto.
  f_equal. f_equal. lia.
Qed.

(** ** The loop over the nodes of one element *)
Lemma assemble_nodes_spec nd a n_node nodes : forall i mesh,
  labels_in_range n_node nodes -> ((i + length nodes) * nd <= length a)%nat ->
  length mesh = (n_node * nd)%nat ->
  exists r, assemble_nodes nd a i nodes mesh = Ok r /\ length r = (n_node * nd)%nat /\
    forall p d, (p < n_node)%nat -> (d < nd)%nat ->
      nth (p * nd + d) r 0 = nth (p * nd + d) mesh 0 +
        rsum (length nodes) (fun m =>
          if Z.eqb (nth m nodes 0%Z) (Z.of_nat (S p)) then nth ((i + m) * nd + d) a 0 else 0).
Proof.
  induction nodes as [|node t IH]; intros i mesh HR HL LM; simpl assemble_nodes.
  - exists mesh. split; auto. split; auto. intros. simpl. ring.
  - assert (Hn : (1 <= node <= Z.of_nat n_node)%Z) by (apply HR; simpl; auto).
    set (p0 := (Z.to_nat node - 1)%nat).
    assert (Ep : (node - 1)%Z = Z.of_nat p0) by (unfold p0; lia).
    assert (Hp0 : (p0 < n_node)%nat) by (unfold p0; lia).
    rewrite Ep.
    assert (HB : (i * nd + nd <= length a)%nat).
    { simpl length in HL. eapply Nat.le_trans; [|apply HL]. apply block_ge. lia. }
    rewrite slice_block by auto.
    set (vals := map (fun d => nth (i * nd + d) a 0) (seq 0 nd)).
    assert (LV : length vals = nd) by (unfold vals; rewrite map_length, seq_length; auto).
    destruct (slice_update Rplus mesh (Z.of_nat p0 * Z.of_nat nd) (Z.of_nat p0 * Z.of_nat nd + Z.of_nat nd) vals)
      as [m1|e] eqn:E1.
    2:{ rewrite slice_update_block in E1; [discriminate|rewrite LM; apply block_ge; auto|auto]. }
    assert (LM1 : length m1 = (n_node * nd)%nat).
    { rewrite slice_update_block in E1; [|rewrite LM; apply block_ge; auto|auto].
      inversion E1. rewrite map_length, seq_length. auto. }
    destruct (IH (S i) m1) as (r & R1 & R2 & R3); auto.
    { intros x I. apply HR. simpl. auto. }
    { simpl length in HL. replace (S i + length t)%nat with (i + S (length t))%nat by lia. auto. }
    exists r. simpl rbind. split; auto. split; auto.
    intros p d Hp Hd. rewrite R3 by auto.
    rewrite (slice_update_nth Rplus mesh p0 nd vals m1 p d n_node) by auto.
    simpl length. rewrite rsum_S_first. cbn [nth].
    rewrite (rsum_ext (length t) (fun m => if Z.eqb (nth m t 0%Z) (Z.of_nat (S p)) then nth ((i + S m) * nd + d) a 0 else 0)
      (fun m => if Z.eqb (nth m t 0%Z) (Z.of_nat (S p)) then nth ((S i + m) * nd + d) a 0 else 0)).
    2:{ intros m _. replace (i + S m)%nat with (S i + m)%nat by lia. auto. }
    rewrite Nat.add_0_r.
    destruct (Nat.eqb_spec p p0) as [E|N]; destruct (Z.eqb_spec node (Z.of_nat (S p))) as [Q|Q]; try lia.
    + subst p. unfold vals. rewrite nth_map_seq by auto. ring.
    + ring.
Qed.

Lemma assemble_elements_spec conn nd n_node arrs : forall mesh,
  (forall key a, In (key, a) arrs -> exists nodes, conn_of conn key = Some nodes /\
     labels_in_range n_node nodes /\ length a = (length nodes * nd)%nat) ->
  length mesh = (n_node * nd)%nat ->
  exists r, assemble_elements conn nd arrs mesh = Ok r /\ length r = (n_node * nd)%nat /\
    forall p d, (p < n_node)%nat -> (d < nd)%nat ->
      nth (p * nd + d) r 0 = nth (p * nd + d) mesh 0 +
        lsum (map (fun ka => match conn_of conn (fst ka) with
                             | Some nodes => contribution nd nodes (snd ka) p d | None => 0 end) arrs).
Proof.
  induction arrs as [|[key a] t IH]; intros mesh H L; simpl assemble_elements.
  - exists mesh. split; auto. split; auto. intros. simpl. ring.
  - destruct (H key a) as (nodes & C & HR & LA); [simpl; auto|]. rewrite C.
    destruct (assemble_nodes_spec nd a n_node nodes 0 mesh) as (m1 & E1 & L1 & V1); auto.
    { simpl. lia. }
    rewrite E1. simpl rbind.
    destruct (IH m1) as (r & E2 & L2 & V2); auto.
    { intros k b I. apply (H k b). simpl; auto. }
    exists r. split; auto. split; auto. intros p d Hp Hd. rewrite V2, V1 by auto.
    cbn [map lsum fst snd]. rewrite C. apply Rplus_assoc.
Qed.

(** C13a: for every mesh with labels in range and element arrays with [nd]
    entries per node, assembly succeeds and each entry of the mesh array is
    exactly the sum of the contributions of the elements containing the node. *)
Theorem assembly_value conn nd n_node arrs :
  arrs <> [] ->
  (forall key a, In (key, a) arrs -> exists nodes, conn_of conn key = Some nodes /\
     nodes <> [] /\ labels_in_range n_node nodes /\ length a = (length nodes * nd)%nat) ->
  exists r, element_assembler conn n_node arrs = Ok r /\ length r = (n_node * nd)%nat /\
    forall p d, (p < n_node)%nat -> (d < nd)%nat ->
      nth (p * nd + d) r 0 =
        lsum (map (fun ka => match conn_of conn (fst ka) with
                             | Some nodes => contribution nd nodes (snd ka) p d | None => 0 end) arrs).
Proof.
  intros NE H. unfold element_assembler. destruct arrs as [|[k0 a0] t]; [congruence|].
  destruct (H k0 a0) as (nodes & C & NN & HR & LA); [simpl; auto|]. rewrite C.
  destruct nodes as [|x nodes]; [congruence|].
  rewrite LA. replace (length (x :: nodes) * nd / length (x :: nodes))%nat with nd.
  2:{ rewrite Nat.mul_comm, Nat.div_mul; auto. simpl. lia. }
  destruct (assemble_elements_spec conn nd n_node ((k0, a0) :: t) (repeat 0 (n_node * nd))) as (r & E & L & V).
  - intros key a I. destruct (H key a I) as (ns & A1 & A2 & A3 & A4). eauto.
  - apply repeat_length.
  - exists r. split; auto. split; auto. intros p d Hp Hd. rewrite V by auto.
    rewrite nth_repeat. ring.
Qed.

(** C13b: nodes belonging to no assembled element stay zero. *)
Theorem assembly_untouched conn nd n_node arrs r p d :
  (forall key a, In (key, a) arrs -> exists nodes, conn_of conn key = Some nodes /\
     nodes <> [] /\ labels_in_range n_node nodes /\ length a = (length nodes * nd)%nat) ->
  element_assembler conn n_node arrs = Ok r -> (p < n_node)%nat -> (d < nd)%nat ->
  (forall key a nodes, In (key, a) arrs -> conn_of conn key = Some nodes ->
     ~ In (Z.of_nat (S p)) nodes) ->
  nth (p * nd + d) r 0 = 0.
Proof.
  intros H E Hp Hd NI.
  assert (NE : arrs <> []) by (intros ->; discriminate).
  destruct (assembly_value conn nd n_node arrs NE H) as (r' & E' & _ & V).
  rewrite E in E'. inversion E'; subst r'. rewrite V by auto.
  apply lsum_map_zero. intros [key a] I. simpl. destruct (conn_of conn key) as [nodes|] eqn:C; auto.
  unfold contribution. apply rsum_zero. intros i Hi.
  destruct (Z.eqb_spec (nth i nodes 0%Z) (Z.of_nat (S p))) as [Q|]; auto.
  exfalso. apply (NI key a nodes I C). rewrite <- Q. apply nth_In; auto.
Qed.

(** ** Extraction *)
Lemma extract_nodes_spec nd mesh n_node total nodes : forall i arr,
  labels_in_range n_node nodes -> (i + length nodes = total)%nat ->
  length mesh = (n_node * nd)%nat -> length arr = (total * nd)%nat ->
  exists r, extract_nodes nd mesh i nodes arr = Ok r /\ length r = (total * nd)%nat /\
    forall q d, (q < total)%nat -> (d < nd)%nat ->
      nth (q * nd + d) r 0 = if Nat.ltb q i then nth (q * nd + d) arr 0
        else nth ((Z.to_nat (nth (q - i) nodes 0%Z) - 1) * nd + d) mesh 0.
Proof.
  induction nodes as [|node t IH]; intros i arr HR HT LM LA; simpl extract_nodes.
  - exists arr. split; auto. split; auto. intros q d Hq Hd. simpl in HT.
    destruct (Nat.ltb_spec q i); [auto|lia].
  - assert (Hn : (1 <= node <= Z.of_nat n_node)%Z) by (apply HR; simpl; auto).
    set (p0 := (Z.to_nat node - 1)%nat).
    assert (Ep : (node - 1)%Z = Z.of_nat p0) by (unfold p0; lia).
    assert (Hp0 : (p0 < n_node)%nat) by (unfold p0; lia).
    rewrite Ep. rewrite <- Nat2Z.inj_mul.
    rewrite slice_block by (rewrite LM; apply block_ge; auto).
    set (vals := map (fun d => nth (p0 * nd + d) mesh 0) (seq 0 nd)).
    assert (LV : length vals = nd) by (unfold vals; rewrite map_length, seq_length; auto).
    simpl in HT. rewrite Nat2Z.inj_mul.
    destruct (slice_update (fun _ x => x) arr (Z.of_nat i * Z.of_nat nd) (Z.of_nat i * Z.of_nat nd + Z.of_nat nd) vals)
      as [m1|e] eqn:E1.
    2:{ rewrite slice_update_block in E1; [discriminate|rewrite LA; apply block_ge; lia|auto]. }
    assert (LM1 : length m1 = (total * nd)%nat).
    { rewrite slice_update_block in E1; [|rewrite LA; apply block_ge; lia|auto].
      inversion E1. rewrite map_length, seq_length. auto. }
    destruct (IH (S i) m1) as (r & R1 & R2 & R3); auto.
    { intros x I. apply HR. simpl. auto. }
    { lia. }
    exists r. simpl rbind. split; auto. split; auto.
    intros q d Hq Hd. rewrite R3 by auto.
    destruct (Nat.ltb_spec q (S i)), (Nat.ltb_spec q i); try lia.
    + rewrite (slice_update_nth (fun _ x => x) arr i nd vals m1 q d total) by (auto; lia).
      destruct (Nat.eqb_spec q i); [lia|auto].
    + assert (q = i) as -> by lia.
      rewrite (slice_update_nth (fun _ x => x) arr i nd vals m1 i d total) by (auto; lia).
      rewrite Nat.eqb_refl, Nat.sub_diag. cbn [nth]. unfold vals. rewrite nth_map_seq by auto. reflexivity.
    + replace (q - i)%nat with (S (q - S i)) by lia. reflexivity.
Qed.

Lemma restrict_length nd nodes v : length (restrict nd nodes v) = (length nodes * nd)%nat.
Proof.
  induction nodes as [|x t IH]; auto. unfold restrict in *. simpl.
  rewrite app_length, map_length, seq_length, IH. auto.
Qed.

Lemma restrict_nth nd nodes v q d :
  (q < length nodes)%nat -> (d < nd)%nat ->
  nth (q * nd + d) (restrict nd nodes v) 0 = nth ((Z.to_nat (nth q nodes 0%Z) - 1) * nd + d) v 0.
Proof.
  revert q; induction nodes as [|x t IH]; intros q Hq Hd; [simpl in Hq; lia|].
  unfold restrict in *. simpl flat_map. destruct q as [|q].
  - rewrite app_nth1 by (rewrite map_length, seq_length; lia). simpl (0 * nd + d)%nat.
    rewrite nth_map_seq by auto. reflexivity.
  - rewrite app_nth2 by (rewrite map_length, seq_length; simpl; lia).
    rewrite map_length, seq_length. simpl in Hq.
    replace (S q * nd + d - nd)%nat with (q * nd + d)%nat by (simpl; lia).
    rewrite IH by lia. reflexivity.
Qed.

Lemma blocks_ext nd n (a b : list R) :
  length a = (n * nd)%nat -> length b = (n * nd)%nat ->
  (forall q d, (q < n)%nat -> (d < nd)%nat -> nth (q * nd + d) a 0 = nth (q * nd + d) b 0) -> a = b.
Proof.
  intros La Lb H. apply list_ext_nth; [lia|]. intros k Hk. rewrite La in Hk.
  assert (nd <> 0)%nat by (intros ->; lia).
  replace k with ((k / nd) * nd + k mod nd)%nat by (rewrite Nat.mul_comm; symmetry; apply Nat.div_mod; auto).
  apply H; [apply Nat.div_lt_upper_bound; [auto|rewrite Nat.mul_comm; auto]|apply Nat.mod_upper_bound; auto].
Qed.

(** C13c: extraction returns the nodal values of the element nodes. *)
Theorem extraction_value conn nd n_node mesh key nodes :
  (0 < n_node)%nat -> length mesh = (n_node * nd)%nat ->
  conn_of conn key = Some nodes -> labels_in_range n_node nodes ->
  element_extractor conn n_node mesh key = Ok (restrict nd nodes mesh).
Proof.
  intros Hn L C HR. unfold element_extractor. destruct n_node as [|n]; [lia|].
  rewrite L. replace (S n * nd / S n)%nat with nd by (rewrite Nat.mul_comm, Nat.div_mul; lia).
  rewrite C. 
  destruct (extract_nodes_spec nd mesh (S n) (length nodes) nodes 0 (repeat 0 (length nodes * nd)))
    as (r & E & LR & V); auto.
  { apply repeat_length. }
  rewrite E. f_equal. apply (blocks_ext nd (length nodes)); auto using restrict_length.
  intros q d Hq Hd. rewrite V, restrict_nth by auto. simpl. rewrite Nat.sub_0_r. reflexivity.
Qed.

(** Sums over nodes and entries. *)
Lemma dot_blocks nd n u v :
  length u = (n * nd)%nat ->
  dot u v = rsum n (fun p => rsum nd (fun d => nth (p * nd + d) u 0 * nth (p * nd + d) v 0)).
Proof. intros L. unfold dot. rewrite L. apply rsum_mul. Qed.

Lemma contribution_dot nd n_node nodes a v :
  labels_in_range n_node nodes -> length a = (length nodes * nd)%nat ->
  rsum n_node (fun p => rsum nd (fun d => contribution nd nodes a p d * nth (p * nd + d) v 0))
  = dot a (restrict nd nodes v).
Proof.
  intros HR L. rewrite (dot_blocks nd (length nodes)) by auto.
  rewrite (rsum_ext n_node _ (fun p => rsum nd (fun d => rsum (length nodes) (fun i =>
    (if Z.eqb (nth i nodes 0%Z) (Z.of_nat (S p)) then nth (i * nd + d) a 0 else 0) * nth (p * nd + d) v 0)))).
  2:{ intros p Hp. apply rsum_ext. intros d Hd. unfold contribution. rewrite <- rsum_scal_r. reflexivity. }
  rewrite (rsum_ext n_node _ (fun p => rsum (length nodes) (fun i => rsum nd (fun d =>
    (if Z.eqb (nth i nodes 0%Z) (Z.of_nat (S p)) then nth (i * nd + d) a 0 else 0) * nth (p * nd + d) v 0)))).
  2:{ intros p Hp. apply rsum_swap. }
  rewrite rsum_swap. apply rsum_ext. intros i Hi.
  assert (HI : (1 <= nth i nodes 0 <= Z.of_nat n_node)%Z) by (apply HR, nth_In; auto).
  rewrite (rsum_single n_node (Z.to_nat (nth i nodes 0%Z) - 1)%nat).
  2: lia.
  2:{ intros p Hp N. apply rsum_zero. intros d Hd.
      destruct (Z.eqb_spec (nth i nodes 0%Z) (Z.of_nat (S p))); [lia|ring]. }
  apply rsum_ext. intros d Hd. rewrite restrict_nth by auto.
  destruct (Z.eqb_spec (nth i nodes 0%Z) (Z.of_nat (S (Z.to_nat (nth i nodes 0%Z) - 1)))); [ring|lia].
Qed.

(** C13d: assembly is the adjoint of extraction. *)
Theorem assembly_adjoint conn nd n_node arrs v :
  arrs <> [] -> (0 < n_node)%nat -> length v = (n_node * nd)%nat ->
  (forall key a, In (key, a) arrs -> exists nodes, conn_of conn key = Some nodes /\
     nodes <> [] /\ labels_in_range n_node nodes /\ length a = (length nodes * nd)%nat) ->
  exists r es, element_assembler conn n_node arrs = Ok r /\
    (forall i key a, nth_error arrs i = Some (key, a) ->
       element_extractor conn n_node v key = Ok (nth i es [])) /\
    dot r v = lsum (map (fun i => dot (snd (nth i arrs (O, []))) (nth i es [])) (seq 0 (length arrs))).
Proof.
  intros NE Hn Lv H.
  destruct (assembly_value conn nd n_node arrs NE H) as (r & E & L & V).
  set (ex := fun ka : nat * list R => match conn_of conn (fst ka) with
     Some nodes => restrict nd nodes v | None => [] end).
  exists r, (map ex arrs). split; auto.
  assert (N : forall i, (i < length arrs)%nat -> nth i (map ex arrs) [] = ex (nth i arrs (O, []))).
  { intros i Hi. rewrite nth_indep with (d' := ex (O, [])) by (rewrite map_length; auto). apply map_nth. }
  split.
  - intros i key a Hi. assert (Hl : (i < length arrs)%nat) by (apply nth_error_Some; congruence).
    rewrite N by auto. rewrite (nth_error_nth arrs i (O, []) Hi).
    destruct (H key a) as (nodes & C & NN & HR & LA); [eapply nth_error_In; eauto|].
    unfold ex. simpl. rewrite C. apply extraction_value; auto.
  - rewrite (dot_blocks nd n_node) by auto.
    rewrite (rsum_ext n_node _ (fun p => rsum nd (fun d => lsum (map (fun ka =>
      match conn_of conn (fst ka) with Some nodes => contribution nd nodes (snd ka) p d | None => 0 end
        * nth (p * nd + d) v 0) arrs)))).
    2:{ intros p Hp. apply rsum_ext. intros d Hd. rewrite V by auto.
        rewrite Rmult_comm, <- lsum_map_scal. apply lsum_map_ext. intros; ring. }
    assert (X : forall l : list (nat * list R), (forall ka, In ka l -> In ka arrs) ->
      rsum n_node (fun p => rsum nd (fun d => lsum (map (fun ka =>
        match conn_of conn (fst ka) with Some nodes => contribution nd nodes (snd ka) p d | None => 0 end
          * nth (p * nd + d) v 0) l))) = lsum (map (fun ka => dot (snd ka) (ex ka)) l)).
    { induction l as [|[key a] l IH]; intros Sub.
      - simpl. apply rsum_zero. intros. apply rsum_zero. auto.
      - simpl map. simpl lsum. rewrite <- IH by (intros; apply Sub; simpl; auto).
        rewrite (rsum_ext n_node _ (fun p => rsum nd (fun d =>
            match conn_of conn key with Some nodes => contribution nd nodes a p d | None => 0 end
              * nth (p * nd + d) v 0) +
            rsum nd (fun d => lsum (map (fun ka =>
        match conn_of conn (fst ka) with Some nodes => contribution nd nodes (snd ka) p d | None => 0 end
          * nth (p * nd + d) v 0) l)))).
        2:{ intros p Hp. rewrite <- rsum_plus. apply rsum_ext. auto. }
        rewrite rsum_plus. f_equal.
        destruct (H key a) as (nodes & C & NN & HR & LA); [apply Sub; simpl; auto|].
        unfold ex. simpl fst. simpl snd. rewrite C. apply contribution_dot; auto. }
    rewrite (X arrs) by auto. rewrite (lsum_map_seq (fun i => _)), lsum_nth, map_length.
    apply rsum_ext. intros i Hi. rewrite N by auto.
    rewrite nth_indep with (d' := (fun ka => dot (snd ka) (ex ka)) (O, [])) by (rewrite map_length; auto).
    rewrite (map_nth (fun ka => dot (snd ka) (ex ka))). reflexivity.
Qed.

(** The order in which element arrays are supplied does not matter. *)
Theorem assembly_order_independent conn nd n_node arrs arrs' r r' :
  arrs <> [] -> Permutation arrs arrs' ->
  (forall key a, In (key, a) arrs -> exists nodes, conn_of conn key = Some nodes /\
     nodes <> [] /\ labels_in_range n_node nodes /\ length a = (length nodes * nd)%nat) ->
  element_assembler conn n_node arrs = Ok r -> element_assembler conn n_node arrs' = Ok r' -> r = r'.
Proof.
  intros NE P H E E'.
  destruct (assembly_value conn nd n_node arrs NE H) as (x & X1 & X2 & X3).
  destruct (assembly_value conn nd n_node arrs') as (y & Y1 & Y2 & Y3).
  - intros ->. apply Permutation_sym, Permutation_nil in P. auto.
  - intros key a I. apply H. eapply Permutation_in; [apply Permutation_sym; eauto|auto].
  - rewrite E in X1. rewrite E' in Y1. inversion X1; inversion Y1; subst.
    apply (blocks_ext nd n_node); auto. intros p d Hp Hd. rewrite X3, Y3 by auto.
    apply lsum_perm, Permutation_map; auto.
Qed.

(** ** C14: vectorised assembly *)
Lemma mesh_indexing_nth nodes nd q d :
  (q < length nodes)%nat -> (d < nd)%nat ->
  nth (q * nd + d) (build_element_mesh_indexing nodes nd) 0%Z
  = ((nth q nodes 0 - 1) * Z.of_nat nd + Z.of_nat d)%Z /\
  length (build_element_mesh_indexing nodes nd) = (length nodes * nd)%nat.
Proof.
  assert (G : forall nodes, build_element_mesh_indexing nodes nd
     = flat_map (fun x => map (fun d => ((x - 1) * Z.of_nat nd + Z.of_nat d)%Z) (seq 0 nd)) nodes).
  { clear. intros nodes. unfold build_element_mesh_indexing. induction nodes as [|x t IH]; auto.
    simpl flat_map.
    assert (CA : forall (a b : list Z) a' b', length a = length b ->
       combine (a ++ a') (b ++ b') = combine a b ++ combine a' b').
    { induction a as [|y a IHa]; intros [|z b] a' b' HL; simpl in *; auto; try lia. f_equal. apply IHa. lia. }
    rewrite CA by (rewrite repeat_length, map_length, seq_length; auto).
    rewrite map_app, IH. f_equal.
    assert (RR : forall (m : list nat) c, map (fun p => (fst p + snd p)%Z) (combine (repeat c (length m)) (map Z.of_nat m))
       = map (fun d => (c + Z.of_nat d)%Z) m).
    { induction m; intros; simpl; auto. f_equal. auto. }
    rewrite <- RR, seq_length. reflexivity. }
  rewrite G. intros Hq Hd. split.
  - clear G. revert q Hq; induction nodes as [|x t IH]; intros q Hq; [simpl in Hq; lia|].
    simpl flat_map. destruct q as [|q].
    + rewrite app_nth1 by (rewrite map_length, seq_length; lia). simpl (0 * nd + d)%nat.
      rewrite nth_map_seq by auto. reflexivity.
    + rewrite app_nth2 by (rewrite map_length, seq_length; simpl; lia).
      rewrite map_length, seq_length. simpl in Hq.
      replace (S q * nd + d - nd)%nat with (q * nd + d)%nat by (simpl; lia).
      rewrite IH by lia. reflexivity.
  - clear. induction nodes; simpl; auto. rewrite app_length, map_length, seq_length. lia.
Qed.

Lemma filter_sum_nth (l : list (Z * R)) k :
  lsum (map snd (filter (fun p => Z.eqb (fst p) k) l))
  = lsum (map (fun p => if Z.eqb (fst p) k then snd p else 0) l).
Proof.
  induction l as [|p l IH]; simpl; auto. destruct (Z.eqb (fst p) k); simpl; rewrite IH; ring.
Qed.

Lemma combine_app {A B} (a : list A) : forall (b : list B) a' b', length a = length b ->
  combine (a ++ a') (b ++ b') = combine a b ++ combine a' b'.
Proof. induction a as [|y a IHa]; intros [|z b] a' b' HL; simpl in *; auto; try lia. f_equal. apply IHa. lia. Qed.

Lemma indexing_contribution nd n_node nodes a p d :
  labels_in_range n_node nodes -> length a = (length nodes * nd)%nat -> (d < nd)%nat ->
  lsum (map (fun x => if Z.eqb (fst x) (Z.of_nat (p * nd + d)) then snd x else 0)
         (combine (build_element_mesh_indexing nodes nd) a))
  = contribution nd nodes a p d.
Proof.
  intros HR L Hd.
  assert (LI : length (build_element_mesh_indexing nodes nd) = (length nodes * nd)%nat).
  { destruct nodes as [|x t]; [reflexivity|].
    apply (mesh_indexing_nth (x :: t) nd 0 d); simpl; auto; lia. }
  rewrite lsum_nth, map_length, combine_length, LI, L, Nat.min_id, rsum_mul.
  unfold contribution. apply rsum_ext. intros i Hi.
  assert (HI : (1 <= nth i nodes 0 <= Z.of_nat n_node)%Z) by (apply HR, nth_In; auto).
  assert (T : forall d', (d' < nd)%nat -> nth (i * nd + d')
     (map (fun x => if Z.eqb (fst x) (Z.of_nat (p * nd + d)) then snd x else 0)
         (combine (build_element_mesh_indexing nodes nd) a)) 0
     = if (Nat.eqb (Z.to_nat (nth i nodes 0%Z) - 1) p && Nat.eqb d' d)%bool then nth (i * nd + d') a 0 else 0).
  { intros d' Hd'.
    rewrite nth_indep with (d' := (fun x : Z * R => if Z.eqb (fst x) (Z.of_nat (p * nd + d)) then snd x else 0) (0%Z, 0)).
    2:{ rewrite map_length, combine_length, LI, L, Nat.min_id. apply block_lt; auto. }
    rewrite (map_nth (fun x : Z * R => if Z.eqb (fst x) (Z.of_nat (p * nd + d)) then snd x else 0)).
    rewrite combine_nth by lia. simpl fst. simpl snd.
    destruct (mesh_indexing_nth nodes nd i d' Hi Hd') as [-> _].
    set (q := (Z.to_nat (nth i nodes 0%Z) - 1)%nat).
    replace (nth i nodes 0 - 1)%Z with (Z.of_nat q) by (unfold q; lia).
    rewrite <- Nat2Z.inj_mul, <- Nat2Z.inj_add.
    destruct (Z.eqb_spec (Z.of_nat (q * nd + d')) (Z.of_nat (p * nd + d))) as [E|E].
    - apply Nat2Z.inj in E.
      assert (q = p).
      { pose proof (in_block p q nd d' Hd') as B1. rewrite E in B1.
        pose proof (in_block p p nd d Hd) as B2. rewrite Nat.eqb_refl in B2. rewrite B2 in B1.
        symmetry in B1. apply Nat.eqb_eq in B1. auto. }
      subst p. assert (d' = d) by lia. subst. rewrite !Nat.eqb_refl. reflexivity.
    - destruct (Nat.eqb_spec q p); simpl; auto. subst p.
      destruct (Nat.eqb_spec d' d); auto. subst. congruence. }
  destruct (Z.eqb_spec (nth i nodes 0%Z) (Z.of_nat (S p))) as [E|E].
  - rewrite (rsum_single nd d); auto.
    + rewrite T by auto. rewrite Nat.eqb_refl.
      destruct (Nat.eqb_spec (Z.to_nat (nth i nodes 0%Z) - 1) p); [reflexivity|lia].
    + intros d' Hd' N. rewrite T by auto. destruct (Nat.eqb_spec d' d); [contradiction|].
      rewrite andb_false_r. reflexivity.
  - apply rsum_zero. intros d' Hd'. rewrite T by auto.
    destruct (Nat.eqb_spec (Z.to_nat (nth i nodes 0%Z) - 1) p); [lia|]. reflexivity.
Qed.

(** C14: the vectorised assembly returns the array of the loop assembler. *)
Theorem vectorised_assembly conn nd n_node forces idx :
  conn <> [] -> length forces = length conn ->
  build_elements_mesh_indexing conn nd = Ok idx ->
  (forall i nodes, nth_error conn i = Some nodes ->
     nodes <> [] /\ labels_in_range n_node nodes /\ length (nth i forces []) = (length nodes * nd)%nat) ->
  element_assembler conn n_node (combine (seq 1 (length conn)) forces)
  = Ok (vassemble_internal_forces forces idx n_node nd).
Proof.
  intros NE LF EI H.
  unfold build_elements_mesh_indexing in EI. destruct (same_sizes conn); [|discriminate].
  inversion EI; subst idx; clear EI.
  assert (HA : forall key a, In (key, a) (combine (seq 1 (length conn)) forces) ->
     exists nodes, conn_of conn key = Some nodes /\ nodes <> [] /\ labels_in_range n_node nodes /\
       length a = (length nodes * nd)%nat).
  { intros key a I. apply (In_nth _ _ (O, [])) in I. destruct I as (i & Hi & E).
    rewrite combine_length, seq_length, LF, Nat.min_id in Hi.
    rewrite combine_nth in E by (rewrite seq_length; auto).
    rewrite seq_nth in E by auto. inversion E; subst key a; clear E. simpl conn_of.
    destruct (nth_error conn i) as [nodes|] eqn:C; [|apply nth_error_None in C; lia].
    exists nodes. destruct (H i nodes C) as (A & B & D). auto. }
  destruct (assembly_value conn nd n_node (combine (seq 1 (length conn)) forces)) as (r & E & L & V); auto.
  { destruct conn, forces; simpl in *; congruence || discriminate. }
  rewrite E. f_equal. apply (blocks_ext nd n_node); auto.
  { unfold vassemble_internal_forces. rewrite map_length, seq_length. auto. }
  intros p d Hp Hd. rewrite V by auto.
  unfold vassemble_internal_forces. rewrite nth_map_seq by (apply block_lt; auto).
  rewrite filter_sum_nth. clear V E L r HA NE.
  (* general statement over suffixes *)
  assert (G : forall cs fs s full, (forall i, nth_error full (s + i) = nth_error cs i) ->
     length fs = length cs ->
     (forall i nodes, nth_error cs i = Some nodes ->
        labels_in_range n_node nodes /\ length (nth i fs []) = (length nodes * nd)%nat) ->
     lsum (map (fun ka => match conn_of full (fst ka) with
        | Some nodes => contribution nd nodes (snd ka) p d | None => 0 end)
        (combine (seq (S s) (length cs)) fs))
     = lsum (map (fun x => if Z.eqb (fst x) (Z.of_nat (p * nd + d)) then snd x else 0)
        (combine (concat (map (fun c => build_element_mesh_indexing c nd) cs)) (concat fs)))).
  { induction cs as [|c cs IH]; intros [|f fs] s full HF HL HH; simpl in HL; try lia; auto.
    destruct (HH O c eq_refl) as [HR HLn]. simpl in HLn.
    simpl combine. simpl map. simpl lsum. simpl concat.
    rewrite combine_app.
    2:{ destruct c as [|y c]; [simpl in *; rewrite HLn; auto|]. rewrite HLn.
        apply (mesh_indexing_nth (y :: c) nd 0 d); simpl; auto; lia. }
    rewrite map_app, lsum_app.
    rewrite (indexing_contribution nd n_node c f p d HR HLn Hd).
    simpl conn_of. pose proof (HF O) as H0. rewrite Nat.add_0_r in H0. simpl in H0.
    change (nth_error full s) with (nth_error full s). rewrite H0.
    f_equal. apply (IH fs (S s) full); auto.
    - intros i. pose proof (HF (S i)) as Q. cbn [nth_error] in Q. rewrite <- Q. f_equal. lia.
    - intros i nodes Hi. apply (HH (S i)); auto. }
  apply (G conn forces 0%nat conn); auto.
  intros i nodes Hi. destruct (H i nodes Hi) as (_ & A & B). auto.
Qed.

(** ** Outside the checked range *)

(** A label beyond the mesh with several entries per node makes assembly raise;
    with one entry per node the contribution is silently dropped. *)
Theorem assembly_out_of_range nd n_node nodes a x :
  (1 <= nd)%nat -> nodes = [x] -> (Z.of_nat n_node < x)%Z -> length a = nd ->
  element_assembler [nodes] n_node [(1%nat, a)]
  = if Nat.eqb nd 1 then Ok (repeat 0 n_node) else Err RuntimeError.
Proof.
  intros Hnd -> Hx L. unfold element_assembler. simpl conn_of. cbn [length]. rewrite L, Nat.div_1_r.
  cbn [assemble_elements conn_of nth_error assemble_nodes].
  replace (Z.of_nat (0 * nd)) with (Z.of_nat 0 * Z.of_nat nd)%Z by lia.
  rewrite <- Nat2Z.inj_mul, slice_block by (rewrite L; simpl; lia).
  unfold slice_update. rewrite map_length, seq_length, repeat_length.
  assert (HH : forall k, (0 <= k)%Z -> norm_bound (Z.of_nat (n_node * nd)) ((x - 1) * Z.of_nat nd + k) = Z.of_nat (n_node * nd)).
  { intros k Hk. unfold norm_bound.
    assert (Z.of_nat n_node * Z.of_nat nd <= (x - 1) * Z.of_nat nd)%Z by (apply Z.mul_le_mono_nonneg_r; lia).
    destruct (Z.ltb_spec ((x - 1) * Z.of_nat nd + k) 0); rewrite ?Nat2Z.inj_mul in *; nia. }
  unfold slice_lo, slice_hi. rewrite (HH (Z.of_nat nd)) by lia.
  pose proof (HH 0%Z) as H0. rewrite Z.add_0_r in H0. rewrite H0 by lia.
  rewrite Nat.sub_diag. destruct (Nat.eqb_spec nd 0); [lia|].
  destruct (Nat.eqb_spec nd 1) as [->|]; [|reflexivity].
  simpl rbind. f_equal. rewrite Nat2Z.id, Nat.mul_1_r.
  apply list_ext_nth; rewrite map_length, seq_length; [rewrite repeat_length; auto|].
  intros k Hk. rewrite nth_map_seq by auto. rewrite nth_repeat.
  destruct (Nat.leb_spec n_node k); [lia|]. reflexivity.
Qed.

(** The vectorised assembly drops contributions to nodes outside the mesh. *)
Theorem vectorised_assembly_out_of_range_refuted :
  exists conn forces idx n_node nd,
    build_elements_mesh_indexing conn nd = Ok idx /\
    element_assembler conn n_node (combine (seq 1 (length conn)) forces) = Err RuntimeError /\
    vassemble_internal_forces forces idx n_node nd = [0; 0; 0; 0].
Proof.
  exists [[3%Z]], [[1; 2]], [[4%Z; 5%Z]], 2%nat, 2%nat. split; [reflexivity|]. split.
  - change (combine (seq 1 (length [[3%Z]])) [[1; 2]]) with [(1%nat, [1; 2])].
    rewrite (assembly_out_of_range 2 2 [3%Z] [1; 2] 3); auto; lia.
  - reflexivity.
Qed.

(** get_element_configuration returns the nodal rows for labels in range... *)
Theorem element_configuration_value {A} conn (rows : list A) key nodes dflt :
  conn_of conn key = Some nodes -> labels_in_range (length rows) nodes ->
  get_element_configuration conn rows key
  = Ok (map (fun x => nth (Z.to_nat x - 1) rows dflt) nodes).
Proof.
  intros C HR. unfold get_element_configuration. rewrite C. clear C.
  induction nodes as [|x t IH]; auto. simpl gather_rows.
  assert (Hx : (1 <= x <= Z.of_nat (length rows))%Z) by (apply HR; simpl; auto).
  unfold wrap_index. destruct (Z.leb_spec 0 (x - 1)); [|lia].
  destruct (Z.ltb_spec (x - 1) (Z.of_nat (length rows))); [|lia]. simpl andb. cbv iota.
  rewrite (nth_error_nth' rows dflt) by lia.
  rewrite IH by (intros y I; apply HR; simpl; auto). simpl.
  replace (Z.to_nat (x - 1)) with (Z.to_nat x - 1)%nat by lia. reflexivity.
Qed.

(** ... and label 0, which is never rejected, silently selects the last node. *)
Theorem element_configuration_zero_label {A} (rows : list A) dflt :
  rows <> [] ->
  get_element_configuration [[0%Z]] rows 1 = Ok [last rows dflt].
Proof.
  intros NE. unfold get_element_configuration. simpl.
  assert (L : (0 < length rows)%nat) by (destruct rows; simpl; [congruence|lia]).
  assert (W : wrap_index (length rows) (-1) = Some (length rows - 1)%nat).
  { unfold wrap_index. change (0 <=? -1)%Z with false. cbn [andb].
    destruct (Z.leb_spec (- Z.of_nat (length rows)) (-1)); [|lia]. cbn [andb Z.ltb Z.compare].
    f_equal. lia. }
  rewrite W. rewrite (nth_error_nth' rows dflt) by lia. simpl. do 2 f_equal.
  clear - NE. destruct (exists_last NE) as (l & a & ->).
  rewrite last_last, app_length, app_nth2 by (simpl; lia). simpl.
  replace (length l + 1 - 1 - length l)%nat with O by lia. reflexivity.
Qed.

(** Two bars sharing a node. *)
Example assembly_example :
  element_assembler [[1;2];[2;3]]%Z 3 [(1%nat, [1;2]); (2%nat, [10;20])] = Ok [1; 12; 20] /\
  vassemble_internal_forces [[1;2];[10;20]] [[0;1];[1;2]]%Z 3 1 = [1; 12; 20].
Proof.
  split.
  - unfold element_assembler. simpl. apply f_equal. repeat (apply f_equal2; [lra|]). reflexivity.
  - unfold vassemble_internal_forces. simpl. repeat (apply f_equal2; [lra|]). reflexivity.
Qed.

Example extraction_example :
  element_extractor [[3;1]]%Z 3 [10;11;20;21;30;31] 1 = Ok [30;31;10;11].
Proof. reflexivity. Qed.

Print Assumptions assembly_value.
Print Assumptions assembly_adjoint.
Print Assumptions vectorised_assembly.
