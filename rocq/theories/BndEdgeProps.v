(** Boundary nodes and boundary edge nodes of a material patch (C137). *)
From Coq Require Import List Bool Arith Lia.
From Verif Require Import Lib BndEdgeModel.
Import ListNotations.

(** An index is at an end of its dimension; how many of them are. *)
Definition at_end (n i : nat) : bool := Nat.eqb i 0 || Nat.eqb i (n - 1).
Definition num (x : bool) : nat := if x then 1 else 0.
Lemma at_end_true n i : at_end n i = true <-> i = 0 \/ i = n - 1.
Proof. unfold at_end. rewrite orb_true_iff, !Nat.eqb_eq. tauto. Qed.
Lemma in_axis n i : In i (axis n) <-> i < n.
Proof. unfold axis. rewrite in_seq. lia. Qed.
Lemma in_line n (f : nat -> nat) l : In l (map f (axis n)) <-> exists i, i < n /\ f i = l.
Proof. rewrite in_map_iff. split; intros (i & H & I); exists i; [apply in_axis in I|rewrite in_axis]; tauto. Qed.
Lemma in_plane n m f l : In l (plane f n m) <-> exists i j, i < n /\ j < m /\ f i j = l.
Proof.
  unfold plane. rewrite in_flat_map. split.
  - intros (i & I & H). apply in_axis in I. apply in_line in H as (j & J & H). eauto.
  - intros (i & j & I & J & H). exists i. rewrite in_axis, in_line. eauto.
Qed.

(** ** Two dimensions *)
Theorem boundary2_iff : forall n m M, 0 < n -> 0 < m -> NoDup (boundary2 n m M) /\
  forall l, In l (boundary2 n m M) <-> exists i j, i < n /\ j < m /\ M i j = l /\ (i = 0 \/ i = n - 1 \/ j = 0 \/ j = m - 1).
Proof.
  intros n m M N P. split; [apply NoDup_nodup|]. intros l. unfold boundary2. rewrite nodup_In, !in_app_iff, !in_line. split.
  - intros [(i & I & H)|[(i & I & H)|[(j & I & H)|(j & I & H)]]].
    + exists i, 0. split; [exact I|]. split; [exact P|]. auto.
    + exists i, (m - 1). split; [exact I|]. split; [lia|]. auto.
    + exists 0, j. split; [exact N|]. split; [exact I|]. auto.
    + exists (n - 1), j. split; [lia|]. split; [exact I|]. auto.
  - intros (i & j & I & J & H & [->|[->|[->| ->]]]); eauto 8.
Qed.
(** ** Three dimensions *)
Definition ends (a b c i j k : nat) : nat := num (at_end a i) + num (at_end b j) + num (at_end c k).
Definition node_of (a b c : nat) (M : nat -> nat -> nat -> nat) (l i j k : nat) : Prop := i < a /\ j < b /\ k < c /\ M i j k = l.
Lemma num_end n i : num (at_end n i) = 0 /\ ~ (i = 0 \/ i = n - 1) \/ num (at_end n i) = 1 /\ (i = 0 \/ i = n - 1).
Proof. destruct (at_end n i) eqn:E; [right|left]; (split; [reflexivity|]); [now apply at_end_true|]. rewrite <- at_end_true. congruence. Qed.
Theorem boundary3_iff : forall a b c M, 0 < a -> 0 < b -> 0 < c -> NoDup (boundary3 a b c M) /\
  forall l, In l (boundary3 a b c M) <-> l <> 0 /\ exists i j k, node_of a b c M l i j k /\ 1 <= ends a b c i j k.
Proof.
  intros a b c M A B C. split; [apply NoDup_nodup|]. intros l. unfold boundary3, node_of, ends. rewrite nodup_In, filter_In, negb_true_iff, Nat.eqb_neq, !in_app_iff, !in_plane. split.
  - intros (H & Z). split; [exact Z|].
    destruct H as [H|[H|[H|[H|[H|H]]]]]; destruct H as (x & y & X & Y & H).
    + exists x, y, 0. split; [auto|]. destruct (num_end c 0); lia.
    + exists x, y, (c - 1). split; [repeat split; auto; lia|]. destruct (num_end c (c - 1)); lia.
    + exists 0, x, y. split; [auto|]. destruct (num_end a 0); lia.
    + exists (a - 1), x, y. split; [repeat split; auto; lia|]. destruct (num_end a (a - 1)); lia.
    + exists x, 0, y. split; [auto|]. destruct (num_end b 0); lia.
    + exists x, (b - 1), y. split; [repeat split; auto; lia|]. destruct (num_end b (b - 1)); lia.
  - intros (Z & i & j & k & (I & J & K & H) & E). split; [|exact Z].
    destruct (num_end a i) as [(E1 & _)|(_ & [->| ->])]; [|right; right; left; eauto|right; right; right; left; eauto].
    destruct (num_end b j) as [(E2 & _)|(_ & [->| ->])]; [|do 4 right; left; eauto|do 5 right; eauto].
    destruct (num_end c k) as [(E3 & _)|(_ & [->| ->])]; [lia|left; eauto|right; left; eauto].
Qed.
(** The labels of the edges are those with two or three indices at an end. *)
Theorem edges3_iff : forall a b c M, 0 < a -> 0 < b -> 0 < c -> NoDup (edges3 a b c M) /\
  forall l, In l (edges3 a b c M) <-> exists i j k, node_of a b c M l i j k /\ 2 <= ends a b c i j k.
Proof.
  intros a b c M A B C. split; [apply NoDup_nodup|]. intros l. unfold edges3, node_of, ends. rewrite nodup_In, !in_app_iff, !in_line. split.
  - pose proof (num_end a 0). pose proof (num_end a (a - 1)). pose proof (num_end b 0). pose proof (num_end b (b - 1)). pose proof (num_end c 0). pose proof (num_end c (c - 1)).
    intros [Q|[Q|[Q|[Q|[Q|[Q|[Q|[Q|[Q|[Q|[Q|Q]]]]]]]]]]]; destruct Q as (x & X & Q).
    + exists x, 0, 0. split; [auto|lia].
    + exists x, 0, (c - 1). split; [repeat split; auto; lia|lia].
    + exists x, (b - 1), 0. split; [repeat split; auto; lia|lia].
    + exists x, (b - 1), (c - 1). split; [repeat split; auto; lia|lia].
    + exists 0, x, 0. split; [auto|lia].
    + exists 0, x, (c - 1). split; [repeat split; auto; lia|lia].
    + exists (a - 1), x, 0. split; [repeat split; auto; lia|lia].
    + exists (a - 1), x, (c - 1). split; [repeat split; auto; lia|lia].
    + exists 0, 0, x. split; [auto|lia].
    + exists 0, (b - 1), x. split; [repeat split; auto; lia|lia].
    + exists (a - 1), 0, x. split; [repeat split; auto; lia|lia].
    + exists (a - 1), (b - 1), x. split; [repeat split; auto; lia|lia].
  - intros (i & j & k & (I & J & K & H) & E).
    destruct (num_end a i) as [(E1 & _)|(E1 & Ei)], (num_end b j) as [(E2 & _)|(E2 & Ej)], (num_end c k) as [(E3 & _)|(E3 & Ek)]; try lia.
    + destruct Ej as [-> | ->], Ek as [-> | ->]; eauto 14.
    + destruct Ei as [-> | ->], Ek as [-> | ->]; eauto 14.
    + destruct Ei as [-> | ->], Ej as [-> | ->]; eauto 14.
    + destruct Ej as [-> | ->], Ek as [-> | ->]; eauto 14.
Qed.
(** With different labels at different nodes, the other boundary nodes are inside
    a face: exactly one index at an end. *)
Definition distinct (a b c : nat) (M : nat -> nat -> nat -> nat) : Prop :=
  forall i j k i' j' k', i < a -> j < b -> k < c -> i' < a -> j' < b -> k' < c -> M i j k = M i' j' k' -> M i j k <> 0 -> (i, j, k) = (i', j', k').
Theorem inside_faces_iff : forall a b c M, 0 < a -> 0 < b -> 0 < c -> distinct a b c M ->
  forall l, In l (inside_faces3 a b c M) <-> l <> 0 /\ exists i j k, node_of a b c M l i j k /\ ends a b c i j k = 1.
Proof.
  intros a b c M A B C D l. destruct (boundary3_iff a b c M A B C) as (_ & F). destruct (edges3_iff a b c M A B C) as (_ & G).
  unfold inside_faces3. rewrite filter_In, F, negb_true_iff.
  assert (X : existsb (Nat.eqb l) (edges3 a b c M) = false <-> ~ In l (edges3 a b c M)).
  { rewrite <- not_true_iff_false, existsb_exists. split; intros H Q; apply H; [exists l; split; [exact Q|apply Nat.eqb_refl]|]. destruct Q as (y & I & E). apply Nat.eqb_eq in E. now subst. }
  rewrite X, G. split.
  - intros ((Z & i & j & k & N & E) & Q). split; [exact Z|]. exists i, j, k. split; [exact N|]. destruct (le_lt_dec 2 (ends a b c i j k)) as [L|L]; [elim Q; eauto|lia].
  - intros (Z & i & j & k & N & E). split; [split; [exact Z|]; exists i, j, k; split; [exact N|lia]|].
    intros (i' & j' & k' & N' & E'). destruct N as (I & J & K & H), N' as (I' & J' & K' & H'). assert (Q : (i, j, k) = (i', j', k')) by (apply D; auto; congruence). injection Q as <- <- <-. lia.
Qed.
(** *** Numbers of nodes *)
Definition sum (l : list nat) : nat := fold_right Nat.add 0 l.
Lemma sum_ends n (f : bool -> nat) : 2 <= n -> sum (map (fun i => f (at_end n i)) (axis n)) = 2 * f true + (n - 2) * f false.
Proof.
  intros N. unfold axis. destruct n as [|[|n]]; [lia|lia|]. replace (S (S n) - 2) with n by lia.
  assert (SQ : seq 0 (S (S n)) = [0] ++ seq 1 n ++ [S n]) by (change (seq 0 (S (S n))) with ([0] ++ seq 1 (S n)); rewrite seq_S; reflexivity).
  rewrite SQ, !map_app.
  assert (S1 : forall x y, sum (x ++ y) = sum x + sum y) by (intros x y; induction x; cbn; [reflexivity|]; fold (sum (x ++ y)) (sum x) in *; cbn in *; lia).
  rewrite !S1. cbn [map sum fold_right].
  assert (E0 : at_end (S (S n)) 0 = true) by (apply at_end_true; lia). assert (E1 : at_end (S (S n)) (S n) = true) by (apply at_end_true; lia).
  rewrite E0, E1.
  assert (Mid : forall s t, 1 <= s -> s + t <= n + 1 -> sum (map (fun i => f (at_end (S (S n)) i)) (seq s t)) = t * f false).
  { intros s t. revert s. induction t as [|t IH]; intros s L U; [reflexivity|]. cbn [seq map sum fold_right]. fold (sum (map (fun i => f (at_end (S (S n)) i)) (seq (S s) t))). rewrite IH by lia.
    assert (E : at_end (S (S n)) s = false) by (apply not_true_iff_false; rewrite at_end_true; lia). rewrite E. cbn. lia. }
  fold (sum (map (fun i => f (at_end (S (S n)) i)) (seq 1 n))). rewrite Mid by lia. lia.
Qed.
Definition grid (a b c : nat) : list (nat * nat * nat) := flat_map (fun i => flat_map (fun j => map (fun k => (i, j, k)) (axis c)) (axis b)) (axis a).
Definition triple (a b c : nat) (p : nat -> bool) (x : nat * nat * nat) : bool := p (ends a b c (fst (fst x)) (snd (fst x)) (snd x)).
Lemma length_filter_flat {A B} (f : A -> list B) p l : length (filter p (flat_map f l)) = sum (map (fun x => length (filter p (f x))) l).
Proof. induction l as [|x l IH]; [reflexivity|]. cbn [flat_map map sum fold_right]. rewrite filter_app, app_length, IH. reflexivity. Qed.
Lemma length_filter_map {A B} (f : A -> B) p l : length (filter p (map f l)) = sum (map (fun x => num (p (f x))) l).
Proof. induction l as [|x l IH]; [reflexivity|]. cbn. destruct (p (f x)); cbn; rewrite IH; reflexivity. Qed.
Lemma sum_ext {A} (f g : A -> nat) l : (forall x, f x = g x) -> sum (map f l) = sum (map g l).
Proof. intros H. f_equal. apply map_ext. exact H. Qed.
Lemma grid_count a b c p : 2 <= a -> 2 <= b -> 2 <= c -> length (filter (triple a b c p) (grid a b c)) =
  8 * num (p 3) + 4 * ((a - 2) + (b - 2) + (c - 2)) * num (p 2) + 2 * ((a - 2) * (b - 2) + (a - 2) * (c - 2) + (b - 2) * (c - 2)) * num (p 1) + (a - 2) * (b - 2) * (c - 2) * num (p 0).
Proof.
  intros A B C. unfold grid. rewrite length_filter_flat.
  set (G := fun x y => 2 * num (p (num x + num y + num true)) + (c - 2) * num (p (num x + num y + num false))).
  set (H := fun x => 2 * G x true + (b - 2) * G x false).
  rewrite (sum_ext _ (fun i => H (at_end a i))).
  2:{ intros i. rewrite length_filter_flat. rewrite (sum_ext _ (fun j => G (at_end a i) (at_end b j))).
      - apply (sum_ends b (G (at_end a i)) B).
      - intros j. rewrite length_filter_map. apply (sum_ends c (fun z => num (p (num (at_end a i) + num (at_end b j) + num z))) C). }
  rewrite (sum_ends a H A). unfold H, G. cbn [num Nat.add].
  generalize (a - 2) (b - 2) (c - 2) (num (p 0)) (num (p 1)) (num (p 2)) (num (p 3)). intros. ring.
Qed.
Lemma nodup_flat {A B} (f : A -> list B) l : NoDup l -> (forall x, In x l -> NoDup (f x)) -> (forall x y z, In z (f x) -> In z (f y) -> x = y) -> NoDup (flat_map f l).
Proof.
  intros N F D. induction N as [|x l NI N IH]; [constructor|]. cbn. assert (X : forall u v : list B, NoDup u -> NoDup v -> (forall z, In z u -> ~ In z v) -> NoDup (u ++ v)).
  { intros u v U V W. induction U as [|z u ZI U IHu]; [exact V|]. cbn. constructor; [rewrite in_app_iff; intros [Q|Q]; [tauto|apply (W z); [now left|exact Q]]|]. apply IHu. intros y I. apply W. now right. }
  apply X; [apply F; now left|apply IH; intros y I; apply F; now right|]. intros z I Q. apply in_flat_map in Q as (y & J & Q). rewrite (D x y z I Q) in NI. tauto.
Qed.
Lemma nodup_grid a b c : NoDup (grid a b c).
Proof.
  unfold grid. apply nodup_flat; [apply seq_NoDup| |].
  - intros i _. apply nodup_flat; [apply seq_NoDup| |].
    + intros j _. apply FinFun.Injective_map_NoDup; [intros x y E; congruence|apply seq_NoDup].
    + intros x y z I J. apply in_map_iff in I as (k & <- & _). apply in_map_iff in J as (k' & E & _). congruence.
  - intros x y z I J. apply in_flat_map in I as (j & _ & I). apply in_map_iff in I as (k & <- & _). apply in_flat_map in J as (j' & _ & J). apply in_map_iff in J as (k' & E & _). congruence.
Qed.
Lemma in_grid a b c i j k : In (i, j, k) (grid a b c) <-> i < a /\ j < b /\ k < c.
Proof.
  unfold grid. rewrite in_flat_map. split.
  - intros (x & I & H). apply in_flat_map in H as (y & J & H). apply in_map_iff in H as (z & E & K). injection E as <- <- <-. rewrite in_axis in I, J, K. auto.
  - intros (I & J & K). exists i. split; [now apply in_axis|]. apply in_flat_map. exists j. split; [now apply in_axis|]. apply in_map. now apply in_axis.
Qed.
Lemma count_labels a b c M p (ls : list nat) : distinct a b c M -> (forall i j k, i < a -> j < b -> k < c -> M i j k <> 0) -> NoDup ls ->
  (forall l, In l ls <-> exists i j k, node_of a b c M l i j k /\ p (ends a b c i j k) = true) -> length ls = length (filter (triple a b c p) (grid a b c)).
Proof.
  intros D Z N H. set (f := fun x : nat * nat * nat => M (fst (fst x)) (snd (fst x)) (snd x)). rewrite <- (map_length f).
  assert (NN : NoDup (map f (filter (triple a b c p) (grid a b c)))).
  { assert (Y : forall l, NoDup l -> (forall x, In x l -> In x (grid a b c)) -> NoDup (map f l)).
    { intros l. induction l as [|x l IH]; intros U I; [constructor|]. inversion U as [|? ? U1 U2]; subst. cbn. constructor; [|apply IH; [exact U2|intros y J; apply I; now right]].
      intros Q. apply in_map_iff in Q as (y & E & J). apply U1. assert (x = y) as ->; [|exact J].
      assert (Ix : In x (grid a b c)) by (apply I; now left). assert (Iy : In y (grid a b c)) by (apply I; now right). destruct x as [[x1 x2] x3], y as [[y1 y2] y3]. apply in_grid in Ix, Iy. unfold f in E. cbn in E. apply D; try tauto; try congruence. apply Z; tauto. }
    apply Y; [apply NoDup_filter, nodup_grid|]. intros x I. now apply filter_In in I. }
  assert (EQ : forall l, In l ls <-> In l (map f (filter (triple a b c p) (grid a b c)))).
  { intros l. rewrite H, in_map_iff. split.
    - intros (i & j & k & (I & J & K & E) & P). exists (i, j, k). split; [exact E|]. apply filter_In. split; [now apply in_grid|exact P].
    - intros ([[i j] k] & E & I). apply filter_In in I as (I & P). apply in_grid in I as (I & J & K). exists i, j, k. split; [repeat split; auto|exact P]. }
  apply Nat.le_antisymm; apply NoDup_incl_length; auto; intros l; apply EQ.
Qed.
Theorem boundary3_count : forall a b c M, 2 <= a -> 2 <= b -> 2 <= c -> distinct a b c M -> (forall i j k, i < a -> j < b -> k < c -> M i j k <> 0) ->
  length (boundary3 a b c M) + (a - 2) * (b - 2) * (c - 2) = a * b * c /\ length (edges3 a b c M) + 16 = 4 * (a + b + c).
Proof.
  intros a b c M A B C D Z. destruct (boundary3_iff a b c M) as (N1 & F); try lia. destruct (edges3_iff a b c M) as (N2 & G); try lia. split.
  - rewrite (count_labels a b c M (fun n => Nat.leb 1 n) _ D Z N1).
    + rewrite grid_count by assumption. cbn [Nat.leb num]. destruct a as [|[|a]], b as [|[|b]], c as [|[|c]]; try lia. 
    + intros l. rewrite F. setoid_rewrite Nat.leb_le. split; [tauto|]. intros (i & j & k & (I & J & K & E) & P). split; [rewrite <- E; now apply Z|]. exists i, j, k. repeat split; auto.
  - rewrite (count_labels a b c M (fun n => Nat.leb 2 n) _ D Z N2).
    + rewrite grid_count by assumption. cbn [Nat.leb num]. lia.
    + intros l. rewrite G. setoid_rewrite Nat.leb_le. reflexivity.
Qed.
(** In a mesh of quadratic elements without nodes inside faces and elements, the
    edges still have all their nodes. *)
Theorem serendipity_edges : forall a b c M, Nat.odd a = true -> Nat.odd b = true -> Nat.odd c = true ->
  (forall i j k, i < a -> j < b -> k < c -> num (Nat.odd i) + num (Nat.odd j) + num (Nat.odd k) <= 1 -> M i j k <> 0) -> ~ In 0 (edges3 a b c M).
Proof.
  intros a b c M A B C Z I. assert (P : forall n, Nat.odd n = true -> 0 < n) by (intros [|n] H; [discriminate|lia]).
  destruct (edges3_iff a b c M (P a A) (P b B) (P c C)) as (_ & G). apply G in I as (i & j & k & (Ii & J & K & H) & E).
  apply (Z i j k Ii J K); [|exact H].
  assert (Q : forall n x, Nat.odd n = true -> num (Nat.odd x) + num (at_end n x) <= 1).
  { intros n x O. destruct (num_end n x) as [(-> & _)|(-> & [->| ->])]; [destruct (Nat.odd x); cbn; lia|cbn; lia|].
    destruct n as [|n]; [discriminate|]. replace (S n - 1) with n by lia. rewrite Nat.odd_succ in O. rewrite <- Nat.negb_even, O. cbn. lia. }
  pose proof (Q a i A). pose proof (Q b j B). pose proof (Q c k C). unfold ends in E. lia.
Qed.
(** A patch is accepted exactly when all prescribed nodes are on the boundary; in
    two dimensions a missing node on the boundary would be accepted too. *)
Theorem prescribed_iff : forall boundary prescribed, (check_prescribed boundary prescribed = Ok tt <-> incl prescribed boundary) /\
  (check_prescribed boundary prescribed = Err RuntimeError <-> ~ incl prescribed boundary).
Proof.
  intros bs ps. assert (X : existsb (fun l => negb (existsb (Nat.eqb l) bs)) ps = false <-> incl ps bs).
  { rewrite <- not_true_iff_false, existsb_exists. split.
    - intros H l I. destruct (existsb (Nat.eqb l) bs) eqn:E; [|elim H; exists l; rewrite E; auto]. apply existsb_exists in E as (y & J & E). apply Nat.eqb_eq in E. now subst.
    - intros H (l & I & E). apply negb_true_iff, not_true_iff_false in E. apply E, existsb_exists. exists l. split; [now apply H|apply Nat.eqb_refl]. }
  unfold check_prescribed. destruct (existsb (fun l => negb (existsb (Nat.eqb l) bs)) ps); split; split; intros H; try discriminate; try reflexivity; [now apply X in H|intros Q; now apply X in Q|now apply X|elim H; now apply X].
Qed.
Theorem missing_node_refuted : forall n m M, 0 < n -> 0 < m -> M 0 0 = 0 -> check_prescribed (boundary2 n m M) [0] = Ok tt.
Proof.
  intros n m M N P Z. apply prescribed_iff. intros l [<-|[]]. destruct (boundary2_iff n m M N P) as (_ & H). apply H. exists 0, 0. auto.
Qed.
Example edges_case : let M i j k := 1 + i + 3 * j + 9 * k in length (edges3 3 3 3 M) = 20 /\ length (boundary3 3 3 3 M) = 26 /\ inside_faces3 3 3 3 M = [5; 23; 13; 15; 11; 17].
Proof. vm_compute. repeat split. Qed.
Print Assumptions edges3_iff.
Print Assumptions boundary3_count.
