(** Shared support library: results with Python exceptions, list updates,
    finite real sums.  Nothing in this file models repository code; it only
    provides vocabulary used by the models and the specifications. *)
From Coq Require Import Reals List Arith Lia Lra Permutation Bool.
Import ListNotations.
Local Open Scope R_scope.

(** Python exceptions as values. *)
Inductive exn : Type :=
| RuntimeError | ValueError | KeyError | IndexError | TypeError
| AttributeError | NameError | ZeroDivisionError | FileExistsError.

Inductive res (A : Type) : Type :=
| Ok : A -> res A
| Err : exn -> res A.
Arguments Ok {A} _.
Arguments Err {A} _.

Definition rbind {A B} (x : res A) (f : A -> res B) : res B :=
  match x with Ok a => f a | Err e => Err e end.

(** Assignment [l[k] = v] on a list (out-of-range assignments leave the list
    unchanged; every use in the models is in range). *)
Fixpoint upd {A} (l : list A) (k : nat) (v : A) : list A :=
  match l, k with
  | [], _ => []
  | _ :: t, O => v :: t
  | h :: t, S k' => h :: upd t k' v
  end.

Lemma upd_length {A} (l : list A) k v : length (upd l k v) = length l.
Proof. revert k; induction l; destruct k; simpl; auto. Qed.

Lemma nth_upd {A} (l : list A) k v i d :
  (k < length l)%nat ->
  nth i (upd l k v) d = if Nat.eqb i k then v else nth i l d.
Proof.
  revert k i; induction l as [|a l IH]; intros k i H; [simpl in H; lia|].
  destruct k; destruct i; simpl; auto.
  simpl in H. rewrite IH by lia. reflexivity.
Qed.

Lemma upd_upd {A} (l : list A) k v w : upd (upd l k v) k w = upd l k w.
Proof. revert k; induction l; destruct k; simpl; auto. now rewrite IHl. Qed.

Lemma upd_comm {A} (l : list A) i j v w :
  i <> j -> upd (upd l i v) j w = upd (upd l j w) i v.
Proof.
  revert i j; induction l; destruct i, j; simpl; intros; auto; try lia.
  f_equal. apply IHl. lia.
Qed.

(** Finite sums  f 0 + ... + f (n-1). *)
Fixpoint rsum (n : nat) (f : nat -> R) : R :=
  match n with O => 0 | S k => rsum k f + f k end.

Lemma rsum_ext n f g : (forall i, (i < n)%nat -> f i = g i) -> rsum n f = rsum n g.
Proof. induction n; simpl; intros; auto. rewrite IHn, H; auto. Qed.

Lemma rsum_zero n f : (forall i, (i < n)%nat -> f i = 0) -> rsum n f = 0.
Proof. induction n; simpl; intros; auto. rewrite IHn, H; auto. ring. Qed.

Lemma rsum_plus n f g : rsum n (fun i => f i + g i) = rsum n f + rsum n g.
Proof. induction n; simpl; [ring|]. rewrite IHn; ring. Qed.

Lemma rsum_minus n f g : rsum n (fun i => f i - g i) = rsum n f - rsum n g.
Proof. induction n; simpl; [ring|]. rewrite IHn; ring. Qed.

Lemma rsum_scal n c f : rsum n (fun i => c * f i) = c * rsum n f.
Proof. induction n; simpl; [ring|]. rewrite IHn; ring. Qed.

Lemma rsum_scal_r n c f : rsum n (fun i => f i * c) = rsum n f * c.
Proof. induction n; simpl; [ring|]. rewrite IHn; ring. Qed.

Lemma rsum_const n c : rsum n (fun _ => c) = INR n * c.
Proof. induction n; [simpl; ring|]. rewrite S_INR. simpl. rewrite IHn; ring. Qed.

Lemma rsum_swap n m f :
  rsum n (fun i => rsum m (fun j => f i j)) = rsum m (fun j => rsum n (fun i => f i j)).
Proof.
  induction n; simpl.
  - symmetry; apply rsum_zero; auto.
  - rewrite IHn, <- rsum_plus. apply rsum_ext; auto.
Qed.

Lemma rsum_single n k f :
  (k < n)%nat -> (forall i, (i < n)%nat -> i <> k -> f i = 0) -> rsum n f = f k.
Proof.
  induction n; intros Hk H; [lia|]. simpl.
  destruct (Nat.eq_dec n k) as [->|].
  - rewrite rsum_zero; [ring|]. intros; apply H; lia.
  - rewrite IHn, (H n); [ring|lia|lia|lia|]. intros; apply H; lia.
Qed.

Lemma rsum_nonneg n f : (forall i, (i < n)%nat -> 0 <= f i) -> 0 <= rsum n f.
Proof. induction n; simpl; intros; [lra|]. apply Rplus_le_le_0_compat; auto. Qed.

Lemma rsum_le n f g : (forall i, (i < n)%nat -> f i <= g i) -> rsum n f <= rsum n g.
Proof. induction n; simpl; intros; [lra|]. apply Rplus_le_compat; auto. Qed.

Lemma rsum_nonneg_zero n f :
  (forall i, (i < n)%nat -> 0 <= f i) -> rsum n f = 0 ->
  forall i, (i < n)%nat -> f i = 0.
Proof.
  induction n; simpl; intros H E i Hi; [lia|].
  assert (0 <= rsum n f) by (apply rsum_nonneg; auto).
  assert (0 <= f n) by auto.
  destruct (Nat.eq_dec i n) as [->|]; [lra|].
  apply IHn; auto; try lia; lra.
Qed.

Lemma rsum_app n m f :
  rsum (n + m) f = rsum n f + rsum m (fun i => f (n + i)%nat).
Proof.
  induction m; simpl; [rewrite Nat.add_0_r; ring|].
  replace (n + S m)%nat with (S (n + m)) by lia. simpl. rewrite IHm. ring.
Qed.

Lemma rsum_S_first n f : rsum (S n) f = f O + rsum n (fun i => f (S i)).
Proof. induction n; simpl in *; [ring|]. rewrite IHn. simpl. ring. Qed.

(** Block decomposition: sum over [n*m] indices as a double sum. *)
Lemma rsum_mul n m f :
  rsum (n * m) f = rsum n (fun i => rsum m (fun j => f (i * m + j)%nat)).
Proof.
  induction n; simpl; auto.
  rewrite Nat.add_comm, rsum_app, IHn. reflexivity.
Qed.

(** Sums over lists. *)
Fixpoint lsum (l : list R) : R :=
  match l with [] => 0 | x :: t => x + lsum t end.

Lemma lsum_app l1 l2 : lsum (l1 ++ l2) = lsum l1 + lsum l2.
Proof. induction l1; simpl; [ring|]. rewrite IHl1; ring. Qed.

Lemma lsum_perm l1 l2 : Permutation l1 l2 -> lsum l1 = lsum l2.
Proof. induction 1; simpl; try lra; congruence. Qed.

Lemma lsum_map_ext {A} (f g : A -> R) l :
  (forall x, In x l -> f x = g x) -> lsum (map f l) = lsum (map g l).
Proof. induction l; simpl; intros; auto. rewrite IHl, H; auto. Qed.

Lemma lsum_map_plus {A} (f g : A -> R) l :
  lsum (map (fun x => f x + g x) l) = lsum (map f l) + lsum (map g l).
Proof. induction l; simpl; [ring|]. rewrite IHl; ring. Qed.

Lemma lsum_map_scal {A} c (f : A -> R) l :
  lsum (map (fun x => c * f x) l) = c * lsum (map f l).
Proof. induction l; simpl; [ring|]. rewrite IHl; ring. Qed.

Lemma lsum_map_zero {A} (f : A -> R) l :
  (forall x, In x l -> f x = 0) -> lsum (map f l) = 0.
Proof. induction l; simpl; intros; auto. rewrite IHl, H; auto; ring. Qed.

Lemma lsum_flat_map {A} (f : A -> list R) l :
  lsum (flat_map f l) = lsum (map (fun x => lsum (f x)) l).
Proof. induction l; simpl; auto. rewrite lsum_app, IHl; auto. Qed.

Lemma lsum_nth l : lsum l = rsum (length l) (fun i => nth i l 0).
Proof.
  induction l; auto. simpl length. rewrite rsum_S_first. simpl. rewrite IHl. reflexivity.
Qed.

Lemma lsum_map_seq f n : lsum (map f (seq 0 n)) = rsum n f.
Proof.
  induction n; auto. rewrite seq_S, map_app, lsum_app, IHn. simpl. ring.
Qed.

Lemma lsum_nonneg l : (forall x, In x l -> 0 <= x) -> 0 <= lsum l.
Proof. induction l; simpl; intros; [lra|]. apply Rplus_le_le_0_compat; auto. Qed.

(** Order-2 and order-4 tensors are index functions; only indices below the
    spatial dimension are meaningful. *)
Definition T2 := nat -> nat -> R.
Definition T4 := nat -> nat -> nat -> nat -> R.

Definition eq2 (n : nat) (a b : T2) : Prop :=
  forall i j, (i < n)%nat -> (j < n)%nat -> a i j = b i j.
Definition eq4 (n : nat) (a b : T4) : Prop :=
  forall i j k l, (i < n)%nat -> (j < n)%nat -> (k < n)%nat -> (l < n)%nat ->
    a i j k l = b i j k l.

Definition sum2 (n : nat) (f : nat -> nat -> R) : R :=
  rsum n (fun i => rsum n (fun j => f i j)).

Lemma sum2_ext n f g :
  (forall i j, (i < n)%nat -> (j < n)%nat -> f i j = g i j) -> sum2 n f = sum2 n g.
Proof. intros; unfold sum2. apply rsum_ext; intros; apply rsum_ext; auto. Qed.

(** Reflection helper for comparisons on nat. *)
Lemma eqb_case (a b : nat) : (a = b /\ Nat.eqb a b = true) \/ (a <> b /\ Nat.eqb a b = false).
Proof. destruct (Nat.eq_dec a b); [left|right]; split; auto; [subst; apply Nat.eqb_refl|apply Nat.eqb_neq; auto]. Qed.

Lemma sqrt2_sq : sqrt 2 * sqrt 2 = 2.
Proof. apply sqrt_sqrt; lra. Qed.
Lemma sqrt2_neq0 : sqrt 2 <> 0.
Proof. intro H. pose proof sqrt2_sq. rewrite H in H0. lra. Qed.

Lemma nth_map_seq {A} (g : nat -> A) p q d :
  (q < p)%nat -> nth q (map g (seq 0 p)) d = g q.
Proof.
  intros H. rewrite nth_indep with (d' := g O) by (rewrite map_length, seq_length; auto).
  rewrite map_nth, seq_nth by auto. reflexivity.
Qed.
