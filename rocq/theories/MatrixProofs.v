(** Lemmas about the model of matrixops.py. *)
From Coq Require Import Reals List Arith Bool Lia Lra Permutation.
From Verif Require Import Lib MatrixModel MatrixSpec.
Import ListNotations.
Local Open Scope R_scope.

(** * Components and indices *)
Lemma comp_eqb_eq a b : comp_eqb a b = true <-> a = b.
Proof.
  unfold comp_eqb. rewrite andb_true_iff, !Nat.eqb_eq. destruct a, b; simpl.
  split; [intros [-> ->]; auto|inversion 1; auto].
Qed.

Lemma comp_eqb_refl a : comp_eqb a a = true.
Proof. apply comp_eqb_eq; auto. Qed.

Lemma index_of_some c (order : list comp) m :
  index_of c order = Some m -> (m < length order)%nat /\ nth m order (0,0)%nat = c.
Proof.
  revert m; induction order as [|x t IH]; simpl; intros m H; [discriminate|].
  destruct (comp_eqb x c) eqn:E.
  - inversion H; subst. apply comp_eqb_eq in E. subst. split; auto; lia.
  - destruct (index_of c t) eqn:E2; inversion H; subst.
    destruct (IH _ eq_refl). split; auto; lia.
Qed.

Lemma index_of_in c (order : list comp) : In c order -> exists m, index_of c order = Some m.
Proof.
  induction order as [|x t IH]; simpl; [tauto|].
  intros [->|H].
  - rewrite comp_eqb_refl. eauto.
  - destruct (comp_eqb x c); eauto. destruct (IH H) as [m ->]. eauto.
Qed.

Lemma index_of_none c (order : list comp) : index_of c order = None <-> ~ In c order.
Proof.
  split.
  - intros H I. apply index_of_in in I. destruct I; congruence.
  - intros H. destruct (index_of c order) eqn:E; auto.
    exfalso. apply H. apply index_of_some in E. destruct E as [E1 <-]. apply nth_In; auto.
Qed.

Lemma index_of_nth (order : list comp) i :
  NoDup order -> (i < length order)%nat ->
  index_of (nth i order (0,0)%nat) order = Some i.
Proof.
  intros ND Hi.
  destruct (index_of_in (nth i order (0,0)%nat) order) as [m Hm]; [apply nth_In; auto|].
  rewrite Hm. f_equal. apply index_of_some in Hm. destruct Hm as [Hm1 Hm2].
  eapply (proj1 (NoDup_nth order (0,0)%nat) ND); auto.
Qed.

Lemma dup_free_NoDup order : dup_free order = true <-> NoDup order.
Proof.
  induction order as [|c t IH]; simpl; [split; auto; constructor|].
  rewrite andb_true_iff, IH, negb_true_iff. split.
  - intros [H1 H2]. constructor; auto. intro I.
    assert (existsb (comp_eqb c) t = true); [|congruence].
    apply existsb_exists. exists c; split; auto. apply comp_eqb_refl.
  - inversion 1; subst. split; auto. destruct (existsb (comp_eqb c) t) eqn:E; auto.
    apply existsb_exists in E. destruct E as (x & I & E). apply comp_eqb_eq in E. subst. tauto.
Qed.

Lemma digits_ok_in n c : digits_ok n c = true <-> comp_in n c.
Proof.
  unfold digits_ok, comp_in. rewrite !andb_true_iff, !Nat.leb_le. tauto.
Qed.

Lemma order_ok_iff n (order : list comp) :
  order_ok n order = true <-> NoDup order /\ (forall c, In c order -> comp_in n c).
Proof.
  unfold order_ok. rewrite andb_true_iff, dup_free_NoDup, forallb_forall.
  split; intros [A B]; split; auto; intros; apply digits_ok_in; auto.
Qed.

Lemma row_lt n c : comp_in n c -> (row c < n)%nat /\ (col c < n)%nat.
Proof. unfold comp_in, row, col; lia. Qed.

Lemma comp_of_row_col n c : comp_in n c -> c = (row c + 1, col c + 1)%nat.
Proof. destruct c; unfold comp_in, row, col; simpl; intros; f_equal; lia. Qed.

(** * Loops *)
Lemma fold_upd_seq (g : nat -> R) n :
  fold_left (fun mf i => upd mf i (g i)) (seq 0 n) (repeat 0 n) = map g (seq 0 n).
Proof.
  assert (H : forall k, (k <= n)%nat ->
    let r := fold_left (fun mf i => upd mf i (g i)) (seq 0 k) (repeat 0 n) in
    length r = n /\ forall i, nth i r 0 = if Nat.ltb i k then g i else 0).
  { induction k; intros Hk r.
    - split; [apply repeat_length|]. intros i. simpl.
      revert i; clear; induction n; destruct i; simpl; auto.
    - subst r. rewrite seq_S, fold_left_app. simpl.
      destruct IHk as [L N]; [lia|]. split; [rewrite upd_length; auto|].
      intros i. rewrite nth_upd by lia. rewrite N.
      destruct (Nat.eqb_spec i k), (Nat.ltb_spec i k), (Nat.ltb_spec i (S k)); subst; auto; lia. }
  destruct (H n (le_n n)) as [L N].
  apply nth_ext with (d := 0) (d' := g O).
  - rewrite L, map_length, seq_length; auto.
  - intros i Hi. rewrite L in Hi. rewrite N, map_nth, seq_nth by auto.
    destruct (Nat.ltb_spec i n); auto; lia.
Qed.

Lemma map_nth_seq {A B} (f : A -> B) (l : list A) d :
  map (fun i => f (nth i l d)) (seq 0 (length l)) = map f l.
Proof.
  induction l as [|a l IH]; auto. simpl length. rewrite <- cons_seq. simpl. f_equal.
  rewrite <- seq_shift, map_map. simpl. exact IH.
Qed.

Lemma fold_left_ext_in {A B} (f g : A -> B -> A) l a :
  (forall x b, In b l -> f x b = g x b) -> fold_left f l a = fold_left g l a.
Proof.
  revert a; induction l; simpl; intros; auto. rewrite H, IHl; auto.
Qed.

Lemma get_tensor_mf2_eq t n (order : list comp) kelvin k :
  order_ok n order = true -> kelvin_flag n order kelvin = Ok k ->
  get_tensor_mf2 t n order kelvin
  = Ok (map (fun c => kfac k c * t (row c) (col c)) order).
Proof.
  intros H1 H2. unfold get_tensor_mf2. rewrite H1, H2. simpl. f_equal.
  apply order_ok_iff in H1. destruct H1 as [ND _].
  rewrite fold_left_ext_in with
    (g := fun mf i => upd mf i (kfac k (nth i order (0,0)%nat)
            * t (row (nth i order (0,0)%nat)) (col (nth i order (0,0)%nat)))).
  - rewrite fold_upd_seq.
    apply (map_nth_seq (fun c => kfac k c * t (row c) (col c))).
  - intros x b I. apply in_seq in I. rewrite index_of_nth by (auto; lia). reflexivity.
Qed.

Lemma kfac2_split k c d : kfac2 k c d = kfac k c * kfac k d.
Proof. unfold kfac2, kfac. destruct k, (offdiag c), (offdiag d); simpl; ring. Qed.

Lemma upd2_shape m i j v n :
  length m = n -> (forall r, In r m -> length r = n) -> (i < n)%nat ->
  length (upd2 m i j v) = n /\ (forall r, In r (upd2 m i j v) -> length r = n).
Proof.
  intros L S Hi. unfold upd2. split; [rewrite upd_length; auto|].
  intros r I. apply In_nth with (d := []) in I. destruct I as (a & Ha & <-).
  rewrite upd_length in Ha. rewrite nth_upd by lia.
  destruct (Nat.eqb a i); [rewrite upd_length|]; apply S, nth_In; lia.
Qed.

Lemma nth_upd2 m i j v n a b :
  length m = n -> (forall r, In r m -> length r = n) -> (i < n)%nat -> (j < n)%nat ->
  nth b (nth a (upd2 m i j v) []) 0
  = if Nat.eqb a i && Nat.eqb b j then v else nth b (nth a m []) 0.
Proof.
  intros L S Hi Hj. unfold upd2. rewrite nth_upd by lia.
  destruct (Nat.eqb_spec a i); simpl; auto. subst a.
  rewrite nth_upd; auto. rewrite S; auto. apply nth_In; lia.
Qed.

Lemma nth_list_prod_unique {A B} (l : list A) (m : list B) x y :
  In (x, y) (list_prod l m) <-> In x l /\ In y m.
Proof. apply in_prod_iff. Qed.

(** A list of writes to matrix cells: the final value of a cell is the common
    value of the writes to it. *)
Lemma fold_writes_mat {W} (pos : W -> nat * nat) (val : W -> R) ws m n :
  length m = n -> (forall r, In r m -> length r = n) ->
  (forall w, In w ws -> (fst (pos w) < n)%nat /\ (snd (pos w) < n)%nat) ->
  let r := fold_left (fun m w => upd2 m (fst (pos w)) (snd (pos w)) (val w)) ws m in
  length r = n /\ (forall x, In x r -> length x = n) /\
  (forall a b, (forall w, In w ws -> pos w <> (a, b)) ->
     nth b (nth a r []) 0 = nth b (nth a m []) 0) /\
  (forall a b v, (exists w, In w ws /\ pos w = (a, b)) ->
     (forall w, In w ws -> pos w = (a, b) -> val w = v) -> nth b (nth a r []) 0 = v).
Proof.
  revert m; induction ws as [|w ws IH]; intros m L S P; simpl.
  - repeat split; auto. intros a b v (w & [] & _).
  - destruct (P w) as [P1 P2]; [left; auto|].
    destruct (upd2_shape m (fst (pos w)) (snd (pos w)) (val w) n L S P1) as [L' S'].
    destruct (IH _ L' S') as (A & B & C & D); [intros; apply P; right; auto|].
    repeat split; auto.
    + intros a b H. rewrite C by (intros; apply H; auto).
      rewrite nth_upd2 with (n := n) by auto.
      destruct (Nat.eqb_spec a (fst (pos w))), (Nat.eqb_spec b (snd (pos w))); auto.
      exfalso. apply (H w); auto. subst. destruct (pos w); auto.
    + intros a b v Hex Hall.
      assert (dec : (exists w0, In w0 ws /\ pos w0 = (a,b)) \/
                    (forall w0, In w0 ws -> pos w0 <> (a,b))).
      { clear - ws. induction ws as [|w0 ws IH]; [right; simpl; tauto|].
        destruct IH as [(x & I & E)|H]; [left; exists x; simpl; auto|].
        destruct (pos w0) as [p q] eqn:E.
        destruct (Nat.eq_dec p a), (Nat.eq_dec q b); subst;
          [left; exists w0; simpl; auto| | | ];
          right; intros y [<-|I]; try solve [apply H; auto]; rewrite E; intro Q; inversion Q; auto. }
      destruct dec as [E|E].
      * apply D; auto.
      * rewrite C by auto. destruct Hex as (w0 & [<-|I] & Hp); [|exfalso; eapply E; eauto].
        rewrite nth_upd2 with (n := n) by auto. rewrite Hp. simpl.
        rewrite !Nat.eqb_refl. simpl. apply Hall; auto.
Qed.

Lemma repeat_in {A} (x y : A) n : In y (repeat x n) -> y = x.
Proof. apply repeat_spec. Qed.

Lemma mat_ext (a b : list (list R)) n :
  length a = n -> length b = n ->
  (forall r, In r a -> length r = n) -> (forall r, In r b -> length r = n) ->
  (forall i j, (i < n)%nat -> (j < n)%nat ->
     nth j (nth i a []) 0 = nth j (nth i b []) 0) -> a = b.
Proof.
  intros La Lb Sa Sb H. apply nth_ext with (d := []) (d' := []); [congruence|].
  intros i Hi. apply nth_ext with (d := 0) (d' := 0).
  - rewrite Sa, Sb; auto; apply nth_In; lia.
  - intros j Hj. apply H; [lia|]. rewrite Sa in Hj; auto. apply nth_In; lia.
Qed.

Lemma get_tensor_mf4_eq t n (order : list comp) kelvin k :
  order_ok n order = true -> kelvin_flag n order kelvin = Ok k ->
  get_tensor_mf4 t n order kelvin
  = Ok (map (fun c => map (fun d =>
          kfac k c * kfac k d * t (row c) (col c) (row d) (col d)) order) order).
Proof.
  intros H1 H2. unfold get_tensor_mf4. rewrite H1, H2. simpl. f_equal.
  apply order_ok_iff in H1. destruct H1 as [ND _].
  set (N := length order).
  set (idx := fun c => match index_of c order with Some m => m | None => O end).
  set (pos := fun cd : comp * comp => (idx (fst cd), idx (snd cd))).
  set (val := fun cd : comp * comp => kfac2 k (fst cd) (snd cd)
     * t (row (fst cd)) (col (fst cd)) (row (snd cd)) (col (snd cd))).
  rewrite fold_left_ext_in with
    (g := fun m w => upd2 m (fst (pos w)) (snd (pos w)) (val w)).
  2:{ intros x [c d] I. apply in_prod_iff in I. destruct I as [I1 I2].
      destruct (index_of_in _ _ I1) as [p Hp], (index_of_in _ _ I2) as [q Hq].
      unfold pos, val, idx. simpl. rewrite Hp, Hq. auto. }
  assert (IDX : forall c, In c order -> (idx c < N)%nat /\ nth (idx c) order (0,0)%nat = c).
  { intros c I. destruct (index_of_in _ _ I) as [p Hp]. unfold idx. rewrite Hp.
    apply index_of_some in Hp. auto. }
  destruct (fold_writes_mat pos val (list_prod order order)
              (repeat (repeat 0 N) N) N) as (A & B & C & D).
  - apply repeat_length.
  - intros r I. apply repeat_in in I. subst. apply repeat_length.
  - intros [c d] I. apply in_prod_iff in I. destruct I. simpl. split; apply IDX; auto.
  - apply mat_ext with (n := N); auto.
    + rewrite map_length; auto.
    + intros r I. apply in_map_iff in I. destruct I as (c & <- & _). rewrite map_length; auto.
    + intros i j Hi Hj. apply D.
      * exists (nth i order (0,0)%nat, nth j order (0,0)%nat).
        split; [apply in_prod_iff; split; apply nth_In; auto|].
        unfold pos, idx. simpl. rewrite !index_of_nth; auto.
      * intros [c d] I E. apply in_prod_iff in I. destruct I as [I1 I2].
        unfold pos in E. simpl in E. injection E as E1 E2.
        destruct (IDX _ I1) as [_ Ec], (IDX _ I2) as [_ Ed].
        rewrite E1 in Ec. rewrite E2 in Ed.
        rewrite nth_indep with (d' := map (fun d0 => kfac k (0,0)%nat * kfac k d0
            * t (row (0,0)%nat) (col (0,0)%nat) (row d0) (col d0)) order)
          by (rewrite map_length; auto).
        rewrite map_nth with (f := fun c => map (fun d =>
          kfac k c * kfac k d * t (row c) (col c) (row d) (col d)) order).
        rewrite nth_indep with (d' := kfac k (nth i order (0,0)%nat) * kfac k (0,0)%nat
            * t (row (nth i order (0,0)%nat)) (col (nth i order (0,0)%nat)) (row (0,0)%nat) (col (0,0)%nat))
          by (rewrite map_length; auto).
        rewrite map_nth with (f := fun d => kfac k (nth i order (0,0)%nat) * kfac k d
            * t (row (nth i order (0,0)%nat)) (col (nth i order (0,0)%nat)) (row d) (col d)).
        rewrite Ec, Ed. unfold val. simpl. rewrite kfac2_split. reflexivity.
Qed.

Lemma vget_tensor_mf2_eq t n (order : list comp) kelvin k :
  kelvin_flag n order kelvin = Ok k ->
  vget_tensor_mf2 t n order kelvin
  = Ok (map (fun c => kfac k c * t (row c) (col c)) order).
Proof.
  intros H. unfold vget_tensor_mf2. rewrite H. simpl. f_equal.
  apply map_ext. intros; ring.
Qed.

Lemma vget_tensor_mf4_eq t n (order : list comp) kelvin k :
  kelvin_flag n order kelvin = Ok k ->
  vget_tensor_mf4 t n order kelvin
  = Ok (map (fun c => map (fun d =>
          kfac k c * kfac k d * t (row c) (col c) (row d) (col d)) order) order).
Proof.
  intros H. unfold vget_tensor_mf4. rewrite H. simpl. f_equal.
  apply map_ext. intros; apply map_ext; intros; ring.
Qed.

(** * Admissible orders: counting *)
Definition pairs (n : nat) : list comp := list_prod (seq 1 n) (seq 1 n).

Lemma in_pairs n c : In c (pairs n) <-> comp_in n c.
Proof.
  unfold pairs, comp_in. destruct c as [a b]. rewrite in_prod_iff, !in_seq. simpl. lia.
Qed.

Lemma NoDup_app_intro {A} (l1 l2 : list A) :
  NoDup l1 -> NoDup l2 -> (forall x, In x l1 -> ~ In x l2) -> NoDup (l1 ++ l2).
Proof.
  induction l1 as [|a l1 IH]; simpl; intros N1 N2 D; auto.
  inversion N1; subst. constructor.
  - rewrite in_app_iff. intros [I|I]; [auto|]. apply (D a); auto.
  - apply IH; auto.
Qed.

Lemma NoDup_flat_map {A B} (f : A -> list B) l :
  NoDup l -> (forall x, In x l -> NoDup (f x)) ->
  (forall x y z, In x l -> In y l -> In z (f x) -> In z (f y) -> x = y) ->
  NoDup (flat_map f l).
Proof.
  induction l as [|a l IH]; simpl; intros N F D; [constructor|].
  inversion N; subst. apply NoDup_app_intro; auto.
  - apply IH; auto. intros; eapply D; eauto.
  - intros z I1 I2. apply in_flat_map in I2. destruct I2 as (y & Iy & Iz).
    assert (a = y) by (eapply D; eauto). subst. auto.
Qed.

Lemma NoDup_list_prod {A B} (l : list A) (m : list B) :
  NoDup l -> NoDup m -> NoDup (list_prod l m).
Proof.
  induction l as [|a l IH]; simpl; intros Nl Nm; [constructor|].
  inversion Nl; subst. apply NoDup_app_intro; auto.
  - apply FinFun.Injective_map_NoDup; auto. intros x y E; inversion E; auto.
  - intros [x y] I1 I2. apply in_map_iff in I1. destruct I1 as (z & E & _).
    inversion E; subst. apply in_prod_iff in I2. tauto.
Qed.

Lemma NoDup_pairs n : NoDup (pairs n).
Proof. apply NoDup_list_prod; apply seq_NoDup. Qed.

Lemma full_order_perm n order : full_order n order -> Permutation order (pairs n).
Proof.
  intros [ND H]. apply NoDup_Permutation; auto using NoDup_pairs.
  intros c. rewrite in_pairs. apply H.
Qed.

Definition expand (c : comp) : list comp := if offdiag c then [c; comp_rev c] else [c].

Lemma offdiag_true c : offdiag c = true <-> fst c <> snd c.
Proof. unfold offdiag. rewrite negb_true_iff, Nat.eqb_neq. tauto. Qed.
Lemma offdiag_false c : offdiag c = false <-> fst c = snd c.
Proof. unfold offdiag. rewrite negb_false_iff, Nat.eqb_eq. tauto. Qed.

Lemma in_expand c d : In d (expand c) <-> d = c \/ d = comp_rev c.
Proof.
  unfold expand. destruct (offdiag c) eqn:E; simpl.
  - intuition.
  - apply offdiag_false in E. destruct c as [a b]; simpl in *. subst b.
    unfold comp_rev; simpl. intuition.
Qed.

Lemma comp_rev_rev c : comp_rev (comp_rev c) = c.
Proof. destruct c; auto. Qed.

Lemma sym_order_perm n (order : list comp) :
  sym_order n order -> Permutation (flat_map expand order) (pairs n).
Proof.
  intros (ND & R & C & A). apply NoDup_Permutation; auto using NoDup_pairs.
  - apply NoDup_flat_map; auto.
    + intros c I. unfold expand. destruct (offdiag c) eqn:E.
      * apply offdiag_true in E. constructor; [|constructor; auto; constructor].
        simpl. intros [H|[]]. apply E. destruct c; inversion H; auto.
      * constructor; auto. constructor.
    + intros x y z Ix Iy Zx Zy. rewrite in_expand in Zx, Zy.
      assert (H : x = y \/ x = comp_rev y).
      { destruct Zx as [->| ->], Zy as [E|E]; auto.
        - right. rewrite <- E. apply eq_sym, comp_rev_rev.
        - left. rewrite <- (comp_rev_rev x), E. apply comp_rev_rev. }
      destruct H as [H|H]; auto.
      destruct (Nat.eq_dec (fst x) (snd x)) as [E|E].
      * subst x. destruct y as [a b]; unfold comp_rev in *; simpl in *. congruence.
      * exfalso. destruct x as [a b]. simpl in E.
        assert (y = (b, a)) by (destruct y; inversion H; auto). subst.
        apply (A a b); auto.
  - intros c. rewrite in_pairs, in_flat_map. split.
    + intros (d & I & E). apply in_expand in E.
      destruct E as [->| ->]; [auto|]. apply R in I. unfold comp_in, comp_rev in *. simpl. tauto.
    + intros H. destruct c as [a b]. destruct (C a b) as [I|I]; try (apply H).
      * exists (a,b). rewrite in_expand. auto.
      * exists (b,a). rewrite in_expand. auto.
Qed.

Lemma sum_range_S n : sum_range (S n) = (sum_range n + S n)%nat.
Proof.
  unfold sum_range. replace (S n + 1)%nat with (S (n + 1)) by lia.
  rewrite seq_S, fold_left_app. simpl. lia.
Qed.

Lemma sum_range_double n : (2 * sum_range n = n * (n + 1))%nat.
Proof.
  induction n; [reflexivity|]. rewrite sum_range_S. nia.
Qed.

Lemma filter_len_split {A} (f : A -> bool) l :
  (length (filter f l) + length (filter (fun x => negb (f x)) l) = length l)%nat.
Proof. induction l; simpl; auto. destruct (f a); simpl; lia. Qed.

Lemma sym_order_diag n (order : list comp) :
  sym_order n order ->
  Permutation (filter (fun c => negb (offdiag c)) order) (map (fun i => (i, i)) (seq 1 n)).
Proof.
  intros (ND & R & C & A). apply NoDup_Permutation.
  - apply NoDup_filter; auto.
  - apply FinFun.Injective_map_NoDup; [intros x y E; inversion E; auto|apply seq_NoDup].
  - intros c. rewrite filter_In, negb_true_iff, offdiag_false, in_map_iff. split.
    + intros [I E]. exists (fst c). apply R in I. unfold comp_in in I.
      destruct c; simpl in *; subst. split; auto. apply in_seq. lia.
    + intros (i & <- & I). apply in_seq in I. simpl. split; auto.
      destruct (C i i); auto; lia.
Qed.

Lemma flat_map_expand_length order :
  length (flat_map expand order)
  = (length order + length (filter offdiag order))%nat.
Proof.
  induction order as [|c t IH]; simpl; auto.
  rewrite app_length, IH. unfold expand. destruct (offdiag c); simpl; lia.
Qed.

Lemma sym_order_length n order : sym_order n order -> length order = sum_range n.
Proof.
  intros H.
  pose proof (Permutation_length (sym_order_perm n order H)) as E1.
  pose proof (Permutation_length (sym_order_diag n order H)) as E2.
  rewrite map_length, seq_length in E2.
  rewrite flat_map_expand_length in E1. unfold pairs in E1.
  rewrite prod_length, seq_length in E1.
  pose proof (filter_len_split offdiag order). pose proof (sum_range_double n). nia.
Qed.

Lemma full_order_length n order : full_order n order -> length order = (n * n)%nat.
Proof.
  intros H. rewrite (Permutation_length (full_order_perm n order H)).
  unfold pairs. rewrite prod_length, seq_length. auto.
Qed.

Lemma sym_order_ok n order : sym_order n order -> order_ok n order = true.
Proof. intros (A & B & _). apply order_ok_iff; auto. Qed.
Lemma full_order_ok n order : full_order n order -> order_ok n order = true.
Proof. intros (A & B). apply order_ok_iff; split; auto. intros; apply B; auto. Qed.

(** The effective Kelvin flag, and the factor it induces on the order. *)
Lemma kelvin_flag_full n (order : list comp) kelvin :
  full_order n order -> kelvin_flag n order kelvin = Ok false.
Proof.
  intros H. unfold kelvin_flag. rewrite (full_order_length n order H), Nat.eqb_refl. auto.
Qed.

Lemma kelvin_flag_sym n (order : list comp) kelvin :
  sym_order n order -> exists k, kelvin_flag n order kelvin = Ok k /\
    (k = kelvin \/ (k = false /\ (n <= 1)%nat)).
Proof.
  intros H. unfold kelvin_flag. rewrite (sym_order_length n order H).
  pose proof (sum_range_double n).
  destruct (Nat.eqb_spec (sum_range n) (n * n)).
  - exists false. split; auto. right. split; auto. nia.
  - rewrite Nat.eqb_refl. eauto.
Qed.

Lemma small_no_offdiag n c : (n <= 1)%nat -> comp_in n c -> offdiag c = false.
Proof. unfold comp_in. intros. apply offdiag_false. lia. Qed.

(** Natural Kelvin factor. *)
Definition kf (c : comp) : R := if offdiag c then sqrt 2 else 1.

Lemma kelvin_sym_factor n (order : list comp) :
  sym_order n order -> exists k, kelvin_flag n order true = Ok k /\
    (forall c, In c order -> kfac k c = kf c) /\
    (forall c, In c order -> k && offdiag c = offdiag c).
Proof.
  intros H. destruct (kelvin_flag_sym n order true H) as (k & E & [->|[-> Hn]]).
  - exists true. repeat split; auto.
  - exists false. repeat split; auto; intros c I; unfold kfac, kf; simpl;
      destruct H as (_ & R & _); rewrite (small_no_offdiag n c); auto.
Qed.

Lemma kf_pos c : kf c <> 0.
Proof. unfold kf. destruct (offdiag c); [apply sqrt2_neq0|lra]. Qed.
Lemma kf_sq c : kf c * kf c = if offdiag c then 2 else 1.
Proof. unfold kf. destruct (offdiag c); [apply sqrt2_sq|lra]. Qed.

(** * Sums over components *)
Lemma lsum_list_prod {A B} (g : A * B -> R) l m :
  lsum (map g (list_prod l m)) = lsum (map (fun x => lsum (map (fun y => g (x, y)) m)) l).
Proof.
  induction l as [|a l IH]; simpl; auto.
  rewrite map_app, lsum_app, IH, map_map. reflexivity.
Qed.

Lemma lsum_seq1 f n : lsum (map f (seq 1 n)) = rsum n (fun i => f (S i)).
Proof. rewrite <- seq_shift, map_map. apply (lsum_map_seq (fun i => f (S i))). Qed.

Lemma sum2_pairs n f : sum2 n f = lsum (map (fun c => f (row c) (col c)) (pairs n)).
Proof.
  unfold pairs. rewrite lsum_list_prod, lsum_seq1. unfold sum2.
  apply rsum_ext; intros i Hi. rewrite lsum_seq1. apply rsum_ext; intros j Hj.
  unfold row, col; simpl. rewrite !Nat.sub_0_r. reflexivity.
Qed.

Lemma sum2_sym_order n (order : list comp) f :
  sym_order n order ->
  (forall i j, (i < n)%nat -> (j < n)%nat -> f i j = f j i) ->
  sum2 n f = lsum (map (fun c => kf c * kf c * f (row c) (col c)) order).
Proof.
  intros H S. rewrite sum2_pairs.
  rewrite <- (lsum_perm _ _ (Permutation_map _ (sym_order_perm n order H))).
  destruct H as (_ & R & _). clear - S R.
  induction order as [|c t IH]; simpl; auto.
  rewrite map_app, lsum_app, IH; [|intros; apply R; simpl; auto].
  f_equal. rewrite kf_sq.
  destruct (row_lt n c) as [r1 r2]; [apply R; simpl; auto|].
  unfold expand. destruct (offdiag c) eqn:E; simpl; [|ring].
  unfold row, col, comp_rev in *; simpl. rewrite (S (snd c - 1)%nat) by auto. ring.
Qed.

Lemma sum2_full_order n (order : list comp) f :
  full_order n order -> sum2 n f = lsum (map (fun c => f (row c) (col c)) order).
Proof.
  intros H. rewrite sum2_pairs.
  symmetry. apply lsum_perm, Permutation_map, full_order_perm; auto.
Qed.

Lemma dotl_map {A} (f g : A -> R) l :
  dotl (map f l) (map g l) = lsum (map (fun x => f x * g x) l).
Proof.
  unfold dotl. rewrite map_length.
  induction l as [|a l IH]; auto. simpl length. rewrite rsum_S_first.
  cbn [map nth lsum]. rewrite <- IH. reflexivity.
Qed.

(** * Tensor from matricial form: writes *)
Lemma set2_neq t i j v a b : (a, b) <> (i, j) -> set2 t i j v a b = t a b.
Proof.
  unfold set2. destruct (Nat.eqb_spec a i), (Nat.eqb_spec b j); simpl; auto.
  subst; congruence.
Qed.
Lemma set2_eq t i j v : set2 t i j v i j = v.
Proof. unfold set2. rewrite !Nat.eqb_refl. auto. Qed.

(** General write sequences over second-order tensors. *)
Definition wr2 (t : T2) (w : (nat * nat) * R) : T2 := set2 t (fst (fst w)) (snd (fst w)) (snd w).

Lemma wr2_untouched ws t a b :
  (forall w, In w ws -> fst w <> (a, b)) -> fold_left wr2 ws t a b = t a b.
Proof.
  revert t; induction ws as [|w ws IH]; intros t H; simpl; auto.
  rewrite IH by (intros; apply H; right; auto).
  apply set2_neq. intro E. apply (H w); [left; auto|]. destruct w as [[p q] v]; simpl in *. congruence.
Qed.

Lemma wr2_val ws t a b v :
  (exists w, In w ws /\ fst w = (a, b)) ->
  (forall w, In w ws -> fst w = (a, b) -> snd w = v) ->
  fold_left wr2 ws t a b = v.
Proof.
  revert t; induction ws as [|w ws IH]; intros t Hex Hall; [destruct Hex as (? & [] & _)|].
  simpl.
  assert (dec : (exists w0, In w0 ws /\ fst w0 = (a,b)) \/ (forall w0, In w0 ws -> fst w0 <> (a,b))).
  { clear. induction ws as [|w0 ws IH]; [right; simpl; tauto|].
    destruct IH as [(x & I & E)|H]; [left; exists x; simpl; auto|].
    destruct w0 as [[p q] r].
    destruct (Nat.eq_dec p a), (Nat.eq_dec q b); subst;
      [left; exists ((a, b), r); simpl; auto| | | ];
      right; intros y [<-|I]; try solve [apply H; auto]; simpl; intro Q; inversion Q; auto. }
  destruct dec as [E|E].
  - apply IH; auto. intros; apply Hall; simpl; auto.
  - rewrite wr2_untouched by auto. destruct Hex as (w0 & [<-|I] & Hp); [|exfalso; eapply E; eauto].
    unfold wr2. rewrite Hp. simpl. rewrite set2_eq. apply Hall; simpl; auto.
Qed.

Lemma fold_left_flat_map {A B C} (g : A -> B -> A) (f : C -> list B) l a :
  fold_left g (flat_map f l) a = fold_left (fun x c => fold_left g (f c) x) l a.
Proof. revert a; induction l; simpl; intros; auto. rewrite fold_left_app. auto. Qed.

Definition from_writes (k : bool) (mf : list R) (order : list comp) (i : nat)
  : list ((nat * nat) * R) :=
  let c := nth i order (0,0)%nat in
  let v := (1 / kfac k c) * nth i mf 0 in
  (if k && offdiag c then [((col c, row c), v)] else []) ++ [((row c, col c), v)].

Lemma get_tensor_from_mf2_writes mf n (order : list comp) kelvin k :
  order_ok n order = true -> kelvin_flag n order kelvin = Ok k ->
  length mf = length order ->
  get_tensor_from_mf2 mf n order kelvin
  = Ok (fold_left wr2 (flat_map (from_writes k mf order) (seq 0 (length order))) zero2).
Proof.
  intros H1 H2 L. unfold get_tensor_from_mf2.
  assert (mf_size_ok n (length mf) = true) as ->.
  { unfold kelvin_flag in H2. unfold mf_size_ok. rewrite L.
    destruct (Nat.eqb (length order) (n * n)); auto.
    destruct (Nat.eqb (length order) (sum_range n)); auto. discriminate. }
  rewrite H1, H2. simpl. rewrite L, Nat.ltb_irrefl. f_equal.
  rewrite fold_left_flat_map. apply fold_left_ext_in.
  intros t i I. apply in_seq in I. apply order_ok_iff in H1. destruct H1 as [ND _].
  rewrite index_of_nth by (auto; lia).
  unfold from_writes. destruct (k && offdiag (nth i order (0,0)%nat)); reflexivity.
Qed.

Lemma comp_in_inj n c d :
  comp_in n c -> comp_in n d -> row c = row d -> col c = col d -> c = d.
Proof.
  intros A B E1 E2. rewrite (comp_of_row_col n c), (comp_of_row_col n d); auto.
Qed.

(** Value of the rebuilt tensor at the position of component number [m]. *)
Lemma from_mf2_sym mf n (order : list comp) :
  sym_order n order -> length mf = length order ->
  exists t, get_tensor_from_mf2 mf n order true = Ok t /\
   forall m, (m < length order)%nat ->
     let c := nth m order (0,0)%nat in
     t (row c) (col c) = 1 / kf c * nth m mf 0 /\ t (col c) (row c) = 1 / kf c * nth m mf 0.
Proof.
  intros H L. destruct (kelvin_sym_factor n order H) as (k & E & F & G).
  eexists. split; [apply get_tensor_from_mf2_writes; eauto using sym_order_ok|].
  intros m Hm c. pose proof H as (ND & R & C & A).
  assert (In c order) as Ic by (apply nth_In; auto).
  assert (KEY : forall a b, (a = row c /\ b = col c) \/ (a = col c /\ b = row c) ->
     forall w, In w (flat_map (from_writes k mf order) (seq 0 (length order))) ->
       fst w = (a, b) -> snd w = 1 / kf c * nth m mf 0).
  { intros a b Hab w I Ew. apply in_flat_map in I. destruct I as (i & Ii & Iw).
    apply in_seq in Ii. simpl in Ii.
    set (d := nth i order (0,0)%nat) in *.
    assert (Id : In d order) by (apply nth_In; lia).
    assert (Ed : d = c \/ d = comp_rev c).
    { unfold from_writes in Iw. fold d in Iw. rewrite in_app_iff in Iw.
      assert (fst w = (col d, row d) \/ fst w = (row d, col d)) as HW.
      { destruct Iw as [Iw|[<-|[]]]; auto.
        destruct (k && offdiag d); [destruct Iw as [<-|[]]; auto|destruct Iw]. }
      pose proof (R _ Ic) as Rc. pose proof (R _ Id) as Rd.
      assert (Rcr : comp_in n (comp_rev c)) by (unfold comp_in, comp_rev in *; simpl; tauto).
      rewrite Ew in HW.
      destruct Hab as [[-> ->]|[-> ->]], HW as [Q|Q]; injection Q as Q1 Q2.
      - right. apply (comp_in_inj n); auto.
      - left. apply (comp_in_inj n); auto.
      - left. apply (comp_in_inj n); auto.
      - right. apply (comp_in_inj n); auto. }
    assert (d = c) as Edc.
    { destruct Ed as [Ed|Ed]; auto. destruct (Nat.eq_dec (fst c) (snd c)) as [Q|Q].
      - rewrite Ed. destruct c as [x y]; unfold comp_rev; simpl in *; congruence.
      - exfalso. apply (A (fst c) (snd c) Q).
        + destruct c; auto.
        + unfold comp_rev in Ed. rewrite <- Ed. auto. }
    assert (i = m) as -> by (eapply (proj1 (NoDup_nth order (0,0)%nat) ND); auto; lia).
    unfold from_writes in Iw. fold d in Iw. rewrite Edc in Iw. rewrite in_app_iff in Iw.
    rewrite (F c Ic) in Iw.
    destruct Iw as [Iw|[<-|[]]]; auto.
    destruct (k && offdiag c); [destruct Iw as [<-|[]]; auto|destruct Iw]. }
  split.
  - apply wr2_val; [|intros w0 I0 E0; apply (KEY (row c) (col c) (or_introl (conj eq_refl eq_refl)) w0); auto].
    exists ((row c, col c), 1 / kfac k c * nth m mf 0). split; auto.
    apply in_flat_map. exists m. split; [apply in_seq; lia|].
    unfold from_writes. fold c. apply in_or_app. right. left. auto.
  - apply wr2_val; [|intros w0 I0 E0; apply (KEY (col c) (row c) (or_intror (conj eq_refl eq_refl)) w0); auto].
    destruct (offdiag c) eqn:O.
    + exists ((col c, row c), 1 / kfac k c * nth m mf 0). split; auto.
      apply in_flat_map. exists m. split; [apply in_seq; lia|].
      unfold from_writes. fold c. rewrite (G c Ic), O. apply in_or_app. left. left. auto.
    + exists ((row c, col c), 1 / kfac k c * nth m mf 0). split.
      * apply in_flat_map. exists m. split; [apply in_seq; lia|].
        unfold from_writes. fold c. apply in_or_app. right. left. auto.
      * simpl. apply offdiag_false in O. unfold row, col. rewrite O. auto.
Qed.

Lemma from_mf2_full mf n (order : list comp) kelvin :
  full_order n order -> length mf = length order ->
  exists t, get_tensor_from_mf2 mf n order kelvin = Ok t /\
   forall m, (m < length order)%nat ->
     let c := nth m order (0,0)%nat in t (row c) (col c) = nth m mf 0.
Proof.
  intros H L. pose proof (kelvin_flag_full n order kelvin H) as E.
  eexists. split; [apply get_tensor_from_mf2_writes; eauto using full_order_ok|].
  intros m Hm c. pose proof H as (ND & R).
  assert (In c order) as Ic by (apply nth_In; auto).
  apply wr2_val.
  - exists ((row c, col c), 1 / 1 * nth m mf 0). split; auto.
    apply in_flat_map. exists m. split; [apply in_seq; lia|].
    unfold from_writes. simpl. left. auto.
  - intros w I Ew. apply in_flat_map in I. destruct I as (i & Ii & Iw).
    apply in_seq in Ii. unfold from_writes in Iw. simpl in Iw.
    destruct Iw as [<-|[]]. simpl in Ew. injection Ew as E1 E2.
    assert (nth i order (0,0)%nat = c) as Q.
    { apply (comp_in_inj n); auto; apply R; auto. apply nth_In; lia. }
    assert (i = m) as -> by (eapply (proj1 (NoDup_nth order (0,0)%nat) ND); auto; lia).
    simpl. unfold kfac. simpl. field.
Qed.

(** Every position of a symmetric tensor is (up to transposition) a component
    of the order. *)
Lemma sym_order_locate n (order : list comp) i j :
  sym_order n order -> (i < n)%nat -> (j < n)%nat ->
  exists m, (m < length order)%nat /\
    let c := nth m order (0,0)%nat in (row c = i /\ col c = j) \/ (row c = j /\ col c = i).
Proof.
  intros (ND & R & C & A) Hi Hj.
  destruct (C (i+1)%nat (j+1)%nat) as [I|I]; try lia;
    destruct (In_nth _ _ (0,0)%nat I) as (m & Hm & E); exists m; split; auto;
    simpl; rewrite E; unfold row, col; simpl; lia.
Qed.

Lemma full_order_locate n (order : list comp) i j :
  full_order n order -> (i < n)%nat -> (j < n)%nat ->
  exists m, (m < length order)%nat /\
    let c := nth m order (0,0)%nat in row c = i /\ col c = j.
Proof.
  intros (ND & R) Hi Hj.
  assert (I : In (i+1, j+1)%nat order) by (apply R; unfold comp_in; simpl; lia).
  destruct (In_nth _ _ (0,0)%nat I) as (m & Hm & E); exists m; split; auto;
    simpl; rewrite E; unfold row, col; simpl; lia.
Qed.

Lemma nth_map_comp (f : comp -> R) order m :
  (m < length order)%nat -> nth m (map f order) 0 = f (nth m order (0,0)%nat).
Proof.
  intros. rewrite nth_indep with (d' := f (0,0)%nat) by (rewrite map_length; auto).
  apply map_nth.
Qed.

(** * Fourth-order write sequences *)
Definition wr4 (t : T4) (w : ((nat * nat) * (nat * nat)) * R) : T4 :=
  set4 t (fst (fst (fst w))) (snd (fst (fst w))) (fst (snd (fst w))) (snd (snd (fst w))) (snd w).

Lemma set4_neq t i j k l v a b c d :
  ((a, b), (c, d)) <> ((i, j), (k, l)) -> set4 t i j k l v a b c d = t a b c d.
Proof.
  unfold set4. destruct (Nat.eqb_spec a i), (Nat.eqb_spec b j), (Nat.eqb_spec c k),
    (Nat.eqb_spec d l); simpl; auto. subst; congruence.
Qed.
Lemma set4_eq t i j k l v : set4 t i j k l v i j k l = v.
Proof. unfold set4. rewrite !Nat.eqb_refl. auto. Qed.

Lemma wr4_untouched ws t a b c d :
  (forall w, In w ws -> fst w <> ((a, b), (c, d))) -> fold_left wr4 ws t a b c d = t a b c d.
Proof.
  revert t; induction ws as [|w ws IH]; intros t H; simpl; auto.
  rewrite IH by (intros; apply H; right; auto).
  apply set4_neq. intro E. apply (H w); [left; auto|].
  destruct w as [[[p q] [r s]] v]; simpl in *. congruence.
Qed.

Lemma wr4_val ws t a b c d v :
  (exists w, In w ws /\ fst w = ((a, b), (c, d))) ->
  (forall w, In w ws -> fst w = ((a, b), (c, d)) -> snd w = v) ->
  fold_left wr4 ws t a b c d = v.
Proof.
  revert t; induction ws as [|w ws IH]; intros t Hex Hall; [destruct Hex as (? & [] & _)|].
  simpl.
  assert (dec : (exists w0, In w0 ws /\ fst w0 = ((a,b),(c,d))) \/
                (forall w0, In w0 ws -> fst w0 <> ((a,b),(c,d)))).
  { clear. induction ws as [|w0 ws IH]; [right; simpl; tauto|].
    destruct IH as [(x & I & E)|H]; [left; exists x; simpl; auto|].
    assert (D : forall x y : (nat*nat)*(nat*nat), {x = y} + {x <> y})
      by (repeat decide equality).
    destruct (D (fst w0) ((a,b),(c,d))) as [E|E]; [left; exists w0; simpl; auto|].
    right. intros y [<-|I]; auto. }
  destruct dec as [E|E].
  - apply IH; auto. intros; apply Hall; simpl; auto.
  - rewrite wr4_untouched by auto. destruct Hex as (w0 & [<-|I] & Hp); [|exfalso; eapply E; eauto].
    unfold wr4. rewrite Hp. simpl. rewrite set4_eq. apply Hall; simpl; auto.
Qed.

Definition rc (c : comp) : nat * nat := (row c, col c).
Definition cr (c : comp) : nat * nat := (col c, row c).

Definition from_writes4 (k : bool) (mf : list (list R)) (order : list comp) (cd : comp * comp)
  : list (((nat * nat) * (nat * nat)) * R) :=
  let c := fst cd in let d := snd cd in
  match index_of c order, index_of d order with
  | Some p, Some q =>
    let v := (1 / kfac2 k c d) * nth q (nth p mf []) 0 in
    (if k && offdiag c && offdiag d then [((cr c, rc d), v); ((rc c, cr d), v); ((cr c, cr d), v)]
     else if k && offdiag c then [((cr c, rc d), v)]
     else if k && offdiag d then [((rc c, cr d), v)] else [])
    ++ [((rc c, rc d), v)]
  | _, _ => []
  end.

Definition mat_ok (mf : list (list R)) (N : nat) : Prop :=
  length mf = N /\ forall r, In r mf -> length r = N.

Lemma mat_ok_square mf N : mat_ok mf N ->
  forallb (fun r => Nat.eqb (length r) (length mf)) mf = true.
Proof.
  intros [L S]. apply forallb_forall. intros r I. rewrite L, (S r I). apply Nat.eqb_refl.
Qed.

Lemma get_tensor_from_mf4_writes mf n (order : list comp) kelvin k :
  order_ok n order = true -> kelvin_flag n order kelvin = Ok k ->
  mat_ok mf (length order) ->
  get_tensor_from_mf4 mf n order kelvin
  = Ok (fold_left wr4 (flat_map (from_writes4 k mf order) (list_prod order order)) zero4).
Proof.
  intros H1 H2 M. unfold get_tensor_from_mf4. rewrite (mat_ok_square _ _ M).
  destruct M as [L S].
  assert (mf_size_ok n (length mf) = true) as ->.
  { unfold kelvin_flag in H2. unfold mf_size_ok. rewrite L.
    destruct (Nat.eqb (length order) (n * n)); auto.
    destruct (Nat.eqb (length order) (sum_range n)); auto. discriminate. }
  rewrite H1, H2. simpl. rewrite L, Nat.ltb_irrefl. f_equal.
  rewrite fold_left_flat_map. apply fold_left_ext_in.
  intros t [c d] I. unfold from_writes4. simpl.
  destruct (index_of c order), (index_of d order); auto.
  destruct k, (offdiag c), (offdiag d); reflexivity.
Qed.

Lemma in_from_writes4 k mf (order : list comp) cd w :
  In w (from_writes4 k mf order cd) ->
  exists p q, index_of (fst cd) order = Some p /\ index_of (snd cd) order = Some q /\
    snd w = 1 / kfac2 k (fst cd) (snd cd) * nth q (nth p mf []) 0 /\
    (fst (fst w) = rc (fst cd) \/ (fst (fst w) = cr (fst cd) /\ k && offdiag (fst cd) = true)) /\
    (snd (fst w) = rc (snd cd) \/ (snd (fst w) = cr (snd cd) /\ k && offdiag (snd cd) = true)).
Proof.
  unfold from_writes4. destruct (index_of (fst cd) order) as [p|], (index_of (snd cd) order) as [q|];
    simpl; try tauto.
  intros I. exists p, q. repeat (split; [auto; fail|]).
  destruct (offdiag (fst cd)), (offdiag (snd cd)), k; simpl in I;
    repeat (destruct I as [<-|I]; [simpl; repeat split; auto|]); destruct I.
Qed.

Lemma from_mf4_sym mf n (order : list comp) :
  sym_order n order -> mat_ok mf (length order) ->
  exists t, get_tensor_from_mf4 mf n order true = Ok t /\
   forall p q, (p < length order)%nat -> (q < length order)%nat ->
     let c := nth p order (0,0)%nat in let d := nth q order (0,0)%nat in
     let v := 1 / (kf c * kf d) * nth q (nth p mf []) 0 in
     t (row c) (col c) (row d) (col d) = v /\ t (col c) (row c) (row d) (col d) = v /\
     t (row c) (col c) (col d) (row d) = v /\ t (col c) (row c) (col d) (row d) = v.
Proof.
  intros H M. destruct (kelvin_sym_factor n order H) as (k & E & F & G).
  eexists. split; [apply get_tensor_from_mf4_writes; eauto using sym_order_ok|].
  intros p q Hp Hq c d v. pose proof H as (ND & R & C & A).
  assert (In c order) as Ic by (apply nth_In; auto).
  assert (In d order) as Id by (apply nth_In; auto).
  assert (LOC : forall x y, In x order -> In y order ->
      (rc x = rc y \/ rc x = cr y \/ cr x = rc y \/ cr x = cr y) -> x = y).
  { intros x y Ix Iy HH. pose proof (R _ Ix) as Rx. pose proof (R _ Iy) as Ry.
    assert (Rr : comp_in n (comp_rev y)) by (unfold comp_in, comp_rev in *; simpl; tauto).
    assert (D : x = y \/ x = comp_rev y).
    { unfold rc, cr in HH.
      destruct HH as [Q|[Q|[Q|Q]]]; injection Q as Q1 Q2;
        [left|right|right|left]; apply (comp_in_inj n); auto. }
    destruct D as [D|D]; auto. destruct (Nat.eq_dec (fst y) (snd y)) as [Q|Q].
    - rewrite D. destruct y; unfold comp_rev; simpl in *; congruence.
    - exfalso. apply (A (fst y) (snd y) Q); [destruct y; auto|].
      unfold comp_rev in D. rewrite <- D. auto. }
  assert (KEY : forall P : (nat*nat)*(nat*nat),
     (fst P = rc c \/ fst P = cr c) -> (snd P = rc d \/ snd P = cr d) ->
     forall w, In w (flat_map (from_writes4 k mf order) (list_prod order order)) ->
       fst w = P -> snd w = v).
  { intros P P1 P2 w I Ew. apply in_flat_map in I. destruct I as ([c' d'] & Icd & Iw).
    apply in_prod_iff in Icd. destruct Icd as [Ic' Id'].
    apply in_from_writes4 in Iw. simpl in Iw.
    destruct Iw as (p' & q' & Ip & Iq & Ev & W1 & W2). rewrite Ew in W1, W2.
    assert (c' = c).
    { apply LOC; auto. destruct P1 as [Q|Q], W1 as [W1|[W1 _]]; rewrite Q in W1; rewrite W1; auto. }
    assert (d' = d).
    { apply LOC; auto. destruct P2 as [Q|Q], W2 as [W2|[W2 _]]; rewrite Q in W2; rewrite W2; auto. }
    subst c' d'. unfold c in Ip. unfold d in Iq.
    rewrite index_of_nth in Ip, Iq by auto. inversion Ip; inversion Iq; subst p' q'.
    rewrite Ev, kfac2_split, !F by auto. reflexivity. }
  assert (ICD : In (c, d) (list_prod order order)) by (apply in_prod_iff; auto).
  assert (IP : index_of c order = Some p) by (apply index_of_nth; auto).
  assert (IQ : index_of d order = Some q) by (apply index_of_nth; auto).
  assert (COV : forall P, (fst P = rc c \/ fst P = cr c) -> (snd P = rc d \/ snd P = cr d) ->
     exists w, In w (flat_map (from_writes4 k mf order) (list_prod order order)) /\ fst w = P).
  { intros [P Q] P1 P2. simpl in P1, P2.
    assert (D1 : offdiag c = false -> cr c = rc c).
    { intros O. apply offdiag_false in O. unfold rc, cr, row, col. rewrite O. auto. }
    assert (D2 : offdiag d = false -> cr d = rc d).
    { intros O. apply offdiag_false in O. unfold rc, cr, row, col. rewrite O. auto. }
    exists ((P, Q), 1 / kfac2 k c d * nth q (nth p mf []) 0). split; auto.
    apply in_flat_map. exists (c, d). split; auto.
    unfold from_writes4. simpl. rewrite IP, IQ.
    pose proof (G c Ic) as Gc. pose proof (G d Id) as Gd.
    destruct k, (offdiag c) eqn:Oc, (offdiag d) eqn:Od; simpl in Gc, Gd; try discriminate;
      try rewrite D1 in * by auto; try rewrite D2 in * by auto;
      destruct P1 as [-> | ->], P2 as [-> | ->]; simpl; tauto. }
  repeat split; apply wr4_val;
    try (apply (COV (rc c, rc d)); simpl; auto; fail);
    try (apply (COV (cr c, rc d)); simpl; auto; fail);
    try (apply (COV (rc c, cr d)); simpl; auto; fail);
    try (apply (COV (cr c, cr d)); simpl; auto; fail).
  - intros; eapply (KEY (rc c, rc d)); simpl; eauto.
  - intros; eapply (KEY (cr c, rc d)); simpl; eauto.
  - intros; eapply (KEY (rc c, cr d)); simpl; eauto.
  - intros; eapply (KEY (cr c, cr d)); simpl; eauto.
Qed.

Lemma from_mf4_full mf n (order : list comp) kelvin :
  full_order n order -> mat_ok mf (length order) ->
  exists t, get_tensor_from_mf4 mf n order kelvin = Ok t /\
   forall p q, (p < length order)%nat -> (q < length order)%nat ->
     let c := nth p order (0,0)%nat in let d := nth q order (0,0)%nat in
     t (row c) (col c) (row d) (col d) = nth q (nth p mf []) 0.
Proof.
  intros H M. pose proof (kelvin_flag_full n order kelvin H) as E.
  eexists. split; [apply get_tensor_from_mf4_writes; eauto using full_order_ok|].
  intros p q Hp Hq c d. pose proof H as (ND & R).
  assert (In c order) as Ic by (apply nth_In; auto).
  assert (In d order) as Id by (apply nth_In; auto).
  assert (IP : index_of c order = Some p) by (apply index_of_nth; auto).
  assert (IQ : index_of d order = Some q) by (apply index_of_nth; auto).
  apply wr4_val.
  - exists ((rc c, rc d), 1 / kfac2 false c d * nth q (nth p mf []) 0). split; auto.
    apply in_flat_map. exists (c, d). split; [apply in_prod_iff; auto|].
    unfold from_writes4. simpl. rewrite IP, IQ. simpl; auto.
  - intros w I Ew. apply in_flat_map in I. destruct I as ([c' d'] & Icd & Iw).
    apply in_prod_iff in Icd. destruct Icd as [Ic' Id'].
    apply in_from_writes4 in Iw. simpl in Iw.
    destruct Iw as (p' & q' & Ip & Iq & Ev & [W1|[_ W1]] & [W2|[_ W2]]); try discriminate.
    rewrite Ew in W1, W2. simpl in W1, W2. unfold rc in W1, W2.
    injection W1 as A1 A2. injection W2 as A3 A4.
    assert (c' = c) by (apply (comp_in_inj n); auto; apply R; auto).
    assert (d' = d) by (apply (comp_in_inj n); auto; apply R; auto).
    subst c' d'. rewrite IP in Ip. rewrite IQ in Iq. inversion Ip; inversion Iq; subst p' q'.
    rewrite Ev. unfold kfac2. simpl. field.
Qed.

(** * Vectorised tensor from matricial form *)
Lemma sym_index_some (order : list comp) i j m :
  sym_index i j order = Some m ->
  (m < length order)%nat /\ let c := nth m order (0,0)%nat in
  (row c = i /\ col c = j) \/ (row c = j /\ col c = i).
Proof.
  unfold sym_index. destruct (index_of (i + 1, j + 1)%nat order) eqn:E; intros H.
  - inversion H; subst. apply index_of_some in E. destruct E as [L E]. split; auto.
    simpl. rewrite E. unfold row, col; simpl; lia.
  - apply index_of_some in H. destruct H as [L H]. split; auto.
    simpl. rewrite H. unfold row, col; simpl; lia.
Qed.

Lemma sym_index_sym n (order : list comp) i j :
  sym_order n order -> (i < n)%nat -> (j < n)%nat -> exists m, sym_index i j order = Some m.
Proof.
  intros (ND & R & C & A) Hi Hj. unfold sym_index.
  destruct (index_of (i + 1, j + 1)%nat order) eqn:E; eauto.
  apply index_of_in. apply index_of_none in E.
  destruct (C (i+1)%nat (j+1)%nat); auto; try lia. tauto.
Qed.

Lemma sym_index_full n (order : list comp) i j :
  full_order n order -> (i < n)%nat -> (j < n)%nat ->
  exists m, sym_index i j order = Some m /\ (m < length order)%nat /\
    row (nth m order (0,0)%nat) = i /\ col (nth m order (0,0)%nat) = j.
Proof.
  intros (ND & R) Hi Hj. unfold sym_index.
  destruct (index_of_in (i+1,j+1)%nat order) as [m E].
  - apply R. unfold comp_in; simpl; lia.
  - exists m. rewrite E. split; auto. apply index_of_some in E. destruct E as [L E].
    split; auto. rewrite E. unfold row, col; simpl; lia.
Qed.

Lemma sym_index_total_sym n (order : list comp) :
  sym_order n order -> sym_index_total n order = true.
Proof.
  intros H. unfold sym_index_total. apply forallb_forall; intros i Hi.
  apply forallb_forall; intros j Hj. apply in_seq in Hi, Hj.
  destruct (sym_index_sym n order i j H) as [m ->]; auto; lia.
Qed.

Lemma sym_index_total_full n (order : list comp) :
  full_order n order -> sym_index_total n order = true.
Proof.
  intros H. unfold sym_index_total. apply forallb_forall; intros i Hi.
  apply forallb_forall; intros j Hj. apply in_seq in Hi, Hj.
  destruct (sym_index_full n order i j H) as (m & -> & _); auto; lia.
Qed.

Lemma kfac_rev_pos k c : kfac k c <> 0.
Proof. unfold kfac. destruct (k && offdiag c); [apply sqrt2_neq0|lra]. Qed.

(** Flag for a symmetric order, whichever Kelvin choice was requested. *)
Lemma kelvin_flag_sym' n (order : list comp) kelvin :
  sym_order n order -> exists k, kelvin_flag n order kelvin = Ok k.
Proof. intros H. destruct (kelvin_flag_sym n order kelvin H) as (k & E & _). eauto. Qed.

Lemma mat_ok_forallb mf N : mat_ok mf N ->
  (Nat.eqb (length mf) N && forallb (fun r => Nat.eqb (length r) N) mf)%bool = true.
Proof.
  intros [L S]. rewrite L, Nat.eqb_refl. simpl. apply forallb_forall.
  intros r I. rewrite (S r I). apply Nat.eqb_refl.
Qed.

Lemma nth_map_comp2 (f : comp -> comp -> R) (order : list comp) p q :
  (p < length order)%nat -> (q < length order)%nat ->
  nth q (nth p (map (fun c => map (fun d => f c d) order) order) []) 0
  = f (nth p order (0,0)%nat) (nth q order (0,0)%nat).
Proof.
  intros Hp Hq.
  rewrite nth_indep with (d' := map (fun d => f (0,0)%nat d) order) by (rewrite map_length; auto).
  rewrite (map_nth (fun c => map (fun d => f c d) order)).
  apply (nth_map_comp (fun d => f (nth p order (0,0)%nat) d)). auto.
Qed.

Lemma mat_ok_map (f : comp -> comp -> R) (order : list comp) :
  mat_ok (map (fun c => map (fun d => f c d) order) order) (length order).
Proof.
  split; [apply map_length|]. intros r I. apply in_map_iff in I.
  destruct I as (c & <- & _). apply map_length.
Qed.
