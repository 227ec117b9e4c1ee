(** Check of the shape functions of an element (C126). *)
From Coq Require Import Reals List Bool Arith Lia Lra.
From Verif Require Import Lib ElementModel ElementSpec ElementProps ShapeCheckModel.
Import ListNotations.
Local Open Scope R_scope.

Lemma rleb_iff a b : rleb a b = true <-> a <= b.
Proof. unfold rleb. destruct (Rle_dec a b); split; intros; try reflexivity; try discriminate; try assumption; contradiction. Qed.
Lemma isclose_iff t x y : isclose t x y = true <-> Rabs (x - y) <= t + 1 / 100000 * Rabs y.
Proof. apply rleb_iff. Qed.
Lemma isclose_same t x y : 0 <= t -> x = y -> isclose t x y = true.
Proof. intros H ->. apply isclose_iff. replace (y - y) with 0 by lra. rewrite Rabs_R0. pose proof (Rabs_pos y). lra. Qed.
(** What a passed check means: the values at the nodes within the tolerance, and
    two sums at two points. *)
Theorem check_iff : forall el p q, check_shape_functions el p q = Ok tt <->
  (forall i j, (i < el_n_node el)%nat -> (j < el_n_node el)%nat ->
     Rabs (nth j (el_shapefun el (nth i (el_nodes el) [])) 0 - (if Nat.eqb i j then 1 else 0)) <= 1 / 100000000 + (if Nat.eqb i j then 1 / 100000 else 0)) /\
  Rabs (lsum (el_shapefun el p) - 1) <= 1 / 100000000 + 1 / 100000 /\
  Rabs (lsum (map lsum (el_deriv el q))) <= 1 / 100000.
Proof.
  intros el p q. unfold check_shape_functions.
  assert (D : delta_check el = true <-> forall i j, (i < el_n_node el)%nat -> (j < el_n_node el)%nat ->
     Rabs (nth j (el_shapefun el (nth i (el_nodes el) [])) 0 - (if Nat.eqb i j then 1 else 0)) <= 1 / 100000000 + (if Nat.eqb i j then 1 / 100000 else 0)).
  { unfold delta_check. rewrite forallb_forall. split.
    - intros H i j Hi Hj. specialize (H i). rewrite forallb_forall in H. assert (N : node_check el i j = true) by (apply H; apply in_seq; lia).
      apply isclose_iff in N. unfold default_atol in N. destruct (Nat.eqb i j); [rewrite Rabs_R1 in N|rewrite Rabs_R0 in N]; lra.
    - intros H i Hi. apply in_seq in Hi. apply forallb_forall. intros j Hj. apply in_seq in Hj. apply isclose_iff. unfold default_atol.
      specialize (H i j ltac:(lia) ltac:(lia)). destruct (Nat.eqb i j); [rewrite Rabs_R1|rewrite Rabs_R0]; lra. }
  assert (S : isclose default_atol (lsum (el_shapefun el p)) 1 = true <-> Rabs (lsum (el_shapefun el p) - 1) <= 1 / 100000000 + 1 / 100000)
    by (rewrite isclose_iff, Rabs_R1; unfold default_atol; split; lra).
  assert (T : isclose (1 / 100000) (lsum (map lsum (el_deriv el q))) 0 = true <-> Rabs (lsum (map lsum (el_deriv el q))) <= 1 / 100000)
    by (rewrite isclose_iff, Rabs_R0, Rminus_0_r; split; lra).
  rewrite <- D, <- S, <- T. destruct (delta_check el), (isclose default_atol _ 1), (isclose (1 / 100000) _ 0); cbn; split; intros H; try discriminate; try (destruct H as (? & ? & ?); discriminate); auto.
Qed.
(** Every element of the library passes, whatever the random points. *)
Theorem check_passes : forall el p q, In el elements -> length p = el_n_dim el -> length q = el_n_dim el -> check_shape_functions el p q = Ok tt.
Proof.
  intros el p q I P Q. apply check_iff. split; [|split].
  - intros i j Hi Hj. pose proof (shapefun_nodal_delta el i j I Hi Hj) as E. unfold node in E. rewrite E, Rminus_eq_0, Rabs_R0. destruct (Nat.eqb i j); lra.
  - rewrite (shapefun_partition_of_unity el p I P), Rminus_eq_0, Rabs_R0. lra.
  - assert (E : lsum (map lsum (el_deriv el q)) = 0) by (clear P; each_element I; simpl in Q; (coords2 q Q || coords3 q Q); simpl; field).
    rewrite E, Rabs_R0. lra.
Qed.
(** Derivatives of which the two directions are exchanged pass at all points: the
    sum is over nodes and directions together. *)
Definition swapped : element := Element 4 2 quad4_nodes quad4_shapefun (fun c => map (fun r => [nth 1 r 0; nth 0 r 0]) (quad4_deriv c)) [1; 4]%nat.
Theorem swapped_derivatives_refuted : (forall p q, length p = 2%nat -> length q = 2%nat -> check_shape_functions swapped p q = Ok tt) /\
  exists c, length c = 2%nat /\ el_deriv swapped c <> el_deriv quad4 c.
Proof.
  split.
  - intros p q P Q. pose proof (check_passes quad4 p q) as H. rewrite check_iff in *. cbn [el_n_node el_n_dim el_shapefun el_nodes el_deriv swapped quad4] in *.
    destruct H as (A & B & C); [cbn; tauto|assumption|assumption|]. split; [exact A|]. split; [exact B|].
    replace (lsum (map lsum (map (fun r => [nth 1 r 0; nth 0 r 0]) (quad4_deriv q)))) with 0; [rewrite Rabs_R0; lra|].
    coords2 q Q. simpl. field.
  - exists [0; 1 / 2]. split; [reflexivity|]. simpl. intros E. injection E as E _. lra.
Qed.
(** Derivatives that are not balanced in one direction pass as well. *)
Definition unbalanced : element := Element 4 2 quad4_nodes quad4_shapefun (fun c => map (fun r => [nth 0 r 0 + 1; nth 1 r 0 - 1]) (quad4_deriv c)) [1; 4]%nat.
Theorem unbalanced_derivatives_refuted : (forall p q, length p = 2%nat -> length q = 2%nat -> check_shape_functions unbalanced p q = Ok tt) /\
  forall c, length c = 2%nat -> lsum (map (fun r => nth 0 r 0) (el_deriv unbalanced c)) = 4.
Proof.
  split.
  - intros p q P Q. pose proof (check_passes quad4 p q) as H. rewrite check_iff in *. cbn [el_n_node el_n_dim el_shapefun el_nodes el_deriv unbalanced quad4] in *.
    destruct H as (A & B & C); [cbn; tauto|assumption|assumption|]. split; [exact A|]. split; [exact B|].
    replace (lsum (map lsum (map (fun r => [nth 0 r 0 + 1; nth 1 r 0 - 1]) (quad4_deriv q)))) with 0; [rewrite Rabs_R0; lra|].
    coords2 q Q. simpl. field.
  - intros c L. coords2 c L. simpl. field.
Qed.
(** The random points have no negative coordinates, so that shape functions which
    do not sum to one there pass. *)
Definition positive_only : element := Element 4 2 quad4_nodes
  (fun c => match quad4_shapefun c with a :: t => (a + Rmax 0 (- nth 0 c 0) * (1 + nth 0 c 0)) :: t | [] => [] end) quad4_deriv [1; 4]%nat.
Theorem positive_points_refuted : (forall p q, length p = 2%nat -> length q = 2%nat -> (forall k, 0 <= nth k p 0) -> check_shape_functions positive_only p q = Ok tt) /\
  lsum (el_shapefun positive_only [- (1 / 2); 0]) = 5 / 4.
Proof.
  split.
  - intros p q P Q NN. pose proof (check_passes quad4 p q) as H. rewrite check_iff in *. cbn [el_n_node el_n_dim el_shapefun el_nodes el_deriv positive_only quad4] in *.
    destruct H as (A & B & C); [cbn; tauto|assumption|assumption|]. split; [|split; [|exact C]].
    + intros i j Hi Hj. specialize (A i j Hi Hj).
      assert (Z : Rmax 0 (- nth 0 (nth i quad4_nodes []) 0) * (1 + nth 0 (nth i quad4_nodes []) 0) = 0).
      { do 4 (destruct i as [|i]; [simpl; unfold Rmax; destruct (Rle_dec _ _); lra|]). lia. }
      cbn [quad4_shapefun] in *. rewrite Z, Rplus_0_r. exact A.
    + assert (Z : Rmax 0 (- nth 0 p 0) * (1 + nth 0 p 0) = 0) by (rewrite Rmax_left; [lra|specialize (NN 0%nat); lra]).
      cbn [quad4_shapefun] in *. rewrite Z, Rplus_0_r. exact B.
  - simpl. rewrite Rmax_right by lra. field.
Qed.

Print Assumptions check_iff.
Print Assumptions check_passes.
Print Assumptions swapped_derivatives_refuted.
Print Assumptions unbalanced_derivatives_refuted.
Print Assumptions positive_points_refuted.
