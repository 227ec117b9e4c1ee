(** Theorems about the finite element library (C07, C08). *)
From Coq Require Import Reals List Arith Lia Lra.
From Verif Require Import Lib ElementModel ElementSpec.
Import ListNotations.
Local Open Scope R_scope.

(** Case analysis helpers. *)
Ltac each_element H := unfold elements in H; simpl in H; repeat destruct H as [<-|H]; try contradiction.
Ltac coords2 c L := destruct c as [|? [|? [|? ?]]]; simpl in L; try discriminate L.
Ltac coords3 c L := destruct c as [|? [|? [|? [|? ?]]]]; simpl in L; try discriminate L.

Ltac each_index i H :=
  repeat (destruct i as [|i]; [|]); try (exfalso; simpl in H; lia).

(** Attributes are consistent: as many nodes, shape functions and derivative
    rows as announced, and node coordinates of the announced dimension. *)
Theorem element_sizes el c :
  In el elements ->
  length (el_nodes el) = el_n_node el /\ length (el_shapefun el c) = el_n_node el /\
  length (el_deriv el c) = el_n_node el /\
  (forall j, (j < el_n_node el)%nat -> length (node (el_nodes el) j) = el_n_dim el /\
     length (nth j (el_deriv el c) []) = el_n_dim el).
Proof.
  intros H. each_element H; simpl; repeat (split; [reflexivity|]);
    intros j Hj; do 21 (destruct j as [|j]; [simpl; auto; lia|]); lia.
Qed.

(** C07a: partition of unity. *)
Theorem shapefun_partition_of_unity el c :
  In el elements -> length c = el_n_dim el -> lsum (el_shapefun el c) = 1.
Proof.
  intros H L. each_element H; simpl in L; (coords2 c L || coords3 c L); simpl; field.
Qed.

(** C07b: Kronecker property at the nodes. *)
Theorem shapefun_nodal_delta el i j :
  In el elements -> (i < el_n_node el)%nat -> (j < el_n_node el)%nat ->
  nth j (el_shapefun el (node (el_nodes el) i)) 0 = if Nat.eqb i j then 1 else 0.
Proof.
  intros H Hi Hj. each_element H; simpl in Hi, Hj;
    do 20 (destruct i as [|i]; [do 20 (destruct j as [|j]; [try (exfalso; lia); simpl; field|]); lia|]); lia.
Qed.

(** C07c: linear completeness: the interpolated nodal coordinates are the
    coordinates of the point. *)
Theorem shapefun_linear_complete el c d :
  In el elements -> length c = el_n_dim el -> (d < el_n_dim el)%nat ->
  interp (el_shapefun el c) (fun j => crd (node (el_nodes el) j) d) = crd c d.
Proof.
  intros H L Hd. each_element H; simpl in L, Hd; (coords2 c L || coords3 c L);
    do 3 (destruct d as [|d]; [unfold interp, crd, node; simpl; field|]); lia.
Qed.

(** C07d: the six- and eight-node plane elements and the ten- and
    twenty-node solid elements also reproduce every quadratic monomial. *)
Theorem shapefun_quadratic_complete el c d e :
  In el [tri6; quad8; tetra10; hexa20] -> length c = el_n_dim el ->
  (d < el_n_dim el)%nat -> (e < el_n_dim el)%nat ->
  interp (el_shapefun el c)
    (fun j => crd (node (el_nodes el) j) d * crd (node (el_nodes el) j) e)
  = crd c d * crd c e.
Proof.
  intros H L Hd He. simpl in H. repeat destruct H as [<-|H]; try contradiction;
    simpl in L, Hd, He; (coords2 c L || coords3 c L);
    do 3 (destruct d as [|d];
      [do 3 (destruct e as [|e]; [unfold interp, crd, node; simpl; field|]); lia|]); lia.
Qed.

(** C08: derivatives. *)
Lemma dl_const c x : derivable_pt_lim (fun _ => c) x 0.
Proof. apply derivable_pt_lim_const. Qed.
Lemma dl_id x : derivable_pt_lim (fun t => t) x 1.
Proof. apply derivable_pt_lim_id. Qed.
Lemma dl_plus f g x a b : derivable_pt_lim f x a -> derivable_pt_lim g x b ->
  derivable_pt_lim (fun t => f t + g t) x (a + b).
Proof. apply derivable_pt_lim_plus. Qed.
Lemma dl_minus f g x a b : derivable_pt_lim f x a -> derivable_pt_lim g x b ->
  derivable_pt_lim (fun t => f t - g t) x (a - b).
Proof. apply derivable_pt_lim_minus. Qed.
Lemma dl_mult f g x a b : derivable_pt_lim f x a -> derivable_pt_lim g x b ->
  derivable_pt_lim (fun t => f t * g t) x (a * g x + f x * b).
Proof. apply derivable_pt_lim_mult. Qed.
Lemma dl_opp f x a : derivable_pt_lim f x a -> derivable_pt_lim (fun t => - f t) x (- a).
Proof. apply derivable_pt_lim_opp. Qed.
Lemma dl_pow2 f x a : derivable_pt_lim f x a ->
  derivable_pt_lim (fun t => f t ^ 2) x (2 * f x * a).
Proof.
  intros H. simpl.
  assert (E : 2 * f x * a = a * (f x * 1) + f x * (a * 1 + f x * 0)) by ring. rewrite E.
  apply (dl_mult f (fun t => f t * 1) x a (a * 1 + f x * 0)); auto.
  apply (dl_mult f (fun _ => 1)); auto. apply dl_const.
Qed.
Lemma dl_eq f x a b : derivable_pt_lim f x a -> a = b -> derivable_pt_lim f x b.
Proof. intros H <-; auto. Qed.

Ltac dlim :=
  first [ apply dl_const | apply dl_id | apply dl_pow2; dlim
        | apply dl_plus; dlim | apply dl_minus; dlim | apply dl_mult; dlim
        | apply dl_opp; dlim ].

Theorem shapefun_deriv_correct el c j d :
  In el elements -> length c = el_n_dim el ->
  (j < el_n_node el)%nat -> (d < el_n_dim el)%nat ->
  derivable_pt_lim (fun t => nth j (el_shapefun el (upd c d t)) 0) (crd c d)
    (nth d (nth j (el_deriv el c) []) 0).
Proof.
  intros H L Hj Hd.
  each_element H; simpl in L, Hj, Hd; (coords2 c L || coords3 c L);
    (do 3 (destruct d as [|d];
       [do 20 (destruct j as [|j];
          [first [exfalso; lia | cbn [nth upd el_shapefun el_deriv crd
             tri3 tri6 quad4 quad8 tetra4 tetra10 hexa8 hexa20];
           unfold crd, tri3_shapefun, tri3_deriv, tri6_shapefun, tri6_deriv,
             quad4_shapefun, quad4_deriv, quad8_shapefun, quad8_deriv,
             tetra4_shapefun, tetra4_deriv, tetra10_shapefun, tetra10_deriv,
             hexa8_shapefun, hexa8_deriv, hexa20_shapefun, hexa20_deriv;
           cbn [nth]; eapply dl_eq; [dlim|cbv beta; field]]|]); lia|]); lia).
Qed.

(** Consequences used by the patch test: the derivatives of the shape
    functions sum to zero, and differentiate the local coordinates exactly. *)
Theorem shapefun_deriv_complete el c d e :
  In el elements -> length c = el_n_dim el -> (d < el_n_dim el)%nat -> (e < el_n_dim el)%nat ->
  rsum (el_n_node el) (fun j => nth d (nth j (el_deriv el c) []) 0) = 0 /\
  rsum (el_n_node el) (fun j => nth d (nth j (el_deriv el c) []) 0 * crd (node (el_nodes el) j) e)
  = if Nat.eqb d e then 1 else 0.
Proof.
  intros H L Hd He. each_element H; simpl in L, Hd, He; (coords2 c L || coords3 c L);
    do 3 (destruct d as [|d];
      [do 3 (destruct e as [|e]; [first [exfalso; lia | unfold interp, crd, node; simpl; split; field]|]); lia|]); lia.
Qed.

(** Non-vacuity: an interior point of the 20-node brick. *)
Example hexa20_point :
  In hexa20 elements /\ length [1/3; -(1/2); 1/4] = el_n_dim hexa20 /\
  nth 8 (el_shapefun hexa20 [1/3; -(1/2); 1/4]) 0 = 1/4.
Proof. split; [simpl; tauto|]. split; auto. simpl. field. Qed.

Print Assumptions shapefun_partition_of_unity.
Print Assumptions shapefun_quadratic_complete.
Print Assumptions shapefun_deriv_correct.
