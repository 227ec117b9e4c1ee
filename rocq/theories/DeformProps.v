(** Random deformation of a patch: rotations, edge frames, edges. *)
From Coq Require Import Nsatz Reals List Arith Lia Lra Bool.
From Verif Require Import Lib PyDict HardeningModel DeformModel.
Import ListNotations.
Local Open Scope R_scope.
Local Open Scope list_scope.

Definition kron (i j : nat) : R := if Nat.eqb i j then 1 else 0.
(** R^T R = I on the first d components. *)
Definition orthogonal (d : nat) (r : T2) : Prop :=
  forall i j, (i < d)%nat -> (j < d)%nat -> rsum d (fun k => r k i * r k j) = kron i j.
Ltac ns := repeat match goal with H : (_ < _)%nat |- _ => clear H | H : orthogonal _ _ |- _ => clear H end; nsatz.
Definition det3 (r : T2) : R :=
  r 0%nat 0%nat * (r 1%nat 1%nat * r 2%nat 2%nat - r 1%nat 2%nat * r 2%nat 1%nat)
  - r 0%nat 1%nat * (r 1%nat 0%nat * r 2%nat 2%nat - r 1%nat 2%nat * r 2%nat 0%nat)
  + r 0%nat 2%nat * (r 1%nat 0%nat * r 2%nat 1%nat - r 1%nat 1%nat * r 2%nat 0%nat).
(** Rotations about the third and first axes. *)
Definition rot_z (t : R) : T2 := fun i j =>
  match i, j with 0%nat, 0%nat => cos t | 0%nat, 1%nat => - sin t | 1%nat, 0%nat => sin t | 1%nat, 1%nat => cos t | 2%nat, 2%nat => 1 | _, _ => 0 end.
Definition rot_x (t : R) : T2 := fun i j =>
  match i, j with 0%nat, 0%nat => 1 | 1%nat, 1%nat => cos t | 1%nat, 2%nat => - sin t | 2%nat, 1%nat => sin t | 2%nat, 2%nat => cos t | _, _ => 0 end.
Definition mm (a b : T2) : T2 := fun i j => rsum 3 (fun k => a i k * b k j).
Lemma lt3 i : (i < 3)%nat -> i = 0%nat \/ i = 1%nat \/ i = 2%nat. Proof. lia. Qed.
Lemma lt2 i : (i < 2)%nat -> i = 0%nat \/ i = 1%nat. Proof. lia. Qed.

(** ** Rotations *)
Theorem euler_bunge : forall a b g i j, (i < 3)%nat -> (j < 3)%nat ->
  rotation_tensor_from_euler_angles a b g i j
  = mm (rot_z (2 * PI * (a / 360))) (mm (rot_x (2 * PI * (b / 360))) (rot_z (2 * PI * (g / 360)))) i j.
Proof.
  intros a b g i j Hi Hj.
  assert (D : forall x, 2 * PI * (x / 360) = radians x) by (intros; unfold radians; field). rewrite !D. destruct (lt3 i Hi) as [->|[->| ->]]; destruct (lt3 j Hj) as [->|[->| ->]];
    unfold rotation_tensor_from_euler_angles, mm, rot_z, rot_x; cbn [rsum]; ring.
Qed.
Theorem euler_rotation : forall a b g, orthogonal 3 (rotation_tensor_from_euler_angles a b g) /\ det3 (rotation_tensor_from_euler_angles a b g) = 1.
Proof.
  intros a b g.
  pose proof (sin2_cos2 (radians a)) as A. pose proof (sin2_cos2 (radians b)) as B. pose proof (sin2_cos2 (radians g)) as C. unfold Rsqr in *.
  unfold rotation_tensor_from_euler_angles.
  generalize dependent (sin (radians a)). generalize (cos (radians a)). generalize dependent (sin (radians b)). generalize (cos (radians b)).
  generalize dependent (sin (radians g)). generalize (cos (radians g)). intros c3 s3 C c2 s2 B c1 s1 A.
  split.
  - intros i j Hi Hj. destruct (lt3 i Hi) as [->|[->| ->]]; destruct (lt3 j Hj) as [->|[->| ->]];
      unfold kron; cbn [rsum Nat.eqb]; ns.
  - unfold det3. ns.
Qed.
Theorem euler_identity : forall i j, (i < 3)%nat -> (j < 3)%nat -> rotation_tensor_from_euler_angles 0 0 0 i j = kron i j.
Proof.
  intros i j Hi Hj. assert (Z : radians 0 = 0) by (unfold radians; lra).
  destruct (lt3 i Hi) as [->|[->| ->]]; destruct (lt3 j Hj) as [->|[->| ->]];
    unfold rotation_tensor_from_euler_angles, kron; rewrite ?Z, ?sin_0, ?cos_0; cbn [Nat.eqb]; ring.
Qed.
(** Angles are in degrees: a first angle of 90 turns the first axis onto the
    second one. *)
Example euler_quarter_turn : map (fun i => rotation_tensor_from_euler_angles 90 0 0 i 0%nat) [0%nat; 1%nat; 2%nat] = [0; 1; 0].
Proof.
  assert (Z : radians 0 = 0) by (unfold radians; lra). assert (Q : radians 90 = PI / 2) by (unfold radians; field).
  unfold rotation_tensor_from_euler_angles. rewrite Q, Z, sin_0, cos_0, sin_PI2, cos_PI2. cbn [map]. repeat f_equal; ring.
Qed.
(** The sampled rotation, and its in-plane block in two dimensions. *)
Theorem random_rotation_orthogonal : forall d rng u r, d = 2%nat \/ d = 3%nat -> random_rotation d rng u = Some r -> orthogonal d r.
Proof.
  intros d rng u r D H. unfold random_rotation in H. destruct rng as [f|]; [|discriminate]. injection H as <-.
  destruct D as [-> | ->]; [|apply euler_rotation]. cbn [Nat.eqb andb negb].
  pose proof (sin2_cos2 (radians (sampled (f 0%nat) (u 0%nat)))) as A. unfold Rsqr in A.
  assert (Z : radians 0 = 0) by (unfold radians; lra).
  intros i j Hi Hj. destruct (lt2 i Hi) as [->| ->]; destruct (lt2 j Hj) as [->| ->];
    unfold rotation_tensor_from_euler_angles, kron; rewrite ?Z, ?sin_0, ?cos_0; cbn [rsum Nat.eqb];
    generalize dependent (sin (radians (sampled (f 0%nat) (u 0%nat)))); generalize (cos (radians (sampled (f 0%nat) (u 0%nat)))); intros; clear Z; ns.
Qed.
Lemma mv_sub d r a b i : mv d r (vsub a b) i = mv d r a i - mv d r b i.
Proof. unfold mv, vsub. induction d as [|d IH]; cbn [rsum]; [ring|]. rewrite IH. ring. Qed.
Lemma rsum_zero n : rsum n (fun _ => 0) = 0. Proof. induction n; cbn [rsum]; lra. Qed.
Lemma dot_orthogonal d r x y : d = 2%nat \/ d = 3%nat -> orthogonal d r -> dot d (mv d r x) (mv d r y) = dot d x y.
Proof.
  intros D O. destruct D as [-> | ->].
  - pose proof (O 0 0 ltac:(lia) ltac:(lia))%nat as O00. pose proof (O 0 1 ltac:(lia) ltac:(lia))%nat as O01. pose proof (O 1 1 ltac:(lia) ltac:(lia))%nat as O11.
    unfold kron, dot, mv in *. cbn [rsum Nat.eqb] in *. ns.
  - pose proof (O 0 0 ltac:(lia) ltac:(lia))%nat as O00. pose proof (O 0 1 ltac:(lia) ltac:(lia))%nat as O01. pose proof (O 0 2 ltac:(lia) ltac:(lia))%nat as O02.
    pose proof (O 1 1 ltac:(lia) ltac:(lia))%nat as O11. pose proof (O 1 2 ltac:(lia) ltac:(lia))%nat as O12. pose proof (O 2 2 ltac:(lia) ltac:(lia))%nat as O22.
    unfold kron, dot, mv in *. cbn [rsum Nat.eqb] in *. ns.
Qed.
(** Rigid motions preserve all distances and scalar products of differences. *)
Theorem rigid_motion_isometry : forall d c rng u rng' u' x y x' y', d = 2%nat \/ d = 3%nat ->
  rigid_motion d c (random_rotation d rng u) (random_translation rng' u') x = Ok x' ->
  rigid_motion d c (random_rotation d rng u) (random_translation rng' u') y = Ok y' ->
  norm d (vsub x' y') = norm d (vsub x y).
Proof.
  intros d c rng u rng' u' x y x' y' D H1 H2. unfold rigid_motion in *. destruct (random_rotation d rng u) as [r|] eqn:ER; [|discriminate].
  apply (random_rotation_orthogonal _ _ _ _ D) in ER. destruct (random_translation rng' u') as [t|]; [|discriminate].
  injection H1 as <-. injection H2 as <-. unfold norm. f_equal. rewrite <- (dot_orthogonal d r (vsub x y) (vsub x y)) by auto.
  unfold dot. apply rsum_ext. intros i Hi. rewrite mv_sub. unfold vsub, vadd. fold (vsub x c) (vsub y c). rewrite !mv_sub. unfold mv. ring.
Qed.
(** Without both ranges there is no rigid motion at all: the tests that should
    skip it never do. *)
Theorem rigid_motion_needs_both : forall d c rng u rng' u' x, rng = None \/ rng' = None ->
  rigid_motion d c (random_rotation d rng u) (random_translation rng' u') x = Err TypeError.
Proof.
  intros d c rng u rng' u' x [-> | ->]; unfold rigid_motion; [reflexivity|]. destruct (random_rotation d rng u); reflexivity.
Qed.

(** ** Edge frames *)
Definition frame_rows (r : T2) : Prop := forall a b, (a < 3)%nat -> (b < 3)%nat -> dot 3 (r a) (r b) = kron a b.
Lemma norm_pos_sq n v : norm n v <> 0 -> 0 < norm n v /\ norm n v * norm n v = dot n v v.
Proof.
  intros H. assert (P : 0 <= dot n v v). { unfold dot. clear H. induction n; cbn [rsum]; [lra|]. nra. }
  split; [|unfold norm; apply sqrt_sqrt; auto]. unfold norm in *. pose proof (sqrt_pos (dot n v v)). lra.
Qed.
Lemma dot_scale n s t v w : dot n (vscale s v) (vscale t w) = s * t * dot n v w.
Proof. unfold dot, vscale. induction n as [|n IH]; cbn [rsum]; [ring|]. rewrite IH. ring. Qed.
Lemma unit_vec n v : norm n v <> 0 -> dot n (vscale (1 / norm n v) v) (vscale (1 / norm n v) v) = 1.
Proof.
  intros H. destruct (norm_pos_sq n v H) as [P E].
  rewrite dot_scale, <- E. field. auto.
Qed.
Lemma dot_pad d a b : d = 2%nat \/ d = 3%nat -> dot 3 (pad d a) (pad d b) = dot d a b.
Proof. intros [-> | ->]; unfold dot, pad; cbn [rsum Nat.ltb Nat.leb]; ring. Qed.
(** What a frame is: an orthonormal right-handed basis whose first vector is the
    direction of the edge. *)
Theorem edge_frame_orthonormal : forall d cd i j r, d = 2%nat \/ d = 3%nat -> edge_frame d cd i j = Ok r ->
  frame_rows r /\ orthogonal 3 r /\ det3 r = 1 /\ orthogonal d r.
Proof.
  intros d cd i j r D H. unfold edge_frame in H. destruct (nth j (edges d i) (0, 0)%nat) as [ci ce]. destruct (nth j (edges_diag d i) (0, 0)%nat) as [di de].
  set (e := vsub (cd ce) (cd ci)) in *. set (g := vsub (cd de) (cd di)) in *.
  destruct (Req_EM_T (norm d e) 0) as [|Ne]; [discriminate|]. destruct (Req_EM_T (norm d g) 0) as [|Ng]; [discriminate|].
  set (ed := pad d (vscale (1 / norm d e) e)) in *. set (gd := pad d (vscale (1 / norm d g) g)) in *. set (o := cross gd ed) in *.
  destruct (Req_EM_T (norm 3 o) 0) as [|No]; [discriminate|]. injection H as <-.
  pose proof (unit_vec d e Ne) as U1. rewrite <- (dot_pad d _ _ D) in U1. fold ed in U1.
  pose proof (unit_vec 3 o No) as U2.
  set (n := vscale (1 / norm 3 o) o) in *.
  assert (P : dot 3 n ed = 0). { unfold n, vscale, o, dot, cross. cbn [rsum]. ring. }
  assert (P2 : d = 2%nat -> ed 2%nat = 0 /\ n 0%nat = 0 /\ n 1%nat = 0).
  { intros ->. assert (E2 : ed 2%nat = 0) by reflexivity. assert (G2 : gd 2%nat = 0) by reflexivity. split; [auto|].
    unfold n, vscale, o, cross. rewrite E2, G2. split; ring. }
  clearbody ed n. clear Ne Ng No e g o gd. unfold dot in U1, U2, P. cbn [rsum] in U1, U2, P.
  assert (ROW : frame_rows (fun r => match r with 0%nat => ed | 1%nat => vscale (-1) (cross ed n) | _ => n end)).
  { intros a b Ha Hb. destruct (lt3 a Ha) as [->|[->| ->]]; destruct (lt3 b Hb) as [->|[->| ->]];
      unfold dot, vscale, cross, kron; cbn [rsum Nat.eqb]; ns. }
  assert (COL : orthogonal 3 (fun r => match r with 0%nat => ed | 1%nat => vscale (-1) (cross ed n) | _ => n end)).
  { intros a b Ha Hb. destruct (lt3 a Ha) as [->|[->| ->]]; destruct (lt3 b Hb) as [->|[->| ->]];
      unfold vscale, cross, kron; cbn [rsum Nat.eqb]; ns. }
  repeat split; auto.
  - unfold det3, vscale, cross. ns.
  - destruct D as [-> | ->]; [|auto]. destruct (P2 eq_refl) as (Q1 & Q2 & Q3). clear P2 ROW COL.
    intros a b Ha Hb. destruct (lt2 a Ha) as [->| ->]; destruct (lt2 b Hb) as [->| ->];
      unfold vscale, cross, kron; cbn [rsum Nat.eqb]; rewrite ?Q1, ?Q2, ?Q3 in *; ns.
Qed.
Lemma triple ed gd s : dot 3 (vscale (-1) (cross ed (vscale s (cross gd ed)))) gd = - s * dot 3 (cross gd ed) (cross gd ed).
Proof. unfold dot, vscale, cross. cbn [rsum]. ring. Qed.
(** The first vector is the direction of the edge; the second points away from
    the diagonal, hence out of the patch. *)
Theorem edge_frame_outward : forall d cd i j r, d = 2%nat \/ d = 3%nat -> edge_frame d cd i j = Ok r ->
  let e := vsub (cd (snd (nth j (edges d i) (0, 0)%nat))) (cd (fst (nth j (edges d i) (0, 0)%nat))) in
  let g := vsub (cd (snd (nth j (edges_diag d i) (0, 0)%nat))) (cd (fst (nth j (edges_diag d i) (0, 0)%nat))) in
  0 < norm d e /\ dot d (r 0%nat) e = norm d e /\ dot d (r 1%nat) e = 0 /\ dot d (r 2%nat) e = 0 /\ dot d (r 1%nat) g < 0.
Proof.
  intros d cd i j r D H. destruct (edge_frame_orthonormal d cd i j r D H) as (ROW & _). unfold edge_frame in H.
  destruct (nth j (edges d i) (0, 0)%nat) as [ci ce]. destruct (nth j (edges_diag d i) (0, 0)%nat) as [di de]. cbn [fst snd].
  set (e := vsub (cd ce) (cd ci)) in *. set (g := vsub (cd de) (cd di)) in *.
  destruct (Req_EM_T (norm d e) 0) as [|Ne]; [discriminate|]. destruct (Req_EM_T (norm d g) 0) as [|Ng]; [discriminate|].
  set (ed := pad d (vscale (1 / norm d e) e)) in *. set (gd := pad d (vscale (1 / norm d g) g)) in *. set (o := cross gd ed) in *.
  destruct (Req_EM_T (norm 3 o) 0) as [|No]; [discriminate|]. injection H as <-.
  destruct (norm_pos_sq d e Ne) as [Pe Ee]. destruct (norm_pos_sq d g Ng) as [Pg Eg]. destruct (norm_pos_sq 3 o No) as [Po Eo].
  assert (X : forall v w k, dot d v w = dot 3 v (pad d w) /\ dot 3 v (vscale k w) = k * dot 3 v w).
  { intros v w k. split; [destruct D as [-> | ->]; unfold dot, pad; cbn [rsum Nat.ltb Nat.leb]; ring|unfold dot, vscale; cbn [rsum]; ring]. }
  assert (Xe : forall v, dot d v e = norm d e * dot 3 v ed).
  { intros v. rewrite (proj1 (X v e 0)). unfold ed, dot, pad, vscale. cbn [rsum]. destruct D as [-> | ->]; cbn [Nat.ltb Nat.leb]; field; auto. }
  assert (Xg : forall v, dot d v g = norm d g * dot 3 v gd).
  { intros v. rewrite (proj1 (X v g 0)). unfold gd, dot, pad, vscale. cbn [rsum]. destruct D as [-> | ->]; cbn [Nat.ltb Nat.leb]; field; auto. }
  split; [auto|]. rewrite !Xe, Xg.
  pose proof (ROW 0%nat 0%nat ltac:(lia) ltac:(lia)) as R0. pose proof (ROW 1%nat 0%nat ltac:(lia) ltac:(lia)) as R1. pose proof (ROW 2%nat 0%nat ltac:(lia) ltac:(lia)) as R2.
  cbv beta iota in R0, R1, R2. rewrite R0, R1, R2. unfold kron. cbn [Nat.eqb]. split; [ring|]. split; [ring|]. split; [ring|].
  cbv beta iota.
  assert (Q : dot 3 (vscale (-1) (cross ed (vscale (1 / norm 3 o) o))) gd = - (1 / norm 3 o) * dot 3 o o).
  { unfold o. apply triple. }
  rewrite Q, <- Eo. replace (- (1 / norm 3 o) * (norm 3 o * norm 3 o)) with (- norm 3 o) by (field; auto). nra.
Qed.
(** In the undeformed patch the second vector of every edge points out of the
    patch: no corner lies on its side. *)
Lemma edge_frame_second : forall d cd i j r, d = 2%nat \/ d = 3%nat -> edge_frame d cd i j = Ok r ->
  let e := vsub (cd (snd (nth j (edges d i) (0, 0)%nat))) (cd (fst (nth j (edges d i) (0, 0)%nat))) in
  let g := vsub (cd (snd (nth j (edges_diag d i) (0, 0)%nat))) (cd (fst (nth j (edges_diag d i) (0, 0)%nat))) in
  exists s, 0 < s /\ forall v, dot d (r 1%nat) v = s * (dot d e v * dot d e g - dot d e e * dot d g v).
Proof.
  intros d cd i j r D H. unfold edge_frame in H.
  destruct (nth j (edges d i) (0, 0)%nat) as [ci ce]. destruct (nth j (edges_diag d i) (0, 0)%nat) as [di de]. cbn [fst snd].
  set (e := vsub (cd ce) (cd ci)) in *. set (g := vsub (cd de) (cd di)) in *.
  destruct (Req_EM_T (norm d e) 0) as [|Ne]; [discriminate|]. destruct (Req_EM_T (norm d g) 0) as [|Ng]; [discriminate|].
  set (ed := pad d (vscale (1 / norm d e) e)) in *. set (gd := pad d (vscale (1 / norm d g) g)) in *. set (o := cross gd ed) in *.
  destruct (Req_EM_T (norm 3 o) 0) as [|No]; [discriminate|]. injection H as <-.
  destruct (norm_pos_sq d e Ne) as [Pe Ee]. destruct (norm_pos_sq d g Ng) as [Pg Eg]. destruct (norm_pos_sq 3 o No) as [Po Eo].
  cbv zeta. exists (1 / norm 3 o * (1 / norm d g) * (1 / norm d e * (1 / norm d e))). split.
  { assert (H : forall x, 0 < x -> 0 < 1 / x) by (intros x Hx; apply Rdiv_lt_0_compat; lra).
    apply Rmult_lt_0_compat; apply Rmult_lt_0_compat; apply H || (apply Rmult_lt_0_compat; apply H); assumption. }
  intros v. set (a := norm d e) in *. set (b := norm d g) in *. set (c := norm 3 o) in *.
  assert (T : dot d (vscale (-1) (cross ed (vscale (1 / c) o))) v = 1 / c * (dot 3 ed (pad d v) * dot 3 ed gd - dot 3 ed ed * dot 3 gd (pad d v))).
  { unfold o. destruct D as [-> | ->]; unfold dot, vscale, cross, pad; cbn [rsum Nat.ltb Nat.leb]; ring. }
  rewrite T.
  assert (X : forall x y p q, dot 3 (pad d (vscale p x)) (pad d (vscale q y)) = p * q * dot d x y).
  { intros x y p q. rewrite (dot_pad d _ _ D). apply dot_scale. }
  assert (V : forall x p, dot 3 (pad d (vscale p x)) (pad d v) = p * dot d x v).
  { intros x p. rewrite (dot_pad d _ _ D). destruct D as [-> | ->]; unfold dot, vscale; cbn [rsum]; ring. }
  unfold ed, gd. rewrite !X, !V. fold a. rewrite <- Ee. field. auto.
Qed.
Theorem edge_frame_exterior : forall d dims i j r c, d = 2%nat \/ d = 3%nat -> (forall k, 0 < dims k) -> (i < d)%nat -> (j < length (edges d i))%nat ->
  (c < 2 ^ d)%nat -> edge_frame d (corner_coords dims) i j = Ok r ->
  dot d (r 1%nat) (vsub (corner_coords dims c) (corner_coords dims (fst (nth j (edges d i) (0, 0)%nat)))) <= 0.
Proof.
  intros d dims i j r c D P Hi Hj Hc H. destruct (edge_frame_second d _ i j r D H) as (s & S & V). cbv zeta in V. rewrite V. clear V H.
  match goal with |- s * ?x <= 0 => enough (x <= 0) by nra end.
  pose proof (P 0%nat) as P0. pose proof (P 1%nat) as P1. pose proof (P 2%nat) as P2.
  assert (M : forall x y z w, 0 <= x -> 0 <= y -> 0 <= z -> 0 <= w -> 0 <= x * y * (z * w)) by (intros; apply Rmult_le_pos; apply Rmult_le_pos; auto).
  destruct D as [-> | ->].
  - cbn in Hc. assert (HI : i = 0%nat \/ i = 1%nat) by lia. assert (HC : c = 0%nat \/ c = 1%nat \/ c = 2%nat \/ c = 3%nat) by lia.
    destruct HI as [-> | ->]; cbn in Hj; (assert (HJ : j = 0%nat \/ j = 1%nat) by lia);
      destruct HJ as [-> | ->]; destruct HC as [->|[->|[->| ->]]]; unfold dot, vsub; cbn; ring_simplify;
      pose proof (M _ _ _ _ (Rlt_le _ _ P0) (Rlt_le _ _ P0) (Rlt_le _ _ P1) (Rlt_le _ _ P1)); lra.
  - cbn in Hc. assert (HI : i = 0%nat \/ i = 1%nat \/ i = 2%nat) by lia.
    assert (HC : c = 0%nat \/ c = 1%nat \/ c = 2%nat \/ c = 3%nat \/ c = 4%nat \/ c = 5%nat \/ c = 6%nat \/ c = 7%nat) by lia.
    pose proof (M _ _ _ _ (Rlt_le _ _ P0) (Rlt_le _ _ P0) (Rlt_le _ _ P1) (Rlt_le _ _ P1)) as M01.
    pose proof (M _ _ _ _ (Rlt_le _ _ P0) (Rlt_le _ _ P0) (Rlt_le _ _ P2) (Rlt_le _ _ P2)) as M02.
    pose proof (M _ _ _ _ (Rlt_le _ _ P1) (Rlt_le _ _ P1) (Rlt_le _ _ P2) (Rlt_le _ _ P2)) as M12.
    destruct HI as [->|[->| ->]]; cbn in Hj;
      (assert (HJ : j = 0%nat \/ j = 1%nat \/ j = 2%nat \/ j = 3%nat \/ j = 4%nat \/ j = 5%nat \/ j = 6%nat \/ j = 7%nat) by lia);
      destruct HJ as [->|[->|[->|[->|[->|[->|[->| ->]]]]]]]; destruct HC as [->|[->|[->|[->|[->|[->|[->| ->]]]]]]];
      unfold dot, vsub; cbn; ring_simplify; lra.
Qed.

(** ** From the edge's coordinates and back *)
Lemma from_to_local d r init x j : d = 2%nat \/ d = 3%nat -> orthogonal d r -> (j < d)%nat -> from_local d r init (to_local d r init x) j = x j.
Proof.
  intros D O J. unfold from_local, to_local, vadd. 
  assert (E : mv d (transpose r) (vsub (mv d r x) (mv d r init)) j = x j - init j).
  { destruct D as [-> | ->].
    - pose proof (O j 0 J ltac:(lia))%nat as O0. pose proof (O j 1 J ltac:(lia))%nat as O1.
      destruct (lt2 j J) as [-> | ->]; unfold kron, mv, vsub, transpose in *; cbn [rsum Nat.eqb] in *; ns.
    - pose proof (O j 0 J ltac:(lia))%nat as O0. pose proof (O j 1 J ltac:(lia))%nat as O1. pose proof (O j 2 J ltac:(lia))%nat as O2.
      destruct (lt3 j J) as [->|[->| ->]]; unfold kron, mv, vsub, transpose in *; cbn [rsum Nat.eqb] in *; ns. }
  rewrite E. ring.
Qed.

(** ** The curve of an edge *)
Lemma count_monotone (f : nat -> R) v n : (forall p q, (p < q < n)%nat -> f p < f q) ->
  exists r, (r <= n)%nat /\ length (filter (fun p => rleb (f p) v) (seq 0 n)) = r
  /\ (forall p, (p < r)%nat -> f p <= v) /\ (forall p, (r <= p < n)%nat -> v < f p).
Proof.
  induction n as [|n IH]; intros M.
  - exists 0%nat. cbn. repeat split; auto; intros; lia.
  - destruct IH as (r & R1 & R2 & R3 & R4). { intros; apply M; lia. }
    rewrite seq_S, filter_app, app_length, R2. cbn [filter plus]. unfold rleb at 1. destruct (Rle_dec (f n) v) as [L|L].
    + assert (r = n). { destruct (Nat.eq_dec r n); auto. exfalso. specialize (R4 (n - 1)%nat ltac:(lia)). specialize (M (n - 1)%nat n ltac:(lia)). lra. }
      subst. exists (S n). cbn [length]. repeat split; try lia. intros p P. destruct (Nat.eq_dec p n) as [->|]; auto. apply R3. lia.
    + exists r. cbn [length]. repeat split; try lia; auto. intros p P. destruct (Nat.eq_dec p n) as [->|]; [lra|apply R4; lia].
Qed.
Section CurveProps.
  Variables (coefs : list R) (left right : R * R) (N : nat).
  Hypothesis HN : (2 <= N)%nat.
  Hypothesis HX : fst left < fst right.
  Notation fp := (frac_point coefs left right N).
  Notation ch := (chord coefs left right N).
  Lemma N_pos : 0 < INR (N - 1). Proof. apply lt_0_INR. lia. Qed.
  Lemma step_pos : 0 < point_step N. Proof. unfold point_step. pose proof N_pos. apply Rdiv_lt_0_compat; lra. Qed.
  Lemma param_x_eq t : param_x left right t = fst left + (fst right - fst left) * t.
  Proof. unfold param_x, linear_coord_map. field. Qed.
  Lemma chord_pos i : 0 < ch i.
  Proof.
    unfold chord. apply sqrt_lt_R0. rewrite !param_x_eq. pose proof step_pos. rewrite S_INR.
    match goal with |- 0 < ?a * ?a + ?b * ?b => set (A := a); set (B := b) end.
    assert (PA : A = (fst right - fst left) * point_step N) by (unfold A; ring).
    assert (0 < A) by (rewrite PA; apply Rmult_lt_0_compat; lra). pose proof (Rle_0_sqr B). unfold Rsqr in *. nra.
  Qed.
  Lemma rsum_pos (f : nat -> R) n : (0 < n)%nat -> (forall i, 0 < f i) -> 0 < rsum n f.
  Proof. intros H P. induction n as [|n IH]; [lia|]. cbn [rsum]. destruct n; [cbn; specialize (P 0%nat); lra|]. specialize (IH ltac:(lia)). specialize (P (S n)). lra. Qed.
  Lemma total_pos : 0 < rsum (N - 1) ch. Proof. apply rsum_pos; [lia|apply chord_pos]. Qed.
  Lemma frac_step i : fp i < fp (S i).
  Proof. unfold frac_point. pose proof total_pos as T. apply Rmult_lt_compat_l; [apply Rdiv_lt_0_compat; lra|]. cbn [rsum]. pose proof (chord_pos i). lra. Qed.
  Lemma frac_mono p q : (p < q)%nat -> fp p < fp q.
  Proof. intros H. induction H; [apply frac_step|]. eapply Rlt_trans; [exact IHle|apply frac_step]. Qed.
  Lemma frac_0 : fp 0 = 0. Proof. unfold frac_point. cbn [rsum]. ring. Qed.
  Lemma frac_1 : fp (N - 1) = 1. Proof. unfold frac_point. pose proof total_pos. field. lra. Qed.
  Lemma search_spec v : 0 <= v < 1 -> let r := search coefs left right N v in (1 <= r <= N - 1)%nat /\ fp (r - 1) <= v < fp r.
  Proof.
    intros V. cbv zeta. unfold search.
    destruct (count_monotone fp v N) as (r & R1 & -> & R3 & R4). { intros p q H. apply frac_mono. lia. }
    assert (A : (1 <= r)%nat). { destruct r; [|lia]. specialize (R4 0%nat ltac:(lia)). rewrite frac_0 in R4. lra. }
    assert (B : (r <= N - 1)%nat). { destruct (le_lt_dec r (N - 1)); auto. specialize (R3 (N - 1)%nat ltac:(lia)). rewrite frac_1 in R3. lra. }
    split; [lia|]. split; [apply R3; lia|apply R4; lia].
  Qed.
  (** The node with fraction v lies on the polygon of the curve at the fraction
      v of its length. *)
  Lemma node_param_spec v : 0 <= v < 1 -> exists l s, (l < N - 1)%nat /\ 0 <= s < 1
    /\ node_param coefs left right N v = (INR l + s) * point_step N /\ fp l + s * (fp (S l) - fp l) = v.
  Proof.
    intros V. destruct (search_spec v V) as [A B]. unfold node_param. set (r := search coefs left right N v) in *.
    exists (r - 1)%nat, ((v - fp (r - 1)) / (fp r - fp (r - 1))). replace (S (r - 1)) with r by lia.
    assert (P : 0 < fp r - fp (r - 1)) by lra.
    split; [lia|]. split; [split|].
    - apply Rmult_le_pos; [lra|]. apply Rlt_le, Rinv_0_lt_compat. lra.
    - apply (Rmult_lt_reg_r (fp r - fp (r - 1))); [lra|]. unfold Rdiv. rewrite Rmult_assoc, Rinv_l by lra. lra.
    - split; [ring|field; lra].
  Qed.
  Lemma node_param_mono v w : 0 <= v -> v < w -> w < 1 -> node_param coefs left right N v < node_param coefs left right N w.
  Proof.
    intros V VW W. destruct (node_param_spec v ltac:(lra)) as (l & s & L & Hs & -> & E). destruct (node_param_spec w ltac:(lra)) as (l' & s' & L' & Hs' & -> & E').
    pose proof step_pos as P. apply Rmult_lt_compat_r; auto.
    destruct (lt_eq_lt_dec l l') as [[Q|Q]|Q].
    - apply le_INR in Q. rewrite S_INR in Q. lra.
    - subst l'. pose proof (frac_step l). nra.
    - exfalso. assert (fp (S l') <= fp l). { destruct (Nat.eq_dec (S l') l) as [->|]; [lra|]. apply Rlt_le, frac_mono. lia. }
      pose proof (frac_step l). pose proof (frac_step l'). nra.
  Qed.
  Lemma node_param_range v : 0 <= v < 1 -> 0 <= node_param coefs left right N v < 1.
  Proof.
    intros V. destruct (node_param_spec v V) as (l & s & L & Hs & -> & _). pose proof step_pos as P. pose proof (pos_INR l). split; [nra|].
    apply (Rlt_le_trans _ (INR (N - 1) * point_step N)).
    - apply Rmult_lt_compat_r; auto. assert (Q : (S l <= N - 1)%nat) by lia. apply le_INR in Q. rewrite S_INR in Q. lra.
    - unfold point_step. pose proof N_pos. right. field. lra.
  Qed.
  (** A curve that is a straight line is traversed uniformly. *)
  Lemma node_at_line v : (forall x, polynomial coefs x = snd left + (snd right - snd left) * ((x - fst left) / (fst right - fst left))) ->
    0 <= v < 1 -> node_at coefs left right N v = (fst left + v * (fst right - fst left), snd left + v * (snd right - snd left)).
  Proof.
    intros LIN V.
    assert (C : forall i, ch i = ch 0).
    { intros i. unfold chord. f_equal. rewrite !param_x_eq, !LIN, !S_INR. cbn [INR]. field. lra. }
    assert (F : forall i, fp i = INR i * point_step N).
    { intros i. assert (SM : forall n, rsum n ch = INR n * ch 0). { induction n as [|n IH]; [cbn; ring|]. cbn [rsum]. rewrite IH, (C n), S_INR. ring. }
      unfold frac_point. rewrite !SM. unfold point_step. pose proof N_pos. pose proof (chord_pos 0). field. split; lra. }
    destruct (node_param_spec v V) as (l & s & L & Hs & E1 & E2).
    assert (T : node_param coefs left right N v = v). { rewrite E1, <- E2, !F, S_INR. ring. }
    unfold node_at. rewrite T. rewrite LIN, param_x_eq. f_equal; [ring|]. field. lra.
  Qed.
End CurveProps.

(** ** The polynomial of an edge *)
(** What np.linalg.solve guarantees: a square system that only has the null
    solution for a null right-hand side is solved exactly. *)
Definition ldot (a x : list R) : R := lsum (map (fun p => fst p * snd p) (combine a x)).
Definition solver_correct (solve : list (list R) -> list R -> list R) : Prop :=
  forall n A b, length A = n -> length b = n -> (forall a, In a A -> length a = n) ->
  (forall x, length x = n -> (forall a, In a A -> ldot a x = 0) -> forall c, In c x -> c = 0) ->
  length (solve A b) = n /\ forall k, (k < n)%nat -> ldot (nth k A []) (solve A b) = nth k b 0.
Fixpoint horner (c : list R) (x : R) : R := match c with [] => 0 | a :: r => a + x * horner r x end.
Lemma polynomial_horner c x : polynomial c x = horner c x.
Proof.
  unfold polynomial. induction c as [|a c IH]; [reflexivity|]. cbn [length seq map horner]. rewrite <- seq_shift, map_map. cbn [lsum nth pow].
  rewrite (map_ext _ (fun i => x * (nth i c 0 * x ^ i))) by (intros; ring). rewrite lsum_map_scal, IH. ring.
Qed.
Lemma vander_row c x n : length c = n -> ldot (map (fun k => x ^ k) (seq 0 n)) c = horner c x.
Proof.
  intros <-. rewrite <- polynomial_horner. unfold ldot, polynomial. f_equal.
  assert (G : forall o, map (fun p => fst p * snd p) (combine (map (fun k => x ^ k) (seq o (length c))) c) = map (fun i => nth i c 0 * x ^ (o + i)) (seq 0 (length c))).
  { induction c as [|a c IH]; intros o; [reflexivity|]. cbn [length seq map combine fst snd nth]. rewrite Nat.add_0_r. f_equal; [ring|].
    rewrite IH, <- seq_shift, map_map. apply map_ext. intros i. cbn [nth]. do 2 f_equal. lia. }
  rewrite (G 0%nat). reflexivity.
Qed.
(** Division by x - a. *)
Fixpoint sdiv (a : R) (c : list R) : list R * R :=
  match c with
  | [] => ([], 0)
  | [k] => ([], k)
  | k :: r => let '(q, v) := sdiv a r in (v :: q, k + a * v)
  end.
Lemma sdiv_spec a c : (0 < length c)%nat -> S (length (fst (sdiv a c))) = length c
  /\ (forall x, horner c x = snd (sdiv a c) + (x - a) * horner (fst (sdiv a c)) x)
  /\ (snd (sdiv a c) = 0 -> (forall k, In k (fst (sdiv a c)) -> k = 0) -> forall k, In k c -> k = 0).
Proof.
  induction c as [|k c IH]; cbn [length]; [lia|]. intros _. destruct c as [|k' c].
  - cbn. split; [lia|]. split; [intros; ring|]. intros E _ k' [<-|[]]; auto.
  - specialize (IH ltac:(cbn; lia)). change (sdiv a (k :: k' :: c)) with (let '(q, v) := sdiv a (k' :: c) in (v :: q, k + a * v)).
    destruct (sdiv a (k' :: c)) as [q v]. cbn [fst snd] in *. destruct IH as (I1 & I2 & I3). split; [cbn [length] in *; lia|]. split.
    + intros x. change (horner (k :: k' :: c) x) with (k + x * horner (k' :: c) x). rewrite I2. cbn [horner]. ring.
    + intros E Z y [<-|Y].
      * rewrite (Z v) in E by (left; auto). lra.
      * apply I3; auto; [apply Z; left; auto|intros z Hz; apply Z; right; auto].
Qed.
(** A polynomial with as many distinct roots as coefficients is null. *)
Lemma roots_null xs : NoDup xs -> forall c, length c = length xs -> (forall x, In x xs -> horner c x = 0) -> forall k, In k c -> k = 0.
Proof.
  induction 1 as [|a xs NI ND IH]; intros c L Z; [destruct c; [intros ? []|discriminate]|].
  destruct (sdiv_spec a c ltac:(rewrite L; cbn; lia)) as (S1 & S2 & S3).
  assert (V : snd (sdiv a c) = 0). { specialize (S2 a). rewrite (Z a) in S2 by (left; auto). lra. }
  apply S3; auto. apply IH; [cbn in L; lia|]. intros x X. specialize (S2 x). rewrite (Z x) in S2 by (right; auto). rewrite V in S2.
  assert (x - a <> 0). { intro E. apply NI. replace a with x by lra. auto. }
  assert (P : (x - a) * horner (fst (sdiv a c)) x = 0) by lra. apply Rmult_integral in P. destruct P; [contradiction|auto].
Qed.
Theorem polynomial_unique : forall xs c c', NoDup xs -> length c = length xs -> length c' = length xs ->
  (forall x, In x xs -> polynomial c x = polynomial c' x) -> forall x, polynomial c x = polynomial c' x.
Proof.
  intros xs c c' ND L L' E x. rewrite !polynomial_horner.
  assert (SUB : forall a b y, length a = length b -> horner (map (fun p => fst p - snd p) (combine a b)) y = horner a y - horner b y).
  { induction a as [|u a IH]; intros [|v b] y Q; cbn in *; try lia; [ring|]. rewrite IH by lia. ring. }
  assert (Z : forall k, In k (map (fun p => fst p - snd p) (combine c c')) -> k = 0).
  { apply (roots_null xs); auto; [rewrite map_length, combine_length; lia|]. intros y Y. rewrite SUB by lia. rewrite <- !polynomial_horner, E; auto; ring. }
  assert (N : forall l : list R, (forall k, In k l -> k = 0) -> horner l x = 0).
  { induction l as [|k l IH]; intros A; [reflexivity|]. cbn. rewrite (A k), IH by (intros; try apply A; cbn; auto). ring. }
  specialize (N _ Z). rewrite SUB in N by lia. lra.
Qed.
Lemma linspace_mono a b n k l : a < b -> (2 <= n)%nat -> (k < l)%nat -> linspace a b n k < linspace a b n l.
Proof.
  intros AB N KL. unfold linspace. apply Rplus_lt_compat_l. apply Rmult_lt_compat_r; [|apply lt_INR; auto].
  apply Rdiv_lt_0_compat; [lra|]. apply lt_0_INR. lia.
Qed.
Lemma linspace_last a b n : (2 <= n)%nat -> linspace a b n (n - 1) = b.
Proof. intros N. unfold linspace. assert (0 < INR (n - 1)) by (apply lt_0_INR; lia). field. lra. Qed.
Lemma linspace_first a b n : linspace a b n 0 = a. Proof. unfold linspace. cbn. ring. Qed.
Lemma NoDup_map_on {A B} (f : A -> B) l : (forall x y, In x l -> In y l -> f x = f y -> x = y) -> NoDup l -> NoDup (map f l).
Proof.
  intros I ND. induction ND as [|a l NI ND IH]; cbn; [constructor|]. constructor.
  - intros M. apply in_map_iff in M. destruct M as (y & E & Y). apply NI. rewrite (I a y); auto; cbn; auto.
  - apply IH. intros x y X Y. apply I; cbn; auto.
Qed.
Lemma control_distinct order left right b u : fst left < fst right -> NoDup (map fst (control_points order left right b u)).
Proof.
  intros H. unfold control_points. set (n := (2 + (order - 1))%nat). cbn [app map]. rewrite map_map. cbn [fst].
  assert (IN : forall i, (i < order - 1)%nat -> fst left < linspace (fst left) (fst right) n (S i) < fst right).
  { intros i I. split.
    - rewrite <- (linspace_first (fst left) (fst right) n) at 1. apply linspace_mono; unfold n; try lia; auto.
    - rewrite <- (linspace_last (fst left) (fst right) n) at 2 by (unfold n; lia). apply linspace_mono; unfold n; try lia; auto. }
  assert (M : forall x, In x (map (fun i => linspace (fst left) (fst right) n (S i)) (seq 0 (order - 1))) -> fst left < x < fst right).
  { intros x X. apply in_map_iff in X. destruct X as (i & <- & I). apply in_seq in I. apply IN. lia. }
  constructor; [intros [E|X]; [lra|apply M in X; lra]|]. constructor; [intros X; apply M in X; lra|].
  apply NoDup_map_on; [|apply seq_NoDup]. intros i j _ _ E. destruct (lt_eq_lt_dec i j) as [[L|L]|L]; auto; exfalso.
  - pose proof (linspace_mono (fst left) (fst right) n (S i) (S j) H ltac:(unfold n; lia) ltac:(lia)). lra.
  - pose proof (linspace_mono (fst left) (fst right) n (S j) (S i) H ltac:(unfold n; lia) ltac:(lia)). lra.
Qed.
Lemma control_length order left right b u : length (control_points order left right b u) = (2 + (order - 1))%nat.
Proof. unfold control_points. rewrite app_length, map_length, seq_length. reflexivity. Qed.
(** The polynomial has one coefficient per control point and goes through all of
    them, whatever the order and the draws. *)
Theorem sampler_interpolates : forall solve order left right b u, solver_correct solve -> fst left < fst right ->
  let c := polynomial_sampler solve order left right b u in
  length c = (2 + (order - 1))%nat /\ (forall p, In p (control_points order left right b u) -> polynomial c (fst p) = snd p)
  /\ polynomial c (fst left) = snd left /\ polynomial c (fst right) = snd right.
Proof.
  intros solve order left right b u SC H c. unfold polynomial_sampler in c. set (pts := control_points order left right b u) in *.
  pose proof (control_distinct order left right b u H) as ND. fold pts in ND.
  destruct (SC (length pts) (map (fun p => map (fun k => fst p ^ k) (seq 0 (length pts))) pts) (map snd pts)) as [L E].
  - apply map_length.
  - apply map_length.
  - intros a A. apply in_map_iff in A. destruct A as (p & <- & _). rewrite map_length, seq_length. reflexivity.
  - intros x LX Z. apply (roots_null (map fst pts)); auto; [rewrite map_length; auto|].
    intros y Y. apply in_map_iff in Y. destruct Y as (p & <- & P). rewrite <- (vander_row x (fst p) (length pts)) by auto.
    apply Z. apply in_map_iff. exists p. split; auto.
  - fold c in L, E.
    assert (ALL : forall p, In p pts -> polynomial c (fst p) = snd p).
    { intros p P. destruct (In_nth _ _ (0, 0) P) as (k & K & <-). specialize (E k K).
      rewrite (nth_indep _ [] (map (fun k0 => fst (0, 0) ^ k0) (seq 0 (length pts)))) in E by (rewrite map_length; auto).
      rewrite (map_nth (fun p => map (fun k => fst p ^ k) (seq 0 (length pts)))) in E. rewrite vander_row in E by auto.
      rewrite (nth_indep _ 0 (snd (0, 0))) in E by (rewrite map_length; auto). rewrite map_nth in E. rewrite polynomial_horner. exact E. }
    split; [rewrite L; apply control_length|]. split; [exact ALL|]. split; apply ALL; unfold pts, control_points; cbn; auto.
Qed.
(** Up to order one the polynomial is the straight line between the ends. *)
Lemma sampler_line solve order left right b u x : solver_correct solve -> fst left < fst right -> (order <= 1)%nat ->
  polynomial (polynomial_sampler solve order left right b u) x = snd left + (snd right - snd left) * ((x - fst left) / (fst right - fst left)).
Proof.
  intros SC H O. destruct (sampler_interpolates solve order left right b u SC H) as (L & _ & E1 & E2).
  replace (2 + (order - 1))%nat with 2%nat in L by lia. destruct (polynomial_sampler solve order left right b u) as [|c0 [|c1 [|? ?]]]; cbn in L; try discriminate.
  rewrite !polynomial_horner in *. cbn [horner] in *. rewrite <- E1, <- E2. field. lra.
Qed.
(** The hypothesis on the solver can be met: Gauss elimination. *)
Fixpoint pick (rows : list (list R * R)) : option ((list R * R) * list (list R * R)) :=
  match rows with
  | [] => None
  | r :: rest =>
    if Req_EM_T (hd 0 (fst r)) 0 then match pick rest with Some (p, o) => Some (p, r :: o) | None => None end
    else Some (r, rest)
  end.
Definition reduce (p r : list R * R) : list R * R :=
  let f := hd 0 (fst r) / hd 0 (fst p) in
  (map (fun q => fst q - f * snd q) (combine (tl (fst r)) (tl (fst p))), snd r - f * snd p).
Fixpoint gauss (n : nat) (rows : list (list R * R)) : list R :=
  match n with
  | O => []
  | S m => match pick rows with
           | None => repeat 0 n
           | Some (p, rest) =>
             let y := gauss m (map (reduce p) rest) in
             (snd p - ldot (tl (fst p)) y) / hd 0 (fst p) :: y
           end
  end.
Lemma pick_none rows : pick rows = None -> forall r, In r rows -> hd 0 (fst r) = 0.
Proof.
  induction rows as [|a rows IH]; cbn; [intros _ ? []|]. destruct (Req_EM_T _ _) as [E|]; [|discriminate].
  destruct (pick rows) as [[p o]|]; [discriminate|]. intros _ r [<-|Hr]; auto.
Qed.
Lemma pick_some rows p o : pick rows = Some (p, o) -> hd 0 (fst p) <> 0 /\ length rows = S (length o) /\ forall r, In r rows <-> r = p \/ In r o.
Proof.
  revert p o. induction rows as [|a rows IH]; cbn; intros p o; [discriminate|]. destruct (Req_EM_T _ _) as [E|E].
  - destruct (pick rows) as [[p' o']|]; [|discriminate]. intros H. injection H as <- <-. destruct (IH _ _ eq_refl) as (A & B & C).
    split; auto. split; [cbn; lia|]. intros r. rewrite C. cbn. intuition.
  - intros H. injection H as <- <-. split; auto. split; auto. intros r. intuition.
Qed.
Lemma ldot_reduce a b f y : length a = length b -> ldot (map (fun q => fst q - f * snd q) (combine a b)) y = ldot a y - f * ldot b y.
Proof.
  unfold ldot. revert b y. induction a as [|u a IH]; intros [|v b] y L; cbn in *; try lia; [ring|]. destruct y as [|w y]; cbn; [ring|]. rewrite IH by lia. ring.
Qed.
Lemma ldot_cons a x y : a <> [] -> ldot a (x :: y) = hd 0 a * x + ldot (tl a) y.
Proof. destruct a; [contradiction|]. intros _. reflexivity. Qed.
Lemma gauss_spec n : forall rows, length rows = n -> (forall r, In r rows -> length (fst r) = n) ->
  (forall x, length x = n -> (forall r, In r rows -> ldot (fst r) x = 0) -> forall c, In c x -> c = 0) ->
  length (gauss n rows) = n /\ forall r, In r rows -> ldot (fst r) (gauss n rows) = snd r.
Proof.
  induction n as [|n IH]; intros rows L RL INJ.
  - destruct rows; [|discriminate]. split; [reflexivity|]. intros ? [].
  - cbn [gauss]. destruct (pick rows) as [[p o]|] eqn:P.
    + destruct (pick_some _ _ _ P) as (P1 & P2 & P3).
      assert (NE : forall r, In r rows -> fst r <> []). { intros r Hr E. specialize (RL r Hr). rewrite E in RL. discriminate. }
      assert (TL : forall r, In r rows -> length (tl (fst r)) = n). { intros r Hr. specialize (RL r Hr). destruct (fst r); cbn in *; lia. }
      assert (Pin : In p rows) by (apply P3; auto). assert (Oin : forall r, In r o -> In r rows) by (intros; apply P3; auto).
      destruct (IH (map (reduce p) o)) as [G1 G2].
      * rewrite map_length. lia.
      * intros r Hr. apply in_map_iff in Hr. destruct Hr as (r0 & <- & H0). cbn [reduce fst]. rewrite map_length, combine_length, (TL p Pin), (TL r0) by auto. lia.
      * intros x LX Z c C. apply (INJ (- ldot (tl (fst p)) x / hd 0 (fst p) :: x)); [cbn; lia| |right; auto].
        intros r Hr. rewrite ldot_cons by auto. apply P3 in Hr. destruct Hr as [->|Hr]; [field; auto|].
        specialize (Z (reduce p r) (in_map _ _ _ Hr)). cbn [reduce fst] in Z. rewrite ldot_reduce in Z by (rewrite (TL p Pin), (TL r); auto).
        etransitivity; [|exact Z]. field; auto.
      * set (y := gauss n (map (reduce p) o)) in *. split; [cbn; lia|]. intros r Hr. rewrite ldot_cons by auto.
        apply P3 in Hr. destruct Hr as [->|Hr]; [field; auto|].
        specialize (G2 (reduce p r) (in_map _ _ _ Hr)). cbn [reduce fst snd] in G2. rewrite ldot_reduce in G2 by (rewrite (TL p Pin), (TL r); auto).
        replace (snd r) with (ldot (tl (fst r)) y - hd 0 (fst r) / hd 0 (fst p) * ldot (tl (fst p)) y + hd 0 (fst r) / hd 0 (fst p) * snd p) by lra.
        field; auto.
    + exfalso. pose proof (pick_none _ P) as Z.
      assert (F : 1 = 0); [|lra]. apply (INJ (1 :: repeat 0 n)); [cbn; rewrite repeat_length; auto| |left; auto].
      intros r Hr. specialize (RL r Hr). rewrite ldot_cons by (intro E; rewrite E in RL; discriminate). rewrite (Z r Hr).
      assert (Q : forall a m, ldot a (repeat 0 m) = 0). { induction a as [|u a IHa]; intros [|m]; unfold ldot in *; cbn in *; auto. rewrite IHa. ring. }
      rewrite Q. ring.
Qed.
Theorem solver_exists : exists solve, solver_correct solve.
Proof.
  exists (fun A b => gauss (length A) (combine A b)). intros n A b LA LB RL INJ.
  assert (CF : forall r, In r (combine A b) -> In (fst r) A) by (intros [? ?] Hr; apply in_combine_l in Hr; auto).
  destruct (gauss_spec n (combine A b)) as [G1 G2].
  - rewrite combine_length. lia.
  - intros r Hr. auto.
  - intros x LX Z. apply INJ; auto. intros a Ha. destruct (In_nth _ _ [] Ha) as (k & K & E).
    specialize (Z (nth k (combine A b) ([], 0))). rewrite combine_nth in Z by lia. cbn [fst] in Z. rewrite E in Z. apply Z.
    rewrite <- E, <- combine_nth by lia. apply nth_In. rewrite combine_length. lia.
  - rewrite LA. split; auto. intros k K. specialize (G2 (nth k (combine A b) ([], 0))). rewrite combine_nth in G2 by lia. cbn [fst snd] in G2. apply G2.
    rewrite <- combine_nth by lia. apply nth_In. rewrite combine_length. lia.
Qed.

(** ** Deformed edges *)
(** The first and last nodes are the limits, whatever the order and the noise. *)
Lemma deformed_edge_ends solve N n ref left right order rng u std normal nodes : (2 <= n)%nat ->
  deformed_edge solve N n ref left right order rng u std normal = Ok nodes -> nodes 0%nat = left /\ nodes (n - 1)%nat = right.
Proof.
  intros H E. unfold deformed_edge in E. destruct (rleb _ _); [discriminate|]. destruct (_ && _); [discriminate|]. injection E as <-.
  split; [reflexivity|]. cbv beta. replace (Nat.eqb (n - 1) 0) with false by (symmetry; apply Nat.eqb_neq; lia). rewrite Nat.eqb_refl. reflexivity.
Qed.
Lemma to_local_dot d r init x a : to_local d r init x a = dot d (r a) (vsub x init).
Proof. unfold to_local, vsub, mv, dot. induction d as [|d IH]; cbn [rsum]; [ring|]. rewrite <- IH. ring. Qed.
Definition plane (x : vec) : R * R := (x 0%nat, x 1%nat).
(** The two ends of an edge in its frame. *)
Lemma edge_local_ends d cd i j r : d = 2%nat \/ d = 3%nat -> edge_frame d cd i j = Ok r ->
  let e := nth j (edges d i) (0, 0)%nat in
  plane (to_local d r (cd (fst e)) (cd (fst e))) = (0, 0)
  /\ plane (to_local d r (cd (fst e)) (cd (snd e))) = (norm d (vsub (cd (snd e)) (cd (fst e))), 0)
  /\ to_local d r (cd (fst e)) (cd (snd e)) 2%nat = 0 /\ 0 < norm d (vsub (cd (snd e)) (cd (fst e))).
Proof.
  intros D H e. destruct (edge_frame_outward d cd i j r D H) as (P & A & B & C & _). fold e in P, A, B, C.
  unfold plane. rewrite !to_local_dot, A, B, C. repeat split; auto.
  f_equal; unfold dot, vsub; rewrite <- (rsum_zero d); apply rsum_ext; intros; ring.
Qed.
Theorem edge_def_ends : forall solve d dims noise n cd i j order rng u normal nodes, d = 2%nat \/ d = 3%nat -> (2 <= n)%nat ->
  edge_def solve d dims noise n cd i j order rng u normal = Ok nodes ->
  forall c, (c < d)%nat -> nodes 0%nat c = cd (fst (nth j (edges d i) (0, 0)%nat)) c /\ nodes (n - 1)%nat c = cd (snd (nth j (edges d i) (0, 0)%nat)) c.
Proof.
  intros solve d dims noise n cd i j order rng u normal nodes D N H c Hc. unfold edge_def in H.
  destruct (edge_frame d cd i j) as [r|] eqn:EF; cbn [rbind] in H; [|discriminate].
  destruct (edge_frame_orthonormal d cd i j r D EF) as (_ & _ & _ & O).
  destruct (edge_local_ends d cd i j r D EF) as (L1 & L2 & L3 & _). unfold plane in L1, L2.
  destruct (deformed_edge _ _ _ _ _ _ _ _ _ _ _) as [nd|] eqn:DE; cbn [rbind] in H; [|discriminate]. injection H as <-.
  destruct (deformed_edge_ends _ _ _ _ _ _ _ _ _ _ _ _ N DE) as [E1 E2]. rewrite E1, E2. cbn [fst snd].
  set (e := nth j (edges d i) (0, 0)%nat) in *.
  injection L1 as L11 L12. injection L2 as L21 L22. rewrite L11, L12, L21, L22.
  split.
  - unfold from_local, vadd, mv. rewrite (rsum_ext _ _ (fun _ => 0)); [rewrite rsum_zero; ring|].
    intros k Hk. destruct k as [|[|k]]; ring.
  - rewrite <- (from_to_local d r (cd (fst e)) (cd (snd e)) c D O Hc). unfold from_local, vadd, mv. f_equal. apply rsum_ext. intros k Hk.
    f_equal. destruct D as [-> | ->]; [destruct (lt2 k Hk) as [->| ->]|destruct (lt3 k Hk) as [->|[->| ->]]]; auto.
Qed.
(** Equally spaced reference nodes are always accepted, and are placed at equal
    fractions of the length of the curve. *)
Lemma rleb_iff a b : rleb a b = true <-> a <= b. Proof. unfold rleb. destruct (Rle_dec a b); split; auto; try discriminate; contradiction. Qed.
Lemma linear_sorted n (ref : nat -> R * R) a b : (forall k, fst (ref k) = a + INR k * b) ->
  (0 <= b -> ascending n ref = true) /\ (b <= 0 -> descending n ref = true).
Proof.
  intros H. split; intros B; apply forallb_forall; intros k _; apply rleb_iff; rewrite !H, S_INR; lra.
Qed.
Lemma rsum_const n c : rsum n (fun _ => c) = INR n * c.
Proof. induction n as [|n IH]; [cbn; ring|]. cbn [rsum]. rewrite IH, S_INR. ring. Qed.
Lemma linear_frac n (ref : nat -> R * R) a0 b0 a1 b1 k : (2 <= n)%nat -> (k <= n - 1)%nat -> (b0 <> 0 \/ b1 <> 0) ->
  (forall k, (k <= n - 1)%nat -> ref k = (a0 + INR k * b0, a1 + INR k * b1)) ->
  1 / rsum (n - 1) (fun k => dist2 (ref k) (ref (S k))) * rsum k (fun k => dist2 (ref k) (ref (S k))) = INR k / INR (n - 1).
Proof.
  intros N K B H. set (c := sqrt (b0 * b0 + b1 * b1)).
  assert (C : forall q, (q < n - 1)%nat -> dist2 (ref q) (ref (S q)) = c).
  { intros q Q. unfold dist2, c. f_equal. rewrite !H by lia. cbn [fst snd]. rewrite S_INR. ring. }
  rewrite (rsum_ext _ _ (fun _ => c)) by auto. rewrite (rsum_ext k _ (fun _ => c)) by (intros; apply C; lia). rewrite !rsum_const.
  assert (0 < c). { apply sqrt_lt_R0. destruct B; nra. }
  assert (0 < INR (n - 1)) by (apply lt_0_INR; lia). field. split; lra.
Qed.
Lemma deformed_edge_linear solve N n ref left right order rng u std normal a0 b0 a1 b1 : (2 <= n)%nat -> (b0 <> 0 \/ b1 <> 0) ->
  (forall k, ref k = (a0 + INR k * b0, a1 + INR k * b1)) -> fst left < fst right ->
  let m := (snd left + snd right) / 2 in
  let coefs := polynomial_sampler solve order left right (m + fst rng, m + snd rng) u in
  exists nodes, deformed_edge solve N n ref left right order rng u std normal = Ok nodes
  /\ forall k, (0 < k < n - 1)%nat -> let p := node_at coefs left right N (INR k / INR (n - 1)) in
       nodes k = (fst p + fst std * fst (normal k), snd p + snd std * snd (normal k)).
Proof.
  intros N2 B H LR m coefs. unfold deformed_edge.
  replace (rleb (fst right) (fst left)) with false by (symmetry; apply Bool.not_true_iff_false; rewrite rleb_iff; lra).
  assert (S : negb (ascending n ref) && negb (descending n ref) = false).
  { destruct (linear_sorted n ref a0 b0) as [A D]. { intros k. rewrite H. reflexivity. }
    destruct (Rle_dec 0 b0); [rewrite A by auto; reflexivity|rewrite D by lra; apply Bool.andb_false_r]. }
  rewrite S. eexists. split; [reflexivity|]. intros k K. cbv beta zeta.
  replace (Nat.eqb k 0) with false by (symmetry; apply Nat.eqb_neq; lia). replace (Nat.eqb k (n - 1)) with false by (symmetry; apply Nat.eqb_neq; lia).
  fold m. fold coefs.
  assert (F : forall rf, (rf = ref \/ rf = fun k => ref (n - 1 - k)%nat) ->
     1 / rsum (n - 1) (fun k => dist2 (rf k) (rf (Datatypes.S k))) * rsum k (fun k => dist2 (rf k) (rf (Datatypes.S k))) = INR k / INR (n - 1)).
  { intros rf [-> | ->]; [apply (linear_frac n ref a0 b0 a1 b1); auto; lia|].
    apply (linear_frac n (fun k => ref (n - 1 - k)%nat) (a0 + INR (n - 1) * b0) (- b0) (a1 + INR (n - 1) * b1) (- b1)); auto; try lia.
    - destruct B; [left|right]; lra.
    - intros q Q. rewrite H, minus_INR by lia. f_equal; ring. }
  destruct (ascending n ref); rewrite F; auto.
Qed.
(** The direction of a reference edge is seen in the frame of the deformed edge. *)
Definition ref_vector (dims : vec) (e : nat * nat) : vec := vsub (corner_coords dims (snd e)) (corner_coords dims (fst e)).
Definition seen (d : nat) (r : T2) (v : vec) : Prop := mv d r v 0%nat <> 0 \/ mv d r v 1%nat <> 0.
Lemma edge_ref_local d dims n e r init k a : (2 <= n)%nat ->
  to_local d r init (edge_ref dims n e k) a = to_local d r init (corner_coords dims (fst e)) a + INR k * (mv d r (ref_vector dims e) a / INR (n - 1)).
Proof.
  intros N. assert (0 < INR (n - 1)) by (apply lt_0_INR; lia). unfold to_local, vsub, mv, edge_ref, linspace, ref_vector, vsub.
  induction d as [|d IH]; cbn [rsum]; [field; lra|].
  match goal with |- ?A + ?b - _ = _ => replace (A + b) with ((A - rsum d (fun j => r a j * init j)) + rsum d (fun j => r a j * init j) + b) by ring end.
  rewrite IH. field. lra.
Qed.
(** In two dimensions always. *)
Lemma seen_2d dims cd i j r : edge_frame 2 cd i j = Ok r -> (i < 2)%nat -> (j < length (edges 2 i))%nat -> dims i <> 0 ->
  seen 2 r (ref_vector dims (nth j (edges 2 i) (0, 0)%nat)).
Proof.
  intros H Hi Hj Z. destruct (edge_frame_orthonormal 2 cd i j r (or_introl eq_refl) H) as (_ & _ & _ & O).
  pose proof (O i i Hi Hi) as Q. unfold kron in Q. rewrite Nat.eqb_refl in Q. cbn [rsum] in Q.
  assert (E : forall a, mv 2 r (ref_vector dims (nth j (edges 2 i) (0, 0)%nat)) a = r a i * dims i).
  { intros a. unfold mv, ref_vector, vsub. destruct (lt2 i Hi) as [->| ->]; cbn in Hj; destruct j as [|[|j]]; try lia; cbn; ring. }
  unfold seen. rewrite !E. destruct (Req_dec (r 0%nat i) 0) as [A|A]; [right|left].
  - apply Rmult_integral_contrapositive_currified; auto. intro B. rewrite A, B in Q. lra.
  - apply Rmult_integral_contrapositive_currified; auto.
Qed.
(** The generation of an edge never fails once it has a frame. *)
Lemma edge_def_eq solve d dims noise n cd i j order rng u normal r : d = 2%nat \/ d = 3%nat -> (2 <= n)%nat -> edge_frame d cd i j = Ok r ->
  let e := nth j (edges d i) (0, 0)%nat in seen d r (ref_vector dims e) ->
  let len := norm d (vsub (cd (snd e)) (cd (fst e))) in
  let coefs := polynomial_sampler solve order (0, 0) (len, 0) rng u in
  exists nodes, edge_def solve d dims noise n cd i j order rng u normal = Ok nodes
  /\ forall k, (0 < k < n - 1)%nat -> let p := node_at coefs (0, 0) (len, 0) n_poly_points (INR k / INR (n - 1)) in
     nodes k = from_local d r (cd (fst e)) (fun c => match c with 0%nat => fst p + Rabs noise * dims 0%nat * fst (normal k)
                                                      | 1%nat => snd p + Rabs noise * dims 1%nat * snd (normal k) | _ => 0 end).
Proof.
  intros D N EF e SE len coefs. destruct (edge_local_ends d cd i j r D EF) as (L1 & L2 & _ & P). fold e in L1, L2, P. fold len in L2, P.
  unfold edge_def. rewrite EF. cbn [rbind]. fold e. unfold plane in L1, L2. rewrite L1, L2.
  assert (NP : 0 < INR (n - 1)) by (apply lt_0_INR; lia).
  edestruct (deformed_edge_linear solve n_poly_points n
    (fun k => (to_local d r (cd (fst e)) (edge_ref dims n e k) 0%nat, to_local d r (cd (fst e)) (edge_ref dims n e k) 1%nat))
    (0, 0) (len, 0) order rng u (Rabs noise * dims 0%nat, Rabs noise * dims 1%nat) normal
    (to_local d r (cd (fst e)) (corner_coords dims (fst e)) 0%nat) (mv d r (ref_vector dims e) 0%nat / INR (n - 1))
    (to_local d r (cd (fst e)) (corner_coords dims (fst e)) 1%nat) (mv d r (ref_vector dims e) 1%nat / INR (n - 1))) as (nodes & E1 & E2); auto.
  - destruct SE as [SE|SE]; [left|right]; intro Q; apply SE; apply (Rmult_eq_reg_r (/ INR (n - 1))); try (apply Rinv_neq_0_compat; lra); unfold Rdiv in Q; rewrite Q; ring.
  - intros k. rewrite !edge_ref_local by auto. reflexivity.
  - rewrite E1. cbn [rbind]. eexists. split; [reflexivity|]. intros k K. cbv beta. cbv zeta in E2. rewrite (E2 k K). cbn [fst snd] in *.
    replace ((0 + 0) / 2 + fst rng, (0 + 0) / 2 + snd rng) with rng by (destruct rng; cbn [fst snd]; f_equal; field). reflexivity.
Qed.
Lemma from_local_edge d cd i j r c : d = 2%nat \/ d = 3%nat -> edge_frame d cd i j = Ok r -> (c < d)%nat ->
  let e := nth j (edges d i) (0, 0)%nat in let len := norm d (vsub (cd (snd e)) (cd (fst e))) in
  r 0%nat c * len = cd (snd e) c - cd (fst e) c.
Proof.
  intros D EF Hc e len. destruct (edge_frame_orthonormal d cd i j r D EF) as (_ & _ & _ & O).
  destruct (edge_local_ends d cd i j r D EF) as (_ & L2 & L3 & _). fold e in L2, L3. fold len in L2. unfold plane in L2. injection L2 as L20 L21.
  pose proof (from_to_local d r (cd (fst e)) (cd (snd e)) c D O Hc) as F. unfold from_local, vadd, mv, transpose in F.
  destruct D as [-> | ->]; cbn [rsum] in F; [rewrite L20, L21 in F|rewrite L20, L21, L3 in F]; lra.
Qed.
(** Straight edges: with polynomials of order zero or one and no noise, the nodes
    divide the segment between the displaced corners equally. *)
Theorem straight_edge : forall solve d dims n cd i j order rng u normal r, solver_correct solve -> d = 2%nat \/ d = 3%nat -> (2 <= n)%nat ->
  edge_frame d cd i j = Ok r -> let e := nth j (edges d i) (0, 0)%nat in seen d r (ref_vector dims e) -> (order <= 1)%nat ->
  exists nodes, edge_def solve d dims 0 n cd i j order rng u normal = Ok nodes
  /\ forall k c, (k <= n - 1)%nat -> (c < d)%nat -> nodes k c = cd (fst e) c + INR k / INR (n - 1) * (cd (snd e) c - cd (fst e) c).
Proof.
  intros solve d dims n cd i j order rng u normal r SC D N EF e SE O.
  destruct (edge_def_eq solve d dims 0 n cd i j order rng u normal r D N EF SE) as (nodes & E1 & E2). fold e in E2.
  exists nodes. split; auto. intros k c K C. assert (NP : 0 < INR (n - 1)) by (apply lt_0_INR; lia).
  destruct (edge_def_ends _ _ _ _ _ _ _ _ _ _ _ _ _ D N E1 c C) as [A B]. fold e in A, B.
  destruct (Nat.eq_dec k 0) as [->|K0]; [rewrite A; cbn [INR]; field; lra|].
  destruct (Nat.eq_dec k (n - 1)) as [->|K1]; [rewrite B; field; lra|].
  rewrite (E2 k) by lia. set (len := norm d (vsub (cd (snd e)) (cd (fst e)))) in *.
  destruct (edge_local_ends d cd i j r D EF) as (_ & _ & _ & P). fold e in P. fold len in P.
  assert (V : 0 <= INR k / INR (n - 1) < 1).
  { split; [apply Rmult_le_pos; [apply pos_INR|apply Rlt_le, Rinv_0_lt_compat; auto]|].
    apply (Rmult_lt_reg_r (INR (n - 1))); auto. unfold Rdiv. rewrite Rmult_assoc, Rinv_l, Rmult_1_r, Rmult_1_l by lra. apply lt_INR. lia. }
  assert (LN : forall x, polynomial (polynomial_sampler solve order (0, 0) (len, 0) rng u) x
     = snd (0, 0) + (snd (len, 0) - snd (0, 0)) * ((x - fst (0, 0)) / (fst (len, 0) - fst (0, 0)))) by (intros; apply sampler_line; auto).
  rewrite (node_at_line _ (0, 0) (len, 0) n_poly_points ltac:(unfold n_poly_points; lia) P (INR k / INR (n - 1)) LN V).
  cbn [fst snd]. pose proof (from_local_edge d cd i j r c D EF C) as FL. cbv zeta in FL. fold e len in FL. rewrite <- FL.
  unfold from_local, vadd, mv, transpose. rewrite Rabs_R0. destruct D as [-> | ->]; cbn [rsum]; ring.
Qed.
(** A homogeneous deformation of the corners is reproduced by straight edges:
    every node moves as its reference position does. *)
Theorem straight_edge_affine : forall solve d dims n i j order rng u normal r (F : T2) (t : vec), solver_correct solve -> d = 2%nat \/ d = 3%nat -> (2 <= n)%nat ->
  let cd := fun c => vadd (mv d F (corner_coords dims c)) t in
  edge_frame d cd i j = Ok r -> let e := nth j (edges d i) (0, 0)%nat in seen d r (ref_vector dims e) -> (order <= 1)%nat ->
  exists nodes, edge_def solve d dims 0 n cd i j order rng u normal = Ok nodes
  /\ forall k c, (k <= n - 1)%nat -> (c < d)%nat -> nodes k c = mv d F (edge_ref dims n e k) c + t c.
Proof.
  intros solve d dims n i j order rng u normal r F t SC D N cd EF e SE O.
  destruct (straight_edge solve d dims n cd i j order rng u normal r SC D N EF SE O) as (nodes & E1 & E2). fold e in E2.
  exists nodes. split; auto. intros k c K C. rewrite E2 by auto. unfold cd, vadd, mv, edge_ref, linspace. assert (NP : 0 < INR (n - 1)) by (apply lt_0_INR; lia).
  clear - NP. generalize (corner_coords dims (fst e)) (corner_coords dims (snd e)). intros p q.
  induction d as [|d IH]; cbn [rsum]; [field; lra|].
  assert (IH' : rsum d (fun j => F c j * (p j + INR k * ((q j - p j) / INR (n - 1)))) =
     rsum d (fun j => F c j * p j) + INR k / INR (n - 1) * (rsum d (fun j => F c j * q j) - rsum d (fun j => F c j * p j))) by lra.
  rewrite IH'. field. lra.
Qed.
(** Any order, without noise: the nodes lie on the polynomial through the control
    points, in the order of the edge, at equal fractions of the length of its
    polygon. *)
Theorem edge_nodes_on_curve : forall solve d dims n cd i j order rng u normal r, solver_correct solve -> d = 2%nat \/ d = 3%nat -> (2 <= n)%nat ->
  edge_frame d cd i j = Ok r -> let e := nth j (edges d i) (0, 0)%nat in seen d r (ref_vector dims e) ->
  let len := norm d (vsub (cd (snd e)) (cd (fst e))) in
  exists nodes coefs xs, edge_def solve d dims 0 n cd i j order rng u normal = Ok nodes /\ length coefs = (2 + (order - 1))%nat
  /\ (forall p, In p (control_points order (0, 0) (len, 0) rng u) -> polynomial coefs (fst p) = snd p)
  /\ xs 0%nat = 0 /\ xs (n - 1)%nat = len /\ (forall k, (k < n - 1)%nat -> xs k < xs (S k))
  /\ forall k c, (k <= n - 1)%nat -> (c < d)%nat -> nodes k c = cd (fst e) c + xs k * r 0%nat c + polynomial coefs (xs k) * r 1%nat c.
Proof.
  intros solve d dims n cd i j order rng u normal r SC D N EF e SE len.
  destruct (edge_def_eq solve d dims 0 n cd i j order rng u normal r D N EF SE) as (nodes & E1 & E2). fold e in E2. fold len in E2.
  destruct (edge_local_ends d cd i j r D EF) as (_ & _ & _ & P). fold e in P. fold len in P.
  destruct (sampler_interpolates solve order (0, 0) (len, 0) rng u SC P) as (L & I & I1 & I2).
  set (coefs := polynomial_sampler solve order (0, 0) (len, 0) rng u) in *. cbn [fst snd] in I1, I2.
  assert (NP : 0 < INR (n - 1)) by (apply lt_0_INR; lia).
  assert (V : forall k, (k < n - 1)%nat -> 0 <= INR k / INR (n - 1) < 1).
  { intros k K. split; [apply Rmult_le_pos; [apply pos_INR|apply Rlt_le, Rinv_0_lt_compat; auto]|].
    apply (Rmult_lt_reg_r (INR (n - 1))); auto. unfold Rdiv. rewrite Rmult_assoc, Rinv_l, Rmult_1_r, Rmult_1_l by lra. apply lt_INR. lia. }
  set (t := fun k => node_param coefs (0, 0) (len, 0) n_poly_points (INR k / INR (n - 1))).
  assert (NPP : (2 <= n_poly_points)%nat) by (unfold n_poly_points; lia).
  exists nodes, coefs, (fun k => if Nat.eqb k (n - 1) then len else len * t k).
  assert (T0 : t 0%nat = 0).
  { destruct (node_param_spec coefs (0, 0) (len, 0) n_poly_points NPP P _ (V 0%nat ltac:(lia))) as (l & s & Ll & Hs & Q1 & Q2). unfold t. rewrite Q1.
    replace (INR 0 / INR (n - 1)) with 0 in Q2 by (cbn [INR]; field; lra).
    pose proof (frac_0 coefs (0, 0) (len, 0) n_poly_points) as F0. pose proof (frac_step coefs (0, 0) (len, 0) n_poly_points NPP P l) as FS.
    destruct l as [|l]; [rewrite F0 in *; assert (s = 0) by nra; subst; cbn [INR]; ring|].
    pose proof (frac_mono coefs (0, 0) (len, 0) n_poly_points NPP P 0%nat (S l) ltac:(lia)). nra. }
  split; [exact E1|]. split; [exact L|]. split; [exact I|].
  replace (Nat.eqb 0 (n - 1)) with false by (symmetry; apply Nat.eqb_neq; lia). rewrite Nat.eqb_refl, T0.
  split; [ring|]. split; [reflexivity|]. split.
  - intros k K. replace (Nat.eqb k (n - 1)) with false by (symmetry; apply Nat.eqb_neq; lia). destruct (Nat.eqb_spec (S k) (n - 1)) as [Q|Q].
    + pose proof (node_param_range coefs (0, 0) (len, 0) n_poly_points NPP P _ (V k K)) as B. fold (t k) in B. nra.
    + apply Rmult_lt_compat_l; auto. unfold t. apply node_param_mono; auto; try apply V; try lia.
      apply Rmult_lt_compat_r; [apply Rinv_0_lt_compat; auto|]. rewrite S_INR. lra.
  - intros k c K C. destruct (edge_def_ends _ _ _ _ _ _ _ _ _ _ _ _ _ D N E1 c C) as [A B]. fold e in A, B.
    destruct (Nat.eqb_spec k (n - 1)) as [->|K1].
    + rewrite B, I2. pose proof (from_local_edge d cd i j r c D EF C) as FL. cbv zeta in FL. fold e len in FL. lra.
    + destruct (Nat.eq_dec k 0) as [->|K0]; [rewrite A, T0, Rmult_0_r, I1; ring|].
      rewrite (E2 k) by lia. unfold node_at. rewrite param_x_eq. fold (t k). cbn [fst snd]. rewrite Rabs_R0.
      replace (0 + (len - 0) * t k) with (len * t k) by ring.
      unfold from_local, vadd, mv, transpose. destruct D as [-> | ->]; cbn [rsum]; ring.
Qed.
(** ** The range of the displacements of an edge *)
Lemma outward_coordinate d cd i j r init x y nodek : d = 2%nat \/ d = 3%nat -> edge_frame d cd i j = Ok r ->
  (forall c, (c < d)%nat -> nodek c = init c + x * r 0%nat c + y * r 1%nat c) -> dot d (r 1%nat) (vsub nodek init) = y.
Proof.
  intros D EF H. destruct (edge_frame_orthonormal d cd i j r D EF) as (ROW & _ & _ & O).
  assert (A : dot d (r 1%nat) (r 1%nat) = 1 /\ dot d (r 1%nat) (r 0%nat) = 0).
  { destruct D as [-> | ->].
    - pose proof (O 0 0 ltac:(lia) ltac:(lia))%nat as O00. pose proof (O 0 1 ltac:(lia) ltac:(lia))%nat as O01. pose proof (O 1 1 ltac:(lia) ltac:(lia))%nat as O11.
      clear ROW H EF. unfold kron, dot in *. cbn [rsum Nat.eqb] in *. split; ns.
    - split; [apply (ROW 1%nat 1%nat)|apply (ROW 1%nat 0%nat)]; lia. }
  destruct A as [A1 A2].
  replace y with (x * dot d (r 1%nat) (r 0%nat) + y * dot d (r 1%nat) (r 1%nat)) by (rewrite A1, A2; ring).
  unfold dot. transitivity (rsum d (fun c => r 1%nat c * (x * r 0%nat c + y * r 1%nat c))).
  - apply rsum_ext. intros c C. unfold vsub. rewrite H by auto. ring.
  - clear. induction d as [|d IH]; cbn [rsum]; [ring|]. rewrite IH. ring.
Qed.
(** Up to order two, the outward displacement of every node relative to the
    segment between the displaced corners lies in the range of the edge. *)
Theorem edge_range_partial : forall solve d dims n cd i j order rng u normal r, solver_correct solve -> d = 2%nat \/ d = 3%nat -> (2 <= n)%nat ->
  edge_frame d cd i j = Ok r -> let e := nth j (edges d i) (0, 0)%nat in seen d r (ref_vector dims e) ->
  (order <= 2)%nat -> fst rng <= 0 <= snd rng -> (forall k, 0 <= u k <= 1) ->
  exists nodes, edge_def solve d dims 0 n cd i j order rng u normal = Ok nodes
  /\ forall k, (k <= n - 1)%nat -> fst rng <= dot d (r 1%nat) (vsub (nodes k) (cd (fst e))) <= snd rng.
Proof.
  intros solve d dims n cd i j order rng u normal r SC D N EF e SE O RG U.
  destruct (edge_nodes_on_curve solve d dims n cd i j order rng u normal r SC D N EF SE) as (nodes & coefs & xs & E1 & L & I & X0 & X1 & XM & E2).
  fold e in I, X1, E2. set (len := norm d (vsub (cd (snd e)) (cd (fst e)))) in *.
  exists nodes. split; auto. intros k K. rewrite (outward_coordinate d cd i j r (cd (fst e)) (xs k) (polynomial coefs (xs k))) by (auto; intros; apply E2; auto).
  destruct (edge_local_ends d cd i j r D EF) as (_ & _ & _ & P). fold e in P. fold len in P.
  assert (XR : 0 <= xs k <= len).
  { assert (MM : forall p q, (p <= q)%nat -> (q <= n - 1)%nat -> xs p <= xs q).
    { intros p q H. induction H; intros; [lra|]. specialize (XM m ltac:(lia)). specialize (IHle ltac:(lia)). lra. }
    pose proof (MM 0%nat k ltac:(lia) ltac:(lia)). pose proof (MM k (n - 1)%nat ltac:(lia) ltac:(lia)). lra. }
  pose proof (I (0, 0) ltac:(unfold control_points; cbn; auto)) as I0. pose proof (I (len, 0) ltac:(unfold control_points; cbn; auto)) as I1. cbn [fst snd] in I0, I1.
  assert (CASE : (order <= 1)%nat \/ order = 2%nat) by lia. destruct CASE as [O1| ->].
  - replace (2 + (order - 1))%nat with 2%nat in L by lia. destruct coefs as [|c0 [|c1 [|? ?]]]; cbn in L; try discriminate.
    rewrite polynomial_horner in *. cbn [horner] in *. assert (c0 = 0) by lra. assert (c1 = 0) by nra. subst. lra.
  - cbn in L. destruct coefs as [|c0 [|c1 [|c2 [|? ?]]]]; cbn in L; try discriminate.
    assert (M : In (linspace 0 len 3 1, uniform rng (u 0%nat)) (control_points 2 (0, 0) (len, 0) rng u)) by (unfold control_points; cbn; auto).
    apply I in M. cbn [fst snd] in M. replace (linspace 0 len 3 1) with (len / 2) in M by (unfold linspace; cbn; field).
    rewrite polynomial_horner in *. cbn [horner] in *. specialize (U 0%nat). unfold uniform in M.
    set (m := fst rng + (snd rng - fst rng) * u 0%nat) in *.
    assert (fst rng <= m <= snd rng) by (unfold m; nra).
    assert (c0 = 0) by lra. subst c0.
    assert (C1 : c1 = - len * c2). { apply (Rmult_eq_reg_l len); [|lra]. lra. }
    assert (C2 : c2 * (len * len) = - 4 * m) by (rewrite C1 in M; nra).
    assert (Y : 0 + xs k * (c1 + xs k * (c2 + xs k * 0)) = m * (4 * (xs k / len) * (1 - xs k / len))).
    { rewrite C1. replace m with (- (c2 * (len * len)) / 4) by (rewrite C2; field). field. lra. }
    rewrite Y. set (z := xs k / len). assert (Z : 0 <= z <= 1).
    { unfold z. split; [apply Rmult_le_pos; [lra|apply Rlt_le, Rinv_0_lt_compat; lra]|]. apply (Rmult_le_reg_r len); auto. unfold Rdiv. rewrite Rmult_assoc, Rinv_l by lra. lra. }
    assert (0 <= 4 * z * (1 - z) <= 1) by (pose proof (Rle_0_sqr (2 * z - 1)); unfold Rsqr in *; nra).
    set (w := 4 * z * (1 - z)) in *. nra.
Qed.
(** The middle of a symmetric curve. *)
Lemma rsum_rev n (f : nat -> R) : rsum n f = rsum n (fun i => f (n - 1 - i)%nat).
Proof.
  assert (SH : forall m (g : nat -> R), rsum (S m) g = g 0%nat + rsum m (fun i => g (S i))).
  { induction m as [|m IH]; intros g; [cbn; ring|]. change (rsum (S (S m)) g) with (rsum (S m) g + g (S m)). rewrite IH. cbn [rsum]. ring. }
  induction n as [|n IH]; [reflexivity|]. rewrite (SH n (fun i => f (S n - 1 - i)%nat)). cbn [rsum]. rewrite IH.
  replace (S n - 1 - 0)%nat with n by lia. rewrite Rplus_comm. f_equal. apply rsum_ext. intros i Hi. f_equal. lia.
Qed.
Lemma rsum_split n m (f : nat -> R) : rsum (n + m) f = rsum n f + rsum m (fun i => f (n + i)%nat).
Proof. induction m as [|m IH]; [rewrite Nat.add_0_r; cbn; ring|]. rewrite Nat.add_succ_r. cbn [rsum]. rewrite IH. ring. Qed.
Lemma node_param_middle coefs left right N : (2 <= N)%nat -> fst left < fst right ->
  (forall t, polynomial coefs (param_x left right t) = polynomial coefs (param_x left right (1 - t))) -> node_param coefs left right N (1 / 2) = 1 / 2.
Proof.
  intros HN HX SY. pose proof (total_pos coefs left right N HN HX) as TP. pose proof (N_pos N HN) as NP.
  assert (C : forall i, (i < N - 1)%nat -> chord coefs left right N i = chord coefs left right N (N - 1 - 1 - i)).
  { intros i I. unfold chord. f_equal.
    assert (T : forall q, (q <= N - 1)%nat -> INR (N - 1 - q) * point_step N = 1 - INR q * point_step N).
    { intros q Q. rewrite minus_INR by lia. unfold point_step. field. lra. }
    replace (S (N - 1 - 1 - i)) with (N - 1 - i)%nat by lia. replace (N - 1 - 1 - i)%nat with (N - 1 - S i)%nat by lia. rewrite !T by lia.
    rewrite <- !SY. rewrite !param_x_eq. ring. }
  assert (SYM : forall l, (l <= N - 1)%nat -> frac_point coefs left right N l + frac_point coefs left right N (N - 1 - l) = 1).
  { intros l L. unfold frac_point.
    assert (E : rsum l (chord coefs left right N) + rsum (N - 1 - l) (chord coefs left right N) = rsum (N - 1) (chord coefs left right N)).
    { rewrite (rsum_rev (N - 1 - l)). replace (rsum (N - 1) (chord coefs left right N)) with (rsum (l + (N - 1 - l)) (chord coefs left right N)) by (f_equal; lia).
      rewrite rsum_split. f_equal. apply rsum_ext. intros i I. rewrite C by lia. f_equal. lia. }
    rewrite <- Rmult_plus_distr_l, E. field. lra. }
  destruct (node_param_spec coefs left right N HN HX (1 / 2) ltac:(lra)) as (l & s & L & Hs & -> & E).
  pose proof (frac_step coefs left right N HN HX l) as FS.
  pose proof (SYM l ltac:(lia)) as S1. pose proof (SYM (S l) ltac:(lia)) as S2.
  assert (H2 : (INR l + s) * 2 = INR (N - 1)).
  { set (l' := (N - 1 - S l)%nat) in *. assert (EL : (N - 1 - l = S l')%nat) by (unfold l'; lia). rewrite EL in S1.
    assert (M : INR (N - 1) = INR l + INR l' + 1) by (rewrite <- plus_INR; change 1 with (INR 1); rewrite <- plus_INR; f_equal; unfold l'; lia).
    destruct (lt_eq_lt_dec l l') as [[Q|Q]|Q].
    - assert (F1 : frac_point coefs left right N (S l) <= frac_point coefs left right N l') by (destruct (Nat.eq_dec (S l) l') as [->|]; [lra|apply Rlt_le, frac_mono; auto; lia]). 
      exfalso. nra.
    - rewrite <- Q in *. rewrite M. assert (s = 1 / 2) by nra. subst s. lra.
    - assert (F1 : frac_point coefs left right N (S l') <= frac_point coefs left right N l) by (destruct (Nat.eq_dec (S l') l) as [->|]; [lra|apply Rlt_le, frac_mono; auto; lia]).
      assert (s = 0) by nra. subst s.
      assert (F2 : frac_point coefs left right N (S l') = frac_point coefs left right N l) by lra.
      assert (HQ : S l' = l). { destruct (lt_eq_lt_dec (S l') l) as [[Z|Z]|Z]; auto; [|lia]. pose proof (frac_mono coefs left right N HN HX _ _ Z). lra. }
      assert (INR l = INR l' + 1) by (rewrite <- S_INR; f_equal; auto). lra. }
  unfold point_step. replace (INR l + s) with (INR (N - 1) / 2) by lra. field. lra.
Qed.
