(** Exactness of the Gauss quadrature rules (C09). *)
From Coq Require Import Reals List Arith Lia Lra.
From Coquelicot Require Import Coquelicot.
From Verif Require Import Lib ElementModel QuadratureModel QuadratureSpec.
Import ListNotations.
Local Open Scope R_scope.

(** * Integrals of monomials *)
Lemma is_RInt_pow a b k :
  is_RInt (fun x => x ^ k) a b (b ^ (S k) / INR (S k) - a ^ (S k) / INR (S k)).
Proof.
  assert (N : INR (S k) <> 0) by (apply not_0_INR; lia).
  apply (is_RInt_derive (fun x => x ^ (S k) / INR (S k)) (fun x => x ^ k)).
  - intros x _. auto_derive; auto. simpl pred. field. auto.
  - intros x _. apply (ex_derive_continuous (fun x => x ^ k)). auto_derive; auto.
Qed.

Definition mom (k : nat) : R := 1 ^ (S k) / INR (S k) - (-1) ^ (S k) / INR (S k).

Lemma is_RInt_mom k : is_RInt (fun x => x ^ k) (-1) 1 (mom k).
Proof. apply is_RInt_pow. Qed.

Lemma is_RInt_scal' (f : R -> R) a b k I :
  is_RInt f a b I -> is_RInt (fun x => k * f x) a b (k * I).
Proof. intros H. apply (is_RInt_scal f a b k I H). Qed.
Lemma is_RInt_plus' (f g : R -> R) a b I J :
  is_RInt f a b I -> is_RInt g a b J -> is_RInt (fun x => f x + g x) a b (I + J).
Proof. intros H K. apply (is_RInt_plus f g a b I J H K). Qed.
Lemma is_RInt_zero a b : is_RInt (fun _ => 0) a b 0.
Proof.
  evar_last; [apply (is_RInt_const a b (0:R))|].
  apply (Rmult_0_r (b - a)).
Qed.
Lemma is_RInt_ext' (f g : R -> R) a b I :
  (forall x, f x = g x) -> is_RInt f a b I -> is_RInt g a b I.
Proof. intros E H. apply (is_RInt_ext f g); auto. Qed.

(** * 1D rules *)
Definition s1 (r1 : rule) (k : nat) : R :=
  lsum (map (fun pw => snd pw * (nth 0 (fst pw) 0) ^ k) r1).

Lemma sqrt3_sq : sqrt 3 * sqrt 3 = 3.
Proof. apply sqrt_sqrt; lra. Qed.
Lemma sqrt3_neq0 : sqrt 3 <> 0.
Proof. intro H. pose proof sqrt3_sq. rewrite H in H0. lra. Qed.
Lemma sqrt35_sq : sqrt (3/5) * sqrt (3/5) = 3/5.
Proof. apply sqrt_sqrt; lra. Qed.
Lemma sqrt5_sq : sqrt 5 * sqrt 5 = 5.
Proof. apply sqrt_sqrt; lra. Qed.

Lemma inv_sqrt3_sq : / sqrt 3 * / sqrt 3 = / 3.
Proof. rewrite <- Rinv_mult, sqrt3_sq. auto. Qed.

(** Largest degree integrated exactly by the g-point rule. *)
Definition nominal (g : nat) : nat := (2 * g - 1)%nat.

Lemma gauss1d_moments g r1 k :
  gauss_quadrature_1d g = Ok r1 -> (k <= nominal g)%nat -> s1 r1 k = mom k.
Proof.
  unfold nominal. destruct g as [|[|[|[|g]]]]; simpl; intros H Hk; inversion H; subst; clear H;
    unfold s1, mom; simpl map; simpl lsum; cbn [fst snd nth].
  - destruct k as [|[|k]]; [simpl; field|simpl; field|lia].
  - pose proof inv_sqrt3_sq as Q. unfold Rdiv. set (u := / sqrt 3) in *.
    destruct k as [|[|[|[|k]]]]; try lia; simpl.
    + field.
    + field.
    + replace (1 * (-1 * u * (-1 * u * 1)) + (1 * (1 * u * (1 * u * 1)) + 0)) with (2 * (u * u)) by ring.
      rewrite Q. field.
    + field.
  - pose proof sqrt35_sq as Q. set (u := sqrt (3 / 5)) in *.
    assert (Q4 : u * u * (u * u) = 9 / 25) by (rewrite Q; field).
    destruct k as [|[|[|[|[|[|k]]]]]]; try lia; simpl.
    + field.
    + field.
    + replace (5 / 9 * (- u * (- u * 1)) + (8 / 9 * (0 * (0 * 1)) + (5 / 9 * (u * (u * 1)) + 0)))
        with (10 / 9 * (u * u)) by field. rewrite Q. field.
    + field.
    + replace (5 / 9 * (- u * (- u * (- u * (- u * 1)))) + (8 / 9 * (0 * (0 * (0 * (0 * 1)))) +
          (5 / 9 * (u * (u * (u * (u * 1)))) + 0))) with (10 / 9 * (u * u * (u * u))) by field.
      rewrite Q4. field.
    + field.
Qed.

Theorem gauss_1d_exact g r p :
  gauss_quadrature g Linear = Ok r -> deg1 (nominal g) p ->
  int_segment (eval1 p) (quad_sum r (fun c => eval1 p (pt c 0))).
Proof.
  intros H D. unfold int_segment, quad_sum, pt.
  assert (E : lsum (map (fun pw => snd pw * eval1 p (nth 0 (fst pw) 0)) r)
     = lsum (map (fun m => fst m * s1 r (snd m)) p)).
  { unfold eval1, s1. clear. induction r as [|[c w] r IH]; simpl.
    - symmetry. apply lsum_map_zero. intros; ring.
    - rewrite IH, <- lsum_map_scal, <- lsum_map_plus. apply lsum_map_ext. intros; ring. }
  rewrite E. clear E. simpl in H.
  induction p as [|[a k] p IH].
  - apply (is_RInt_zero).
  - simpl. unfold eval1. simpl. apply is_RInt_plus'.
    + apply is_RInt_scal'. rewrite (gauss1d_moments g r k H) by (apply (D (a, k)); simpl; auto).
      apply is_RInt_mom.
    + apply IH. intros m I. apply D; simpl; auto.
Qed.

(** * Product rules *)
Lemma divmod_block i j g : (j < g)%nat -> ((i * g + j) / g = i /\ (i * g + j) mod g = j)%nat.
Proof.
  intros H. split.
  - rewrite Nat.add_comm, Nat.div_add by lia. rewrite Nat.div_small by auto. lia.
  - rewrite Nat.add_comm, Nat.mod_add by lia. apply Nat.mod_small; auto.
Qed.

Definition term (r1 : rule) (k i : nat) : R :=
  snd (nth i r1 ([], 0)) * (nth 0 (fst (nth i r1 ([], 0))) 0) ^ k.

Lemma s1_rsum r1 k : s1 r1 k = rsum (length r1) (term r1 k).
Proof.
  unfold s1. rewrite lsum_nth, map_length. apply rsum_ext. intros i Hi.
  rewrite nth_indep with (d' := (fun pw : list R * R => snd pw * nth 0 (fst pw) 0 ^ k) ([], 0))
    by (rewrite map_length; auto).
  rewrite (map_nth (fun pw : list R * R => snd pw * nth 0 (fst pw) 0 ^ k)). reflexivity.
Qed.

Lemma grid2_moment r1 g a b :
  length r1 = g -> (0 < g)%nat ->
  quad_sum (uniform_grid r1 g 2 (g * g)) (fun c => pt c 0 ^ a * pt c 1 ^ b) = s1 r1 a * s1 r1 b.
Proof.
  intros L G. unfold quad_sum, uniform_grid. rewrite map_map. simpl.
  rewrite (lsum_map_seq (fun j => grid_weight r1 g 2 j * (pt (grid_point r1 g 2 j) 0 ^ a * pt (grid_point r1 g 2 j) 1 ^ b))).
  rewrite rsum_mul, !s1_rsum, L.
  rewrite (Rmult_comm (rsum g (term r1 a))), <- rsum_scal_r.
  apply rsum_ext. intros i Hi. rewrite <- rsum_scal. apply rsum_ext. intros j Hj.
  destruct (divmod_block i j g Hj) as [D M].
  unfold grid_weight, grid_point, pt. cbn [seq map nth fold_right Nat.pow].
  rewrite Nat.div_1_r, M, Nat.mul_1_r, D, (Nat.mod_small i g) by auto.
  unfold term. ring.
Qed.

Lemma grid3_moment r1 g a b c :
  length r1 = g -> (0 < g)%nat ->
  quad_sum (uniform_grid r1 g 3 (g * (g * g)))
    (fun x => pt x 0 ^ a * pt x 1 ^ b * pt x 2 ^ c) = s1 r1 a * s1 r1 b * s1 r1 c.
Proof.
  intros L G. unfold quad_sum, uniform_grid. rewrite map_map. simpl.
  rewrite (lsum_map_seq (fun j => grid_weight r1 g 3 j *
    (pt (grid_point r1 g 3 j) 0 ^ a * pt (grid_point r1 g 3 j) 1 ^ b * pt (grid_point r1 g 3 j) 2 ^ c))).
  rewrite rsum_mul, !s1_rsum, L.
  replace (rsum g (term r1 a) * rsum g (term r1 b) * rsum g (term r1 c))
    with (rsum g (term r1 c) * (rsum g (term r1 b) * rsum g (term r1 a))) by ring.
  rewrite <- rsum_scal_r. apply rsum_ext. intros k Hk.
  rewrite rsum_mul, <- rsum_scal_r, <- rsum_scal. apply rsum_ext. intros i Hi.
  rewrite <- rsum_scal, <- rsum_scal. apply rsum_ext. intros j Hj.
  replace (k * (g * g) + (i * g + j))%nat with ((k * g + i) * g + j)%nat by ring.
  destruct (divmod_block (k * g + i) j g Hj) as [D M].
  destruct (divmod_block k i g Hi) as [D2 M2].
  unfold grid_weight, grid_point, pt. cbn [seq map nth fold_right Nat.pow].
  rewrite Nat.div_1_r, M, !Nat.mul_1_r, D, M2.
  rewrite <- Nat.div_div, D, D2, (Nat.mod_small k g) by lia.
  unfold term. ring.
Qed.

Lemma gauss1d_length g r1 : gauss_quadrature_1d g = Ok r1 -> length r1 = g /\ (0 < g)%nat.
Proof. destruct g as [|[|[|[|g]]]]; simpl; intros H; inversion H; simpl; lia. Qed.

Lemma int_square_mono a b : int_square (fun x y => x ^ a * y ^ b) (mom a * mom b).
Proof.
  exists (fun x => x ^ a * mom b). split.
  - intros x. apply is_RInt_scal', is_RInt_mom.
  - apply (is_RInt_ext' (fun x => mom b * x ^ a)); [intros; ring|].
    rewrite Rmult_comm. apply is_RInt_scal', is_RInt_mom.
Qed.

Lemma int_square_scal f k I : int_square f I -> int_square (fun x y => k * f x y) (k * I).
Proof.
  intros (g & A & B). exists (fun x => k * g x). split; [intros|]; apply is_RInt_scal'; auto.
Qed.
Lemma int_square_plus f g I J : int_square f I -> int_square g J ->
  int_square (fun x y => f x y + g x y) (I + J).
Proof.
  intros (f' & A & B) (g' & C & D). exists (fun x => f' x + g' x).
  split; [intros|]; apply is_RInt_plus'; auto.
Qed.
Lemma int_square_zero : int_square (fun _ _ => 0) 0.
Proof. exists (fun _ => 0). split; [intros|]; apply is_RInt_zero. Qed.

Lemma int_cube_mono a b c :
  int_cube (fun x y z => x ^ a * y ^ b * z ^ c) (mom a * mom b * mom c).
Proof.
  exists (fun x => x ^ a * (mom b * mom c)). split.
  - intros x. destruct (int_square_scal _ (x ^ a) _ (int_square_mono b c)) as (g & A & B).
    exists g. split; auto. intros y. eapply is_RInt_ext'; [|apply A]. intros z. simpl. ring.
  - apply (is_RInt_ext' (fun x => (mom b * mom c) * x ^ a)); [intros; ring|].
    replace (mom a * mom b * mom c) with ((mom b * mom c) * mom a) by ring.
    apply is_RInt_scal', is_RInt_mom.
Qed.
Lemma int_cube_scal f k I : int_cube f I -> int_cube (fun x y z => k * f x y z) (k * I).
Proof.
  intros (g & A & B). exists (fun x => k * g x). split; [intros; apply int_square_scal; auto|].
  apply is_RInt_scal'; auto.
Qed.
Lemma int_cube_plus f g I J : int_cube f I -> int_cube g J ->
  int_cube (fun x y z => f x y z + g x y z) (I + J).
Proof.
  intros (f' & A & B) (g' & C & D). exists (fun x => f' x + g' x).
  split; [intros; apply int_square_plus; auto|]. apply is_RInt_plus'; auto.
Qed.
Lemma int_cube_zero : int_cube (fun _ _ _ => 0) 0.
Proof. exists (fun _ => 0). split; [intros; apply int_square_zero|apply is_RInt_zero]. Qed.

Lemma quad_sum_cons r (f g : list R -> R) k :
  quad_sum r (fun c => k * f c + g c) = k * quad_sum r f + quad_sum r g.
Proof.
  unfold quad_sum. rewrite <- lsum_map_scal, <- lsum_map_plus. apply lsum_map_ext. intros; ring.
Qed.
Lemma quad_sum_zero r : quad_sum r (fun _ => 0) = 0.
Proof. unfold quad_sum. apply lsum_map_zero. intros; ring. Qed.

(** Nominal degree (per variable) of the product rules. *)
Definition points_per_dim (n : nat) : nat :=
  match n with 1 => 1 | 4 | 8 => 2 | 9 | 27 => 3 | _ => 0 end%nat.

Theorem gauss_quadrilateral_exact n r p :
  gauss_quadrature n Quadrilateral = Ok r -> degv2 (nominal (points_per_dim n)) p ->
  int_square (eval2 p) (quad_sum r (fun c => eval2 p (pt c 0) (pt c 1))).
Proof.
  intros H D.
  assert (exists g r1, gauss_quadrature_1d g = Ok r1 /\ points_per_dim n = g /\
     r = uniform_grid r1 g 2 (g * g)) as (g & r1 & H1 & Hg & Hr).
  { destruct n as [|[|[|[|[|[|[|[|[|[|n]]]]]]]]]]; simpl in H; try discriminate;
      [exists 1%nat|exists 2%nat|exists 3%nat]; eexists; (split; [reflexivity|]); split; auto;
      inversion H; reflexivity. }
  rewrite Hg in D. subst r. destruct (gauss1d_length g r1 H1) as [L G].
  induction p as [|[a [e1 e2]] p IH].
  - unfold eval2. simpl. rewrite quad_sum_zero. apply int_square_zero.
  - unfold eval2. simpl. rewrite quad_sum_cons. apply int_square_plus.
    + apply int_square_scal. rewrite grid2_moment by auto.
      destruct (D (a, (e1, e2))) as [D1 D2]; [simpl; auto|]. simpl in D1, D2.
      rewrite !(gauss1d_moments g r1) by auto. apply int_square_mono.
    + apply IH. intros m I. apply D; simpl; auto.
Qed.

Theorem gauss_hexahedral_exact n r p :
  gauss_quadrature n Hexahedral = Ok r -> degv3 (nominal (points_per_dim n)) p ->
  int_cube (eval3 p) (quad_sum r (fun c => eval3 p (pt c 0) (pt c 1) (pt c 2))).
Proof.
  intros H D.
  assert (exists g r1, gauss_quadrature_1d g = Ok r1 /\ points_per_dim n = g /\
     r = uniform_grid r1 g 3 (g * (g * g))) as (g & r1 & H1 & Hg & Hr).
  { destruct n as [|[|[|[|[|[|[|[|[|[|[|[|[|[|[|[|[|[|[|[|[|[|[|[|[|[|[|[|n]]]]]]]]]]]]]]]]]]]]]]]]]]]]; simpl in H; try discriminate;
      [exists 1%nat|exists 2%nat|exists 3%nat]; eexists; (split; [reflexivity|]); split; auto;
      inversion H; reflexivity. }
  rewrite Hg in D. subst r. destruct (gauss1d_length g r1 H1) as [L G].
  induction p as [|[a [[e1 e2] e3]] p IH].
  - unfold eval3. simpl. rewrite quad_sum_zero. apply int_cube_zero.
  - unfold eval3. simpl. rewrite quad_sum_cons. apply int_cube_plus.
    + apply int_cube_scal. rewrite grid3_moment by auto.
      destruct (D (a, (e1, e2, e3))) as (D1 & D2 & D3); [simpl; auto|]. simpl in D1, D2, D3.
      rewrite !(gauss1d_moments g r1) by auto. apply int_cube_mono.
    + apply IH. intros m I. apply D; simpl; auto.
Qed.

(** * Simplices *)
Lemma int_triangle_scal f k I : int_triangle f I -> int_triangle (fun x y => k * f x y) (k * I).
Proof.
  intros (g & A & B). exists (fun x => k * g x). split; [intros|]; apply is_RInt_scal'; auto.
Qed.
Lemma int_triangle_plus f g I J : int_triangle f I -> int_triangle g J ->
  int_triangle (fun x y => f x y + g x y) (I + J).
Proof.
  intros (f' & A & B) (g' & C & D). exists (fun x => f' x + g' x).
  split; [intros|]; apply is_RInt_plus'; auto.
Qed.
Lemma int_triangle_zero : int_triangle (fun _ _ => 0) 0.
Proof. exists (fun _ => 0). split; [intros|]; apply is_RInt_zero. Qed.

(** Fundamental theorem for explicit primitives. *)
Lemma is_RInt_prim (F f : R -> R) a b :
  (forall x, is_derive F x (f x)) -> (forall x, continuous f x) ->
  is_RInt f a b (F b - F a).
Proof. intros H C. apply (is_RInt_derive F f); auto. Qed.

Lemma int_triangle_intro f F G v :
  (forall x y, is_derive (fun y => F x y) y (f x y)) ->
  (forall x y, continuous (fun y => f x y) y) ->
  (forall x, is_derive G x (F x (1 - x) - F x 0)) ->
  (forall x, continuous (fun x => F x (1 - x) - F x 0) x) ->
  v = G 1 - G 0 -> int_triangle f v.
Proof.
  intros H1 C1 H2 C2 ->. exists (fun x => F x (1 - x) - F x 0). split.
  - intros x. apply (is_RInt_prim (fun y => F x y)); auto.
  - apply is_RInt_prim; auto.
Qed.

Ltac cont := intros; apply @ex_derive_continuous; auto_derive; auto.
Ltac deriv := intros; auto_derive; auto; field.

(** Moments of total degree at most 2 over the reference triangle. *)
Definition tmom (a b : nat) : R := INR (fact a * fact b) / INR (fact (a + b + 2)).

Lemma int_triangle_mono a b :
  (a + b <= 2)%nat -> int_triangle (fun x y => x ^ a * y ^ b) (tmom a b).
Proof.
  intros H. unfold tmom.
  destruct a as [|[|[|a]]], b as [|[|[|b]]]; try (exfalso; lia); cbn [Nat.add fact Nat.mul].
  - apply (int_triangle_intro _ (fun x y => y) (fun x => x - x ^ 2 / 2)); [deriv|cont|deriv|cont|simpl; field].
  - apply (int_triangle_intro _ (fun x y => y ^ 2 / 2) (fun x => - (1 - x) ^ 3 / 6)); [deriv|cont|deriv|cont|simpl; field].
  - apply (int_triangle_intro _ (fun x y => y ^ 3 / 3) (fun x => - (1 - x) ^ 4 / 12)); [deriv|cont|deriv|cont|simpl; field].
  - apply (int_triangle_intro _ (fun x y => x * y) (fun x => x ^ 2 / 2 - x ^ 3 / 3)); [deriv|cont|deriv|cont|simpl; field].
  - apply (int_triangle_intro _ (fun x y => x * y ^ 2 / 2) (fun x => (x ^ 2 / 2 - 2 * x ^ 3 / 3 + x ^ 4 / 4) / 2)); [deriv|cont|deriv|cont|simpl; field].
  - apply (int_triangle_intro _ (fun x y => x ^ 2 * y) (fun x => x ^ 3 / 3 - x ^ 4 / 4)); [deriv|cont|deriv|cont|simpl; field].
Qed.

(** Nominal total degree of the simplex rules. *)
Definition simplex_degree (n : nat) : nat := match n with 1 => 1 | _ => 2 end%nat.

Theorem gauss_triangular_exact n r p :
  gauss_quadrature n Triangular = Ok r -> degt2 (simplex_degree n) p ->
  int_triangle (eval2 p) (quad_sum r (fun c => eval2 p (pt c 0) (pt c 1))).
Proof.
  intros H D.
  assert (M : forall a b, (a + b <= simplex_degree n)%nat ->
     quad_sum r (fun c => pt c 0 ^ a * pt c 1 ^ b) = tmom a b).
  { intros a b Hab.
    assert (n = 1 \/ n = 3)%nat as [-> | ->].
    { destruct n as [|[|[|[|n]]]]; simpl in H; try discriminate; auto. }
    - simpl in H. inversion H; subst. simpl in Hab. unfold quad_sum, pt, tmom.
      destruct a as [|[|a]], b as [|[|b]]; try (exfalso; lia); simpl; field.
    - simpl in H. inversion H; subst. simpl in Hab. unfold quad_sum, pt, tmom.
      destruct a as [|[|[|a]]], b as [|[|[|b]]]; try (exfalso; lia); simpl; field. }
  assert (S : (simplex_degree n <= 2)%nat) by (destruct n as [|[|n]]; simpl; lia).
  induction p as [|[a [e1 e2]] p IH].
  - unfold eval2. simpl. rewrite quad_sum_zero. apply int_triangle_zero.
  - unfold eval2. simpl. rewrite quad_sum_cons.
    assert (D1 : (e1 + e2 <= simplex_degree n)%nat) by (apply (D (a, (e1, e2))); simpl; auto).
    apply int_triangle_plus.
    + apply int_triangle_scal. rewrite M by auto. apply int_triangle_mono. lia.
    + apply IH. intros m I. apply D; simpl; auto.
Qed.

Lemma int_tetra_scal f k I : int_tetra f I -> int_tetra (fun x y z => k * f x y z) (k * I).
Proof.
  intros (g & A & B). exists (fun x => k * g x). split; [|apply is_RInt_scal'; auto].
  intros x. destruct (A x) as (h & C & E). exists (fun y => k * h y).
  split; [intros|]; apply is_RInt_scal'; auto.
Qed.
Lemma int_tetra_plus f g I J : int_tetra f I -> int_tetra g J ->
  int_tetra (fun x y z => f x y z + g x y z) (I + J).
Proof.
  intros (f' & A & B) (g' & C & D). exists (fun x => f' x + g' x).
  split; [|apply is_RInt_plus'; auto].
  intros x. destruct (A x) as (h & A1 & A2), (C x) as (k & C1 & C2). exists (fun y => h y + k y).
  split; [intros|]; apply is_RInt_plus'; auto.
Qed.
Lemma int_tetra_zero : int_tetra (fun _ _ _ => 0) 0.
Proof.
  exists (fun _ => 0). split; [|apply is_RInt_zero]. intros x. exists (fun _ => 0).
  split; [intros|]; apply is_RInt_zero.
Qed.

Lemma int_tetra_intro f F G K v :
  (forall x y z, is_derive (fun z => F x y z) z (f x y z)) ->
  (forall x y z, continuous (fun z => f x y z) z) ->
  (forall x y, is_derive (fun y => G x y) y (F x y (1 - x - y) - F x y 0)) ->
  (forall x y, continuous (fun y => F x y (1 - x - y) - F x y 0) y) ->
  (forall x, is_derive K x (G x (1 - x) - G x 0)) ->
  (forall x, continuous (fun x => G x (1 - x) - G x 0) x) ->
  v = K 1 - K 0 -> int_tetra f v.
Proof.
  intros H1 C1 H2 C2 H3 C3 ->. exists (fun x => G x (1 - x) - G x 0). split.
  - intros x. exists (fun y => F x y (1 - x - y) - F x y 0). split.
    + intros y. apply (is_RInt_prim (fun z => F x y z)); auto.
    + apply (is_RInt_prim (fun y => G x y)); auto.
  - apply is_RInt_prim; auto.
Qed.

Definition ttmom (a b c : nat) : R := INR (fact a * fact b * fact c) / INR (fact (a + b + c + 3)).

Lemma int_tetra_mono a b c :
  (a + b + c <= 2)%nat -> int_tetra (fun x y z => x ^ a * y ^ b * z ^ c) (ttmom a b c).
Proof.
  intros H. unfold ttmom.
  destruct a as [|[|[|a]]], b as [|[|[|b]]], c as [|[|[|c]]]; try (exfalso; lia);
    cbn [Nat.add fact Nat.mul].
  - apply (int_tetra_intro _ (fun x y z => z) (fun x y => - (1 - x - y) ^ 2 / 2)
      (fun x => - (1 - x) ^ 3 / 6)); [deriv|cont|deriv|cont|deriv|cont|simpl; field].
  - apply (int_tetra_intro _ (fun x y z => z ^ 2 / 2) (fun x y => - (1 - x - y) ^ 3 / 6)
      (fun x => - (1 - x) ^ 4 / 24)); [deriv|cont|deriv|cont|deriv|cont|simpl; field].
  - apply (int_tetra_intro _ (fun x y z => z ^ 3 / 3) (fun x y => - (1 - x - y) ^ 4 / 12)
      (fun x => - (1 - x) ^ 5 / 60)); [deriv|cont|deriv|cont|deriv|cont|simpl; field].
  - apply (int_tetra_intro _ (fun x y z => y * z) (fun x y => (1 - x) * y ^ 2 / 2 - y ^ 3 / 3)
      (fun x => - (1 - x) ^ 4 / 24)); [deriv|cont|deriv|cont|deriv|cont|simpl; field].
  - apply (int_tetra_intro _ (fun x y z => y * z ^ 2 / 2)
      (fun x y => ((1 - x) ^ 2 * y ^ 2 / 2 - 2 * (1 - x) * y ^ 3 / 3 + y ^ 4 / 4) / 2)
      (fun x => - (1 - x) ^ 5 / 120)); [deriv|cont|deriv|cont|deriv|cont|simpl; field].
  - apply (int_tetra_intro _ (fun x y z => y ^ 2 * z) (fun x y => (1 - x) * y ^ 3 / 3 - y ^ 4 / 4)
      (fun x => - (1 - x) ^ 5 / 60)); [deriv|cont|deriv|cont|deriv|cont|simpl; field].
  - apply (int_tetra_intro _ (fun x y z => x * z) (fun x y => - x * (1 - x - y) ^ 2 / 2)
      (fun x => (x ^ 2 / 2 - 2 * x ^ 3 / 3 + x ^ 4 / 4) / 2)); [deriv|cont|deriv|cont|deriv|cont|simpl; field].
  - apply (int_tetra_intro _ (fun x y z => x * z ^ 2 / 2) (fun x y => - x * (1 - x - y) ^ 3 / 6)
      (fun x => (x ^ 2 / 2 - x ^ 3 + 3 * x ^ 4 / 4 - x ^ 5 / 5) / 6)); [deriv|cont|deriv|cont|deriv|cont|simpl; field].
  - apply (int_tetra_intro _ (fun x y z => x * y * z) (fun x y => x * ((1 - x) * y ^ 2 / 2 - y ^ 3 / 3))
      (fun x => (x ^ 2 / 2 - x ^ 3 + 3 * x ^ 4 / 4 - x ^ 5 / 5) / 6)); [deriv|cont|deriv|cont|deriv|cont|simpl; field].
  - apply (int_tetra_intro _ (fun x y z => x ^ 2 * z) (fun x y => - x ^ 2 * (1 - x - y) ^ 2 / 2)
      (fun x => (x ^ 3 / 3 - x ^ 4 / 2 + x ^ 5 / 5) / 2)); [deriv|cont|deriv|cont|deriv|cont|simpl; field].
Qed.

Theorem gauss_tetrahedral_exact n r p :
  gauss_quadrature n Tetrahedral = Ok r -> degt3 (simplex_degree n) p ->
  int_tetra (eval3 p) (quad_sum r (fun c => eval3 p (pt c 0) (pt c 1) (pt c 2))).
Proof.
  intros H D.
  assert (M : forall a b c, (a + b + c <= simplex_degree n)%nat ->
     quad_sum r (fun x => pt x 0 ^ a * pt x 1 ^ b * pt x 2 ^ c) = ttmom a b c).
  { intros a b c Hab.
    assert (n = 1 \/ n = 4)%nat as [-> | ->].
    { destruct n as [|[|[|[|[|n]]]]]; simpl in H; try discriminate; auto. }
    - simpl in H. inversion H; subst. simpl in Hab. unfold quad_sum, pt, ttmom.
      destruct a as [|[|a]], b as [|[|b]], c as [|[|c]]; try (exfalso; lia); simpl; field.
    - simpl in H. inversion H; subst. simpl in Hab. unfold quad_sum, pt, ttmom.
      pose proof sqrt5_sq as Q. set (u := sqrt 5) in *.
      assert (Q2 : u ^ 2 = 5) by (simpl; rewrite Rmult_1_r; auto).
      destruct a as [|[|[|a]]], b as [|[|[|b]]], c as [|[|[|c]]]; try (exfalso; lia);
        simpl map; simpl lsum; cbn [Nat.add fact Nat.mul]; cbn [fst snd nth]; simpl INR;
        field_simplify; rewrite ?Q2; field. }
  assert (S : (simplex_degree n <= 2)%nat) by (destruct n as [|[|n]]; simpl; lia).
  induction p as [|[a [[e1 e2] e3]] p IH].
  - unfold eval3. simpl. rewrite quad_sum_zero. apply int_tetra_zero.
  - unfold eval3. simpl. rewrite quad_sum_cons.
    assert (D1 : (e1 + e2 + e3 <= simplex_degree n)%nat) by (apply (D (a, (e1, e2, e3))); simpl; auto).
    apply int_tetra_plus.
    + apply int_tetra_scal. rewrite M by auto. apply int_tetra_mono. lia.
    + apply IH. intros m I. apply D; simpl; auto.
Qed.

(** Every admissible quadrature of every element is available and has the
    requested number of points, each in the reference dimension, and every
    other request is rejected. *)
Theorem element_quadrature_available ed n :
  In ed element_domains ->
  match element_quadrature ed n with
  | Ok r => In n (el_admissible_gauss (fst ed)) /\ length r = n /\
            (forall pw, In pw r -> length (fst pw) = el_n_dim (fst ed))
  | Err e => e = RuntimeError /\ ~ In n (el_admissible_gauss (fst ed))
  end.
Proof.
  intros H. unfold element_quadrature.
  destruct (existsb (Nat.eqb n) (el_admissible_gauss (fst ed))) eqn:E.
  - apply existsb_exists in E. destruct E as (m & I & E). apply Nat.eqb_eq in E. subst m.
    unfold element_domains in H. simpl in H.
    repeat destruct H as [<-|H]; try contradiction; simpl in I;
      repeat (destruct I as [<-|I]); try contradiction; simpl;
      (split; [tauto|]); (split; [reflexivity|]); intros pw K;
      repeat (destruct K as [<-|K]; [reflexivity|]); contradiction.
  - split; auto. intros I.
    assert (existsb (Nat.eqb n) (el_admissible_gauss (fst ed)) = true); [|congruence].
    apply existsb_exists. exists n. split; auto. apply Nat.eqb_refl.
Qed.

(** Non-vacuity: 9-point rule on x^5 y^2 - 3 x^4. *)
Example quad9_example :
  exists r, gauss_quadrature 9 Quadrilateral = Ok r /\
    degv2 (nominal (points_per_dim 9)) [(1, (5, 2)%nat); (-3, (4, 0)%nat)].
Proof.
  eexists. split; [reflexivity|]. intros m [<-|[<-|[]]]; simpl; unfold nominal; lia.
Qed.

(** Sharpness: the two-point rule does not integrate x^4. *)
Theorem gauss_1d_degree_sharp :
  exists r, gauss_quadrature 2 Linear = Ok r /\
   ~ int_segment (eval1 [(1, 4%nat)]) (quad_sum r (fun c => eval1 [(1, 4%nat)] (pt c 0))).
Proof.
  eexists. split; [reflexivity|]. intros H. unfold int_segment in H.
  assert (K : is_RInt (eval1 [(1, 4%nat)]) (-1) 1 (1 * mom 4 + 0)).
  { unfold eval1. simpl map. simpl lsum. apply is_RInt_plus'; [|apply is_RInt_zero].
    apply is_RInt_scal', (is_RInt_mom 4). }
  pose proof (is_RInt_unique _ _ _ _ H) as E1. pose proof (is_RInt_unique _ _ _ _ K) as E2.
  rewrite E1 in E2. unfold quad_sum, eval1, pt, mom in E2. simpl in E2.
  pose proof inv_sqrt3_sq as Q. unfold Rdiv in E2. set (u := / sqrt 3) in *.
  assert (Q4 : u * u * (u * u) = / 9) by (rewrite Q; field).
  assert (u * u * (u * u) = / 5) by (field_simplify in E2; nra). lra.
Qed.

Print Assumptions gauss_1d_exact.
Print Assumptions gauss_quadrilateral_exact.
Print Assumptions gauss_hexahedral_exact.
Print Assumptions gauss_tetrahedral_exact.
