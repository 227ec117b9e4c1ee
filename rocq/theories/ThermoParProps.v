(** Temperature and composition dependent parameters: theorems. *)
From Coq Require Import Reals String List Bool Arith ZArith Lia Lra Psatz.
Import ListNotations.
From Verif Require Import Lib HardeningModel HardeningSpec HardeningProps StrainPathModel StrainPathProps ThermoParModel.
Local Open Scope list_scope.
Local Open Scope R_scope.

(** ** A complete polynomial, by Horner's rule. *)
Fixpoint horner (cs : list R) (x : R) : R :=
  match cs with [] => 0 | c :: t => c + x * horner t x end.
Lemma poly_from_horner cs x : forall i, poly_from i cs x = x ^ i * horner cs x.
Proof. induction cs as [|c t IH]; intros i; cbn [poly_from horner]; [ring|]. rewrite IH. cbn [pow]. ring. Qed.
Theorem polynomial_is_horner cs x : polynomial cs x = horner cs x.
Proof. unfold polynomial. rewrite poly_from_horner. cbn [pow]. ring. Qed.

(** ** Bilinear functions on a rectangle are bounded by their corners. *)
Lemma bilinear_corners a b c d x y X Y m :
  - X <= x <= X -> - Y <= y <= Y ->
  m < a + b * X + (c + d * X) * Y -> m < a + b * X - (c + d * X) * Y ->
  m < a - b * X + (c - d * X) * Y -> m < a - b * X - (c - d * X) * Y ->
  m < a + b * x + (c + d * x) * y.
Proof.
  intros Hx Hy H1 H2 H3 H4.
  assert (P : m < a + b * X + (c + d * X) * y) by (destruct (Rle_lt_dec 0 (c + d * X)); nra).
  assert (Q : m < a - b * X + (c - d * X) * y) by (destruct (Rle_lt_dec 0 (c - d * X)); nra).
  destruct (Rle_lt_dec 0 (b + d * y)); nra.
Qed.

(** The admissible temperatures and compositions, normalised. *)
Definition admissible (t c : R) : Prop := 25 <= t <= 625 /\ 0 <= c <= 1.
Lemma t_norm_range t : 25 <= t <= 625 -> - (16612 / 10000) <= t_norm t <= 16612 / 10000.
Proof. intros H. unfold t_norm. split; lra. Qed.
Lemma c_norm_range c : 0 <= c <= 1 -> - (15783 / 10000) <= c_norm c <= 15783 / 10000.
Proof. intros H. unfold c_norm. split; lra. Qed.

Ltac corners t c H :=
  let Ht := fresh in let Hc := fresh in
  pose proof (t_norm_range t (proj1 H)) as Ht; pose proof (c_norm_range c (proj2 H)) as Hc;
  rewrite ?polynomial_is_horner; cbn [horner];
  set (x := c_norm c) in *; set (y := t_norm t) in *.

Theorem young_bounds t c : admissible t c -> 80000 < young_of t c < 200000.
Proof.
  intros H. unfold young_of. corners t c H. split.
  - pose proof (bilinear_corners (135546/1000) (20186/1000) (-8489/1000) (936/1000) x y _ _ 80 H1 H0 ltac:(lra) ltac:(lra) ltac:(lra) ltac:(lra)). nra.
  - pose proof (bilinear_corners (-(135546/1000)) (-(20186/1000)) (8489/1000) (-(936/1000)) x y _ _ (-200) H1 H0 ltac:(lra) ltac:(lra) ltac:(lra) ltac:(lra)). nra.
Qed.
Theorem shear_bounds t c : admissible t c -> 30000 < shear_of t c < 80000.
Proof.
  intros H. unfold shear_of. corners t c H. split.
  - pose proof (bilinear_corners (52891/1000) (8843/1000) (-3340/1000) (405/1000) x y _ _ 30 H1 H0 ltac:(lra) ltac:(lra) ltac:(lra) ltac:(lra)). nra.
  - pose proof (bilinear_corners (-(52891/1000)) (-(8843/1000)) (3340/1000) (-(405/1000)) x y _ _ (-80) H1 H0 ltac:(lra) ltac:(lra) ltac:(lra) ltac:(lra)). nra.
Qed.
(** 1.2 < E/(2G) < 1.4 *)
Lemma moduli_ratio t c : admissible t c ->
  24 / 10 * shear_of t c < young_of t c /\ young_of t c < 28 / 10 * shear_of t c.
Proof.
  intros H. unfold shear_of, young_of. corners t c H. split.
  - pose proof (bilinear_corners (135546/1000 - 24/10*(52891/1000)) (20186/1000 - 24/10*(8843/1000))
      (-8489/1000 - 24/10*(-3340/1000)) (936/1000 - 24/10*(405/1000)) x y _ _ 0 H1 H0 ltac:(lra) ltac:(lra) ltac:(lra) ltac:(lra)). nra.
  - pose proof (bilinear_corners (28/10*(52891/1000) - 135546/1000) (28/10*(8843/1000) - 20186/1000)
      (28/10*(-3340/1000) - -8489/1000) (28/10*(405/1000) - 936/1000) x y _ _ 0 H1 H0 ltac:(lra) ltac:(lra) ltac:(lra) ltac:(lra)). nra.
Qed.
Theorem poisson_bounds t c : admissible t c -> 2 / 10 < poisson_of t c < 4 / 10.
Proof.
  intros H. destruct (moduli_ratio t c H) as [L U]. pose proof (shear_bounds t c H) as G.
  unfold poisson_of. set (e := young_of t c) in *. set (g := shear_of t c) in *.
  assert (E : e / (2 * g) = e * / (2 * g)) by reflexivity. rewrite E.
  assert (P : 0 < / (2 * g)) by (apply Rinv_0_lt_compat; lra).
  assert (I : 2 * g * / (2 * g) = 1) by (apply Rinv_r; lra). nra.
Qed.
(** Isotropy: the shear modulus is E / (2 (1 + v)). *)
Theorem shear_isotropic t c : admissible t c -> shear_of t c = young_of t c / (2 * (1 + poisson_of t c)).
Proof.
  intros H. pose proof (shear_bounds t c H). pose proof (young_bounds t c H). unfold poisson_of.
  set (e := young_of t c) in *. set (g := shear_of t c) in *.
  replace (2 * (1 + (e / (2 * g) - 1))) with (e / g) by (field; lra). field. lra.
Qed.

Theorem yield_bounds t c : admissible t c -> 300 < yield_of t c.
Proof.
  intros H. unfold yield_of. corners t c H.
  match goal with |- 300 < ?a * exp ?b + ?p => assert (A : 0 < a) by nra; pose proof (exp_pos b);
    assert (P : 300 < p); [|assert (0 < a * exp b) by (apply Rmult_lt_0_compat; auto); lra] end.
  assert (SX : 0 <= x * x <= 24911/10000) by nra.
  nra.
Qed.
Theorem slope_bounds t c : admissible t c -> 3000 < slope_of t c.
Proof.
  intros H. unfold slope_of. corners t c H.
  pose proof (bilinear_corners (72537/10) (22131/10) (-687/10) (-577/10) x y _ _ 3000 H1 H0 ltac:(lra) ltac:(lra) ltac:(lra) ltac:(lra)). nra.
Qed.

(** ** The table *)
Lemma n_hard_big : (2 <= n_hard)%nat.
Proof. apply Nat.leb_le. vm_compute. reflexivity. Qed.
Lemma hard_len s0 s1 : length (hard_table s0 s1) = n_hard.
Proof. unfold hard_table. rewrite map_length. apply StrainPathProps.linspace_len. Qed.
Lemma hard_nth s0 s1 i : (i < n_hard)%nat ->
  nth i (hard_table s0 s1) (0, 0) = (2 * INR i / INR (n_hard - 1), s0 + s1 * (2 * INR i / INR (n_hard - 1))).
Proof.
  intros H. unfold hard_table.
  rewrite (nth_indep _ (0, 0) ((fun x => (x, s0 + s1 * x)) 0)) by (rewrite map_length, StrainPathProps.linspace_len; auto).
  rewrite (map_nth (fun x => (x, s0 + s1 * x))). rewrite StrainPathProps.linspace_nth by auto.
  replace (0 + INR i * ((2 - 0) / INR (n_hard - 1))) with (2 * INR i / INR (n_hard - 1)) by (unfold Rdiv; ring). reflexivity.
Qed.
Lemma n_hard_pos : 0 < INR (n_hard - 1).
Proof. apply lt_0_INR. pose proof n_hard_big. lia. Qed.
Lemma hard_grid_lt i j : (i < j)%nat -> 2 * INR i / INR (n_hard - 1) < 2 * INR j / INR (n_hard - 1).
Proof.
  intros H. apply lt_INR in H. pose proof n_hard_pos. unfold Rdiv. apply Rmult_lt_compat_r; [apply Rinv_0_lt_compat; auto|lra].
Qed.
Lemma hard_last : 2 * INR (n_hard - 1) / INR (n_hard - 1) = 2.
Proof. pose proof n_hard_pos. field. lra. Qed.
Theorem hard_table_ascending s0 s1 : ascending (hard_table s0 s1).
Proof.
  intros i j H1 H2. rewrite hard_len in H2. rewrite !hard_nth by lia. cbn [fst]. now apply hard_grid_lt.
Qed.

(** The tabulated law is the linear law up to a plastic strain of 2 and
    constant beyond; negative strains count as zero. *)
Theorem hard_table_law s0 s1 acc : exists h,
  piecewise_linear (hard_table s0 s1) acc = Ok (s0 + s1 * Rmin 2 (Rmax acc 0), Fin h) /\
  (0 < acc < 2 -> h = s1) /\ (acc <= 0 \/ 2 <= acc -> h = 0).
Proof.
  pose proof n_hard_big as NB. pose proof n_hard_pos as NP.
  assert (L2 : (2 <= length (hard_table s0 s1))%nat) by (rewrite hard_len; auto).
  destruct (pl_law_on_curve (hard_table s0 s1) L2 (hard_table_ascending s0 s1) acc) as (y & h & E & C & F & SL).
  rewrite hard_len in *.
  assert (Z0 : 2 * INR 0 / INR (n_hard - 1) = 0) by (simpl; unfold Rdiv; ring).
  assert (CH : forall k, (S k < n_hard)%nat -> chord (hard_table s0 s1) k = s1).
  { intros k Hk. unfold chord. rewrite !hard_nth by lia. cbn [fst snd].
    pose proof (hard_grid_lt k (S k) ltac:(lia)) as G.
    set (p := 2 * INR k / INR (n_hard - 1)) in *. set (q := 2 * INR (S k) / INR (n_hard - 1)) in *.
    field. lra. }
  unfold relu in *. exists h. split; [|split].
  - rewrite E. f_equal. f_equal. destruct C as [[C1 C2]|[[C1 C2]|(k & K1 & K2 & K3)]].
    + rewrite hard_nth in * by lia. cbn [fst snd] in *. rewrite Z0 in *.
      pose proof (Rmax_r acc 0). replace (Rmax acc 0) with 0 by lra. rewrite Rmin_right by lra. exact C2.
    + rewrite hard_len in *. rewrite hard_nth in * by lia. cbn [fst snd] in *. rewrite hard_last in *.
      rewrite Rmin_left by lra. exact C2.
    + rewrite hard_len in *. rewrite CH in K3 by auto. rewrite !hard_nth in * by lia. cbn [fst snd] in *.
      assert (2 * INR (S k) / INR (n_hard - 1) <= 2).
      { apply Rle_trans with (2 * INR (n_hard - 1) / INR (n_hard - 1)); [|rewrite hard_last; lra]. unfold Rdiv. apply Rmult_le_compat_r; [left; now apply Rinv_0_lt_compat|].
        apply Rmult_le_compat_l; [lra|]. apply le_INR. lia. }
      rewrite Rmin_right by lra. rewrite K3. ring.
  - intros H. rewrite Rmax_left in * by lra.
    destruct (locate (hard_table s0 s1) ltac:(rewrite hard_len; auto) acc (n_hard - 1)) as (k & K1 & K2).
    + rewrite hard_len. lia.
    + rewrite hard_nth by lia. cbn [fst]. lra.
    + rewrite hard_nth by lia. cbn [fst]. rewrite hard_last. lra.
    + rewrite (SL k); [apply CH; lia|lia|exact K2|]. rewrite hard_nth by lia. cbn [fst]. lra.
  - intros H. apply F. rewrite !hard_nth by lia. cbn [fst]. rewrite hard_last, Z0.
    destruct H; [left; rewrite Rmax_right by lra; lra|right]. rewrite Rmax_left by lra. lra.
Qed.

(** ** Parameters *)
Theorem parameters_accepted name t c :
  (exists p, get_model_parameters name t c = Ok p) <-> name = "von_mises"%string /\ admissible t c.
Proof.
  unfold get_model_parameters, admissible. destruct (String.eqb_spec name "von_mises") as [->|N].
  2: { split; [intros [p P]; discriminate|tauto]. }
  destruct (rltb t 25) eqn:A; [apply rltb_iff in A; split; [intros [p P]; discriminate|lra]|].
  destruct (rltb 625 t) eqn:B; [apply rltb_iff in B; split; [intros [p P]; discriminate|lra]|].
  destruct (rltb c 0) eqn:C; [apply rltb_iff in C; split; [intros [p P]; discriminate|lra]|].
  destruct (rltb 1 c) eqn:D; [apply rltb_iff in D; split; [intros [p P]; discriminate|lra]|].
  apply rltb_false in A, B, C, D. cbn [orb]. split; [intros _; repeat split; auto|intros _; eauto].
Qed.
Theorem parameters_refused name t c :
  get_model_parameters name t c = Err RuntimeError <-> ~ (name = "von_mises"%string /\ admissible t c).
Proof.
  rewrite <- parameters_accepted. split; [intros -> [p P]; discriminate|].
  intros H. unfold get_model_parameters in *.
  destruct (String.eqb name "von_mises"); auto.
  destruct (rltb t 25 || rltb 625 t); auto. destruct (rltb c 0 || rltb 1 c); auto.
  exfalso. apply H. eauto.
Qed.
(** Every parameter set that is returned is a well posed isotropic material
    with linear strain hardening. *)
Theorem parameters_well_posed name t c p : get_model_parameters name t c = Ok p ->
  80000 < young p < 200000 /\ 2 / 10 < poisson p < 4 / 10 /\
  young p / (2 * (1 + poisson p)) = shear_of t c /\
  length (hard_points p) = n_hard /\ ascending (hard_points p) /\ nondecreasing (hard_points p) /\
  (forall i, (i < n_hard)%nat -> 300 < snd (nth i (hard_points p) (0, 0))) /\
  exists s0 s1, 300 < s0 /\ 3000 < s1 /\ forall acc, 0 < acc < 2 ->
    piecewise_linear (hard_points p) acc = Ok (s0 + s1 * acc, Fin s1).
Proof.
  intros E. destruct (proj1 (parameters_accepted name t c) (ex_intro _ p E)) as [-> A].
  unfold get_model_parameters in E. rewrite String.eqb_refl in E.
  destruct (rltb t 25 || rltb 625 t); [discriminate|]. destruct (rltb c 0 || rltb 1 c); [discriminate|].
  injection E as <-. cbn [young poisson hard_points].
  pose proof (yield_bounds t c A) as Y. pose proof (slope_bounds t c A) as SB.
  split; [now apply young_bounds|]. split; [now apply poisson_bounds|]. split; [symmetry; now apply shear_isotropic|].
  split; [apply hard_len|]. split; [apply hard_table_ascending|]. split; [|split].
  - intros i H. rewrite hard_len in H. rewrite !hard_nth by lia. cbn [snd].
    pose proof (hard_grid_lt i (S i) ltac:(lia)). nra.
  - intros i H. rewrite hard_nth by lia. cbn [snd].
    assert (0 <= 2 * INR i / INR (n_hard - 1)).
    { unfold Rdiv. apply Rmult_le_pos; [pose proof (pos_INR i); lra|left; apply Rinv_0_lt_compat, n_hard_pos]. }
    nra.
  - exists (yield_of t c), (slope_of t c). split; auto. split; auto. intros acc H.
    destruct (hard_table_law (yield_of t c) (slope_of t c) acc) as (h & Q & I & _). rewrite Q, I by auto.
    rewrite Rmax_left, Rmin_right by lra. reflexivity.
Qed.
(** Hardening stops at a plastic strain of two. *)
Theorem hardening_saturates_refuted : exists s0 s1 acc,
  300 < s0 /\ 3000 < s1 /\ 2 < acc /\
  exists y, piecewise_linear (hard_table s0 s1) acc = Ok (y, Fin 0) /\ y < s0 + s1 * acc.
Proof.
  exists 301, 3001, 3. split; [lra|]. split; [lra|]. split; [lra|].
  destruct (hard_table_law 301 3001 3) as (h & E & _ & Z). rewrite E, Z by lra.
  eexists. split; [reflexivity|]. rewrite Rmax_left, Rmin_left by lra. lra.
Qed.

(** ** Neighbourhood sampling *)
Definition least_at (l : list R) (k : nat) : Prop :=
  (k < length l)%nat /\ (forall j, (j < length l)%nat -> nth k l 0 <= nth j l 0) /\
  (forall j, (j < k)%nat -> nth k l 0 < nth j l 0).
Lemma argmin_from_spec t : forall pre best, least_at pre best ->
  least_at (pre ++ t) (argmin_from t (length pre) best (nth best pre 0)).
Proof.
  induction t as [|y t IH]; intros pre best (B & M & F); cbn [argmin_from].
  { rewrite app_nil_r. repeat split; auto. }
  replace (pre ++ y :: t) with ((pre ++ [y]) ++ t) by (rewrite <- app_assoc; reflexivity).
  assert (LN : length (pre ++ [y]) = S (length pre)) by (rewrite app_length; simpl; lia).
  assert (NP : forall j, (j < length pre)%nat -> nth j (pre ++ [y]) 0 = nth j pre 0) by (intros; now rewrite app_nth1).
  assert (NY : nth (length pre) (pre ++ [y]) 0 = y) by (rewrite app_nth2, Nat.sub_diag by lia; reflexivity).
  destruct (rltb y (nth best pre 0)) eqn:E.
  - apply rltb_iff in E. rewrite <- NY at 2. rewrite <- LN. apply IH. repeat split.
    + rewrite LN. lia.
    + intros j Hj. rewrite LN in Hj. rewrite NY. destruct (Nat.eq_dec j (length pre)) as [->|]; [rewrite NY; lra|].
      rewrite NP by lia. pose proof (M j ltac:(lia)). lra.
    + intros j Hj. rewrite NY, NP by lia. pose proof (M j ltac:(lia)). lra.
  - apply rltb_false in E. rewrite <- (NP best) by lia. rewrite <- LN. apply IH. repeat split.
    + rewrite LN. lia.
    + intros j Hj. rewrite LN in Hj. rewrite (NP best) by lia.
      destruct (Nat.eq_dec j (length pre)) as [->|]; [rewrite NY; lra|]. rewrite NP by lia. apply M. lia.
    + intros j Hj. rewrite !NP by lia. auto.
Qed.
Theorem argmin_least l : l <> [] -> least_at l (argmin l).
Proof.
  destruct l as [|y t]; [congruence|]. intros _. apply (argmin_from_spec t [y] 0).
  repeat split; simpl; [lia| |lia]. intros j Hj. destruct j; [lra|lia].
Qed.

Definition increasing (l : list R) : Prop := forall i j, (i < j)%nat -> (j < length l)%nat -> nth i l 0 < nth j l 0.
Lemma closest_is_itself l k : increasing l -> (k < length l)%nat ->
  argmin (map (fun y => Rabs (y - nth k l 0)) l) = k.
Proof.
  intros I H. set (f := fun y => Rabs (y - nth k l 0)).
  assert (N : map f l <> []) by (destruct l; simpl in *; [lia|congruence]).
  destruct (argmin_least _ N) as (A & B & _). rewrite map_length in *.
  assert (NT : forall j, (j < length l)%nat -> nth j (map f l) 0 = f (nth j l 0)).
  { intros j Hj. rewrite (nth_indep _ 0 (f 0)) by (rewrite map_length; auto). apply map_nth. }
  set (a := argmin (map f l)) in *. pose proof (B k H) as Q. rewrite !NT in Q by auto. unfold f in Q.
  rewrite Rminus_diag_eq with (r1 := nth k l 0) in Q by auto. rewrite Rabs_R0 in Q.
  destruct (Nat.eq_dec a k); auto. exfalso.
  assert (D : nth a l 0 - nth k l 0 <> 0).
  { destruct (Nat.lt_gt_cases a k) as [[L|L] _]; auto; [pose proof (I a k L H)|pose proof (I k a L A)]; lra. }
  pose proof (Rabs_pos_lt _ D). lra.
Qed.
Lemma uniform_between a b u : 0 <= u <= 1 -> Rmin a b <= uniform a b u <= Rmax a b.
Proof.
  intros H. unfold uniform, Rmin, Rmax. destruct (Rle_dec a b); nra.
Qed.

(** On a strictly increasing grid the draw lies between the two neighbours of
    the grid value (one side at the ends). *)
Theorem draw_between_neighbours l k u : increasing l -> (k < length l)%nat -> 0 <= u <= 1 ->
  nth (k - 1) l 0 <= neighbour_draw l (nth k l 0) u <= nth (Nat.min (k + 1) (length l - 1)) l 0.
Proof.
  intros I H U. unfold neighbour_draw, nb_low, nb_up. rewrite closest_is_itself by auto.
  assert (LE : nth (k - 1) l 0 <= nth (Nat.min (k + 1) (length l - 1)) l 0).
  { destruct (Nat.eq_dec (k - 1) (Nat.min (k + 1) (length l - 1))) as [->|]; [lra|]. left. apply I; lia. }
  pose proof (uniform_between (nth (k - 1) l 0) (nth (Nat.min (k + 1) (length l - 1)) l 0) u U) as B.
  rewrite Rmin_left, Rmax_right in B by auto. exact B.
Qed.
(** The ends of the neighbourhood are reachable: every value of it is a draw. *)
Theorem draw_covers_neighbourhood l k v : increasing l -> (k < length l)%nat ->
  nth (k - 1) l 0 <= v <= nth (Nat.min (k + 1) (length l - 1)) l 0 ->
  exists u, 0 <= u <= 1 /\ neighbour_draw l (nth k l 0) u = v.
Proof.
  intros I H V. unfold neighbour_draw, nb_low, nb_up. rewrite closest_is_itself by auto. unfold uniform.
  set (a := nth (k - 1) l 0) in *. set (b := nth (Nat.min (k + 1) (length l - 1)) l 0) in *.
  destruct (Req_dec a b) as [E|E].
  - exists 0. split; [lra|]. lra.
  - exists ((v - a) / (b - a)). assert (0 < b - a) by lra. split.
    + split; [apply Rmult_le_pos; [lra|left; now apply Rinv_0_lt_compat]|].
      apply (Rmult_le_reg_r (b - a)); auto. unfold Rdiv. rewrite Rmult_assoc, Rinv_l by lra. lra.
    + field. lra.
Qed.
(** Whatever the order of the grid, a draw stays within the bounds of the grid. *)
Theorem draw_in_bounds l x u lo hi : l <> [] -> 0 <= u <= 1 ->
  (forall y, In y l -> lo <= y <= hi) -> lo <= neighbour_draw l x u <= hi.
Proof.
  intros N U B. unfold neighbour_draw.
  assert (NM : map (fun y => Rabs (y - x)) l <> []) by (destruct l; simpl; congruence).
  destruct (argmin_least _ NM) as (A & _). rewrite map_length in A.
  assert (B1 : lo <= nth (nb_low l x) l 0 <= hi) by (apply B, nth_In; unfold nb_low; lia).
  assert (B2 : lo <= nth (nb_up l x) l 0 <= hi) by (apply B, nth_In; unfold nb_up; lia).
  pose proof (uniform_between (nth (nb_low l x) l 0) (nth (nb_up l x) l 0) u U) as Q.
  unfold Rmin, Rmax in Q. destruct (Rle_dec _ _); lra.
Qed.
(** Hence the material of a sample always exists when the grid is admissible. *)
Theorem sample_material_exists ty temps comps t c u v :
  (forall y, In y temps -> 25 <= y <= 625) -> (forall y, In y comps -> 0 <= y <= 1) ->
  In t temps -> In c comps -> 0 <= u <= 1 -> 0 <= v <= 1 ->
  exists p, get_model_parameters "von_mises" (effective ty temps t u) (effective ty comps c v) = Ok p.
Proof.
  intros T C It Ic U V. apply parameters_accepted. split; auto. unfold effective.
  destruct (is_neighbour_type ty).
  - split; apply draw_in_bounds; auto; intros ->; contradiction.
  - split; auto.
Qed.
(** Training samples are taken on the grid. *)
Theorem training_on_grid l x u : effective "training" l x u = x.
Proof. reflexivity. Qed.
(** A repeated temperature is resolved to its first position, so that the draw
    of the last copy misses the neighbour above it. *)
Theorem repeated_value_refuted : exists l k u, (forall i, (S i < length l)%nat -> nth i l 0 <= nth (S i) l 0) /\
  (S k < length l)%nat /\ nth (nb_up l (nth k l 0)) l 0 < nth (S k) l 0 /\
  neighbour_draw l (nth k l 0) u < nth k l 0 /\ 0 <= u <= 1.
Proof.
  exists [100; 200; 200; 300], 2%nat, 0. split.
  { intros i Hi. simpl in Hi. destruct i as [|[|[|i]]]; simpl; lra || lia. }
  split; [simpl; lia|].
  assert (A : argmin (map (fun y => Rabs (y - nth 2 [100; 200; 200; 300] 0)) [100; 200; 200; 300]) = 1%nat).
  { cbn [map nth]. replace (100 - 200) with (-100) by lra. replace (200 - 200) with 0 by lra. replace (300 - 200) with 100 by lra.
    rewrite Rabs_R0, (Rabs_right 100), (Rabs_left (-100)) by lra. unfold argmin, argmin_from, rltb.
    repeat match goal with |- context [Rlt_dec ?a ?b] => destruct (Rlt_dec a b); try lra end. reflexivity. }
  unfold neighbour_draw, nb_up, nb_low. rewrite A. cbn. unfold uniform. lra.
Qed.

(** ** Cases *)
Example ex_params_25_0 : exists p, get_model_parameters "von_mises" 25 0 = Ok p /\ 80000 < young p.
Proof.
  destruct (proj2 (parameters_accepted "von_mises" 25 0)) as [p E]; [split; [reflexivity|split; lra]|].
  exists p. split; auto. apply (parameters_well_posed _ _ _ _ E).
Qed.
Example ex_hot_refused : get_model_parameters "von_mises" 700 (1 / 2) = Err RuntimeError.
Proof. apply parameters_refused. unfold admissible. lra. Qed.
Example ex_draw_mid : 100 <= neighbour_draw [100; 200; 300] (nth 1 [100; 200; 300] 0) (1 / 3) <= 300.
Proof.
  apply (draw_between_neighbours [100; 200; 300] 1 (1 / 3)); [|simpl; lia|lra].
  intros i j H1 H2. simpl in H2. destruct j as [|[|[|j]]]; try lia; destruct i as [|[|i]]; try lia; simpl; lra.
Qed.

Print Assumptions parameters_well_posed.
Print Assumptions hard_table_law.
Print Assumptions draw_between_neighbours.
Print Assumptions sample_material_exists.
Print Assumptions repeated_value_refuted.
