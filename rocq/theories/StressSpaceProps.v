(** Stress paths in the principal stress space (C130). *)
From Coq Require Import Reals List Bool Arith Lia Lra Psatz Permutation.
From Verif Require Import Lib PyDict MatrixModel MatrixSpec TensorModel TensorSpec ElasticSpec FeaturesSpec ResponseModel ResponseProps YieldPlotModel YieldPlotProps StressSpaceModel.
Import ListNotations.
Local Open Scope list_scope.
Local Open Scope R_scope.

(** The three numbers are the eigenvalues, with multiplicity. *)
Definition eigenvalues_of (s : T2) (e : R * R * R) : Prop :=
  let '(a, b, c) := e in forall x, det3 (fun i j => x * ident i j - s i j) = (x - a) * (x - b) * (x - c).
Lemma cubic_coeffs a b c p q r : (forall x, x ^ 3 - a * x ^ 2 + b * x - c = (x - p) * (x - q) * (x - r)) ->
  a = p + q + r /\ b = p * q + q * r + r * p /\ c = p * q * r.
Proof. intros H. pose proof (H 0) as H0. pose proof (H 1) as H1. pose proof (H (-1)) as H2. ring_simplify in H0. ring_simplify in H1. ring_simplify in H2. repeat split; lra. Qed.
Lemma invariants_of_eigenvalues s a b c : eigenvalues_of s (a, b, c) -> let '((i1, _, _), (_, j2, j3)) := compute_stress_invariants s in
  i1 = a + b + c /\ j2 = ((a - b) ^ 2 + (b - c) ^ 2 + (c - a) ^ 2) / 6 /\ 4 * j2 ^ 3 - 27 * j3 ^ 2 = ((a - b) * (b - c) * (c - a)) ^ 2 /\
  27 * j3 = (2 * a - b - c) * (2 * b - c - a) * (2 * c - a - b).
Proof.
  intros E. pose proof (invariants_principal s) as P. unfold compute_stress_invariants in *.
  set (i1 := np_trace s) in *. set (i2 := 5 / 10 * (i1 ^ 2 - np_trace (np_matmul s s))) in *. set (i3 := np_det3 s) in *. cbv zeta in *.
  destruct P as [P _]. clearbody i3 i2 i1.
  assert (X : forall x, x ^ 3 - i1 * x ^ 2 + i2 * x - i3 = (x - a) * (x - b) * (x - c)) by (intros x; rewrite <- P; apply E).
  destruct (cubic_coeffs _ _ _ _ _ _ X) as (Y1 & Y2 & Y3). clear X P E. subst i1 i2 i3. split; [reflexivity|]. repeat split; field.
Qed.
(** ** Triaxiality and Lode parameter *)
(** They are defined when J2 is not below the tolerance; the Lode parameter lies
    between -1 and 1, the limits of the plot. *)
Theorem lode_bounds : forall s e t l, eigenvalues_of s e -> triax_lode s = Some (t, l) -> -1 <= l <= 1.
Proof.
  intros s [[a b] c] t l E H. pose proof (invariants_of_eigenvalues s a b c E) as P. unfold triax_lode in H.
  destruct (compute_stress_invariants s) as [[[i1 i2] i3] [[j1 j2] j3]]. destruct P as (_ & _ & D & _).
  destruct (Rlt_dec j2 triax_tol) as [|G]; [discriminate|]. injection H as _ <-. assert (J : 0 < j2) by (unfold triax_tol in G; lra). clear G.
  set (w := sqrt j2). assert (W : w * w = j2) by (apply sqrt_sqrt; lra). assert (W0 : 0 < w) by (apply sqrt_lt_R0; exact J).
  set (r := sqrt 3). assert (Q : r * r = 3) by (apply sqrt_sqrt; lra). assert (Q0 : 0 < r) by (apply sqrt_lt_R0; lra).
  assert (S : (3 * r / 2 * (j3 / (j2 * w))) ^ 2 <= 1).
  { replace ((3 * r / 2 * (j3 / (j2 * w))) ^ 2) with (9 * (r * r) / 4 * j3 ^ 2 / (j2 ^ 2 * (w * w))) by (field; lra). rewrite Q, W.
    assert (Z : 0 < j2 ^ 2 * j2) by (apply Rmult_lt_0_compat; [apply pow_lt|]; exact J).
    apply Rmult_le_reg_r with (j2 ^ 2 * j2); [exact Z|]. unfold Rdiv at 1. rewrite Rmult_assoc, Rinv_l by lra.
    assert (0 <= ((a - b) * (b - c) * (c - a)) ^ 2) by apply pow2_ge_0. nra. }
  set (l := 3 * r / 2 * (j3 / (j2 * w))) in *. split; nra.
Qed.
(** Triaxiality: mean stress over von Mises equivalent stress. *)
Theorem triax_mean : forall s a b c t l, eigenvalues_of s (a, b, c) -> triax_lode s = Some (t, l) ->
  t * sqrt (((a - b) ^ 2 + (b - c) ^ 2 + (c - a) ^ 2) / 2) = (a + b + c) / 3.
Proof.
  intros s a b c t l E H. pose proof (invariants_of_eigenvalues s a b c E) as P. unfold triax_lode in H.
  destruct (compute_stress_invariants s) as [[[i1 i2] i3] [[j1 j2] j3]]. destruct P as (I & J & _ & _).
  destruct (Rlt_dec j2 triax_tol) as [|G]; [discriminate|]. injection H as <- _. unfold triax_tol in G.
  replace (((a - b) ^ 2 + (b - c) ^ 2 + (c - a) ^ 2) / 2) with (3 * j2) by (rewrite J; field).
  assert (0 < sqrt (3 * j2)) by (apply sqrt_lt_R0; lra). rewrite I. field. lra.
Qed.
(** Lode parameter: 27 times the product of the principal deviatoric stresses
    over twice the cube of the equivalent stress. *)
Theorem lode_value : forall s a b c t l, eigenvalues_of s (a, b, c) -> triax_lode s = Some (t, l) ->
  let q := sqrt (((a - b) ^ 2 + (b - c) ^ 2 + (c - a) ^ 2) / 2) in
  l * (2 * q ^ 3) = (2 * a - b - c) * (2 * b - c - a) * (2 * c - a - b).
Proof.
  intros s a b c t l E H. pose proof (invariants_of_eigenvalues s a b c E) as P. unfold triax_lode in H.
  destruct (compute_stress_invariants s) as [[[i1 i2] i3] [[j1 j2] j3]]. destruct P as (_ & J & _ & V).
  destruct (Rlt_dec j2 triax_tol) as [|G]; [discriminate|]. injection H as _ <-. unfold triax_tol in G. cbv zeta.
  replace (((a - b) ^ 2 + (b - c) ^ 2 + (c - a) ^ 2) / 2) with (3 * j2) by (rewrite J; field). rewrite <- V.
  rewrite sqrt_mult by lra.
  set (w := sqrt j2). assert (W : w * w = j2) by (apply sqrt_sqrt; lra). assert (W0 : 0 < w) by (apply sqrt_lt_R0; lra).
  set (r := sqrt 3). assert (Q : r * r = 3) by (apply sqrt_sqrt; lra). assert (Q0 : 0 < r) by (apply sqrt_lt_R0; lra).
  rewrite <- W. transitivity (3 * (r * r) * (r * r) * j3); [field; lra|]. rewrite Q. ring.
Qed.
(** Points without triaxiality: J2 below the tolerance. *)
Theorem triax_nan_iff : forall s a b c, eigenvalues_of s (a, b, c) ->
  (triax_lode s = None <-> ((a - b) ^ 2 + (b - c) ^ 2 + (c - a) ^ 2) / 6 < 1 / 100000000).
Proof.
  intros s a b c E. pose proof (invariants_of_eigenvalues s a b c E) as P. unfold triax_lode.
  destruct (compute_stress_invariants s) as [[[i1 i2] i3] [[j1 j2] j3]]. destruct P as (_ & J & _ & _). rewrite <- J. fold triax_tol.
  destruct (Rlt_dec j2 triax_tol); split; intros H; try tauto; discriminate.
Qed.
Definition uniaxial (x : R) : T2 := fun i j => if (Nat.eqb i 0 && Nat.eqb j 0)%bool then x else 0.
Lemma uniaxial_eig x : eigenvalues_of (uniaxial x) (x, 0, 0).
Proof. intros y. unfold det3, uniaxial, ident. cbn. ring. Qed.
(** Uniaxial tension: triaxiality 1/3 and Lode parameter 1. *)
Theorem uniaxial_law : forall x, 0 < x -> 1 / 100000000 <= x ^ 2 / 3 -> triax_lode (uniaxial x) = Some (1 / 3, 1).
Proof.
  intros x X T. destruct (triax_lode (uniaxial x)) as [[t l]|] eqn:E.
  - pose proof (triax_mean _ _ _ _ _ _ (uniaxial_eig x) E) as H. pose proof (lode_value _ _ _ _ _ _ (uniaxial_eig x) E) as G. cbv zeta in G.
    replace (((x - 0) ^ 2 + (0 - 0) ^ 2 + (0 - x) ^ 2) / 2) with (x * x) in H, G by field. rewrite sqrt_square in H, G by lra.
    assert (0 < x ^ 3) by (apply pow_lt; exact X).
    f_equal. f_equal; [apply Rmult_eq_reg_r with x; lra|]. apply Rmult_eq_reg_r with (2 * x ^ 3); [|lra]. rewrite G. ring.
  - apply (triax_nan_iff _ _ _ _ (uniaxial_eig x)) in E. exfalso. lra.
Qed.
Example uniaxial_case : exists l, triax_lode (uniaxial 3) = Some (1 / 3, l).
Proof. exists 1. apply uniaxial_law; lra. Qed.
(** The tolerance is absolute: the same stress state in other units, such as a
    uniaxial stress of 100 Pa in MPa, has no triaxiality. *)
Theorem units_refuted : exists s e k, eigenvalues_of s e /\ 0 < k /\ triax_lode s <> None /\ triax_lode (fun i j => k * s i j) = None.
Proof.
  exists (uniaxial 100), (100, 0, 0), (1 / 1000000). split; [apply uniaxial_eig|]. split; [lra|]. split.
  - intros H. apply (triax_nan_iff _ _ _ _ (uniaxial_eig 100)) in H. lra.
  - apply (triax_nan_iff _ (1 / 10000) 0 0); [|lra]. intros y. unfold det3, uniaxial, ident. cbn. field.
Qed.
(** ** Principal and pi stresses *)
Lemma sort_desc_perm a b c : let '(x, y, z) := sort_desc (a, b, c) in Permutation [x; y; z] [a; b; c] /\ z <= y <= x.
Proof.
  unfold sort_desc, Rmax, Rmin.
  repeat match goal with |- context [Rle_dec ?p ?q] => is_var p; is_var q; destruct (Rle_dec p q) end; (split; [|lra]);
    try (exfalso; lra); try apply Permutation_refl; try apply perm_swap; try (apply perm_skip, perm_swap).
  all: try (eapply perm_trans; [apply perm_swap|apply perm_skip, perm_swap]); try (eapply perm_trans; [apply perm_skip, perm_swap|apply perm_swap]);
    try (eapply perm_trans; [apply perm_swap|eapply perm_trans; [apply perm_skip, perm_swap|apply perm_swap]]).
Qed.
Theorem principal_sorted : forall eig s, eigenvalues_of s (eig s) ->
  let '(x, y, z) := sort_desc (eig s) in eigenvalues_of s (x, y, z) /\ z <= y <= x.
Proof.
  intros eig s E. destruct (eig s) as [[a b] c]. pose proof (sort_desc_perm a b c) as P. destruct (sort_desc (a, b, c)) as [[x y] z]. destruct P as [P O].
  split; [|exact O]. intros t. rewrite E.
  assert (Q : fold_right Rmult 1 (map (fun v => t - v) [x; y; z]) = fold_right Rmult 1 (map (fun v => t - v) [a; b; c])).
  { apply (Permutation_map (fun v => t - v)) in P. revert P. generalize (map (fun v => t - v) [x; y; z]) (map (fun v => t - v) [a; b; c]). clear.
    intros l l' P. induction P; cbn; try lra. rewrite IHP. reflexivity. }
  cbn in Q. lra.
Qed.
(** In whatever order: the third pi stress is the hydrostatic part, and the
    other two have the magnitude of the deviatoric part. *)
Theorem pi_stress_law : forall a b c, let '(p1, p2, p3) := pi_stress (a, b, c) in
  p3 = (a + b + c) / sqrt 3 /\ p1 ^ 2 + p2 ^ 2 = ((a - b) ^ 2 + (b - c) ^ 2 + (c - a) ^ 2) / 3.
Proof.
  intros a b c. cbn. rewrite s23. split.
  - rewrite sqrt_inv3. field. apply Rgt_not_eq, sqrt_lt_R0. lra.
  - pose proof (sq (1/6) ltac:(lra)) as A. pose proof (sq (1/2) ltac:(lra)) as B.
    set (u := sqrt (1/6)) in *. set (v := sqrt (1/2)) in *.
    transitivity (u * u * (2 * a - b - c) ^ 2 + v * v * (b - c) ^ 2); [ring|]. rewrite A, B. field.
Qed.
(** ** Arrays *)
Lemma pad_full {A} (z : A) m l : length l = m -> pad z m l = l.
Proof. intros <-. unfold pad. rewrite Nat.sub_diag. cbn. apply app_nil_r. Qed.
Lemma pad_length {A} (z : A) m l : (length l <= m)%nat -> length (pad z m l) = m.
Proof. intros H. unfold pad. rewrite app_length, repeat_length. lia. Qed.
Lemma max_bound {A} (paths : list (list A)) p : In p paths -> (length p <= n_time_max paths)%nat.
Proof.
  intros I. unfold n_time_max. assert (F : Forall (fun k => (k <= list_max (map (@length A) paths))%nat) (map (@length A) paths)) by (apply list_max_le; lia).
  rewrite Forall_forall in F. apply F. apply in_map. exact I.
Qed.
Lemma max_same {A} (paths : list (list A)) n : paths <> [] -> Forall (fun p => length p = n) paths -> n_time_max paths = n.
Proof.
  intros N F. apply Nat.le_antisymm.
  - unfold n_time_max. apply list_max_le. apply Forall_map. eapply Forall_impl; [|exact F]. cbn. lia.
  - destruct paths as [|p t]; [congruence|]. inversion F; subst. apply max_bound. now left.
Qed.
(** Paths of the same length: the figure shows the principal stresses. *)
Theorem principal_figure_law : forall eig paths n, paths <> [] -> Forall (fun p => length p = n) paths ->
  principal_figure eig paths = Ok (map (fun p => map (fun s => Some (sort_desc (eig s))) p) paths).
Proof.
  intros eig paths n N F. unfold principal_figure, principal_paths. rewrite (max_same paths n N F). clear N.
  induction F as [|p t L F IH]; [reflexivity|]. cbn [map combine rmap fst snd]. rewrite IH. rewrite pad_full by (rewrite map_length; exact L).
  unfold fill. rewrite map_length, Nat.eqb_refl, L, Nat.sub_diag. cbn. rewrite app_nil_r, map_map. reflexivity.
Qed.
(** The pi stress figures show the pi stresses of the principal stresses in the
    order drawn for the path. *)
Theorem pi_figure_law : forall eig order paths n, paths <> [] -> Forall (fun p => length p = n) paths ->
  exists v, pi_figure eig order paths = Ok v /\ length v = length paths /\
  forall k p, nth_error paths k = Some p -> nth_error v k = Some (map (fun s => Some (pi_stress (order k (sort_desc (eig s))))) p).
Proof.
  intros eig order paths n N F. unfold pi_figure, principal_paths. rewrite (max_same paths n N F). clear N.
  enough (G : forall j, exists v, rmap (fun kpq => let '(k, (p, q)) := kpq in fill None n (length p)
      (pad (0, 0, 0) n (map (fun e => pi_stress (order k e)) (firstn (length p) q))))
      (combine (seq j (length paths)) (combine paths (map (fun p => pad (0, 0, 0) n (map (fun s => sort_desc (eig s)) p)) paths))) = Ok v /\
      length v = length paths /\ forall k p, nth_error paths k = Some p -> nth_error v k = Some (map (fun s => Some (pi_stress (order (j + k)%nat (sort_desc (eig s))))) p))
    by (exact (G 0%nat)).
  induction F as [|p t L F IH]; intros j; [exists []; split; [reflexivity|split; [reflexivity|intros [|k]; discriminate]]|].
  destruct (IH (S j)) as (v & V & VL & VN). cbn [map combine rmap seq length]. rewrite V.
  rewrite (pad_full _ n (map (fun s => sort_desc (eig s)) p)) by (rewrite map_length; exact L).
  rewrite firstn_all2 by (rewrite map_length; lia). rewrite pad_full by (rewrite !map_length; exact L).
  unfold fill. rewrite !map_length, Nat.eqb_refl, L, Nat.sub_diag. cbn [rbind repeat]. eexists. split; [reflexivity|]. split; [cbn; lia|].
  intros [|k] p' H; cbn [nth_error] in *.
  - injection H as <-. rewrite app_nil_r, !map_map, Nat.add_0_r. reflexivity.
  - rewrite Nat.add_succ_r. apply (VN k p' H).
Qed.
Lemma fill_short {A} (z : option A) m n rows : length rows = m -> (n < m)%nat -> (1 < m)%nat -> fill z m n rows = Err ValueError.
Proof.
  intros L H H1. unfold fill. destruct (Nat.eqb_spec (length rows) n); [lia|]. destruct rows as [|r [|r' t]]; cbn in *; try lia; reflexivity.
Qed.
Lemma rmap_value_error {A B} (f : A -> res B) l : (forall a, In a l -> (exists b, f a = Ok b) \/ f a = Err ValueError) -> (exists a, In a l /\ f a = Err ValueError) -> rmap f l = Err ValueError.
Proof.
  induction l as [|x l IH]; intros H [a [I E]]; [destruct I|]. cbn [rmap]. destruct (H x (or_introl eq_refl)) as [[b X]|X]; rewrite X; cbn [rbind]; [|reflexivity].
  destruct I as [->|I]; [congruence|]. rewrite IH; [reflexivity|intros y Hy; apply H; now right|exists a; auto].
Qed.
(** Paths of different lengths cannot be shown. *)
Theorem lengths_refuted : forall eig (paths : list (list T2)) p, In p paths -> (0 < length p)%nat -> (length p < n_time_max paths)%nat ->
  principal_figure eig paths = Err ValueError /\ triax_figure paths = Err ValueError.
Proof.
  intros eig paths p I P0 S. set (m := n_time_max paths) in *.
  assert (G : forall {A B} (z : A) (zf : option A) (f : T2 -> B) (h : B -> A) (q : list T2 -> list A), (forall p, q p = pad z m (map (fun s => h (f s)) p)) ->
    rmap (fun pq => fill zf m (length (fst pq)) (snd pq)) (combine paths (map q paths)) = Err ValueError).
  { intros A B z zf f h q Q.
    assert (L : forall r, In r paths -> length (q r) = m) by (intros r Ir; rewrite Q; apply pad_length; rewrite map_length; apply max_bound; exact Ir).
    assert (C : combine paths (map q paths) = map (fun r => (r, q r)) paths) by (clear; induction paths as [|x t IH]; cbn; [reflexivity|now rewrite IH]).
    rewrite C. apply rmap_value_error.
    - intros [u w] U. apply in_map_iff in U as (r & [= <- <-] & Ir). cbn [fst snd]. unfold fill. rewrite (L r Ir).
      destruct (Nat.eqb m (length r)); [left; eexists; reflexivity|]. specialize (L r Ir). destruct (q r) as [|v [|]]; [right; reflexivity|left; eexists; reflexivity|right; reflexivity].
    - exists (p, q p). split; [apply in_map_iff; exists p; auto|]. cbn [fst snd]. apply fill_short; [now apply L|exact S|lia]. }
  split.
  - unfold principal_figure, principal_paths. fold m. apply (G _ _ (0, 0, 0) None eig sort_desc). reflexivity.
  - unfold triax_figure, triax_paths. fold m. apply (G _ _ (Some (0, 0)) (Some (Some (0, 0))) (fun s => s) triax_lode). reflexivity.
Qed.
(** Distributions: with paths of the same length the rows are those of the
    stresses, with different lengths a null row is added for each missing step. *)
Theorem invariant_data_law : forall paths n, paths <> [] -> Forall (fun p => length p = n) paths ->
  invariant_data paths = map compute_stress_invariants (concat paths) /\
  triax_data paths = flat_map (fun s => match triax_lode s with Some x => [x] | None => [] end) (concat paths).
Proof.
  intros paths n N F. unfold invariant_data, triax_data, triax_paths. rewrite (max_same paths n N F). clear N. split.
  - induction F as [|p t L F IH]; [reflexivity|]. cbn [map concat]. rewrite IH, map_app, pad_full by (rewrite map_length; exact L). reflexivity.
  - induction F as [|p t L F IH]; [reflexivity|]. cbn [map concat]. rewrite !flat_map_app, IH, pad_full by (rewrite map_length; exact L). f_equal.
    clear. induction p as [|s p IH]; [reflexivity|]. cbn. now rewrite IH.
Qed.
Theorem added_zeros_refuted : exists paths, (forall p s, In p paths -> In s p -> fst (fst (fst (compute_stress_invariants s))) = 3 /\ triax_lode s <> Some (0, 0)) /\
  In ((0, 0, 0), (0, 0, 0)) (invariant_data paths) /\ In (0, 0) (triax_data paths).
Proof.
  exists [[uniaxial 3]; [uniaxial 3; uniaxial 3]]. split; [|split].
  - intros p s P S. assert (E : s = uniaxial 3) by (cbn in P; destruct P as [P|[P|F]]; [subst p|subst p|destruct F]; cbn in S; intuition congruence). subst s.
    split; [unfold compute_stress_invariants, np_trace, uniaxial; cbn; ring|]. destruct uniaxial_case as [l ->]. intros [= H _]. lra.
  - unfold invariant_data. cbn. right. left. reflexivity.
  - unfold triax_data, triax_paths. destruct uniaxial_case as [l E]. cbn [map]. rewrite !E. cbn. right. left. reflexivity.
Qed.

Print Assumptions lode_bounds.
Print Assumptions triax_mean.
Print Assumptions lode_value.
Print Assumptions uniaxial_law.
Print Assumptions pi_figure_law.
Print Assumptions triax_nan_iff.
Print Assumptions units_refuted.
Print Assumptions principal_sorted.
Print Assumptions pi_stress_law.
Print Assumptions principal_figure_law.
Print Assumptions lengths_refuted.
Print Assumptions invariant_data_law.
Print Assumptions added_zeros_refuted.
