(** Properties of the tables of hardening functions and their comparison. *)
From Coq Require Import String Reals List Bool Arith Lia Lra Psatz.
From Verif Require Import Lib PyDict StrainPathModel StrainPathProps HardeningModel HardeningSpec HardeningProps LawTableModel.
Import ListNotations.
Local Open Scope R_scope.
Local Open Scope list_scope.

(** Specification: the points of the table. *)
Definition point (lo hi : R) (n k : nat) : R := lo + INR k * ((hi - lo) / INR (n - 1)).
Definition step (lo hi : R) (n : nat) : R := (hi - lo) / INR (n - 1).

Lemma table_length f lo hi n : length (discretize f lo hi n) = n.
Proof. unfold discretize. now rewrite map_length, linspace_len. Qed.
Lemma table_nth f lo hi n k : (k < n)%nat -> nth k (discretize f lo hi n) (0, 0) = (point lo hi n k, f (point lo hi n k)).
Proof.
  intros H. unfold discretize. set (g := fun x => (x, f x)). rewrite (nth_indep _ (0, 0) (g 0)) by now rewrite map_length, linspace_len. rewrite map_nth, linspace_nth by exact H. reflexivity.
Qed.
Lemma step_pos lo hi n : lo < hi -> (2 <= n)%nat -> 0 < step lo hi n.
Proof. intros H N. apply Rdiv_lt_0_compat; [lra|]. apply lt_0_INR. lia. Qed.
Lemma point_step lo hi n k : point lo hi n k = lo + INR k * step lo hi n.
Proof. reflexivity. Qed.
Lemma point_S lo hi n k : point lo hi n (S k) = point lo hi n k + step lo hi n.
Proof. rewrite !point_step, S_INR. ring. Qed.
Lemma point_last lo hi n : (2 <= n)%nat -> point lo hi n (n - 1) = hi.
Proof. intros N. unfold point. field. apply not_0_INR. lia. Qed.
Lemma point_ge lo hi n k : lo < hi -> (2 <= n)%nat -> lo <= point lo hi n k.
Proof. intros H N. rewrite point_step. pose proof (step_pos lo hi n H N). pose proof (Rmult_le_pos _ _ (pos_INR k) (Rlt_le _ _ H0)). lra. Qed.
Lemma point_le lo hi n k : lo < hi -> (2 <= n)%nat -> (k < n)%nat -> point lo hi n k <= hi.
Proof.
  intros H N K. pose proof (point_last lo hi n N) as PL. rewrite point_step in *. pose proof (step_pos lo hi n H N). assert (Q : INR k <= INR (n - 1)) by (apply le_INR; lia). pose proof (Rmult_le_compat_r _ _ _ (Rlt_le _ _ H0) Q). lra.
Qed.
(** The table is one that the piecewise linear law takes. *)
Theorem table_ascending f lo hi n : lo < hi -> (2 <= n)%nat -> ascending (discretize f lo hi n).
Proof.
  intros H N i j Hij Hj. rewrite table_length in Hj. rewrite !table_nth by lia. cbn [fst]. rewrite !point_step. pose proof (step_pos lo hi n H N) as H0. assert (Q : INR i < INR j) by (apply lt_INR; lia). pose proof (Rmult_lt_compat_r _ _ _ H0 Q). lra.
Qed.
(** At the points of the table the law is the function. *)
Theorem table_law_at_points f lo hi n k : lo < hi -> (2 <= n)%nat -> 0 <= lo -> (k < n)%nat ->
  exists h, piecewise_linear (discretize f lo hi n) (point lo hi n k) = Ok (f (point lo hi n k), Fin h).
Proof.
  intros H N P K. pose proof (table_ascending f lo hi n H N) as As. assert (N2 : (2 <= length (discretize f lo hi n))%nat) by now rewrite table_length.
  pose proof (pl_interpolates (discretize f lo hi n) N2 As k) as I. rewrite table_length, table_nth in I by exact K. cbn [fst snd] in I.
  destruct (pl_law_on_curve (discretize f lo hi n) N2 As (point lo hi n k)) as (y & h & E & _). exists h. rewrite E. f_equal. f_equal.
  assert (Q : pl_yield (discretize f lo hi n) (point lo hi n k) = f (point lo hi n k)). { apply I; [exact K|]. pose proof (point_ge lo hi n k H N). lra. }
  unfold pl_yield in Q. now rewrite E in Q.
Qed.
Lemma table_segment f lo hi n x : lo < hi -> (2 <= n)%nat -> 0 <= lo -> lo <= x <= hi -> exists y h k s, piecewise_linear (discretize f lo hi n) x = Ok (y, Fin h) /\ (S k < n)%nat /\
  0 <= s <= 1 /\ x = point lo hi n k + s * step lo hi n /\ y = (1 - s) * f (point lo hi n k) + s * f (point lo hi n (S k)).
Proof.
  intros H N P X. pose proof (table_ascending f lo hi n H N) as As. assert (N2 : (2 <= length (discretize f lo hi n))%nat) by now rewrite table_length.
  destruct (pl_law_on_curve (discretize f lo hi n) N2 As x) as (y & h & E & C & _). exists y, h. rewrite relu_pos in C by lra. pose proof (step_pos lo hi n H N) as SP.
  unfold on_curve in C. rewrite table_length in C. rewrite !table_nth in C by lia. cbn [fst snd] in C. rewrite point_last in C by exact N. destruct C as [[A ->]|[[A ->]|(k & K & B & Y)]].
  - exists 0%nat, 0. split; [exact E|]. split; [lia|]. split; [lra|]. replace (point lo hi n 0) with lo in * by (unfold point; cbn; ring). split; [lra|ring].
  - exists (n - 2)%nat, 1. split; [exact E|]. split; [lia|]. split; [lra|]. rewrite Rmult_1_l, <- point_S. replace (S (n - 2)) with (n - 1)%nat by lia. rewrite point_last by exact N. split; [lra|ring].
  - exists k, ((x - point lo hi n k) / step lo hi n). unfold chord in Y. rewrite !table_nth in B, Y by lia. cbn [fst snd] in B, Y. rewrite point_S in *. split; [exact E|]. split; [exact K|].
    split. { split; [apply Rmult_le_pos; [lra|left; now apply Rinv_0_lt_compat]|]. apply (Rmult_le_reg_r (step lo hi n)); [exact SP|]. unfold Rdiv. rewrite Rmult_assoc, Rinv_l by lra. lra. }
    split; [field; lra|]. rewrite Y. field. lra.
Qed.
(** Between the points the law is off by no more than the change of the function
    over one interval. *)
Theorem table_error f lo hi n x e : lo < hi -> (2 <= n)%nat -> 0 <= lo -> lo <= x <= hi ->
  (forall u v, lo <= u -> v <= hi -> u <= v <= u + step lo hi n -> 0 <= f v - f u <= e) ->
  exists y h, piecewise_linear (discretize f lo hi n) x = Ok (y, Fin h) /\ Rabs (y - f x) <= e.
Proof.
  intros H N P X M. destruct (table_segment f lo hi n x H N P X) as (y & h & k & s & E & K & S01 & Hx & Hy). exists y, h. split; [exact E|].
  pose proof (step_pos lo hi n H N) as SP. pose proof (point_ge lo hi n k H N). pose proof (point_le lo hi n (S k) H N ltac:(lia)) as U. rewrite point_S in *.
  set (u := point lo hi n k) in *. set (d := step lo hi n) in *. assert (X1 : u <= x <= u + d) by nra.
  pose proof (M u x ltac:(lra) ltac:(lra) ltac:(lra)). pose proof (M x (u + d) ltac:(lra) ltac:(lra) ltac:(lra)). pose proof (M u (u + d) ltac:(lra) ltac:(lra) ltac:(lra)).
  rewrite Hy. apply Rabs_le. nra.
Qed.
(** The table of a concave function underestimates it. *)
Theorem table_below_concave f lo hi n x : lo < hi -> (2 <= n)%nat -> 0 <= lo -> lo <= x <= hi ->
  (forall u v s, lo <= u <= hi -> lo <= v <= hi -> 0 <= s <= 1 -> (1 - s) * f u + s * f v <= f ((1 - s) * u + s * v)) ->
  exists y h, piecewise_linear (discretize f lo hi n) x = Ok (y, Fin h) /\ y <= f x.
Proof.
  intros H N P X M. destruct (table_segment f lo hi n x H N P X) as (y & h & k & s & E & K & S01 & Hx & Hy). exists y, h. split; [exact E|].
  pose proof (point_ge lo hi n k H N). pose proof (point_le lo hi n k H N ltac:(lia)). pose proof (point_ge lo hi n (S k) H N). pose proof (point_le lo hi n (S k) H N ltac:(lia)).
  rewrite Hy. replace x with ((1 - s) * point lo hi n k + s * point lo hi n (S k)) by (rewrite point_S, Hx; ring). apply M; lra.
Qed.
Lemma Rpower_ge u b : 0 < u <= 1 -> 0 < b <= 1 -> u <= Rpower u b.
Proof.
  intros U B. unfold Rpower. rewrite <- (exp_ln u) at 1 by lra. assert (L : ln u <= 0). { destruct (Rle_lt_or_eq_dec u 1 ltac:(lra)) as [L| ->]; [|rewrite ln_1; lra]. left. rewrite <- ln_1. apply ln_increasing; lra. }
  assert (Q : ln u <= b * ln u) by nra. destruct Q as [Q|Q]; [left; now apply exp_increasing|right; f_equal; exact Q].
Qed.
Lemma Rpower_subadd x h b : 0 < x -> 0 < h -> 0 < b <= 1 -> Rpower (x + h) b <= Rpower x b + Rpower h b.
Proof.
  intros X Hh B. set (s := x + h). assert (S0 : 0 < s) by (unfold s; lra).
  assert (A : x / s + h / s = 1) by (unfold s; field; unfold s in S0; lra).
  assert (A1 : 0 < x / s) by (apply Rdiv_lt_0_compat; lra). assert (A2 : 0 < h / s) by (apply Rdiv_lt_0_compat; lra).
  pose proof (Rpower_ge (x / s) b ltac:(lra) B) as P1. pose proof (Rpower_ge (h / s) b ltac:(lra) B) as P2.
  replace (Rpower x b) with (Rpower (x / s) b * Rpower s b). 2: { rewrite Rpower_mult_distr by lra. f_equal. field. lra. }
  replace (Rpower h b) with (Rpower (h / s) b * Rpower s b). 2: { rewrite Rpower_mult_distr by lra. f_equal. field. lra. }
  assert (0 < Rpower s b) by apply exp_pos. nra.
Qed.
Lemma Rpower_le_mono x y b : 0 < x -> x <= y -> 0 < b -> Rpower x b <= Rpower y b.
Proof. intros X [L| ->] B; [|lra]. left. unfold Rpower. apply exp_increasing. apply Rmult_lt_compat_l; [exact B|]. now apply ln_increasing. Qed.
(** The table of the function of the script, with n points, has an error of at
    most a times the interval to the power b. *)
Theorem nadai_table_error s0 a b ep0 lo hi n x : 0 <= a -> 0 < b <= 1 -> 0 < ep0 -> lo < hi -> (2 <= n)%nat -> 0 <= lo -> lo <= x <= hi ->
  exists y h, piecewise_linear (discretize (nadai_fun s0 a b ep0) lo hi n) x = Ok (y, Fin h) /\ Rabs (y - nadai_fun s0 a b ep0 x) <= a * Rpower (step lo hi n) b.
Proof.
  intros A B E H N P X. apply table_error; try assumption. intros u v U V [UV VS]. unfold nadai_fun. pose proof (step_pos lo hi n H N) as SP.
  assert (L1 : Rpower (u + ep0) b <= Rpower (v + ep0) b) by (apply Rpower_le_mono; lra).
  assert (L2 : Rpower (v + ep0) b <= Rpower (u + ep0) b + Rpower (step lo hi n) b).
  { apply Rle_trans with (Rpower (u + ep0 + step lo hi n) b); [apply Rpower_le_mono; lra|]. apply Rpower_subadd; lra. }
  nra.
Qed.
(** Past the last point the law is constant, while the function grows. *)
Theorem table_saturates_refuted s0 a b ep0 lo hi n x : 0 < a -> 0 < b -> 0 < ep0 -> lo < hi -> (2 <= n)%nat -> 0 <= lo -> hi < x ->
  exists y h, piecewise_linear (discretize (nadai_fun s0 a b ep0) lo hi n) x = Ok (y, Fin h) /\ y = nadai_fun s0 a b ep0 hi /\ y < nadai_fun s0 a b ep0 x /\ h = 0.
Proof.
  intros A B E H N P X. set (f := nadai_fun s0 a b ep0). pose proof (table_ascending f lo hi n H N) as As. assert (N2 : (2 <= length (discretize f lo hi n))%nat) by now rewrite table_length.
  destruct (pl_law_on_curve (discretize f lo hi n) N2 As x) as (y & h & Q & C & Z & _). exists y, h. split; [exact Q|]. rewrite relu_pos in C, Z by lra. rewrite !table_length in *.
  assert (Y : y = f hi).
  { unfold on_curve in C. rewrite table_length in C. rewrite !table_nth in C by lia. cbn [fst snd] in C. rewrite point_last in C by exact N. destruct C as [[D _]|[[_ ->]|(k & K & D & _)]]; [|reflexivity|].
    - unfold point in D. cbn in D. lra.
    - rewrite !table_nth in D by lia. cbn [fst] in D. pose proof (point_le lo hi n (S k) H N ltac:(lia)). lra. }
  split; [exact Y|]. split.
  - rewrite Y. unfold f, nadai_fun. assert (Rpower (hi + ep0) b < Rpower (x + ep0) b); [|nra]. unfold Rpower. apply exp_increasing, Rmult_lt_compat_l; [exact B|]. apply ln_increasing; lra.
  - apply Z. right. rewrite table_nth by lia. cbn [fst]. rewrite point_last by exact N. lra.
Qed.
(** The two laws that the script compares differ at every point of the table: the
    Nadai-Ludwik law adds its offset twice. *)
Theorem compared_laws_refuted s0 a b ep0 lo hi n k : 0 < a -> 0 < b -> 0 < ep0 -> lo < hi -> (2 <= n)%nat -> 0 <= lo -> (k < n)%nat ->
  exists y h y' h', piecewise_linear (discretize (nadai_fun s0 a b ep0) lo hi n) (point lo hi n k) = Ok (y, Fin h) /\
    nadai_ludwik s0 a b ep0 (point lo hi n k) = Some (y', h') /\ y < y'.
Proof.
  intros A B E H N P K. destruct (table_law_at_points (nadai_fun s0 a b ep0) lo hi n k H N P K) as [h Q]. pose proof (point_ge lo hi n k H N).
  do 4 eexists. split; [exact Q|]. split; [apply nadai_value; lra|]. unfold nadai_fun. apply Rplus_lt_compat_l, Rmult_lt_compat_l; [exact A|]. unfold Rpower. apply exp_increasing, Rmult_lt_compat_l; [exact B|]. apply ln_increasing; lra.
Qed.
(** The custom option divides the function by the cohesion parameter of the
    Drucker-Prager model. *)
Theorem custom_function degrees s0 a b ep0 x : 0 <= degrees < 90 -> yield_cohesion (degrees * (PI / 180)) * custom_fun degrees s0 a b ep0 x = nadai_fun s0 a b ep0 x /\ 0 < yield_cohesion (degrees * (PI / 180)).
Proof.
  intros D. pose proof PI_RGT_0 as HP. assert (C : 0 < cos (degrees * (PI / 180))) by (apply cos_gt_0; nra).
  assert (S3 : 0 < sqrt 3) by (apply sqrt_lt_R0; lra). assert (Y : 0 < yield_cohesion (degrees * (PI / 180))). { unfold yield_cohesion. apply Rmult_lt_0_compat; [|exact C]. apply Rdiv_lt_0_compat; lra. }
  split; [|exact Y]. unfold custom_fun, nadai_fun. field. lra.
Qed.
(** The script: what is written and drawn. *)
Theorem discretizer_output line l1 l2 f lo hi n display save_fig save_file : (save_fig = true -> display = true) ->
  script line l1 l2 (Ok f) lo hi n display save_fig save_file =
    Ok (if save_fig then Some (map (fun k => (point lo hi n k, f (point lo hi n k))) (seq 0 n)) else None,
        if save_file then Some ([l2; l1; "Discrete values:"%string] ++ map (fun k => line (point lo hi n k, f (point lo hi n k))) (seq 0 n)) else None).
Proof.
  intros H. unfold script. cbn [rbind]. assert (T : discretize f lo hi n = map (fun k => (point lo hi n k, f (point lo hi n k))) (seq 0 n)) by (unfold discretize, linspace; now rewrite map_map).
  rewrite T, map_map. destruct save_fig; [rewrite (H eq_refl)|]; reflexivity.
Qed.
Theorem discretizer_refuted line l1 l2 lo hi n degrees s0 a b ep0 display save_fig save_file f :
  script line l1 l2 (fun_of "linear_hardening" degrees s0 a b ep0) lo hi n display save_fig save_file = Err NameError /\
  script line l1 l2 (Ok f) lo hi n false true save_file = Err NameError.
Proof. split; reflexivity. Qed.

(** ** Comparison *)
Section Compare.
  Local Open Scope nat_scope.
  Local Open Scope list_scope.
  Context {P : Type}.
  Implicit Types laws : list (string * @law P).
  Lemma comparison_spec xs laws data : comparison_data xs laws = Ok data -> length data = (3 * length laws)%nat /\
    forall i nl, nth_error laws i = Some nl -> nth (3 * i) data [] = xs /\ exists ys, Forall2 (fun x y => law_fun (snd nl) (law_params (snd nl)) x = Ok y) xs ys /\
      nth (3 * i + 1) data [] = map fst ys /\ nth (3 * i + 2) data [] = map snd ys.
  Proof.
    revert data. induction laws as [|[nm l] laws IH]; intros data H; cbn [comparison_data] in H; [injection H as <-; split; [reflexivity|]; intros [|i] nl Q; discriminate|].
    unfold evaluate in H. destruct (rmap (law_fun l (law_params l)) xs) as [ys|] eqn:E; [|discriminate]. cbn [rbind fst snd] in H. destruct (comparison_data xs laws) as [cs|]; [|discriminate]. cbn [rbind] in H. injection H as <-.
    destruct (IH cs eq_refl) as [L A]. split; [cbn [length]; lia|]. intros [|i] nl Q; cbn in Q.
    - injection Q as <-. cbn. split; [reflexivity|]. exists ys. split; [now apply rmap_ok|]. now split.
    - replace (3 * S i)%nat with (S (S (S (3 * i)))) by lia. cbn [Nat.add nth]. now apply A.
  Qed.
  Lemma kept_columns s n : filter (fun c => negb (Nat.eqb (c mod 3) 2)) (seq (3 * s) (3 * n)) = flat_map (fun i => [3 * i; 3 * i + 1]%nat) (seq s n).
  Proof.
    revert s. induction n as [|n IH]; intros s; [reflexivity|]. replace (3 * S n)%nat with (S (S (S (3 * n)))) by lia. cbn [seq filter flat_map].
    replace (3 * s) with (0 + s * 3) by lia. rewrite Nat.mod_add by lia. replace (S (0 + s * 3)) with (1 + s * 3) by lia. rewrite Nat.mod_add by lia. replace (S (1 + s * 3)) with (2 + s * 3) by lia. rewrite Nat.mod_add by lia. cbn [Nat.modulo Nat.divmod fst snd Nat.sub Nat.eqb negb app].
    replace (S (2 + s * 3)) with (3 * S s) by lia. rewrite IH. replace (0 + s * 3 + 1) with (1 + s * 3) by lia. reflexivity.
  Qed.
  (** The figure shows, for every law and under its name, its yield stress at
      the points, without the slope. *)
  Theorem compared_curves n laws fig saved : compare n laws true saved = Ok fig -> exists data, fst fig = Some (data, map fst laws) /\ length data = (2 * length laws)%nat /\
    (snd fig = if saved then fst fig else None) /\ forall i nl, nth_error laws i = Some nl -> nth (2 * i) data [] = linspace 0%R 1%R n /\
      Forall2 (fun x y => exists h, law_fun (snd nl) (law_params (snd nl)) x = Ok (y, h)) (linspace 0%R 1%R n) (nth (2 * i + 1) data []).
  Proof.
    unfold compare. destruct (comparison_data (linspace 0%R 1%R n) laws) as [cd|] eqn:E; [|discriminate]. cbn [rbind]. intros H. apply comparison_spec in E as [L A]. exists (plot_columns cd).
    assert (F : fst fig = Some (plot_columns cd, map fst laws) /\ snd fig = if saved then fst fig else None) by (destruct saved; injection H as <-; now split). destruct F as [F1 F2].
    split; [exact F1|]. assert (C : plot_columns cd = flat_map (fun i => [nth (3 * i) cd []; nth (3 * i + 1) cd []]) (seq 0 (length laws))).
    { unfold plot_columns. rewrite L. pose proof (kept_columns 0 (length laws)) as KC. change (3 * 0) with 0 in KC. rewrite KC. clear. assert (G : forall k s, map (fun c => nth c cd []) (flat_map (fun i => [3 * i; 3 * i + 1]) (seq s k)) = flat_map (fun i => [nth (3 * i) cd []; nth (3 * i + 1) cd []]) (seq s k)); [|apply G]. induction k as [|k IH]; intros s; cbn [seq flat_map map app]; [reflexivity|]. f_equal. f_equal. apply IH. }
    assert (C2 : forall k s i, (i < k)%nat -> nth (2 * i) (flat_map (fun i => [nth (3 * i) cd []; nth (3 * i + 1) cd []]) (seq s k)) [] = nth (3 * (s + i)) cd [] /\ nth (2 * i + 1) (flat_map (fun i => [nth (3 * i) cd []; nth (3 * i + 1) cd []]) (seq s k)) [] = nth (3 * (s + i) + 1) cd []).
    { induction k as [|k IH]; intros s i Hi; [lia|]. cbn [seq flat_map app]. destruct i as [|i]; [rewrite Nat.add_0_r; split; reflexivity|].
      replace (2 * S i) with (S (S (2 * i))) by lia. cbn [Nat.add nth]. replace (s + S i) with (S s + i) by lia. apply IH. lia. }
    assert (G : forall k s, length (flat_map (fun i => [nth (3 * i) cd []; nth (3 * i + 1) cd []]) (seq s k)) = 2 * k) by (clear; induction k as [|k IH]; intros s; cbn [seq flat_map app length]; [reflexivity|rewrite IH; lia]). split; [rewrite C; apply G|]. split; [exact F2|].
    intros i nl Q. destruct (A i nl Q) as (A1 & ys & F & A2 & _). assert (Hi : (i < length laws)%nat) by (apply nth_error_Some; congruence).
    destruct (C2 (length laws) 0%nat i Hi) as [D1 D2]. rewrite C, D1, D2. cbn [Nat.add]. split; [exact A1|]. rewrite A2. clear - F. induction F as [|x [y h] xs ys E F IH]; cbn; constructor; [now exists h|exact IH].
  Qed.
  (** A figure that is not displayed cannot be saved. *)
  Theorem saved_comparison_refuted n laws data : comparison_data (linspace 0%R 1%R n) laws = Ok data -> compare n laws false true = Err NameError.
  Proof. intros H. unfold compare. now rewrite H. Qed.
End Compare.

(** ** Cases *)
Example ex_table : discretize (fun x => x * x) 0 2 3 = [(0 + INR 0 * ((2 - 0) / INR 2), (0 + INR 0 * ((2 - 0) / INR 2)) * (0 + INR 0 * ((2 - 0) / INR 2))); (0 + INR 1 * ((2 - 0) / INR 2), (0 + INR 1 * ((2 - 0) / INR 2)) * (0 + INR 1 * ((2 - 0) / INR 2))); (0 + INR 2 * ((2 - 0) / INR 2), (0 + INR 2 * ((2 - 0) / INR 2)) * (0 + INR 2 * ((2 - 0) / INR 2)))] /\ point 0 2 3 1 = 1.
Proof. split; [reflexivity|]. unfold point. cbn. lra. Qed.
Example ex_compare : exists data, compare 2 [("l"%string, Law (fun p x => Ok (p + x, 1)) 5); ("k"%string, Law (fun p x => Ok (p * x, p)) 7)] true false = Ok (Some (data, ["l"; "k"]%string), None) /\ length data = 4%nat /\ nth 3 (nth 3 data []) 0 = 0 /\ nth 0 (nth 1 data []) 0 = 5.
Proof. eexists. split; [reflexivity|]. split; [reflexivity|]. cbn. split; lra. Qed.

Print Assumptions table_ascending.
Print Assumptions table_law_at_points.
Print Assumptions table_error.
Print Assumptions table_below_concave.
Print Assumptions nadai_table_error.
Print Assumptions table_saturates_refuted.
Print Assumptions compared_laws_refuted.
Print Assumptions custom_function.
Print Assumptions discretizer_output.
Print Assumptions discretizer_refuted.
Print Assumptions compared_curves.
Print Assumptions saved_comparison_refuted.
