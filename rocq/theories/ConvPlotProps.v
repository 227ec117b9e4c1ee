(** Convergence plots and comparison with the ground truth (C113). *)
From Coq Require Import String Reals List Bool Arith Lia Lra.
From Verif Require Import Lib PyDict PyStr ConvPlotModel.
Import ListNotations.
Local Open Scope string_scope.
Local Open Scope list_scope.
Local Open Scope R_scope.

(** ** Tables *)
Lemma nth_idx_ok {A} (l : list A) i x : nth_idx l i = Ok x <-> nth_error l i = Some x.
Proof. unfold nth_idx. destruct (nth_error l i); split; congruence. Qed.
(** Every row pairs the size and the loss of the same model. *)
Theorem loss_rows n sizes losses t : loss_table n sizes losses = Ok t ->
  length t = n /\ forall i s l, nth_error t i = Some (s, l) <-> (i < n)%nat /\ nth_error sizes i = Some s /\ nth_error losses i = Some l.
Proof.
  unfold loss_table. intros H. apply rmap_ok in H.
  assert (G : forall k m (t : list (nat * R)), Forall2 (fun i y => rbind (nth_idx sizes i) (fun s => rbind (nth_idx losses i) (fun l => Ok (s, l))) = Ok y) (seq k m) t ->
    length t = m /\ forall i s l, nth_error t i = Some (s, l) <-> (i < m)%nat /\ nth_error sizes (k + i) = Some s /\ nth_error losses (k + i) = Some l).
  { clear. intros k m. revert k. induction m as [|m IH]; intros k t H; inversion H as [|a y l1 l2 H1 H2]; subst.
    - split; [reflexivity|]. intros [|i] s l; cbn; split; try discriminate; lia.
    - destruct (IH (S k) _ H2) as [L F]. split; [cbn; lia|]. intros [|i] s l.
      + rewrite Nat.add_0_r. cbn [nth_error]. unfold nth_idx in H1. destruct (nth_error sizes k); [|discriminate]. cbn [rbind] in H1.
        destruct (nth_error losses k); [|discriminate]. cbn [rbind] in H1. injection H1 as <-. split.
        * intros E. injection E as -> ->. repeat split; lia.
        * intros (_ & E1 & E2). injection E1 as ->. injection E2 as ->. reflexivity.
      + cbn [nth_error]. rewrite F. replace (k + S i)%nat with (S k + i)%nat by lia. split; intros (A & B & C); repeat split; try assumption; lia. }
  destruct (G 0%nat n t H) as [L F]. split; [exact L|exact F].
Qed.
Theorem loss_rows_complete n sizes losses : (n <= length sizes)%nat -> (n <= length losses)%nat -> exists t, loss_table n sizes losses = Ok t.
Proof.
  intros H1 H2. unfold loss_table. assert (G : forall l, Forall (fun i => (i < n)%nat) l ->
    exists t, rmap (fun i => rbind (nth_idx sizes i) (fun s => rbind (nth_idx losses i) (fun l => Ok (s, l)))) l = Ok t).
  { induction l as [|i l IH]; intros F; [now exists []|]. apply Forall_cons_iff in F as [F1 F2]. destruct (IH F2) as [t Et]. cbn [rmap].
    unfold nth_idx at 1 2. destruct (nth_error sizes i) eqn:E1; [|apply nth_error_None in E1; lia]. cbn [rbind].
    destruct (nth_error losses i) eqn:E2; [|apply nth_error_None in E2; lia]. cbn [rbind]. rewrite Et. cbn [rbind]. eauto. }
  apply G. apply Forall_forall. intros i Hi. apply in_seq in Hi. lia.
Qed.
(** ** Realisations *)
(** With the same number of realisations for every model, the rows are the sizes
    and the losses. *)
Lemma assign_same {A} n (l : list A) : length l = n -> assign_slice n l = Ok l.
Proof. intros <-. destruct l as [|a [|b l]]; cbn; [reflexivity|reflexivity|]. now rewrite Nat.eqb_refl. Qed.
Theorem uq_rows sizes losses n : losses <> [] -> Forall (fun l => length l = n) losses -> (length losses <= length sizes)%nat ->
  exists t, uq_loss_table sizes losses = Ok t /\ forall i s l, nth_error t i = Some (s, l) <-> nth_error sizes i = Some s /\ nth_error losses i = Some l.
Proof.
  intros N F L. unfold uq_loss_table. destruct losses as [|l0 ls] eqn:El; [contradiction|]. rewrite <- El in *. clear N.
  assert (Hn : length (last losses []) = n).
  { rewrite Forall_forall in F. apply F. rewrite El. clear. revert l0. induction ls as [|a ls IH]; intros l0; [now left|]. right. change (last (l0 :: a :: ls) []) with (last (a :: ls) []). apply IH. }
  rewrite Hn. clear Hn El l0 ls.
  assert (G : forall k m, (k + m <= length losses)%nat -> exists t,
    rmap (fun i => rbind (nth_idx sizes i) (fun s => rbind (nth_idx losses i) (fun l => rbind (assign_slice n l) (fun v => Ok (s, v))))) (seq k m) = Ok t /\
    length t = m /\ forall i s l, (i < m)%nat -> nth_error t i = Some (s, l) <-> nth_error sizes (k + i) = Some s /\ nth_error losses (k + i) = Some l).
  { intros k m. revert k. induction m as [|m IH]; intros k Hk; [exists []; repeat split; intros; lia|]. destruct (IH (S k) ltac:(lia)) as (t & E & Lt & P).
    cbn [seq rmap]. unfold nth_idx at 1 2. destruct (nth_error sizes k) as [s|] eqn:E1; [|apply nth_error_None in E1; lia]. cbn [rbind].
    destruct (nth_error losses k) as [l|] eqn:E2; [|apply nth_error_None in E2; lia]. cbn [rbind].
    rewrite assign_same by (rewrite Forall_forall in F; apply F; now apply nth_error_In in E2). cbn [rbind]. rewrite E. cbn [rbind]. eexists. split; [reflexivity|].
    split; [cbn; lia|]. intros [|i] s' l' Hi.
    - rewrite Nat.add_0_r. cbn [nth_error]. rewrite E1, E2. split; [intros H; injection H as -> ->; now split|intros [H1 H2]; congruence].
    - cbn [nth_error]. replace (k + S i)%nat with (S k + i)%nat by lia. apply P. lia. }
  destruct (G 0%nat (length losses) ltac:(lia)) as (t & E & Lt & P). exists t. split; [exact E|]. intros i s l.
  destruct (Nat.lt_ge_cases i (length losses)) as [H|H]; [now apply P|]. split.
  - intros H'. assert (i < length t)%nat by (apply nth_error_Some; congruence). lia.
  - intros [_ H']. assert (i < length losses)%nat by (apply nth_error_Some; congruence). lia.
Qed.
(** Models with other numbers of realisations are refused, except those with a
    single one, whose loss is repeated as if it had been obtained every time. *)
Theorem uneven_realisations_refused sizes before l after l' : length l <> length l' -> length l <> 1%nat ->
  (length (before ++ l :: after ++ [l']) <= length sizes)%nat -> exists e, uq_loss_table sizes (before ++ l :: after ++ [l']) = Err e.
Proof.
  intros H1 H2 HL. unfold uq_loss_table. destruct (before ++ l :: after ++ [l']) as [|x0 xs] eqn:E; [eauto|]. rewrite <- E in *.
  assert (La : last (before ++ l :: after ++ [l']) [] = l').
  { replace (before ++ l :: after ++ [l']) with ((before ++ l :: after) ++ [l']) by (rewrite <- app_assoc; reflexivity). apply last_last. }
  rewrite La. set (ls := before ++ l :: after ++ [l']) in *.
  destruct (rmap _ _) as [t|e] eqn:Em; [|eauto]. exfalso. apply rmap_ok in Em.
  assert (Hi : In (length before) (seq 0 (length ls))) by (apply in_seq; unfold ls; rewrite app_length; cbn; lia).
  clear - Em Hi H1 H2. induction Em as [|a y l1 l2 Ha _ IH]; [contradiction|]. destruct Hi as [->|Hi]; [|now apply IH].
  destruct (nth_idx sizes (length before)); [|discriminate]. cbn [rbind] in Ha. unfold nth_idx, ls in Ha.
  rewrite nth_error_app2, Nat.sub_diag in Ha by lia. cbn [nth_error rbind] in Ha. destruct l as [|a [|b l]]; cbn [assign_slice rbind] in Ha.
  - destruct l'; [now elim H1|discriminate].
  - now elim H2.
  - destruct (Nat.eqb_spec (length (a :: b :: l)) (length l')); [contradiction|discriminate].
Qed.
Theorem single_realisation_refuted s1 s2 x l : uq_loss_table [s1; s2] [[x]; l] = Ok [(s1, repeat x (length l)); (s2, l)].
Proof.
  unfold uq_loss_table. cbn [last length seq rmap nth_idx nth_error rbind assign_slice]. rewrite assign_same by reflexivity. reflexivity.
Qed.
Theorem single_column_refuted x l : boxplot_columns 2 [l; [x]] = Ok [l; repeat x (length l)].
Proof. unfold boxplot_columns. cbn [seq rmap nth_idx nth_error rbind]. rewrite assign_same by reflexivity. reflexivity. Qed.

(** ** Error bars *)
Lemma fold_min_le l : forall a, fold_left Rmin l a <= a /\ Forall (fun x => fold_left Rmin l a <= x) l.
Proof.
  induction l as [|b l IH]; intros a; cbn; [split; [lra|constructor]|]. destruct (IH (Rmin a b)) as [H1 H2].
  pose proof (Rmin_l a b). pose proof (Rmin_r a b). split; [lra|]. constructor; [lra|exact H2].
Qed.
Lemma fold_min_in l : forall a, In (fold_left Rmin l a) (a :: l).
Proof.
  induction l as [|b l IH]; intros a; [now left|]. cbn [fold_left]. destruct (IH (Rmin a b)) as [H|H].
  - rewrite <- H. unfold Rmin. destruct (Rle_dec a b); [now left|right; now left].
  - right. now right.
Qed.
Lemma fold_max_le l : forall a, a <= fold_left Rmax l a /\ Forall (fun x => x <= fold_left Rmax l a) l.
Proof.
  induction l as [|b l IH]; intros a; cbn; [split; [lra|constructor]|]. destruct (IH (Rmax a b)) as [H1 H2].
  pose proof (Rmax_l a b). pose proof (Rmax_r a b). split; [lra|]. constructor; [lra|exact H2].
Qed.
Lemma fold_max_in l : forall a, In (fold_left Rmax l a) (a :: l).
Proof.
  induction l as [|b l IH]; intros a; [now left|]. cbn [fold_left]. destruct (IH (Rmax a b)) as [H|H].
  - rewrite <- H. unfold Rmax. destruct (Rle_dec a b); [right; now left|now left].
  - right. now right.
Qed.
Lemma lmin_spec l : l <> [] -> In (lmin l) l /\ Forall (fun x => lmin l <= x) l.
Proof. destruct l as [|a l]; [contradiction|]. intros _. unfold lmin. split; [apply fold_min_in|]. destruct (fold_min_le l a). now constructor. Qed.
Lemma lmax_spec l : l <> [] -> In (lmax l) l /\ Forall (fun x => x <= lmax l) l.
Proof. destruct l as [|a l]; [contradiction|]. intros _. unfold lmax. split; [apply fold_max_in|]. destruct (fold_max_le l a). now constructor. Qed.
Lemma lsum_bounds l a b : Forall (fun x => a <= x <= b) l -> INR (length l) * a <= lsum l <= INR (length l) * b.
Proof.
  induction 1 as [|x l H _ IH]; [cbn; lra|]. change (length (x :: l)) with (S (length l)). rewrite S_INR. unfold lsum in *. cbn [fold_right]. lra.
Qed.
(** The bar goes from the smallest to the largest value, and holds them all. *)
Theorem min_max_bar l : l <> [] -> exists m lo hi, error_bar MinMax l = (m, Some (lo, hi)) /\ m - lo = lmin l /\ m + hi = lmax l /\
  Forall (fun x => m - lo <= x <= m + hi) l /\ In (m - lo) l /\ In (m + hi) l /\ INR (length l) * m = lsum l.
Proof.
  intros H. destruct (lmin_spec l H) as [I1 F1]. destruct (lmax_spec l H) as [I2 F2]. rewrite Forall_forall in F1, F2.
  assert (P : 0 < INR (length l)) by (apply lt_0_INR; destruct l; [contradiction|cbn; lia]).
  assert (B : lmin l <= lmean l <= lmax l).
  { destruct (lsum_bounds l (lmin l) (lmax l)) as [L U]; [apply Forall_forall; intros x Hx; split; [now apply F1|now apply F2]|]. unfold lmean.
    split; apply (Rmult_le_reg_l (INR (length l))); try assumption; replace (INR (length l) * (lsum l / INR (length l))) with (lsum l) by (field; lra); assumption. }
  assert (E1 : lmean l - Rabs (lmean l - lmin l) = lmin l) by (rewrite Rabs_right by lra; ring).
  assert (E2 : lmean l + Rabs (lmean l - lmax l) = lmax l) by (rewrite Rabs_left1 by lra; ring).
  unfold error_bar. eexists _, _, _. split; [reflexivity|]. rewrite E1, E2. repeat split; try assumption.
  - apply Forall_forall. intros x Hx. split; [now apply F1|now apply F2].
  - unfold lmean. field. lra.
Qed.

(** ** Labels *)
Lemma size_label_inj a b : size_label a = size_label b -> a = b.
Proof. unfold size_label. intros H. cbn in H. injection H as H. now apply nat_str_inj. Qed.
Lemma sets_get {A} (l : list (nat * A)) : forall d s c, NoDup (map fst l) -> (In (s, c) l -> gget String.eqb (fold_left (fun d e => gset String.eqb d (size_label (fst e)) (snd e)) l d) (size_label s) = Some c)
  /\ (~ In s (map fst l) -> gget String.eqb (fold_left (fun d e => gset String.eqb d (size_label (fst e)) (snd e)) l d) (size_label s) = gget String.eqb d (size_label s)).
Proof.
  induction l as [|[a x] l IH]; intros d s c N; cbn [fold_left map fst snd]; [split; [intros []|reflexivity]|]. apply NoDup_cons_iff in N as [N1 N2].
  destruct (IH (gset String.eqb d (size_label a) x) s c N2) as [H1 H2]. split.
  - intros [E|E]; [|now apply H1]. injection E as -> ->. rewrite H2 by exact N1. apply (gget_gset_same String.eqb String.eqb_eq).
  - intros Hn. rewrite H2 by (intros G; apply Hn; now right). apply (gget_gset_other String.eqb String.eqb_eq). intros E. apply Hn. left. symmetry in E.
    apply size_label_inj in E. now symmetry.
Qed.
(** With distinct training sizes every model has its curve. *)
Theorem distinct_sizes_curves {A} sizes (curves : list A) i s c : NoDup sizes -> length sizes = length curves ->
  nth_error sizes i = Some s -> nth_error curves i = Some c -> gget String.eqb (prediction_sets sizes curves) (size_label s) = Some c.
Proof.
  intros N L E1 E2. unfold prediction_sets. assert (M : map fst (combine sizes curves) = sizes).
  { clear - L. revert curves L. induction sizes as [|a l IH]; intros [|b c]; cbn; intros H; try discriminate; [reflexivity|]. f_equal. apply IH. lia. }
  apply (sets_get (combine sizes curves) []); [now rewrite M|]. clear - E1 E2. revert sizes curves E1 E2. induction i as [|i IH]; intros [|a l] [|b m] E1 E2; try discriminate.
  - cbn in *. injection E1 as ->. injection E2 as ->. now left.
  - right. now apply IH.
Qed.
(** Two models trained with the same number of samples: one curve is lost. *)
Theorem equal_sizes_refuted {A} n (c1 c2 : A) : prediction_sets [n; n] [c1; c2] = [(size_label n, c2)].
Proof. unfold prediction_sets. cbn [combine fold_left fst snd gset]. now rewrite String.eqb_refl. Qed.
(** ** Samples *)
(** A list of samples gives the paths of these samples for all the types and
    components; all the samples, for a single type. *)
Theorem listed_samples_plotted n types l : l <> [] -> Forall (fun i => (i < n)%nat) l ->
  path_plots n types (SampleList l) = Ok (flat_map (fun c => map (fun i => (c, i)) l) (flat_map snd types)).
Proof.
  intros N F. assert (C : forallb (fun i => Nat.ltb i n) l = true) by (apply forallb_forall; rewrite Forall_forall in F; intros i Hi; apply Nat.ltb_lt; now apply F).
  induction types as [|[t comps] types IH]; [reflexivity|]. cbn [path_plots check_ids]. destruct l as [|a l]; [contradiction|]. rewrite C. cbn [rbind].
  rewrite IH. cbn [rbind flat_map snd ids_list]. now rewrite flat_map_app.
Qed.
Theorem all_samples_one_type n t comps : path_plots n [(t, comps)] AllSamples = Ok (flat_map (fun c => map (fun i => (c, i)) (seq 0 n)) comps).
Proof. cbn [path_plots check_ids rbind ids_list]. destruct comps; cbn [path_plots rbind]; now rewrite app_nil_r. Qed.
Theorem all_samples_types_refuted n t c comps u types : path_plots n ((t, c :: comps) :: u :: types) AllSamples = Err RuntimeError.
Proof. destruct u as [u us]. reflexivity. Qed.
Theorem outside_sample_refused n types l : types <> [] -> Exists (fun i => (n <= i)%nat) l -> path_plots n types (SampleList l) = Err RuntimeError.
Proof.
  intros N E. destruct types as [|[t comps] types]; [contradiction|]. cbn [path_plots check_ids]. destruct l as [|a l]; [inversion E|].
  destruct (forallb _ (a :: l)) eqn:F; [|reflexivity]. exfalso. apply Exists_exists in E as (i & Hi & E). rewrite forallb_forall in F. specialize (F i Hi).
  apply Nat.ltb_lt in F. lia.
Qed.
(** ** Identity bounds *)
Lemma abs_le_both a b : Rabs a <= b -> - b <= a <= b.
Proof. unfold Rabs. destruct (Rcase_abs a); lra. Qed.
(** A point is in the band exactly when its relative error is at most e. *)
Theorem band_is_relative_error e x y : 0 <= e -> in_band e x y <-> Rabs (y - x) <= e * Rabs x.
Proof.
  intros He. unfold in_band. destruct (Rle_dec 0 x) as [P|P].
  - rewrite (Rabs_right x) by lra. split.
    + intros [H|H]; [apply Rabs_le; lra|]. assert (e * x = 0) by nra. apply Rabs_le. lra.
    + intros H. left. apply abs_le_both in H. lra.
  - rewrite (Rabs_left x) by lra. split.
    + intros [H|H]; [assert (e * x = 0) by nra|]; apply Rabs_le; lra.
    + intros H. right. apply abs_le_both in H. lra.
Qed.

(** ** Coefficient of determination *)
Lemma lsum_cons x l : lsum (x :: l) = x + lsum l. Proof. reflexivity. Qed.
Lemma lsum_nonneg l : Forall (fun x => 0 <= x) l -> 0 <= lsum l.
Proof. induction 1 as [|x l H _ IH]; [cbn; lra|]. rewrite lsum_cons. lra. Qed.
Lemma lsum_zero l : Forall (fun x => 0 <= x) l -> lsum l = 0 -> Forall (fun x => x = 0) l.
Proof.
  induction 1 as [|x l H F IH]; [constructor|]. rewrite lsum_cons. intros E. pose proof (lsum_nonneg l F). constructor; [lra|apply IH; lra].
Qed.
Lemma squares_nonneg {A} (f : A -> R) d : Forall (fun x => 0 <= x) (map (fun p => (f p) ^ 2) d).
Proof. apply Forall_forall. intros x Hx. apply in_map_iff in Hx as (p & <- & _). apply pow2_ge_0. Qed.
Lemma ssres_nonneg d : 0 <= ssres d. Proof. apply lsum_nonneg, (squares_nonneg (fun p => fst p - snd p)). Qed.
Lemma sstot_nonneg d : 0 <= sstot d. Proof. unfold sstot. cbn zeta. apply lsum_nonneg, (squares_nonneg (fun p => fst p - lmean (map fst d))). Qed.
Lemma ssres_zero d : ssres d = 0 <-> Forall (fun p => fst p = snd p) d.
Proof.
  unfold ssres. split.
  - intros H. apply lsum_zero in H; [|apply (squares_nonneg (fun p => fst p - snd p))]. rewrite Forall_forall in *. intros p Hp.
    specialize (H ((fst p - snd p) ^ 2) (in_map (fun p => (fst p - snd p) ^ 2) _ _ Hp)). nra.
  - induction 1 as [|p d H _ IH]; [reflexivity|]. cbn [map]. rewrite lsum_cons, IH, H. ring.
Qed.
Theorem r2_at_most_one d v : r2 d = Some v -> v <= 1.
Proof.
  unfold r2. cbn zeta. pose proof (ssres_nonneg d) as A. pose proof (sstot_nonneg d) as B.
  destruct (Rlt_dec (sstot d) (1 / 10 ^ 8 * ssres d)).
  - destruct (Req_EM_T 1 0); [discriminate|]. intros H. injection H as <-. lra.
  - destruct (Req_EM_T (sstot d) 0); [discriminate|]. intros H. injection H as <-.
    assert (0 <= ssres d / sstot d) by (apply Rmult_le_pos; [exact A|left; apply Rinv_0_lt_compat; lra]). lra.
Qed.
Theorem r2_is_one d : 0 < sstot d -> r2 d = Some 1 <-> Forall (fun p => fst p = snd p) d.
Proof.
  intros P. rewrite <- ssres_zero. unfold r2. cbn zeta. pose proof (ssres_nonneg d) as A. destruct (Rlt_dec (sstot d) (1 / 10 ^ 8 * ssres d)) as [L|L].
  - destruct (Req_EM_T 1 0); [lra|]. split; [intros H; injection H as H; lra|]. intros E. rewrite E in L. lra.
  - destruct (Req_EM_T (sstot d) 0); [lra|]. split.
    + intros H. injection H as H. assert (ssres d / sstot d = 0) by lra. unfold Rdiv in H0. apply Rmult_integral in H0 as [H0|H0]; [exact H0|].
      exfalso. apply Rinv_neq_0_compat in n. contradiction.
    + intros ->. f_equal. field. lra.
Qed.
(** Values with the same change of units give the same coefficient. *)
Definition affine (k m : R) (d : list (R * R)) : list (R * R) := map (fun p => (k * fst p + m, k * snd p + m)) d.
Lemma lsum_affine k m l : lsum (map (fun x => k * x + m) l) = k * lsum l + INR (length l) * m.
Proof. induction l as [|x l IH]; [cbn; ring|]. change (length (x :: l)) with (S (length l)). rewrite S_INR. cbn [map]. rewrite !lsum_cons, IH. ring. Qed.
Lemma lsum_scale {A} k (f g : A -> R) d : (forall p, In p d -> g p = k * f p) -> lsum (map g d) = k * lsum (map f d).
Proof.
  induction d as [|p d IH]; intros H; [cbn; ring|]. cbn [map]. rewrite !lsum_cons, IH, (H p); [ring|now left|]. intros q Hq. apply H. now right.
Qed.
Lemma ssres_affine k m d : ssres (affine k m d) = k ^ 2 * ssres d.
Proof. unfold ssres, affine. rewrite map_map. apply lsum_scale. intros p _. cbn [fst snd]. ring. Qed.
Lemma sstot_affine k m d : sstot (affine k m d) = k ^ 2 * sstot d.
Proof.
  destruct d as [|p0 d0]; [unfold sstot; cbn; ring|]. remember (p0 :: d0) as d eqn:Ed.
  assert (P : INR (length d) <> 0) by (subst d; apply not_0_INR; discriminate).
  assert (M : lmean (map fst (affine k m d)) = k * lmean (map fst d) + m).
  { unfold lmean, affine. rewrite map_map. cbn [fst].
    replace (map (fun x : R * R => k * fst x + m) d) with (map (fun x => k * x + m) (map fst d)) by (rewrite map_map; reflexivity).
    rewrite lsum_affine, !map_length. field. exact P. }
  unfold sstot. rewrite M. cbn zeta. unfold affine. rewrite map_map. apply lsum_scale. intros p _. cbn [fst snd]. ring.
Qed.
Theorem r2_unit_invariant k m d : k <> 0 -> 1 / 10 ^ 8 * ssres d <= sstot d -> r2 (affine k m d) = r2 d.
Proof.
  intros K L. unfold r2. cbn zeta. rewrite ssres_affine, sstot_affine. assert (K2 : 0 < k ^ 2) by (assert (k ^ 2 <> 0) by (now apply pow_nonzero); pose proof (pow2_ge_0 k); lra).
  destruct (Rlt_dec (sstot d) _); [lra|]. destruct (Rlt_dec (k ^ 2 * sstot d) _) as [G|_]; [nra|].
  destruct (Req_EM_T (sstot d) 0) as [Z|Z]; destruct (Req_EM_T (k ^ 2 * sstot d) 0) as [Y|Y]; try nra; [reflexivity|].
  f_equal. field. split; assumption.
Qed.
(** A perfect prediction of constant values has no coefficient (NaN), and for
    other predictions of constant values it depends on the units. *)
Lemma constant_sums c x n : ssres (repeat (c, x) (S n)) = INR (S n) * (c - x) ^ 2 /\ sstot (repeat (c, x) (S n)) = 0.
Proof.
  assert (A : forall {B} (f : B -> R) b m, lsum (map f (repeat b m)) = INR m * f b).
  { intros B f b m. induction m as [|m IH]; [cbn; ring|]. cbn [repeat map]. rewrite lsum_cons, IH, S_INR. ring. }
  split; [unfold ssres; now rewrite A|]. unfold sstot. cbn zeta. rewrite A. cbn [fst].
  assert (M : lmean (map fst (repeat (c, x) (S n))) = c).
  { unfold lmean. rewrite A, map_length, repeat_length. cbn [fst]. field. apply not_0_INR. discriminate. }
  rewrite M. ring.
Qed.
Theorem perfect_constant_refuted c n : r2 (repeat (c, c) (S n)) = None.
Proof.
  destruct (constant_sums c c n) as [A B]. unfold r2. cbn zeta. rewrite A, B. destruct (Rlt_dec 0 _) as [L|_]; [exfalso|].
  - replace (INR (S n) * (c - c) ^ 2) with 0 in L by ring. lra.
  - destruct (Req_EM_T 0 0); [reflexivity|contradiction].
Qed.
Theorem constant_units_refuted : exists d k, k <> 0 /\ r2 d = Some 0 /\ r2 (affine k 0 d) = Some (-3).
Proof.
  exists [(0, 1)], 2. split; [lra|]. unfold r2. cbn zeta. rewrite ssres_affine, sstot_affine. destruct (constant_sums 0 1 0) as [A B]. cbn [repeat] in A, B.
  rewrite A, B. cbn [INR]. split; [destruct (Rlt_dec 0 _); [|lra]|destruct (Rlt_dec (2 ^ 2 * 0) _); [|lra]]; (destruct (Req_EM_T 1 0); [lra|]; f_equal; field).
Qed.
(** ** Normalization *)
Theorem normalize_affine d d' : normalize d = Some d' -> exists k m, 0 < k /\ d' = affine k m d /\
  Forall (fun p => 0 <= fst p <= 1 /\ 0 <= snd p <= 1) d'.
Proof.
  unfold normalize. destruct (Req_EM_T (set_max d) (set_min d)) as [|N]; [discriminate|]. intros H. injection H as <-.
  destruct d as [|p0 d0]; [exfalso; apply N; reflexivity|]. remember (p0 :: d0) as d eqn:Ed.
  assert (Ne : map fst d ++ map snd d <> []) by (subst d; discriminate).
  destruct (lmin_spec _ Ne) as [_ F1]. destruct (lmax_spec _ Ne) as [_ F2]. rewrite Forall_forall in F1, F2. fold (set_min d) in F1. fold (set_max d) in F2.
  assert (P : 0 < set_max d - set_min d).
  { destruct (lmin_spec _ Ne) as [I1 _]. apply F2 in I1. fold (set_min d) in I1. lra. }
  exists (/ (set_max d - set_min d)), (- set_min d / (set_max d - set_min d)). split; [now apply Rinv_0_lt_compat|]. split.
  - unfold affine. apply map_ext. intros p. f_equal; field; lra.
  - apply Forall_forall. intros q Hq. apply in_map_iff in Hq as (p & <- & Hp). cbn [fst snd].
    assert (G : forall x, In x (map fst d ++ map snd d) -> 0 <= (x - set_min d) / (set_max d - set_min d) <= 1).
    { intros x Hx. specialize (F1 x Hx). specialize (F2 x Hx). split; [apply Rmult_le_pos; [lra|left; now apply Rinv_0_lt_compat]|].
      apply (Rmult_le_reg_r (set_max d - set_min d)); [exact P|]. replace ((x - set_min d) / (set_max d - set_min d) * (set_max d - set_min d)) with (x - set_min d) by (field; lra). lra. }
    split; apply G; apply in_or_app; [left|right]; now apply in_map.
Qed.
(** The band of the normalized plot is not the relative error of the data. *)
Theorem normalized_band_refuted : exists d d' x y, normalize d = Some d' /\ nth_error d 0 = Some (x, y) /\ in_band (1/10) x y /\
  forall x' y', nth_error d' 0 = Some (x', y') -> ~ in_band (1/10) x' y'.
Proof.
  exists [(10, 11); (20, 20)], [((10 - 10) / (20 - 10), (11 - 10) / (20 - 10)); ((20 - 10) / (20 - 10), (20 - 10) / (20 - 10))], 10, 11.
  assert (E1 : set_min [(10, 11); (20, 20)] = 10).
  { unfold set_min. cbn. unfold Rmin. repeat destruct (Rle_dec _ _); lra. }
  assert (E2 : set_max [(10, 11); (20, 20)] = 20).
  { unfold set_max. cbn. unfold Rmax. repeat destruct (Rle_dec _ _); lra. }
  split; [|split; [reflexivity|split]].
  - unfold normalize. rewrite E1, E2. destruct (Req_EM_T 20 10); [lra|]. reflexivity.
  - left. lra.
  - cbn. intros x' y' H. injection H as <- <-. intros [H|H]; lra.
Qed.
(** ** Array of several processes *)
Theorem truth_columns sets a labels : truth_array sets = Ok (a, labels) -> labels = map fst sets /\ exists n,
  Forall (fun c => length c = n) a /\ forall i key d j, nth_error sets i = Some (key, d) ->
  exists c, nth_error a i = Some c /\ (length d <= n)%nat /\ nth_error c j = if Nat.ltb j (length d) then option_map Some (nth_error d j) else if Nat.ltb j n then Some None else None.
Proof.
  unfold truth_array. destruct sets as [|s0 ss] eqn:Es; [discriminate|]. rewrite <- Es. clear Es s0 ss. intros H. injection H as <- <-. split; [reflexivity|].
  set (n := fold_right Nat.max 0%nat (map (fun s => length (snd s)) sets)).
  assert (B : forall s, In s sets -> (length (snd s) <= n)%nat).
  { unfold n. clear. induction sets as [|x l IH]; intros s []; cbn; [subst; lia|]. specialize (IH s H). lia. }
  exists n. split.
  - apply Forall_forall. intros c Hc. apply in_map_iff in Hc as (s & <- & Hs). rewrite app_length, map_length, repeat_length. specialize (B s Hs). lia.
  - intros i key d j E. pose proof (nth_error_In _ _ E) as Hs. specialize (B _ Hs). cbn [snd] in B.
    exists (map Some d ++ repeat None (n - length d)). split; [now rewrite nth_error_map, E|]. split; [exact B|].
    destruct (Nat.ltb_spec j (length d)) as [L|L].
    + rewrite nth_error_app1 by (rewrite map_length; exact L). apply nth_error_map.
    + rewrite nth_error_app2 by (rewrite map_length; exact L). rewrite map_length. destruct (Nat.ltb_spec j n) as [G|G].
      * rewrite nth_error_repeat by lia. reflexivity.
      * apply nth_error_None. rewrite repeat_length. lia.
Qed.

(** ** Parameters and testing sizes *)
Theorem parameter_rows sizes params p0 t : nth_error params 0 = Some p0 -> parameter_tables sizes params = Ok t ->
  map fst t = map fst p0 /\ forall name rows, In (name, rows) t -> length rows = length sizes /\
  forall i s v, nth_error rows i = Some (s, v) <-> nth_error sizes i = Some s /\ exists p, nth_error params i = Some p /\ gget String.eqb p name = Some v.
Proof.
  intros E0. unfold parameter_tables, nth_idx at 1. rewrite E0. cbn [rbind]. intros H. apply rmap_ok in H. split.
  - remember (map fst p0) as ns eqn:En. clear En. induction H as [|n r ns rs Hh Ht IH]; [reflexivity|]. cbn [map]. f_equal; [|exact IH].
    destruct (rmap _ (seq 0 (length sizes))); cbn [rbind] in Hh; [injection Hh as <-; reflexivity|discriminate].
  - intros name rows Hin. assert (Hr : rmap (fun i => rbind (nth_idx sizes i) (fun s => rbind (nth_idx params i) (fun p =>
      match gget String.eqb p name with Some v => Ok (s, v) | None => Err KeyError end))) (seq 0 (length sizes)) = Ok rows).
    { induction H as [|n r ns rs Hh Ht IH]; [destruct Hin|]. destruct Hin as [->|Hin]; [|now apply IH].
      destruct (rmap _ (seq 0 (length sizes))) as [q|] eqn:Q in Hh; cbn [rbind] in Hh; [|discriminate]. injection Hh as <- <-. exact Q. }
    apply rmap_ok in Hr.
    assert (G : forall k m (t : list (nat * R)), Forall2 (fun i y => rbind (nth_idx sizes i) (fun s => rbind (nth_idx params i) (fun p =>
      match gget String.eqb p name with Some v => Ok (s, v) | None => Err KeyError end)) = Ok y) (seq k m) t ->
      length t = m /\ forall i s v, nth_error t i = Some (s, v) <-> (i < m)%nat /\ nth_error sizes (k + i) = Some s /\ exists p, nth_error params (k + i) = Some p /\ gget String.eqb p name = Some v).
    { clear. intros k m. revert k. induction m as [|m IH]; intros k t F; cbn [seq] in F.
      - inversion F; subst. split; [reflexivity|]. intros i s v. split; [destruct i; discriminate|intros [? _]; lia].
      - inversion F as [|? y ? t' Hy Ft]; subst. destruct (IH _ _ Ft) as [L N]. split; [cbn; lia|]. intros [|i] s v; cbn [nth_error].
        + rewrite Nat.add_0_r. unfold nth_idx in Hy. destruct (nth_error sizes k) as [s'|]; [|discriminate]. cbn [rbind] in Hy.
          destruct (nth_error params k) as [p'|]; [|discriminate]. cbn [rbind] in Hy. destruct (gget String.eqb p' name) as [v'|] eqn:Gv; [|discriminate].
          injection Hy as <-. split.
          * intros Q. injection Q as <- <-. split; [lia|]. split; [reflexivity|]. now exists p'.
          * intros (_ & Q1 & p'' & Q2 & Q3). injection Q1 as <-. injection Q2 as <-. rewrite Gv in Q3. now injection Q3 as <-.
        + rewrite N. replace (k + S i)%nat with (S k + i)%nat by lia. split; intros (A & B); (split; [lia|exact B]). }
    destruct (G _ _ _ Hr) as [L N]. split; [exact L|]. intros i s v. rewrite N. cbn [plus]. split; [now intros (_ & Q)|].
    intros [Q1 Q2]. split; [|now split]. apply nth_error_Some. congruence.
Qed.
Theorem missing_parameter_refused s1 s2 sizes p0 p1 ps name : In name (map fst p0) -> gget String.eqb p1 name = None ->
  exists e, parameter_tables (s1 :: s2 :: sizes) (p0 :: p1 :: ps) = Err e.
Proof.
  intros Hn G. destruct (parameter_tables _ _) as [t|e] eqn:T; [|now exists e]. exfalso.
  destruct (parameter_rows (s1 :: s2 :: sizes) (p0 :: p1 :: ps) p0 t eq_refl T) as [M R]. rewrite <- M in Hn. apply in_map_iff in Hn as ([n rows] & En & Hin). cbn in En. subst n.
  destruct (R _ _ Hin) as [L N]. destruct rows as [|r0 [|[s v] rows]]; cbn in L; try lia.
  destruct (proj1 (N 1%nat s v) eq_refl) as (_ & p & Q1 & Q2). cbn in Q1. injection Q1 as <-. congruence.
Qed.
Theorem testing_sizes_equal sizes n : same_testing_size sizes = Ok n <-> sizes <> [] /\ Forall (fun m => m = n) sizes.
Proof.
  unfold same_testing_size. destruct sizes as [|a l]; [split; [discriminate|intros [H _]; contradiction]|].
  destruct (forallb (Nat.eqb a) l) eqn:F; split.
  - intros H. injection H as <-. split; [discriminate|]. constructor; [reflexivity|]. rewrite forallb_forall in F. apply Forall_forall. intros x Hx. symmetry. now apply Nat.eqb_eq, F.
  - intros [_ H]. apply Forall_cons_iff in H as [-> _]. reflexivity.
  - discriminate.
  - intros [_ H]. apply Forall_cons_iff in H as [-> H]. exfalso. assert (forallb (Nat.eqb n) l = true); [|congruence].
    apply forallb_forall. intros x Hx. rewrite Forall_forall in H. apply Nat.eqb_eq. symmetry. now apply H.
Qed.

(** ** Cases *)
Example ex_tables : loss_table 2 [10; 20]%nat [3; 1] = Ok [(10%nat, 3); (20%nat, 1)] /\ loss_table 3 [10; 20]%nat [3; 1] = Err IndexError
  /\ uq_loss_table [10; 20]%nat [[3; 4]; [1; 2; 5]] = Err ValueError /\ parameter_tables [10; 20]%nat [[("E", 1)]; [("E", 2); ("v", 3)]] = Ok [("E", [(10%nat, 1); (20%nat, 2)])]
  /\ path_plots 2 [("stress", ["s11"; "s22"])] AllSamples = Ok [("s11", 0%nat); ("s11", 1%nat); ("s22", 0%nat); ("s22", 1%nat)].
Proof. repeat split. Qed.
Example ex_r2 : r2 [(1, 1); (3, 2)] = Some (1/2) /\ in_band (1/10) (-10) (-11) /\ ~ in_band (1/10) 10 12.
Proof.
  split; [|split; [right; lra|intros [H|H]; lra]]. unfold r2, ssres, sstot, lmean. cbn.
  destruct (Rlt_dec _ _) as [L|L]; [exfalso; lra|]. destruct (Req_EM_T _ 0) as [Z|Z]; [exfalso; lra|]. f_equal. field.
Qed.

Print Assumptions loss_rows.
Print Assumptions loss_rows_complete.
Print Assumptions uq_rows.
Print Assumptions uneven_realisations_refused.
Print Assumptions single_realisation_refuted.
Print Assumptions single_column_refuted.
Print Assumptions min_max_bar.
Print Assumptions distinct_sizes_curves.
Print Assumptions equal_sizes_refuted.
Print Assumptions listed_samples_plotted.
Print Assumptions all_samples_one_type.
Print Assumptions all_samples_types_refuted.
Print Assumptions outside_sample_refused.
Print Assumptions band_is_relative_error.
Print Assumptions r2_at_most_one.
Print Assumptions r2_is_one.
Print Assumptions r2_unit_invariant.
Print Assumptions perfect_constant_refuted.
Print Assumptions constant_units_refuted.
Print Assumptions normalize_affine.
Print Assumptions normalized_band_refuted.
Print Assumptions truth_columns.
Print Assumptions parameter_rows.
Print Assumptions missing_parameter_refused.
Print Assumptions testing_sizes_equal.
