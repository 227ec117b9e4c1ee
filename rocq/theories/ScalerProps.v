(** Data scalers invert and normalise (C25). *)
From Coq Require Import Reals List Arith Lia Lra Bool.
From Verif Require Import Lib ScalerModel ScalerSpec.
Import ListNotations.
Local Open Scope R_scope.

Definition row_map (n : nat) (g : nat -> R -> R) (r : list R) : list R :=
  map (fun j => g j (nth j r 0)) (seq 0 n).
Definition tmap (n : nat) (g : nat -> R -> R) (t : tensor R) : tensor R :=
  match t with
  | Mat rows => Mat (map (row_map n g) rows)
  | Seq s => Seq (map (map (row_map n g)) s)
  | Other => Other
  end.

Lemma rows_ok_iff {A} n (rows : list (list A)) :
  rows_ok n rows = true <-> forall r, In r rows -> length r = n.
Proof.
  unfold rows_ok. rewrite forallb_forall. split; intros H r I; specialize (H r I).
  - apply Nat.eqb_eq in H; auto.
  - apply Nat.eqb_eq; auto.
Qed.

Lemma regular_check n t : regular n t -> check_tensor n t = true.
Proof.
  destruct t as [rows|s|]; simpl; intros H; [apply rows_ok_iff; auto| |contradiction].
  apply forallb_forall. intros sl I. apply rows_ok_iff. intros r Ir. destruct H as [H _]. eauto.
Qed.

Lemma chunk_concat {A} k (s : list (list A)) :
  (forall sl, In sl s -> length sl = k) -> chunk (length s) k (concat s) = s.
Proof.
  induction s as [|a s IH]; intros H; auto. simpl.
  assert (length a = k) by (apply H; simpl; auto).
  assert (E1 : firstn k (a ++ concat s) = a).
  { rewrite firstn_app, <- H0, Nat.sub_diag, firstn_all. simpl. apply app_nil_r. }
  assert (E2 : skipn k (a ++ concat s) = concat s).
  { rewrite skipn_app, <- H0, Nat.sub_diag, skipn_all. reflexivity. }
  rewrite E1, E2, IH; auto. intros; apply H; simpl; auto.
Qed.

Lemma map_rows_some n f g rows :
  (forall j x, (j < n)%nat -> f j x = Some (g j x)) ->
  map_rows 0 n f rows = map (map Some) (map (row_map n g) rows).
Proof.
  intros H. unfold map_rows, row_map. rewrite map_map. apply map_ext. intros r.
  rewrite map_map. apply map_ext_in. intros j I. apply in_seq in I. apply H. lia.
Qed.

Lemma apply_features_some n f g t :
  regular n t -> (forall j x, (j < n)%nat -> f j x = Some (g j x)) ->
  apply_features n f t = Ok (defined (tmap n g t)).
Proof.
  intros HR H. unfold apply_features. rewrite (regular_check n t HR). simpl.
  destruct t as [rows|s|]; simpl in *; [|destruct HR as [HR [k HK]]|contradiction].
  - rewrite (map_rows_some n f g) by auto. reflexivity.
  - rewrite (map_rows_some n f g) by auto. do 2 f_equal.
    assert (E : map (map Some) (map (row_map n g) (concat s))
      = concat (map (map (map Some)) (map (map (row_map n g)) s))).
    { rewrite !concat_map. reflexivity. }
    rewrite E.
    replace (length s) with (length (map (map (map (@Some R))) (map (map (row_map n g)) s)))
      by (rewrite !map_length; auto).
    apply chunk_concat. intros sl I. apply in_map_iff in I. destruct I as (b & <- & I).
    apply in_map_iff in I. destruct I as (c & <- & I). rewrite !map_length.
    unfold n_rows. destruct s as [|d s]; [contradiction|].
    rewrite (HK c I). symmetry. apply HK. simpl; auto.
Qed.

Lemma row_map_length n g r : length (row_map n g r) = n.
Proof. unfold row_map. rewrite map_length, seq_length. auto. Qed.

Lemma row_map_nth n g r j : (j < n)%nat -> nth j (row_map n g r) 0 = g j (nth j r 0).
Proof. intros. unfold row_map. rewrite nth_map_seq by auto. reflexivity. Qed.

Lemma tmap_regular n g t : regular n t -> regular n (tmap n g t).
Proof.
  destruct t as [rows|s|]; simpl; intros H; auto.
  - intros r I. apply in_map_iff in I. destruct I as (r' & <- & _). apply row_map_length.
  - destruct H as [_ [k HK]]. split.
    + intros sl r I J. apply in_map_iff in I. destruct I as (sl' & <- & I).
      apply in_map_iff in J. destruct J as (r' & <- & _). apply row_map_length.
    + exists k. intros sl I. apply in_map_iff in I. destruct I as (sl' & <- & I). rewrite map_length; auto.
Qed.

Lemma row_map_inv n g h r : length r = n ->
  (forall j, (j < n)%nat -> h j (g j (nth j r 0)) = nth j r 0) ->
  row_map n h (row_map n g r) = r.
Proof.
  intros L H. apply (nth_ext _ _ 0 0); rewrite row_map_length; auto.
  intros j Hj. rewrite !row_map_nth by auto. auto.
Qed.

Lemma tmap_inv_on n g h t : regular n t ->
  (forall r j, In r (samples t) -> (j < n)%nat -> h j (g j (nth j r 0)) = nth j r 0) ->
  tmap n h (tmap n g t) = t.
Proof.
  destruct t as [rows|s|]; simpl; intros H E; auto; f_equal; rewrite map_map.
  - rewrite <- (map_id rows) at 2. apply map_ext_in. intros r I. apply row_map_inv; auto.
  - rewrite <- (map_id s) at 2. apply map_ext_in. intros sl I. rewrite map_map.
    rewrite <- (map_id sl) at 2. apply map_ext_in. intros r J. destruct H as [H _].
    apply row_map_inv; [eauto|]. intros j Hj. apply E; auto. apply in_concat. eauto.
Qed.

Lemma samples_tmap n g t : samples (tmap n g t) = map (row_map n g) (samples t).
Proof. destruct t; simpl; auto. rewrite concat_map. reflexivity. Qed.

Lemma feature_tmap n g t j : (j < n)%nat -> feature j (tmap n g t) = map (g j) (feature j t).
Proof.
  intros H. unfold feature. rewrite samples_tmap, !map_map. apply map_ext. intros r.
  apply row_map_nth; auto.
Qed.

(** ** Min-max scaler *)

(** C25: with distinct bounds for every feature and distinct normalised bounds,
    transform is defined everywhere and inverse_transform undoes it. *)
(** Partial: Constant features excluded; see minmax_constant_feature_refuted. *)
Theorem minmax_roundtrip_partial s mn mx t :
  mm_min s = Some mn -> mm_max s = Some mx ->
  (forall j, (j < mm_n s)%nat -> nth j mn 0 <> nth j mx 0) -> mm_nmin s <> mm_nmax s ->
  regular (mm_n s) t ->
  exists y, minmax_transform s t = Ok (defined y) /\
    minmax_inverse_transform s y = Ok (defined t).
Proof.
  intros E1 E2 HD HN HR.
  set (g := fun j x => mm_nmin s * 1 + ((mm_nmax s - mm_nmin s) * 1 / (nth j mx 0 - nth j mn 0)) * (x - nth j mn 0)).
  set (h := fun j x => nth j mn 0 + ((nth j mx 0 - nth j mn 0) / ((mm_nmax s - mm_nmin s) * 1)) * (x - mm_nmin s * 1)).
  exists (tmap (mm_n s) g t). unfold minmax_transform, minmax_inverse_transform. rewrite E1, E2. split.
  - apply apply_features_some; auto. intros j x Hj. unfold minmax_entry, fdiv.
    specialize (HD j Hj). destruct (Req_EM_T (nth j mx 0 - nth j mn 0) 0); [lra|]. reflexivity.
  - rewrite (apply_features_some (mm_n s) _ h).
    + rewrite tmap_inv_on; auto. intros r j _ Hj. specialize (HD j Hj). unfold g, h.
      field. split; lra.
    + apply tmap_regular; auto.
    + intros j x Hj. unfold minmax_inv_entry, fdiv.
      destruct (Req_EM_T ((mm_nmax s - mm_nmin s) * 1) 0); [lra|]. reflexivity.
Qed.

(** The other direction: transform undoes inverse_transform. *)
Theorem minmax_roundtrip_back s mn mx t :
  mm_min s = Some mn -> mm_max s = Some mx ->
  (forall j, (j < mm_n s)%nat -> nth j mn 0 <> nth j mx 0) -> mm_nmin s <> mm_nmax s ->
  regular (mm_n s) t ->
  exists y, minmax_inverse_transform s t = Ok (defined y) /\
    minmax_transform s y = Ok (defined t).
Proof.
  intros E1 E2 HD HN HR.
  set (g := fun j x => mm_nmin s * 1 + ((mm_nmax s - mm_nmin s) * 1 / (nth j mx 0 - nth j mn 0)) * (x - nth j mn 0)).
  set (h := fun j x => nth j mn 0 + ((nth j mx 0 - nth j mn 0) / ((mm_nmax s - mm_nmin s) * 1)) * (x - mm_nmin s * 1)).
  exists (tmap (mm_n s) h t). unfold minmax_transform, minmax_inverse_transform. rewrite E1, E2. split.
  - apply apply_features_some; auto. intros j x Hj. unfold minmax_inv_entry, fdiv.
    destruct (Req_EM_T ((mm_nmax s - mm_nmin s) * 1) 0); [lra|]. reflexivity.
  - rewrite (apply_features_some (mm_n s) _ g).
    + rewrite tmap_inv_on; auto. intros r j _ Hj. specialize (HD j Hj). unfold g, h.
      field. split; lra.
    + apply tmap_regular; auto.
    + intros j x Hj. unfold minmax_entry, fdiv. specialize (HD j Hj).
      destruct (Req_EM_T (nth j mx 0 - nth j mn 0) 0); [lra|]. reflexivity.
Qed.

Lemma fold_min_le : forall l x, fold_left Rmin l x <= x /\ (forall y, In y l -> fold_left Rmin l x <= y) /\
  (fold_left Rmin l x = x \/ In (fold_left Rmin l x) l).
Proof.
  induction l as [|a l IH]; intros x; simpl; [split; [lra|split; [intros; contradiction|auto]]|].
  destruct (IH (Rmin x a)) as (A & B & C). pose proof (Rmin_l x a). pose proof (Rmin_r x a).
  split; [lra|]. split.
  - intros y [->|I]; [lra|auto].
  - destruct C as [C|C]; [|auto]. rewrite C. unfold Rmin. destruct (Rle_dec x a); auto.
Qed.

Lemma fold_max_ge : forall l x, x <= fold_left Rmax l x /\ (forall y, In y l -> y <= fold_left Rmax l x) /\
  (fold_left Rmax l x = x \/ In (fold_left Rmax l x) l).
Proof.
  induction l as [|a l IH]; intros x; simpl; [split; [lra|split; [intros; contradiction|auto]]|].
  destruct (IH (Rmax x a)) as (A & B & C). pose proof (Rmax_l x a). pose proof (Rmax_r x a).
  split; [lra|]. split.
  - intros y [->|I]; [lra|auto].
  - destruct C as [C|C]; [|auto]. rewrite C. unfold Rmax. destruct (Rle_dec x a); auto.
Qed.

Lemma col_min_spec c : c <> [] -> In (col_min c) c /\ forall y, In y c -> col_min c <= y.
Proof.
  destruct c as [|x l]; [congruence|]. intros _. simpl.
  destruct (fold_min_le l x) as (A & B & C). split.
  - destruct C as [->|C]; auto.
  - intros y [->|I]; auto.
Qed.

Lemma col_max_spec c : c <> [] -> In (col_max c) c /\ forall y, In y c -> y <= col_max c.
Proof.
  destruct c as [|x l]; [congruence|]. intros _. simpl.
  destruct (fold_max_ge l x) as (A & B & C). split.
  - destruct C as [->|C]; auto.
  - intros y [->|I]; auto.
Qed.

Lemma flat_samples t : flat_rows t = samples t.
Proof. destruct t; auto. Qed.

Lemma minmax_fit_ok s t : regular (mm_n s) t -> samples t <> [] ->
  minmax_fit s t = Ok {| mm_n := mm_n s;
     mm_min := Some (map (fun j => col_min (feature j t)) (seq 0 (mm_n s)));
     mm_max := Some (map (fun j => col_max (feature j t)) (seq 0 (mm_n s)));
     mm_nmin := mm_nmin s; mm_nmax := mm_nmax s |}.
Proof.
  intros HR NE. unfold minmax_fit. rewrite (regular_check _ _ HR). simpl. rewrite flat_samples.
  unfold feature. destruct (samples t) as [|r l]; [congruence|].
  unfold set_minimum_and_maximum, check_param. rewrite !map_length, seq_length, Nat.eqb_refl. reflexivity.
Qed.

(** C25: fitting a min-max scaler on a non-empty tensor without constant
    features maps every value of that tensor into the normalised range, and
    both ends of the range are reached by every feature. *)
Theorem minmax_fit_range s t :
  regular (mm_n s) t -> samples t <> [] -> mm_nmin s < mm_nmax s ->
  (forall j, (j < mm_n s)%nat -> exists x y, In x (feature j t) /\ In y (feature j t) /\ x <> y) ->
  exists s' y, minmax_fit s t = Ok s' /\ minmax_transform s' t = Ok (defined y) /\
    minmax_inverse_transform s' y = Ok (defined t) /\
    forall j, (j < mm_n s)%nat ->
      (forall v, In v (feature j y) -> mm_nmin s <= v <= mm_nmax s) /\
      In (mm_nmin s) (feature j y) /\ In (mm_nmax s) (feature j y).
Proof.
  intros HR NE HN HC. rewrite (minmax_fit_ok s t HR NE).
  set (mn := map (fun j => col_min (feature j t)) (seq 0 (mm_n s))).
  set (mx := map (fun j => col_max (feature j t)) (seq 0 (mm_n s))).
  set (s' := {| mm_n := mm_n s; mm_min := Some mn; mm_max := Some mx; mm_nmin := mm_nmin s; mm_nmax := mm_nmax s |}).
  assert (Emn : forall j, (j < mm_n s)%nat -> nth j mn 0 = col_min (feature j t)).
  { intros j Hj. unfold mn. rewrite nth_map_seq by auto. reflexivity. }
  assert (Emx : forall j, (j < mm_n s)%nat -> nth j mx 0 = col_max (feature j t)).
  { intros j Hj. unfold mx. rewrite nth_map_seq by auto. reflexivity. }
  assert (NF : forall j, feature j t <> []).
  { intros j. unfold feature. destruct (samples t); [congruence|discriminate]. }
  assert (LT : forall j, (j < mm_n s)%nat -> nth j mn 0 < nth j mx 0).
  { intros j Hj. rewrite Emn, Emx by auto.
    destruct (HC j Hj) as (x & y & Ix & Iy & N).
    destruct (col_min_spec _ (NF j)) as [_ A]. destruct (col_max_spec _ (NF j)) as [_ B].
    pose proof (A x Ix). pose proof (A y Iy). pose proof (B x Ix). pose proof (B y Iy).
    destruct (Rtotal_order x y) as [|[|]]; lra. }
  set (g := fun j x => mm_nmin s * 1 + ((mm_nmax s - mm_nmin s) * 1 / (nth j mx 0 - nth j mn 0)) * (x - nth j mn 0)).
  set (h := fun j x => nth j mn 0 + ((nth j mx 0 - nth j mn 0) / ((mm_nmax s - mm_nmin s) * 1)) * (x - mm_nmin s * 1)).
  exists s', (tmap (mm_n s) g t). split; auto. split; [|split].
  - unfold minmax_transform. simpl. apply apply_features_some; auto.
    intros j x Hj. unfold minmax_entry, fdiv. specialize (LT j Hj).
    destruct (Req_EM_T (nth j mx 0 - nth j mn 0) 0); [lra|]. reflexivity.
  - unfold minmax_inverse_transform. simpl. rewrite (apply_features_some (mm_n s) _ h).
    + rewrite tmap_inv_on; auto. intros r j _ Hj. specialize (LT j Hj). unfold g, h. field. split; lra.
    + apply tmap_regular; auto.
    + intros j x Hj. unfold minmax_inv_entry, fdiv.
      destruct (Req_EM_T ((mm_nmax s - mm_nmin s) * 1) 0); [lra|]. reflexivity.
  - intros j Hj. specialize (LT j Hj). rewrite feature_tmap by auto.
    destruct (col_min_spec _ (NF j)) as [A1 A2]. destruct (col_max_spec _ (NF j)) as [B1 B2].
    split; [|split].
    + intros v I. apply in_map_iff in I. destruct I as (x & <- & I).
      pose proof (A2 x I) as L1. pose proof (B2 x I) as L2. rewrite <- Emn in L1 by auto. rewrite <- Emx in L2 by auto.
      unfold g.
      assert (P : 0 <= (x - nth j mn 0) / (nth j mx 0 - nth j mn 0) <= 1).
      { split.
        - apply Rmult_le_pos; [lra|]. left. apply Rinv_0_lt_compat. lra.
        - apply (Rmult_le_reg_r (nth j mx 0 - nth j mn 0)); [lra|].
          unfold Rdiv. rewrite Rmult_assoc, Rinv_l by lra. lra. }
      replace ((mm_nmax s - mm_nmin s) * 1 / (nth j mx 0 - nth j mn 0) * (x - nth j mn 0))
        with ((mm_nmax s - mm_nmin s) * ((x - nth j mn 0) / (nth j mx 0 - nth j mn 0))) by (field; lra).
      nra.
    + apply in_map_iff. exists (col_min (feature j t)). split; auto. unfold g. rewrite <- Emn by auto. field. lra.
    + apply in_map_iff. exists (col_max (feature j t)). split; auto. unfold g. rewrite <- Emx by auto. field. lra.
Qed.

(** A constant feature makes the fitted min-max scaler return undefined values
    for every input: the round trip of the title fails. *)
Theorem minmax_constant_feature_refuted s t j c :
  regular (mm_n s) t -> samples t <> [] -> (j < mm_n s)%nat ->
  (forall x, In x (feature j t) -> x = c) ->
  exists s', minmax_fit s t = Ok s' /\
    forall y z r, regular (mm_n s) y -> minmax_transform s' y = Ok z ->
      match z with Mat rows => In r rows -> nth j r (Some 0) = None | _ => True end.
Proof.
  intros HR NE Hj HC. rewrite (minmax_fit_ok s t HR NE). eexists. split; [reflexivity|].
  intros y z r Hy E. unfold minmax_transform in E. simpl in E.
  unfold apply_features in E. rewrite (regular_check _ _ Hy) in E. simpl in E.
  destruct y as [rows|sl|]; inversion E; subst z; clear E; auto.
  intros I. unfold map_rows in I. apply in_map_iff in I. destruct I as (row & <- & _).
  rewrite nth_map_seq by auto. unfold minmax_entry, fdiv. rewrite !nth_map_seq by auto.
  assert (NF : feature j t <> []) by (unfold feature; destruct (samples t); [congruence|discriminate]).
  destruct (col_min_spec _ NF) as [A _]. destruct (col_max_spec _ NF) as [B _].
  apply HC in A. apply HC in B.
  destruct (Req_EM_T (col_max (feature j t) - col_min (feature j t)) 0); [reflexivity|]. lra.
Qed.

(** An unfitted scaler raises. *)
Theorem minmax_unfitted n nmin nmax t :
  regular n t -> (0 < n)%nat ->
  exists s, minmax_init n None None nmin nmax = Ok s /\ minmax_transform s t = Err TypeError.
Proof.
  intros HR Hn. unfold minmax_init. destruct (Nat.eqb_spec n 0); [lia|]. simpl. eexists. split; [reflexivity|].
  unfold minmax_transform. simpl. rewrite (regular_check n t HR). reflexivity.
Qed.

(** ** Standard scaler *)
Theorem standard_roundtrip s m d t :
  st_mean s = Some m -> st_std s = Some d ->
  (forall j, (j < st_n s)%nat -> nth j d 0 <> 0) -> regular (st_n s) t ->
  exists y, standard_transform s t = Ok (defined y) /\
    standard_inverse_transform s y = Ok (defined t).
Proof.
  intros E1 E2 HD HR.
  set (g := fun j x => (x - nth j m 0) / nth j d 0).
  set (h := fun j x => x * nth j d 0 + nth j m 0).
  exists (tmap (st_n s) g t). unfold standard_transform, standard_inverse_transform. rewrite E1, E2. split.
  - apply apply_features_some; auto. intros j x Hj. unfold standard_entry. specialize (HD j Hj).
    destruct (Req_EM_T (nth j d 0) 0); [contradiction|reflexivity].
  - rewrite (apply_features_some (st_n s) _ h); auto using tmap_regular.
    rewrite tmap_inv_on; auto. intros r j _ Hj. specialize (HD j Hj). unfold g, h. field. auto.
Qed.

Lemma lsum_map_const_sub (c : list R) k :
  lsum (map (fun x => x - k) c) = lsum c - INR (length c) * k.
Proof.
  induction c as [|x c IH]; [simpl; ring|]. cbn [map lsum]. rewrite IH.
  change (length (x :: c)) with (S (length c)). rewrite S_INR. ring.
Qed.

Lemma col_mean_mean c : col_mean c = mean c. Proof. reflexivity. Qed.

(** A column with null standard deviation is constant. *)
Lemma col_std_zero c corr : (corr < length c)%nat -> col_std corr c = 0 ->
  forall x, In x c -> x = mean c.
Proof.
  intros L H x I. unfold col_std in H.
  set (S := lsum (map (fun x => (x - col_mean c) * (x - col_mean c)) c)) in *.
  assert (P : 0 < INR (length c - corr)) by (apply lt_0_INR; lia).
  assert (S0 : 0 <= S).
  { apply lsum_nonneg. intros y J. apply in_map_iff in J. destruct J as (z & <- & _). apply Rle_0_sqr. }
  assert (Z : S / INR (length c - corr) = 0).
  { apply sqrt_eq_0; auto. apply Rmult_le_pos; auto. left. apply Rinv_0_lt_compat; auto. }
  assert (SZ : S = 0).
  { replace S with (S / INR (length c - corr) * INR (length c - corr)) by (field; lra). rewrite Z. ring. }
  unfold S in SZ. rewrite lsum_nth, map_length in SZ.
  destruct (In_nth c x 0 I) as (i & Hi & E).
  assert (NN : forall i, (i < length c)%nat ->
     0 <= nth i (map (fun x => (x - col_mean c) * (x - col_mean c)) c) 0).
  { intros k Hk. rewrite nth_indep with (d' := (fun x => (x - col_mean c) * (x - col_mean c)) 0) by (rewrite map_length; auto).
    rewrite (map_nth (fun x => (x - col_mean c) * (x - col_mean c))). apply Rle_0_sqr. }
  pose proof (rsum_nonneg_zero _ _ NN SZ i Hi) as Q.  cbv beta in Q.
  rewrite nth_indep with (d' := (fun x => (x - col_mean c) * (x - col_mean c)) 0) in Q by (rewrite map_length; auto).
  rewrite (map_nth (fun x => (x - col_mean c) * (x - col_mean c))) in Q. rewrite E in Q.
  apply Rsqr_0_uniq in Q. rewrite col_mean_mean in Q. lra.
Qed.

Lemma standard_fit_ok s t (b : bool) : regular (st_n s) t ->
  ((if b then 1 else 0) < length (samples t))%nat ->
  standard_fit s t b = Ok {| st_n := st_n s;
     st_mean := Some (map (fun j => mean (feature j t)) (seq 0 (st_n s)));
     st_std := Some (map (fun j => col_std (if b then 1 else 0) (feature j t)) (seq 0 (st_n s))) |}.
Proof.
  intros HR L. unfold standard_fit. rewrite (regular_check _ _ HR). simpl. rewrite flat_samples.
  destruct (Nat.leb_spec (length (samples t)) (if b then 1 else 0)); [lia|].
  unfold set_mean_and_std, check_param. rewrite !map_length, seq_length, Nat.eqb_refl. reflexivity.
Qed.

(** C25: a standard scaler fitted on a tensor restores that tensor exactly,
    constant features included. *)
Theorem standard_fit_roundtrip s t (b : bool) :
  regular (st_n s) t -> ((if b then 1 else 0) < length (samples t))%nat ->
  exists s' y, standard_fit s t b = Ok s' /\ standard_transform s' t = Ok (defined y) /\
    standard_inverse_transform s' y = Ok (defined t).
Proof.
  intros HR L. rewrite (standard_fit_ok s t b HR L).
  set (m := map (fun j => mean (feature j t)) (seq 0 (st_n s))).
  set (d := map (fun j => col_std (if b then 1 else 0) (feature j t)) (seq 0 (st_n s))).
  set (g := fun j x => if Req_EM_T (nth j d 0) 0 then x - nth j m 0 else (x - nth j m 0) / nth j d 0).
  set (h := fun j x => x * nth j d 0 + nth j m 0).
  eexists. exists (tmap (st_n s) g t). split; [reflexivity|]. split.
  - unfold standard_transform. simpl. apply apply_features_some; auto. intros j x Hj. unfold standard_entry, g.
    destruct (Req_EM_T (nth j d 0) 0); reflexivity.
  - unfold standard_inverse_transform. simpl. rewrite (apply_features_some (st_n s) _ h); auto using tmap_regular.
    rewrite tmap_inv_on; auto. intros r j I Hj. unfold g, h.
    destruct (Req_EM_T (nth j d 0) 0) as [Z|NZ]; [|field; auto]. rewrite Z.
    assert (X : nth j r 0 = nth j m 0).
    { unfold d in Z. rewrite nth_map_seq in Z by auto. unfold m. rewrite nth_map_seq by auto.
      simpl in *. apply (col_std_zero (feature j t) (if b then 1 else 0)); auto.
      - unfold feature. rewrite map_length. auto.
      - unfold feature. apply in_map_iff. eauto. }
    rewrite X. ring.
Qed.

(** ... but other data are not restored when a feature was constant. *)
Theorem standard_constant_feature_refuted :
  exists s t u s' y, regular (st_n s) t /\ regular (st_n s) u /\
    standard_fit s t false = Ok s' /\ standard_transform s' u = Ok (defined y) /\
    standard_inverse_transform s' y <> Ok (defined u).
Proof.
  set (s := {| st_n := 1; st_mean := None; st_std := None |}).
  set (t := Mat [[5]; [5]]). set (u := Mat [[7]]).
  assert (M : mean (feature 0 t) = 5) by (unfold mean, feature; simpl; lra).
  assert (D : col_std 0 (feature 0 t) = 0).
  { unfold col_std. rewrite col_mean_mean, M. unfold feature; simpl.
    replace (((5 - 5) * (5 - 5) + ((5 - 5) * (5 - 5) + 0)) / (1 + 1)) with 0 by field. apply sqrt_0. }
  assert (RT : regular 1 t) by (intros r [<-|[<-|[]]]; reflexivity).
  assert (RU : regular 1 u) by (intros r [<-|[]]; reflexivity).
  exists s, t, u. eexists. exists (Mat [[2]]). split; auto. split; auto. split.
  - rewrite (standard_fit_ok s t false RT) by (simpl; lia). cbn [st_n s seq map]. rewrite M, D. reflexivity.
  - split.
    + unfold standard_transform, apply_features. simpl. unfold map_rows, standard_entry. simpl.
      destruct (Req_EM_T 0 0); [|lra]. repeat f_equal. lra.
    + unfold standard_inverse_transform, apply_features. simpl. unfold map_rows, standard_inv_entry. simpl.
      intros E. inversion E. lra.
Qed.

Lemma lsum_div c k : lsum (map (fun x => x / k) c) = lsum c / k.
Proof. induction c; simpl; [unfold Rdiv; ring|]. rewrite IHc. unfold Rdiv. ring. Qed.

(** C25: fitted standardised data have zero mean; without the Bessel correction
    the population variance is one (with it, (n-1)/n). *)
Theorem standard_fit_normalises s t (b : bool) :
  regular (st_n s) t -> ((if b then 1 else 0) < length (samples t))%nat ->
  (forall j, (j < st_n s)%nat -> exists x y, In x (feature j t) /\ In y (feature j t) /\ x <> y) ->
  exists s' y, standard_fit s t b = Ok s' /\ standard_transform s' t = Ok (defined y) /\
    forall j, (j < st_n s)%nat -> mean (feature j y) = 0 /\
      variance (feature j y)
      = INR (length (samples t) - (if b then 1 else 0)) / INR (length (samples t)).
Proof.
  intros HR L HC. rewrite (standard_fit_ok s t b HR L).
  set (corr := if b then 1%nat else 0%nat) in *.
  set (m := map (fun j => mean (feature j t)) (seq 0 (st_n s))).
  set (d := map (fun j => col_std corr (feature j t)) (seq 0 (st_n s))).
  assert (LF : forall j, length (feature j t) = length (samples t)) by (intros; unfold feature; apply map_length).
  assert (DN : forall j, (j < st_n s)%nat -> nth j d 0 <> 0).
  { intros j Hj Z. unfold d in Z. rewrite nth_map_seq in Z by auto. simpl in Z.
    destruct (HC j Hj) as (x & y & Ix & Iy & N).
    assert (LL : (corr < length (feature j t))%nat) by (rewrite LF; auto).
    rewrite (col_std_zero _ _ LL Z x Ix), (col_std_zero _ _ LL Z y Iy) in N. auto. }
  set (g := fun j x => (x - nth j m 0) / nth j d 0).
  eexists. exists (tmap (st_n s) g t). split; [reflexivity|]. split.
  - unfold standard_transform. simpl. apply apply_features_some; auto. intros j x Hj. unfold standard_entry, g.
    specialize (DN j Hj). destruct (Req_EM_T (nth j d 0) 0); [contradiction|reflexivity].
  - intros j Hj. rewrite feature_tmap by auto.
    set (c := feature j t). set (N := INR (length c)).
    assert (LC : length c = length (samples t)) by apply LF.
    assert (NP : 0 < N) by (unfold N; apply lt_0_INR; lia).
    assert (Em : nth j m 0 = mean c) by (unfold m; rewrite nth_map_seq by auto; reflexivity).
    assert (Ed : nth j d 0 = col_std corr c) by (unfold d; rewrite nth_map_seq by auto; reflexivity).
    specialize (DN j Hj).
    assert (MZ : mean (map (g j) c) = 0).
    { unfold mean. rewrite map_length. fold N.
      replace (lsum (map (g j) c)) with 0; [unfold Rdiv; ring|].
      unfold g. rewrite <- (map_map (fun x => x - nth j m 0) (fun x => x / nth j d 0)), lsum_div, lsum_map_const_sub.
      fold N. rewrite Em. unfold mean. fold N. field. split; lra. }
    split; auto. unfold variance. rewrite MZ, map_map, map_length. fold N.
    rewrite (lsum_map_ext _ (fun x => (x - mean c) * (x - mean c) * (/ (nth j d 0 * nth j d 0)))).
    2:{ intros x _. unfold g. rewrite Em. field. auto. }
    rewrite (lsum_map_ext _ (fun x => / (nth j d 0 * nth j d 0) * ((x - mean c) * (x - mean c)))) by (intros; ring).
    rewrite lsum_map_scal.
    set (S := lsum (map (fun x => (x - mean c) * (x - mean c)) c)).
    assert (S0 : 0 <= S).
    { apply lsum_nonneg. intros y J. apply in_map_iff in J. destruct J as (z & <- & _). apply Rle_0_sqr. }
    assert (P : 0 < INR (length c - corr)) by (apply lt_0_INR; lia).
    assert (DD : nth j d 0 * nth j d 0 = S / INR (length c - corr)).
    { rewrite Ed. unfold col_std. rewrite sqrt_sqrt; [reflexivity|].
      apply Rmult_le_pos; auto. left. apply Rinv_0_lt_compat; auto. }
    assert (SN : S <> 0).
    { intros Z. apply DN. rewrite Z in DD. unfold Rdiv in DD. rewrite Rmult_0_l in DD. apply Rsqr_0_uniq. auto. }
    rewrite DD, <- LC. fold N. field. repeat split; lra.
Qed.

(** Three samples of two features. *)
Example standard_example :
  exists s' y, standard_fit {| st_n := 2; st_mean := None; st_std := None |}
      (Mat [[1; 10]; [2; 20]; [3; 60]]) false = Ok s' /\
    standard_transform s' (Mat [[1; 10]; [2; 20]; [3; 60]]) = Ok (defined y) /\
    standard_inverse_transform s' y = Ok (defined (Mat [[1; 10]; [2; 20]; [3; 60]])).
Proof.
  apply (standard_fit_roundtrip _ (Mat [[1; 10]; [2; 20]; [3; 60]]) false); simpl; [|lia].
  intros r [<-|[<-|[<-|[]]]]; reflexivity.
Qed.

Example minmax_example :
  minmax_transform {| mm_n := 1; mm_min := Some [2]; mm_max := Some [6]; mm_nmin := -1; mm_nmax := 1 |}
    (Seq [[[2]; [3]]; [[4]; [6]]]) = Ok (defined (Seq [[[-1]; [-1/2]]; [[0]; [1]]])).
Proof.
  unfold minmax_transform. cbn [mm_min mm_max mm_n mm_nmin mm_nmax].
  rewrite (apply_features_some 1 _ (fun j x => -1 * 1 + ((1 - -1) * 1 / (nth j [6] 0 - nth j [2] 0)) * (x - nth j [2] 0))).
  - unfold tmap, defined, row_map. simpl. repeat match goal with |- Ok _ = Ok _ => apply f_equal | |- Seq _ = Seq _ => apply f_equal | |- _ :: _ = _ :: _ => apply f_equal2 | |- Some _ = Some _ => apply f_equal | |- [] = [] => reflexivity end; field.
  - split.
    + intros sl r [<-|[<-|[]]] [<-|[<-|[]]]; reflexivity.
    + exists 2%nat. intros sl [<-|[<-|[]]]; reflexivity.
  - intros j x Hj. unfold minmax_entry, fdiv. assert (j = O) by lia. subst. simpl.
    destruct (Req_EM_T (6 - 2) 0); [lra|reflexivity].
Qed.

Print Assumptions minmax_fit_range.
Print Assumptions standard_fit_normalises.
