(** C72: the polynomial regressor, the transfer learning elastic model and the
    hybridization models. *)
From Coq Require Import String Reals List Arith Bool Lia Lra FunctionalExtensionality.
From Verif Require Import DeformModel DeformProps Lib PyDict MatrixModel TensorModel TensorSpec ElasticModel ElasticSpec ElasticProofs ElasticProps
  FeaturesModel FeaturesSpec FeaturesProps LayerProps TransferModel.
Import ListNotations.
Local Open Scope list_scope.
Local Open Scope R_scope.

(** ** Specification *)

(** A polynomial of given degree, as a function of its coefficients. *)
Definition poly (degree : nat) (c : nat -> R) (x : R) : R := rsum (S degree) (fun d => c d * x ^ d).
(** The coefficients of one feature: with bias the weights, without bias a null
    constant and then the weights. *)
Definition coefficients (is_bias : bool) (w : list R) (d : nat) : R :=
  if is_bias then nth d w 0 else match d with O => 0 | S d' => nth d' w 0 end.
(** A trained regressor: the constructor's numbers, any weights. *)
Definition is_regressor (n degree : nat) (is_bias : bool) (m : regressor) : Prop :=
  pr_nfeat m = n /\ pr_degree m = degree /\ pr_ncoeff m = (if is_bias then degree + 1 else degree)%nat /\
  length (pr_weights m) = n /\
  forall i, (i < n)%nat -> length (nth i (pr_weights m) []) = (if is_bias then degree + 1 else degree)%nat.
Definition same_shape (x y : series) : Prop :=
  is_batched y = is_batched x /\ len y = len x /\ batch y = batch x /\ nfeat y = nfeat x.

Theorem regressor_init_ok n degree is_bias init :
  is_regressor n degree is_bias (regressor_init n degree is_bias init).
Proof.
  unfold is_regressor, regressor_init; cbn [pr_nfeat pr_degree pr_ncoeff pr_weights].
  repeat split; [rewrite map_length, seq_length; auto|].
  intros i H. rewrite (nth_indep _ [] (map (init 0%nat) (seq 0 (if is_bias then (degree + 1)%nat else degree))))
    by (rewrite map_length, seq_length; auto).
  rewrite (map_nth (fun i => map (init i) (seq 0 (if is_bias then (degree + 1)%nat else degree)))).
  rewrite map_length, seq_length. auto.
Qed.

(** ** The polynomial *)
Lemma lsum_seq n (f : nat -> R) : lsum (map f (seq 0 n)) = rsum n f.
Proof.
  induction n; [reflexivity|]. rewrite seq_S, map_app, lsum_app, IHn. cbn. ring.
Qed.
Lemma linear_row_seq w o (x : R) : 
  linear_row w (map (fun d => x ^ d) (seq o (length w))) = rsum (length w) (fun k => nth k w 0 * x ^ (o + k)).
Proof.
  unfold linear_row. rewrite <- lsum_seq. f_equal. revert o. induction w as [|a w IH]; intros o; [reflexivity|].
  cbn [length seq map combine fst snd nth]. rewrite Nat.add_0_r. f_equal. rewrite IH, <- seq_shift, map_map.
  apply map_ext. intros k. cbn [nth]. do 2 f_equal. lia.
Qed.
Lemma rsum_first n f : rsum (S n) f = f 0%nat + rsum n (fun k => f (S k)).
Proof. induction n; [cbn; ring|]. change (rsum (S (S n)) f) with (rsum (S n) f + f (S n)). rewrite IHn. cbn. ring. Qed.
Lemma degrees_eq n degree is_bias m : is_regressor n degree is_bias m ->
  degrees m = seq (if is_bias then 0 else 1) (pr_ncoeff m).
Proof.
  intros (_ & D & C & _). unfold degrees. rewrite C, D. destruct is_bias.
  - replace (degree + 1 =? degree)%nat with false by (symmetry; apply Nat.eqb_neq; lia). reflexivity.
  - rewrite Nat.eqb_refl. reflexivity.
Qed.
Lemma row_value n degree is_bias m i x : is_regressor n degree is_bias m -> (i < n)%nat ->
  linear_row (nth i (pr_weights m) []) (map (fun d => x ^ d) (degrees m))
  = poly degree (coefficients is_bias (nth i (pr_weights m) [])) x.
Proof.
  intros H I. rewrite (degrees_eq _ _ _ _ H). destruct H as (_ & _ & C & _ & W). specialize (W i I). rewrite C, <- W.
  rewrite linear_row_seq, W. unfold poly, coefficients. destruct is_bias.
  - replace (degree + 1)%nat with (S degree) by lia. reflexivity.
  - rewrite rsum_first. cbn [pow]. rewrite Rmult_0_l, Rplus_0_l. reflexivity.
Qed.

Lemma outputs n degree is_bias m N (g : nat -> nat -> R) : is_regressor n degree is_bias m -> (n <= N)%nat ->
  (0 < pr_ncoeff m)%nat ->
  exists outs, rmap (feature_output m N g) (seq 0 n) = Ok outs /\ length outs = n /\
    forall i k, (i < n)%nat -> nth i outs (fun _ => 0) k = poly degree (coefficients is_bias (nth i (pr_weights m) [])) (g k i).
Proof.
  intros H L P.
  set (out := fun i k => linear_row (nth i (pr_weights m) []) (map (fun d => g k i ^ d) (degrees m))).
  exists (map out (seq 0 n)).
  split; [|split; [rewrite map_length, seq_length; auto|]].
  - assert (A : forall l, (forall i, In i l -> (i < N)%nat) -> rmap (feature_output m N g) l = Ok (map out l)).
    { induction l as [|i l IH]; intros B; [reflexivity|]. cbn [rmap map].
      replace (feature_output m N g i) with (Ok (out i)).
      - cbn [rbind]. rewrite IH by (intros; apply B; right; auto). reflexivity.
      - unfold feature_output. replace (Nat.ltb i N) with true by (symmetry; apply Nat.ltb_lt, B; left; auto).
        cbn [negb]. rewrite (degrees_eq _ _ _ _ H). destruct (pr_ncoeff m) as [|c] eqn:E; [lia|].
        cbn [seq map stack rbind]. unfold out. rewrite (degrees_eq _ _ _ _ H), E. f_equal.
        extensionality k. cbn [seq map]. rewrite map_map. reflexivity. }
    apply A. intros i I. apply in_seq in I. lia.
  - intros i k I. rewrite (nth_indep _ (fun _ => 0) (out 0%nat)) by (rewrite map_length, seq_length; auto).
    rewrite map_nth, seq_nth by auto. cbn [plus]. unfold out. apply row_value with (n := n); auto.
Qed.

(** The output has the shape of the input; each entry is the polynomial of its
    feature at the corresponding input, whatever the sequence and batch. *)
Theorem poly_forward_value n degree is_bias m x : is_regressor n degree is_bias m ->
  (0 < n)%nat -> (is_bias = true \/ 0 < degree)%nat -> nfeat x = n ->
  exists y, poly_forward m x = Ok y /\ same_shape x y /\
    forall t b i, (b < batch x)%nat -> (i < n)%nat ->
      entry y t b i = poly degree (coefficients is_bias (nth i (pr_weights m) [])) (entry x t b i).
Proof.
  intros H P D N. unfold poly_forward. destruct (unsqueeze_eq x) as (f & E & F). rewrite E, N.
  replace (n =? 0)%nat with false by (symmetry; apply Nat.eqb_neq; lia).
  assert (NC : (0 < pr_ncoeff m)%nat) by (destruct H as (_ & _ & C & _); rewrite C; destruct is_bias, D; try discriminate; lia).
  destruct (outputs n degree is_bias m n (flat (batch x) f) H ltac:(lia) NC) as (outs & EO & LO & VO).
  replace (pr_nfeat m) with n by (destruct H as (? & _); auto). rewrite EO. cbn [rbind].
  destruct outs as [|o outs]; [cbn in LO; lia|]. cbn [stack rbind]. rewrite Nat.eqb_refl.
  eexists. split; [reflexivity|]. split.
  - destruct (shape_resqueeze x (len x) n (unflat (batch x) (fun k i => nth i (o :: outs) (fun _ => 0) k))) as (? & ? & ? & ?).
    unfold same_shape. rewrite N. auto.
  - intros t b i Hb Hi. rewrite entry_resqueeze by auto. unfold unflat. rewrite VO by auto.
    rewrite flat_unflat, F by auto. reflexivity.
Qed.

(** A sequence of a batch is processed as it would be alone. *)
Theorem poly_batch_independent n degree is_bias m x b : is_regressor n degree is_bias m ->
  (0 < n)%nat -> (is_bias = true \/ 0 < degree)%nat -> nfeat x = n -> (b < batch x)%nat ->
  exists y z, poly_forward m x = Ok y /\ poly_forward m (sequence x b) = Ok z /\
    forall t i, (i < n)%nat -> entry z t 0 i = entry y t b i.
Proof.
  intros H P D N Hb. destruct (poly_forward_value n degree is_bias m x H P D N) as (y & EY & _ & VY).
  destruct (poly_forward_value n degree is_bias m (sequence x b) H P D N) as (z & EZ & _ & VZ).
  exists y, z. split; auto. split; auto. intros t i I. rewrite VY, VZ by (auto; cbn; lia). reflexivity.
Qed.

(** Without bias a null input gives a null output; with bias the constant. *)
Theorem poly_at_zero degree is_bias w : poly degree (coefficients is_bias w) 0 = if is_bias then nth 0 w 0 else 0.
Proof.
  unfold poly. rewrite rsum_first. rewrite (rsum_ext _ _ (fun _ => 0)) by (intros; cbn [pow]; ring).
  rewrite rsum_zero by auto. unfold coefficients. destruct is_bias; cbn [pow]; ring.
Qed.
(** Weights of the identity, with and without bias: the transferred model is
    left unchanged. *)
Theorem poly_identity degree is_bias x : (1 <= degree)%nat ->
  poly degree (coefficients is_bias (if is_bias then 0 :: 1 :: repeat 0 (degree - 1) else 1 :: repeat 0 (degree - 1))) x = x.
Proof.
  intros D. unfold poly. destruct degree as [|d]; [lia|]. cbn [Nat.sub]. rewrite !rsum_first. rewrite Nat.sub_0_r.
  assert (R0 : forall k, nth k (repeat 0 d) 0 = 0) by (induction d; destruct k; cbn; auto; apply IHd; lia).
  rewrite (rsum_ext d _ (fun _ => 0)).
  - rewrite rsum_zero by auto. destruct is_bias; cbn; ring.
  - intros i _. destruct is_bias; cbn [coefficients nth]; rewrite R0; ring.
Qed.
(** The output is linear in the weights (a linear regression). *)
Theorem poly_linear_in_weights degree is_bias a b w v x : length w = length v ->
  poly degree (coefficients is_bias (map (fun p => a * fst p + b * snd p) (combine w v))) x
  = a * poly degree (coefficients is_bias w) x + b * poly degree (coefficients is_bias v) x.
Proof.
  intros L. unfold poly.
  assert (NT : forall d, nth d (map (fun p => a * fst p + b * snd p) (combine w v)) 0 = a * nth d w 0 + b * nth d v 0).
  { clear -L. revert v L. induction w as [|u w IH]; intros [|u' v] L d; try discriminate; [destruct d; cbn; ring|].
    destruct d; [reflexivity|]. cbn [combine map nth]. apply IH. cbn in L. lia. }
  induction (S degree) as [|k IH]; [cbn; ring|]. cbn [rsum]. rewrite IH. unfold coefficients. destruct is_bias.
  - rewrite NT. ring.
  - destruct k; [ring|]. rewrite NT. ring.
Qed.

(** The coefficients are determined by the outputs on more inputs than the
    degree. *)
Theorem poly_identifiable degree c c' xs : NoDup xs -> length xs = S degree ->
  (forall x, In x xs -> poly degree c x = poly degree c' x) -> forall d, (d <= degree)%nat -> c d = c' d.
Proof.
  intros ND L E d Hd.
  set (diff := map (fun k => c k - c' k) (seq 0 (S degree))).
  assert (LD : length diff = length xs) by (unfold diff; rewrite map_length, seq_length; auto).
  assert (Z : forall k, In k diff -> k = 0).
  { apply (roots_null xs); auto. intros x X. rewrite <- polynomial_horner. unfold polynomial.
    replace (length diff) with (S degree) by congruence. rewrite lsum_seq. specialize (E x X). unfold poly in E.
    rewrite (rsum_ext _ _ (fun i => c i * x ^ i - c' i * x ^ i)).
    - assert (A : forall n f g, rsum n (fun i => f i - g i) = rsum n f - rsum n g)
        by (induction n; intros; cbn; [ring|rewrite IHn; ring]).
      rewrite A. lra.
    - intros i Hi. unfold diff. rewrite nth_map_seq by auto. ring. }
  specialize (Z (c d - c' d)). enough (In (c d - c' d) diff) by (specialize (Z H); lra).
  unfold diff. apply in_map_iff. exists d. split; auto. apply in_seq. lia.
Qed.

(** Inputs of another width are refused: too few features, or too many. *)
Theorem poly_forward_width n degree is_bias m x : is_regressor n degree is_bias m ->
  (0 < n)%nat -> (is_bias = true \/ 0 < degree)%nat -> (0 < len x * batch x)%nat -> nfeat x <> n ->
  poly_forward m x = Err (if Nat.eqb (nfeat x) 0 then RuntimeError else if Nat.ltb (nfeat x) n then IndexError else RuntimeError).
Proof.
  intros H P D TB N. unfold poly_forward. destruct (unsqueeze_eq x) as (f & E & F). rewrite E.
  assert (NC : (0 < pr_ncoeff m)%nat) by (destruct H as (_ & _ & C & _); rewrite C; destruct is_bias, D; try discriminate; lia).
  replace (pr_nfeat m) with n by (destruct H as (? & _); auto).
  destruct (Nat.eqb_spec (nfeat x) 0); [reflexivity|].
  destruct (Nat.ltb_spec (nfeat x) n) as [Lt|Ge].
  - assert (A : forall k o, (o + k = n)%nat -> (o <= nfeat x)%nat ->
      rmap (feature_output m (nfeat x) (flat (batch x) f)) (seq o k) = Err IndexError).
    { induction k as [|k IH]; intros o K O; [lia|]. cbn [seq rmap].
      destruct (Nat.eq_dec o (nfeat x)) as [->|NE].
      - unfold feature_output at 1. rewrite Nat.ltb_irrefl. reflexivity.
      - unfold feature_output at 1. replace (Nat.ltb o (nfeat x)) with true by (symmetry; apply Nat.ltb_lt; lia).
        cbn [negb]. rewrite (degrees_eq _ _ _ _ H). destruct (pr_ncoeff m); [lia|]. cbn [seq map stack rbind].
        rewrite IH by lia. reflexivity. }
    rewrite A by lia. reflexivity.
  - destruct (outputs n degree is_bias m (nfeat x) (flat (batch x) f) H Ge NC) as (outs & EO & LO & _).
    rewrite EO. cbn [rbind]. destruct outs; [cbn in LO; lia|]. cbn [stack rbind].
    replace (len x * batch x * n =? len x * batch x * nfeat x)%nat with false; [reflexivity|].
    symmetry. apply Nat.eqb_neq. nia.
Qed.

(** A polynomial of degree zero without bias has no coefficient: the model can
    be built but every evaluation fails. *)
Theorem poly_degree_zero_refuted : exists m x, is_regressor 1 0 false m /\ nfeat x = 1%nat /\
  poly_forward m x = Err RuntimeError.
Proof.
  exists (regressor_init 1 0 false (fun _ _ => 0)), (S2 1 1 (fun _ _ => 0)).
  split; [apply regressor_init_ok|]. split; reflexivity.
Qed.

(** The device that was set can never be read. *)
Theorem get_device_refuted cuda d : set_device cuda d = Ok d -> get_device regressor_attributes = Err AttributeError.
Proof. reflexivity. Qed.
Theorem set_device_checks cuda d r : set_device cuda d = r ->
  (r = Ok d /\ (d = "cpu" \/ (d = "cuda" /\ cuda = true))%string) \/ r = Err RuntimeError.
Proof.
  unfold set_device. intros <-. destruct (String.eqb_spec d "cpu"), (String.eqb_spec d "cuda"), cuda; subst; cbn; auto; try congruence.
Qed.

(** ** Elastic model *)

(** The elastic strain: the features, or total strain minus plastic strain with
    the total strain first. *)
Definition transfer_reads (x : series) (order : list comp) (e : nat -> nat -> T2) : Prop :=
  (nfeat x = length order /\
   forall t b i c, (b < batch x)%nat -> nth_error order i = Some c ->
     entry x t b i = e t b (fst c - 1)%nat (snd c - 1)%nat) \/
  (exists et ep : nat -> nat -> T2, nfeat x = (2 * length order)%nat /\
   (forall t b i j, e t b i j = et t b i j - ep t b i j) /\
   forall t b i c, (b < batch x)%nat -> nth_error order i = Some c ->
     entry x t b i = et t b (fst c - 1)%nat (snd c - 1)%nat /\
     entry x t b (length order + i)%nat = ep t b (fst c - 1)%nat (snd c - 1)%nat).

Lemma transfer_forward_rows l x e (law : T2 -> T2) : (0 < length (bl_order l))%nat ->
  (forall t, elastic_row l (store_comps (bl_order l) t) = store_comps (bl_order l) (law t)) ->
  transfer_reads x (bl_order l) e ->
  exists y, transfer_elastic_forward l x = Ok y /\
    (is_batched y = is_batched x /\ len y = len x /\ batch y = batch x /\ nfeat y = length (bl_order l)) /\
    forall t b i c, (b < batch x)%nat -> nth_error (bl_order l) i = Some c ->
      entry y t b i = law (e t b) (fst c - 1)%nat (snd c - 1)%nat.
Proof.
  intros PN HL HR. unfold transfer_elastic_forward. destruct (unsqueeze_eq x) as (f & E & F). rewrite E.
  destruct HR as [[N HR]|(et & ep & N & ED & HR)]; rewrite N.
  - rewrite Nat.eqb_refl. cbn [rbind]. eexists. split; [reflexivity|]. split; [apply shape_resqueeze|].
    intros t b i c Hb Hc. rewrite entry_resqueeze by auto. unfold unflat.
    rewrite (row_of_store _ (bl_order l) (e t b)); auto.
    + rewrite HL. apply store_nth. auto.
    + intros j d Hd. rewrite flat_unflat, F by auto. apply HR; auto.
  - replace (2 * length (bl_order l) =? length (bl_order l))%nat with false by (symmetry; apply Nat.eqb_neq; lia).
    rewrite Nat.eqb_refl. cbn [rbind]. eexists. split; [reflexivity|]. split; [apply shape_resqueeze|].
    intros t b i c Hb Hc. rewrite entry_resqueeze by auto. unfold unflat.
    rewrite (row_of_store _ (bl_order l) (e t b)); auto.
    + rewrite HL. apply store_nth. auto.
    + intros j d Hd. rewrite flat_unflat by auto. rewrite !F by auto.
      destruct (HR t b j d Hb Hd) as [H1 H2]. rewrite H1, H2. symmetry. apply ED.
Qed.

Theorem transfer_elastic_is_hooke_3d E v props s x e :
  pget props PE = Some E -> pget props Pv = Some v -> transfer_reads x order_sym_3d e ->
  exists l y, transfer_elastic_init 4 props s = Ok l /\ transfer_elastic_forward l x = Ok y /\
    (is_batched y = is_batched x /\ len y = len x /\ batch y = batch x /\ nfeat y = 6%nat) /\
    forall t b i c, (b < batch x)%nat -> nth_error order_sym_3d i = Some c ->
      entry y t b i = hooke (lame_lambda E v) (lame_mu E v) (e t b) (fst c - 1)%nat (snd c - 1)%nat.
Proof.
  intros HE Hv HR. unfold transfer_elastic_init, elastic_layer_init. cbn [get_problem_type_parameters rbind].
  unfold elastic_tangent_modulus. rewrite HE, Hv, iso_tangent_mf. cbn [rbind Nat.eqb].
  eexists. destruct (transfer_forward_rows (ELayer order_sym_3d (iso_mf (lame_lambda E v) (2 * lame_mu E v)))
    x e (hooke (lame_lambda E v) (lame_mu E v))) as (y & EY & SH & HY).
  - simpl. lia.
  - intros t. apply elastic_row_3d.
  - exact HR.
  - exists y. split; [reflexivity|]. auto.
Qed.
Theorem transfer_elastic_is_hooke_2d E v props s x e :
  pget props PE = Some E -> pget props Pv = Some v -> transfer_reads x order_sym_2d e ->
  exists l y, transfer_elastic_init 1 props s = Ok l /\ transfer_elastic_forward l x = Ok y /\
    (is_batched y = is_batched x /\ len y = len x /\ batch y = batch x /\ nfeat y = 3%nat) /\
    forall t b i c, (b < batch x)%nat -> nth_error order_sym_2d i = Some c ->
      entry y t b i = hooke (lame_lambda E v) (lame_mu E v) (plane (e t b)) (fst c - 1)%nat (snd c - 1)%nat.
Proof.
  intros HE Hv HR. unfold transfer_elastic_init, elastic_layer_init. cbn [get_problem_type_parameters rbind].
  unfold elastic_tangent_modulus. rewrite HE, Hv, iso_tangent_mf. cbn [rbind Nat.eqb].
  rewrite iso_mf_2d. cbn [rbind].
  eexists. destruct (transfer_forward_rows (ELayer order_sym_2d (iso_mf2 (lame_lambda E v) (2 * lame_mu E v)))
    x e (fun t => hooke (lame_lambda E v) (lame_mu E v) (plane t))) as (y & EY & SH & HY).
  - simpl. lia.
  - intros t. apply elastic_row_2d.
  - exact HR.
  - exists y. split; [reflexivity|]. auto.
Qed.
Theorem transfer_elastic_shape l x : nfeat x <> length (bl_order l) -> nfeat x <> (2 * length (bl_order l))%nat ->
  transfer_elastic_forward l x = Err RuntimeError.
Proof.
  intros N1 N2. unfold transfer_elastic_forward. destruct (unsqueeze_eq x) as (f & E & _). rewrite E.
  apply Nat.eqb_neq in N1, N2. rewrite N1, N2. reflexivity.
Qed.
(** The two elastic layers of the package are not interchangeable: on
    concatenated strains they return opposite stresses. *)
Theorem elastic_layers_opposite_refuted : exists props l x y z,
  transfer_elastic_init 4 props Isotropic = Ok l /\ elastic_layer_init 4 props Isotropic = Ok l /\
  transfer_elastic_forward l x = Ok y /\ elastic_forward l x = Ok z /\ entry y 0 0 0 <> entry z 0 0 0.
Proof.
  set (x := S2 1 12 (fun _ i => if Nat.eqb i 0 then 1 else 0)).
  set (e11 := fun (v : R) => (fun _ _ i j => if (Nat.eqb i 0 && Nat.eqb j 0)%bool then v else 0) : nat -> nat -> T2).
  set (props := [(PE, 1); (Pv, 0)]).
  assert (NT : forall i c, nth_error order_sym_3d i = Some c ->
    entry x 0 0 i = e11 1 0%nat 0%nat (fst c - 1)%nat (snd c - 1)%nat /\ entry x 0 0 (length order_sym_3d + i) = 0).
  { intros i c Hc. do 6 (destruct i as [|i]; [injection Hc as <-; split; reflexivity|]). destruct i; discriminate. }
  destruct (transfer_elastic_is_hooke_3d 1 0 props Isotropic x (e11 1)) as (l & y & E1 & E2 & _ & H); try reflexivity.
  { right. exists (e11 1), (fun _ _ _ _ => 0). split; [reflexivity|]. split; [intros; ring|]. intros t b i c _ Hc. apply (NT i c Hc). }
  destruct (elastic_layer_is_hooke_3d 1 0 props Isotropic x (e11 (-1))) as (l' & z & E1' & E2' & _ & H'); try reflexivity.
  { right. exists (e11 1), (fun _ _ _ _ => 0). split; [reflexivity|]. split.
    - intros t b i j. unfold e11. destruct (Nat.eqb i 0 && Nat.eqb j 0)%bool; ring.
    - intros t b i c _ Hc. apply (NT i c Hc). }
  assert (l' = l) by (unfold transfer_elastic_init in E1; congruence). subst l'.
  exists props, l, x, y, z. repeat (split; auto).
  rewrite (H 0 0 0 (1, 1))%nat, (H' 0 0 0 (1, 1))%nat by (cbn; auto).
  unfold hooke, e11, lame_lambda, lame_mu, trace, ident. simpl. intro A. field_simplify in A. lra.
Qed.

(** ** Hybridization models *)
Theorem hybridization_known t : (exists h, hybridization_init t = Ok h) <-> (t = "identity" \/ t = "additive")%string.
Proof.
  unfold hybridization_init. destruct (String.eqb_spec t "identity"), (String.eqb_spec t "additive"); subst; split; intros H; eauto; exfalso;
    [destruct H as [h H]; discriminate | destruct H; contradiction].
Qed.
(** The identity model returns the first channel and ignores the others. *)
Theorem hybridization_identity l : hybridization_forward HIdentity l =
  match nth_error l 0 with Some x => Ok (Some x) | None => Err IndexError end.
Proof. destruct l; reflexivity. Qed.
(** The additive model returns the sum of all channels, entry by entry. *)
Theorem hybridization_additive x l : (forall y, In y l -> same_shape x y) ->
  exists y, hybridization_forward HAdditive (x :: l) = Ok (Some y) /\ same_shape x y /\
    forall t b i, (b < batch x)%nat -> entry y t b i = lsum (map (fun z => entry z t b i) (x :: l)).
Proof.
  intros H. cbn [hybridization_forward py_sum]. unfold py_sum. cbn [fold_left].
  assert (A : forall l a, same_shape x a -> (forall y, In y l -> same_shape x y) ->
    exists y, fold_left (fun acc z => match acc with None => Some z | Some b => Some (series_add b z) end) l (Some a) = Some y /\
      same_shape x y /\ forall t b i, entry y t b i = entry a t b i + lsum (map (fun z => entry z t b i) l)).
  { induction l0 as [|z l0 IH]; intros a SA SL.
    - exists a. split; [reflexivity|]. split; auto. intros. cbn. ring.
    - cbn [fold_left]. assert (SZ : same_shape x z) by (apply SL; left; auto).
      destruct (IH (series_add a z)) as (y & E & S & V).
      + destruct SA as (A1 & A2 & A3 & A4), SZ as (B1 & B2 & B3 & B4). unfold same_shape. destruct a, z; cbn in *; repeat split; congruence.
      + intros; apply SL; right; auto.
      + exists y. split; auto. split; auto. intros t b i. rewrite V. cbn [map lsum].
        destruct SA as (A1 & _), SZ as (B1 & _). destruct a, z; cbn in *; try congruence; ring. }
  destruct (A l x) as (y & E & S & V); auto; [repeat split; auto|].
  exists y. rewrite E. split; auto. split; auto. intros t b i _. rewrite V. reflexivity.
Qed.

(** ** Concrete cases *)
Example ex_poly : exists m y, is_regressor 2 2 true m /\
  poly_forward m (S3 1 2 2 (fun _ b i => INR (b + i))) = Ok y /\ entry y 0 1 1 = 1 + 3 * 2 + 5 * 4 /\ entry y 0 0 0 = 1.
Proof.
  set (m := regressor_init 2 2 true (fun _ k => 2 * INR k + 1)). exists m.
  assert (H : is_regressor 2 2 true m) by apply regressor_init_ok.
  destruct (poly_forward_value 2 2 true m (S3 1 2 2 (fun _ b i => INR (b + i))) H) as (y & E & _ & V); auto.
  exists y. split; auto. split; auto. rewrite !V by (cbn; auto). unfold m, poly, coefficients. cbn. split; ring.
Qed.
Example ex_poly_no_bias : exists m y, is_regressor 1 1 false m /\
  poly_forward m (S2 3 1 (fun t _ => INR t)) = Ok y /\ entry y 2 0 0 = 14.
Proof.
  set (m := regressor_init 1 1 false (fun _ _ => 7)). exists m.
  assert (H : is_regressor 1 1 false m) by apply regressor_init_ok.
  destruct (poly_forward_value 1 1 false m (S2 3 1 (fun t _ => INR t)) H) as (y & E & _ & V); auto.
  exists y. split; auto. split; auto. rewrite V by (cbn; auto). unfold m, poly, coefficients. cbn. ring.
Qed.
Example ex_additive : exists y, hybridization_forward HAdditive [S2 1 1 (fun _ _ => 1); S2 1 1 (fun _ _ => 2); S2 1 1 (fun _ _ => 4)] = Ok (Some y)
  /\ entry y 0 0 0 = 7.
Proof. eexists. split; [reflexivity|]. cbn. ring. Qed.

Print Assumptions poly_forward_value.
Print Assumptions poly_identifiable.
Print Assumptions transfer_elastic_is_hooke_3d.
Print Assumptions hybridization_additive.
