(** C58, C59: the volumetric/deviatoric composition layer and the batched
    elastic layer. *)
From Coq Require Import String Reals List Arith Bool Lia Lra.
From Verif Require Import Lib PyDict MatrixModel MatrixSpec MatrixProofs TensorModel TensorSpec
  ElasticModel ElasticSpec ElasticProofs ElasticProps FeaturesModel FeaturesSpec FeaturesProps.
Import ListNotations.
Local Open Scope list_scope.
Local Open Scope R_scope.

(** Entries of a series: time, batch index, feature. *)
Definition entry (x : series) (t b i : nat) : R :=
  match x with S2 _ _ f => f t i | S3 _ _ _ f => f t b i end.
Definition len (x : series) : nat := match x with S2 T _ _ | S3 T _ _ _ => T end.
Definition batch (x : series) : nat := match x with S2 _ _ _ => 1%nat | S3 _ B _ _ => B end.
Definition nfeat (x : series) : nat := match x with S2 _ n _ | S3 _ _ n _ => n end.
(** One sequence of a batch, as unbatched input. *)
Definition sequence (x : series) (b : nat) : series := S2 (len x) (nfeat x) (fun t i => entry x t b i).

Lemma unsqueeze_eq x : exists f, unsqueeze x = (len x, batch x, nfeat x, f) /\
  forall t b i, (b < batch x)%nat -> f t b i = entry x t b i.
Proof. destruct x; cbn; eexists; split; reflexivity. Qed.
Lemma entry_resqueeze x T n (f : nat -> nat -> nat -> R) t b i : (b < batch x)%nat ->
  entry (resqueeze (is_batched x) T (batch x) n f) t b i = f t b i.
Proof. destruct x; cbn; intros H; [replace b with 0%nat by lia|]; reflexivity. Qed.
Lemma shape_resqueeze x T n (f : nat -> nat -> nat -> R) :
  let y := resqueeze (is_batched x) T (batch x) n f in
  is_batched y = is_batched x /\ len y = T /\ batch y = batch x /\ nfeat y = n.
Proof. destruct x; cbn; auto. Qed.
Lemma flat_unflat B (f : nat -> nat -> nat -> R) t b i : (b < B)%nat -> flat B f (t * B + b) i = f t b i.
Proof.
  intros H. unfold flat. rewrite Nat.div_add_l, Nat.div_small, Nat.add_0_r by lia.
  rewrite Nat.add_comm, Nat.mod_add, Nat.mod_small by lia. reflexivity.
Qed.
Lemma row_of_flat n B f k i : (i < n)%nat -> nth i (row_of n (flat B f) k) 0 = flat B f k i.
Proof. intros H. unfold row_of. rewrite (nth_indep _ 0 (flat B f k 0%nat)) by (rewrite map_length, seq_length; auto).
  rewrite map_nth, seq_nth by auto. reflexivity. Qed.
Lemma row_of_length n g k : length (row_of n g k) = n.
Proof. unfold row_of. rewrite map_length, seq_length. reflexivity. Qed.

(** ** Volumetric/deviatoric composition *)
Definition voldev_spec (r : list R) : list R :=
  match r with
  | [v; a; b; c; d; e; f] => [v; a + v; b + v; c + v; d; e; f]
  | _ => r
  end.
Lemma voldev_row_eq r : length r = 7%nat -> voldev_row r = voldev_spec r.
Proof. intros H. do 8 (destruct r as [|? r]; try discriminate). reflexivity. Qed.
Lemma voldev_spec_nth r i c : length r = 7%nat -> nth_error order_sym_3d i = Some c ->
  nth (S i) (voldev_spec r) 0 = nth (S i) r 0 + (if Nat.eqb (fst c) (snd c) then nth 0 r 0 else 0).
Proof.
  intros H E. do 8 (destruct r as [|? r]; try discriminate).
  do 6 (destruct i as [|i]; [injection E as <-; simpl; ring|]). destruct i; discriminate.
Qed.
Lemma voldev_spec_head r : length r = 7%nat -> nth 0 (voldev_spec r) 0 = nth 0 r 0.
Proof. intros H. do 8 (destruct r as [|? r]; try discriminate). reflexivity. Qed.

(** Output: deviatoric components, plus the volumetric component on the
    diagonal ones.  Memory: the volumetric component is kept, the deviatoric
    components of the caller's tensor are overwritten with the output. *)
Theorem voldev_forward_effect x : nfeat x = 7%nat ->
  exists y x', voldev_forward x = Ok (y, x') /\
    (is_batched y = is_batched x /\ len y = len x /\ batch y = batch x /\ nfeat y = 6%nat) /\
    (forall t b i c, (b < batch x)%nat -> nth_error order_sym_3d i = Some c ->
       entry y t b i = entry x t b (S i) + (if Nat.eqb (fst c) (snd c) then entry x t b 0 else 0)) /\
    (is_batched x' = is_batched x /\ len x' = len x /\ batch x' = batch x /\ nfeat x' = 7%nat) /\
    (forall t b, (b < batch x)%nat -> entry x' t b 0 = entry x t b 0 /\
       forall i, (i < 6)%nat -> entry x' t b (S i) = entry y t b i).
Proof.
  intros N. unfold voldev_forward. destruct (unsqueeze_eq x) as (f & E & F). rewrite E, N.
  change (1 + length order_sym_3d)%nat with 7%nat. cbn [Nat.eqb negb].
  do 2 eexists. split; [reflexivity|]. split; [apply shape_resqueeze|]. split; [|split; [apply shape_resqueeze|]].
  - intros t b i c Hb Hc. rewrite entry_resqueeze by auto. unfold unflat.
    rewrite voldev_row_eq by apply row_of_length. rewrite (voldev_spec_nth _ i c) by (auto; apply row_of_length).
    assert (i < 6)%nat by (change 6%nat with (length order_sym_3d); apply nth_error_Some; congruence).
    rewrite !row_of_flat by lia. rewrite !flat_unflat by auto. rewrite !F by auto. reflexivity.
  - intros t b Hb. split.
    + rewrite entry_resqueeze by auto. unfold unflat. rewrite voldev_row_eq by apply row_of_length.
      rewrite voldev_spec_head by apply row_of_length. rewrite row_of_flat by lia. rewrite flat_unflat, F by auto.
      reflexivity.
    + intros i Hi. rewrite !entry_resqueeze by auto. reflexivity.
Qed.

Theorem voldev_forward_shape x : nfeat x <> 7%nat -> voldev_forward x = Err RuntimeError.
Proof.
  intros N. unfold voldev_forward. destruct (unsqueeze_eq x) as (f & E & _). rewrite E.
  change (1 + length order_sym_3d)%nat with 7%nat. apply Nat.eqb_neq in N. rewrite N. reflexivity.
Qed.

(** The sequences of a batch do not influence each other. *)
Theorem voldev_batch_independent x b : nfeat x = 7%nat -> (b < batch x)%nat ->
  exists y x' z z', voldev_forward x = Ok (y, x') /\ voldev_forward (sequence x b) = Ok (z, z') /\
    forall t i, (i < 6)%nat -> entry z t 0 i = entry y t b i.
Proof.
  intros N Hb. destruct (voldev_forward_effect x N) as (y & x' & E & _ & H & _).
  destruct (voldev_forward_effect (sequence x b) N) as (z & z' & E' & _ & H' & _).
  exists y, x', z, z'. split; auto. split; auto. intros t i Hi.
  assert (exists c, nth_error order_sym_3d i = Some c) as [c C].
  { destruct (nth_error order_sym_3d i) eqn:C; eauto. apply nth_error_None in C. simpl in C. lia. }
  rewrite (H t b i c Hb C), (H' t 0%nat i c) by (auto; cbn; lia). reflexivity.
Qed.

(** Stress features and composition are inverse: concatenating the two stress
    features of each time and applying the layer gives back the stress path. *)
Theorem stress_features_compose (T B : nat) (stress : nat -> nat -> list R) :
  (forall t b, length (stress t b) = 6%nat) ->
  exists vol dev : nat -> nat -> list R,
    (forall t b, compute_stress_feature (stress t b) "vol_stress" 3 order_sym_3d = Ok (vol t b) /\
                 compute_stress_feature (stress t b) "dev_stress" 3 order_sym_3d = Ok (dev t b)) /\
    exists y x', voldev_forward (S3 T B 7 (fun t b i => nth i (vol t b ++ dev t b) 0)) = Ok (y, x') /\
      nfeat y = 6%nat /\
      forall t b i, (b < B)%nat -> (i < 6)%nat -> entry y t b i = nth i (stress t b) 0.
Proof.
  intros L.
  assert (V : forall t b, exists vd : R * list R,
     compute_stress_feature (stress t b) "vol_stress" 3 order_sym_3d = Ok [fst vd] /\
     compute_stress_feature (stress t b) "dev_stress" 3 order_sym_3d = Ok (snd vd) /\
     length (snd vd) = 6%nat /\
     forall m c, nth_error order_sym_3d m = Some c ->
      nth m (snd vd) 0 + (if Nat.eqb (fst c) (snd c) then fst vd else 0) = nth m (stress t b) 0).
  { intros t b. destruct (store_build_inverse 3 order_sym_3d (stress t b) order3_sym (L t b)) as (u & _ & S & E).
    destruct (stress_features_split order_sym_3d u (stress t b)) as (v & d & A1 & A2 & A3 & A4).
    - left. split; [apply order3_sym|exact S].
    - rewrite <- E. apply store_reads_tensor.
    - exists (v, d). cbn. rewrite L in A3. auto. }
  set (vol := fun t b => match compute_stress_feature (stress t b) "vol_stress" 3 order_sym_3d with Ok v => v | Err _ => [] end).
  set (dev := fun t b => match compute_stress_feature (stress t b) "dev_stress" 3 order_sym_3d with Ok v => v | Err _ => [] end).
  exists vol, dev. split.
  { intros t b. unfold vol, dev. destruct (V t b) as (vd & E1 & E2 & _). rewrite E1, E2. auto. }
  destruct (voldev_forward_effect (S3 T B 7 (fun t b i => nth i (vol t b ++ dev t b) 0)) eq_refl)
    as (y & x' & E & (_ & _ & _ & NF) & H & _).
  exists y, x'. split; auto. split; auto. intros t b i Hb Hi.
  assert (exists c, nth_error order_sym_3d i = Some c) as [c C].
  { destruct (nth_error order_sym_3d i) eqn:C; eauto. apply nth_error_None in C. simpl in C. lia. }
  rewrite (H t b i c Hb C). destruct (V t b) as (vd & E1 & E2 & _ & E4). cbn [entry].
  unfold vol, dev. rewrite E1, E2. apply (E4 i c C).
Qed.

(** Forward is not a pure function: it changes its argument, and evaluating it
    again on the same tensor gives another result. *)
Theorem voldev_forward_pure_refuted : exists x y x' y' x'',
  voldev_forward x = Ok (y, x') /\ voldev_forward x' = Ok (y', x'') /\
  entry x' 0 0 1 <> entry x 0 0 1 /\ entry y' 0 0 0 <> entry y 0 0 0.
Proof.
  set (x := S2 1 7 (fun _ _ => 1)). assert (N : nfeat x = 7%nat) by reflexivity.
  destruct (voldev_forward_effect x N) as (y & x' & E & _ & Y & (_ & _ & B' & N') & X).
  destruct (voldev_forward_effect x' N') as (y' & x'' & E' & _ & Y' & _).
  exists x, y, x', y', x''. split; auto. split; auto.
  assert (C : nth_error order_sym_3d 0 = Some (1, 1)%nat) by reflexivity.
  assert (HB : (0 < batch x)%nat) by (cbn; lia).
  destruct (X 0%nat 0%nat HB) as [X0 X1]. specialize (X1 0%nat ltac:(lia)).
  specialize (Y 0%nat 0%nat 0%nat _ HB C). specialize (Y' 0%nat 0%nat 0%nat (1, 1)%nat ltac:(lia) C).
  rewrite X0, X1, Y in Y'. rewrite X1, Y. rewrite Y'. cbn. split; lra.
Qed.

(** ** Batched elastic layer *)
Lemma elastic_row_3d E v (e : T2) :
  elastic_row (ELayer order_sym_3d (iso_mf (lame_lambda E v) (2 * lame_mu E v)))
    (store_comps order_sym_3d e)
  = store_comps order_sym_3d (hooke (lame_lambda E v) (lame_mu E v) e).
Proof.
  unfold elastic_row, bl_order, bl_tangent.
  replace (map _ (combine order_sym_3d (store_comps order_sym_3d e))) with (kmf e).
  - rewrite hooke_kmf. unfold kmf, store_comps, order_sym_3d, layer_kelvin, row, col. simpl.
    repeat match goal with |- cons _ _ = cons _ _ => apply f_equal2 | |- nil = nil => reflexivity end;
    field; apply sqrt2_neq.
  - unfold kmf, store_comps, order_sym_3d, layer_kelvin, row, col. simpl.
    repeat match goal with |- cons _ _ = cons _ _ => apply f_equal2 | |- nil = nil => reflexivity end; ring.
Qed.
Definition iso_mf2 (a b : R) : list (list R) := [[a + b; a; 0]; [a; a + b; 0]; [0; 0; b]].
Lemma iso_mf_2d a b : vget_state_2Dmf_from_3Dmf_mat (iso_mf a b) = Ok (iso_mf2 a b).
Proof. reflexivity. Qed.
Lemma elastic_row_2d E v (e : T2) :
  elastic_row (ELayer order_sym_2d (iso_mf2 (lame_lambda E v) (2 * lame_mu E v)))
    (store_comps order_sym_2d e)
  = store_comps order_sym_2d (hooke (lame_lambda E v) (lame_mu E v) (plane e)).
Proof.
  unfold elastic_row, bl_order, bl_tangent, iso_mf2, mv, store_comps, order_sym_2d, layer_kelvin, row, col, hooke,
    plane, trace, ident. simpl.
  generalize (lame_lambda E v) (lame_mu E v). intros lam mu.
  repeat match goal with |- cons _ _ = cons _ _ => apply f_equal2 | |- nil = nil => reflexivity end;
  field; apply sqrt2_neq.
Qed.

Lemma row_of_store n order (e : T2) (g : nat -> nat -> R) k : length order = n ->
  (forall i c, nth_error order i = Some c -> g k i = e (fst c - 1)%nat (snd c - 1)%nat) ->
  row_of n g k = store_comps order e.
Proof.
  intros L H. apply (nth_ext _ _ 0 0); [unfold store_comps; rewrite row_of_length, map_length; auto|].
  rewrite row_of_length. intros i Hi. unfold row_of. rewrite (nth_indep _ 0 (g k 0%nat)) by (rewrite map_length, seq_length; auto).
  rewrite map_nth, seq_nth by auto. cbn.
  unfold store_comps. rewrite nth_map_comp by lia. rewrite (H i (nth i order (0,0)%nat)); [reflexivity|].
  apply nth_error_nth'. lia.
Qed.
Lemma store_nth order (t : T2) i c : nth_error order i = Some c ->
  nth i (store_comps order t) 0 = t (fst c - 1)%nat (snd c - 1)%nat.
Proof. intros H. apply (proj2 (store_reads_tensor order t) i c H). Qed.

(** The elastic strain read by the layer: the input features, or the second
    half of the features minus the first half. *)
Definition reads (x : series) (order : list comp) (e : nat -> nat -> T2) : Prop :=
  (nfeat x = length order /\
   forall t b i c, (b < batch x)%nat -> nth_error order i = Some c ->
     entry x t b i = e t b (fst c - 1)%nat (snd c - 1)%nat) \/
  (exists ep et : nat -> nat -> T2, nfeat x = (2 * length order)%nat /\
   (forall t b i j, e t b i j = et t b i j - ep t b i j) /\
   forall t b i c, (b < batch x)%nat -> nth_error order i = Some c ->
     entry x t b i = ep t b (fst c - 1)%nat (snd c - 1)%nat /\
     entry x t b (length order + i)%nat = et t b (fst c - 1)%nat (snd c - 1)%nat).

Lemma elastic_forward_rows l x e (law : T2 -> T2) : (0 < length (bl_order l))%nat ->
  (forall t, elastic_row l (store_comps (bl_order l) t) = store_comps (bl_order l) (law t)) ->
  reads x (bl_order l) e ->
  exists y, elastic_forward l x = Ok y /\
    (is_batched y = is_batched x /\ len y = len x /\ batch y = batch x /\ nfeat y = length (bl_order l)) /\
    forall t b i c, (b < batch x)%nat -> nth_error (bl_order l) i = Some c ->
      entry y t b i = law (e t b) (fst c - 1)%nat (snd c - 1)%nat.
Proof.
  intros PN HL HR. unfold elastic_forward. destruct (unsqueeze_eq x) as (f & E & F). rewrite E.
  destruct HR as [[N HR]|(ep & et & N & ED & HR)]; rewrite N.
  - rewrite Nat.eqb_refl. cbn [rbind]. eexists. split; [reflexivity|]. split; [apply shape_resqueeze|].
    intros t b i c Hb Hc. rewrite entry_resqueeze by auto. unfold unflat.
    rewrite (row_of_store _ (bl_order l) (e t b)); auto.
    + rewrite HL. apply store_nth. auto.
    + intros j d Hd. rewrite flat_unflat, F by auto. apply HR; auto.
  - replace (2 * length (bl_order l) =? length (bl_order l))%nat with false by (symmetry; apply Nat.eqb_neq; lia).
    rewrite Nat.eqb_refl. cbn [rbind]. eexists. split; [reflexivity|]. split; [apply shape_resqueeze|].
    intros t b i c Hb Hc. rewrite entry_resqueeze by auto. unfold unflat.
    rewrite (row_of_store _ (bl_order l) (e t b)); auto.
    + rewrite HL. apply store_nth. auto.
    + intros j d Hd. rewrite flat_unflat by auto. rewrite !F by auto.
      destruct (HR t b j d Hb Hd) as [H1 H2]. rewrite H1, H2. symmetry. apply ED.
Qed.

Theorem elastic_layer_is_hooke_3d E v props s x e :
  pget props PE = Some E -> pget props Pv = Some v -> reads x order_sym_3d e ->
  exists l y, elastic_layer_init 4 props s = Ok l /\ elastic_forward l x = Ok y /\
    (is_batched y = is_batched x /\ len y = len x /\ batch y = batch x /\ nfeat y = 6%nat) /\
    forall t b i c, (b < batch x)%nat -> nth_error order_sym_3d i = Some c ->
      entry y t b i = hooke (lame_lambda E v) (lame_mu E v) (e t b) (fst c - 1)%nat (snd c - 1)%nat.
Proof.
  intros HE Hv HR. unfold elastic_layer_init. cbn [get_problem_type_parameters rbind].
  unfold elastic_tangent_modulus. rewrite HE, Hv, iso_tangent_mf. cbn [rbind Nat.eqb].
  eexists. destruct (elastic_forward_rows (ELayer order_sym_3d (iso_mf (lame_lambda E v) (2 * lame_mu E v)))
    x e (hooke (lame_lambda E v) (lame_mu E v))) as (y & EY & SH & HY).
  - simpl. lia.
  - intros t. apply elastic_row_3d.
  - exact HR.
  - exists y. split; [reflexivity|]. auto.
Qed.

Theorem elastic_layer_is_hooke_2d E v props s x e :
  pget props PE = Some E -> pget props Pv = Some v -> reads x order_sym_2d e ->
  exists l y, elastic_layer_init 1 props s = Ok l /\ elastic_forward l x = Ok y /\
    (is_batched y = is_batched x /\ len y = len x /\ batch y = batch x /\ nfeat y = 3%nat) /\
    forall t b i c, (b < batch x)%nat -> nth_error order_sym_2d i = Some c ->
      entry y t b i = hooke (lame_lambda E v) (lame_mu E v) (plane (e t b)) (fst c - 1)%nat (snd c - 1)%nat.
Proof.
  intros HE Hv HR. unfold elastic_layer_init. cbn [get_problem_type_parameters rbind].
  unfold elastic_tangent_modulus. rewrite HE, Hv, iso_tangent_mf. cbn [rbind Nat.eqb].
  rewrite iso_mf_2d. cbn [rbind].
  eexists. destruct (elastic_forward_rows (ELayer order_sym_2d (iso_mf2 (lame_lambda E v) (2 * lame_mu E v)))
    x e (fun t => hooke (lame_lambda E v) (lame_mu E v) (plane t))) as (y & EY & SH & HY).
  - simpl. lia.
  - intros t. apply elastic_row_2d.
  - exact HR.
  - exists y. split; [reflexivity|]. auto.
Qed.

Theorem elastic_forward_shape l x : nfeat x <> length (bl_order l) -> nfeat x <> (2 * length (bl_order l))%nat ->
  elastic_forward l x = Err RuntimeError.
Proof.
  intros N1 N2. unfold elastic_forward. destruct (unsqueeze_eq x) as (f & E & _). rewrite E.
  apply Nat.eqb_neq in N1, N2. rewrite N1, N2. reflexivity.
Qed.

(** The layer ignores the elastic symmetry it was given: with the moduli of an
    orthotropic material it does not compute the stress of that material. *)
Theorem elastic_layer_symmetry_refuted : exists props l C y,
  elastic_layer_init 4 props Orthotropic = Ok l /\
  elastic_tangent_modulus props Orthotropic = Ok C /\
  elastic_forward l (S2 1 6 (fun _ i => if Nat.eqb i 2 then 1 else 0)) = Ok y /\
  entry y 0 0 2 <> nth 2 (mv C [0; 0; 1; 0; 0; 0]) 0.
Proof.
  set (props := [(PM c11 c11, 1); (PM c22 c22, 1); (PM c33 c33, 2); (PM c11 c22, 0); (PM c11 c33, 0);
     (PM c22 c33, 0); (PM c12 c12, 1); (PM c23 c23, 1); (PM c13 c13, 1)]).
  exists props. do 3 eexists. split; [|split; [|split]].
  - unfold elastic_layer_init. cbn [get_problem_type_parameters rbind Nat.eqb].
    unfold elastic_tangent_modulus. cbn [props pget pname_eqb].
    cbn. reflexivity.
  - unfold elastic_tangent_modulus. cbn. reflexivity.
  - cbn. reflexivity.
  - cbn. lra.
Qed.

(** ** Concrete cases *)
Example ex_voldev : exists y x', voldev_forward (S2 1 7 (fun _ i => INR i)) = Ok (y, x') /\ nfeat y = 6%nat /\
  entry y 0 0 2 = 3 /\ entry (S2 1 7 (fun _ i => INR i)) 0 0 0 = 0.
Proof.
  destruct (voldev_forward_effect (S2 1 7 (fun _ i => INR i)) eq_refl) as (y & x' & E & (_ & _ & _ & N) & H & _).
  exists y, x'. split; auto. split; auto. rewrite (H 0 0 2 (3, 3))%nat by (cbn; auto). cbn. split; ring.
Qed.
Example ex_elastic_layer : exists l y,
  elastic_layer_init 4 [(PE, 1); (Pv, 0)] Isotropic = Ok l /\
  elastic_forward l (S3 2 1 12 (fun _ _ i => if Nat.eqb i 6 then 3 else if Nat.eqb i 0 then 1 else 0)) = Ok y /\
  entry y 1 0 0 = 2.
Proof.
  set (e11 := fun (v : R) => (fun _ _ i j => if (Nat.eqb i 0 && Nat.eqb j 0)%bool then v else 0) : nat -> nat -> T2).
  destruct (elastic_layer_is_hooke_3d 1 0 [(PE, 1); (Pv, 0)] Isotropic
    (S3 2 1 12 (fun _ _ i => if Nat.eqb i 6 then 3 else if Nat.eqb i 0 then 1 else 0)) (e11 2)) as (l & y & E1 & E2 & _ & H);
    try reflexivity.
  - right. exists (e11 1), (e11 3). split; [reflexivity|]. split.
    + intros t b i j. unfold e11. destruct (Nat.eqb i 0 && Nat.eqb j 0)%bool; lra.
    + intros t b i c Hb Hc. do 6 (destruct i as [|i]; [injection Hc as <-; split; reflexivity|]). destruct i; discriminate.
  - exists l, y. split; auto. split; auto. rewrite (H 1 0 0 (1, 1))%nat by (cbn; auto).
    unfold hooke, e11, lame_lambda, lame_mu, trace, ident. simpl. field.
Qed.

Print Assumptions voldev_forward_effect.
Print Assumptions stress_features_compose.
Print Assumptions elastic_layer_is_hooke_3d.
