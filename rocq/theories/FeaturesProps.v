(** C57-C59: strain and stress features, volumetric/deviatoric composition and
    the batched elastic layer. *)
From Coq Require Import String Reals List Arith Bool Lia Lra.
From Verif Require Import Lib PyDict MatrixModel MatrixSpec MatrixProofs TensorModel TensorSpec TensorProofs
  ElasticModel ElasticSpec ElasticProofs ElasticProps DatasetModel DatasetSpec DatasetProps
  FeaturesModel FeaturesSpec.
Import ListNotations.
Local Open Scope list_scope.
Local Open Scope R_scope.

(** ** Tensors from component arrays *)
Lemma sym_index_readable n order t i j m : readable n order t -> (i < n)%nat -> (j < n)%nat ->
  sym_index i j order = Some m ->
  (m < length order)%nat /\ t (fst (nth m order (0,0)%nat) - 1)%nat (snd (nth m order (0,0)%nat) - 1)%nat = t i j.
Proof.
  intros [[SO S]|FO] Hi Hj E.
  - apply sym_index_some in E. destruct E as [L [[<- <-]|[R C]]]; split; auto.
    unfold row in R. unfold col in C. rewrite R, C. apply S; auto.
  - destruct (sym_index_full n order i j FO Hi Hj) as (m' & E' & L & R & C).
    rewrite E in E'. inversion E'; subst m'. split; auto; rewrite <- R, <- C; reflexivity.
Qed.
Lemma readable_total n order t : readable n order t -> sym_index_total n order = true.
Proof. intros [[SO _]|FO]; [apply sym_index_total_sym|apply sym_index_total_full]; auto. Qed.
Lemma stores_nth order t arr m : stores order t arr -> (m < length order)%nat ->
  nth m arr 0 = t (fst (nth m order (0,0)%nat) - 1)%nat (snd (nth m order (0,0)%nat) - 1)%nat.
Proof.
  intros [_ H] L. apply H. apply nth_error_nth'. exact L.
Qed.

Theorem build_reads_components n order t arr : readable n order t -> stores order t arr ->
  exists u, build_from_comps n order arr = Ok u /\ eq2 n u t.
Proof.
  intros RD ST. unfold build_from_comps. rewrite (readable_total n order t RD). cbn [negb].
  assert (IX : forall i j, (i < n)%nat -> (j < n)%nat -> exists m, sym_index i j order = Some m).
  { intros i j Hi Hj. destruct RD as [[SO _]|FO]; [eapply sym_index_sym; eauto|].
    destruct (sym_index_full n order i j FO Hi Hj) as (m & E & _); eauto. }
  rewrite (proj2 (forallb_forall _ _)).
  - eexists. split; [reflexivity|]. intros i j Hi Hj. destruct (IX i j Hi Hj) as [m E]. rewrite E.
    destruct (sym_index_readable n order t i j m RD Hi Hj E) as [L Q]. rewrite <- Q. apply stores_nth; auto.
  - intros i Hi. apply forallb_forall. intros j Hj. apply in_seq in Hi, Hj.
    destruct (IX i j) as [m E]; try lia. rewrite E. apply Nat.ltb_lt.
    destruct (sym_index_readable n order t i j m RD) as [L _]; auto; try lia.
    destruct ST as [SL _]. lia.
Qed.

Lemma nth_error_comp_in n order m c : (forall c, In c order -> comp_in n c) -> nth_error order m = Some c ->
  (fst c - 1 < n)%nat /\ (snd c - 1 < n)%nat.
Proof. intros H E. apply nth_error_In in E. apply H in E. destruct E. lia. Qed.
Lemma readable_comps n order t : readable n order t -> forall c, In c order -> comp_in n c.
Proof. intros [[(_ & H & _) _]|[_ H]] c I; apply H; auto. Qed.

(** Building and storing are inverse. *)
Theorem store_reads_tensor order t : stores order t (store_comps order t).
Proof.
  split; [apply map_length|]. intros m c E. unfold store_comps.
  rewrite nth_map_comp by (apply nth_error_Some; congruence).
  rewrite (nth_error_nth _ _ _ E). reflexivity.
Qed.
Theorem store_build_inverse n order arr : sym_order n order -> length arr = length order ->
  exists u, build_from_comps n order arr = Ok u /\ symmetric n u /\ store_comps order u = arr.
Proof.
  intros SO L.
  set (t := fun i j => match sym_index i j order with Some m => nth m arr 0 | None => 0 end : R).
  assert (SI : forall i j, (i < n)%nat -> (j < n)%nat -> sym_index i j order = sym_index j i order).
  { intros i j Hi Hj. destruct (Nat.eq_dec i j) as [->|N]; auto. unfold sym_index.
    destruct (index_of (i + 1, j + 1)%nat order) eqn:E1; destruct (index_of (j + 1, i + 1)%nat order) eqn:E2; auto.
    apply index_of_some in E1, E2. destruct E1 as [L1 E1], E2 as [L2 E2].
    exfalso. destruct SO as (_ & _ & _ & A). apply (A (i + 1) (j + 1))%nat; [lia| |].
    - rewrite <- E1. apply nth_In. auto.
    - rewrite <- E2. apply nth_In. auto. }
  assert (ST : stores order t arr).
  { split; auto. intros m c E.
    assert (Lm : (m < length order)%nat) by (apply nth_error_Some; congruence).
    assert (CI : comp_in n c) by (apply (proj1 (proj2 SO)); eapply nth_error_In; eauto).
    unfold t, sym_index. destruct CI as [C1 C2]. replace (fst c - 1 + 1)%nat with (fst c) by lia.
    replace (snd c - 1 + 1)%nat with (snd c) by lia. rewrite <- surjective_pairing.
    rewrite <- (nth_error_nth _ _ (0,0)%nat E), index_of_nth; auto. apply (proj1 SO). }
  assert (SY : symmetric n t) by (intros i j Hi Hj; unfold t; rewrite SI; auto).
  destruct (build_reads_components n order t arr) as (u & E & Q); [left; auto|auto|].
  exists u. split; auto. split.
  - intros i j Hi Hj. rewrite (Q i j), (Q j i) by auto. apply SY; auto.
  - apply (nth_ext _ _ 0 0); [unfold store_comps; rewrite map_length; auto|].
    intros m Hm. unfold store_comps in *. rewrite map_length in Hm. rewrite nth_map_comp by auto.
    rewrite (stores_nth order t arr m ST Hm). unfold row, col. apply Q;
    apply (nth_error_comp_in n order m); try apply (proj1 (proj2 SO)); apply nth_error_nth'; auto.
Qed.

(** ** Invariants of the strain *)
Lemma torch_trace_eq t : torch_trace 3 t = trace 3 t.
Proof. unfold torch_trace, trace. simpl. ring. Qed.
Lemma torch_matmul_eq a b : forall i j, torch_matmul 3 a b i j = mul2 3 a b i j.
Proof. intros. unfold torch_matmul, mul2. simpl. ring. Qed.
Lemma torch_trace_ext n a b : eq2 n a b -> torch_trace n a = torch_trace n b.
Proof.
  intros Q. unfold torch_trace. f_equal. apply map_ext_in. intros i Hi. apply in_seq in Hi. apply Q; lia.
Qed.
Lemma torch_matmul_ext a b : eq2 3 a b -> eq2 3 (torch_matmul 3 a a) (torch_matmul 3 b b).
Proof.
  intros Q i j Hi Hj. unfold torch_matmul. f_equal. apply map_ext_in. intros k Hk. apply in_seq in Hk.
  rewrite (Q i k), (Q k j) by lia. reflexivity.
Qed.
Lemma trace_square_ext a b : eq2 3 a b -> torch_trace 3 (torch_matmul 3 a a) = torch_trace 3 (torch_matmul 3 b b).
Proof. intros Q. apply torch_trace_ext, torch_matmul_ext, Q. Qed.

Lemma strain_feature_values order e arr : readable 3 order e -> stores order e arr ->
  compute_strain_feature arr "i1_strain" 3 order = Ok [trace 3 e] /\
  compute_strain_feature arr "i2_strain" 3 order
    = Ok [5 / 10 * (trace 3 e ^ 2 - trace 3 (mul2 3 e e))].
Proof.
  intros RD ST. destruct (build_reads_components 3 order e arr RD ST) as (u & E & Q).
  unfold compute_strain_feature. rewrite E. cbn [rbind]. simpl String.eqb. cbn [Nat.eqb negb].
  rewrite (torch_trace_ext 3 u e Q), (trace_square_ext u e Q), torch_trace_eq.
  split; [reflexivity|]. do 4 f_equal. rewrite torch_trace_eq. apply trace_ext.
  intros i j _ _. apply torch_matmul_eq.
Qed.

Theorem strain_features_are_invariants order e arr : readable 3 order e -> stores order e arr ->
  exists I1 I2, compute_strain_feature arr "i1_strain" 3 order = Ok [I1] /\
    compute_strain_feature arr "i2_strain" 3 order = Ok [I2] /\
    principal_invariants e I1 I2 (det3 e).
Proof.
  intros RD ST. destruct (strain_feature_values order e arr RD ST) as [-> ->].
  do 2 eexists. split; [reflexivity|]. split; [reflexivity|].
  intros x. unfold det3, ident, trace, mul2. simpl. field.
Qed.

(** A change of frame does not change the features. *)
Theorem strain_features_objective order order' Q e arr arr' : orthogonal Q ->
  readable 3 order e -> stores order e arr ->
  readable 3 order' (rotate Q e) -> stores order' (rotate Q e) arr' ->
  forall label, In label ["i1_strain"; "i2_strain"]%string ->
  exists r, compute_strain_feature arr label 3 order = Ok r /\ compute_strain_feature arr' label 3 order' = Ok r.
Proof.
  intros O RD ST RD' ST' label I.
  destruct (strain_feature_values order e arr RD ST) as [A1 A2].
  destruct (strain_feature_values order' (rotate Q e) arr' RD' ST') as [B1 B2].
  rewrite (rotate_trace Q e O) in B1, B2.
  rewrite (trace_ext 3 _ _ (rotate_square Q e O)), (rotate_trace Q (mul2 3 e e) O) in B2.
  destruct I as [<-|[<-|[]]]; eauto.
Qed.

(** Two-dimensional arrays and unknown labels are refused. *)
Theorem features_need_three_dimensions arr label n order : n <> 3%nat ->
  (exists e, compute_strain_feature arr label n order = Err e) /\
  (exists e, compute_stress_feature arr label n order = Err e).
Proof.
  intros N. unfold compute_strain_feature, compute_stress_feature.
  destruct (build_from_comps n order arr); cbn [rbind]; [|split; eauto].
  apply Nat.eqb_neq in N. rewrite N. cbn [negb].
  split; repeat match goal with |- context [if ?b then _ else _] => destruct b end; eauto.
Qed.

(** ** Stress features *)
Lemma stress_feature_values order s arr : readable 3 order s -> stores order s arr ->
  exists dev, compute_stress_feature arr "vol_stress" 3 order = Ok [trace 3 s] /\
    compute_stress_feature arr "dev_stress" 3 order = Ok dev /\
    stores order (fun i j => s i j - trace 3 s * ident i j) dev.
Proof.
  intros RD ST. destruct (build_reads_components 3 order s arr RD ST) as (u & E & Q).
  unfold compute_stress_feature. rewrite E. cbn [rbind]. simpl String.eqb. cbn [Nat.eqb negb].
  rewrite (torch_trace_ext 3 u s Q), torch_trace_eq. eexists. split; [reflexivity|]. split; [reflexivity|].
  destruct (store_reads_tensor order (fun i j => u i j - trace 3 s * ident i j)) as [L H].
  split; [exact L|]. intros m c Em. unfold ident in H. rewrite (H m c Em).
  destruct (nth_error_comp_in 3 order m c (readable_comps 3 order s RD) Em) as [C1 C2].
  rewrite (Q _ _ C1 C2). reflexivity.
Qed.

(** The features split the stress: deviatoric part plus volumetric part on the
    diagonal is the stress. *)
Theorem stress_features_split order s arr : readable 3 order s -> stores order s arr ->
  exists vol dev, compute_stress_feature arr "vol_stress" 3 order = Ok [vol] /\
    compute_stress_feature arr "dev_stress" 3 order = Ok dev /\ length dev = length arr /\
    forall m c, nth_error order m = Some c ->
      nth m dev 0 + (if Nat.eqb (fst c) (snd c) then vol else 0) = nth m arr 0.
Proof.
  intros RD ST. destruct (stress_feature_values order s arr RD ST) as (dev & V & D & L & H).
  exists (trace 3 s), dev. split; auto. split; auto. destruct ST as [L' H']. split; [congruence|].
  intros m c E. rewrite (H m c E), (H' m c E). unfold ident.
  pose proof (readable_comps 3 order s RD c (nth_error_In _ _ E)) as [C1 C2].
  destruct (Nat.eqb (fst c) (snd c)) eqn:N.
  - apply Nat.eqb_eq in N. rewrite N, Nat.eqb_refl. ring.
  - apply Nat.eqb_neq in N. replace (fst c - 1 =? snd c - 1)%nat with false; [ring|].
    symmetry. apply Nat.eqb_neq. lia.
Qed.

(** The split is not the volumetric/deviatoric one: the stored deviatoric
    stress has trace -2 tr(stress), and the stored volumetric stress is three
    times the hydrostatic stress. *)
Theorem stress_features_trace order s arr : readable 3 order s -> stores order s arr ->
  exists dev u, compute_stress_feature arr "vol_stress" 3 order = Ok [3 * (trace 3 s / 3)] /\
    compute_stress_feature arr "dev_stress" 3 order = Ok dev /\
    stores order u dev /\ trace 3 u = - 2 * trace 3 s.
Proof.
  intros RD ST. destruct (stress_feature_values order s arr RD ST) as (dev & V & D & H).
  exists dev, (fun i j => s i j - trace 3 s * ident i j). rewrite V. split; [do 2 f_equal; field|].
  split; auto. split; auto. unfold trace, ident. simpl. ring.
Qed.

Lemma order3_sym : sym_order 3 order_sym_3d.
Proof.
  unfold order_sym_3d. split; [|split; [|split]].
  - repeat (apply NoDup_cons; [simpl; intros H; repeat (destruct H as [H|H]; [discriminate|]); exact H|]).
    apply NoDup_nil.
  - intros c I. simpl in I. unfold comp_in.
    repeat (destruct I as [<-|I]; [simpl; lia|]). destruct I.
  - intros i j Hi Hj. destruct i as [|[|[|[|i]]]]; try lia; destruct j as [|[|[|[|j]]]]; try lia; simpl; auto 10.
  - intros i j N I J. simpl in I, J.
    repeat (destruct I as [I|I]; [inversion I; subst; clear I;
      repeat (destruct J as [J|J]; [inversion J; subst; congruence|]); destruct J|]). destruct I.
Qed.

Theorem deviatoric_feature_refuted : exists arr dev u,
  compute_stress_feature arr "dev_stress" 3 order_sym_3d = Ok dev /\
  build_from_comps 3 order_sym_3d dev = Ok u /\ trace 3 u <> 0.
Proof.
  exists [1; 1; 1; 0; 0; 0]. do 2 eexists. split; [reflexivity|]. split; [reflexivity|].
  unfold trace. simpl. unfold torch_trace. simpl. lra.
Qed.

(** ** Adding features to a data set *)
Lemma map_res_ok {A B} (f : A -> res B) l r : map_res f l = Ok r <-> Forall2 (fun a b => f a = Ok b) l r.
Proof.
  revert r. induction l as [|a t IH]; intros r; cbn.
  - split; intros H; [inversion H; subst; constructor|inversion H; reflexivity].
  - split.
    + destruct (f a) as [b|] eqn:E; [|discriminate]. cbn. destruct (map_res f t) as [u|]; [|discriminate].
      cbn. intros H. inversion H; subst. constructor; auto. apply IH. reflexivity.
    + intros H. inversion H as [|? b ? u E H']; subst. rewrite E. cbn. apply IH in H'. rewrite H'. reflexivity.
Qed.

Section AddFeatures.
  Variables (path_label order_label : string) (available : list string).
  Variable compute : list R -> string -> nat -> list comp -> res (list R).

  (** Every sample gets the feature of each time of its path, computed with the
      component order of the first sample; nothing else changes. *)
  Theorem add_features_effect d label (st st' : store fval) : distinct_samples d -> persistent d ->
    add_features path_label order_label available compute d label st = (st', None) ->
    exists s0 order, getitem d st 0 = Some s0 /\ dget s0 order_label = Some (Order order) /\ In label available /\
    (forall i l, locate d i = Some l -> exists rows feat,
       dget (st l) path_label = Some (Path rows) /\
       Forall2 (fun r v => compute r label (infer_n_dim order) order = Ok v) rows feat /\
       feature_set (Path feat) label [] (st l) (st' l)) /\
    (forall l, outside d l -> st' l = st l).
  Proof.
    intros Hd Hp H. unfold add_features in H.
    destruct (getitem d st 0) as [s0|] eqn:G; [|discriminate].
    destruct (dget s0 path_label) eqn:P; [|discriminate].
    destruct (dget s0 order_label) as [[r|order]|] eqn:O; try discriminate.
    destruct (existsb (String.eqb label) available) eqn:A; cbn [negb] in H; [|discriminate].
    exists s0, order. split; auto. split; auto. split.
    { apply existsb_exists in A. destruct A as (x & I & E). apply String.eqb_eq in E. subst x. auto. }
    destruct (edit_all_effect d _ Hd Hp st st' H) as [E1 E2]. split; [|exact E2].
    intros i l Hl. specialize (E1 i l Hl). unfold feature_edit in E1.
    destruct (dget (st l) path_label) as [[rows|o]|] eqn:PL; try discriminate.
    destruct (map_res _ rows) as [rows'|] eqn:M; [|discriminate]. injection E1 as E1.
    exists rows, rows'. split; auto. apply map_res_ok in M. split; auto. rewrite <- E1.
    split; [intros _; apply dget_dset_same|]. split; [intros k []|].
    intros k Hk _. apply dget_dset_other. congruence.
  Qed.

  Theorem add_features_succeeds d label (st : store fval) s0 order p : distinct_samples d -> persistent d ->
    getitem d st 0 = Some s0 -> dget s0 path_label = Some p -> dget s0 order_label = Some (Order order) ->
    In label available ->
    (forall i l, locate d i = Some l -> exists rows, dget (st l) path_label = Some (Path rows) /\
       forall r, In r rows -> exists v, compute r label (infer_n_dim order) order = Ok v) ->
    exists st', add_features path_label order_label available compute d label st = (st', None).
  Proof.
    intros Hd Hp G P O A H. unfold add_features. rewrite G, P, O.
    rewrite (proj2 (existsb_exists _ _)); [|exists label; split; auto; apply String.eqb_refl]. cbn [negb].
    apply edit_all_succeeds; auto. intros i l Hl. destruct (H i l Hl) as (rows & E & F).
    unfold feature_edit. rewrite E.
    assert (exists rows', map_res (fun r => compute r label (infer_n_dim order) order) rows = Ok rows') as [rows' ->].
    { clear E. induction rows as [|r t IH]; [cbn; eauto|]. cbn.
      destruct (F r (or_introl eq_refl)) as [v ->]. cbn.
      destruct IH as [u ->]; [intros; apply F; right; auto|]. cbn. eauto. }
    reflexivity.
  Qed.
End AddFeatures.

(** For strains stored in a common symmetric 3D order, the new path lists the
    principal invariants of the strain of each time. *)
Theorem strain_feature_path d label (st st' : store fval) order :
  distinct_samples d -> persistent d -> sym_order 3 order ->
  (forall s, getitem d st 0 = Some s -> dget s "strain_comps_order" = Some (Order order)) ->
  add_strain_features d label st = (st', None) ->
  forall i l, locate d i = Some l -> exists rows feat,
    dget (st l) "strain_path" = Some (Path rows) /\ dget (st' l) label = Some (Path feat) /\
    (forall k, k <> label -> dget (st' l) k = dget (st l) k) /\
    Forall2 (fun r v => forall e, symmetric 3 e -> stores order e r ->
      exists I1 I2, principal_invariants e I1 I2 (det3 e) /\
        v = [if String.eqb label "i1_strain" then I1 else I2]) rows feat.
Proof.
  intros Hd Hp SO HO H i l Hl.
  destruct (add_features_effect _ _ _ _ d label st st' Hd Hp H) as (s0 & o & G & O & A & E & _).
  rewrite (HO s0 G) in O. inversion O; subst o. destruct (E i l Hl) as (rows & feat & P & F & FS1 & _ & FS2).
  exists rows, feat. split; auto. split; [apply FS1; intros []|]. split.
  { intros k Hk. apply FS2; auto. }
  revert F. clear -SO A. induction 1 as [|r v rows feat C _ IH]; constructor; auto.
  intros e S ST. assert (N3 : infer_n_dim order = 3%nat).
  { unfold infer_n_dim. rewrite (sym_order_length 3 order SO). reflexivity. }
  rewrite N3 in C.
  destruct (strain_features_are_invariants order e r) as (I1 & I2 & E1 & E2 & PI); [left; auto|auto|].
  exists I1, I2. split; auto.
  destruct A as [<-|[<-|[]]]; cbn -[compute_strain_feature] in *; congruence.
Qed.

(** The dimension inferred from the number of components is the one of the
    order, symmetric or full. *)
Theorem infer_n_dim_correct n order : (n = 2 \/ n = 3)%nat -> sym_order n order \/ full_order n order ->
  infer_n_dim order = n.
Proof.
  intros N [H|H]; unfold infer_n_dim.
  - rewrite (sym_order_length n order H). destruct N as [-> | ->]; reflexivity.
  - rewrite (full_order_length n order H). destruct N as [-> | ->]; reflexivity.
Qed.

(** Counterexample: the order of the first sample is used for every sample, so
    a second sample stored in another order gets the features of another
    tensor. *)
Definition other_order : list comp := [(1,2); (2,2); (3,3); (1,1); (2,3); (1,3)]%nat.
Theorem sample_order_refuted :
  let s0 := [("stress_path", Path [[1; 2; 3; 4; 5; 6]]); ("stress_comps_order", Order order_sym_3d)]%string in
  let s1 := [("stress_path", Path [[1; 2; 3; 4; 5; 6]]); ("stress_comps_order", Order other_order)]%string in
  let st : store fval := fun l => if Nat.eqb (snd l) 0 then s0 else s1 in
  exists st' v, add_stress_features (Mem [0; 1]%nat) "vol_stress" st = (st', None) /\
    dget (st' (true, 1%nat)) "vol_stress" = Some (Path [[v]]) /\
    compute_stress_feature [1; 2; 3; 4; 5; 6] "vol_stress" 3 other_order <> Ok [v].
Proof.
  cbv zeta. do 2 eexists. split; [reflexivity|]. split; [reflexivity|].
  cbn. unfold torch_trace. cbn. intros H. inversion H. lra.
Qed.

(** ** Concrete cases *)
Definition ex_strain : T2 := fun i j =>
  match i, j with
  | 0%nat, 0%nat => 1 | 1%nat, 1%nat => 2 | 2%nat, 2%nat => 3
  | 0%nat, 1%nat | 1%nat, 0%nat => 4 | _, _ => 0 end.
Lemma other_order_sym : sym_order 3 other_order.
Proof.
  unfold other_order. split; [|split; [|split]].
  - repeat (apply NoDup_cons; [simpl; intros H; repeat (destruct H as [H|H]; [discriminate|]); exact H|]).
    apply NoDup_nil.
  - intros c I. simpl in I. unfold comp_in.
    repeat (destruct I as [<-|I]; [simpl; lia|]). destruct I.
  - intros i j Hi Hj. destruct i as [|[|[|[|i]]]]; try lia; destruct j as [|[|[|[|j]]]]; try lia; simpl; auto 10.
  - intros i j N I J. simpl in I, J.
    repeat (destruct I as [I|I]; [inversion I; subst; clear I;
      repeat (destruct J as [J|J]; [inversion J; subst; congruence|]); destruct J|]). destruct I.
Qed.
Lemma ex_strain_symmetric : symmetric 3 ex_strain.
Proof. intros i j Hi Hj. destruct i as [|[|[|i]]]; try lia; destruct j as [|[|[|j]]]; try lia; reflexivity. Qed.
Example ex_features : exists I2,
  compute_strain_feature [4; 2; 3; 1; 0; 0] "i1_strain" 3 other_order = Ok [6] /\
  compute_strain_feature [4; 2; 3; 1; 0; 0] "i2_strain" 3 other_order = Ok [I2] /\ I2 = -5.
Proof.
  assert (ST : stores other_order ex_strain [4; 2; 3; 1; 0; 0]).
  { split; [reflexivity|]. intros m c E.
    do 6 (destruct m as [|m]; [injection E as <-; reflexivity|]). destruct m; discriminate. }
  destruct (strain_feature_values other_order ex_strain _ (or_introl (conj other_order_sym ex_strain_symmetric)) ST)
    as [-> ->].
  eexists. split; [do 2 f_equal; unfold trace; simpl; ring|]. split; [reflexivity|].
  unfold trace, mul2, ex_strain. simpl. field.
Qed.
Example ex_add_features :
  let s0 := [("stress_path", Path [[1; 2; 3; 4; 5; 6]]); ("stress_comps_order", Order order_sym_3d)]%string in
  exists st' v, add_stress_features (File [0]%nat) "vol_stress" (fun _ => s0) = (st', None) /\
    dget (st' (false, 0%nat)) "vol_stress" = Some (Path [[v]]) /\ v = 6.
Proof.
  cbv zeta. do 2 eexists. split; [reflexivity|]. split; [reflexivity|]. unfold torch_trace. cbn. ring.
Qed.

Print Assumptions strain_features_are_invariants.
Print Assumptions stress_features_split.
Print Assumptions strain_feature_path.
