(** Normalised models and the stored state history in the vectorised forward
    propagation. *)
From Coq Require Import Reals List Arith ZArith Lia Lra Bool.
From Verif Require Import Lib MatrixModel MatrixSpec MatrixProofs MatrixProps TensorModel TensorSpec ElementModel QuadratureModel
  GradientModel GradientSpec GradientProps MeshModel MeshSpec MeshProps ScalerModel LossModel LossProps
  ForwardModel ForwardSpec ForwardProofs ForwardProps RcModel ResponseProps VForwardModel VForwardProps.
Import ListNotations.
Local Open Scope R_scope.

(** ** Normalised models *)
(** The model seen from outside: normalise, evaluate, denormalise. *)
Definition physical_model (norm_in denorm_out : list R -> list R) (cm : list (list R) -> list (list R))
  (rows : list (list R)) : list (list R) := map denorm_out (cm (map norm_in rows)).

Definition first_of {A B} (r : res (A * B)) : res A := rbind r (fun x => Ok (fst x)).
Lemma mapM_first {A B C} (f g : A -> res (B * C)) l : (forall x, In x l -> first_of (f x) = first_of (g x)) ->
  rbind (mapM f l) (fun r => Ok (map fst r)) = rbind (mapM g l) (fun r => Ok (map fst r)).
Proof.
  induction l as [|x l IH]; intros H; [reflexivity|]. cbn [mapM].
  pose proof (H x (or_introl eq_refl)) as E. unfold first_of in E.
  specialize (IH (fun y I => H y (or_intror I))).
  destruct (f x) as [a|], (g x) as [b|]; cbn [rbind] in *; try congruence.
  destruct (mapM f l), (mapM g l); cbn [rbind map] in *; congruence.
Qed.

Section Norm.
  Variable cm : list (list R) -> list (list R).
  Variables nI dO : list R -> list R.
  Hypothesis NL : forall r, length (nI r) = length r.
  Notation pm := (physical_model nI dO cm).

  Lemma norm_columns n fi fo : (forall r, In r fi -> length r = n) -> length fo = length fi ->
    mapM (stress_columns n) (map (fun ab => firstn n (fst ab) ++ firstn n (snd ab)) (combine (map nI fi) fo))
    = mapM (stress_columns n) (map (fun ab => firstn n (fst ab) ++ firstn n (snd ab)) (combine fi fo)).
  Proof.
    revert fo. induction fi as [|r fi IH]; intros [|b fo] W L; try discriminate; [reflexivity|]. cbn [map combine mapM fst snd].
    rewrite IH by (auto; intros; apply W; right; auto). f_equal.
    assert (L1 : length r = n) by (apply W; left; auto). unfold stress_columns.
    rewrite !app_length, !firstn_length, NL, L1. destruct (Nat.ltb _ _); [reflexivity|].
    rewrite !skipn_app, !firstn_length, NL, L1, Nat.min_id, Nat.sub_diag.
    rewrite (skipn_all2 (firstn n (nI r))), (skipn_all2 (firstn n r)) by (rewrite firstn_length, ?NL; lia). reflexivity.
  Qed.

  Lemma norm_point sf n order el cw hist avg bar :
    first_of (vcompute_local_internal_forces_hist cm (Some nI) (Some dO) sf n order el cw hist bar avg)
    = first_of (vcompute_local_internal_forces_hist pm None None sf n order el cw hist bar avg).
  Proof.
    unfold vcompute_local_internal_forces_hist. destruct sf; [|reflexivity].
    destruct (mapM _ hist) as [g|]; [|reflexivity]. cbn [rbind].
    match goal with |- context [rbind ?x _] => destruct x as [strains|] end; [|reflexivity]. cbn [rbind].
    unfold vrecurrent_material_state_update. destruct (map fst strains) as [|t ts] eqn:E; [reflexivity|]. rewrite <- E. clear E t ts.
    cbn [apply_rows]. unfold physical_model. rewrite !map_length.
    destruct (negb _) eqn:B; [reflexivity|]. cbn [rbind].
    apply negb_false_iff, Nat.eqb_eq in B.
    rewrite norm_columns; [| |rewrite !map_length; exact B].
    2:{ intros r I. apply in_map_iff in I. destruct I as (t & <- & _). apply map_length. }
    destruct (mapM _ _); reflexivity.
  Qed.

  Lemma norm_element bar sf pt el gps hist :
    first_of (vcompute_element_internal_forces_hist cm (Some nI) (Some dO) bar sf pt el gps hist)
    = first_of (vcompute_element_internal_forces_hist pm None None bar sf pt el gps hist).
  Proof.
    unfold vcompute_element_internal_forces_hist. destruct (get_problem_type_parameters pt) as [[[n order] q]|]; [|reflexivity]. cbn [rbind].
    match goal with |- context [rbind ?x _] => destruct x as [avg|] end; [|reflexivity]. cbn [rbind].
    pose proof (mapM_first (fun cw => vcompute_local_internal_forces_hist cm (Some nI) (Some dO) sf n order el cw hist bar avg)
      (fun cw => vcompute_local_internal_forces_hist pm None None sf n order el cw hist bar avg) gps (fun cw _ => norm_point sf n order el cw hist avg bar)) as M.
    destruct (mapM _ gps) as [g|], (mapM _ gps) as [g'|]; cbn [rbind] in *; unfold first_of; cbn [rbind fst]; try congruence.
    f_equal. apply map_ext. intros t. apply FunctionalExtensionality.functional_extensionality. intros k.
    rewrite <- !(map_map fst (fun x => nth t x (fun _ : nat => 0) k)). congruence.
  Qed.

  (** A model with scalers gives the loss of the physical model. *)
  Theorem vforward_normalised conn n_node coords disps reaction bc norm weights lt n_types n_mats sf pt n_time el gps :
    first_of (vforward_sequential_element cm (Some nI) (Some dO) conn n_node coords disps reaction bc norm weights
      lt n_types n_mats sf pt n_time el gps)
    = first_of (vforward_sequential_element pm None None conn n_node coords disps reaction bc norm weights
      lt n_types n_mats sf pt n_time el gps).
  Proof.
    unfold vforward_sequential_element. destruct (Nat.ltb 1 n_types); [reflexivity|].
    destruct (build_elements_mesh_indexing conn (el_n_dim el)) as [idx|]; [|reflexivity]. cbn [rbind].
    destruct (Nat.ltb 1 n_mats); [reflexivity|]. destruct (get_problem_type_parameters pt) as [p|]; [|reflexivity]. cbn [rbind].
    assert (M : rbind (vcompute_elements_internal_forces_hist cm (Some nI) (Some dO) conn coords disps sf pt n_time el gps) (fun r => Ok (map fst r))
      = rbind (vcompute_elements_internal_forces_hist pm None None conn coords disps sf pt n_time el gps) (fun r => Ok (map fst r))).
    { unfold vcompute_elements_internal_forces_hist. apply mapM_first. intros nodes _.
      destruct (mapM _ _) as [h|]; [|reflexivity]. cbn [rbind]. apply norm_element. }
    destruct (vcompute_elements_internal_forces_hist cm _ _ _ _ _ _ _ _ _ _) as [g|], (vcompute_elements_internal_forces_hist pm _ _ _ _ _ _ _ _ _ _) as [g'|];
      cbn [rbind] in *; try congruence.
    injection M as M.
    assert (F : forall t, map (fun r => map (nth t (fst r) (fun _ => 0)) (seq 0 (el_n_node el * el_n_dim el))) g
                        = map (fun r => map (nth t (fst r) (fun _ => 0)) (seq 0 (el_n_node el * el_n_dim el))) g').
    { intros t. rewrite <- (map_map fst (fun x : list (nat -> R) => map (nth t x (fun _ => 0)) (seq 0 (el_n_node el * el_n_dim el))) g), M, map_map. reflexivity. }
    match goal with |- first_of (rbind (vforce_equilibrium_hist_loss _ _ _ _ _ _ ?a _ _ _) _) = first_of (rbind (vforce_equilibrium_hist_loss _ _ _ _ _ _ ?b _ _ _) _) =>
      replace b with a by (apply FunctionalExtensionality.functional_extensionality; intros t; rewrite F; reflexivity) end.
    destruct (vforce_equilibrium_hist_loss _ _ _ _ _ _ _ _ _ _); reflexivity.
  Qed.
End Norm.

(** ** The stored state history *)
(** For every element, Gauss point and time the stored row is the input
    features (the strain components as the model sees them) followed by the
    stress components. *)
Theorem state_history_law cm nI dO conn n_node coords disps reaction bc norm weights lt n_types n_mats pt n_time el gps n order q v h :
  get_problem_type_parameters pt = Ok (n, order, q) ->
  vforward_sequential_element cm nI dO conn n_node coords disps reaction bc norm weights
    lt n_types n_mats Infinitesimal pt n_time el gps = Ok (v, h) ->
  length h = length conn /\
  forall i nodes, nth_error conn i = Some nodes -> exists hi, nth_error h i = Some hi /\ length hi = length gps /\
    forall j cw, nth_error gps j = Some cw -> exists g rows,
      mapM (fun t => rbind (batched_config coords disps Infinitesimal nodes t) (fun Xu =>
              vcompute_local_strain n order el (fst cw) (fst Xu) (snd Xu))) (seq 0 n_time) = Ok g /\
      nth_error hi j = Some rows /\
      let fi := apply_rows nI (map (fun r => vstore_tensor_comps order (fst (fst r))) g) in
      let fo := apply_rows dO (cm fi) in
      length rows = n_time /\ length fo = n_time /\
      forall t row, nth_error rows t = Some row -> row = firstn (length order) (nth t fi []) ++ firstn (length order) (nth t fo []).
Proof.
  intros PT E. unfold vforward_sequential_element in E. destruct (Nat.ltb 1 n_types); [discriminate|].
  destruct (build_elements_mesh_indexing conn (el_n_dim el)) as [idx|]; [|discriminate]. cbn [rbind] in E.
  destruct (Nat.ltb 1 n_mats); [discriminate|]. rewrite PT in E. cbn [rbind] in E.
  destruct (vcompute_elements_internal_forces_hist _ _ _ _ _ _ _ _ _ _ _) as [g0|] eqn:EG; [|discriminate]. cbn [rbind] in E.
  destruct (vforce_equilibrium_hist_loss _ _ _ _ _ _ _ _ _ _) as [v0|]; [|discriminate]. cbn [rbind] in E. injection E as _ <-.
  unfold vcompute_elements_internal_forces_hist in EG. split; [rewrite map_length; apply (mapM_len _ _ _ EG)|].
  intros i nodes Ni. apply mapM_Forall2 in EG.
  assert (X : exists r, nth_error g0 i = Some r /\ rbind (mapM (batched_config coords disps Infinitesimal nodes) (seq 0 n_time)) (fun hist =>
      vcompute_element_internal_forces_hist cm nI dO false Infinitesimal pt el gps hist) = Ok r).
  { clear -EG Ni. revert i Ni. induction EG as [|x y l l' H EG IH]; intros [|i] Ni; try discriminate; cbn in *.
    - injection Ni as ->. eauto.
    - apply IH; auto. }
  destruct X as (r & Nr & Er). exists (snd r). rewrite nth_error_map, Nr. split; [reflexivity|].
  destruct (mapM (batched_config coords disps Infinitesimal nodes) (seq 0 n_time)) as [hist|] eqn:EH; [|discriminate]. cbn [rbind] in Er.
  unfold vcompute_element_internal_forces_hist in Er. rewrite PT in Er. cbn [rbind] in Er.
  destruct (mapM _ gps) as [pts|] eqn:EP; [|discriminate]. cbn [rbind] in Er. injection Er as <-. cbn [snd].
  split; [rewrite map_length; apply (mapM_len _ _ _ EP)|].
  intros j cw Nj. apply mapM_Forall2 in EP.
  assert (X : exists p, nth_error pts j = Some p /\ vcompute_local_internal_forces_hist cm nI dO Infinitesimal n order el cw hist false None = Ok p).
  { clear -EP Nj. revert j Nj. induction EP as [|x y l l' H EP IH]; intros [|j] Nj; try discriminate; cbn in *.
    - injection Nj as ->. eauto.
    - apply IH; auto. }
  destruct X as (p & Np & Ep). unfold vcompute_local_internal_forces_hist in Ep.
  destruct (mapM _ hist) as [g|] eqn:EGG; [|discriminate]. cbn [rbind] in Ep.
  exists g. rewrite map_map in Ep. cbn [fst] in Ep.
  destruct (vrecurrent_material_state_update _ _ _ _ _) as [rows|] eqn:EU; [|discriminate]. cbn [rbind] in Ep.
  destruct (mapM _ rows); [|discriminate]. cbn [rbind] in Ep. injection Ep as <-.
  exists rows. rewrite nth_error_map, Np. cbn [option_map snd].
  assert (LH : length hist = n_time) by (rewrite (mapM_len _ _ _ EH), seq_length; reflexivity).
  assert (LG : length g = n_time) by (rewrite (mapM_len _ _ _ EGG); exact LH).
  split; [|split; [reflexivity|]].
  { clear -EH EGG. revert hist g EH EGG. induction (seq 0 n_time) as [|t l IH]; intros hist g EH EGG; cbn [mapM] in *.
    - injection EH as <-. exact EGG.
    - destruct (batched_config _ _ _ _ t) as [h0|]; [|discriminate]. cbn [rbind] in *.
      destruct (mapM _ l) as [hs|]; [|discriminate]. cbn [rbind] in EH. injection EH as <-. cbn [mapM] in EGG.
      destruct (vcompute_local_strain _ _ _ _ _ _) as [s|]; [|discriminate]. cbn [rbind] in *.
      destruct (mapM _ hs) as [ss|] eqn:Q; [|discriminate]. cbn [rbind] in EGG. injection EGG as <-. rewrite (IH hs ss eq_refl Q). reflexivity. }
  unfold vrecurrent_material_state_update in EU. rewrite map_map in EU.
  set (fi := apply_rows nI (map (fun r => vstore_tensor_comps order (fst (fst r))) g)) in *.
  assert (LF : length fi = n_time). { unfold fi, apply_rows. destruct nI; rewrite !map_length; exact LG. }
  destruct (map (fun r : T2 * R * T2 => fst (fst r)) g) as [|t0 ts0]; [discriminate|].
  destruct (Nat.eqb_spec (length (apply_rows dO (cm fi))) (length fi)) as [LO|]; [|discriminate]. cbn [negb] in EU. injection EU as <-.
  cbv zeta. split; [rewrite map_length, combine_length; lia|]. split; [lia|].
  intros t row Nt. rewrite nth_error_map in Nt. destruct (nth_error (combine fi _) t) as [[a b]|] eqn:NC; [|discriminate]. cbn in Nt. injection Nt as <-.
  apply nth_error_nth with (d := ([], [])) in NC. rewrite combine_nth in NC by auto. injection NC as -> ->. reflexivity.
Qed.

(** ** Concrete cases: one rectangle, one time step *)
Definition unit_model (rows : list (list R)) : list (list R) := map (fun _ => [1; 0; 0]) rows.
Definition zero_model (rows : list (list R)) : list (list R) := map (fun _ => [0; 0; 0]) rows.
Notation ex_vforward cm nI dO := (vforward_sequential_element cm nI dO ex_conn 4 ex_coords (fun _ => ex_stretch)
  (fun _ _ _ => 0) (fun _ _ _ => 0%Z) None (fun _ => 1) Pointwise 1 1 Infinitesimal 1 1 quad4 [([0; 0], 4)]).

Lemma ex_gradient : exists B, vcompute_local_gradient quad4 (rows_fun ex_coords) [0; 0] order_sym_2d = Ok (1/2, B) /\ B 0%nat 2%nat = 1/4 /\
  B 0%nat 4%nat = 1/4 /\ B 1%nat 2%nat = 0 /\ B 1%nat 4%nat = 0.
Proof.
  unfold vcompute_local_gradient, eval_shapefun_deriv.
  destruct (eval_jacobian quad4 (rows_fun ex_coords) [0; 0]) as [[J dJ] dN] eqn:E.
  unfold eval_jacobian in E. injection E as EJ ED EN.
  unfold inverse. 
  assert (D : det 2 J = 1/2). { rewrite <- EJ. unfold eval_jacobian, local_deriv, elem_coords, rows_fun, ex_coords. simpl. lra. }
  change (el_n_dim quad4) with 2%nat. 
  destruct (Req_EM_T (det 2 J) 0); [lra|]. cbn [rbind fst snd].
  match goal with |- context [vbuild_discrete_sym_gradient ?f ?n ?d ?o] => destruct (vbuild_discrete_sym_gradient f n d o) as [B|] eqn:EB end; [|exfalso; vm_compute in EB; discriminate].
  exists B. split. { cbn [rbind]. f_equal. f_equal. rewrite <- D, <- ED, <- EJ. reflexivity. }
  unfold vbuild_discrete_sym_gradient in EB. cbn in EB. injection EB as <-. 
  cbn. change (J 0%nat 0%nat * J 1%nat 1%nat - J 0%nat 1%nat * J 1%nat 0%nat) with (det 2 J). rewrite D. rewrite <- EN, <- EJ. unfold local_deriv, rows_fun, ex_coords. cbn. repeat split; lra.
Qed.

Lemma ex_batched t : batched_config ex_coords (fun _ => ex_stretch) Infinitesimal [1; 2; 3; 4]%Z t = Ok (rows_fun ex_coords, rows_fun ex_stretch).
Proof. reflexivity. Qed.

Lemma ex_vforward_value a : exists f v h, ex_vforward (fun rows => map (fun _ => [a; 0; 0]) rows) None None = Ok (v, h) /\
  f 2%nat = a / 2 /\ (a = 0 -> forall k, f k = 0) /\
  v = hist_loss None 4 2 1 (fun _ => 1) (fun _ => mesh_fun 2 (vassemble_internal_forces [map f (seq 0 8)] [build_element_mesh_indexing [1; 2; 3; 4]%Z 2] 4 2)) (fun _ _ _ => 0) (fun _ _ _ => 0) (fun _ _ => 0%Z).
Proof.
  destruct ex_gradient as (B & EB & B2 & _).
  unfold vforward_sequential_element. cbn [Nat.ltb Nat.leb]. change (build_elements_mesh_indexing ex_conn (el_n_dim quad4)) with (Ok [build_element_mesh_indexing [1; 2; 3; 4]%Z 2]).
  cbn [rbind get_problem_type_parameters fst]. unfold vcompute_elements_internal_forces_hist, ex_conn. cbn [mapM seq]. rewrite ex_batched. cbn [rbind].
  unfold vcompute_element_internal_forces_hist. cbn [get_problem_type_parameters rbind mapM].
  unfold vcompute_local_internal_forces_hist. cbn [fst snd mapM]. unfold vcompute_local_strain. fold order_sym_2d. rewrite EB. cbn [rbind fst snd].
  match goal with |- context [vget_strain_from_vmf ?x ?n ?o] => destruct (vget_strain_from_vmf x n o) as [e|] eqn:EE end; [|exfalso; vm_compute in EE; discriminate].
  cbn [rbind map fst snd]. unfold vrecurrent_material_state_update. cbn [map fst apply_rows length Nat.eqb negb combine rbind mapM snd].
  cbn [length order_sym_2d firstn vstore_tensor_comps map app]. unfold stress_columns. cbn [length Nat.mul Nat.add Nat.ltb Nat.leb firstn skipn rbind combine map fst snd mapM].
  rewrite vectorised_hist_loss. cbn [rbind].
  eexists (fun k => lsum [vcompute_local_internal_forces 3 [a; 0; 0] B (1 / 2) 4 k]). eexists. eexists. split; [reflexivity|].
  split; [|split; [|reflexivity]].
  - cbn [lsum fold_right]. unfold vcompute_local_internal_forces. cbn [rsum nth]. rewrite B2. cbn. lra.
  - intros -> k. cbn [lsum fold_right]. unfold vcompute_local_internal_forces. cbn. lra.
Qed.

Lemma ex_loss f : hist_loss None 4 2 1 (fun _ => 1) (fun _ => mesh_fun 2 (vassemble_internal_forces [map f (seq 0 8)] [build_element_mesh_indexing [1; 2; 3; 4]%Z 2] 4 2)) (fun _ _ _ => 0) (fun _ _ _ => 0) (fun _ _ => 0%Z)
  = lsum (map (fun k => f k ^ 2) (seq 0 8)).
Proof. unfold hist_loss, force_equilibrium_loss, normalise, fel_dof, mesh_fun. cbn. ring. Qed.

(** The sequential mode feeds the model with physical strains and takes its
    normalised outputs for stresses: with scalers the two modes disagree. *)
Theorem normalised_modes_refuted : exists cm nI dO v h v' states,
  (forall r, length (nI r) = length r) /\ sequence_model 3 cm /\
  ex_vforward cm (Some nI) (Some dO) = Ok (v, h) /\
  forward_sequential_element rstate snd ex_conn 4 ex_coords ex_coords (fun _ => ex_stretch) (fun _ _ _ => 0) (fun _ _ => 0%Z) None (fun _ => 1)
    Infinitesimal 1 1 [rfe cm 2 order_sym_2d quad4 [([0; 0], 4)]] [None] = Ok (v', states) /\ v <> v'.
Proof.
  assert (SM : sequence_model 3 zero_model).
  { intros rows. split; [apply map_length|]. intros r I. apply in_map_iff in I. destruct I as (? & <- & _). simpl. lia. }
  destruct (ex_vforward_value 0) as (f0 & v0 & h0 & E0 & _ & Z0 & V0).
  destruct (ex_vforward_value 1) as (f1 & v1 & h1 & E1 & F1 & _ & V1).
  rewrite ex_loss in V0, V1.
  assert (Q0 : v0 = 0). { rewrite V0. cbn. rewrite !(Z0 eq_refl). ring. }
  assert (Q1 : v1 <> 0).
  { rewrite V1. cbn. rewrite F1. pose proof (pow2_ge_0 (f1 0%nat)). pose proof (pow2_ge_0 (f1 1%nat)). pose proof (pow2_ge_0 (f1 3%nat)).
    pose proof (pow2_ge_0 (f1 4%nat)). pose proof (pow2_ge_0 (f1 5%nat)). pose proof (pow2_ge_0 (f1 6%nat)). pose proof (pow2_ge_0 (f1 7%nat)). simpl in *. lra. }
  pose proof (vforward_normalised zero_model (fun r => r) (fun _ => [1; 0; 0]) (fun _ => eq_refl) ex_conn 4 ex_coords (fun _ => ex_stretch)
    (fun _ _ _ => 0) (fun _ _ _ => 0%Z) None (fun _ => 1) Pointwise 1 1 Infinitesimal 1 1 quad4 [([0; 0], 4)]) as N.
  assert (PE : physical_model (fun r => r) (fun _ => [1; 0; 0]) zero_model = (fun rows => map (fun _ => [1; 0; 0]) rows)).
  { apply FunctionalExtensionality.functional_extensionality. intros rows. unfold physical_model, zero_model. rewrite !map_map. reflexivity. }
  rewrite PE in N. unfold first_of in N at 2. rewrite E1 in N. cbn [rbind fst] in N.
  destruct (vforward_sequential_element zero_model _ _ _ _ _ _ _ _ _ _ _ _ _ _ _ _ _ _) as [[v h]|] eqn:EV; [|discriminate].
  cbn in N. injection N as ->.
  pose proof (vforward_agrees zero_model 1 2 order_sym_2d order_nsym_2d eq_refl SM quad4 [([0; 0], 4)] ex_conn 4 1 ex_coords (fun _ => ex_stretch)
    (fun _ _ _ => 0) (fun _ _ _ => 0%Z) None (fun _ => 1)) as A.
  specialize (A ltac:(discriminate) ltac:(discriminate)).
  assert (HC : forall nodes, In nodes ex_conn -> nodes <> [] /\ labels_in_range 4 nodes /\ length nodes = el_n_node quad4).
  { intros nodes [<-|[]]. split; [discriminate|]. split; [exact ex_labels|reflexivity]. }
  specialize (A HC eq_refl (ex_array ex_coords (or_introl eq_refl)) (fun _ => ex_array ex_stretch (or_intror (or_introl eq_refl))) [None] v0 eq_refl).
  destruct (proj2 A (ex_intro _ h0 E0)) as (states & S1).
  exists zero_model, (fun r => r), (fun _ => [1; 0; 0]), v1, h, v0, states.
  split; [reflexivity|]. split; [exact SM|]. split; [exact EV|]. split; [exact S1|]. rewrite Q0. exact Q1.
Qed.

(** The history holds the normalised strain next to the physical stress. *)
Theorem stored_strain_refuted : exists cm nI dO v h e,
  (forall r, length (nI r) = length r) /\
  ex_vforward cm (Some nI) (Some dO) = Ok (v, h) /\
  rbind (vcompute_local_strain 2 order_sym_2d quad4 [0; 0] (rows_fun ex_coords) (rows_fun ex_stretch)) (fun r => Ok (fst (fst r))) = Ok e /\
  firstn 3 (nth 0 (nth 0 (nth 0 h []) []) []) <> vstore_tensor_comps order_sym_2d e.
Proof.
  destruct (ex_vforward_value 1) as (f1 & v1 & h1 & E1 & _).
  set (nI := map (fun x : R => x + 1)).
  assert (NL : forall r, length (nI r) = length r) by (intros; apply map_length).
  pose proof (vforward_normalised zero_model nI (fun _ => [1; 0; 0]) NL ex_conn 4 ex_coords (fun _ => ex_stretch)
    (fun _ _ _ => 0) (fun _ _ _ => 0%Z) None (fun _ => 1) Pointwise 1 1 Infinitesimal 1 1 quad4 [([0; 0], 4)]) as N.
  assert (PE : physical_model nI (fun _ => [1; 0; 0]) zero_model = (fun rows => map (fun _ => [1; 0; 0]) rows)).
  { apply FunctionalExtensionality.functional_extensionality. intros rows. unfold physical_model, zero_model. rewrite !map_map. reflexivity. }
  rewrite PE in N. unfold first_of in N at 2. rewrite E1 in N. cbn [rbind fst] in N.
  destruct (vforward_sequential_element zero_model _ _ _ _ _ _ _ _ _ _ _ _ _ _ _ _ _ _) as [[v h]|] eqn:EV; [|discriminate].
  cbn in N. injection N as ->.
  destruct (state_history_law _ _ _ _ _ _ _ _ _ _ _ _ _ _ 1 _ _ _ 2 order_sym_2d order_nsym_2d _ _ eq_refl EV) as (_ & SH).
  destruct (SH 0%nat _ eq_refl) as (hi & Hi & _ & SJ). destruct (SJ 0%nat _ eq_refl) as (g & rows & EG & Hj & LR & _ & HR).
  cbn [seq mapM] in EG. rewrite ex_batched in EG. cbn [rbind fst snd] in EG.
  destruct (vcompute_local_strain 2 order_sym_2d quad4 [0; 0] (rows_fun ex_coords) (rows_fun ex_stretch)) as [s|] eqn:ES; [|discriminate].
  cbn [rbind] in EG. injection EG as <-.
  exists zero_model, nI, (fun _ => [1; 0; 0]), v1, h, (fst (fst s)).
  split; [exact NL|]. split; [exact EV|]. split; [reflexivity|].
  rewrite (nth_error_nth _ _ _ Hi), (nth_error_nth _ _ _ Hj).
  destruct rows as [|r0 rows]; [discriminate|]. cbn [nth]. rewrite (HR 0%nat r0 eq_refl).
  cbn [apply_rows map nth]. unfold nI, vstore_tensor_comps. cbn [map length order_sym_2d firstn app]. intros Q. injection Q as Q _ _.
  revert Q. generalize (fst (fst s) (row (1, 1)%nat) (col (1, 1)%nat)). intros x Q. lra.
Qed.

(** Refused inputs: several element types or materials, elements of different
    sizes, finite strains, no time step. *)
Theorem vforward_refused cm nI dO conn n_node coords disps reaction bc norm weights lt n_types n_mats sf pt n_time el gps :
  (1 < n_types)%nat \/ (1 < n_mats)%nat \/ same_sizes conn = false \/
  (conn <> [] /\ gps <> [] /\ (sf = Finite \/ n_time = O)) ->
  forall r, vforward_sequential_element cm nI dO conn n_node coords disps reaction bc norm weights
    lt n_types n_mats sf pt n_time el gps <> Ok r.
Proof.
  intros H r E. unfold vforward_sequential_element in E.
  destruct (Nat.ltb_spec 1 n_types); [discriminate|].
  destruct (build_elements_mesh_indexing conn (el_n_dim el)) as [idx|] eqn:EI; [|discriminate]. cbn [rbind] in E.
  destruct (Nat.ltb_spec 1 n_mats); [discriminate|].
  destruct (get_problem_type_parameters pt) as [[[n order] q]|] eqn:PT; [|discriminate]. cbn [rbind] in E.
  destruct H as [H|[H|[H|(NC & NG & H)]]]; try lia.
  - unfold build_elements_mesh_indexing in EI. rewrite H in EI. discriminate.
  - destruct (vcompute_elements_internal_forces_hist _ _ _ _ _ _ _ _ _ _ _) as [g|] eqn:EG; [|discriminate]. clear E.
    unfold vcompute_elements_internal_forces_hist in EG. destruct conn as [|nodes conn]; [congruence|]. cbn [mapM] in EG.
    destruct (mapM (batched_config coords disps sf nodes) (seq 0 n_time)) as [hist|] eqn:EH; [|discriminate]. cbn [rbind] in EG.
    unfold vcompute_element_internal_forces_hist in EG. rewrite PT in EG. cbn [rbind] in EG.
    destruct gps as [|cw gps]; [congruence|]. destruct H as [-> | ->].
    + cbn [rbind mapM vcompute_local_internal_forces_hist] in EG. discriminate.
    + cbn [seq mapM] in EH. injection EH as <-. destruct sf; cbn [rbind mapM] in EG; unfold vcompute_local_internal_forces_hist in EG; cbn [mapM rbind map] in EG; discriminate.
Qed.

(** A case of the agreement: both modes succeed on the rectangle, with a loss
    that is not null. *)
Example ex_vforward_agrees : exists v h states,
  ex_vforward unit_model None None = Ok (v, h) /\ v <> 0 /\
  forward_sequential_element rstate snd ex_conn 4 ex_coords ex_coords (fun _ => ex_stretch) (fun _ _ _ => 0) (fun _ _ => 0%Z) None (fun _ => 1)
    Infinitesimal 1 1 [rfe unit_model 2 order_sym_2d quad4 [([0; 0], 4)]] [None] = Ok (v, states).
Proof.
  assert (SM : sequence_model 3 unit_model).
  { intros rows. split; [apply map_length|]. intros r I. apply in_map_iff in I. destruct I as (? & <- & _). simpl. lia. }
  destruct (ex_vforward_value 1) as (f1 & v1 & h1 & E1 & F1 & _ & V1). rewrite ex_loss in V1.
  pose proof (vforward_agrees unit_model 1 2 order_sym_2d order_nsym_2d eq_refl SM quad4 [([0; 0], 4)] ex_conn 4 1 ex_coords (fun _ => ex_stretch)
    (fun _ _ _ => 0) (fun _ _ _ => 0%Z) None (fun _ => 1)) as A.
  specialize (A ltac:(discriminate) ltac:(discriminate)).
  assert (HC : forall nodes, In nodes ex_conn -> nodes <> [] /\ labels_in_range 4 nodes /\ length nodes = el_n_node quad4).
  { intros nodes [<-|[]]. split; [discriminate|]. split; [exact ex_labels|reflexivity]. }
  specialize (A HC eq_refl (ex_array ex_coords (or_introl eq_refl)) (fun _ => ex_array ex_stretch (or_intror (or_introl eq_refl))) [None] v1 eq_refl).
  destruct (proj2 A (ex_intro _ h1 E1)) as (states & S1). exists v1, h1, states. split; [exact E1|]. split; [|exact S1].
  rewrite V1. cbn. rewrite F1. pose proof (pow2_ge_0 (f1 0%nat)). pose proof (pow2_ge_0 (f1 1%nat)). pose proof (pow2_ge_0 (f1 3%nat)).
  pose proof (pow2_ge_0 (f1 4%nat)). pose proof (pow2_ge_0 (f1 5%nat)). pose proof (pow2_ge_0 (f1 6%nat)). pose proof (pow2_ge_0 (f1 7%nat)). simpl in *. lra.
Qed.

Print Assumptions vforward_normalised.
Print Assumptions state_history_law.
Print Assumptions normalised_modes_refuted.
Print Assumptions stored_strain_refuted.
Print Assumptions vforward_refused.
