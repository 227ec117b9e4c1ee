(** C65 data scalers of a model, C67 restoring a model from its file. *)
From Coq Require Import Reals String List Arith Lia Lra Bool.
From Verif Require Import Lib PyDict ScalerModel ScalerSpec ScalerProps BatchFitModel BatchFitProps ModelFileModel.
Import ListNotations.
Local Open Scope string_scope.
Local Open Scope list_scope.

Notation SAVE := "is_save_model_init_file".
Notation DIR := "model_directory".
(** What the description of a class must satisfy; the checks look at saved
    arguments only. *)
Record class_ok (c : cls) : Prop := {
  ok_nodup : NoDup (map fst (cl_params c));
  ok_saved_nodup : NoDup (cl_saved c);
  ok_saved : forall p, In p (cl_saved c) -> In p (map fst (cl_params c)) /\ p <> SAVE;
  ok_dir : In DIR (cl_saved c);
  ok_name : In "model_name" (cl_saved c);
  ok_device : In "device_type" (cl_saved c);
  ok_flag : exists v, In (SAVE, Some v) (cl_params c);
  ok_required : forall p, In (p, None) (cl_params c) -> In p (cl_saved c);
  ok_check : forall a a', (forall p, In p (cl_saved c) -> p <> DIR -> dget a p = dget a' p) -> cl_check c a = cl_check c a' }.

Lemma existsb_mem p l : existsb (String.eqb p) l = true <-> In p l.
Proof.
  rewrite existsb_exists. split; [intros (x & I & E); apply String.eqb_eq in E; subst; auto|intros I; exists p; split; auto; apply String.eqb_refl].
Qed.
Lemma nodupb_ok l : (fix nd (l : list string) := match l with [] => true | x :: t => negb (existsb (String.eqb x) t) && nd t end) l = true -> NoDup l.
Proof.
  induction l as [|x t IH]; [constructor|]. cbn. rewrite andb_true_iff, negb_true_iff. intros [A B]. constructor; auto.
  intros I. apply existsb_mem in I. congruence.
Qed.
Ltac class_tac :=
  constructor; [apply nodupb_ok; reflexivity | apply nodupb_ok; reflexivity
    | intros p I; cbn in I; repeat (destruct I as [<-|I]; [split; [cbn; tauto|discriminate]|]); contradiction
    | cbn; tauto | cbn; tauto | cbn; tauto | eexists; cbn; tauto
    | intros p I; cbn in I; repeat (destruct I as [I|I]; [first [discriminate I | injection I as <-; cbn; tauto]|]); contradiction
    | ].
Lemma gru_class_ok : class_ok gru_class.
Proof. class_tac. reflexivity. Qed.
Lemma hybrid_class_ok : class_ok hybrid_class.
Proof. class_tac. reflexivity. Qed.
Lemma rc_class_ok : class_ok rc_class.
Proof.
  class_tac. intros a a' H. cbn. unfold rc_check. rewrite (H "problem_type"), (H "material_model_name"); auto; try discriminate; cbn; tauto.
Qed.

(** ** Keyword arguments *)
Lemma fill_keys params kw a : fill params kw = Ok a -> map fst a = map fst params.
Proof.
  revert a. induction params as [|[p dflt] rest IH]; intros a H; cbn in H; [injection H as <-; reflexivity|].
  destruct (match dget kw p with Some v => Some v | None => dflt end); [|discriminate].
  destruct (fill rest kw) as [t|] eqn:F; [|discriminate]. cbn in H. injection H as <-. cbn. rewrite (IH t eq_refl). reflexivity.
Qed.
Lemma fill_get params kw a : fill params kw = Ok a -> NoDup (map fst params) -> forall p dflt, In (p, dflt) params ->
  dget a p = match dget kw p with Some v => Some v | None => dflt end.
Proof.
  revert a. induction params as [|[q dq] rest IH]; intros a H N p dflt I; [contradiction|].
  cbn [fill] in H. cbn [map fst] in N. inversion N as [|? ? N1 N2]; subst.
  destruct (match dget kw q with Some v => Some v | None => dq end) as [v|] eqn:V; [|discriminate].
  destruct (fill rest kw) as [t|] eqn:F; [|discriminate]. cbn [rbind] in H. injection H as <-.
  destruct I as [E|I].
  - injection E as -> ->. unfold dget at 1. cbn. rewrite String.eqb_refl. symmetry. exact V.
  - assert (NE : q <> p) by (intros ->; apply N1; apply (in_map fst) in I; exact I).
    unfold dget at 1. cbn [gget]. rewrite (proj2 (String.eqb_neq p q)) by congruence. apply (IH t eq_refl N2 p dflt I).
Qed.
Lemma fill_succeeds params kw : (forall p, In (p, None) params -> dget kw p <> None) -> exists a, fill params kw = Ok a.
Proof.
  induction params as [|[p dflt] rest IH]; intros H; [exists []; reflexivity|]. cbn.
  destruct IH as [t E]; [intros q I; apply H; right; auto|].
  destruct (dget kw p) eqn:D; [rewrite E; cbn; eauto|]. destruct dflt; [rewrite E; cbn; eauto|].
  exfalso. apply (H p); [left; reflexivity|auto].
Qed.

(** ** Restoring *)
(** A model that went through its constructor. *)
Definition well_built (c : cls) (m : model) : Prop :=
  (exists kw, bind_args (cl_params c) kw = Ok (m_args m)) /\ check_name m = Ok tt /\ check_device m = Ok tt
  /\ cl_check c (m_args m) = Ok tt.
Definition record_of (c : cls) (m : model) : dict arg := map (fun p => (p, arg_of m p)) (cl_saved c).

Lemma well_built_keys c m : well_built c m -> map fst (m_args m) = map fst (cl_params c).
Proof.
  intros [[kw B] _]. unfold bind_args in B. destruct (forallb _ _); [|discriminate]. eapply fill_keys; eauto.
Qed.
Lemma arg_of_dget c m p : well_built c m -> In p (map fst (cl_params c)) -> dget (m_args m) p = Some (arg_of m p).
Proof.
  intros W I. rewrite <- (well_built_keys c m W) in I. destruct (dget_some_in (m_args m) p I) as [v E].
  unfold arg_of. rewrite E. reflexivity.
Qed.
Lemma record_get c m p : NoDup (cl_saved c) -> dget (record_of c m) p = if existsb (String.eqb p) (cl_saved c) then Some (arg_of m p) else None.
Proof.
  intros N. unfold record_of. induction (cl_saved c) as [|q l IH]; [reflexivity|]. cbn [map existsb]. inversion N; subst.
  unfold dget. cbn [gget]. destruct (String.eqb_spec p q) as [->|NE]; [reflexivity|]. cbn [orb]. apply IH. auto.
Qed.
Lemma record_keys c m : dkeys (record_of c m) = cl_saved c.
Proof. unfold dkeys, gkeys, record_of. rewrite map_map. cbn. apply map_id. Qed.

(** A model restored from the file of [m], in the same or in another directory:
    saved arguments are the ones of [m], the others the defaults. *)
Theorem restore_from_file : forall c m w d sc, class_ok c -> well_built c m -> isdir w d = true ->
  dget (w_files w) d = Some (record_of c m, sc) ->
  exists m', init_model_from_file c w d = (w, Ok m')
    /\ (forall p, In p (cl_saved c) -> p <> DIR -> arg_of m' p = arg_of m p)
    /\ arg_of m' DIR = AStr d
    /\ (forall p v, In (p, Some v) (cl_params c) -> ~ In p (cl_saved c) -> p <> SAVE -> arg_of m' p = v)
    /\ (forall p, ~ In p (map fst (cl_params c)) -> arg_of m' p = ANone)
    /\ saves m' = false /\ m_scalers m' = sc /\ well_built c m'.
Proof.
  intros c m w d sc C W D F. unfold init_model_from_file. rewrite D. cbn [negb]. rewrite F.
  set (kw := dset (dset (record_of c m) "model_directory" (AStr d)) "is_save_model_init_file" (ABool false)).
  pose proof (ok_saved_nodup c C) as NS. pose proof (ok_nodup c C) as ND.
  assert (K : forall p, dget kw p = if String.eqb p SAVE then Some (ABool false) else if String.eqb p DIR then Some (AStr d)
                        else if existsb (String.eqb p) (cl_saved c) then Some (arg_of m p) else None).
  { intros p. unfold kw. destruct (String.eqb_spec p SAVE) as [->|N1]; [apply dget_dset_same|].
    rewrite dget_dset_other by congruence. destruct (String.eqb_spec p DIR) as [->|N2]; [apply dget_dset_same|].
    rewrite dget_dset_other by congruence. apply record_get; auto. }
  assert (B1 : forallb (fun k => existsb (String.eqb k) (map fst (cl_params c))) (dkeys kw) = true).
  { apply forallb_forall. intros k I. apply existsb_mem.
    assert (G : dget kw k <> None) by (intros Z; apply dget_none in Z; contradiction).
    rewrite K in G. destruct (String.eqb_spec k SAVE) as [->|N1].
    - destruct (ok_flag c C) as [v V]. apply (in_map fst) in V. exact V.
    - destruct (String.eqb_spec k DIR) as [->|N2]; [apply (ok_saved c C); apply (ok_dir c C)|].
      destruct (existsb (String.eqb k) (cl_saved c)) eqn:E; [|congruence]. apply existsb_mem in E. apply (ok_saved c C); auto. }
  assert (B2 : exists a, fill (cl_params c) kw = Ok a).
  { apply fill_succeeds. intros p I. pose proof (ok_required c C p I) as S. rewrite K.
    destruct (String.eqb_spec p SAVE); [discriminate|]. destruct (String.eqb_spec p DIR); [discriminate|].
    rewrite (proj2 (existsb_mem p _) S). discriminate. }
  destruct B2 as [a A].
  pose proof (fill_get _ _ _ A ND) as G. pose proof (fill_keys _ _ _ A) as GK.
  assert (GS : forall p, In p (cl_saved c) -> p <> DIR -> dget a p = Some (arg_of m p)).
  { intros p I N. destruct (ok_saved c C p I) as [I2 N2]. apply in_map_iff in I2. destruct I2 as ((q & dq) & Eq & I2). cbn in Eq. subst q.
    rewrite (G p dq I2), K. rewrite (proj2 (String.eqb_neq _ _) N2), (proj2 (String.eqb_neq _ _) N), (proj2 (existsb_mem p _) I). reflexivity. }
  assert (GD : dget a DIR = Some (AStr d)).
  { destruct (ok_saved c C _ (ok_dir c C)) as [I2 _]. apply in_map_iff in I2. destruct I2 as ((q & dq) & Eq & I2). cbn in Eq. subst q.
    rewrite (G DIR dq I2), K. reflexivity. }
  assert (GF : dget a SAVE = Some (ABool false)).
  { destruct (ok_flag c C) as [v V]. rewrite (G SAVE _ V), K. reflexivity. }
  assert (GN : forall p v, In (p, Some v) (cl_params c) -> ~ In p (cl_saved c) -> p <> SAVE -> dget a p = Some v).
  { intros p v I N N2. rewrite (G p _ I), K. rewrite (proj2 (String.eqb_neq _ _) N2).
    destruct (String.eqb_spec p DIR) as [->|_]; [exfalso; apply N; apply (ok_dir c C)|].
    destruct (existsb (String.eqb p) (cl_saved c)) eqn:E; [apply existsb_mem in E; contradiction|reflexivity]. }
  destruct W as [WB [W1 [W2 W3]]].
  assert (WK : forall p, In p (cl_saved c) -> dget (m_args m) p = Some (arg_of m p)).
  { intros p I. apply (arg_of_dget c); [repeat split; auto|]. apply (ok_saved c C); auto. }
  set (m0 := {| m_args := a; m_scalers := None |}).
  assert (C1 : check_directory w m0 = Ok tt).
  { unfold check_directory, arg_of, m0. cbn [m_args]. change "model_directory" with DIR. rewrite GD, D. reflexivity. }
  assert (AG : forall p, In p (cl_saved c) -> p <> DIR -> arg_of m0 p = arg_of m p).
  { intros p I N. unfold arg_of at 1, m0. cbn [m_args]. rewrite GS; auto. }
  assert (C2 : check_name m0 = Ok tt).
  { unfold check_name. rewrite AG; [exact W1|apply (ok_name c C)|discriminate]. }
  assert (C3 : check_device m0 = Ok tt).
  { unfold check_device. rewrite AG; [exact W2|apply (ok_device c C)|discriminate]. }
  assert (C4 : cl_check c a = Ok tt).
  { rewrite <- W3. apply (ok_check c C). intros p I N. rewrite GS, WK; auto. }
  assert (SV : saves (init_data_scalers m0) = false).
  { unfold saves, arg_of. cbn [m_args init_data_scalers m0]. change "is_save_model_init_file" with SAVE. rewrite GF. reflexivity. }
  assert (CC : construct c w kw = (w, Ok (init_data_scalers m0))).
  { unfold construct, bind_args. rewrite B1, A. cbn [rbind]. fold m0. rewrite C1. cbn [rbind]. rewrite C2. cbn [rbind].
    rewrite C3. cbn [rbind]. rewrite C4. cbn [rbind]. unfold save_if_flag. rewrite SV. reflexivity. }
  rewrite CC. eexists. split; [reflexivity|]. unfold arg_of at 1 3 4 5. cbn [m_args init_data_scalers m_scalers m0].
  split; [intros p I N; rewrite GS; auto|]. split; [rewrite GD; reflexivity|].
  split; [intros p v I N N2; rewrite (GN p v); auto|].
  split.
  { intros p N. destruct (dget a p) eqn:Q; [|reflexivity]. exfalso. apply N. rewrite <- GK. apply dget_key in Q. exact Q. }
  split; [exact SV|]. split; [reflexivity|].
  repeat split.
  - exists kw. unfold bind_args. rewrite B1. exact A.
  - exact C2.
  - exact C3.
  - exact C4.
Qed.

(** *** Saving *)
Lemma construct_built c w kw w' m : construct c w kw = (w', Ok m) -> well_built c m
  /\ m_scalers m = Some [("features_in", None); ("features_out", None)]
  /\ (saves m = true -> exists d, arg_of m DIR = AStr d /\ isdir w' d = true /\ dget (w_files w') d = Some (record_of c m, m_scalers m)).
Proof.
  unfold construct. destruct (bind_args (cl_params c) kw) as [a|] eqn:B; cbn [rbind]; [|discriminate].
  set (m0 := {| m_args := a; m_scalers := None |}).
  destruct (check_directory w m0) as [[]|] eqn:C1; cbn [rbind]; [|discriminate].
  destruct (check_name m0) as [[]|] eqn:C2; cbn [rbind]; [|discriminate].
  destruct (check_device m0) as [[]|] eqn:C3; cbn [rbind]; [|discriminate].
  destruct (cl_check c a) as [[]|] eqn:C4; cbn [rbind]; [|discriminate].
  intros H. assert (M : m = init_data_scalers m0 /\ save_if_flag c w (init_data_scalers m0) = (w', Ok m)).
  { split; [|exact H]. unfold save_if_flag in H. destruct (saves _); [destruct (save_model_init_file _ _ _) as [w1 [[]|]]|]; congruence. }
  destruct M as [-> _]. split; [repeat split; eauto|]. split; [reflexivity|]. intros S.
  unfold save_if_flag in H. rewrite S in H. unfold save_model_init_file in H.
  destruct (arg_of (init_data_scalers m0) DIR) eqn:AD; try discriminate.
  destruct (isdir w s) eqn:ID; [|discriminate]. injection H as <-. exists s. split; [reflexivity|]. split; [exact ID|].
  cbn [w_files]. apply dget_dset_same.
Qed.
Lemma save_writes c w m w' m' : save_if_flag c w m = (w', Ok m') -> m' = m /\ (saves m = true -> exists d, arg_of m DIR = AStr d /\ isdir w' d = true /\ dget (w_files w') d = Some (record_of c m, m_scalers m))
  /\ (saves m = false -> w' = w).
Proof.
  unfold save_if_flag. destruct (saves m) eqn:S.
  - unfold save_model_init_file. destruct (arg_of m DIR) eqn:AD; try discriminate.
    destruct (isdir w s) eqn:ID; [|discriminate]. intros H. injection H as <- <-. split; [reflexivity|]. split; [|discriminate].
    intros _. exists s. split; [reflexivity|]. split; [exact ID|]. cbn [w_files]. apply dget_dset_same.
  - intros H. injection H as <- <-. split; [reflexivity|]. split; [discriminate|reflexivity].
Qed.

(** C67: a GRU model and a hybrid model are restored with all their arguments. *)
Definition restored (c : cls) (w : world) (d : string) (m : model) (except : list string) : Prop :=
  exists m', init_model_from_file c w d = (w, Ok m') /\ m_scalers m' = m_scalers m /\ saves m' = false
    /\ forall p, ~ In p (SAVE :: except) -> arg_of m' p = arg_of m p.
Lemma restored_all c w m d except : class_ok c -> well_built c m -> isdir w d = true -> arg_of m DIR = AStr d ->
  dget (w_files w) d = Some (record_of c m, m_scalers m) ->
  (forall p, In p (map fst (cl_params c)) -> In p (cl_saved c) \/ In p (SAVE :: except)) ->
  restored c w d m except.
Proof.
  intros C W D AD F S. destruct (restore_from_file c m w d (m_scalers m) C W D F) as (m' & E & R1 & R2 & R3 & R4 & R5 & R6 & _).
  exists m'. repeat split; auto. intros p N. destruct (in_dec string_dec p (map fst (cl_params c))) as [I|I].
  - destruct (S p I) as [J|J]; [|contradiction]. destruct (string_dec p DIR) as [->|ND]; [congruence|]. apply R1; auto.
  - rewrite R4 by auto. unfold arg_of. destruct (dget (m_args m) p) eqn:Q; [|reflexivity]. exfalso. apply I.
    rewrite <- (well_built_keys c m W). apply dget_key in Q. exact Q.
Qed.
Ltac all_saved := let q := fresh in let J := fresh in intros q J; cbn in J; repeat (destruct J as [<-|J]; [cbn; tauto|]); contradiction.
Theorem gru_restored : forall w kw w' m, construct gru_class w kw = (w', Ok m) -> saves m = true ->
  exists d, arg_of m DIR = AStr d /\ restored gru_class w' d m [].
Proof.
  intros w kw w' m H S. destruct (construct_built _ _ _ _ _ H) as [W [_ P]]. destruct (P S) as (d & A & I & F).
  exists d. split; auto. apply restored_all; auto using gru_class_ok. all_saved.
Qed.
Theorem hybrid_restored : forall w kw w' m, construct hybrid_class w kw = (w', Ok m) -> saves m = true ->
  exists d, arg_of m DIR = AStr d /\ restored hybrid_class w' d m [].
Proof.
  intros w kw w' m H S. destruct (construct_built _ _ _ _ _ H) as [W [_ P]]. destruct (P S) as (d & A & I & F).
  exists d. split; auto. apply restored_all; auto using hybrid_class_ok. all_saved.
Qed.
(** A recurrent constitutive model loses two of its arguments ... *)
Theorem rc_restored_partial : forall w kw w' m, construct rc_class w kw = (w', Ok m) -> saves m = true ->
  exists d, arg_of m DIR = AStr d /\ restored rc_class w' d m ["is_auto_sync_parameters"; "is_check_su_fail"].
Proof.
  intros w kw w' m H S. destruct (construct_built _ _ _ _ _ H) as [W [_ P]]. destruct (P S) as (d & A & I & F).
  exists d. split; auto. apply restored_all; auto using rc_class_ok. all_saved.
Qed.
(** ... they come back with their defaults. *)
Theorem rc_restored_defaults : forall w kw w' m d, construct rc_class w kw = (w', Ok m) -> saves m = true -> arg_of m DIR = AStr d ->
  exists m', init_model_from_file rc_class w' d = (w', Ok m')
    /\ arg_of m' "is_auto_sync_parameters" = ABool true /\ arg_of m' "is_check_su_fail" = ABool true.
Proof.
  intros w kw w' m d H S AD. destruct (construct_built _ _ _ _ _ H) as [W [_ P]]. destruct (P S) as (d' & A & I & F).
  rewrite AD in A. injection A as <-.
  destruct (restore_from_file rc_class m w' d (m_scalers m) rc_class_ok W I F) as (m' & E & _ & _ & R3 & _). exists m'. split; auto.
  split; apply R3; try discriminate; try (cbn; tauto);
    intros J; cbn in J; repeat (destruct J as [J|J]; [discriminate|]); contradiction.
Qed.
Definition ex_world : world := {| w_dirs := ["dir"]; w_files := [] |}.
Definition ex_rc : dict arg :=
  [("n_features_in", ANat 6); ("n_features_out", ANat 6); ("learnable_parameters", AObj 1); ("strain_formulation", AStr "infinitesimal");
   ("problem_type", ANat 4); ("material_model_name", AStr "von_mises"); ("material_model_parameters", AObj 2);
   ("model_directory", AStr "dir"); ("is_auto_sync_parameters", ABool false); ("is_check_su_fail", ABool false)].
Theorem rc_restored_refuted : exists w kw w' m m' d, construct rc_class w kw = (w', Ok m) /\ saves m = true
  /\ init_model_from_file rc_class w' d = (w', Ok m')
  /\ arg_of m "is_auto_sync_parameters" <> arg_of m' "is_auto_sync_parameters"
  /\ arg_of m "is_check_su_fail" <> arg_of m' "is_check_su_fail".
Proof.
  exists ex_world, ex_rc. do 3 eexists. exists "dir". split; [reflexivity|]. split; [reflexivity|]. split; [reflexivity|].
  split; discriminate.
Qed.
(** A restored model never writes its file. *)
Theorem restored_never_saves : forall c w d w' m sin sout, class_ok c ->
  init_model_from_file c w d = (w', Ok m) -> (exists m0 sc, well_built c m0 /\ dget (w_files w) d = Some (record_of c m0, sc)) ->
  w' = w /\ exists m', set_data_scalers c w' m sin sout = (w, Ok m').
Proof.
  intros c w d w' m sin sout C H (m0 & sc & W & F).
  assert (D : isdir w d = true).
  { unfold init_model_from_file in H. destruct (isdir w d); [reflexivity|discriminate]. }
  destruct (restore_from_file c m0 w d sc C W D F) as (m1 & E & _ & _ & _ & _ & S & _). rewrite E in H. injection H as <- <-.
  split; [reflexivity|]. unfold set_data_scalers, save_if_flag.
  replace (saves (put (put (init_data_scalers m1) "features_in" sin) "features_out" sout)) with (saves m1) by reflexivity.
  rewrite S. eauto.
Qed.
(** Without a directory the default flag makes the constructor fail. *)
Theorem no_directory_fails : forall c w kw a, bind_args (cl_params c) kw = Ok a -> dget a DIR = Some ANone -> dget a SAVE = Some (ABool true) ->
  check_name {| m_args := a; m_scalers := None |} = Ok tt -> check_device {| m_args := a; m_scalers := None |} = Ok tt ->
  cl_check c a = Ok tt -> construct c w kw = (w, Err TypeError).
Proof.
  intros c w kw a B D S C2 C3 C4. unfold construct. rewrite B. cbn [rbind]. set (m0 := {| m_args := a; m_scalers := None |}) in *.
  assert (AD : arg_of m0 DIR = ANone) by (unfold arg_of; cbn [m_args m0]; rewrite D; reflexivity).
  assert (AS : arg_of m0 SAVE = ABool true) by (unfold arg_of; cbn [m_args m0]; rewrite S; reflexivity).
  unfold check_directory. rewrite AD. cbn [rbind]. rewrite C2, C3, C4. cbn [rbind].
  unfold save_if_flag, saves. change (arg_of (init_data_scalers m0)) with (arg_of m0). rewrite AS.
  unfold save_model_init_file. change (arg_of (init_data_scalers m0)) with (arg_of m0). rewrite AD. reflexivity.
Qed.

(** ** Data scalers *)
Definition scaler_in (m : model) (f : string) (s : scaler) : Prop := exists d, m_scalers m = Some d /\ dget d f = Some (Some s).
Lemma transform_uses m f s t : scaler_in m f s ->
  data_scaler_transform m t f "normalize" = match s with Std s => standard_transform s t | Mm s => minmax_transform s t end
  /\ data_scaler_transform m t f "denormalize" = match s with Std s => standard_inverse_transform s t | Mm s => minmax_inverse_transform s t end.
Proof.
  intros (d & E & G). unfold data_scaler_transform, check_normalized_return, get_fitted_data_scaler. rewrite E, G.
  replace (forallb _ d) with false; [cbn; split; reflexivity|]. symmetry.
  destruct (forallb _ d) eqn:Q; [|reflexivity]. exfalso. rewrite forallb_forall in Q. apply dget_in in G. specialize (Q _ G). discriminate.
Qed.
(** A scaler that can be inverted. *)
Definition invertible_scaler (n : nat) (s : scaler) : Prop :=
  match s with
  | Std s => st_n s = n /\ exists m d, st_mean s = Some m /\ st_std s = Some d /\ forall j, (j < n)%nat -> nth j d 0%R <> 0%R
  | Mm s => mm_n s = n /\ mm_nmin s <> mm_nmax s /\ exists a b, mm_min s = Some a /\ mm_max s = Some b /\ forall j, (j < n)%nat -> nth j a 0%R <> nth j b 0%R
  end.
Theorem model_scaler_roundtrip : forall m f s n t, scaler_in m f s -> invertible_scaler n s -> regular n t ->
  exists y, data_scaler_transform m t f "normalize" = Ok (defined y) /\ data_scaler_transform m y f "denormalize" = Ok (defined t).
Proof.
  intros m f s n t S I Rt. destruct s as [s|s].
  - destruct I as (<- & mu & d & E1 & E2 & ND). destruct (standard_roundtrip s mu d t E1 E2 ND Rt) as (y & A & B). exists y.
    rewrite (proj1 (transform_uses m f (Std s) t S)), (proj2 (transform_uses m f (Std s) y S)). auto.
  - destruct I as (<- & NB & a & b & E1 & E2 & ND). destruct (minmax_roundtrip_partial s a b t E1 E2 ND NB Rt) as (y & A & B). exists y.
    rewrite (proj1 (transform_uses m f (Mm s) t S)), (proj2 (transform_uses m f (Mm s) y S)). auto.
Qed.
(** Nothing is transformed before the scalers are set. *)
Theorem unfitted_model_refuses : forall c w kw w' m t f mode, construct c w kw = (w', Ok m) -> data_scaler_transform m t f mode = Err RuntimeError.
Proof.
  intros c w kw w' m t f mode H. destruct (construct_built _ _ _ _ _ H) as [_ [E _]].
  unfold data_scaler_transform, check_normalized_return. rewrite E. reflexivity.
Qed.
(** Set scalers are the ones used, written to the file and found by a restored
    model. *)
Lemma put_scalers m sin sout : m_scalers (put (put (init_data_scalers m) "features_in" sin) "features_out" sout)
  = Some [("features_in", sin); ("features_out", sout)].
Proof. reflexivity. Qed.
Theorem set_scalers_effect : forall c w m sin sout w' m', set_data_scalers c w m sin sout = (w', Ok m') ->
  m_scalers m' = Some [("features_in", sin); ("features_out", sout)] /\ m_args m' = m_args m.
Proof.
  intros c w m sin sout w' m' H. destruct (save_writes _ _ _ _ _ H) as [-> _]. split; reflexivity.
Qed.
Theorem set_scalers_restored : forall c w m sin sout w' m', class_ok c -> well_built c m -> saves m = true ->
  set_data_scalers c w m sin sout = (w', Ok m') ->
  exists d m2, arg_of m DIR = AStr d /\ init_model_from_file c w' d = (w', Ok m2) /\ m_scalers m2 = m_scalers m'
    /\ load_model_data_scalers_from_file w' m = Ok {| m_args := m_args m; m_scalers := m_scalers m' |}.
Proof.
  intros c w m sin sout w' m' C W S H. destruct (save_writes _ _ _ _ _ H) as [-> [P _]].
  destruct (P S) as (d & A & I & F). exists d.
  destruct (restore_from_file c _ w' d _ C W I F) as (m2 & E & _ & _ & _ & _ & _ & R & _). exists m2.
  split; [exact A|]. split; [exact E|]. split; [exact R|].
  unfold load_model_data_scalers_from_file.
  replace (arg_of m DIR) with (AStr d) by (symmetry; exact A). rewrite I. cbn [negb]. rewrite F. reflexivity.
Qed.
(** Fitting: each scaler is the pooled scaler of its own features. *)
Theorem fit_scalers_effect : forall c w m d ty pin pout w' m', fit_data_scalers c w m d ty pin pout = (w', m', Ok tt) ->
  exists sin sout, fit_data_scaler_from_dataset d "features_in" (nfeat m "n_features_in") ty pin = Ok sin
    /\ fit_data_scaler_from_dataset d "features_out" (nfeat m "n_features_out") ty pout = Ok sout
    /\ scaler_in m' "features_in" sin /\ scaler_in m' "features_out" sout /\ m_args m' = m_args m
    /\ (class_ok c -> well_built c m -> saves m = true ->
        exists dir m2, arg_of m DIR = AStr dir /\ init_model_from_file c w' dir = (w', Ok m2) /\ m_scalers m2 = m_scalers m').
Proof.
  intros c w m d ty pin pout w' m'. unfold fit_data_scalers.
  destruct (fit_data_scaler_from_dataset d "features_in" _ ty pin) as [sin|] eqn:E1; [|discriminate].
  destruct (fit_data_scaler_from_dataset d "features_out" _ ty pout) as [sout|] eqn:E2; [|discriminate].
  set (m1 := put (put (init_data_scalers m) "features_in" (Some sin)) "features_out" (Some sout)).
  destruct (save_if_flag c w m1) as [w1 [m1'|]] eqn:SF; [|discriminate]. intros H. injection H as <- <-.
  exists sin, sout. do 2 (split; [reflexivity|]).
  split; [eexists; split; reflexivity|]. split; [eexists; split; reflexivity|]. split; [reflexivity|].
  intros C W S. destruct (save_writes _ _ _ _ _ SF) as [_ [P _]]. destruct (P S) as (dir & A & I & F).
  destruct (restore_from_file c _ w1 dir _ C W I F) as (m2 & E & _ & _ & _ & _ & _ & R & _). exists dir, m2. auto.
Qed.
(** A model fitted on a data set normalises it. *)
Theorem fitted_model_normalises : forall c w m d pin pout w' m' f n, fit_data_scalers c w m d "mean-std" pin pout = (w', m', Ok tt) ->
  (f = "features_in" /\ n = nfeat m "n_features_in" \/ f = "features_out" /\ n = nfeat m "n_features_out") ->
  fit_data d f n -> d <> [] ->
  (forall j, (j < n)%nat -> exists x y, In x (column j (pooled d f)) /\ In y (column j (pooled d f)) /\ x <> y) ->
  exists y, data_scaler_transform m' (Mat (pooled d f)) f "normalize" = Ok (defined y)
    /\ forall j, (j < n)%nat -> mean (feature j y) = 0%R /\ variance (feature j y) = 1%R.
Proof.
  intros c w m d pin pout w' m' f n H Q F N V. destruct (fit_scalers_effect _ _ _ _ _ _ _ _ _ H) as (sin & sout & E1 & E2 & S1 & S2 & _).
  assert (G : exists s p, fit_data_scaler_from_dataset d f n "mean-std" p = Ok s /\ scaler_in m' f s).
  { destruct Q as [[-> ->]|[-> ->]]; eauto. }
  destruct G as (s & p & E & S).
  assert (I : exists s0, standard_init_with n (p_mean p) (p_std p) = Ok s0).
  { unfold fit_data_scaler_from_dataset in E. cbn in E. destruct (standard_init_with n (p_mean p) (p_std p)); [eauto|discriminate]. }
  destruct I as [s0 I]. destruct (fit_standard_normalises d f n p s0 F N I V) as (s' & y & E' & T & M). rewrite E in E'. injection E' as ->.
  exists y. rewrite (proj1 (transform_uses m' f (Std s') _ S)). auto.
Qed.
(** A failed fit loses the scalers the model had, while its file keeps them. *)
Definition ex_gru : dict arg := [("n_features_in", ANat 1); ("n_features_out", ANat 1); ("hidden_layer_size", ANat 3); ("model_directory", AStr "dir")].
Definition ex_scaler : scaler := Std {| st_n := 1; st_mean := Some [0%R]; st_std := Some [1%R] |}.
Definition ex_params : params := {| p_mean := None; p_std := None; p_min := None; p_max := None; p_nmin := (-1)%R; p_nmax := 1%R |}.
Theorem failed_fit_keeps_scalers_refuted : exists c w m w1 m1 d w2 m2 e,
  set_data_scalers c w m (Some ex_scaler) (Some ex_scaler) = (w1, Ok m1)
  /\ scaler_in m1 "features_in" ex_scaler
  /\ fit_data_scalers c w1 m1 d "mean-std" ex_params ex_params = (w2, m2, Err e)
  /\ (forall t f mode, data_scaler_transform m2 t f mode = Err RuntimeError)
  /\ load_model_data_scalers_from_file w2 m2 = Ok m1.
Proof.
  exists gru_class, ex_world, {| m_args := match bind_args (cl_params gru_class) ex_gru with Ok a => a | Err _ => [] end; m_scalers := None |}.
  do 2 eexists. exists []. do 3 eexists. split; [reflexivity|]. split; [eexists; split; reflexivity|]. split; [reflexivity|].
  split; reflexivity.
Qed.
(** set_fitted_data_scalers cannot be used: it fails for each of the three
    classes, and for min-max scaling with any class. *)
Theorem set_fitted_scalers_refuted : forall c w m ty pin pout,
  set_fitted_data_scalers c false w m ty pin pout = (w, m, Err AttributeError)
  /\ exists m', set_fitted_data_scalers c true w m "min-max" pin pout = (w, m', Err TypeError)
       /\ m_scalers m' = Some [("features_in", None); ("features_out", None)].
Proof. intros c w m ty pin pout. split; [reflexivity|]. eexists. split; reflexivity. Qed.

(** ** Concrete cases *)
Example restore_case : exists w m m', construct gru_class ex_world ex_gru = (w, Ok m)
  /\ init_model_from_file gru_class w "dir" = (w, Ok m') /\ arg_of m' "hidden_layer_size" = ANat 3 /\ saves m = true /\ saves m' = false.
Proof. do 3 eexists. split; [reflexivity|]. split; [reflexivity|]. repeat split; reflexivity. Qed.

Print Assumptions restore_from_file.
Print Assumptions fitted_model_normalises.
Print Assumptions rc_restored_refuted.
