(** Learnable parameters: bounds and normalisation (C26). *)
From Coq Require Import Reals String List Bool Lra Lia.
From Verif Require Import Lib PyDict MatrixModel ParamModel ParamSpec.
Import ListNotations.
Local Open Scope string_scope.
Local Open Scope list_scope.
Local Open Scope R_scope.

(** ** Normalisation *)
Lemma affine_norm lo hi x : lo < hi -> affine_map (lo, hi) (-1, 1) x = Ok (norm_of lo hi x).
Proof.
  intros H. unfold affine_map. destruct (Req_EM_T (hi - lo) 0); [lra|]. f_equal. unfold norm_of. field. lra.
Qed.
Lemma affine_phys lo hi z : affine_map (-1, 1) (lo, hi) z = Ok (phys_of lo hi z).
Proof.
  unfold affine_map. destruct (Req_EM_T (1 - -1) 0); [lra|]. f_equal. unfold phys_of. field.
Qed.
Lemma phys_norm lo hi x : lo < hi -> phys_of lo hi (norm_of lo hi x) = x.
Proof. intros; unfold phys_of, norm_of; field; lra. Qed.
Lemma norm_phys lo hi z : lo < hi -> norm_of lo hi (phys_of lo hi z) = z.
Proof. intros; unfold phys_of, norm_of; field; lra. Qed.
Lemma phys_bounds lo hi z : lo <= hi -> -1 <= z <= 1 -> lo <= phys_of lo hi z <= hi.
Proof. intros; unfold phys_of; split; nra. Qed.
Lemma norm_bounds lo hi x : lo < hi -> (lo <= x <= hi <-> -1 <= norm_of lo hi x <= 1).
Proof.
  intros H. split.
  - intros [A B]. unfold norm_of. split; apply (Rmult_le_reg_r (hi - lo)); try lra;
      unfold Rdiv; rewrite Rmult_assoc, Rinv_l by lra; lra.
  - intros P. rewrite <- (phys_norm lo hi x H). apply phys_bounds; lra.
Qed.

(** Normalising and denormalising are inverse, send the bounds to -1 and 1,
    and any other mode is rejected. *)
Theorem normalise_inverts b nb name lo hi : lo < hi ->
  dget b name = Some (lo, hi) -> dget nb name = Some (-1, 1) ->
  (forall x, exists z, transform_parameter b nb name x "normalize" = Ok z /\
     transform_parameter b nb name z "denormalize" = Ok x /\ (lo <= x <= hi <-> -1 <= z <= 1)) /\
  (forall z, exists x, transform_parameter b nb name z "denormalize" = Ok x /\
     transform_parameter b nb name x "normalize" = Ok z) /\
  transform_parameter b nb name lo "normalize" = Ok (-1) /\
  transform_parameter b nb name hi "normalize" = Ok 1 /\
  (forall x y zx zy, x < y -> transform_parameter b nb name x "normalize" = Ok zx ->
     transform_parameter b nb name y "normalize" = Ok zy -> zx < zy) /\
  (forall x mode, mode <> "normalize" -> mode <> "denormalize" ->
     transform_parameter b nb name x mode = Err RuntimeError).
Proof.
  intros H B NB.
  assert (TN : forall x, transform_parameter b nb name x "normalize" = Ok (norm_of lo hi x)).
  { intros x. unfold transform_parameter, dlookup. cbn [String.eqb Ascii.eqb Bool.eqb]. rewrite B, NB. cbn [rbind].
    apply affine_norm; auto. }
  assert (TD : forall z, transform_parameter b nb name z "denormalize" = Ok (phys_of lo hi z)).
  { intros z. unfold transform_parameter, dlookup. cbn [String.eqb Ascii.eqb Bool.eqb]. rewrite B, NB. cbn [rbind].
    apply affine_phys. }
  repeat split.
  - intros x. exists (norm_of lo hi x). rewrite TN, TD, phys_norm by auto. split; auto. split; auto. apply norm_bounds; auto.
  - intros z. exists (phys_of lo hi z). rewrite TN, TD, norm_phys by auto. auto.
  - rewrite TN. f_equal. unfold norm_of. field. lra.
  - rewrite TN. f_equal. unfold norm_of. field. lra.
  - intros x y zx zy L. rewrite !TN. intros E1 E2. inversion E1; inversion E2. unfold norm_of.
    apply Rmult_lt_compat_r; [apply Rinv_0_lt_compat; lra|lra].
  - intros x mode M1 M2. unfold transform_parameter.
    apply String.eqb_neq in M1, M2. rewrite M1, M2. reflexivity.
Qed.

(** ** Clamping *)
Lemma clamp_in lo hi x : lo <= hi -> lo <= clamp lo hi x <= hi.
Proof. intros H. unfold clamp, Rmin, Rmax. destruct (Rle_dec x lo); destruct (Rle_dec _ hi); lra. Qed.
Lemma clamp_id lo hi x : lo <= x <= hi -> clamp lo hi x = x.
Proof. intros H. unfold clamp, Rmin, Rmax. destruct (Rle_dec x lo); destruct (Rle_dec _ hi); lra. Qed.
Lemma clamp_nearest lo hi x : lo <= hi -> nearest lo hi x (clamp lo hi x).
Proof.
  intros H. split; [apply clamp_in; auto|]. intros z Hz.
  unfold clamp, Rmin, Rmax. destruct (Rle_dec x lo); destruct (Rle_dec _ hi); unfold Rabs; repeat destruct Rcase_abs; lra.
Qed.

(** ** Construction *)
Lemma dset_new {V} (d : dict V) k v : ~ In k (dkeys d) -> dset d k v = d ++ [(k, v)].
Proof.
  induction d as [|[a b] d IH]; cbn; auto. intros I.
  unfold dset. cbn [gset]. destruct (String.eqb_spec k a); [subst; tauto|]. f_equal. apply IH. tauto.
Qed.
Lemma dget_app_new {V} (d : dict V) k v : ~ In k (dkeys d) -> dget (d ++ [(k, v)]) k = Some v.
Proof.
  induction d as [|[a b] d IH]; cbn; intros I; unfold dget; cbn [gget app]; [rewrite String.eqb_refl; auto|].
  destruct (String.eqb_spec k a); [subst; tauto|]. apply IH. tauto.
Qed.

Definition pinit (normalized : bool) (e : string * (R * (R * R))) : string * R :=
  let '(k, (i, (lo, hi))) := e in (k, if normalized then norm_of lo hi i else i).
Definition pbnd (e : string * (R * (R * R))) : string * (R * R) := (fst e, snd (snd e)).
Definition pnb (e : string * (R * (R * R))) : string * (R * R) := (fst e, (-1, 1)).

Lemma keys_pinit n L : dkeys (map (pinit n) L) = dkeys L.
Proof. unfold dkeys, gkeys. rewrite map_map. apply map_ext. intros [k [i [lo hi]]]. reflexivity. Qed.
Lemma keys_pbnd L : dkeys (map pbnd L) = dkeys L.
Proof. unfold dkeys, gkeys. rewrite map_map. reflexivity. Qed.
Lemma keys_pnb L : dkeys (map pnb L) = dkeys L.
Proof. unfold dkeys, gkeys. rewrite map_map. reflexivity. Qed.

Lemma set_parameters_closed n L : admissible n L ->
  set_model_parameters n L = Ok (RCPar n (map (pinit n) L) (map pbnd L) (if n then map pnb L else [])).
Proof.
  intros [ND AD]. unfold set_model_parameters.
  assert (G : forall L2 L1, L = L1 ++ L2 ->
    rfold set_model_parameter L2 (RCPar n (map (pinit n) L1) (map pbnd L1) (if n then map pnb L1 else []))
    = Ok (RCPar n (map (pinit n) L) (map pbnd L) (if n then map pnb L else []))).
  { induction L2 as [|[k [i [lo hi]]] L2 IH]; intros L1 EQ.
    - rewrite app_nil_r in EQ. subst. reflexivity.
    - assert (FR : ~ In k (dkeys L1)).
      { rewrite EQ in ND. unfold dkeys, gkeys in *. rewrite map_app in ND. cbn in ND.
        apply NoDup_remove_2 in ND. intros I. apply ND, in_or_app. auto. }
      specialize (AD k i lo hi ltac:(rewrite EQ; apply in_or_app; right; left; auto)).
      specialize (IH (L1 ++ [(k, (i, (lo, hi)))]) ltac:(rewrite EQ, <- app_assoc; reflexivity)).
      cbn [rfold set_model_parameter]. destruct n; cbn [rc_normalized rc_bounds rc_norm_bounds rc_params].
      + destruct (Rlt_dec hi lo); [lra|].
        rewrite !dset_new by (rewrite ?keys_pinit, ?keys_pbnd, ?keys_pnb; auto).
        unfold transform_parameter, dlookup. cbn [String.eqb Ascii.eqb Bool.eqb].
        rewrite !dget_app_new by (rewrite ?keys_pbnd, ?keys_pnb; auto). cbn [rbind].
        rewrite affine_norm by auto. cbn [rbind].
        rewrite dset_new by (rewrite keys_pinit; auto). rewrite !map_app in IH. exact IH.
      + destruct (Rlt_dec hi lo); [lra|].
        rewrite !dset_new by (rewrite ?keys_pinit, ?keys_pbnd, ?keys_pnb; auto).
        cbn [rbind]. rewrite !map_app in IH. exact IH. }
  specialize (G L [] eq_refl). destruct n; exact G.
Qed.

(** The model is constructed exactly for consistent bounds, and its physical
    parameters are the initial values. *)
Theorem construction_stores_initial_values n L : admissible n L ->
  exists m, set_model_parameters n L = Ok m /\ rc_normalized m = n /\ dkeys (rc_params m) = dkeys L /\
    get_detached_model_parameters m false = Ok (map (fun e => (fst e, fst (snd e))) L).
Proof.
  intros AD. rewrite (set_parameters_closed n L AD). eexists. split; [reflexivity|].
  cbn [rc_normalized rc_params]. split; auto. split; [apply keys_pinit|].
  destruct AD as [ND AD]. unfold get_detached_model_parameters. cbn [rc_normalized rc_params rc_bounds rc_norm_bounds].
  destruct n; [|f_equal; apply map_ext; intros [k [i [lo hi]]]; reflexivity].
  rewrite <- map_id with (l := map (fun e => (fst e, fst (snd e))) L) at 1.
  assert (G : forall L', (forall e, In e L' -> In e L) ->
    rmap (fun kv : string * R => rbind (transform_parameter (map pbnd L) (map pnb L) (fst kv) (snd kv) "denormalize")
      (fun v => Ok (fst kv, v))) (map (pinit true) L') = Ok (map (fun e => (fst e, fst (snd e))) L')).
  { induction L' as [|[k [i [lo hi]]] L' IH]; intros IN; cbn [map rmap]; auto.
    pose proof (IN _ (or_introl eq_refl)) as I0. specialize (AD _ _ _ _ I0). cbn [pinit fst snd].
    unfold transform_parameter, dlookup. cbn [String.eqb Ascii.eqb Bool.eqb].
    rewrite (in_dget (map pnb L) k (-1, 1)), (in_dget (map pbnd L) k (lo, hi));
      rewrite ?keys_pbnd, ?keys_pnb; auto.
    2: apply (in_map pbnd) in I0; exact I0. 2: apply (in_map pnb) in I0; exact I0.
    cbn [rbind]. rewrite affine_phys, phys_norm by auto. cbn [rbind].
    unfold transform_parameter, dlookup in IH. cbn [String.eqb Ascii.eqb Bool.eqb] in IH.
    rewrite IH by (intros; apply IN; right; auto). reflexivity. }
  rewrite map_id. apply G; auto.
Qed.

Theorem invalid_bounds_rejected n k i lo hi L : hi < lo ->
  set_model_parameters n ((k, (i, (lo, hi))) :: L) = Err RuntimeError.
Proof. intros H. unfold set_model_parameters. cbn. destruct (Rlt_dec hi lo); [reflexivity|lra]. Qed.

(** A model exists exactly for admissible bounds. *)
Theorem construction_iff_admissible n L : NoDup (dkeys L) ->
  ((exists m, set_model_parameters n L = Ok m) <-> admissible n L).
Proof.
  intros ND. split; [|intros AD; rewrite (set_parameters_closed n L AD); eauto].
  intros [m E]. split; auto. revert m E. unfold set_model_parameters.
  assert (G : forall L2 m0 m, rc_normalized m0 = n -> rfold set_model_parameter L2 m0 = Ok m ->
    forall k i lo hi, In (k, (i, (lo, hi))) L2 -> if n then lo < hi else lo <= hi).
  { induction L2 as [|[k0 [i0 [lo0 hi0]]] L2 IH]; intros m0 m N E k i lo hi I; [contradiction|].
    cbn [rfold] in E. destruct (set_model_parameter m0 (k0, (i0, (lo0, hi0)))) as [m1|] eqn:E1; [|discriminate].
    cbn [rbind] in E. cbn [set_model_parameter] in E1. destruct (Rlt_dec hi0 lo0) as [|GE]; [discriminate|].
    rewrite N in E1. destruct n.
    - unfold transform_parameter, dlookup in E1. cbn [String.eqb Ascii.eqb Bool.eqb] in E1.
      rewrite !dget_dset_same in E1. cbn [rbind] in E1. unfold affine_map in E1.
      destruct (Req_EM_T (hi0 - lo0) 0) as [|NZ]; [discriminate|]. cbn [rbind] in E1. injection E1 as <-.
      destruct I as [Q|I]; [inversion Q; subst; lra|]. refine (IH _ _ _ E _ _ _ _ I); reflexivity.
    - injection E1 as <-. destruct I as [Q|I]; [inversion Q; subst; lra|]. refine (IH _ _ _ E _ _ _ _ I); reflexivity. }
  intros m E. refine (G L _ m _ E). reflexivity.
Qed.

(** Equal bounds pass the check but break the normalisation. *)
Theorem equal_bounds_refuted : exists L, (forall k i lo hi, In (k, (i, (lo, hi))) L -> lo <= i <= hi) /\
  set_model_parameters true L = Err ZeroDivisionError.
Proof.
  exists [("E", (1, (1, 1)))]. split.
  - intros k i lo hi [Q|[]]. inversion Q. lra.
  - unfold set_model_parameters. cbn. destruct (Rlt_dec 1 1); [lra|]. cbn.
    destruct (Req_EM_T (1 - 1) 0) as [|N]; [reflexivity|exfalso; apply N; ring].
Qed.

(** ** Bounds over any optimisation history *)
(** [m] holds values of the learnable parameters [L] (any values). *)
Definition built_for (n : bool) (L : learnables) (m : rc_par) : Prop :=
  rc_normalized m = n /\ dkeys (rc_params m) = dkeys L /\
  rc_bounds m = map pbnd L /\ rc_norm_bounds m = (if n then map pnb L else []).
Definition inner_bounds (n : bool) (lo hi : R) : R * R := if n then (-1, 1) else (lo, hi).

Lemma enforce_closed n L m : admissible n L -> built_for n L m ->
  exists m', enforce_parameters_bounds m = Ok m' /\ built_for n L m' /\
   forall k i lo hi, In (k, (i, (lo, hi))) L ->
     exists x y, dget (rc_params m) k = Some x /\ dget (rc_params m') k = Some y /\
       nearest (fst (inner_bounds n lo hi)) (snd (inner_bounds n lo hi)) x y.
Proof.
  intros [ND AD] (N & K & B & NB). destruct m as [mn ps bs nbs].
  cbn [rc_normalized rc_params rc_bounds rc_norm_bounds] in *. subst mn bs nbs.
  unfold enforce_parameters_bounds. cbv zeta. cbn [rc_normalized rc_params rc_bounds rc_norm_bounds].
  set (bounds := if n then (if n then map pnb L else []) else map pbnd L).
  assert (BK : forall k i lo hi, In (k, (i, (lo, hi))) L -> dget bounds k = Some (inner_bounds n lo hi)).
  { intros k i lo hi I. unfold bounds, inner_bounds. destruct n; apply in_dget.
    - rewrite keys_pnb; auto. - apply (in_map pnb) in I. exact I.
    - rewrite keys_pbnd; auto. - apply (in_map pbnd) in I. exact I. }
  set (cl := fun kv : string * R => (fst kv, match dget bounds (fst kv) with Some b => clamp (fst b) (snd b) (snd kv) | None => 0 end)).
  rewrite (rmap_all _ ps cl).
  2: { intros [k v] I. unfold cl, dlookup. cbn [fst snd].
    assert (IK : In k (dkeys L)) by (rewrite <- K; apply (in_map fst) in I; exact I).
    unfold dkeys, gkeys in IK. apply in_map_iff in IK. destruct IK as [[k' [i [lo hi]]] [E I']]. cbn in E. subst k'.
    pose proof (BK _ _ _ _ I') as Q. unfold bounds in Q |- *. clear - Q. destruct n; rewrite Q; reflexivity. }
  cbn [rbind]. eexists. split; [reflexivity|].
  assert (K' : dkeys (map cl ps) = dkeys ps) by (unfold dkeys, gkeys; rewrite map_map; reflexivity).
  split; [unfold built_for; cbn [rc_normalized rc_params rc_bounds rc_norm_bounds]; rewrite K', K; auto|].
  intros k i lo hi I. cbn [rc_params].
  assert (IK : In k (dkeys ps)) by (rewrite K; apply (in_map fst) in I; exact I).
  destruct (dget_some_in ps k IK) as [x X]. exists x.
  exists (clamp (fst (inner_bounds n lo hi)) (snd (inner_bounds n lo hi)) x). split; auto. split.
  - apply in_dget; [rewrite K', K; auto|]. apply dget_in in X. apply (in_map cl) in X. unfold cl in X at 1. cbn [fst snd] in X.
    rewrite (BK _ _ _ _ I) in X. exact X.
  - apply clamp_nearest. specialize (AD _ _ _ _ I). unfold inner_bounds. destruct n; cbn; lra.
Qed.

Lemma built_step n L m vals : built_for n L m -> built_for n L (optimiser_step vals m).
Proof.
  intros (A & B & C & D). unfold built_for, optimiser_step. cbn. split; auto. split; auto.
  rewrite <- B. unfold dkeys, gkeys. rewrite map_map. reflexivity.
Qed.

Lemma detached_of n L m : admissible n L -> built_for n L m ->
  exists d, get_detached_model_parameters m false = Ok d /\ dkeys d = dkeys L /\
   forall k i lo hi x, In (k, (i, (lo, hi))) L -> dget (rc_params m) k = Some x ->
     dget d k = Some (if n then phys_of lo hi x else x).
Proof.
  intros [ND AD] (N & K & B & NB). destruct m as [mn ps bs nbs].
  cbn [rc_normalized rc_params rc_bounds rc_norm_bounds] in *. subst mn bs nbs.
  unfold get_detached_model_parameters. cbn [rc_normalized rc_params rc_bounds rc_norm_bounds].
  destruct n; [|exists ps; split; auto].
  set (ph := fun kv : string * R => (fst kv, match dget (map pbnd L) (fst kv) with Some b => phys_of (fst b) (snd b) (snd kv) | None => 0 end)).
  assert (BK : forall k i lo hi, In (k, (i, (lo, hi))) L -> dget (map pbnd L) k = Some (lo, hi) /\ dget (map pnb L) k = Some (-1, 1)).
  { intros k i lo hi I. split; apply in_dget; rewrite ?keys_pnb, ?keys_pbnd; auto.
    - apply (in_map pbnd) in I; exact I. - apply (in_map pnb) in I; exact I. }
  exists (map ph ps). split.
  { apply rmap_all. intros [k v] I. unfold ph, transform_parameter, dlookup. cbn [fst snd String.eqb Ascii.eqb Bool.eqb].
    assert (IK : In k (dkeys L)) by (rewrite <- K; apply (in_map fst) in I; exact I).
    unfold dkeys, gkeys in IK. apply in_map_iff in IK. destruct IK as [[k' [i [lo hi]]] [E I']]. cbn in E. subst k'.
    destruct (BK _ _ _ _ I') as [B1 B2]. rewrite B1, B2. cbn [rbind]. rewrite affine_phys. reflexivity. }
  assert (K' : dkeys (map ph ps) = dkeys ps) by (unfold dkeys, gkeys; rewrite map_map; reflexivity).
  split; [rewrite K', K; auto|]. intros k i lo hi x I X.
  apply in_dget; [rewrite K', K; auto|]. apply dget_in in X. apply (in_map ph) in X. unfold ph in X at 1. cbn [fst snd] in X.
  destruct (BK _ _ _ _ I) as [B1 _]. rewrite B1 in X. exact X.
Qed.

Theorem parameters_always_within_bounds n L m steps : admissible n L ->
  set_model_parameters n L = Ok m ->
  exists m' d, bounded_training steps m = Ok m' /\
    get_detached_model_parameters m' false = Ok d /\ dkeys d = dkeys L /\
    forall k i lo hi, In (k, (i, (lo, hi))) L ->
      exists x y, dget d k = Some x /\ lo <= x <= hi /\
        dget (rc_params m') k = Some y /\ (n = true -> -1 <= y <= 1).
Proof.
  intros AD. rewrite (set_parameters_closed n L AD). intros E. inversion E; subst m. clear E.
  set (m0 := RCPar n _ _ _).
  assert (B0 : built_for n L m0) by (unfold m0, built_for; cbn [rc_normalized rc_params rc_bounds rc_norm_bounds]; rewrite keys_pinit; auto).
  assert (ST : forall m, built_for n L m -> exists m', enforce_parameters_bounds m = Ok m' /\ built_for n L m' /\
     forall k i lo hi, In (k, (i, (lo, hi))) L -> exists y, dget (rc_params m') k = Some y /\
       fst (inner_bounds n lo hi) <= y <= snd (inner_bounds n lo hi)).
  { intros m Bm. destruct (enforce_closed n L m AD Bm) as (m' & E & B' & V). exists m'. split; auto. split; auto.
    intros k i lo hi I. destruct (V _ _ _ _ I) as (x & y & _ & Y & [NY _]). eauto. }
  assert (G : forall steps m, built_for n L m ->
     (forall k i lo hi, In (k, (i, (lo, hi))) L -> exists y, dget (rc_params m) k = Some y /\
       fst (inner_bounds n lo hi) <= y <= snd (inner_bounds n lo hi)) ->
     exists m', rfold (fun m vals => enforce_parameters_bounds (optimiser_step vals m)) steps m = Ok m' /\ built_for n L m' /\
     forall k i lo hi, In (k, (i, (lo, hi))) L -> exists y, dget (rc_params m') k = Some y /\
       fst (inner_bounds n lo hi) <= y <= snd (inner_bounds n lo hi)).
  { induction steps0 as [|vals ss IH]; intros m Bm Vm; cbn [rfold]; [eauto|].
    destruct (ST _ (built_step _ _ _ vals Bm)) as (m' & E & B' & V'). rewrite E. cbn [rbind]. apply IH; auto. }
  destruct (ST m0 B0) as (m1 & E1 & B1 & V1). destruct (G steps m1 B1 V1) as (m' & E' & B' & V').
  destruct (detached_of n L m' AD B') as (d & ED & KD & VD).
  exists m', d. unfold bounded_training. rewrite E1. cbn [rbind]. split; auto. split; auto. split; auto.
  intros k i lo hi I. destruct (V' _ _ _ _ I) as (y & Y & BY). exists (if n then phys_of lo hi y else y), y.
  split; [apply (VD _ _ _ _ _ I Y)|]. unfold inner_bounds in BY.
  destruct AD as [_ AD]. specialize (AD _ _ _ _ I). destruct n; cbn in BY; (split; [try apply phys_bounds; lra|]); split; auto; discriminate.
Qed.

(** Enforcing moves each parameter to the nearest admissible value, hence
    leaves admissible ones unchanged. *)
Theorem enforcing_bounds_projects n L m : admissible n L -> built_for n L m ->
  exists m', enforce_parameters_bounds m = Ok m' /\ dkeys (rc_params m') = dkeys (rc_params m) /\
   rc_bounds m' = rc_bounds m /\ rc_norm_bounds m' = rc_norm_bounds m /\
   (forall k i lo hi, In (k, (i, (lo, hi))) L ->
     exists x y, dget (rc_params m) k = Some x /\ dget (rc_params m') k = Some y /\
       nearest (fst (inner_bounds n lo hi)) (snd (inner_bounds n lo hi)) x y /\
       (fst (inner_bounds n lo hi) <= x <= snd (inner_bounds n lo hi) -> y = x)).
Proof.
  intros AD Bm. destruct (enforce_closed n L m AD Bm) as (m' & E & B' & V). exists m'. split; auto.
  destruct Bm as (A1 & A2 & A3 & A4), B' as (C1 & C2 & C3 & C4).
  split; [congruence|]. split; [congruence|]. split; [congruence|].
  intros k i lo hi I. destruct (V _ _ _ _ I) as (x & y & X & Y & NR). exists x, y. repeat (split; auto).
  intros IN. destruct NR as [_ NR]. specialize (NR x IN). replace (x - x) with 0 in NR by ring. rewrite Rabs_R0 in NR.
  pose proof (Rabs_pos (y - x)). assert (Z : Rabs (y - x) = 0) by lra.
  destruct (Req_dec (y - x) 0); [lra|]. apply Rabs_no_R0 in H0. contradiction.
Qed.

(** ** Material model finder *)
Definition sub_built (s : bool * rc_par) : Prop :=
  fst s = true -> exists n L, admissible n L /\ built_for n L (snd s).
Definition sub_enforced (s s' : bool * rc_par) : Prop :=
  fst s' = fst s /\ (fst s = false -> s' = s) /\
  (fst s = true -> forall n L, admissible n L -> built_for n L (snd s) ->
     forall k i lo hi, In (k, (i, (lo, hi))) L ->
     exists x y, dget (rc_params (snd s)) k = Some x /\ dget (rc_params (snd s')) k = Some y /\
       nearest (fst (inner_bounds n lo hi)) (snd (inner_bounds n lo hi)) x y).
Definition subs_of (mm : mat_model) : list (bool * rc_par) :=
  match mm with MMPlain ex m => [(ex, m)] | MMHybrid ss => ss end.

Lemma enforce_sub_ok s : sub_built s -> exists s', enforce_sub s = Ok s' /\ sub_enforced s s'.
Proof.
  destruct s as [[] m]; unfold sub_built, enforce_sub, sub_enforced; cbn [fst snd]; intros B.
  - destruct (B eq_refl) as (n & L & AD & BL). destruct (enforce_closed n L m AD BL) as (m' & E & _).
    rewrite E. cbn [rbind]. eexists. split; [reflexivity|]. cbn [fst snd]. split; auto. split; [discriminate|].
    intros _ n' L' AD' BL' k i lo hi I. destruct (enforce_closed n' L' m AD' BL') as (m'' & E' & _ & V).
    rewrite E in E'. injection E' as <-. eauto.
  - eexists. split; [reflexivity|]. cbn. split; auto. split; auto. discriminate.
Qed.

Theorem finder_enforces_bounds models :
  (forall k mm s, In (k, mm) models -> In s (subs_of mm) -> sub_built s) ->
  exists models', finder_enforce_bounds models = Ok models' /\
    Forall2 (fun a b => fst b = fst a /\ Forall2 sub_enforced (subs_of (snd a)) (subs_of (snd b))) models models'.
Proof.
  unfold finder_enforce_bounds. induction models as [|[k mm] ms IH]; intros H; cbn [rmap]; [exists []; split; auto|].
  destruct IH as (ms' & E & F); [intros; eapply H; [right|]; eauto|].
  assert (M : exists mm', enforce_mat_model mm = Ok mm' /\ Forall2 sub_enforced (subs_of mm) (subs_of mm')).
  { specialize (H k mm). destruct mm as [ex m|subs]; cbn [enforce_mat_model subs_of] in *.
    - destruct (enforce_sub_ok (ex, m)) as ([ex' m'] & E1 & E2); [eapply H; left; auto|].
      rewrite E1. cbn [rbind fst snd]. eexists. split; [reflexivity|]. cbn. constructor; auto.
    - assert (HS : forall s, In s subs -> sub_built s) by (intros; eapply H; eauto; left; auto). clear H.
      assert (Q : exists ss', rmap enforce_sub subs = Ok ss' /\ Forall2 sub_enforced subs ss').
      { induction subs as [|s ss IHs]; cbn [rmap]; [exists []; split; auto|].
        destruct (enforce_sub_ok s) as (s' & E1 & E2); [apply HS; left; auto|].
        destruct IHs as (ss' & E3 & E4); [intros; apply HS; right; auto|].
        rewrite E1. cbn [rbind]. rewrite E3. cbn [rbind]. eexists. split; [reflexivity|]. constructor; auto. }
      destruct Q as (ss' & E1 & E2). rewrite E1. cbn [rbind]. eexists. split; [reflexivity|]. exact E2. }
  destruct M as (mm' & E1 & E2). cbn [snd fst]. rewrite E1. cbn [rbind]. rewrite E. cbn [rbind].
  eexists. split; [reflexivity|]. constructor; auto.
Qed.

(** ** Convexity constraint *)
Lemma mem_iff s l : mem s l = true <-> In s l.
Proof.
  unfold mem. rewrite existsb_exists. split; [intros (x & I & E); apply String.eqb_eq in E; subst; auto|].
  intros I. exists s. split; auto. apply String.eqb_refl.
Qed.

Theorem constraints_only_lou crm model m mp : ~ In model lzy_names ->
  enforce_parameters_constraints crm model m mp = Ok m.
Proof.
  intros N. unfold enforce_parameters_constraints. destruct (mem model lzy_names) eqn:E; auto.
  apply mem_iff in E. contradiction.
Qed.

(** The constraint is applied after the bounds: a return mapping that scales
    the two yield parameters towards the origin (as the code's does, see
    LouModel) can move a parameter out of its bounds. *)
Theorem constraint_leaves_bounds_refuted : exists L m m' mp (crm : R -> R -> bool * R * R) x,
  admissible false L /\ set_model_parameters false L = Ok m /\ enforce_parameters_bounds m = Ok m /\
  (forall c d, exists r, 0 <= r <= 1 /\ crm c d = (false, r * c, r * d)) /\
  enforce_parameters_constraints crm "lou_zhang_yoon" m mp = Ok m' /\
  In ("yield_c_s0", (2, (1, 3))) L /\ dget (rc_params m') "yield_c_s0" = Some x /\ x < 1.
Proof.
  set (L := [("yield_c_s0", (2, (1, 3)))] : learnables).
  set (mp := [("c_hardening_parameters", MDict [("s0", 2)]); ("d_hardening_parameters", MDict [("s0", 0)])] : mparams).
  assert (AD : admissible false L).
  { split; [cbn; repeat constructor; cbn; tauto|]. intros k i lo hi [Q|[]]; inversion Q; lra. }
  set (crm := fun c d : R => (false, 1 / 4 * c, 1 / 4 * d)).
  exists L, (RCPar false [("yield_c_s0", 2)] (map pbnd L) []).
  exists (RCPar false [("yield_c_s0", 1 / 4 * 2)] (map pbnd L) []), mp, crm, (1 / 4 * 2).
  split; auto. split; [apply (set_parameters_closed false L AD)|]. split.
  - unfold enforce_parameters_bounds. cbn. rewrite clamp_id by lra. reflexivity.
  - split; [intros c d; exists (1 / 4); split; [lra|reflexivity]|]. split; [reflexivity|]. split; [left; auto|]. split; [reflexivity|lra].
Qed.

(** Physical value of a yield parameter: the learnable one, or the fixed one. *)
Definition physical (m : rc_par) (name : string) (fixed : R) : res R :=
  match dget (rc_params m) name with
  | None => Ok fixed
  | Some z => if rc_normalized m then transform_parameter (rc_bounds m) (rc_norm_bounds m) name z "denormalize" else Ok z
  end.
Definition has_bounds (m : rc_par) (name : string) : Prop :=
  exists lo hi, lo < hi /\ dget (rc_bounds m) name = Some (lo, hi) /\ dget (rc_norm_bounds m) name = Some (-1, 1).

(** Outside the convexity domain the learnable yield parameters get the
    physical values of the return mapping, and nothing else changes. *)
Theorem constraint_applies_return_mapping crm model m mp dc dd c0 d0 c d :
  In model lzy_names ->
  dget mp "c_hardening_parameters" = Some (MDict dc) -> dget dc "s0" = Some c0 ->
  dget mp "d_hardening_parameters" = Some (MDict dd) -> dget dd "s0" = Some d0 ->
  (rc_normalized m = true -> has_bounds m "yield_c_s0" /\ has_bounds m "yield_d_s0") ->
  physical m "yield_c_s0" c0 = Ok c -> physical m "yield_d_s0" d0 = Ok d ->
  exists m', enforce_parameters_constraints crm model m mp = Ok m' /\
    rc_normalized m' = rc_normalized m /\ rc_bounds m' = rc_bounds m /\ rc_norm_bounds m' = rc_norm_bounds m /\
    (forall k, k <> "yield_c_s0" -> k <> "yield_d_s0" -> dget (rc_params m') k = dget (rc_params m) k) /\
    (fst (fst (crm c d)) = true -> m' = m) /\
    forall c' d', crm c d = (false, c', d') ->
      physical m' "yield_c_s0" c0 = Ok (match dget (rc_params m) "yield_c_s0" with Some _ => c' | None => c0 end) /\
      physical m' "yield_d_s0" d0 = Ok (match dget (rc_params m) "yield_d_s0" with Some _ => d' | None => d0 end).
Proof.
  intros IM E1 E2 E3 E4 HB PC PD.
  assert (NE : forall name v, (rc_normalized m = true -> has_bounds m name) -> exists z,
    (if rc_normalized m then transform_parameter (rc_bounds m) (rc_norm_bounds m) name v "normalize" else Ok v) = Ok z /\
    (if rc_normalized m then transform_parameter (rc_bounds m) (rc_norm_bounds m) name z "denormalize" else Ok z) = Ok v).
  { intros name v H. destruct (rc_normalized m); [|eauto]. destruct (H eq_refl) as (lo & hi & L & B1 & B2).
    destruct (proj1 (normalise_inverts _ _ name lo hi L B1 B2) v) as (z & Z1 & Z2 & _). eauto. }
  assert (HC : rc_normalized m = true -> has_bounds m "yield_c_s0") by (intros N; apply HB; auto).
  assert (HD : rc_normalized m = true -> has_bounds m "yield_d_s0") by (intros N; apply HB; auto).
  unfold enforce_parameters_constraints. rewrite (proj2 (mem_iff _ _) IM). cbn [negb].
  rewrite E1, E3. unfold dlookup at 1 2. rewrite E2, E4. cbn [rbind].
  unfold physical in PC, PD.
  destruct (dget (rc_params m) "yield_c_s0") as [zc|] eqn:Gc, (dget (rc_params m) "yield_d_s0") as [zd|] eqn:Gd;
    try (rewrite PC; cbn [rbind]); try (rewrite PD; cbn [rbind]).
  all: try (injection PC as <-); try (injection PD as <-).
  all: try (destruct (crm _ _) as [[[] c1] d1] eqn:CR;
    [exists m; do 4 (split; [reflexivity|]); split; [auto|]; split; [auto|]; intros ? ? Q; congruence|]).
  - destruct (NE "yield_c_s0" c1 HC) as (z1 & A1 & A2), (NE "yield_d_s0" d1 HD) as (z2 & B1 & B2).
    rewrite A1. cbn [rbind]. rewrite B1. cbn [rbind]. eexists. split; [reflexivity|]. unfold physical. cbn [rc_normalized rc_bounds rc_norm_bounds rc_params].
    do 3 (split; [reflexivity|]). split; [intros k K1 K2; rewrite !dget_dset_other by congruence; auto|]. split; [cbn; discriminate|].
    intros c' d' Q. injection Q as <- <-. rewrite dget_dset_same. rewrite dget_dset_other by discriminate. rewrite dget_dset_same. auto.
  - destruct (NE "yield_c_s0" c1 HC) as (z1 & A1 & A2).
    rewrite A1. cbn [rbind]. eexists. split; [reflexivity|]. unfold physical. cbn [rc_normalized rc_bounds rc_norm_bounds rc_params].
    do 3 (split; [reflexivity|]). split; [intros k K1 K2; rewrite !dget_dset_other by congruence; auto|]. split; [cbn; discriminate|].
    intros c' d' Q. injection Q as <- <-. rewrite dget_dset_same. rewrite dget_dset_other by discriminate. rewrite Gd. auto.
  - destruct (NE "yield_d_s0" d1 HD) as (z2 & B1 & B2).
    cbn [rbind]. rewrite B1. cbn [rbind]. eexists. split; [reflexivity|]. unfold physical. cbn [rc_normalized rc_bounds rc_norm_bounds rc_params].
    do 3 (split; [reflexivity|]). split; [intros k K1 K2; rewrite !dget_dset_other by congruence; auto|]. split; [cbn; discriminate|].
    intros c' d' Q. injection Q as <- <-. rewrite dget_dset_same. rewrite dget_dset_other by discriminate. rewrite Gc. auto.
  - exists m. do 4 (split; [reflexivity|]). split; [auto|]. split; [auto|]. intros c' d' Q. unfold physical. rewrite Gc, Gd. auto.
Qed.

(** With only one of the two parameters learnable the mapped value of the other
    is dropped: the enforced pair can stay outside the convexity domain. *)
Theorem constraint_one_parameter_refuted : exists (convex : R -> R -> bool) (crm : R -> R -> bool * R * R) m m' mp,
  (forall c d, fst (fst (crm c d)) = convex c d) /\
  (forall c d c' d', crm c d = (false, c', d') -> convex c' d' = true /\ exists r, 0 <= r <= 1 /\ c' = r * c /\ d' = r * d) /\
  enforce_parameters_constraints crm "lou_zhang_yoon" m mp = Ok m' /\
  exists c d, physical m' "yield_c_s0" 2 = Ok c /\ physical m' "yield_d_s0" 0 = Ok d /\ convex c d = false.
Proof.
  set (cv := fun c d : R => if Rle_dec (Rabs c + Rabs d) 1 then true else false).
  set (crm := fun c d : R => (cv c d, c / (Rabs c + Rabs d), d / (Rabs c + Rabs d))).
  exists cv, crm, (RCPar false [("yield_d_s0", 1)] [] []), (RCPar false [("yield_d_s0", 1 / (Rabs 2 + Rabs 1))] [] []).
  exists [("c_hardening_parameters", MDict [("s0", 2)]); ("d_hardening_parameters", MDict [("s0", 0)])].
  assert (A2 : Rabs 2 = 2) by (apply Rabs_pos_eq; lra). assert (A1 : Rabs 1 = 1) by (apply Rabs_pos_eq; lra).
  split; [reflexivity|]. split; [|split].
  - intros c d c' d' Q. unfold crm in Q. injection Q as Q <- <-. unfold cv in Q. destruct (Rle_dec (Rabs c + Rabs d) 1) as [|N]; [discriminate|].
    assert (P : 0 < Rabs c + Rabs d) by lra. assert (PI : 0 < / (Rabs c + Rabs d)) by (apply Rinv_0_lt_compat; auto).
    split.
    + unfold cv, Rdiv. rewrite !Rabs_mult, (Rabs_pos_eq (/ _)) by lra. rewrite <- Rmult_plus_distr_r, Rinv_r by lra.
      destruct (Rle_dec 1 1); [auto|lra].
    + exists (/ (Rabs c + Rabs d)). split; [|split; unfold Rdiv; ring]. split; [lra|].
      rewrite <- Rinv_1. apply Rinv_le_contravar; lra.
  - unfold enforce_parameters_constraints. cbn [mem lzy_names existsb String.eqb Ascii.eqb Bool.eqb orb negb]. cbn [rbind dlookup dget gget].
    cbn. unfold crm, cv. rewrite A2, A1. destruct (Rle_dec (2 + 1) 1); [lra|]. reflexivity.
  - exists 2, (1 / (Rabs 2 + Rabs 1)). split; [reflexivity|]. split; [reflexivity|]. unfold cv. rewrite A2, A1.
    rewrite (Rabs_pos_eq (1 / (2 + 1))) by lra. destruct (Rle_dec _ 1); [lra|reflexivity].
Qed.

(** ** Example: two normalised parameters, two optimisation steps *)
Definition ex_L : learnables := [("E", (100, (50, 150))); ("s0", (1, (1, 3)))].
Example ex_admissible : admissible true ex_L.
Proof.
  split; [cbn; repeat constructor; cbn; intuition discriminate|]. intros k i lo hi [Q|[Q|[]]]; inversion Q; lra.
Qed.
Example ex_training : exists m m', set_model_parameters true ex_L = Ok m /\
  rc_params m = [("E", norm_of 50 150 100); ("s0", norm_of 1 3 1)] /\
  bounded_training [fun _ => 0; fun k => if String.eqb k "E" then 7 else 1 / 2] m = Ok m' /\
  get_detached_model_parameters m' false = Ok [("E", 150); ("s0", 5 / 2)].
Proof.
  pose proof (set_parameters_closed true ex_L ex_admissible) as E. eexists. eexists. split; [exact E|]. split; [reflexivity|]. split.
  - reflexivity.
  - unfold get_detached_model_parameters. cbn. destruct (Req_EM_T (1 - -1) 0); [lra|]. cbn [rbind].
    match goal with |- Ok [(_, ?a); (_, ?b)] = _ => replace a with 150; [replace b with (5 / 2)|] end; auto.
    + unfold clamp, Rmin, Rmax. repeat destruct Rle_dec; lra.
    + unfold clamp, Rmin, Rmax. repeat destruct Rle_dec; lra.
Qed.
Print Assumptions parameters_always_within_bounds.
