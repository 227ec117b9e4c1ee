(** Synchronisation of learnable parameters with the material model (C48). *)
From Coq Require Import Reals String List Bool Lra Lia.
From Verif Require Import Lib PyDict MatrixModel ParamModel ParamSpec ParamProps ParamSyncProofs.
Import ListNotations.
Local Open Scope string_scope.
Local Open Scope list_scope.
Local Open Scope R_scope.

Lemma flat_nodup {A B} (f : A -> list B) : forall l, NoDup l -> (forall a, In a l -> NoDup (f a)) ->
  (forall a b, In a l -> In b l -> a <> b -> forall x, In x (f a) -> ~ In x (f b)) -> NoDup (flat_map f l).
Proof.
  induction l as [|a l IH]; intros ND N1 D; cbn; [constructor|]. inversion ND; subst.
  assert (H3 : NoDup (flat_map f l)).
  { apply IH; auto; [intros; apply N1; right; auto|]. intros u w U V'. apply D; right; auto. }
  assert (DJ : forall x, In x (f a) -> ~ In x (flat_map f l)).
  { intros x X I. apply in_flat_map in I. destruct I as (b & Bl & X').
    apply (D a b (or_introl eq_refl) (or_intror Bl)) with (x := x); auto. intros ->; contradiction. }
  specialize (N1 a (or_introl eq_refl)). revert N1 DJ. generalize (f a). clear - H3.
  induction l0 as [|y t IH]; cbn; auto. intros N DJ. inversion N; subst. constructor.
  - rewrite in_app_iff. intros [I|I]; [auto|]. apply (DJ y); auto.
  - apply IH; auto.
Qed.

Theorem sync_stores_physical_parameters_partial model n L m mp :
  In model known_models -> admissible n L -> built_for n L m ->
  (forall k, In k (dkeys L) -> exists l, location model k = Some l) ->
  no_conflict (dkeys L) -> has_groups model mp ->
  exists mp' d, sync_material_model_parameters model m mp = Ok mp' /\
    get_detached_model_parameters m false = Ok d /\ has_groups model mp' /\
    (forall k x l v, dget d k = Some x -> In (l, v) (holds_values model k x) -> mread mp' l = Some v) /\
    (forall l, known_location model l -> (forall k x v, In k (dkeys L) -> ~ In (l, v) (holds_values model k x)) ->
       mread mp' l = mread mp l).
Proof.
  intros M AD BL LOC NC HG.
  destruct (detached_of n L m AD BL) as (d & ED & KD & VD).
  assert (KT : forall k, In k (dkeys L) -> In k (dkeys (location_table model))).
  { intros k I. destruct (LOC k I) as [l Hl]. apply (dget_key _ _ _ Hl). }
  set (W := flat_map (fun kv : string * R => holds_values model (fst kv) (snd kv)) d).
  assert (WF : map fst W = flat_map (locs_of model) (dkeys L)).
  { rewrite <- KD. unfold W, dkeys, gkeys. generalize d. clear. induction d as [|[k x] t IH]; auto.
    cbn [flat_map map fst snd]. rewrite map_app, IH, holds_fst. reflexivity. }
  assert (ND : NoDup (map fst W)).
  { rewrite WF. apply flat_nodup; [apply AD| |].
    - intros a I. apply (tables_facts model a M (KT _ I)).
    - intros a b A B NE l I. apply (tables_facts model a M (KT _ A)); auto.
      + unfold conflict. destruct (String.eqb_spec a "friction_angle") as [->|]; auto. cbn [andb].
        destruct (mem b _) eqn:E; auto. apply mem_iff in E. destruct (NC A) as (N1 & N2 & N3).
        cbn in E. destruct E as [<-|[<-|[<-|[]]]]; contradiction.
      + unfold conflict. destruct (String.eqb_spec b "friction_angle") as [->|]; auto. cbn [andb].
        destruct (mem a _) eqn:E; auto. apply mem_iff in E. destruct (NC B) as (N1 & N2 & N3).
        cbn in E. destruct E as [<-|[<-|[<-|[]]]]; contradiction. }
  assert (WR : forall w, In w W -> writable model (fst w)).
  { intros w I. assert (J : In (fst w) (map fst W)) by (apply in_map; auto). rewrite WF in J.
    apply in_flat_map in J. destruct J as (k & K & J). apply (tables_facts model k M (KT _ K)); auto. }
  destruct (mwrites_spec model W mp HG WR ND) as (R1 & R2 & R3).
  exists (fold_left mwrite W mp), d.
  assert (S : sync_material_model_parameters model m mp = Ok (fold_left mwrite W mp)).
  { unfold sync_material_model_parameters.
    assert (EP : exists f : string -> R -> R, d = map (fun kv : string * R => (fst kv, f (fst kv) (snd kv))) (rc_params m) /\
      forall k v, In (k, v) (rc_params m) -> (if rc_normalized m
           then transform_parameter (rc_bounds m) (rc_norm_bounds m) k v "denormalize" else Ok (1 * v)) = Ok (f k v)).
    { destruct AD as [NDL AD]. destruct BL as (N & K & B & NB). rewrite N, B, NB. unfold get_detached_model_parameters in ED.
      rewrite N, B, NB in ED. destruct n.
      - exists (fun k v => match dget (map pbnd L) k with Some b => phys_of (fst b) (snd b) v | None => 0 end).
        assert (T : forall k v, In (k, v) (rc_params m) -> transform_parameter (map pbnd L) (map pnb L) k v "denormalize"
           = Ok (match dget (map pbnd L) k with Some b => phys_of (fst b) (snd b) v | None => 0 end)).
        { intros k v I. assert (IK : In k (dkeys L)) by (rewrite <- K; apply (in_map fst) in I; exact I).
          unfold dkeys, gkeys in IK. apply in_map_iff in IK. destruct IK as [[k' [i [lo hi]]] [E I']]. cbn in E. subst k'.
          unfold transform_parameter, dlookup. cbn [String.eqb Ascii.eqb Bool.eqb].
          rewrite (in_dget (map pnb L) k (-1, 1)), (in_dget (map pbnd L) k (lo, hi)); rewrite ?keys_pbnd, ?keys_pnb; auto.
          - cbn [rbind]. rewrite affine_phys. reflexivity.
          - apply (in_map pbnd) in I'; exact I'.
          - apply (in_map pnb) in I'; exact I'. }
        split; [|exact T].
        erewrite rmap_all in ED; [injection ED as <-; reflexivity|].
        intros [k v] I. cbn [fst snd]. rewrite (T _ _ I). reflexivity.
      - exists (fun _ v => v). injection ED as <-. split; [rewrite <- (map_id (rc_params m)) at 1; apply map_ext; intros []; auto|].
        intros k v _. f_equal. ring. }
    destruct EP as (f & Df & Tf). unfold W. clear W WF ND WR R1 R2 R3.
    assert (KP : forall kv, In kv (rc_params m) -> In (fst kv) (dkeys (location_table model))).
    { intros kv I. apply KT. destruct BL as (_ & K & _). rewrite <- K. apply in_map. auto. }
    assert (G : forall ps mp, (forall kv, In kv ps -> In kv (rc_params m)) -> has_groups model mp ->
      rfold (fun mp (kv : string * R) => rbind (if rc_normalized m
           then transform_parameter (rc_bounds m) (rc_norm_bounds m) (fst kv) (snd kv) "denormalize" else Ok (1 * snd kv))
          (fun v => sync_one model (fst kv) v mp)) ps mp
      = Ok (fold_left mwrite (flat_map (fun kv : string * R => holds_values model (fst kv) (snd kv))
              (map (fun kv : string * R => (fst kv, f (fst kv) (snd kv))) ps)) mp)).
    { induction ps as [|[k v] ps IH]; intros mp0 SUB HG0; auto. cbn [rfold map flat_map fst snd].
      pose proof (SUB _ (or_introl eq_refl)) as I0. rewrite (Tf k v I0). cbn [rbind].
      rewrite sync_one_writes; auto; [|apply (KP _ I0)]. cbn [rbind]. rewrite fold_left_app. apply IH.
      - intros kv J. apply SUB. right; auto.
      - destruct (tables_facts model k M (KP _ I0)) as (T1 & T2 & _).
        apply (mwrites_spec model (holds_values model k (f k v)) mp0 HG0).
        + intros w J. apply T2. rewrite <- (holds_fst model k (f k v)). apply in_map. auto.
        + rewrite holds_fst. auto. }
    rewrite Df. apply G; auto. }
  split; [exact S|]. split; [exact ED|]. split; [exact R1|]. split.
  - intros k x l v X I. apply R2. unfold W. apply in_flat_map. exists (k, x). split; [apply dget_in; auto|exact I].
  - intros l KL H. apply R3; auto. rewrite WF. intros I. apply in_flat_map in I. destruct I as (k & K & J).
    rewrite <- (holds_fst model k 0) in J. apply in_map_iff in J. destruct J as ([l' v] & E & J). cbn in E. subst l'.
    apply (H k 0 v K J).
Qed.

Theorem unknown_parameter_rejected model param v mp : In model known_models -> location model param = None ->
  sync_one model param v mp = Err RuntimeError.
Proof.
  intros M N. assert (NI : forall l, (forall s, In s l -> In s (dkeys (location_table model))) -> mem param l = false).
  { intros l S. destruct (mem param l) eqn:E; auto. apply mem_iff in E. apply S in E.
    apply dget_none in N. contradiction. }
  unfold known_models in M. cbn [In] in M. decompose [or] M; subst; try contradiction;
    unfold sync_one;
    repeat match goal with |- context [mem ?m ?l] =>
      tryif constr_eq m param then fail else
      (let b := eval vm_compute in (mem m l) in change (mem m l) with b; cbv iota) end;
    cbn [String.eqb Ascii.eqb Bool.eqb];
    rewrite NI; auto; intros s; vm_compute; tauto.
Qed.

(** With the friction angle learnt together with the cohesion parameter, the
    latter's value depends on the order of the dictionary. *)
Theorem friction_angle_conflict_refuted : exists L m mp mp',
  admissible false L /\ set_model_parameters false L = Ok m /\
  sync_material_model_parameters "drucker_prager" m mp = Ok mp' /\
  (exists i lo hi, In ("yield_cohesion_parameter", (i, (lo, hi))) L /\ lo <= i <= hi /\
     mread mp' ("", "yield_cohesion_parameter") <> Some i).
Proof.
  set (L := [("yield_cohesion_parameter", (0, (0, 1))); ("friction_angle", (0, (0, 1)))] : learnables).
  set (mp := [("hardening_parameters", MDict [])] : mparams).
  assert (AD : admissible false L).
  { split; [cbn; repeat constructor; cbn; intuition discriminate|]. intros k i lo hi [Q|[Q|[]]]; inversion Q; lra. }
  exists L, (RCPar false (map (pinit false) L) (map pbnd L) []), mp.
  eexists. split; auto. split; [apply (set_parameters_closed false L AD)|]. split.
  - unfold L. cbn [map pinit]. unfold sync_material_model_parameters. cbn [rfold rc_params rc_normalized fst snd rbind].
    rewrite !Rmult_1_l.
    assert (HG : has_groups "drucker_prager" mp) by (intros g [<-|[]]; exists []; reflexivity).
    rewrite sync_one_writes; [|cbn; tauto|cbn; tauto|exact HG]. cbn [rbind].
    rewrite sync_one_writes; [|cbn; tauto|cbn; tauto|].
    2: { intros g [<-|[]]; exists []; reflexivity. }
    cbn [rbind]. reflexivity.
  - exists 0, 0, 1. split; [left; reflexivity|]. split; [lra|].
    cbn. intros E. injection E as E. rewrite cos_0 in E.
    assert (P : 0 < sqrt 3) by (apply sqrt_lt_R0; lra).
    assert (0 < 2 * 1 / sqrt 3) by (apply Rdiv_lt_0_compat; lra). lra.
Qed.

(** ** Example *)
Example ex_sync : exists m mp', set_model_parameters true ex_L = Ok m /\
  sync_material_model_parameters "von_mises" m [("E", MNum 1); ("v", MNum (1/3)); ("hardening_parameters", MDict [("s0", 9)])] = Ok mp' /\
  mread mp' ("", "E") = Some 100 /\ mread mp' ("hardening_parameters", "s0") = Some 1 /\ mread mp' ("", "v") = Some (1/3).
Proof.
  pose proof (set_parameters_closed true ex_L ex_admissible) as E. eexists. eexists. split; [exact E|]. split.
  - unfold sync_material_model_parameters. cbn.
    destruct (Req_EM_T (1 - -1) 0); [lra|]. cbn. reflexivity.
  - cbn. unfold norm_of. repeat split; f_equal; lra.
Qed.

Print Assumptions sync_stores_physical_parameters_partial.
