(** Theorems about the collected parameters of the material model finder. *)
From Coq Require Import Reals String Ascii List Bool Lia Lra.
From Verif Require Import Lib PyDict PyStr MatrixModel ParamModel ParamSpec ParamProps FinderParamsModel.
Import ListNotations.
Local Open Scope string_scope.
Local Open Scope list_scope.
Local Open Scope R_scope.

(** ** Specification *)

(** The learnable parts in order: prefix of their labels, and the part. *)
Definition parts_of (km : string * fmodel) : list (string * rc_par) :=
  match snd km with
  | FPlain ex m => if ex then [(("model_" ++ fst km ++ "_")%string, m)] else []
  | FHybrid subs => flat_map (fun s : string * (bool * rc_par) =>
      if fst (snd s) then [(("model_" ++ fst km ++ "_" ++ fst s ++ "_")%string, snd (snd s))] else []) subs
  end.
Definition parts (models : dict fmodel) : list (string * rc_par) := flat_map parts_of models.

(** Every entry of every part under its own label. *)
Definition labelled {V} (get : rc_par -> dict V) (ps : list (string * rc_par)) : list (string * V) :=
  flat_map (fun p => map (fun kv => ((fst p ++ fst kv)%string, snd kv)) (get (snd p))) ps.

Lemma app_s a b c : ((a ++ b) ++ c)%string = (a ++ b ++ c)%string.
Proof. symmetry. apply app_assoc_s. Qed.

Lemma dset_new {V} (d : dict V) k v : ~ In k (dkeys d) -> dset d k v = d ++ [(k, v)].
Proof.
  unfold dset, dkeys. induction d as [|[a b] d IH]; intros N; [reflexivity|]. cbn in *.
  destruct (String.eqb_spec k a) as [->|NE]; [exfalso; apply N; auto|]. f_equal. apply IH. tauto.
Qed.

Lemma store_new {V} lab (d : dict V) : forall acc,
  NoDup (dkeys acc ++ map lab (dkeys d)) ->
  store lab d acc = acc ++ map (fun kv => (lab (fst kv), snd kv)) d.
Proof.
  unfold store. induction d as [|[k v] d IH]; intros acc ND; cbn [fold_left map fst snd]; [rewrite app_nil_r; auto|].
  cbn [dkeys gkeys map fst] in ND.
  rewrite dset_new.
  - rewrite IH; [rewrite <- app_assoc; reflexivity|].
    unfold dkeys, gkeys in *. rewrite map_app. cbn [map fst]. rewrite <- app_assoc. exact ND.
  - intros I. apply NoDup_remove_2 in ND. apply ND. apply in_or_app. left. exact I.
Qed.

Definition keys_lab {V} (l : list (string * V)) : list string := map fst l.

Section Collect.
  Context {V : Type} (get : rc_par -> res (dict V)) (val : rc_par -> dict V).

  Lemma labelled_keys ps : map fst (labelled val ps)
    = flat_map (fun p => map (fun k => (fst p ++ k)%string) (dkeys (val (snd p)))) ps.
  Proof.
    unfold labelled. induction ps as [|p ps IH]; [reflexivity|]. cbn [flat_map]. rewrite map_app, IH.
    f_equal. unfold dkeys, gkeys. rewrite !map_map. reflexivity.
  Qed.

  (** One part at a time. *)
  Lemma collect_part acc lab m p : (forall k, lab k = (p ++ k)%string) -> get m = Ok (val m) ->
    NoDup (dkeys acc ++ map fst (labelled val [(p, m)])) ->
    collect_sub get lab (true, m) acc = Ok (acc ++ labelled val [(p, m)]).
  Proof.
    intros HL G ND. unfold collect_sub. cbn [fst snd]. rewrite G. cbn [rbind]. f_equal.
    unfold labelled in *. cbn [flat_map fst snd] in *. rewrite app_nil_r in *.
    rewrite store_new.
    - f_equal. apply map_ext. intros kv. rewrite HL. reflexivity.
    - rewrite map_map in ND. cbn [fst] in ND. unfold dkeys at 2, gkeys. rewrite map_map.
      erewrite map_ext; [exact ND|]. intros kv. apply HL.
  Qed.

  Lemma labelled_app a b : labelled val (a ++ b) = labelled val a ++ labelled val b.
  Proof. unfold labelled. apply flat_map_app. Qed.

  Lemma nodup_prefix (a b c : list string) : NoDup (a ++ b ++ c) -> NoDup (a ++ b).
  Proof.
    rewrite app_assoc. intros ND. induction (a ++ b) as [|x l IH]; [constructor|]. cbn in ND. inversion ND; subst.
    constructor; auto. intros I. apply H1. apply in_or_app; auto.
  Qed.

  Lemma collect_one acc km : (forall p m, In (p, m) (parts_of km) -> get m = Ok (val m)) ->
    NoDup (dkeys acc ++ map fst (labelled val (parts_of km))) ->
    collect_model get acc km = Ok (acc ++ labelled val (parts_of km)).
  Proof.
    destruct km as (k & fm). unfold collect_model. cbn [fst snd]. intros G ND.
    destruct fm as [ex m|subs]; unfold parts_of in *; cbn [fst snd] in *.
    - destruct ex.
      + apply collect_part; auto; [|eapply G; left; reflexivity].
        intros q. unfold label_plain. rewrite !app_s. reflexivity.
      + unfold collect_sub. cbn. rewrite app_nil_r. reflexivity.
    - revert acc G ND. induction subs as [|(s & (ex & m)) subs IH]; intros acc G ND; cbn [rfold flat_map fst snd] in *.
      { cbn. rewrite app_nil_r. reflexivity. }
      destruct ex.
      + rewrite (collect_part acc _ m ("model_" ++ k ++ "_" ++ s ++ "_")).
        * cbn [rbind]. rewrite IH; [rewrite (labelled_app [_]), app_assoc; reflexivity| |].
          -- intros p m' I. apply (G p m'). apply in_or_app. right; auto.
          -- rewrite labelled_app, map_app in ND.
             unfold dkeys, gkeys in *. rewrite map_app, <- app_assoc. exact ND.
        * intros q. unfold label_sub. rewrite !app_s. reflexivity.
        * eapply G. left; reflexivity.
        * rewrite labelled_app, map_app in ND. apply nodup_prefix in ND. exact ND.
      + unfold collect_sub at 1. cbn [fst]. cbn [rbind]. apply IH; auto.
  Qed.

  Lemma collect_all models : forall acc, (forall p m, In (p, m) (parts models) -> get m = Ok (val m)) ->
    NoDup (dkeys acc ++ map fst (labelled val (parts models))) ->
    rfold (collect_model get) models acc = Ok (acc ++ labelled val (parts models)).
  Proof.
    induction models as [|km models IH]; intros acc G ND; unfold parts in *; cbn [rfold flat_map] in *.
    { cbn. rewrite app_nil_r. reflexivity. }
    rewrite labelled_app, map_app in ND.
    rewrite collect_one.
    - cbn [rbind]. rewrite IH.
      + rewrite labelled_app, app_assoc. reflexivity.
      + intros p m I. apply (G p m). apply in_or_app; auto.
      + unfold dkeys, gkeys in *. rewrite map_app, <- app_assoc. exact ND.
    - intros p m I. apply (G p m). apply in_or_app; auto.
    - apply nodup_prefix in ND. exact ND.
  Qed.
End Collect.

(** If all labels differ, every parameter of every learnable part is listed
    with its value under its label, in order. *)
Theorem collected_law {V} (get : rc_par -> res (dict V)) (val : rc_par -> dict V) models :
  (forall p m, In (p, m) (parts models) -> get m = Ok (val m)) ->
  NoDup (map fst (labelled val (parts models))) ->
  collect get models = Ok (labelled val (parts models)).
Proof. intros G ND. unfold collect. rewrite (collect_all get val); auto. Qed.

(** ** Labels *)
Notation us := "_"%char.

Lemma sep_split a b p q : (a ++ "_" ++ p = b ++ "_" ++ q)%string ->
  (a = b /\ p = q) \/ (exists r, b = (a ++ "_" ++ r)%string) \/ (exists r, a = (b ++ "_" ++ r)%string).
Proof.
  revert b. induction a as [|c a IH]; intros [|d b] H; cbn in H.
  - injection H as ->. auto.
  - injection H as <- ->. right. left. exists b. reflexivity.
  - injection H as -> <-. right. right. exists a. reflexivity.
  - injection H as <- H. destruct (IH b H) as [(-> & ->)|[(r & ->)|(r & ->)]]; [auto|right; left; exists r; reflexivity|right; right; exists r; reflexivity].
Qed.

Lemma digits_no_us n r b : nat_str n = (b ++ "_" ++ r)%string -> False.
Proof.
  intros H. pose proof (nat_str_digits n) as D. apply (digits_no_char us) in D; [|reflexivity].
  rewrite H, has_char_app in D. cbn in D. rewrite orb_true_r in D. discriminate.
Qed.

(** Names of hybridised models: no name is another followed by "_...". *)
Definition separable (names : list string) : Prop :=
  NoDup names /\ forall a b r, In a names -> In b names -> b <> (a ++ "_" ++ r)%string.

Definition numbered (models : dict fmodel) : Prop :=
  NoDup (dkeys models) /\ forall k, In k (dkeys models) -> exists n, k = nat_str n.

Lemma NoDup_app_intro {A} (a b : list A) : NoDup a -> NoDup b -> (forall x, In x a -> ~ In x b) -> NoDup (a ++ b).
Proof.
  induction 1 as [|x a N ND IH]; intros Nb H; cbn; auto. constructor.
  - intros I. apply in_app_or in I. destruct I as [I|I]; [auto|]. apply (H x); auto. left; auto.
  - apply IH; auto. intros y I. apply H. right; auto.
Qed.

Definition part_labels {V} (val : rc_par -> dict V) (ps : list (string * rc_par)) : list string :=
  flat_map (fun p => map (fun k => (fst p ++ k)%string) (dkeys (val (snd p)))) ps.

Lemma map_prefix_nodup p l : NoDup l -> NoDup (map (fun k => (p ++ k)%string) l).
Proof.
  induction 1 as [|k l N ND IH]; cbn; constructor; auto. intros I. apply in_map_iff in I. destruct I as (x & E & I).
  apply app_inj_s in E. subst. auto.
Qed.

(** Numbered models with separable submodel names give different labels. *)
Theorem labels_differ {V} (val : rc_par -> dict V) models :
  numbered models ->
  (forall k subs, In (k, FHybrid subs) models -> separable (map fst subs)) ->
  (forall p m, In (p, m) (parts models) -> NoDup (dkeys (val m))) ->
  NoDup (map fst (labelled val (parts models))).
Proof.
  intros (ND & NUM) SEP KEYS. rewrite labelled_keys. fold (part_labels val (parts models)).
  assert (PRE : forall k fm x, In x (part_labels val (parts_of (k, fm))) -> exists r, x = ("model_" ++ k ++ "_" ++ r)%string).
  { intros k fm x I. unfold part_labels in I. apply in_flat_map in I. destruct I as ((p & m) & P & I).
    apply in_map_iff in I. destruct I as (q & <- & _). cbn [fst]. unfold parts_of in P. cbn [fst snd] in P.
    destruct fm as [ex m'|subs].
    - destruct ex; [|destruct P]. destruct P as [P|[]]. apply pair_equal_spec in P; destruct P as (<- & _). exists q. rewrite !app_s. reflexivity.
    - apply in_flat_map in P. destruct P as ((s & (ex & m')) & _ & P). cbn [fst snd] in P. destruct ex; [|destruct P].
      destruct P as [P|[]]. apply pair_equal_spec in P; destruct P as (<- & _). exists (s ++ "_" ++ q)%string. rewrite !app_s. reflexivity. }
  induction models as [|(k & fm) models IH]; [constructor|].
  unfold parts in *. cbn [flat_map] in *. unfold part_labels in *. rewrite flat_map_app.
  cbn [dkeys gkeys map fst] in *. inversion ND; subst.
  apply NoDup_app_intro.
  - (* inside a model *)
    assert (KEYS' : forall p m, In (p, m) (parts_of (k, fm)) -> NoDup (dkeys (val m))) by (intros; apply (KEYS p), in_or_app; auto).
    destruct fm as [ex m|subs]; unfold parts_of in *; cbn [fst snd] in *.
    + destruct ex; [|constructor]. cbn [flat_map fst snd]. rewrite app_nil_r. apply map_prefix_nodup. eapply KEYS'. left; reflexivity.
    + destruct (SEP k subs (or_introl eq_refl)) as (NDs & SP). clear SEP PRE IH KEYS ND H2.
      induction subs as [|(s & (ex & m)) subs IHs]; [constructor|]. cbn [flat_map map fst snd] in *.
      rewrite flat_map_app. inversion NDs; subst. apply NoDup_app_intro.
      * destruct ex; [|constructor]. cbn [flat_map fst snd]. rewrite app_nil_r. apply map_prefix_nodup. eapply KEYS'. left; reflexivity.
      * apply IHs; auto.
        -- intros p m' I. apply (KEYS' p), in_or_app; auto.
        -- intros a b r A B. apply SP; right; auto.
      * intros x A B. destruct ex; [|destruct A]. cbn [flat_map fst snd] in A. rewrite app_nil_r in A.
        apply in_map_iff in A. destruct A as (q & <- & _).
        apply in_flat_map in B. destruct B as ((p & m') & P & B). apply in_map_iff in B. destruct B as (q' & E & _).
        apply in_flat_map in P. destruct P as ((s' & (ex' & m'')) & I' & P). cbn [fst snd] in P.
        destruct ex'; [|destruct P]. destruct P as [P|[]]. apply pair_equal_spec in P; destruct P as (<- & _). cbn [fst] in E.
        rewrite !app_s in E. apply (app_inj_s "model_") in E. apply app_inj_s in E. apply (app_inj_s "_") in E.
        assert (IS : In s' (map fst subs)) by (apply in_map_iff; eexists; split; [|exact I']; reflexivity).
        apply sep_split in E. destruct E as [(-> & _)|[(r & E)|(r & E)]].
        -- contradiction.
        -- apply (SP s' s r); auto; [right|left]; auto.
        -- apply (SP s s' r); auto; [left|right]; auto.
  - apply IH; auto.
    + intros; apply NUM; right; auto.
    + intros; eapply SEP; right; eauto.
    + intros; apply (KEYS p), in_or_app; auto.
  - intros x A B. destruct (PRE k fm x A) as (r & ->).
    apply in_flat_map in B. destruct B as ((p & m') & P & B). apply in_flat_map in P. destruct P as ((k' & fm') & I & P).
    destruct (PRE k' fm' ("model_" ++ k ++ "_" ++ r)%string) as (r' & E).
    { apply in_flat_map. eexists. split; [exact P|exact B]. }
    apply (app_inj_s "model_") in E. destruct (NUM k (or_introl eq_refl)) as (a & ->).
    assert (IK : In k' (map fst models)) by (apply in_map_iff; eexists; split; [|exact I]; reflexivity).
    destruct (NUM k' (or_intror IK)) as (b & ->).
    apply sep_split in E. destruct E as [(E & _)|[(q & E)|(q & E)]].
    + apply H1. rewrite E. exact IK.
    + apply digits_no_us in E. auto.
    + apply digits_no_us in E. auto.
Qed.

(** ** Parameters and bounds *)
Lemma same_keys_F2 {A B} (P : A -> B -> Prop) (a : dict A) : forall (b : dict B), dkeys a = dkeys b -> NoDup (dkeys a) ->
  (forall k x y, dget a k = Some x -> dget b k = Some y -> P x y) ->
  Forall2 (fun u v => fst u = fst v /\ P (snd u) (snd v)) a b.
Proof.
  induction a as [|[k x] a IH]; intros [|[k' y] b] K ND H; try discriminate; constructor.
  - cbn in K. injection K as -> K. cbn. split; auto. apply (H k'); cbn; rewrite String.eqb_refl; auto.
  - cbn in K. injection K as -> K. cbn in ND. inversion ND; subst. apply IH; auto.
    intros q u v U W. apply (H q); cbn; destruct (String.eqb_spec q k') as [->|]; auto; exfalso.
    + apply H2. apply dget_key in U. exact U.
    + apply H2. apply dget_key in U. exact U.
Qed.

Definition physical (m : rc_par) : dict R :=
  match get_detached_model_parameters m false with Ok d => d | Err _ => [] end.

Lemma part_in_bounds n L m0 m : admissible n L -> built_for n L m0 -> enforce_parameters_bounds m0 = Ok m ->
  get_detached_model_parameters m false = Ok (physical m) /\ NoDup (dkeys (physical m)) /\
  NoDup (dkeys (rc_bounds m)) /\
  Forall2 (fun u v => fst u = fst v /\ fst (snd v) <= snd u <= snd (snd v)) (physical m) (rc_bounds m).
Proof.
  intros AD B E. destruct (enforce_closed n L m0 AD B) as (m' & E' & B' & V). rewrite E in E'. injection E' as <-.
  destruct (detached_of n L m AD B') as (d & D & K & VD). unfold physical. rewrite D. split; auto.
  destruct AD as (ND & AD). rewrite K. split; auto.
  destruct B' as (B1 & B2 & B3 & B4). rewrite B3.
  assert (KB : dkeys (map pbnd L) = dkeys L) by apply keys_pbnd. rewrite KB. split; auto.
  apply (same_keys_F2 (fun u v => fst v <= u <= snd v)); rewrite ?K, ?KB; auto.
  intros k x (lo, hi) X Y. cbn [fst snd]. apply dget_in in Y. apply in_map_iff in Y.
  destruct Y as ((k' & (i & (lo' & hi'))) & Q & I). unfold pbnd in Q. cbn [fst snd] in Q.
  apply pair_equal_spec in Q. destruct Q as (-> & Q). injection Q as -> ->.
  destruct (V k i lo hi I) as (x0 & y & _ & Y & (NR & _)). rewrite (VD k i lo hi y I Y) in X. injection X as <-.
  specialize (AD _ _ _ _ I). unfold inner_bounds in NR. destruct n; cbn [fst snd] in NR; [|exact NR].
  apply phys_bounds; lra.
Qed.

(** After the bounds are enforced, the collected parameters and the collected
    bounds carry the same labels in the same order, and each physical value
    lies within the bounds of its label. *)
Theorem collected_within_bounds models :
  numbered models ->
  (forall k subs, In (k, FHybrid subs) models -> separable (map fst subs)) ->
  (forall p m, In (p, m) (parts models) -> exists n L m0, admissible n L /\ built_for n L m0 /\
     enforce_parameters_bounds m0 = Ok m) ->
  exists ps bs, finder_parameters models = Ok ps /\ finder_bounds models = Ok bs /\
    NoDup (dkeys ps) /\ length ps = length (labelled rc_params (parts models)) /\
    Forall2 (fun u v => fst u = fst v /\ fst (snd v) <= snd u <= snd (snd v)) ps bs.
Proof.
  intros NUM SEP H.
  assert (G : forall p m, In (p, m) (parts models) -> get_detached_model_parameters m false = Ok (physical m) /\
    NoDup (dkeys (physical m)) /\ NoDup (dkeys (rc_bounds m)) /\
    Forall2 (fun u v => fst u = fst v /\ fst (snd v) <= snd u <= snd (snd v)) (physical m) (rc_bounds m)).
  { intros p m I. destruct (H p m I) as (n & L & m0 & AD & B & E). eapply part_in_bounds; eauto. }
  pose proof (labels_differ physical models NUM SEP) as LD1.
  pose proof (labels_differ rc_bounds models NUM SEP) as LD2.
  exists (labelled physical (parts models)), (labelled rc_bounds (parts models)).
  assert (ND1 : NoDup (map fst (labelled physical (parts models)))) by (apply LD1; intros p m I; apply (G p m I)).
  split; [apply collected_law; auto; intros p m I; apply (G p m I)|].
  split; [apply collected_law; auto; apply LD2; intros p m I; apply (G p m I)|].
  split; [exact ND1|]. split.
  - assert (LG : forall p m, In (p, m) (parts models) -> length (physical m) = length (rc_params m)).
    { intros p m I. destruct (H p m I) as (n & L & m0 & AD & B & E).
      destruct (enforce_closed n L m0 AD B) as (m' & E' & B' & _). rewrite E in E'. injection E' as <-.
      destruct (detached_of n L m AD B') as (d & D & K & _). unfold physical. rewrite D.
      destruct B' as (_ & B2 & _). rewrite <- B2 in K. unfold dkeys, gkeys in K.
      apply (f_equal (@length _)) in K. rewrite !map_length in K. exact K. }
    clear -LG. unfold labelled. induction (parts models) as [|(p & m) ps IH]; [reflexivity|]. cbn [flat_map].
    rewrite !app_length, !map_length. cbn [snd]. rewrite (LG p m) by (left; auto). f_equal. apply IH. intros; eapply LG; right; eauto.
  - clear -G. unfold labelled. induction (parts models) as [|(p & m) ps IH]; [constructor|]. cbn [flat_map].
    apply Forall2_app; [|apply IH; intros; eapply G; right; eauto]. cbn [fst snd].
    destruct (G p m (or_introl eq_refl)) as (_ & _ & _ & F). clear -F.
    induction F as [|u v a b (Q & R1) F IH]; constructor; auto. cbn. rewrite Q. auto.
Qed.

Definition one_par (k : string) (x : R) : rc_par := RCPar false [(k, x)] [(k, (0, 1))] [].

(** Two parameters of one hybrid model may get the same label; the second value
    replaces the first. *)
Theorem label_collision_refuted : exists models,
  numbered models /\ (forall k subs, In (k, FHybrid subs) models -> NoDup (map fst subs)) /\
  length (labelled rc_params (parts models)) = 2%nat /\
  finder_parameters models = Ok [("model_1_el_lo_E"%string, 1)] /\
  finder_bounds models = Ok [("model_1_el_lo_E"%string, (0, 1))].
Proof.
  exists [("1"%string, FHybrid [("el"%string, (true, one_par "lo_E" 0)); ("el_lo"%string, (true, one_par "E" 1))])].
  split.
  - split; [repeat constructor; auto|]. intros k [<-|[]]. exists 1%nat. reflexivity.
  - split; [|repeat split; reflexivity]. intros k subs [Q|[]]. injection Q as _ <-.
    constructor; [cbn; intros [Q|[]]; discriminate|]. constructor; [intros []|constructor].
Qed.

(** A plain model, a hybrid one, and parts without explicit parameters. *)
Example collected_case :
  finder_parameters [("1"%string, FPlain true (one_par "E" 1));
    ("2"%string, FHybrid [("rc"%string, (true, one_par "E" 0)); ("gru"%string, (false, one_par "w" 5))]);
    ("3"%string, FPlain false (one_par "w" 7))]
  = Ok [("model_1_E"%string, 1); ("model_2_rc_E"%string, 0)].
Proof. reflexivity. Qed.

Print Assumptions collected_within_bounds.
Print Assumptions labels_differ.
