(** Lemmas on the synchronisation of material parameters. *)
From Coq Require Import Reals String List Bool Lra Lia.
From Verif Require Import Lib PyDict MatrixModel ParamModel ParamSpec ParamProps.
Import ListNotations.
Local Open Scope string_scope.
Local Open Scope list_scope.
Local Open Scope R_scope.

(** ** Synchronisation *)
Definition loc_eqb (a b : string * string) : bool := String.eqb (fst a) (fst b) && String.eqb (snd a) (snd b).
Lemma loc_eqb_eq a b : loc_eqb a b = true <-> a = b.
Proof.
  destruct a, b. unfold loc_eqb. cbn. rewrite andb_true_iff, !String.eqb_eq. split; [intros [-> ->]; auto|]. intros E; inversion E; auto.
Qed.
Definition mwrite (mp : mparams) (w : string * string * R) : mparams :=
  let '(g, n, v) := w in
  match g with
  | EmptyString => set_top mp n v
  | _ => match dget mp g with Some (MDict d) => dset mp g (MDict (dset d n v)) | _ => mp end
  end.
(** Writable: a group of the model, or a top-level name that is not a group. *)
Definition writable (model : string) (l : string * string) : Prop :=
  (fst l = "" /\ ~ In (snd l) (groups model)) \/ In (fst l) (groups model).

Lemma groups_nonempty model : ~ In "" (groups model).
Proof.
  unfold groups. repeat match goal with |- context [if ?x then _ else _] => destruct x end; cbn; intuition discriminate.
Qed.

Lemma mwrite_spec model mp l v : writable model l -> has_groups model mp ->
  has_groups model (mwrite mp (l, v)) /\
  forall l', known_location model l' ->
    mread (mwrite mp (l, v)) l' = if loc_eqb l l' then Some v else mread mp l'.
Proof.
  destruct l as [g n]. intros W HG. pose proof (groups_nonempty model) as NE.
  destruct W as [[G N]|G]; cbn [fst snd] in *.
  - subst g. cbn [mwrite]. unfold set_top. split.
    + intros g I. destruct (HG g I) as [d D]. exists d. rewrite dget_dset_other; auto. intros ->. contradiction.
    + intros [g' n'] K. unfold mread. cbn [fst snd]. destruct K as [K|K]; cbn [fst] in K.
      * subst g'. unfold loc_eqb. cbn [fst snd]. rewrite String.eqb_refl. cbn [andb].
        destruct (String.eqb_spec n n') as [->|D]; [rewrite dget_dset_same; auto|rewrite dget_dset_other; auto].
      * destruct g' as [|c g']; [contradiction|]. unfold loc_eqb. cbn [fst snd String.eqb andb].
        rewrite dget_dset_other; auto. intros ->. contradiction.
  - destruct g as [|c g]; [contradiction|]. destruct (HG _ G) as [d D]. cbn [mwrite]. rewrite D.
    remember (String c g) as gg. assert (GN : gg <> "") by (subst; discriminate).
    split.
    + intros g' I. destruct (String.eqb_spec gg g') as [<-|NE'].
      * eexists. rewrite dget_dset_same. reflexivity.
      * rewrite dget_dset_other by auto. auto.
    + intros [g' n'] K. unfold loc_eqb. cbn [fst snd]. destruct K as [K|K]; cbn [fst] in K.
      * subst g'. destruct (String.eqb_spec gg "") as [|_]; [contradiction|]. cbn [andb]. unfold mread. cbn [fst snd].
        destruct (String.eqb_spec gg n') as [<-|N']; [|rewrite dget_dset_other; auto].
        rewrite dget_dset_same, D. reflexivity.
      * assert (MR : forall mp0, mread mp0 (g', n') = match dget mp0 g' with Some (MDict d) => dget d n' | _ => None end).
        { intros mp0. unfold mread. cbn [fst snd]. destruct g'; [contradiction|reflexivity]. }
        rewrite !MR. destruct (String.eqb_spec gg g') as [<-|N']; cbn [andb].
        -- rewrite dget_dset_same, D. destruct (String.eqb_spec n n') as [->|N2];
             [rewrite dget_dset_same; auto|rewrite dget_dset_other; auto].
        -- rewrite dget_dset_other by auto. reflexivity.
Qed.

Lemma mwrites_spec model : forall W mp, has_groups model mp -> (forall w, In w W -> writable model (fst w)) ->
  NoDup (map fst W) ->
  has_groups model (fold_left mwrite W mp) /\
  (forall l v, In (l, v) W -> mread (fold_left mwrite W mp) l = Some v) /\
  (forall l, known_location model l -> ~ In l (map fst W) -> mread (fold_left mwrite W mp) l = mread mp l).
Proof.
  induction W as [|[l v] W IH]; intros mp HG HW ND; cbn [fold_left]; [intuition; contradiction|].
  inversion ND; subst. destruct (mwrite_spec model mp l v (HW _ (or_introl eq_refl)) HG) as [HG' RD].
  destruct (IH _ HG' (fun w I => HW w (or_intror I)) H2) as (A & B & C). split; auto.
  assert (KL : known_location model l).
  { destruct (HW _ (or_introl eq_refl)) as [[Q _]|Q]; [left|right]; exact Q. }
  split.
  - intros l' v' [Q|Q]; [|auto]. inversion Q; subst. rewrite C by auto. rewrite RD by auto.
    rewrite (proj2 (loc_eqb_eq l' l')); auto.
  - intros l' K NI. cbn [map fst In] in NI. rewrite C by tauto. rewrite RD by auto.
    destruct (loc_eqb l l') eqn:E; auto. apply loc_eqb_eq in E. tauto.
Qed.

(** Finite facts about the location tables. *)
Definition holds_locs (model param : string) : list (string * string) := map fst (holds_values model param 0).
Definition conflict (a b : string) : bool :=
  String.eqb a "friction_angle" && mem b ["yield_cohesion_parameter"; "yield_pressure_parameter"; "flow_pressure_parameter"].
Definition disjointb (a b : list (string * string)) : bool := forallb (fun x => negb (existsb (loc_eqb x) b)) a.
Definition writableb (model : string) (l : string * string) : bool :=
  (String.eqb (fst l) "" && negb (mem (snd l) (groups model))) || mem (fst l) (groups model).
Fixpoint nodupb (l : list (string * string)) : bool :=
  match l with [] => true | a :: t => negb (existsb (loc_eqb a) t) && nodupb t end.
Definition locs_of (model p : string) : list (string * string) :=
  match location model p with
  | None => []
  | Some l => l :: (if String.eqb p "friction_angle" then
      [("", "yield_cohesion_parameter"); ("", "yield_pressure_parameter"); ("", "flow_pressure_parameter")] else [])
  end.
Lemma holds_fst model p x : map fst (holds_values model p x) = locs_of model p.
Proof. unfold holds_values, locs_of. destruct (location model p); auto. cbn. destruct (String.eqb p "friction_angle"); auto. Qed.

Definition tables_ok : bool :=
  forallb (fun model => forallb (fun a =>
    nodupb (locs_of model a) && forallb (writableb model) (locs_of model a) &&
    forallb (fun b => String.eqb a b || conflict a b || conflict b a || disjointb (locs_of model a) (locs_of model b))
      (dkeys (location_table model))) (dkeys (location_table model))) known_models.
Lemma tables_ok_true : tables_ok = true.
Proof. vm_compute. reflexivity. Qed.

Lemma existsb_loc x l : existsb (loc_eqb x) l = true <-> In x l.
Proof.
  rewrite existsb_exists. split; [intros (y & I & E); apply loc_eqb_eq in E; subst; auto|].
  intros I. exists x. split; auto. apply loc_eqb_eq. reflexivity.
Qed.
Lemma nodupb_ok l : nodupb l = true -> NoDup l.
Proof.
  induction l as [|a l IH]; cbn; [constructor|]. rewrite andb_true_iff, negb_true_iff. intros [A B].
  constructor; auto. intros I. apply existsb_loc in I. congruence.
Qed.

Lemma tables_facts model a : In model known_models -> In a (dkeys (location_table model)) ->
  NoDup (locs_of model a) /\ (forall l, In l (locs_of model a) -> writable model l) /\
  forall b, In b (dkeys (location_table model)) -> a <> b -> conflict a b = false -> conflict b a = false ->
    forall l, In l (locs_of model a) -> ~ In l (locs_of model b).
Proof.
  intros M A. pose proof tables_ok_true as T. unfold tables_ok in T.
  rewrite forallb_forall in T. specialize (T _ M). rewrite forallb_forall in T. specialize (T _ A).
  rewrite !andb_true_iff in T. destruct T as [[T1 T2] T3]. split; [apply nodupb_ok; auto|]. split.
  - intros l I. rewrite forallb_forall in T2. specialize (T2 _ I). unfold writableb in T2.
    apply orb_true_iff in T2. destruct T2 as [T2|T2]; [left|right; apply mem_iff; auto].
    apply andb_true_iff in T2. destruct T2 as [P Q]. apply String.eqb_eq in P. split; auto.
    apply negb_true_iff in Q. intros I'. apply mem_iff in I'. congruence.
  - intros b B NE C1 C2 l I J. rewrite forallb_forall in T3. specialize (T3 _ B).
    rewrite C1, C2, !orb_false_r in T3. apply orb_true_iff in T3. destruct T3 as [T3|T3]; [apply String.eqb_eq in T3; contradiction|].
    unfold disjointb in T3. rewrite forallb_forall in T3. specialize (T3 _ I). apply negb_true_iff in T3.
    apply existsb_loc in J. congruence.
Qed.

Lemma sqrt3_simpl : 3 / sqrt 3 = sqrt 3.
Proof.
  assert (P : 0 < sqrt 3) by (apply sqrt_lt_R0; lra).
  apply (Rmult_eq_reg_r (sqrt 3)); [|lra]. unfold Rdiv. rewrite Rmult_assoc, Rinv_l, sqrt_sqrt by lra. ring.
Qed.

Lemma cos3_simpl v : 2 / sqrt 3 * cos v = 2 * cos v / sqrt 3.
Proof. unfold Rdiv. ring. Qed.

Lemma need_ok mp g d k : dget mp g = Some d -> need mp g k = k.
Proof. intros D. unfold need. rewrite D. reflexivity. Qed.

Lemma sync_one_writes model param v mp : In model known_models -> In param (dkeys (location_table model)) ->
  has_groups model mp -> sync_one model param v mp = Ok (fold_left mwrite (holds_values model param v) mp).
Proof.
  intros M P HG. unfold known_models in M. cbn [In] in M. unfold has_groups in HG.
  Ltac inl := first [left; reflexivity | right; inl].
  Ltac grp HG := repeat match goal with
    | |- context [need _ ?g _] => let d := fresh "d" in let D := fresh "D" in
       destruct (HG g ltac:(inl)) as [d D]; rewrite (need_ok _ _ _ _ D) end.
  decompose [or] M; subst; try contradiction;
    cbn in P; decompose [or] P; subst; try contradiction; cbn [groups existsb String.eqb Ascii.eqb Bool.eqb orb] in HG;
    (match goal with |- sync_one ?m ?p _ _ = _ =>
       let h := eval cbv [holds_values location location_table base_table group_table dget gget String.eqb Ascii.eqb Bool.eqb
           map app String.append] in (holds_values m p) in change (holds_values m p) with h end);
    unfold sync_one; cbn [mem existsb vm_names vmm_names dp_names lzy_names vm_learnable vmm_learnable dp_learnable lzy_learnable
      String.eqb Ascii.eqb Bool.eqb orb negb drop_str]; grp HG;
    cbn [fold_left mwrite]; unfold set_nested, set_top; rewrite ?sqrt3_simpl, ?cos3_simpl;
    first [reflexivity | match goal with D : dget mp ?g = Some (MDict _) |- _ => rewrite D; reflexivity end].
Qed.

