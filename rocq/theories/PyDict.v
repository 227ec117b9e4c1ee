(** Python dictionaries as association lists in insertion order (vocabulary
    shared by the models; nothing here models repository code). *)
From Coq Require Import String List Bool Lia Arith Permutation.
Import ListNotations.
From Verif Require Import Lib.
Local Open Scope string_scope.

Section Dict.
  Context {K V : Type} (eqk : K -> K -> bool).
  Hypothesis eqk_spec : forall a b, eqk a b = true <-> a = b.

  Definition gdict := list (K * V).
  Fixpoint gget (d : gdict) (k : K) : option V :=
    match d with [] => None | (k', v) :: t => if eqk k k' then Some v else gget t k end.
  (** Assignment keeps the position of an existing key and appends new keys. *)
  Fixpoint gset (d : gdict) (k : K) (v : V) : gdict :=
    match d with [] => [(k, v)] | (k', v') :: t => if eqk k k' then (k', v) :: t else (k', v') :: gset t k v end.
  Fixpoint gdel (d : gdict) (k : K) : gdict :=
    match d with [] => [] | (k', v') :: t => if eqk k k' then t else (k', v') :: gdel t k end.
  Definition gkeys (d : gdict) : list K := map fst d.

  Lemma eqk_refl a : eqk a a = true.
  Proof. apply eqk_spec. reflexivity. Qed.
  Lemma eqk_neq a b : a <> b -> eqk a b = false.
  Proof. intros N. destruct (eqk a b) eqn:E; auto. apply eqk_spec in E. contradiction. Qed.

  Lemma gget_gset_same d k v : gget (gset d k v) k = Some v.
  Proof.
    induction d as [|[k' v'] d IH]; cbn; [rewrite eqk_refl; auto|].
    destruct (eqk k k') eqn:E; cbn; rewrite E; auto.
  Qed.
  Lemma gget_gset_other d k k' v : k <> k' -> gget (gset d k v) k' = gget d k'.
  Proof.
    intros N. induction d as [|[a b] d IH]; cbn.
    - rewrite (eqk_neq k' k) by auto. auto.
    - destruct (eqk k a) eqn:E; cbn; [|rewrite IH; auto].
      apply eqk_spec in E; subst a. rewrite (eqk_neq k' k) by auto. auto.
  Qed.
  Lemma gget_gset d k k' v : gget (gset d k v) k' = if eqk k k' then Some v else gget d k'.
  Proof.
    destruct (eqk k k') eqn:E; [apply eqk_spec in E; subst; apply gget_gset_same|].
    apply gget_gset_other. intros ->. rewrite eqk_refl in E. discriminate.
  Qed.
  Lemma gget_in d k v : gget d k = Some v -> In (k, v) d.
  Proof.
    induction d as [|[a b] d IH]; cbn; [discriminate|].
    destruct (eqk k a) eqn:E; [apply eqk_spec in E; subst; intros Q; inversion Q; auto|auto].
  Qed.
  Lemma gget_none d k : gget d k = None <-> ~ In k (gkeys d).
  Proof.
    induction d as [|[a b] d IH]; cbn; [tauto|].
    destruct (eqk k a) eqn:E; [apply eqk_spec in E; subst; split; [discriminate|tauto]|].
    rewrite IH. assert (a <> k) by (intros ->; rewrite eqk_refl in E; discriminate). tauto.
  Qed.
  Lemma gget_some_in d k : In k (gkeys d) -> exists v, gget d k = Some v.
  Proof. destruct (gget d k) eqn:E; eauto. apply gget_none in E. tauto. Qed.
  Lemma in_gget d k v : NoDup (gkeys d) -> In (k, v) d -> gget d k = Some v.
  Proof.
    induction d as [|[a b] d IH]; cbn; [tauto|]. intros ND [Q|Q]; inversion ND; subst.
    - inversion Q; subst. rewrite eqk_refl. auto.
    - rewrite eqk_neq; auto. intros ->. apply H1. apply (in_map fst) in Q. exact Q.
  Qed.
  Lemma gkeys_gset_mem d k v : In k (gkeys d) -> gkeys (gset d k v) = gkeys d.
  Proof.
    induction d as [|[a b] d IH]; cbn; [tauto|]. intros I.
    destruct (eqk k a) eqn:E; cbn; auto. f_equal. apply IH.
    destruct I; auto. subst. rewrite eqk_refl in E. discriminate.
  Qed.
  Lemma gkeys_gset_new d k v : ~ In k (gkeys d) -> gkeys (gset d k v) = (gkeys d ++ [k])%list.
  Proof.
    induction d as [|[a b] d IH]; cbn; auto. intros I.
    rewrite eqk_neq by (intros ->; tauto). cbn. f_equal. apply IH. tauto.
  Qed.
  Lemma gkeys_in_gset d k v x : In x (gkeys (gset d k v)) <-> x = k \/ In x (gkeys d).
  Proof.
    induction d as [|[a b] d IH]; cbn; [intuition|].
    destruct (eqk k a) eqn:E; cbn; [apply eqk_spec in E; subst; intuition|]. rewrite IH. intuition.
  Qed.
  Lemma gset_nodup d k v : NoDup (gkeys d) -> NoDup (gkeys (gset d k v)).
  Proof.
    induction d as [|[a b] d IH]; cbn; intros ND; [constructor; auto|].
    inversion ND; subst. destruct (eqk k a) eqn:E; cbn; [auto|]. constructor; auto.
    fold (gkeys (gset d k v)). rewrite gkeys_in_gset. intros [->|]; auto. rewrite eqk_refl in E; discriminate.
  Qed.
  Lemma gget_gdel_other d k k' : k <> k' -> gget (gdel d k) k' = gget d k'.
  Proof.
    intros N. induction d as [|[a b] d IH]; cbn; auto.
    destruct (eqk k a) eqn:E; cbn; [|rewrite IH; auto].
    apply eqk_spec in E; subst a. rewrite (eqk_neq k' k) by auto. auto.
  Qed.
  Lemma gkeys_gdel_incl d k x : In x (gkeys (gdel d k)) -> In x (gkeys d).
  Proof.
    induction d as [|[a b] d IH]; cbn; auto. destruct (eqk k a); cbn; intuition.
  Qed.
  Lemma gdel_nodup d k : NoDup (gkeys d) -> NoDup (gkeys (gdel d k)).
  Proof.
    induction d as [|[a b] d IH]; cbn; auto. intros ND; inversion ND; subst.
    destruct (eqk k a); cbn; auto. constructor; auto. intros I. apply H1, (gkeys_gdel_incl _ _ _ I).
  Qed.
  Lemma gget_gdel_same d k : NoDup (gkeys d) -> gget (gdel d k) k = None.
  Proof.
    induction d as [|[a b] d IH]; cbn; auto. intros ND; inversion ND; subst.
    destruct (eqk k a) eqn:E; cbn; [|rewrite E; auto]. apply eqk_spec in E; subst a. apply gget_none. auto.
  Qed.
End Dict.
Arguments gdict : clear implicits.

(** String keys. *)
Definition dict (V : Type) := gdict string V.
Definition dget {V} (d : dict V) (k : string) : option V := gget String.eqb d k.
Definition dset {V} (d : dict V) (k : string) (v : V) : dict V := gset String.eqb d k v.
Definition ddel {V} (d : dict V) (k : string) : dict V := gdel String.eqb d k.
Definition dkeys {V} (d : dict V) : list string := gkeys d.

Lemma dget_dset_same {V} (d : dict V) k v : dget (dset d k v) k = Some v.
Proof. apply gget_gset_same, String.eqb_eq. Qed.
Lemma dget_dset_other {V} (d : dict V) k k' v : k <> k' -> dget (dset d k v) k' = dget d k'.
Proof. apply gget_gset_other, String.eqb_eq. Qed.
Lemma dget_none {V} (d : dict V) k : dget d k = None <-> ~ In k (dkeys d).
Proof. apply gget_none, String.eqb_eq. Qed.
Lemma dget_some_in {V} (d : dict V) k : In k (dkeys d) -> exists v, dget d k = Some v.
Proof. apply gget_some_in, String.eqb_eq. Qed.
Lemma dget_in {V} (d : dict V) k v : dget d k = Some v -> In (k, v) d.
Proof. apply gget_in, String.eqb_eq. Qed.
Lemma in_dget {V} (d : dict V) k v : NoDup (dkeys d) -> In (k, v) d -> dget d k = Some v.
Proof. apply in_gget, String.eqb_eq. Qed.
Lemma dget_key {V} (d : dict V) k v : dget d k = Some v -> In k (dkeys d).
Proof. intros H. apply dget_in in H. apply (in_map fst) in H. exact H. Qed.

(** Lookup that raises KeyError. *)
Definition dlookup {V} (d : dict V) (k : string) : res V :=
  match dget d k with Some v => Ok v | None => Err KeyError end.

(** Loops that may raise. *)
Fixpoint rmap {A B} (f : A -> res B) (l : list A) : res (list B) :=
  match l with [] => Ok [] | a :: t => rbind (f a) (fun b => rbind (rmap f t) (fun bs => Ok (b :: bs))) end.
Fixpoint rfold {A S} (f : S -> A -> res S) (l : list A) (s : S) : res S :=
  match l with [] => Ok s | a :: t => rbind (f s a) (rfold f t) end.

Lemma rmap_ok {A B} (f : A -> res B) l r : rmap f l = Ok r -> Forall2 (fun a b => f a = Ok b) l r.
Proof.
  revert r. induction l as [|a l IH]; cbn; intros r E; [inversion E; constructor|].
  destruct (f a) eqn:F; cbn in E; [|discriminate].
  destruct (rmap f l) eqn:G; cbn in E; [|discriminate]. inversion E; subst. constructor; auto.
Qed.
Lemma rmap_all {A B} (f : A -> res B) l (g : A -> B) : (forall a, In a l -> f a = Ok (g a)) -> rmap f l = Ok (map g l).
Proof.
  induction l as [|a l IH]; cbn; auto. intros H. rewrite H by auto. cbn. rewrite IH by auto. reflexivity.
Qed.
