(** C32: model state file protocol. *)
From Coq Require Import String Ascii List Bool Arith Lia.
From Verif Require Import Lib PyDict PyStr StateFileModel StateFileSpec StateFileProofs.
Import ListNotations.
Local Open Scope string_scope.

(** Files of a directory that do not belong to the model. *)
Definition no_own_files {S} (name : string) (d : @dir S) : Prop :=
  NoDup (dkeys d) /\
  forall f, In f (dkeys d) -> match_state name f = false /\ match_best name f = false /\ ~ managed name f.

(** *** Every sequence of saves and loads behaves like the abstract store; no
    other file of the directory is touched.
    Partial: the model name contains no dot, the directory initially holds no
    file the regular expressions take for a state file, and best states are saved
    with their epoch (as the training loops do); see the refutations below. *)
Theorem state_files_refine_store_partial {S} name (d : @dir S) ops :
  has_char dot name = false -> no_own_files name d ->
  exists d' a rs, run_ops name ops d = (d', rs) /\
    srun (Store None None (fun _ => None) None) ops a rs /\
    dget d' (init_file name) = st_init a /\ dget d' (default_file name) = st_default a /\
    (forall e, dget d' (epoch_file name e) = st_epochs a e) /\
    (forall e, dget d' (best_file name e) = best_at a e) /\
    (forall f, ~ managed name f -> dget d' f = dget d f).
Proof.
  intros Hp [Hnd Hown].
  destruct (run_refines name Hp ops d _ (rel_empty name d Hnd Hown)) as (d' & a & rs & H1 & H2 & H3 & H4).
  exists d', a, rs. destruct H3 as (_ & _ & Hi & Hd & He & Hb). repeat split; assumption.
Qed.

(** *** After any sequence at most one best file exists and it holds the state
    of the last best save. *)
Fixpoint last_best_save {S} (ops : list (op S)) (acc : option (nat * S)) : option (nat * S) :=
  match ops with
  | [] => acc
  | SaveBest e s _ :: t => last_best_save t (Some (e, s))
  | _ :: t => last_best_save t acc
  end.

Lemma srun_best {S} (a a' : store S) ops rs : srun a ops a' rs -> st_best a' = last_best_save ops (st_best a).
Proof.
  induction 1 as [a|a o a1 r os a2 rs Hs Hr IH]; [reflexivity|]. rewrite IH. clear IH Hr.
  destruct Hs; reflexivity.
Qed.

Theorem one_best_file {S} name (d : @dir S) ops :
  has_char dot name = false -> no_own_files name d ->
  forall f, In f (dkeys (fst (run_ops name ops d))) -> match_best name f = true ->
  exists e s, last_best_save ops None = Some (e, s) /\ f = best_file name e /\
    dget (fst (run_ops name ops d)) f = Some s.
Proof.
  intros Hp [Hnd Hown] f Hf Hm.
  destruct (run_refines name Hp ops d _ (rel_empty name d Hnd Hown)) as (d' & a & rs & H1 & H2 & H3 & H4).
  rewrite H1 in *. cbn [fst] in *. destruct H3 as (_ & Hc & _ & _ & _ & Hb).
  apply srun_best in H2. cbn [st_best] in H2.
  destruct (proj2 (Hc f Hf) Hm) as [e ->]. apply dget_some_in in Hf as [s Hs]. rewrite Hb in Hs.
  unfold best_at in Hs. rewrite H2 in Hs.
  destruct (last_best_save ops None) as [[b sb]|] eqn:E; [|discriminate].
  destruct (Nat.eqb_spec b e) as [->|]; [|discriminate]. injection Hs as ->.
  exists e, s. split; [reflexivity|]. split; [reflexivity|]. rewrite Hb. unfold best_at. now rewrite H2, Nat.eqb_refl.
Qed.

(** *** Saving at epoch e stores the state, keeps the states of earlier epochs
    and removes those of later epochs. *)
Theorem save_epoch_effect {S} name (d : @dir S) ops e s :
  has_char dot name = false -> no_own_files name d ->
  let d0 := fst (run_ops name ops d) in
  let d1 := fst (save_model_state name s TOther (Some e) true d0) in
  dget d1 (epoch_file name e) = Some s /\
  (forall k, k < e -> dget d1 (epoch_file name k) = dget d0 (epoch_file name k)) /\
  (forall k, e < k -> dget d1 (epoch_file name k) = None) /\
  (forall k, dget d1 (best_file name k) = dget d0 (best_file name k)) /\
  (forall f, ~ managed name f -> dget d1 f = dget d f).
Proof.
  intros Hp [Hnd Hown]. 
  destruct (run_refines name Hp ops d _ (rel_empty name d Hnd Hown)) as (d0 & a & rs & H1 & H2 & H3 & H4).
  cbv zeta. rewrite H1. cbn [fst].
  destruct (step_refines name Hp d0 a (SaveEpoch e s true) H3) as (d1 & a1 & r & K1 & K2 & K3 & K4).
  assert (E : fst (save_model_state name s TOther (Some e) true d0) = d1).
  { cbn [run_op] in K1. unfold ibind at 1 in K1. destruct (save_model_state name s TOther (Some e) true d0) as [d' [u|x]];
      cbn in K1; injection K1; auto. }
  rewrite E. inversion K2; subst.
  destruct H3 as (_ & _ & _ & _ & He & Hb). destruct K3 as (_ & _ & _ & _ & He1 & Hb1).
  cbn [with_epochs st_epochs] in He1. unfold rewind, put in He1. cbn [andb] in He1.
  split; [rewrite He1, Nat.ltb_irrefl, Nat.eqb_refl; reflexivity|].
  split; [|split; [|split]].
  - intros k Hk. rewrite He1, He. destruct (Nat.ltb_spec e k); [lia|]. destruct (Nat.eqb_spec k e); [lia|reflexivity].
  - intros k Hk. rewrite He1. destruct (Nat.ltb_spec e k); [reflexivity|lia].
  - intros k. rewrite Hb1, Hb. reflexivity.
  - intros f Hf. rewrite (K4 f Hf). apply H4, Hf.
Qed.

(** *** Loading a given epoch returns the state saved last for it, provided no
    later save or load rewound to an earlier epoch. *)
Definition keeps_epoch {S} (e : nat) (o : op S) : Prop :=
  match o with
  | SaveEpoch k _ r => k <> e /\ (r = true -> e <= k)
  | SaveBest k _ r => r = true -> e <= k
  | LoadInit r => r = true -> e = 0
  | LoadEpoch k r => r = true -> e <= k
  | LoadBest r => r = false
  | _ => True
  end.

Lemma srun_app {S} (a a' : store S) l1 l2 rs : srun a (l1 ++ l2) a' rs ->
  exists b r1 r2, srun a l1 b r1 /\ srun b l2 a' r2.
Proof.
  revert a rs. induction l1 as [|o l1 IH]; intros a rs H.
  - exists a, [], rs. split; [constructor|exact H].
  - cbn [app] in H. inversion H as [|? ? c r ? ? rs' Hs Hr]; subst.
    destruct (IH c rs' Hr) as (b & r1 & r2 & H1 & H2).
    exists b, (r :: r1), r2. split; [now apply srun_cons with c|exact H2].
Qed.

Lemma sstep_keeps {S} (a a' : store S) o r e s : sstep a o a' r -> keeps_epoch e o ->
  st_epochs a e = Some s -> st_epochs a' e = Some s.
Proof.
  intros Hstep Hk Hs. destruct Hstep; cbn [st_epochs with_epochs]; try exact Hs; unfold rewind, put; cbn in Hk;
    repeat match goal with b : bool |- _ => destruct b; cbn [andb] end;
    try exact Hs; try discriminate;
    repeat match goal with |- context [Nat.ltb ?x ?y] => destruct (Nat.ltb_spec x y) end;
    repeat match goal with |- context [Nat.eqb ?x ?y] => destruct (Nat.eqb_spec x y) end;
    try exact Hs; exfalso;
    try (specialize (Hk eq_refl); lia); destruct Hk as [Hne Hle]; try congruence; specialize (Hle eq_refl); lia.
Qed.

Theorem load_returns_saved_epoch {S} name (d : @dir S) ops e s ops' r :
  has_char dot name = false -> no_own_files name d -> Forall (keeps_epoch e) ops' ->
  snd (load_model_state name (LEpoch e) r (fst (run_ops name (ops ++ SaveEpoch e s true :: ops') d))) = Ok (s, Some e).
Proof.
  intros Hp [Hnd Hown] Hk.
  destruct (run_refines name Hp (ops ++ SaveEpoch e s true :: ops') d _ (rel_empty name d Hnd Hown))
    as (d' & a & rs & H1 & H2 & H3 & _).
  rewrite H1. cbn [fst].
  assert (Ha : st_epochs a e = Some s).
  { apply srun_app in H2 as (b & r1 & r2 & _ & H2). inversion H2 as [|? ? c rr ? ? rs' Hs Hr]; subst.
    assert (Hc : st_epochs c e = Some s).
    { inversion Hs; subst. cbn [with_epochs st_epochs]. unfold rewind, put. now rewrite Nat.ltb_irrefl, Nat.eqb_refl. }
    clear - Hc Hr Hk. revert c rs' Hc Hr.
    induction Hk as [|o ops' Ho Hk IH]; intros c rs' Hc Hr; inversion Hr as [|? ? c' rr ? ? rs'' Hs Hr']; subst; [exact Hc|].
    apply (IH c' rs''); [|exact Hr']. now apply (sstep_keeps c c' o rr). }
  destruct (step_refines name Hp d' a (LoadEpoch e r) H3) as (d1 & a1 & o & K1 & K2 & _).
  inversion K2; subst. rewrite Ha in K1. cbn [run_op found] in K1. unfold ibind at 1 in K1.
  destruct (load_model_state name (LEpoch e) r d') as [dd [x|x]]; cbn in K1; injection K1 as _ Q; [|discriminate].
  cbn. congruence.
Qed.

(** *** Optimiser files follow the model files without disturbing them. *)
Lemma optim_not_model name f : has_char dot name = false ->
  (match_state (optim_name name) f = true \/ match_best (optim_name name) f = true \/ managed (optim_name name) f) ->
  match_state name f = false /\ match_best name f = false /\ ~ managed name f.
Proof.
  intros Hp H.
  assert (Ho : has_char dot (optim_name name) = false) by (unfold optim_name; now rewrite has_char_app, Hp).
  assert (Hf : exists r, f = (name ++ "_optim") ++ r).
  { unfold managed in H. change (name ++ "_optim") with (optim_name name).
    destruct H as [H|[H|[->|[->|[[e ->]|[e ->]]]]]].
    - unfold match_state in H. destruct (strip_name (optim_name name) f) eqn:E; [|discriminate].
      apply strip_exact in E; [|exact Ho]. now exists s.
    - unfold match_best in H. destruct (strip_name (optim_name name) f) eqn:E; [|discriminate].
      apply strip_exact in E; [|exact Ho]. now exists s.
    - unfold init_file. eauto.
    - unfold default_file. eauto.
    - unfold epoch_file. eauto.
    - unfold best_file. eauto. }
  destruct Hf as [r ->]. rewrite <- app_assoc_s.
  split; [|split].
  - unfold match_state. now rewrite strip_self.
  - unfold match_best. now rewrite strip_self.
  - intros [E|[E|[[e E]|[e E]]]]; unfold init_file, default_file, epoch_file, best_file in E;
      apply app_inj_s in E; discriminate.
Qed.

Lemma model_not_optim name f : has_char dot name = false -> managed name f ->
  ~ managed (optim_name name) f /\ match_state (optim_name name) f = false /\ match_best (optim_name name) f = false.
Proof.
  intros Hp Hm. split; [|split].
  - intros H. destruct (optim_not_model name f Hp) as (_ & _ & Hn); tauto.
  - destruct (match_state (optim_name name) f) eqn:E; [|reflexivity].
    destruct (optim_not_model name f Hp) as (_ & _ & Hn); tauto.
  - destruct (match_best (optim_name name) f) eqn:E; [|reflexivity].
    destruct (optim_not_model name f Hp) as (_ & _ & Hn); tauto.
Qed.

(** Operations on one name keep the relation of a disjoint name. *)
Lemma keep_rel {S} n1 n2 (d d' : @dir S) (a2 : store S) : rel n2 d a2 -> NoDup (dkeys d') -> same_others n1 d d' ->
  (forall f, match_state n2 f = true \/ match_best n2 f = true \/ managed n2 f -> ~ managed n1 f) -> rel n2 d' a2.
Proof.
  intros (Hnd & Hc & Hi & Hd & He & Hb) Hnd' Hs Hdis.
  assert (Hman : forall f, managed n2 f -> dget d' f = dget d f) by (intros f Hf; apply Hs, Hdis; tauto).
  split; [exact Hnd'|]. split.
  - intros f Hf.
    assert (Hin : match_state n2 f = true \/ match_best n2 f = true -> In f (dkeys d)).
    { intros Hm. apply dget_some_in in Hf as [v Hv]. rewrite Hs in Hv by (apply Hdis; tauto). now apply dget_key in Hv. }
    split; intros Hm; apply (Hc f); auto.
  - repeat split; intros; rewrite Hman by (unfold managed; eauto); auto.
Qed.

(** Saving the optimiser file is saving a model file under the other name. *)
Lemma optim_save_is_model_save {S} (on : string) (o : S) (best : bool) (e : nat) (r : bool) (d : @dir S) (a : store S) :
  has_char dot on = false -> rel on d a ->
  ibind (if best then remove_best_optim_files on else iret tt) (fun _ =>
    ibind (write_file (if best then best_file on e else epoch_file on e) o) (fun _ =>
      if r then remove_posterior_state_files on e else iret tt)) d =
  save_model_state on o (if best then TBest else TOther) (Some e) r d.
Proof.
  intros Hp Hrel. unfold save_model_state. destruct best; [|reflexivity].
  enough (E : remove_best_optim_files on d = remove_best_state_files on d) by (unfold ibind; rewrite E; reflexivity).
  destruct Hrel as (_ & Hc & _).
  assert (Hl : forall l (x : @dir S), (forall f, In f l -> In f (dkeys d)) ->
     iter (fun f => if match_best on f then remove_file f else iret tt) l x =
     iter (fun f => ibind (lift (check_best_state_file on f)) (fun o =>
        match o with Some _ => remove_file f | None => iret tt end)) l x).
  { induction l as [|f l IH]; intros x Hl; [reflexivity|].
    cbn [iter]. unfold ibind at 1 2. unfold ibind at 1, lift. unfold check_best_state_file at 1.
    destruct (match_best on f) eqn:E.
    - destruct (proj2 (Hc f (Hl f (or_introl eq_refl))) E) as [k ->].
      pose proof (check_best on Hp k) as Hk. unfold check_best_state_file in Hk. rewrite E in Hk. rewrite Hk.
      unfold remove_file at 1 2. apply IH. intros g Hg. apply Hl. now right.
    - unfold iret at 1 2. apply IH. intros g Hg. apply Hl. now right. }
  unfold remove_best_optim_files, remove_best_state_files, listdir. unfold ibind at 1 2.
  apply Hl. auto.
Qed.

Lemma save_op {S} (name : string) (s : S) (best : bool) (e : nat) (r : bool) (d : @dir S) (a : store S) : has_char dot name = false -> rel name d a ->
  exists d' a', save_model_state name s (if best then TBest else TOther) (Some e) r d = (d', Ok tt) /\
    sstep a (if best then SaveBest e s r else SaveEpoch e s r) a' (Ok None) /\ rel name d' a' /\ same_others name d d'.
Proof.
  intros Hp Hr.
  destruct (step_refines name Hp d a (if best then SaveBest e s r else SaveEpoch e s r) Hr)
    as (d' & a' & o & K1 & K2 & K3 & K4).
  exists d', a'. destruct best; cbn [run_op] in K1; unfold ibind at 1 in K1;
    (destruct (save_model_state name s _ (Some e) r d) as [dd [[]|x]]; cbn in K1; injection K1 as <- <-; [|inversion K2]);
    (split; [reflexivity|]); (split; [exact K2|]); (split; [exact K3|exact K4]).
Qed.

Theorem training_state_saves_both {S} (name : string) (d : @dir S) (a ao : store S) (m o : S) (e : nat) (r best : bool) :
  has_char dot name = false -> rel name d a -> rel (optim_name name) d ao ->
  exists d' a' ao', save_training_state name m o (if best then TBest else TOther) (Some e) r d = (d', Ok tt) /\
    sstep a (if best then SaveBest e m r else SaveEpoch e m r) a' (Ok None) /\
    sstep ao (if best then SaveBest e o r else SaveEpoch e o r) ao' (Ok None) /\
    rel name d' a' /\ rel (optim_name name) d' ao' /\
    forall f, ~ managed name f -> ~ managed (optim_name name) f -> dget d' f = dget d f.
Proof.
  intros Hp Hr Hro.
  assert (Ho : has_char dot (optim_name name) = false) by (unfold optim_name; now rewrite has_char_app, Hp).
  destruct (save_op name m best e r d a Hp Hr) as (d1 & a1 & H1 & H2 & H3 & H4).
  assert (Hro1 : rel (optim_name name) d1 ao).
  { apply (keep_rel name (optim_name name) d d1 ao Hro); [apply H3|exact H4|].
    intros f Hf. now apply (optim_not_model name f Hp) in Hf. }
  destruct (save_op (optim_name name) o best e r d1 ao Ho Hro1) as (d2 & a2 & K1 & K2 & K3 & K4).
  exists d2, a1, a2. split.
  { unfold save_training_state. unfold ibind at 1. rewrite H1.
    rewrite <- (optim_save_is_model_save (optim_name name) o best e r d1 ao Ho Hro1) in K1.
    destruct best; exact K1. }
  split; [exact H2|]. split; [exact K2|]. split; [|split; [exact K3|]].
  - apply (keep_rel (optim_name name) name d1 d2 a1 H3); [apply K3|exact K4|].
    intros f [Hf|[Hf|Hf]] Hm.
    + assert (Hx : match_state (optim_name name) f = true \/ match_best (optim_name name) f = true \/ managed (optim_name name) f) by tauto.
      apply (optim_not_model name f Hp) in Hx as (Hx & _). congruence.
    + assert (Hx : match_state (optim_name name) f = true \/ match_best (optim_name name) f = true \/ managed (optim_name name) f) by tauto.
      apply (optim_not_model name f Hp) in Hx as (_ & Hx & _). congruence.
    + now apply (model_not_optim name f Hp) in Hf as [Hf _].
  - intros f Hf1 Hf2. rewrite (K4 f Hf2). now apply H4.
Qed.

(** ** Refutations *)

(** Rewinding to an earlier epoch leaves the best state of a later epoch. *)
Theorem posterior_best_survives_refuted :
  let d := fst (run_ops "m" [SaveEpoch 5 50 true; SaveBest 5 50 true; SaveEpoch 2 20 true] []) in
  dget d (epoch_file "m" 5) = None /\ dget d (best_file "m" 5) = Some 50 /\
  snd (load_model_state "m" LBest true d) = Ok (50, Some 5).
Proof. vm_compute. repeat split. Qed.

(** A best state saved without epoch makes every later best save and load fail. *)
Theorem best_without_epoch_refuted :
  let d := fst (save_model_state "m" 7 TBest None true []) in
  dget d "m-best.pt" = Some 7 /\
  snd (load_model_state "m" LBest true d) = Err ValueError /\
  snd (save_model_state "m" 8 TBest (Some 3) true d) = Err ValueError.
Proof. vm_compute. repeat split. Qed.

(** The regular expressions are not anchored at the end: a backup copy of a
    state file makes saving fail (after the state has been written). *)
Theorem backup_file_breaks_save_refuted :
  snd (save_model_state "m" 1 TOther (Some 3) true [("m-2.pt.bak", 0)]) = Err ValueError.
Proof. vm_compute. reflexivity. Qed.

(** The model name is used as a regular expression: saving a state of model
    "v.1" deletes the later states of the unrelated model "vx1". *)
Theorem dotted_name_deletes_other_model_refuted :
  let d := fst (save_model_state "v.1" 1 TOther (Some 3) true [("vx1-7.pt", 0)]) in
  dget d "vx1-7.pt" = None.
Proof. vm_compute. reflexivity. Qed.

(** Non-trivial case: a run of saves and loads in a directory with another
    model's files. *)
Example state_files_case :
  run_ops "m" [SaveEpoch 0 10 true; SaveBest 0 10 true; SaveEpoch 10 11 true; SaveBest 3 12 false;
               LoadLast; LoadBest false; LoadEpoch 0 true; LoadLast] [("mm-4.pt", 99); ("notes.txt", 98)] =
  ([("mm-4.pt", 99); ("notes.txt", 98); ("m-0.pt", 10); ("m-3-best.pt", 12)],
   [Ok None; Ok None; Ok None; Ok None; Ok (Some (11, Some 10)); Ok (Some (12, Some 3)); Ok (Some (10, Some 0));
    Ok (Some (10, Some 0))]) /\
  no_own_files "m" [("mm-4.pt", 99); ("notes.txt", 98)].
Proof.
  split; [vm_compute; reflexivity|]. split.
  - cbn. repeat constructor; cbn; intuition discriminate.
  - intros f [<-|[<-|[]]]; (split; [reflexivity|split; [reflexivity|]]);
      intros [E|[E|[[e E]|[e E]]]]; discriminate.
Qed.

Print Assumptions state_files_refine_store_partial.
Print Assumptions training_state_saves_both.
