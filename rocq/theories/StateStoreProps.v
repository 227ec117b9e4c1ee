(** C33: the storage of elements constitutive states.
    Statements on what clients observe, with the value maps of
    [StateStoreSpec] as the reference. *)
From Coq Require Import String List Bool Arith Lia.
From Verif Require Import Lib PyDict PyStr StateStoreModel StateStoreSpec StateStoreProofs.
Import ListNotations.
Local Open Scope list_scope.

Section Props.
  Context {V : Type}.
  Implicit Types s : sst V.

  (** Every client program that leaves is_copy at its default, including one
      that mutates every object it created or received, observes exactly two
      maps of values: written values are read back until overwritten, the
      converged map changes only on commit (or a write to 'last'), and no
      element affects another. *)
  Theorem state_store_refines_partial (ops : list (op V)) : Forall copying ops ->
    snd (run (init_state, []) ops) = snd (srun spec0 ops) /\
    let s := fst (fst (run (init_state, []) ops)) in let a := fst (srun spec0 ops) in
    (forall e, view s (cur s) e = s_cur a e) /\ (forall e, view s (old s) e = s_old a e).
  Proof.
    intros H. pose proof (run_sim ops _ _ _ sim0 H) as R.
    destruct (run (init_state, []) ops) as [[s hs] r]. destruct (srun spec0 ops) as [a r']. destruct R as (S & E).
    cbn [fst snd]. destruct S; auto.
  Qed.

  Lemma reachable_sim ops : Forall copying ops -> exists a, sim (fst (fst (run (init_state, []) ops))) (snd (fst (run (init_state, []) ops))) (a : spec V).
  Proof.
    intros H. pose proof (run_sim ops _ _ _ sim0 H) as R. destruct (run (init_state, []) ops) as [[s hs] r].
    destruct (srun spec0 ops) as [a r']. exists a. apply R.
  Qed.

  (** In particular, after any such program: updating the current state of an
      element changes that entry of the current map and nothing else. *)
  Theorem update_current_keeps_converged ops e h s hs : Forall copying ops ->
    fst (run (init_state, []) ops) = (s, hs) ->
    let s' := fst (update_element_state s e (nth h hs VNone) Current true) in
    view s' (cur s') e = Some (content s (nth h hs VNone)) /\
    (forall k, k <> e -> view s' (cur s') k = view s (cur s) k) /\
    (forall k, view s' (old s') k = view s (old s) k).
  Proof.
    intros H E. destruct (reachable_sim ops H) as (a & S). rewrite E in S. cbn [fst snd] in S.
    pose proof (step_sim s hs a (Update e h Current true) S eq_refl) as R. cbn [step sstep] in R.
    destruct (update_element_state s e (nth h hs VNone) Current true) as [s1 r]. cbn [fst].
    destruct R as (S1 & _). split; [|split].
    - rewrite (sim_cur _ _ _ S1). cbn [s_cur]. unfold sput. rewrite Nat.eqb_refl. rewrite (hand_nth _ _ _ _ S). auto.
    - intros k N. rewrite (sim_cur _ _ _ S1), (sim_cur _ _ _ S). cbn [s_cur]. unfold sput.
      destruct (Nat.eqb_spec k e); congruence.
    - intros k. rewrite (sim_old _ _ _ S1), (sim_old _ _ _ S). auto.
  Qed.

  (** Committing makes the current state of every element the converged one;
      any later program of updates of the current state leaves it so. *)
  Definition only_current (o : op V) : Prop :=
    match o with Update _ _ t _ => t = Current | Commit _ | Init _ _ _ => False | _ => True end.
  Theorem commit_then_isolated ops1 ops2 s s' : Forall copying ops1 -> Forall copying ops2 -> Forall only_current ops2 ->
    s = fst (fst (run (init_state, []) ops1)) -> s' = fst (fst (run (init_state, []) (ops1 ++ Commit true :: ops2))) ->
    forall e, view s' (old s') e = view s (cur s) e.
  Proof.
    intros H1 H2 H3 -> -> e.
    assert (SR : forall o (a : spec V), only_current o -> s_old (fst (sstep a o)) = s_old a).
    { intros o a Ho. destruct o as [| | |? ? t ?|? t ?| |]; cbn in *; auto; try tauto; try subst t; auto.
      destruct t; auto; [destruct (s_old a _)|destruct (s_cur a _)]; auto. }
    assert (RA : forall l1 l2 c, fst (run (V := V) c (l1 ++ l2)) = fst (run (fst (run c l1)) l2)).
    { induction l1 as [|o l1 IH]; intros l2 c; cbn [run app]; auto. destruct (step c o) as [c1 r].
      specialize (IH l2 c1). destruct (run c1 (l1 ++ l2)). destruct (run c1 l1). cbn [fst] in *. auto. }
    rewrite RA. destruct (reachable_sim ops1 H1) as (a & S).
    destruct (run (init_state, []) ops1) as [[s hs] r]. cbn [fst snd] in *.
    pose proof (run_sim (Commit true :: ops2) s hs a S (Forall_cons _ (eq_refl : copying (Commit true)) H2)) as R.
    destruct (run (s, hs) (Commit true :: ops2)) as [[s' hs'] r1]. destruct (srun a (Commit true :: ops2)) as [a' r'] eqn:Ea.
    cbn [fst]. destruct R as (S' & _). rewrite (sim_old _ _ _ S'), (sim_cur _ _ _ S).
    cbn [srun sstep] in Ea. destruct (srun _ ops2) as [a2 rs] eqn:E2. injection Ea as <- _.
    assert (Q : forall ops b, Forall only_current ops -> s_old (fst (srun b ops)) = s_old b).
    { induction ops as [|o ops IH]; intros b F; cbn [srun]; auto. inversion F as [|? ? Fo Fs]; subst.
      specialize (SR o b Fo). destruct (sstep b o) as [b1 r2]. specialize (IH b1 Fs). destruct (srun b1 ops).
      cbn [fst] in *. congruence. }
    pose proof (Q ops2 (mkSpec (s_cur a) (s_cur a) (s_hand a)) H3) as Q2. rewrite E2 in Q2. cbn [fst s_old] in Q2. rewrite Q2. auto.
  Qed.

  (** The converged states after the element-by-element forward pass, which
      uses no copies and may run on a store whose two dictionaries are already
      one object: every element moves from its own converged state. *)
  Definition well (s : sst V) : Prop :=
    cur s < length (dicts s) /\ old s < length (dicts s) /\ din s (cur s) /\ din s (old s).

  Lemma forward_element_spec f s e x : well s -> view s (old s) e = Some x ->
    exists s', forward_element f s e = (s', Ok tt) /\ well s' /\ cur s' = cur s /\ old s' = old s /\
      (forall k, view s' (cur s) k = sput (view s (cur s)) e (Some (f e x)) k) /\
      (forall k, k <> e -> view s' (old s) k = view s (old s) k).
  Proof.
    intros (Lc & Lo & Dc & Do) Hv. unfold forward_element, get_element_state, dlookup.
    unfold view in Hv. destruct (dget (dict_at s (old s)) (nat_str e)) as [y|] eqn:G; [|discriminate].
    injection Hv as Hx. cbv beta iota. rewrite Hx.
    pose proof (alloc_ext s (f e x)) as E. pose proof (alloc_content s (f e x)) as C. pose proof (alloc_fresh s (f e x)) as F.
    destruct (alloc s (f e x)) as [s1 z]. cbn [fst snd] in *.
    pose proof E as (_ & ED & EC & EO & _ & _).
    unfold update_element_state. eexists. split; [reflexivity|].
    assert (Iz : inb s1 z) by (destruct z; cbn in *; auto; lia).
    assert (DI : forall d, din s d -> din (set_dict s1 (cur s1) (dset (dict_at s1 (cur s1)) (nat_str e) z)) d).
    { intros d Hd k w. destruct (Nat.eq_dec (cur s1) d) as [<-|N].
      - rewrite dict_at_set by (rewrite EC, ED; auto). intros I. apply dset_in in I as [->|I]; [exact Iz|].
        rewrite (ext_dict s s1) in I by auto. rewrite EC in *. apply (ext_inb s s1); eauto.
      - rewrite dict_at_set_other by auto. rewrite (ext_dict s s1) by auto. intros I. apply (ext_inb s s1); eauto. }
    split; [split; [|split; [|split]]|].
    - cbn. rewrite upd_nth_length, EC, ED. auto.
    - cbn. rewrite upd_nth_length, EO, ED. auto.
    - cbn [cur set_dict]. change (din (set_dict s1 (cur s1) (dset (dict_at s1 (cur s1)) (nat_str e) z)) (cur s1)). apply DI. rewrite EC. exact Dc.
    - change (din (set_dict s1 (cur s1) (dset (dict_at s1 (cur s1)) (nat_str e) z)) (old s1)). apply DI. rewrite EO. exact Do.
    - split; [exact EC|]. split; [exact EO|]. split.
      + intros k. transitivity (view (set_dict s1 (cur s1) (dset (dict_at s1 (cur s1)) (nat_str e) z)) (cur s1) k); [rewrite EC; reflexivity|]. rewrite view_set by (rewrite EC, ED; auto). rewrite C. unfold sput.
        destruct (Nat.eqb k e); auto. rewrite EC. apply ext_view; auto.
      + intros k N. destruct (Nat.eq_dec (cur s1) (old s)) as [Q|Q].
        * transitivity (view (set_dict s1 (cur s1) (dset (dict_at s1 (cur s1)) (nat_str e) z)) (cur s1) k); [rewrite Q; reflexivity|]. rewrite view_set by (rewrite EC, ED; auto). unfold sput.
          destruct (Nat.eqb_spec k e); [congruence|]. rewrite Q. apply ext_view; auto.
        * rewrite view_set_other by auto. apply ext_view; auto.
  Qed.

  Theorem forward_sequential_element_converged f es : NoDup es -> forall s, well s ->
    (forall e, In e es -> view s (old s) e <> None) ->
    exists s', forward_sequential_element f s es = (s', Ok tt) /\ well s' /\
      (forall e x, In e es -> view s (old s) e = Some x -> view s' (old s') e = Some (Some (f e x))) /\
      (forall e, In e es -> view s' (old s') e <> None).
  Proof.
    intros ND s W Hin.
    assert (L : forall es, NoDup es -> forall s, well s -> (forall e, In e es -> view s (old s) e <> None) ->
      exists s', forward_elements f s es = (s', Ok tt) /\ well s' /\ cur s' = cur s /\
        (forall e x, In e es -> view s (old s) e = Some x -> view s' (cur s') e = Some (Some (f e x))) /\
        (forall e, ~ In e es -> view s' (cur s') e = view s (cur s) e)).
    { clear. induction es as [|e es IH]; intros ND s W Hin; cbn [forward_elements].
      - exists s. split; [auto|]. split; [auto|]. split; [auto|]. split; [intros ? ? []|auto].
      - inversion ND as [|? ? Ne ND']; subst.
        destruct (view s (old s) e) as [x|] eqn:Ex; [|exfalso; apply (Hin e); [left; auto|auto]].
        destruct (forward_element_spec f s e x W Ex) as (s1 & E1 & W1 & C1 & O1 & V1 & U1). rewrite E1.
        destruct (IH ND' s1 W1) as (s2 & E2 & W2 & C2 & V2 & U2).
        { intros k Hk. rewrite O1, U1; [apply Hin; right; auto|]. intros ->; auto. }
        exists s2. split; [auto|]. split; [auto|]. split; [congruence|]. split.
        + intros k y [<-|Hk] Hy.
          * rewrite U2 by auto. rewrite C1, V1. unfold sput. rewrite Nat.eqb_refl. congruence.
          * apply V2; auto. rewrite O1, U1; auto. intros ->; auto.
        + intros k Nk. rewrite U2 by (intros ?; apply Nk; right; auto). rewrite C1, V1. unfold sput.
          destruct (Nat.eqb_spec k e); auto. subst. exfalso. apply Nk. left; auto. }
    destruct (L es ND s W Hin) as (s1 & E1 & W1 & C1 & V1 & _). unfold forward_sequential_element. rewrite E1.
    eexists. split; [reflexivity|]. split; [destruct W1 as (? & ? & ? & ?); repeat split; auto|].
    split; [intros e x He Hx; cbn; exact (V1 e x He Hx)|]. intros e He Q.
    destruct (view s (old s) e) eqn:Ee; [|exact (Hin e He Ee)]. pose proof (V1 e o He Ee) as R.
    change (view s1 (cur s1) e = None) in Q. congruence.
  Qed.

  (** The time-by-time forward pass. *)
  Lemma time_element_spec f s (a : spec V) e x : sim s [] a -> s_old a e = Some x ->
    exists s', time_element f s e = (s', Ok tt) /\
      sim s' [] (mkSpec (sput (s_cur a) e (Some (f e x))) (s_old a) (s_hand a)).
  Proof.
    intros S Hx. unfold time_element, get_element_state, dlookup. pose proof (sim_old _ _ _ S e) as Hv. rewrite Hx in Hv.
    unfold view in Hv. destruct (dget (dict_at s (old s)) (nat_str e)) as [y|] eqn:G; [|discriminate].
    injection Hv as Hy.
    pose proof (deepcopy_spec s y (din_get _ _ _ _ (sim_oin _ _ _ S) G)) as H. destruct (deepcopy s y) as [s1 z].
    destruct H as (E & C & _ & _). rewrite C, Hy.
    pose proof (sim_ext _ _ _ _ S E) as S1.
    pose proof (alloc_ext s1 (f e x)) as E2. pose proof (alloc_content s1 (f e x)) as C2. pose proof (alloc_fresh s1 (f e x)) as F2.
    destruct (alloc s1 (f e x)) as [s2 w]. cbn [fst snd] in *.
    assert (Iw : inb s2 w) by (destruct w; cbn in *; auto; lia).
    unfold update_element_state.
    pose proof (deepcopy_spec s2 w Iw) as H. destruct (deepcopy s2 w) as [s3 v]. destruct H as (E3 & C3 & F3 & I3).
    pose proof (sim_ext _ _ _ _ (sim_ext _ _ _ _ S1 E2) E3) as S3.
    eexists. split; [reflexivity|].
    assert (NH : forall i l, nth i (@nil val) VNone = VCell l -> v <> VCell l) by (intros [|i] l; cbn; discriminate).
    pose proof (sim_store s3 [] a e v true S3 I3 NH) as R. cbn zeta in R. rewrite C3, C2 in R. exact R.
  Qed.
  Lemma time_elements_spec f es : forall s (a : spec V), sim s [] a -> (forall e, In e es -> s_old a e <> None) ->
    exists s' a', time_elements f s es = (s', Ok tt) /\ sim s' [] a' /\ s_old a' = s_old a /\
      (forall e x, In e es -> s_old a e = Some x -> s_cur a' e = Some (Some (f e x))) /\
      (forall e, ~ In e es -> s_cur a' e = s_cur a e).
  Proof.
    induction es as [|e es IH]; intros s a S Hin; cbn [time_elements].
    - exists s, a. split; [auto|]. split; [auto|]. split; [auto|]. split; [intros ? ? []|auto].
    - destruct (s_old a e) as [x|] eqn:Ex; [|exfalso; apply (Hin e); [left; auto|auto]].
      destruct (time_element_spec f s a e x S Ex) as (s1 & E1 & S1). rewrite E1.
      destruct (IH s1 _ S1) as (s2 & a2 & E2 & S2 & O2 & V2 & U2).
      { intros k Hk. cbn. apply Hin. right; auto. }
      exists s2, a2. split; [auto|]. split; [auto|]. split; [auto|]. cbn [s_old s_cur] in *. split.
      + intros k y [<-|Hk] Hy; [|apply V2; auto].
        destruct (in_dec Nat.eq_dec e es) as [I|I]; [apply V2; auto|]. rewrite U2 by auto. unfold sput.
        rewrite Nat.eqb_refl. congruence.
      + intros k Nk. rewrite U2 by (intros ?; apply Nk; right; auto). unfold sput.
        destruct (Nat.eqb_spec k e); auto. subst. exfalso. apply Nk. left; auto.
  Qed.
  (** The state of one element after the given sequence of updates. *)
  Fixpoint iterate (fs : list (nat -> option V -> V)) (e : nat) (x : option V) : option V :=
    match fs with [] => x | f :: t => iterate t e (Some (f e x)) end.
  Theorem forward_sequential_time_converged es fs : forall s (a : spec V), sim s [] a ->
    (forall e, In e es -> s_old a e <> None) ->
    exists s' a', forward_sequential_time fs s es = (s', Ok tt) /\ sim s' [] a' /\
      forall e x, In e es -> view s (old s) e = Some x -> view s' (old s') e = Some (iterate fs e x).
  Proof.
    induction fs as [|f fs IH]; intros s a S Hin; cbn [forward_sequential_time].
    - exists s, a. auto.
    - destruct (time_elements_spec f es s a S Hin) as (s1 & a1 & E1 & S1 & O1 & V1 & _). rewrite E1.
      pose proof (sim_commit _ _ _ S1) as S2.
      assert (Hin2 : forall e, In e es -> s_cur a1 e <> None).
      { intros e He. destruct (s_old a e) eqn:Q; [|exact (fun _ => Hin e He Q)]. rewrite (V1 e _ He Q). discriminate. }
      destruct (IH _ _ S2 Hin2) as (s' & a' & E' & S' & V').
      exists s', a'. split; [auto|]. split; [auto|]. intros e x He Hx. cbn [iterate]. apply (V' e (Some (f e x)) He).
      rewrite (sim_old _ _ _ S2). cbn [s_old]. apply V1; auto. rewrite <- (sim_old _ _ _ S). auto.
  Qed.

  (** Both passes leave the same converged state (the element pass computes
      the whole history of an element at once). *)
  Theorem forward_modes_agree es fs f : NoDup es -> (forall e x, iterate fs e x = Some (f e x)) ->
    forall s (a : spec V), sim s [] a -> (forall e, In e es -> s_old a e <> None) ->
    exists s1 s2, forward_sequential_element f s es = (s1, Ok tt) /\ forward_sequential_time fs s es = (s2, Ok tt) /\
      forall e, In e es -> view s1 (old s1) e = view s2 (old s2) e.
  Proof.
    intros ND Hf s a S Hin.
    assert (W : well s) by (destruct S; repeat split; auto).
    assert (Hin' : forall e, In e es -> view s (old s) e <> None) by (intros; rewrite (sim_old _ _ _ S); auto).
    destruct (forward_sequential_element_converged f es ND s W Hin') as (s1 & E1 & _ & V1 & _).
    destruct (forward_sequential_time_converged es fs s a S Hin) as (s2 & a2 & E2 & _ & V2).
    exists s1, s2. split; [auto|]. split; [auto|]. intros e He.
    destruct (view s (old s) e) as [x|] eqn:Ex; [|exfalso; exact (Hin' e He Ex)].
    rewrite (V1 e x), (V2 e x), Hf; auto.
  Qed.
End Props.

(** Without copies the isolation claim is false: after a commit with
    is_copy=False (material_discovery.py 1134), updating the current state of
    an element changes its converged state. *)
Theorem commit_without_copy_refuted : exists ops : list (op nat),
  let run1 := fst (run (init_state, []) ops) in
  let s := fst run1 in let hs := snd run1 in
  let s' := fst (update_element_state s 1 (nth 1 hs VNone) Current true) in
  view s (old s) 1 = Some (Some 5) /\ view s' (old s') 1 = Some (Some 7).
Proof. exists [New 5; New 7; Update 1 0 Current true; Commit false]. vm_compute. auto. Qed.

(** A state read without copy is the stored object: mutating it changes the
    store. *)
Theorem get_without_copy_refuted : exists ops : list (op nat),
  let s := fst (fst (run (init_state, []) ops)) in
  let s' := fst (fst (run (init_state, []) (ops ++ [Mutate 1 9]))) in
  view s (old s) 1 = Some (Some 5) /\ view s' (old s') 1 = Some (Some 9).
Proof. exists [New 5; Update 1 0 Last true; Get 1 Last false]. vm_compute. auto. Qed.

(** No element can be given a standard constitutive model as the code stands
    (structure_state.py 128 and 346-354): the call raises for every model and
    element list and leaves the store as it was. *)
Theorem standard_model_init_refuted {V} (s : sst V) g es : init_elements_model true s (Standard g) es = (s, Err RuntimeError).
Proof. reflexivity. Qed.

(** A client that mutates what it passed in and what it received. *)
Example state_store_case :
  snd (run (init_state, []) [New 5; Update 3 0 Current true; Mutate 0 6; Get 3 Current true; Mutate 1 8; Commit true;
        New 4; Update 3 2 Current true; Get 3 Last true; Get 3 Current true; Get 2 Last true])
  = [Ok None; Ok None; Ok None; Ok (Some 5); Ok None; Ok None; Ok None; Ok None; Ok (Some 5); Ok (Some 4); Err KeyError].
Proof. vm_compute. reflexivity. Qed.
(** Two forward passes over two elements whose dictionaries become one object. *)
Example forward_case :
  let s0 := fst (init_elements_model true (init_state : sst nat) Recurrent [1; 2]) in
  let f := fun e (x : option nat) => match x with None => e | Some v => v + 10 end in
  let s1 := fst (forward_sequential_element f s0 [1; 2]) in
  let s2 := fst (forward_sequential_element f s1 [1; 2]) in
  cur s1 = old s1 /\ view s2 (old s2) 1 = Some (Some 11) /\ view s2 (old s2) 2 = Some (Some 12).
Proof. vm_compute. auto. Qed.

Print Assumptions state_store_refines_partial.
Print Assumptions commit_then_isolated.
Print Assumptions forward_modes_agree.
