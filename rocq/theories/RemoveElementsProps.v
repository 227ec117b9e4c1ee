(** Removing elements from a mesh. *)
From Coq Require Import Reals List Arith Bool Lia.
From Verif Require Import Lib PyDict RegularMeshModel RegularMeshProps.
Import ListNotations.
Local Open Scope list_scope.

Lemma memb_in : forall x l, memb x l = true <-> In x l.
Proof.
  intros x l. unfold memb. rewrite existsb_exists. split; [intros [y [H E]]; apply Nat.eqb_eq in E; now subst|].
  intros H. exists x. split; [exact H|apply Nat.eqb_refl].
Qed.
Lemma memb_out : forall x l, memb x l = false <-> ~ In x l.
Proof. intros. rewrite <- memb_in. destruct (memb x l); split; congruence. Qed.

(** both loops: keep the entries that are not dropped, number them from 1 *)
Definition kept {V} (dropped : list nat) (l : list (nat * V)) := filter (fun e => negb (memb (fst e) dropped)) l.
Definition keep_step {V} (dropped : list nat) (s : list (nat * V) * list (nat * nat) * nat) (e : nat * V) :=
  let '(els, emap, k) := s in
  if memb (fst e) dropped then s else (gset Nat.eqb els k (snd e), gset Nat.eqb emap (fst e) k, S k).
Lemma nodup_filter_map : forall {V} f (l : list (nat * V)), NoDup (map fst l) -> NoDup (map fst (filter f l)).
Proof.
  intros V f l. induction l as [|e l IH]; cbn; intros H; [constructor|]. inversion_clear H as [|? ? Hn Hl]. destruct (f e); cbn; [|auto]. constructor; [|auto].
  intros Hin. apply Hn. apply in_map_iff in Hin as [y [<- Hy]]. apply filter_In in Hy as [Hy _]. now apply in_map.
Qed.
Lemma keep_closed : forall {V} dropped (l : list (nat * V)), NoDup (map fst l) ->
  fold_left (keep_step dropped) l ([], [], 1) =
  (combine (seq 1 (length (kept dropped l))) (map snd (kept dropped l)),
   combine (map fst (kept dropped l)) (seq 1 (length (kept dropped l))), S (length (kept dropped l))).
Proof.
  intros V dropped l Hn.
  assert (G : forall (l acc : list (nat * V)), NoDup (map fst (acc ++ l)) ->
    fold_left (keep_step dropped) l (combine (seq 1 (length acc)) (map snd acc), combine (map fst acc) (seq 1 (length acc)), S (length acc)) =
    (combine (seq 1 (length (acc ++ kept dropped l))) (map snd (acc ++ kept dropped l)),
     combine (map fst (acc ++ kept dropped l)) (seq 1 (length (acc ++ kept dropped l))), S (length (acc ++ kept dropped l)))).
  { clear. induction l as [|e l IH]; intros acc Hn; [cbn; now rewrite app_nil_r|]. cbn [fold_left kept filter]. unfold keep_step at 2.
    destruct (memb (fst e) dropped) eqn:E; cbn [negb].
    - apply IH. rewrite map_app in Hn. cbn in Hn. rewrite map_app. now apply NoDup_remove_1 in Hn.
    - fold (kept dropped l).
      assert (E1 : gset Nat.eqb (combine (seq 1 (length acc)) (map snd acc)) (S (length acc)) (snd e) =
                   combine (seq 1 (length (acc ++ [e]))) (map snd (acc ++ [e]))).
      { rewrite gset_fresh by (rewrite keys_combine_len by apply map_length; rewrite in_seq; lia).
        pose proof (combine_seq_app (map snd acc) (snd e) 1) as Q. rewrite app_length, map_length in Q. rewrite map_app, app_length. exact Q. }
      assert (E2 : gset Nat.eqb (combine (map fst acc) (seq 1 (length acc))) (fst e) (S (length acc)) =
                   combine (map fst (acc ++ [e])) (seq 1 (length (acc ++ [e])))).
      { assert (K : forall s, map fst (combine (map fst acc) (seq s (length acc))) = map fst acc).
        { clear. induction acc as [|a acc IH]; intros s; cbn; [reflexivity|]. now rewrite IH. }
        rewrite gset_fresh.
        - rewrite map_app, app_length. cbn [length map]. rewrite Nat.add_1_r, seq_S. clear.
          assert (H : forall s, combine (map fst acc) (seq s (length acc)) ++ [(fst e, s + length acc)] = combine (map fst acc ++ [fst e]) (seq s (length acc) ++ [s + length acc])).
          { induction acc as [|y acc IH]; intros s; cbn; [reflexivity|]. f_equal. replace (s + S (length acc)) with (S s + length acc) by lia. apply IH. }
          exact (H 1).
        - rewrite K. rewrite map_app in Hn. cbn in Hn. apply NoDup_remove_2 in Hn. rewrite in_app_iff in Hn. tauto. }
      rewrite E1, E2. specialize (IH (acc ++ [e])). rewrite <- !app_assoc in IH. cbn [app] in IH.
      replace (S (S (length acc))) with (S (length (acc ++ [e]))) by (rewrite app_length; cbn; lia). apply IH. exact Hn. }
  exact (G l [] Hn).
Qed.
(** the label map sends the j-th kept label to j + 1 *)
Lemma map_nth_label : forall {V} (l : list (nat * V)) j d, NoDup (map fst l) -> j < length l ->
  gget Nat.eqb (combine (map fst l) (seq 1 (length l))) (fst (nth j l d)) = Some (S j).
Proof.
  intros V l j d Hn Hj.
  assert (G : forall s, gget Nat.eqb (combine (map fst l) (seq s (length l))) (fst (nth j l d)) = Some (s + j)).
  { revert j Hn Hj. induction l as [|e l IH]; intros j Hn Hj s; cbn in Hj; [lia|]. inversion_clear Hn as [|? ? Hx Hl]. cbn [map length seq combine gget]. destruct j as [|j]; cbn [nth].
    - rewrite Nat.eqb_refl. now rewrite Nat.add_0_r.
    - destruct (Nat.eqb (fst (nth j l d)) (fst e)) eqn:E.
      + apply Nat.eqb_eq in E. exfalso. apply Hx. rewrite <- E. apply in_map. apply nth_In. lia.
      + rewrite IH by (auto; lia). f_equal. lia. }
  exact (G 1).
Qed.
Lemma map_label_inv : forall {V} (l : list (nat * V)) x k d, gget Nat.eqb (combine (map fst l) (seq 1 (length l))) x = Some k ->
  exists j, j < length l /\ k = S j /\ fst (nth j l d) = x.
Proof.
  intros V l x k d.
  assert (G : forall s, gget Nat.eqb (combine (map fst l) (seq s (length l))) x = Some k -> exists j, j < length l /\ k = s + j /\ fst (nth j l d) = x).
  { induction l as [|e l IH]; intros s; cbn [map length seq combine gget]; [discriminate|]. destruct (Nat.eqb x (fst e)) eqn:E.
    - intros [= <-]. apply Nat.eqb_eq in E. exists 0. cbn. repeat split; try lia; try congruence.
    - intros H. destruct (IH _ H) as [j [Hj [-> Hx]]]. exists (S j). cbn. repeat split; try lia; try exact Hx. }
  exact (G 1).
Qed.

Section Remove.
  Variables (C D P : Type).
  Variable removed : list nat.
  Variable coords : list (nat * C).
  Variable els : list (nat * list nat).
  Variable phs : list (nat * P).
  Variable disps : option (list (nat * D)).
  Variable boundary : option (list nat).
  Hypothesis Hcoords : NoDup (map fst coords).
  Hypothesis Hels : NoDup (map fst els).
  Hypothesis Hphs : NoDup (map fst phs).
  Hypothesis Hnodes : forall e nodes x, In (e, nodes) els -> In x nodes -> In x (map fst coords).

  (** a node is lost when some element uses it and every such element is removed *)
  Definition used_by (P : nat -> Prop) (x : nat) : Prop := exists e nodes, In (e, nodes) els /\ P e /\ In x nodes.
  Definition lost (x : nat) : Prop := used_by (fun _ => True) x /\ ~ used_by (fun e => ~ In e removed) x.
  Definition boundary_conflict : Prop := exists b x, boundary = Some b /\ In x b /\ lost x.

  Let kels := kept removed els.
  Let gone := filter (fun x => negb (memb x (concat (map snd kels)))) (concat (map snd els)).
  Let knodes := kept gone coords.
  Let nmap := combine (map fst knodes) (seq 1 (length knodes)).
  Let emap := combine (map fst kels) (seq 1 (length kels)).

  Lemma in_kels : forall e nodes, In (e, nodes) kels <-> In (e, nodes) els /\ ~ In e removed.
  Proof. intros. unfold kels, kept. rewrite filter_In, negb_true_iff. cbn [fst]. now rewrite memb_out. Qed.
  Lemma gone_iff : forall x, In x gone <-> lost x.
  Proof.
    intros x. unfold gone. rewrite filter_In, negb_true_iff, memb_out, !in_concat. unfold lost, used_by. split.
    - intros [[nodes [Hn Hx]] Hk]. split.
      + apply in_map_iff in Hn as [[e n'] [<- Hin]]. exists e, n'. auto.
      + intros [e [n' [Hin [He Hx']]]]. apply Hk. exists n'. split; [|exact Hx']. apply in_map_iff. exists (e, n'). split; [reflexivity|]. now apply in_kels.
    - intros [[e [n' [Hin [_ Hx]]]] Hk]. split.
      + exists n'. split; [|exact Hx]. apply in_map_iff. exists (e, n'). auto.
      + intros [n2 [Hn2 Hx2]]. apply Hk. apply in_map_iff in Hn2 as [[e2 n3] [<- Hin2]]. apply in_kels in Hin2 as [Hi He]. exists e2, n3. auto.
  Qed.
  Lemma knodes_keys : NoDup (map fst knodes).
  Proof. now apply nodup_filter_map. Qed.
  Lemma kels_keys : NoDup (map fst kels).
  Proof. now apply nodup_filter_map. Qed.
  Lemma in_knodes : forall x, In x (map fst knodes) <-> In x (map fst coords) /\ ~ lost x.
  Proof.
    intros x. rewrite <- gone_iff. unfold knodes, kept. rewrite in_map_iff. split.
    - intros [[x' c] [<- H]]. apply filter_In in H as [H E]. apply negb_true_iff, memb_out in E. split; [now apply (in_map fst) in H|exact E].
    - intros [H E]. apply in_map_iff in H as [[x' c] [<- H]]. exists (x', c). split; [reflexivity|]. apply filter_In. split; [exact H|]. apply negb_true_iff, memb_out. exact E.
  Qed.
  (** the new label of a remaining node *)
  Definition new_label (x : nat) : nat := match gget Nat.eqb nmap x with Some k => k | None => 0 end.
  Lemma nmap_some : forall x, In x (map fst coords) -> ~ lost x -> gget Nat.eqb nmap x = Some (new_label x).
  Proof.
    intros x Hx Hl. unfold new_label. assert (H : In x (map fst knodes)) by now apply in_knodes.
    apply in_map_iff in H as [e [<- He]]. destruct (In_nth _ _ e He) as [j [Hj Ej]]. unfold nmap. rewrite <- Ej at 1 2.
    rewrite (map_nth_label knodes j e knodes_keys Hj). reflexivity.
  Qed.
  Lemma nmap_none : forall x, lost x \/ ~ In x (map fst coords) -> gget Nat.eqb nmap x = None.
  Proof.
    intros x H. destruct (gget Nat.eqb nmap x) as [k|] eqn:E; [|reflexivity]. exfalso.
    assert (Hin : In x (map fst knodes)).
    { apply gget_in in E; [|apply Nat.eqb_eq]. unfold nmap in E. now apply in_combine_l in E. }
    apply in_knodes in Hin. tauto.
  Qed.
  Lemma kept_nodes_ok : forall e nodes x, In (e, nodes) kels -> In x nodes -> In x (map fst coords) /\ ~ lost x.
  Proof.
    intros e nodes x H Hx. apply in_kels in H as [H He]. split; [now apply (Hnodes e nodes)|]. intros [_ Hl]. apply Hl. exists e, nodes. auto.
  Qed.
  Lemma relabel_ok : relabel nmap (combine (seq 1 (length kels)) (map snd kels)) =
    Ok (combine (seq 1 (length kels)) (map (fun e => map new_label (snd e)) kels)).
  Proof.
    unfold relabel.
    assert (G : forall l s, (forall e, In e l -> In e kels) ->
      rmap (fun e => rbind (rmap (glookup nmap) (snd e)) (fun ns => Ok (fst e, ns))) (combine (seq s (length l)) (map snd l)) =
      Ok (combine (seq s (length l)) (map (fun e => map new_label (snd e)) l))).
    { induction l as [|e l IH]; intros s H; cbn [length seq map combine rmap]; [reflexivity|]. cbn [snd fst].
      rewrite (rmap_all (glookup nmap) (snd e) new_label).
      - cbn [rbind]. rewrite IH by (intros; apply H; now right). reflexivity.
      - intros x Hx. unfold glookup. destruct e as [e nodes]. destruct (kept_nodes_ok e nodes x) as [H1 H2]; [apply H; now left|exact Hx|].
        now rewrite nmap_some. }
    now apply G.
  Qed.
  Lemma phases_kept : forall k, gget Nat.eqb (fold_left (keep_phase P emap) phs []) k =
    match k with 0 => None | S j => match nth_error kels j with Some e => gget Nat.eqb phs (fst e) | None => None end end.
  Proof.
    intros k.
    assert (Inv : forall e1 e2 k, gget Nat.eqb emap e1 = Some k -> gget Nat.eqb emap e2 = Some k -> e1 = e2).
    { intros e1 e2 k0 H1 H2. unfold emap in *. destruct (map_label_inv kels e1 k0 (0, []) H1) as [j1 [_ [-> E1]]].
      destruct (map_label_inv kels e2 _ (0, []) H2) as [j2 [_ [E E2]]]. congruence. }
    assert (G : forall l acc, NoDup (map fst l) -> gget Nat.eqb (fold_left (keep_phase P emap) l acc) k =
      match find (fun e => match gget Nat.eqb emap (fst e) with Some k' => Nat.eqb k' k | None => false end) l with
      | Some e => Some (snd e) | None => gget Nat.eqb acc k end).
    { induction l as [|e l IH]; intros acc Hn; cbn [fold_left find]; [reflexivity|]. inversion_clear Hn as [|? ? Hx Hl]. rewrite IH by exact Hl.
      unfold keep_phase. destruct (gget Nat.eqb emap (fst e)) as [k'|] eqn:E; [|reflexivity]. rewrite gget_gset by apply Nat.eqb_eq.
      destruct (Nat.eqb k' k) eqn:Ek; [|reflexivity]. apply Nat.eqb_eq in Ek. subst k'.
      destruct (find _ l) as [e2|] eqn:F; [|reflexivity]. apply find_some in F as [Hin F]. destruct (gget Nat.eqb emap (fst e2)) as [k2|] eqn:E2; [|discriminate].
      apply Nat.eqb_eq in F. subst k2. exfalso. apply Hx. rewrite (Inv _ _ _ E E2). now apply in_map. }
    rewrite G by exact Hphs. destruct (find _ phs) as [e|] eqn:F.
    - apply find_some in F as [Hin F]. destruct (gget Nat.eqb emap (fst e)) as [k2|] eqn:E2; [|discriminate]. apply Nat.eqb_eq in F. subst k2.
      unfold emap in E2. destruct (map_label_inv kels _ _ (0, []) E2) as [j [Hj [-> E]]]. rewrite (nth_error_nth' _ (0, []) Hj), E. symmetry.
      apply in_gget; [apply Nat.eqb_eq|exact Hphs|]. destruct e; exact Hin.
    - cbn [gget]. destruct k as [|j]; [reflexivity|]. destruct (nth_error kels j) as [e|] eqn:En; [|reflexivity]. symmetry.
      apply gget_none; [apply Nat.eqb_eq|]. intros Hin. apply in_map_iff in Hin as [[e' v] [E Hin]]. cbn [fst] in E. subst e'.
      pose proof (find_none _ _ F _ Hin) as Hf. cbn [fst] in Hf. assert (Hj : j < length kels) by (apply nth_error_Some; congruence).
      unfold emap in Hf. rewrite <- (nth_error_nth _ _ (0, []) En) in Hf. rewrite (map_nth_label kels j (0, []) kels_keys Hj), Nat.eqb_refl in Hf. discriminate.
  Qed.

  (** how the call ends *)
  Lemma remove_form : remove_elements C D P removed coords els phs disps boundary =
    if existsb (fun x => match boundary with Some b => memb x b | None => false end) gone
    then if forallb (fun e => memb e (map fst els)) removed then Err RuntimeError else Err KeyError
    else
      let r := (combine (seq 1 (length knodes)) (map snd knodes), combine (seq 1 (length kels)) (map (fun e => map new_label (snd e)) kels), fold_left (keep_phase P emap) phs []) in
      match disps with
      | None => Ok (r, None)
      | Some ds => rbind (rfold (map_disp D nmap) ds []) (fun ds1 => Ok (r, Some ds1))
      end.
  Proof.
    unfold remove_elements. change (keep_elem removed) with (@keep_step (list nat) removed). rewrite (keep_closed removed els Hels). fold kels.
    replace (concat (map snd (combine (seq 1 (length kels)) (map snd kels)))) with (concat (map snd kels)).
    2:{ f_equal. clear. generalize 1. induction kels as [|e l IH]; intros s; cbn; [reflexivity|]. now rewrite <- IH. }
    fold gone. destruct (existsb _ gone); [reflexivity|]. change (keep_node C gone) with (@keep_step C gone). rewrite (keep_closed gone coords Hcoords).
    fold knodes. fold nmap. fold emap. rewrite relabel_ok. cbn [rbind]. destruct disps; reflexivity.
  Qed.
  Lemma conflict_iff : existsb (fun x => match boundary with Some b => memb x b | None => false end) gone = true <-> boundary_conflict.
  Proof.
    rewrite existsb_exists. unfold boundary_conflict. split.
    - intros [x [Hx Hb]]. destruct boundary as [b|]; [|discriminate]. apply memb_in in Hb. apply gone_iff in Hx. eauto.
    - intros [b [x [-> [Hb Hl]]]]. exists x. split; [now apply gone_iff|now apply memb_in].
  Qed.

  (** C40: a boundary node that would disappear is an error, and without
      displacements this is the only error *)
  Theorem remove_error_iff : (forall e, In e removed -> In e (map fst els)) ->
    (boundary_conflict -> remove_elements C D P removed coords els phs disps boundary = Err RuntimeError) /\
    (~ boundary_conflict -> disps = None -> exists r, remove_elements C D P removed coords els phs disps boundary = Ok r) /\
    (~ boundary_conflict -> remove_elements C D P removed coords els phs disps boundary <> Err RuntimeError).
  Proof.
    intros Hr. rewrite remove_form. pose proof conflict_iff as CI. destruct (existsb _ gone).
    - assert (B : boundary_conflict) by now apply CI. split; [|split; intros; contradiction]. intros _.
      rewrite (proj2 (forallb_forall _ _)); [reflexivity|]. intros e He. apply memb_in. now apply Hr.
    - split; [intros B; apply CI in B; discriminate|]. split.
      + intros _ ->. cbv zeta. eauto.
      + intros _. cbv zeta. destruct disps as [ds|]; [|discriminate]. clear. generalize (@nil (nat * D)). induction ds as [|d ds IH]; intros acc; cbn [rfold]; [discriminate|].
        unfold map_disp, glookup. destruct (gget Nat.eqb nmap (fst d)); [apply IH|discriminate].
  Qed.
  (** C40: the result *)
  Theorem remove_result : forall coords' els' phs' disps',
    remove_elements C D P removed coords els phs disps boundary = Ok (coords', els', phs', disps') ->
    let remaining := filter (fun e => negb (memb (fst e) removed)) els in
    (* consecutive labels *)
    map fst coords' = seq 1 (length coords') /\ map fst els' = seq 1 (length remaining) /\
    exists f : nat -> nat,
      (* one new label for each node that is not lost, and no other *)
      (forall x y, In x (map fst coords) -> ~ lost x -> In y (map fst coords) -> ~ lost y -> f x = f y -> x = y) /\
      (forall l, In l (map fst coords') <-> exists x, In x (map fst coords) /\ ~ lost x /\ f x = l) /\
      (* nodes keep their coordinates *)
      (forall x, In x (map fst coords) -> ~ lost x -> gget Nat.eqb coords' (f x) = gget Nat.eqb coords x) /\
      (* elements keep their order, their nodes and their phase *)
      (forall j e nodes, nth_error remaining j = Some (e, nodes) ->
        gget Nat.eqb els' (S j) = Some (map f nodes) /\ gget Nat.eqb phs' (S j) = gget Nat.eqb phs e /\
        forall x, In x nodes -> In x (map fst coords) /\ ~ lost x).
  Proof.
    intros coords' els' phs' disps' H. cbv zeta. rewrite remove_form in H. destruct (existsb _ gone); [destruct (forallb _ removed); discriminate|]. cbv zeta in H.
    assert (E : coords' = combine (seq 1 (length knodes)) (map snd knodes) /\ els' = combine (seq 1 (length kels)) (map (fun e => map new_label (snd e)) kels) /\
                phs' = fold_left (keep_phase P emap) phs []).
    { destruct disps as [ds|]; [destruct (rfold (map_disp D nmap) ds []); cbn [rbind] in H; [|discriminate]|]; injection H as <- <- <- _; auto. }
    destruct E as [-> [-> ->]]. clear H. fold (kept removed els). fold kels.
    assert (Lab : forall j d, j < length knodes -> new_label (fst (nth j knodes d)) = S j).
    { intros j d Hj. unfold new_label, nmap. now rewrite (map_nth_label knodes j d knodes_keys Hj). }
    assert (Find : forall x, In x (map fst coords) -> ~ lost x -> exists j c, j < length knodes /\ nth j knodes (x, c) = (x, c) /\ gget Nat.eqb coords x = Some c).
    { intros x Hx Hl. assert (Hin : In x (map fst knodes)) by now apply in_knodes. apply in_map_iff in Hin as [[x' c] [E Hin]]. cbn in E. subst x'.
      destruct (In_nth _ _ (x, c) Hin) as [j [Hj Ej]]. exists j, c. split; [exact Hj|]. split; [exact Ej|].
      apply in_gget; [apply Nat.eqb_eq|exact Hcoords|]. unfold knodes, kept in Hin. now apply filter_In in Hin. }
    split; [|split].
    - rewrite combine_length, seq_length, map_length, Nat.min_id. now apply keys_combine_len, map_length.
    - apply keys_combine_len. apply map_length.
    - exists new_label. split; [|split; [|split]].
      + intros x y Hx Lx Hy Ly E. destruct (Find x Hx Lx) as [i [c [Hi [Ei _]]]]. destruct (Find y Hy Ly) as [j [c' [Hj [Ej _]]]].
        pose proof (Lab i (x, c) Hi) as L1. rewrite Ei in L1. pose proof (Lab j (y, c') Hj) as L2. rewrite Ej in L2. cbn [fst] in L1, L2.
        assert (i = j) by lia. subst j. rewrite (nth_indep _ (y, c') (x, c) Hi), Ei in Ej. congruence.
      + intros l. rewrite keys_combine_len by apply map_length. rewrite in_seq. split.
        * intros Hl. assert (Hj : l - 1 < length knodes) by lia. destruct (nth_error knodes (l - 1)) as [e|] eqn:En; [|apply nth_error_None in En; lia].
          exists (fst e). pose proof (nth_error_In _ _ En) as Hin. apply (in_map fst) in Hin. apply in_knodes in Hin as [H1 H2].
          split; [exact H1|]. split; [exact H2|]. rewrite <- (nth_error_nth _ _ e En). rewrite Lab by exact Hj. lia.
        * intros [x [Hx [Lx <-]]]. destruct (Find x Hx Lx) as [i [c [Hi [Ei _]]]]. pose proof (Lab i (x, c) Hi) as L1. rewrite Ei in L1. cbn [fst] in L1. lia.
      + intros x Hx Lx. destruct (Find x Hx Lx) as [i [c [Hi [Ei ->]]]]. pose proof (Lab i (x, c) Hi) as L1. rewrite Ei in L1. cbn [fst] in L1. rewrite L1.
        replace (length knodes) with (length (map snd knodes)) by apply map_length.
        rewrite (gget_combine_seq _ _ (snd (x, c))) by (now rewrite map_length). now rewrite map_nth, Ei.
      + intros j e nodes Hj. assert (Lj : j < length kels) by (apply nth_error_Some; congruence). split; [|split].
        * replace (length kels) with (length (map (fun e => map new_label (snd e)) kels)) by apply map_length.
          rewrite (gget_combine_seq _ _ (map new_label (snd (e, nodes)))) by (now rewrite map_length).
          rewrite (map_nth (fun e => map new_label (snd e))). now rewrite (nth_error_nth _ _ _ Hj).
        * rewrite phases_kept. now rewrite Hj.
        * intros x Hx. apply (kept_nodes_ok e nodes); [now apply nth_error_In in Hj|exact Hx].
  Qed.
  (** C40: displacements follow their nodes; a displacement of a lost node is a KeyError *)
  Theorem remove_displacements : forall ds, disps = Some ds -> ~ boundary_conflict -> NoDup (map fst ds) -> (forall x, In x (map fst ds) -> In x (map fst coords)) ->
    (forall x, In x (map fst ds) -> lost x -> remove_elements C D P removed coords els phs disps boundary = Err KeyError) /\
    ((forall x, In x (map fst ds) -> ~ lost x) -> exists coords' els' phs' ds',
      remove_elements C D P removed coords els phs disps boundary = Ok (coords', els', phs', Some ds') /\
      length ds' = length ds /\ Forall2 (fun d d' => snd d' = snd d /\ gget Nat.eqb coords' (fst d') = gget Nat.eqb coords (fst d)) ds ds').
  Proof.
    intros ds Ed Hb Hn Hin. assert (X : existsb (fun x => match boundary with Some b => memb x b | None => false end) gone = false).
    { destruct (existsb _ gone) eqn:E; [|reflexivity]. apply conflict_iff in E. contradiction. }
    split.
    - intros x Hx Hl. rewrite remove_form, X, Ed. cbv zeta. assert (F : rfold (map_disp D nmap) ds [] = Err KeyError); [|now rewrite F].
      generalize (@nil (nat * D)). clear Hn Ed. induction ds as [|d ds IH]; intros acc; [destruct Hx|]. cbn [rfold]. unfold map_disp at 1, glookup.
      destruct (gget Nat.eqb nmap (fst d)) as [k|] eqn:E; [|reflexivity]. cbn [rbind]. destruct Hx as [Hx|Hx].
      + rewrite Hx, nmap_none in E by (now left). discriminate.
      + apply IH; [intros y Hy; apply Hin; now right|exact Hx].
    - intros Hl. assert (F : rfold (map_disp D nmap) ds [] = Ok (map (fun d => (new_label (fst d), snd d)) ds)).
      { assert (Inj : forall x y, In x (map fst coords) -> ~ lost x -> In y (map fst coords) -> ~ lost y -> new_label x = new_label y -> x = y).
        { intros x y Hx Lx Hy Ly E. pose proof (nmap_some x Hx Lx) as Ex. pose proof (nmap_some y Hy Ly) as Ey. rewrite <- E in Ey.
          destruct (proj1 (in_map_iff _ _ _) Hx) as [dc _]. destruct (map_label_inv knodes x _ dc Ex) as [i [_ [Ei Xi]]]. destruct (map_label_inv knodes y _ dc Ey) as [j [_ [Ej Yj]]].
          assert (i = j) by lia. congruence. }
        assert (G : forall l acc, NoDup (map fst (acc ++ l)) -> (forall x, In x (map fst (acc ++ l)) -> In x (map fst ds)) ->
          rfold (map_disp D nmap) l (map (fun d => (new_label (fst d), snd d)) acc) = Ok (map (fun d => (new_label (fst d), snd d)) (acc ++ l))).
        { induction l as [|d l IH]; intros acc Hn' Hsub; cbn [rfold]; [now rewrite app_nil_r|]. unfold map_disp at 1, glookup.
          assert (Hd : In (fst d) (map fst ds)) by (apply Hsub; rewrite map_app, in_app_iff; right; now left).
          rewrite nmap_some by auto. cbn [rbind]. rewrite gset_fresh.
          - specialize (IH (acc ++ [d])). rewrite <- app_assoc in IH. cbn [app] in IH. specialize (IH Hn' Hsub). rewrite map_app in IH at 1. exact IH.
          - rewrite map_map. cbn [fst]. intros Hc. apply in_map_iff in Hc as [d' [E Hd']].
            assert (Hd'' : In (fst d') (map fst ds)) by (apply Hsub; rewrite map_app, in_app_iff; left; now apply in_map).
            apply Inj in E; auto. rewrite map_app in Hn'. cbn in Hn'. apply NoDup_remove_2 in Hn'. apply Hn'. rewrite in_app_iff. left. rewrite <- E. now apply in_map. }
        exact (G ds [] Hn (fun x Hx => Hx)). }
      assert (R : exists coords' els' phs', remove_elements C D P removed coords els phs disps boundary = Ok (coords', els', phs', Some (map (fun d => (new_label (fst d), snd d)) ds)) /\
                   coords' = combine (seq 1 (length knodes)) (map snd knodes)).
      { rewrite remove_form, X, Ed, F. cbv zeta. cbn [rbind]. eauto. }
      destruct R as [c' [e' [p' [R Ec]]]]. exists c', e', p', (map (fun d => (new_label (fst d), snd d)) ds). split; [exact R|]. split; [apply map_length|].
      assert (K : forall x, In x (map fst ds) -> gget Nat.eqb c' (new_label x) = gget Nat.eqb coords x).
      { intros x Hx. specialize (Hin x Hx). specialize (Hl x Hx). pose proof (nmap_some x Hin Hl) as Ex.
        destruct (proj1 (in_map_iff _ _ _) Hin) as [dc _]. destruct (map_label_inv knodes x _ dc Ex) as [i [Hi [Ei Xi]]]. rewrite Ec, Ei.
        replace (length knodes) with (length (map snd knodes)) by apply map_length. rewrite (gget_combine_seq _ _ (snd dc)) by (now rewrite map_length). rewrite map_nth.
        symmetry. apply in_gget; [apply Nat.eqb_eq|exact Hcoords|]. rewrite <- Xi. assert (Hk : In (nth i knodes dc) knodes) by now apply nth_In.
        destruct (nth i knodes dc) as [u v] eqn:En. cbn [fst snd]. unfold knodes, kept in Hk. now apply filter_In in Hk. }
      clear - K. induction ds as [|d ds IH]; cbn [map]; constructor; [cbn [fst snd]; split; [reflexivity|apply K; now left]|].
      apply IH. intros x Hx. apply K. now right.
  Qed.
End Remove.

(** non-vacuity: three elements in a row, the middle one removed *)
Example remove_middle :
  remove_elements nat nat nat [2] [(1, 10); (2, 20); (3, 30); (4, 40); (5, 50)] [(1, [1; 2]); (2, [2; 3; 4]); (3, [4; 5])] [(1, 7); (2, 8); (3, 9)] (Some [(5, 1)]) (Some [1; 5]) =
  Ok ([(1, 10); (2, 20); (3, 40); (4, 50)], [(1, [1; 2]); (2, [3; 4])], [(1, 7); (2, 9)], Some [(4, 1)]).
Proof. reflexivity. Qed.
Example remove_boundary :
  remove_elements nat nat nat [3] [(1, 10); (2, 20); (3, 30); (4, 40); (5, 50)] [(1, [1; 2]); (2, [2; 3; 4]); (3, [4; 5])] [(1, 7); (2, 8); (3, 9)] None (Some [1; 5]) = Err RuntimeError.
Proof. reflexivity. Qed.

Print Assumptions remove_result.
Print Assumptions remove_displacements.
