(** Regular patch mesh: numbering, coordinates, connectivities and boundary. *)
From Coq Require Import Reals List Arith Bool Lia Lra.
From Verif Require Import Lib PyDict RegularMeshModel.
Import ListNotations.
Local Open Scope list_scope.

(** ** Vocabulary *)
Definition inside (dims idx : list nat) : Prop := Forall2 (fun d i => i < d) dims idx.
Definition prod (l : list nat) : nat := fold_right Nat.mul 1 l.

Lemma pos_eqb_spec : forall a b, pos_eqb a b = true <-> a = b.
Proof.
  induction a as [|x a IH]; intros [|y b]; cbn; try (split; congruence).
  rewrite andb_true_iff, Nat.eqb_eq, IH. split; [intros [-> ->]; auto|intros [= -> ->]; auto].
Qed.
Lemma grid_of_in : forall rs idx, In idx (grid_of rs) <-> Forall2 (fun r i => In i r) rs idx.
Proof.
  induction rs as [|r rs IH]; intros idx; cbn.
  - split; [intros [<-|[]]; constructor|]. inversion 1. auto.
  - rewrite in_flat_map. split.
    + intros [t [Ht Hi]]. apply in_map_iff in Hi as [i [<- Hi]]. constructor; [exact Hi|now apply IH].
    + inversion 1 as [|? i ? t Hi Ht]; subst. exists t. split; [now apply IH|]. apply in_map_iff. eauto.
Qed.
Lemma grid_is_grid_of : forall dims, grid dims = grid_of (map (seq 0) dims).
Proof. induction dims as [|d ds IH]; cbn; [reflexivity|]. now rewrite IH. Qed.
Lemma grid_in : forall dims idx, In idx (grid dims) <-> inside dims idx.
Proof.
  intros dims idx. rewrite grid_is_grid_of, grid_of_in. unfold inside. revert idx.
  induction dims as [|d ds IH]; intros idx; cbn.
  - split; inversion 1; constructor.
  - split; inversion 1; subst; constructor; try (apply in_seq); try (match goal with H : In _ (seq _ _) |- _ => apply in_seq in H end); try lia; now apply IH.
Qed.
Lemma nodup_app_disj : forall {A} (a b : list A), NoDup a -> NoDup b -> (forall x, In x a -> In x b -> False) -> NoDup (a ++ b).
Proof.
  induction a as [|x a IH]; intros b Ha Hb H; [exact Hb|]. inversion_clear Ha. cbn. constructor.
  - rewrite in_app_iff. intros [?|?]; [contradiction|]. apply (H x); [now left|assumption].
  - apply IH; auto. intros y Hy. apply H. now right.
Qed.
Lemma grid_of_nodup : forall rs, Forall (@NoDup nat) rs -> NoDup (grid_of rs).
Proof.
  induction rs as [|r rs IH]; intros H; cbn; [constructor; [intros []|constructor]|]. inversion_clear H as [|? ? Hr Hrs].
  specialize (IH Hrs). induction (grid_of rs) as [|t g IHg]; cbn; [constructor|]. inversion_clear IH as [|? ? Ht Hg].
  apply nodup_app_disj; [|now apply IHg|].
  - apply FinFun.Injective_map_NoDup; [intros x y [= ->]; reflexivity|exact Hr].
  - intros x Hx Hy. apply in_map_iff in Hx as [i [<- _]]. apply in_flat_map in Hy as [t' [Ht' Hy]]. apply in_map_iff in Hy as [j [[= _ ->] _]]. contradiction.
Qed.
Lemma grid_nodup : forall dims, NoDup (grid dims).
Proof.
  intros. rewrite grid_is_grid_of. apply grid_of_nodup. apply Forall_forall. intros l Hl. apply in_map_iff in Hl as [d [<- _]]. apply seq_NoDup.
Qed.
Lemma grid_of_length : forall rs, length (grid_of rs) = prod (map (@length nat) rs).
Proof.
  induction rs as [|r rs IH]; cbn; [reflexivity|]. fold (prod (map (@length nat) rs)). rewrite <- IH. clear.
  induction (grid_of rs) as [|t g IHg]; cbn; [lia|]. rewrite app_length, map_length, IHg. lia.
Qed.
Lemma grid_length : forall dims, length (grid dims) = prod dims.
Proof.
  intros. rewrite grid_is_grid_of, grid_of_length, map_map. f_equal. rewrite (map_ext _ (fun x => x)); [apply map_id|]. intros. apply seq_length.
Qed.

Lemma gset_fresh : forall {V} (d : list (nat * V)) k v, ~ In k (map fst d) -> gset Nat.eqb d k v = d ++ [(k, v)].
Proof.
  intros V d k v. induction d as [|[k' v'] d IH]; cbn; intros H; [reflexivity|].
  destruct (Nat.eqb k k') eqn:E; [apply Nat.eqb_eq in E; subst; tauto|]. rewrite IH by tauto. reflexivity.
Qed.
Lemma combine_seq_app : forall {A} (l : list A) x k, combine (seq k (length l)) l ++ [(k + length l, x)] = combine (seq k (length (l ++ [x]))) (l ++ [x]).
Proof.
  intros A. induction l as [|y l IH]; intros x k; cbn [length app].
  - cbn. now rewrite Nat.add_0_r.
  - cbn [seq combine app]. f_equal. replace (k + S (length l)) with (S k + length l) by lia. apply IH.
Qed.
Lemma keys_combine_seq : forall {A} (l : list A) k, map fst (combine (seq k (length l)) l) = seq k (length l).
Proof. intros A. induction l as [|y l IH]; intros k; cbn; [reflexivity|]. now rewrite IH. Qed.
Lemma keys_combine_len : forall {A} (l : list A) k n, length l = n -> map fst (combine (seq k n) l) = seq k n.
Proof. intros A l k n <-. apply keys_combine_seq. Qed.
Lemma number_from_combine : forall {A} (l acc : list A),
  number_from (1 + length acc) l (combine (seq 1 (length acc)) acc) = combine (seq 1 (length (acc ++ l))) (acc ++ l).
Proof.
  intros A. induction l as [|x l IH]; intros acc; [now rewrite app_nil_r|]. cbn [number_from].
  rewrite gset_fresh by (rewrite keys_combine_seq; rewrite in_seq; lia).
  rewrite combine_seq_app. replace (S (1 + length acc)) with (1 + length (acc ++ [x])) by (rewrite app_length; cbn; lia).
  rewrite IH. now rewrite <- app_assoc.
Qed.
Lemma number_from_1 : forall {A} (l : list A), number_from 1 l [] = combine (seq 1 (length l)) l.
Proof. intros. exact (number_from_combine l []). Qed.
Lemma gget_combine_seq : forall {A} (l : list A) k d, k < length l -> gget Nat.eqb (combine (seq 1 (length l)) l) (S k) = Some (nth k l d).
Proof.
  intros A l k d. assert (G : forall s, k < length l -> gget Nat.eqb (combine (seq s (length l)) l) (s + k) = Some (nth k l d)).
  { revert k. induction l as [|x l IH]; intros k s Hk; cbn in Hk; [lia|]. cbn [length seq combine gget]. destruct k as [|k].
    - now rewrite Nat.add_0_r, Nat.eqb_refl.
    - rewrite (proj2 (Nat.eqb_neq _ _)) by lia. replace (s + S k) with (S s + k) by lia. apply IH. lia. }
  exact (G 1).
Qed.

(** ** Local indices *)
Definition wf_elem (el : elem_type) : Prop :=
  2 <= et_edge el /\ NoDup (et_table el) /\
  (forall l, In l (et_table el) -> length l = et_dim el /\ Forall (fun i => i <= et_edge el - 1) l) /\
  (forall l l', In l (et_table el) -> Forall2 (fun a b => a = b \/ (a = 0 /\ b = et_edge el - 1)) l l' -> In l' (et_table el)).

Fixpoint variants (m : nat) (l : list nat) : list (list nat) :=
  match l with
  | [] => [[]]
  | a :: t => flat_map (fun v => if Nat.eqb a 0 then [0 :: v; m :: v] else [a :: v]) (variants m t)
  end.
Lemma variants_complete : forall m l l', Forall2 (fun a b => a = b \/ (a = 0 /\ b = m)) l l' -> In l' (variants m l).
Proof.
  intros m l l' H. induction H as [|a b l l' Hab H IH]; cbn; [auto|]. apply in_flat_map. exists l'. split; [exact IH|].
  destruct Hab as [-> | [-> ->]].
  - destruct (Nat.eqb b 0) eqn:E; [apply Nat.eqb_eq in E; subst; now left|now left].
  - cbn. auto.
Qed.
Definition check_elem (el : elem_type) : bool :=
  Nat.leb 2 (et_edge el) &&
  forallb (fun l => Nat.eqb (length l) (et_dim el) && forallb (fun i => Nat.leb i (et_edge el - 1)) l) (et_table el) &&
  forallb (fun l => forallb (has_node el) (variants (et_edge el - 1) l)) (et_table el).
Fixpoint nodupb (l : list (list nat)) : bool :=
  match l with [] => true | x :: t => negb (existsb (pos_eqb x) t) && nodupb t end.
Lemma nodupb_ok : forall l, nodupb l = true -> NoDup l.
Proof.
  induction l as [|x l IH]; cbn; intros H; [constructor|]. apply andb_true_iff in H as [H1 H2]. constructor; [|auto].
  intros Hin. apply negb_true_iff in H1. assert (existsb (pos_eqb x) l = true); [|congruence]. apply existsb_exists. exists x. split; [exact Hin|now apply pos_eqb_spec].
Qed.
Lemma has_node_in : forall el l, has_node el l = true <-> In l (et_table el).
Proof.
  intros el l. unfold has_node. rewrite existsb_exists. split; [intros [x [Hx E]]; apply pos_eqb_spec in E; now subst|].
  intros H. exists l. split; [exact H|now apply pos_eqb_spec].
Qed.
Lemma wf_elem_types : forall el, In el elem_types -> wf_elem el.
Proof.
  assert (G : forall el, check_elem el = true -> nodupb (et_table el) = true -> wf_elem el).
  { intros el H Hn. unfold check_elem in H. apply andb_true_iff in H as [H H3]. apply andb_true_iff in H as [H1 H2]. apply Nat.leb_le in H1.
    rewrite forallb_forall in H2, H3. split; [exact H1|]. split; [now apply nodupb_ok|]. split.
    - intros l Hl. specialize (H2 l Hl). apply andb_true_iff in H2 as [Ha Hb]. apply Nat.eqb_eq in Ha. split; [exact Ha|].
      apply Forall_forall. intros i Hi. rewrite forallb_forall in Hb. apply Nat.leb_le. now apply Hb.
    - intros l l' Hl Hv. specialize (H3 l Hl). rewrite forallb_forall in H3. apply has_node_in. apply H3. now apply variants_complete. }
  intros el H. cbn in H. repeat (destruct H as [<-|H]; [apply G; reflexivity|]). destruct H.
Qed.

Lemma edge_nodes_eq : forall ne n, 2 <= ne -> 1 <= n -> edge_nodes ne n = n * (ne - 1) + 1.
Proof. intros ne n H1 H2. unfold edge_nodes. rewrite Nat.mul_sub_distr_l. assert (n <= n * ne) by nia. lia. Qed.
Lemma ceil_mul : forall g n m, 1 <= n -> 1 <= m -> ceil_div (g * n) (n * m) = ceil_div g m.
Proof.
  intros g n m Hn Hm. unfold ceil_div.
  (* both are the least q with g <= q*m *)
  apply Nat.le_antisymm.
  - apply Nat.lt_succ_r. apply Nat.div_lt_upper_bound; [nia|].
    assert (g <= (g + (m - 1)) / m * m).
    { pose proof (Nat.div_mod_eq (g + (m - 1)) m). pose proof (Nat.mod_upper_bound (g + (m - 1)) m ltac:(lia)). nia. }
    set (q := (g + (m - 1)) / m) in *. nia.
  - apply Nat.lt_succ_r. apply Nat.div_lt_upper_bound; [lia|].
    assert (g * n <= (g * n + (n * m - 1)) / (n * m) * (n * m)).
    { pose proof (Nat.div_mod_eq (g * n + (n * m - 1)) (n * m)). pose proof (Nat.mod_upper_bound (g * n + (n * m - 1)) (n * m) ltac:(nia)). nia. }
    set (q := (g * n + (n * m - 1)) / (n * m)) in *. assert (g <= q * m) by nia. nia.
Qed.
(** the local index of a position given by an element q and an offset r in it *)
Lemma local_index1_spec : forall ne n q r, 2 <= ne -> 1 <= n -> r <= ne - 1 ->
  let l := local_index1 ne n (q * (ne - 1) + r) in r = l \/ (r = 0 /\ l = ne - 1).
Proof.
  intros ne n q r Hne Hn Hr. unfold local_index1. cbv zeta. rewrite edge_nodes_eq by assumption.
  rewrite Nat.add_sub. set (m := ne - 1) in *. assert (Hm : 1 <= m) by (unfold m; lia).
  rewrite ceil_mul by assumption.
  assert (Ee : forall e, (e - 1) * ne - (e - 1) = (e - 1) * m) by (intros e; unfold m; rewrite Nat.mul_sub_distr_l; lia).
  rewrite Ee. unfold ceil_div.
  destruct (Nat.eq_dec r 0) as [->|Hr0].
  - rewrite Nat.add_0_r. destruct q as [|q].
    + left. cbn [Nat.mul Nat.add]. rewrite Nat.div_small by lia. cbn. lia.
    + right. split; [reflexivity|].
      assert (E : (S q * m + (m - 1)) / m = S q) by (rewrite Nat.div_add_l, Nat.div_small by lia; lia).
      rewrite E. rewrite Nat.max_r by lia. replace (S q - 1) with q by lia. lia.
  - left. assert (E : (q * m + r + (m - 1)) / m = S q).
    { replace (q * m + r + (m - 1)) with (S q * m + (r - 1)) by (cbn; lia). rewrite Nat.div_add_l, Nat.div_small by lia. lia. }
    rewrite E, Nat.max_r by lia. replace (S q - 1) with q by lia. lia.
Qed.
Lemma local_index1_decomp : forall ne n g, 2 <= ne -> 1 <= n -> g < edge_nodes ne n ->
  exists q, q < n /\ g = q * (ne - 1) + local_index1 ne n g /\ local_index1 ne n g <= ne - 1.
Proof.
  intros ne n g Hne Hn Hg. rewrite edge_nodes_eq in Hg by assumption. set (m := ne - 1) in *. assert (Hm : 1 <= m) by (unfold m; lia).
  destruct (Nat.eq_dec g 0) as [->|Hg0].
  - exists 0. pose proof (local_index1_spec ne n 0 0 Hne Hn ltac:(lia)) as H. cbn in H.
    unfold local_index1. cbn [Nat.mul]. unfold ceil_div. rewrite edge_nodes_eq by assumption.
    rewrite Nat.add_sub. rewrite Nat.add_0_l. rewrite (Nat.div_small) by (fold m; nia). cbn. lia.
  - exists ((g - 1) / m). pose proof (Nat.div_mod_eq (g - 1) m) as E. pose proof (Nat.mod_upper_bound (g - 1) m ltac:(lia)) as B.
    set (q := (g - 1) / m) in *. set (r := (g - 1) mod m) in *.
    assert (Eg : g = q * m + S r) by nia.
    assert (Hq : q < n) by nia.
    pose proof (local_index1_spec ne n q (S r) Hne Hn ltac:(fold m; lia)) as H. cbv zeta in H. fold m in H. rewrite <- Eg in H.
    destruct H as [H|[H _]]; [|lia]. rewrite <- H. lia.
Qed.

Lemma local_boundary1 : forall ne n g, 2 <= ne -> 1 <= n -> (g = 0 \/ g = edge_nodes ne n - 1) -> local_index1 ne n g = 0 \/ local_index1 ne n g = ne - 1.
Proof.
  intros ne n g H2 Hn [-> | ->].
  - pose proof (local_index1_spec ne n 0 0 H2 Hn ltac:(lia)) as H. cbn in H. destruct H as [H|[_ H]]; [left; symmetry; exact H|right; exact H].
  - right. rewrite edge_nodes_eq by assumption. replace (n * (ne - 1) + 1 - 1) with ((n - 1) * (ne - 1) + (ne - 1)) by nia.
    pose proof (local_index1_spec ne n (n - 1) (ne - 1) H2 Hn ltac:(lia)) as H. cbv zeta in H. destruct H as [H|[H _]]; [symmetry; exact H|lia].
Qed.

Lemma edges_have_nodes : forall el, In el elem_types -> et_dim el = 2 ->
  forallb (fun a => forallb (fun b => implb (Nat.eqb a 0 || Nat.eqb a (et_edge el - 1) || Nat.eqb b 0 || Nat.eqb b (et_edge el - 1)) (has_node el [a; b]))
    (seq 0 (et_edge el))) (seq 0 (et_edge el)) = true.
Proof.
  intros el H E2. cbn in H. repeat (destruct H as [<-|H]; [first [discriminate E2|reflexivity]|]). destruct H.
Qed.

(** ** The numbering *)
Section Mesh.
  Variable el : elem_type.
  Variable ns : list nat.
  Variable dims : list R.
  Hypothesis Hel : In el elem_types.
  Hypothesis Hlen : length ns = et_dim el.
  Hypothesis Hns : Forall (fun n => 1 <= n) ns.
  Let ne := et_edge el.
  Let gdims := map (edge_nodes ne) ns.
  Let mesh := gen_mesh el ns dims.
  Let exists_at (idx : list nat) : bool := has_node el (local_index ne ns idx).
  Let positions := filter exists_at (grid gdims).

  Lemma mesh_closed_form :
    m_matrix mesh = combine positions (seq 1 (length positions)) /\
    m_coords mesh = combine (seq 1 (length positions)) (map (coords_of ne ns dims) positions) /\
    m_next mesh = S (length positions).
  Proof.
    unfold mesh, gen_mesh, positions. fold ne. fold gdims.
    assert (G : forall l acc,
      let m := fold_left (mesh_step el ns dims) l
        {| m_matrix := combine acc (seq 1 (length acc)); m_coords := combine (seq 1 (length acc)) (map (coords_of ne ns dims) acc); m_next := S (length acc) |} in
      let fin := acc ++ filter exists_at l in
      m_matrix m = combine fin (seq 1 (length fin)) /\
      m_coords m = combine (seq 1 (length fin)) (map (coords_of ne ns dims) fin) /\ m_next m = S (length fin)).
    { induction l as [|x l IH]; intros acc; cbv zeta; [cbn; now rewrite app_nil_r|]. cbn [fold_left filter].
      unfold mesh_step at 2 4 6. cbn [m_matrix m_coords m_next]. fold ne. fold (exists_at x). destruct (exists_at x); [|apply IH].
      specialize (IH (acc ++ [x])). cbv zeta in IH. rewrite <- app_assoc in IH. cbn [app] in IH.
      assert (L : length (acc ++ [x]) = S (length acc)) by (rewrite app_length; cbn; lia).
      assert (E1 : combine (acc ++ [x]) (seq 1 (length (acc ++ [x]))) = combine acc (seq 1 (length acc)) ++ [(x, S (length acc))]).
      { rewrite L. rewrite seq_S. clear. assert (H : forall s, combine (acc ++ [x]) (seq s (length acc) ++ [s + length acc]) = combine acc (seq s (length acc)) ++ [(x, s + length acc)]).
        { induction acc as [|y acc IH]; intros s; cbn; [reflexivity|]. f_equal. replace (s + S (length acc)) with (S s + length acc) by lia. apply IH. }
        exact (H 1). }
      assert (E2 : combine (seq 1 (length (acc ++ [x]))) (map (coords_of ne ns dims) (acc ++ [x])) =
        gset Nat.eqb (combine (seq 1 (length acc)) (map (coords_of ne ns dims) acc)) (S (length acc)) (coords_of ne ns dims x)).
      { rewrite gset_fresh.
        - pose proof (combine_seq_app (map (coords_of ne ns dims) acc) (coords_of ne ns dims x) 1) as Q.
          rewrite app_length, map_length in Q. cbn [length] in Q. rewrite map_app, app_length. cbn [map length].
          change (S (length acc)) with (1 + length acc). symmetry. exact Q.
        - rewrite keys_combine_len by apply map_length. rewrite in_seq. lia. }
      rewrite E1, E2, L in IH. exact IH. }
    exact (G (grid gdims) []).
  Qed.
  Lemma positions_nodup : NoDup positions.
  Proof. unfold positions. apply NoDup_filter, grid_nodup. Qed.

  Lemma gget_positions : forall (l : list (list nat)) idx s, NoDup l ->
    match gget pos_eqb (combine l (seq s (length l))) idx with
    | Some v => s <= v < s + length l /\ nth (v - s) l [] = idx
    | None => ~ In idx l
    end.
  Proof.
    induction l as [|x l IH]; intros idx s Hn; cbn; [tauto|]. inversion_clear Hn as [|? ? Hx Hl]. destruct (pos_eqb idx x) eqn:E.
    - apply pos_eqb_spec in E. subst. split; [lia|]. now rewrite Nat.sub_diag.
    - specialize (IH idx (S s) Hl). assert (idx <> x) by (intros ->; rewrite (proj2 (pos_eqb_spec x x) eq_refl) in E; discriminate).
      destruct (gget pos_eqb (combine l (seq (S s) (length l))) idx) as [v|].
      + destruct IH as [Hb Hv]. split; [lia|]. replace (v - s) with (S (v - S s)) by lia. exact Hv.
      + intros [->|H']; auto.
  Qed.
  Lemma label_nth : forall idx, label_at mesh idx <> 0 <-> In idx positions.
  Proof.
    intros idx. unfold label_at. rewrite (proj1 mesh_closed_form). pose proof (gget_positions positions idx 1 positions_nodup) as H.
    destruct (gget pos_eqb _ idx) as [v|].
    - destruct H as [Hb Hv]. split; [|lia]. intros _. rewrite <- Hv. apply nth_In. lia.
    - split; [lia|tauto].
  Qed.
  Lemma label_value : forall idx, label_at mesh idx <> 0 -> 1 <= label_at mesh idx <= length positions /\ nth (label_at mesh idx - 1) positions [] = idx.
  Proof.
    intros idx. unfold label_at. rewrite (proj1 mesh_closed_form). pose proof (gget_positions positions idx 1 positions_nodup) as H.
    destruct (gget pos_eqb _ idx) as [v|]; [|lia]. destruct H as [Hb Hv]. intros _. split; [lia|exact Hv].
  Qed.
  Lemma nth_label : forall k, k < length positions -> label_at mesh (nth k positions []) = S k.
  Proof.
    intros k Hk. assert (Hin : In (nth k positions []) positions) by now apply nth_In.
    pose proof (proj2 (label_nth _) Hin) as Hne. destruct (label_value _ Hne) as [Hb Hv].
    assert (label_at mesh (nth k positions []) - 1 = k); [|lia].
    apply (proj1 (NoDup_nth positions []) positions_nodup); [lia|exact Hk|exact Hv].
  Qed.

  (** C39: labels are 1, 2, ... without gaps or duplicates, each with a
      coordinates entry; every label stands at exactly one position *)
  Theorem mesh_labels_consecutive : let n := length (m_coords mesh) in
    map fst (m_coords mesh) = seq 1 n /\
    (forall l, 1 <= l <= n -> exists idx, label_at mesh idx = l) /\
    (forall idx, label_at mesh idx <= n) /\
    (forall a b, label_at mesh a = label_at mesh b -> label_at mesh a <> 0 -> a = b).
  Proof.
    cbv zeta. destruct mesh_closed_form as [_ [Ec _]].
    assert (L : length (m_coords mesh) = length positions) by (rewrite Ec, combine_length, seq_length, map_length; lia).
    rewrite L. split; [|split; [|split]].
    - rewrite Ec. apply keys_combine_len, map_length.
    - intros l Hl. exists (nth (l - 1) positions []). rewrite nth_label by lia. lia.
    - intros idx. destruct (Nat.eq_dec (label_at mesh idx) 0) as [E|E]; [lia|]. destruct (label_value idx E). lia.
    - intros a b E Ha. destruct (label_value a Ha) as [_ Na]. destruct (label_value b ltac:(congruence)) as [_ Nb]. congruence.
  Qed.
  (** C39: the coordinates of a node are those of its position *)
  Theorem mesh_coordinates : forall idx, label_at mesh idx <> 0 ->
    gget Nat.eqb (m_coords mesh) (label_at mesh idx) = Some (coords_of ne ns dims idx).
  Proof.
    intros idx H. destruct (label_value idx H) as [Hb Hv]. destruct mesh_closed_form as [_ [Ec _]]. rewrite Ec.
    replace (label_at mesh idx) with (S (label_at mesh idx - 1)) by lia.
    replace (length positions) with (length (map (coords_of ne ns dims) positions)) by apply map_length.
    rewrite (gget_combine_seq _ _ (coords_of ne ns dims [])) by (rewrite map_length; lia). now rewrite map_nth, Hv.
  Qed.
  Lemma positions_inside : forall idx, label_at mesh idx <> 0 -> inside gdims idx.
  Proof. intros idx H. apply label_nth in H. unfold positions in H. apply filter_In in H as [H _]. now apply grid_in. Qed.

  (** ** Coordinates *)
  Hypothesis Hdims : length dims = length ns.
  Hypothesis Hpos : Forall (fun d => 0 < d)%R dims.
  Lemma ne2 : 2 <= ne.
  Proof. now destruct (wf_elem_types el Hel). Qed.
  Lemma step_pos : forall n d, 1 <= n -> (0 < d)%R -> (0 < coord_step ne n d)%R.
  Proof.
    intros n d Hn Hd. unfold coord_step. apply Rmult_lt_0_compat; [exact Hd|]. apply Rinv_0_lt_compat, lt_0_INR. pose proof ne2. nia.
  Qed.
  Lemma coords_inj : forall ks ds a b, length ds = length ks -> Forall (fun n => 1 <= n) ks -> Forall (fun d => 0 < d)%R ds ->
    length a = length ks -> length b = length ks -> coords_of ne ks ds a = coords_of ne ks ds b -> a = b.
  Proof.
    induction ks as [|n ks IH]; intros [|d ds] [|x a] [|y b] L Hn Hd La Lb E; try discriminate; [reflexivity|].
    cbn in E. injection E as E1 E2. inversion_clear Hn. inversion_clear Hd. f_equal.
    - pose proof (step_pos n d ltac:(assumption) ltac:(assumption)) as S. apply INR_eq. apply (Rmult_eq_reg_r (coord_step ne n d)); [exact E1|]. lra.
    - apply (IH ds); auto.
  Qed.
  (** C39: distinct nodes have distinct coordinates *)
  Theorem mesh_coordinates_distinct : forall l l' c, gget Nat.eqb (m_coords mesh) l = Some c -> gget Nat.eqb (m_coords mesh) l' = Some c -> l = l'.
  Proof.
    intros l l' c H H'. destruct mesh_labels_consecutive as [K [Ex _]].
    assert (Hin : forall k v, gget Nat.eqb (m_coords mesh) k = Some v -> exists idx, label_at mesh idx = k /\ k <> 0).
    { intros k v Hk. apply gget_in in Hk; [|apply Nat.eqb_eq]. apply (in_map fst) in Hk. cbn in Hk. rewrite K in Hk. apply in_seq in Hk.
      destruct (Ex k ltac:(lia)) as [idx Hi]. exists idx. split; [exact Hi|lia]. }
    destruct (Hin _ _ H) as [a [Ha Na]]. destruct (Hin _ _ H') as [b [Hb Nb]]. subst l l'.
    rewrite mesh_coordinates in H, H' by assumption. injection H as H. injection H' as H'. f_equal.
    assert (La : forall idx, label_at mesh idx <> 0 -> length idx = length ns).
    { intros idx Hi. apply positions_inside in Hi. unfold inside in Hi. clear - Hi. unfold gdims in Hi. revert idx Hi. induction ns; intros idx Hi; inversion Hi; subst; cbn; auto. }
    apply (coords_inj ns dims); auto. congruence.
  Qed.
  (** C39: the mesh spans the patch *)
  Theorem mesh_spans_patch : coords_of ne ns dims (map (fun n => edge_nodes ne n - 1) ns) = dims /\
    forall idx, inside gdims idx -> Forall2 (fun c d => 0 <= c <= d)%R (coords_of ne ns dims idx) dims.
  Proof.
    unfold gdims. pose proof ne2 as H2. clear - Hdims Hns Hpos H2. revert dims Hdims Hpos. induction ns as [|n ks IH]; intros [|d ds] Hd Hp; try discriminate.
    - split; [reflexivity|]. inversion 1. constructor.
    - inversion_clear Hns as [|? ? Hn Hns']. inversion_clear Hp as [|? ? Hd0 Hp']. destruct (IH Hns' ds ltac:(cbn in Hd; lia) Hp') as [E F].
      assert (Hs : (INR (edge_nodes ne n - 1) * coord_step ne n d = d)%R).
      { rewrite edge_nodes_eq by assumption. rewrite Nat.add_sub. unfold coord_step. field. apply not_0_INR. nia. }
      split.
      + cbn. rewrite Hs. f_equal. exact E.
      + intros idx Hi. cbn in Hi. inversion Hi as [|? i ? t Hlt Ht]; subst. cbn. constructor; [|now apply F].
        assert (Hst : (0 < coord_step ne n d)%R).
        { unfold coord_step. apply Rmult_lt_0_compat; [exact Hd0|]. apply Rinv_0_lt_compat, lt_0_INR. nia. }
        split; [apply Rmult_le_pos; [apply pos_INR|lra]|]. rewrite <- Hs at 2. apply Rmult_le_compat_r; [lra|]. apply le_INR. lia.
  Qed.

  (** ** Connectivities *)
  Definition origin (q : list nat) : list nat := map (fun k => k * (ne - 1)) q.
  Lemma origins_eq : origins el ns = map origin (grid ns).
  Proof.
    unfold origins. fold ne. rewrite grid_is_grid_of. pose proof ne2 as H2. clear - Hns H2.
    induction ns as [|n ks IH]; [reflexivity|]. inversion_clear Hns as [|? ? Hn Hns']. cbn [map grid_of]. rewrite (IH Hns').
    assert (Er : py_range (edge_nodes ne n - ne + 1) (ne - 1) = map (fun k => k * (ne - 1)) (seq 0 n)).
    { unfold py_range. rewrite edge_nodes_eq by assumption. f_equal. f_equal. unfold ceil_div.
      replace (n * (ne - 1) + 1 - ne + 1 + (ne - 1 - 1)) with (n * (ne - 1) + 0) by nia. rewrite Nat.add_0_r, Nat.div_mul by lia. reflexivity. }
    rewrite Er. clear. induction (grid_of (map (seq 0) ks)) as [|t g IHg]; [reflexivity|]. cbn [map flat_map]. rewrite IHg, map_app. f_equal.
    rewrite !map_map. reflexivity.
  Qed.
  (** the position of local node l of element q carries a node *)
  Lemma elem_node_exists : forall q l, inside ns q -> In l (et_table el) -> In (add_idx (origin q) l) positions.
  Proof.
    intros q l Hq Hl. pose proof ne2 as H2. destruct (wf_elem_types el Hel) as [_ [_ [Hshape Hclosed]]].
    destruct (Hshape l Hl) as [Ll Hb]. unfold positions. apply filter_In.
    assert (Hll : length l = length ns) by congruence.
    assert (G : inside gdims (add_idx (origin q) l) /\
                Forall2 (fun a b => a = b \/ (a = 0 /\ b = ne - 1)) l (local_index ne ns (add_idx (origin q) l))).
    { unfold gdims. fold ne in Hb. clear - Hns Hq Hb Hll H2. revert q l Hq Hb Hll.
      induction ns as [|n ks IH]; intros q l Hq Hb Hll; inversion Hq as [|? k ? q' Hk Hq']; subst.
      - destruct l; [|discriminate]. split; constructor.
      - destruct l as [|a l]; [discriminate|]. inversion_clear Hns as [|? ? Hn Hns']. inversion_clear Hb as [|? ? Ha Hb'].
        destruct (IH Hns' q' l Hq' Hb' ltac:(cbn in Hll; lia)) as [G1 G2]. cbn [origin map add_idx local_index]. split.
        + constructor; [|exact G1]. rewrite edge_nodes_eq by assumption. nia.
        + constructor; [|exact G2]. now apply local_index1_spec. }
    destruct G as [G1 G2]. split; [now apply grid_in|]. unfold exists_at. apply has_node_in. exact (Hclosed l _ Hl G2).
  Qed.
  Lemma add_idx_inj : forall o a b, length a = length o -> length b = length o -> add_idx o a = add_idx o b -> a = b.
  Proof.
    induction o as [|x o IH]; intros [|u a] [|v b] La Lb E; try discriminate; [reflexivity|]. cbn in E. injection E as E1 E2.
    f_equal; [lia|]. apply IH; auto.
  Qed.
  Lemma elements_closed : elements el ns mesh =
    combine (seq 1 (prod ns)) (map (fun q => map (fun l => label_at mesh (add_idx (origin q) l)) (et_table el)) (grid ns)).
  Proof.
    unfold elements. rewrite number_from_1, origins_eq, map_map. f_equal. now rewrite map_length, grid_length.
  Qed.

  (** where local node l of element q stands in the patch *)
  Fixpoint place (ns : list nat) (dims : list R) (q l : list nat) : list R :=
    match ns, dims, q, l with
    | n :: ns', d :: dims', k :: q', i :: l' => ((INR k + INR i / INR (ne - 1)) * (d / INR n))%R :: place ns' dims' q' l'
    | _, _, _, _ => []
    end.
  Lemma coords_place : forall ks ds q l, Forall (fun n => 1 <= n) ks ->
    coords_of ne ks ds (add_idx (origin q) l) = place ks ds q l.
  Proof.
    pose proof ne2 as H2. induction ks as [|n ks IH]; intros [|d ds] [|k q] [|i l] Hn; try reflexivity. inversion_clear Hn as [|? ? Hn1 Hn'].
    cbn [origin map add_idx coords_of place]. f_equal; [|now apply IH]. unfold coord_step. rewrite plus_INR, !mult_INR. field.
    split; apply not_0_INR; lia.
  Qed.
  (** C39: elements are numbered 1, 2, ..., prod ns in the order of their
      positions in the patch; each refers to existing distinct nodes, standing at
      the element's own positions *)
  Theorem connectivities : map fst (elements el ns mesh) = seq 1 (prod ns) /\
    forall k, k < prod ns -> exists q nodes, q = nth k (grid ns) [] /\ inside ns q /\
      gget Nat.eqb (elements el ns mesh) (S k) = Some nodes /\ length nodes = length (et_table el) /\ NoDup nodes /\
      forall p, p < length nodes -> nth p nodes 0 <> 0 /\
        gget Nat.eqb (m_coords mesh) (nth p nodes 0) = Some (place ns dims q (nth p (et_table el) [])).
  Proof.
    rewrite elements_closed. set (conn := fun q => map (fun l => label_at mesh (add_idx (origin q) l)) (et_table el)).
    assert (Lc : prod ns = length (map conn (grid ns))) by (now rewrite map_length, grid_length).
    split; [rewrite Lc; apply keys_combine_seq|]. intros k Hk. exists (nth k (grid ns) []), (conn (nth k (grid ns) [])).
    assert (Hq : inside ns (nth k (grid ns) [])) by (apply grid_in, nth_In; rewrite grid_length; exact Hk).
    destruct (wf_elem_types el Hel) as [_ [Hnd [Hshape _]]].
    split; [reflexivity|]. split; [exact Hq|]. split; [|split; [|split]].
    - rewrite Lc. rewrite (gget_combine_seq _ _ (conn [])) by (rewrite <- Lc; exact Hk). now rewrite map_nth.
    - apply map_length.
    - unfold conn. apply (proj2 (NoDup_nth _ 0)). intros i j Hi Hj E. rewrite map_length in Hi, Hj.
      apply (proj1 (NoDup_nth (et_table el) []) Hnd); auto.
      set (f := fun l => label_at mesh (add_idx (origin (nth k (grid ns) [])) l)) in E.
      rewrite (nth_indep _ 0 (f [])), (nth_indep (map f (et_table el)) 0 (f [])) in E by (now rewrite map_length). rewrite !map_nth in E.
      assert (Hne : forall u, u < length (et_table el) -> f (nth u (et_table el) []) <> 0).
      { intros u Hu. apply label_nth. apply elem_node_exists; [exact Hq|now apply nth_In]. }
      destruct mesh_labels_consecutive as [_ [_ [_ Inj]]]. apply Inj in E; [|now apply Hne].
      assert (Lo : forall u, u < length (et_table el) -> length (nth u (et_table el) []) = length (origin (nth k (grid ns) []))).
      { intros u Hu. destruct (Hshape _ (nth_In _ [] Hu)) as [Lu _]. unfold origin. rewrite map_length, Lu, <- Hlen.
        clear - Hq. unfold inside in Hq. induction Hq; cbn; auto. }
      eapply add_idx_inj; [| |exact E]; auto.
    - intros p Hp. unfold conn in *. rewrite map_length in Hp. set (f := fun l => label_at mesh (add_idx (origin (nth k (grid ns) [])) l)) in *.
      rewrite (nth_indep _ 0 (f [])) by (now rewrite map_length). rewrite map_nth.
      assert (Hne : f (nth p (et_table el) []) <> 0) by (apply label_nth; apply elem_node_exists; [exact Hq|now apply nth_In]).
      split; [exact Hne|]. rewrite <- coords_place by exact Hns. now apply mesh_coordinates.
  Qed.
  (** C39: every node belongs to an element *)
  Theorem no_orphan_nodes : forall l, In l (map fst (m_coords mesh)) -> exists k nodes, gget Nat.eqb (elements el ns mesh) k = Some nodes /\ In l nodes.
  Proof.
    intros l Hl. destruct mesh_labels_consecutive as [K [Ex _]]. rewrite K in Hl. apply in_seq in Hl. destruct (Ex l ltac:(lia)) as [idx Hi].
    assert (Hne : label_at mesh idx <> 0) by lia. pose proof (proj1 (label_nth idx) Hne) as Hp. unfold positions in Hp. apply filter_In in Hp as [Hg He].
    apply grid_in in Hg. unfold exists_at in He. apply has_node_in in He. pose proof ne2 as H2.
    assert (D : exists q, inside ns q /\ idx = add_idx (origin q) (local_index ne ns idx)).
    { unfold gdims in Hg. clear - Hns Hg H2. revert idx Hg. induction ns as [|n ks IH]; intros idx Hg; inversion Hg as [|? g ? gs Hlt Hgs]; subst.
      - exists []. split; [constructor|reflexivity].
      - inversion_clear Hns as [|? ? Hn Hns']. destruct (IH Hns' gs Hgs) as [q [Hq Eq]].
        destruct (local_index1_decomp ne n g H2 Hn Hlt) as [k [Hk [Ek _]]]. exists (k :: q). split; [constructor; assumption|].
        cbn [origin map add_idx local_index]. f_equal; [exact Ek|exact Eq]. }
    destruct D as [q [Hq Eq]]. assert (Hin : In q (grid ns)) by now apply grid_in. destruct (In_nth _ _ [] Hin) as [k [Hk Ek]].
    rewrite grid_length in Hk. destruct connectivities as [_ C]. destruct (C k Hk) as [q' [nodes [Eq' [_ [Hget _]]]]].
    exists (S k), nodes. split; [exact Hget|]. rewrite elements_closed in Hget.
    set (conn := fun q => map (fun l => label_at mesh (add_idx (origin q) l)) (et_table el)) in *.
    assert (Lc : prod ns = length (map conn (grid ns))) by (now rewrite map_length, grid_length). rewrite Lc in Hget.
    rewrite (gget_combine_seq _ _ (conn [])) in Hget by (rewrite <- Lc; exact Hk). rewrite map_nth, Ek in Hget. injection Hget as <-.
    unfold conn. apply in_map_iff. exists (local_index ne ns idx). split; [now rewrite <- Eq|exact He].
  Qed.
  (** C39: material phases follow the same order as the elements *)
  Theorem phases_follow_elements : forall P (mat : list nat -> P), map fst (phases ns mat) = seq 1 (prod ns) /\
    forall k, k < prod ns -> gget Nat.eqb (phases ns mat) (S k) = Some (mat (nth k (grid ns) [])).
  Proof.
    intros P mat. unfold phases. rewrite number_from_1. split.
    - rewrite keys_combine_seq, map_length, grid_length. reflexivity.
    - intros k Hk. rewrite (gget_combine_seq _ _ (mat [])) by (rewrite map_length, grid_length; exact Hk). now rewrite map_nth.
  Qed.

  (** ** Boundary *)
  Lemma on_boundary_coords : forall ks ds idx, Forall (fun n => 1 <= n) ks -> Forall (fun d => 0 < d)%R ds -> length ds = length ks ->
    on_boundary (map (edge_nodes ne) ks) idx = true <-> Exists (fun p => fst p = 0%R \/ fst p = snd p) (combine (coords_of ne ks ds idx) ds).
  Proof.
    pose proof ne2 as H2. induction ks as [|n ks IH]; intros [|d ds] [|i idx] Hn Hd L; try discriminate L; try (cbn; split; [discriminate|inversion 1]).
    inversion_clear Hn as [|? ? Hn1 Hn']. inversion_clear Hd as [|? ? Hd1 Hd']. cbn [map on_boundary coords_of combine]. rewrite Exists_cons.
    rewrite !orb_true_iff, !Nat.eqb_eq, (IH ds) by (auto; cbn in L; lia). cbn [fst snd]. pose proof (step_pos n d Hn1 Hd1) as Hs.
    assert (E : (d = INR (edge_nodes ne n - 1) * coord_step ne n d)%R).
    { rewrite edge_nodes_eq, Nat.add_sub by assumption. unfold coord_step. field. apply not_0_INR. nia. }
    assert (A : i = 0 <-> (INR i * coord_step ne n d = 0)%R).
    { split; [intros ->; cbn; ring|]. intros H. apply Rmult_integral in H as [H|H]; [|lra]. now apply INR_eq. }
    assert (B : i = edge_nodes ne n - 1 <-> (INR i * coord_step ne n d = d)%R).
    { split; [intros ->; now rewrite <- E|]. intros H. rewrite E in H at 2. apply INR_eq. apply (Rmult_eq_reg_r (coord_step ne n d)); lra. }
    rewrite A, B. tauto.
  Qed.
  Lemma boundary_positions : forall l, In l (boundary_labels el ns mesh) <->
    l <> 0 /\ exists idx, on_boundary gdims idx = true /\ label_at mesh idx = l.
  Proof.
    intros l. unfold boundary_labels. fold ne. fold gdims.
    assert (Base : In l (map (label_at mesh) (filter (on_boundary gdims) (grid gdims))) ->
                   exists idx, In idx (grid gdims) /\ on_boundary gdims idx = true /\ label_at mesh idx = l).
    { intros H. apply in_map_iff in H as [idx [E Hi]]. apply filter_In in Hi as [Hg Hb]. eauto. }
    assert (Conv : l <> 0 -> (exists idx, on_boundary gdims idx = true /\ label_at mesh idx = l) ->
                   In l (map (label_at mesh) (filter (on_boundary gdims) (grid gdims)))).
    { intros Hl [idx [Hb E]]. apply in_map_iff. exists idx. split; [exact E|]. apply filter_In. split; [|exact Hb].
      apply grid_in, positions_inside. congruence. }
    destruct (Nat.eqb (et_dim el) 2) eqn:E2.
    - split; [|intros [H1 H2]; now apply Conv]. intros H. destruct (Base H) as [idx [Hg [Hb E]]].
      split; [|exists idx; auto]. subst l. apply label_nth. unfold positions. apply filter_In. split; [exact Hg|]. unfold exists_at.
      apply Nat.eqb_eq in E2. apply grid_in in Hg. unfold gdims in Hg, Hb. pose proof ne2 as H2. rewrite E2 in Hlen.
      destruct ns as [|n1 [|n2 [|? ?]]] eqn:Ens; try discriminate.
      inversion Hg as [|? g1 ? t1 Hlt1 Ht1]; subst. inversion Ht1 as [|? g2 ? t2 Hlt2 Ht2]; subst. inversion Ht2; subst.
      inversion Hns as [|? ? Hn1 Hns']; subst. inversion Hns' as [|? ? Hn2 _]; subst. cbn [local_index]. cbn [map on_boundary] in Hb.
      destruct (local_index1_decomp ne n1 g1 H2 Hn1 Hlt1) as [_ [_ [_ B1]]]. destruct (local_index1_decomp ne n2 g2 H2 Hn2 Hlt2) as [_ [_ [_ B2]]].
      assert (Hedge : local_index1 ne n1 g1 = 0 \/ local_index1 ne n1 g1 = ne - 1 \/ local_index1 ne n2 g2 = 0 \/ local_index1 ne n2 g2 = ne - 1).
      { apply orb_true_iff in Hb as [Hb|Hb]; [|apply orb_true_iff in Hb as [Hb|Hb]; [|discriminate]];
          apply orb_true_iff in Hb as [Hb|Hb]; apply Nat.eqb_eq in Hb;
          [pose proof (local_boundary1 ne n1 g1 H2 Hn1 (or_introl Hb))|pose proof (local_boundary1 ne n1 g1 H2 Hn1 (or_intror Hb))
          |pose proof (local_boundary1 ne n2 g2 H2 Hn2 (or_introl Hb))|pose proof (local_boundary1 ne n2 g2 H2 Hn2 (or_intror Hb))]; tauto. }
      set (a := local_index1 ne n1 g1) in *. set (b := local_index1 ne n2 g2) in *. clearbody a b.
      clear - Hel E2 Hedge B1 B2. unfold ne in *.
      pose proof (edges_have_nodes el Hel E2) as T.
      assert (Hpos : 2 <= et_edge el) by (now destruct (wf_elem_types el Hel)).
      rewrite forallb_forall in T. specialize (T a ltac:(apply in_seq; lia)). rewrite forallb_forall in T. specialize (T b ltac:(apply in_seq; lia)).
      assert (C : (Nat.eqb a 0 || Nat.eqb a (et_edge el - 1) || Nat.eqb b 0 || Nat.eqb b (et_edge el - 1))%bool = true).
      { rewrite !orb_true_iff, !Nat.eqb_eq. tauto. }
      rewrite C in T. exact T.
    - rewrite filter_In, negb_true_iff, Nat.eqb_neq. split.
      + intros [H1 H2]. split; [exact H2|]. destruct (Base H1) as [idx [_ [Hb E]]]. eauto.
      + intros [H1 H2]. split; [now apply Conv|exact H1].
  Qed.
  (** C39: boundary labels are those of the nodes standing on the boundary *)
  Theorem boundary_is_boundary : forall l, In l (boundary_labels el ns mesh) <->
    exists c, gget Nat.eqb (m_coords mesh) l = Some c /\ Exists (fun p => fst p = 0%R \/ fst p = snd p) (combine c dims).
  Proof.
    intros l. rewrite boundary_positions. split.
    - intros [Hl [idx [Hb E]]]. exists (coords_of ne ns dims idx). split; [|now apply on_boundary_coords]. subst l. now apply mesh_coordinates.
    - intros [c [Hc Hb]]. destruct mesh_labels_consecutive as [K [Ex _]]. pose proof Hc as Hin. apply gget_in in Hin; [|apply Nat.eqb_eq].
      apply (in_map fst) in Hin. cbn [fst] in Hin. rewrite K in Hin. apply in_seq in Hin. destruct (Ex l ltac:(lia)) as [idx Hi].
      assert (Hne : label_at mesh idx <> 0) by lia. rewrite <- Hi, mesh_coordinates in Hc by exact Hne. injection Hc as <-.
      split; [lia|]. exists idx. split; [|exact Hi]. unfold gdims. now apply (on_boundary_coords ns dims).
  Qed.
End Mesh.

(** non-vacuity: two eight-node elements side by side *)
Example two_elements : let m := gen_mesh squad8 [2; 1] [2%R; 1%R] in
  length (m_coords m) = 13 /\ map snd (elements squad8 [2; 1] m) = [[1; 2; 3; 7; 11; 10; 9; 6]; [3; 4; 5; 8; 13; 12; 11; 7]].
Proof. split; reflexivity. Qed.

Print Assumptions connectivities.
Print Assumptions mesh_coordinates_distinct.
Print Assumptions boundary_is_boundary.
