(** Properties of the specimen data processing (ReactSetsModel.v). *)
From Coq Require Import String Ascii ZArith Reals List Bool Arith Lia Lra Sorted Decimal DecimalString DecimalNat DecimalFacts.
From Verif Require Import Lib PyDict PyStr TextLines SpecimenModel InpLinksModel InpLinksProps SpecimenProps ReactSetsModel.
Import ListNotations.
Local Open Scope string_scope.
Local Open Scope list_scope.

(** ** Unique codes *)
Lemma zins_in x y l : In y (zins x l) <-> y = x \/ In y l.
Proof.
  induction l as [|z l IH]; cbn [zins]; [cbn; intuition congruence|].
  destruct (x <? z)%Z; [cbn; intuition congruence|]. destruct (Z.eqb_spec x z); [subst; cbn; intuition congruence|].
  cbn [In]. rewrite IH. intuition congruence.
Qed.
Lemma zunique_in x l : In x (unique l) <-> In x l.
Proof. induction l as [|y l IH]; [reflexivity|]. change (unique (y :: l)) with (zins y (unique l)). rewrite zins_in, IH. cbn. intuition congruence. Qed.
Lemma zins_sorted x l : StronglySorted Z.lt l -> StronglySorted Z.lt (zins x l).
Proof.
  intros H. induction H as [|y l H IH F]; cbn [zins]; [repeat constructor|].
  destruct (Z.ltb_spec x y).
  - constructor; [constructor; assumption|]. constructor; [assumption|]. eapply Forall_impl; [|exact F]. cbv beta. intros; lia.
  - destruct (Z.eqb_spec x y); [constructor; assumption|]. constructor; [exact IH|].
    apply Forall_forall. intros z Hz. apply zins_in in Hz. destruct Hz as [->|Hz]; [lia|]. rewrite Forall_forall in F. apply F, Hz.
Qed.
Lemma zunique_sorted l : StronglySorted Z.lt (unique l).
Proof. induction l; [constructor|]. change (unique (a :: l)) with (zins a (unique l)). now apply zins_sorted. Qed.
Lemma zsorted_nodup l : StronglySorted Z.lt l -> NoDup l.
Proof.
  intros H. induction H as [|y l H IH F]; constructor; [|exact IH]. intros Hy. rewrite Forall_forall in F. specialize (F _ Hy). lia.
Qed.
Lemma unique_nodup l : NoDup (unique l). Proof. apply zsorted_nodup, zunique_sorted. Qed.

(** ** The sets *)
Section Sets.
Variables (n_node n_dim n_time : nat) (bc : nat -> nat -> nat -> Z) (force : nat -> nat -> nat -> R).
Let sets := build_sets n_node n_dim n_time bc force.

Lemma rlsum_app a b : rlsum (a ++ b) = (rlsum a + rlsum b)%R.
Proof. unfold rlsum. induction a as [|x a IH]; simpl; [lra|]. rewrite IH. lra. Qed.
Lemma label_nodes i l a : In a (label_mask n_node bc i l) <-> (a < n_node)%nat /\ bc a i 0%nat = l.
Proof. unfold label_mask. rewrite filter_In, in_seq, Z.eqb_eq. intuition lia. Qed.
Lemma label_sorted i l : StronglySorted lt (label_mask n_node bc i l).
Proof.
  unfold label_mask. generalize 0%nat at 2. clear sets. induction n_node as [|n IH]; intros st; cbn [seq filter]; [constructor|].
  destruct (bc st i 0%nat =? l)%Z; [|apply IH]. constructor; [apply IH|]. apply Forall_forall. intros x Hx. apply filter_In in Hx.
  destruct Hx as [Hx _]. apply in_seq in Hx. lia.
Qed.
Lemma in_sets s : In s sets <-> exists i l, (i < n_dim)%nat /\ In l (unique (init_codes n_node bc i)) /\
  s = (set_label i l, map (fun a => (a + 1)%nat) (label_mask n_node bc i l),
       map (fun t => rlsum (map (fun a => force a i t) (label_mask n_node bc i l))) (seq 0 n_time)).
Proof.
  unfold sets, build_sets. rewrite in_flat_map. split.
  - intros (i & Hi & H). apply in_map_iff in H. destruct H as (l & <- & Hl). exists i, l. apply in_seq in Hi. repeat split; [lia|exact Hl].
  - intros (i & l & Hi & Hl & ->). exists i. split; [apply in_seq; lia|]. apply in_map_iff. exists l. split; [reflexivity|exact Hl].
Qed.
Lemma code_in i a : (a < n_node)%nat -> In (bc a i 0%nat) (unique (init_codes n_node bc i)).
Proof. intros H. apply zunique_in. unfold init_codes. apply in_map_iff. exists a. split; [reflexivity|]. apply in_seq. lia. Qed.

(** Every set has the nodes of one initial code in one direction, and their net
    reaction at every time. *)
Theorem react_set_contents s : In s sets -> exists i l, (i < n_dim)%nat /\ set_name s = set_label i l /\ set_nodes s <> [] /\
  (forall k, In k (set_nodes s) <-> (1 <= k <= n_node)%nat /\ bc (k - 1)%nat i 0%nat = l) /\
  StronglySorted lt (set_nodes s) /\ length (set_hist s) = n_time /\
  forall t, (t < n_time)%nat -> nth t (set_hist s) 0%R = rlsum (map (fun k => force (k - 1)%nat i t) (set_nodes s)).
Proof.
  intros H. apply in_sets in H. destruct H as (i & l & Hi & Hl & ->). exists i, l. cbn [set_name set_nodes set_hist fst snd].
  assert (K : forall k, In k (map (fun a => (a + 1)%nat) (label_mask n_node bc i l)) <-> (1 <= k <= n_node)%nat /\ bc (k - 1)%nat i 0%nat = l).
  { intros k. rewrite in_map_iff. split.
    - intros (a & <- & Ha). apply label_nodes in Ha. replace (a + 1 - 1)%nat with a by lia. intuition lia.
    - intros [Hk Hb]. exists (k - 1)%nat. split; [lia|]. apply label_nodes. split; [lia|exact Hb]. }
  split; [exact Hi|]. split; [reflexivity|]. split; [|split; [exact K|split; [|split]]].
  - apply (proj1 (zunique_in _ _)) in Hl. unfold init_codes in Hl. apply in_map_iff in Hl. destruct Hl as (a & Hb & Ha). apply in_seq in Ha.
    intros E. assert (In (a + 1)%nat []); [|contradiction]. rewrite <- E. apply K. replace (a + 1 - 1)%nat with a by lia. split; [lia|exact Hb].
  - pose proof (label_sorted i l) as Q.
    clear K Hl. induction Q as [|x L Q IH F]; cbn [map]; [constructor|]. constructor; [exact IH|]. rewrite Forall_forall in *. intros y Hy. apply in_map_iff in Hy.
    destruct Hy as (z & <- & Hz). specialize (F _ Hz). lia.
  - now rewrite map_length, seq_length.
  - intros t Ht. rewrite (nth_indep _ 0%R (rlsum (map (fun a => force a i 0%nat) (label_mask n_node bc i l)))) by now rewrite map_length, seq_length.
    rewrite (map_nth (fun t => rlsum (map (fun a => force a i t) (label_mask n_node bc i l)))).
    rewrite seq_nth by exact Ht. cbn [Nat.add]. rewrite map_map. f_equal. apply map_ext. intros a. f_equal. lia.
Qed.
(** Every node is in a set of every direction. *)
Theorem react_sets_cover i a : (i < n_dim)%nat -> (a < n_node)%nat ->
  exists s, In s sets /\ set_name s = set_label i (bc a i 0%nat) /\ In (a + 1)%nat (set_nodes s).
Proof.
  intros Hi Ha. eexists. split; [apply in_sets; exists i, (bc a i 0%nat); repeat split; [exact Hi|now apply code_in]|].
  split; [reflexivity|]. cbn [set_nodes fst snd]. apply in_map_iff. exists a. split; [reflexivity|]. now apply label_nodes.
Qed.
End Sets.

(** The labels (and so the figure files) of the sets are all different. *)
Lemma z_str_inj a b : z_str a = z_str b -> a = b.
Proof. intros H. apply (f_equal py_int) in H. rewrite !py_int_z in H. now injection H. Qed.
Lemma rs_skip_digits_app d s : all_digits d = true -> skip_digits (d ++ String "_" s) = String "_" s.
Proof. induction d as [|c d IH]; cbn; intros H; [reflexivity|]. apply andb_true_iff in H. destruct H as [-> H]. now apply IH. Qed.
Fixpoint take_digits (s : string) : string :=
  match s with String c t => if is_digit c then String c (take_digits t) else EmptyString | EmptyString => EmptyString end.
Lemma rs_take_digits_app d s : all_digits d = true -> take_digits (d ++ String "_" s) = d.
Proof. induction d as [|c d IH]; cbn; intros H; [reflexivity|]. apply andb_true_iff in H. destruct H as [-> H]. now rewrite IH. Qed.
Lemma set_label_inj i l i' l' : set_label i l = set_label i' l' -> i = i' /\ l = l'.
Proof.
  unfold set_label. intros H. change ("dim_" ++ ?s)%string with (String "d" (String "i" (String "m" (String "_" s)))) in H.
  injection H as H. pose proof (f_equal take_digits H) as A. pose proof (f_equal skip_digits H) as B.
  change ("_label_" ++ z_str l)%string with (String "_" ("label_" ++ z_str l)) in *.
  change ("_label_" ++ z_str l')%string with (String "_" ("label_" ++ z_str l')) in *.
  rewrite !rs_take_digits_app in A by apply nat_str_digits. rewrite !rs_skip_digits_app in B by apply nat_str_digits.
  apply nat_str_inj in A. injection B as B. apply z_str_inj in B. split; [lia|exact B].
Qed.
Lemma nodup_flat {A B} (f : A -> list B) L : NoDup L -> (forall a, In a L -> NoDup (f a)) ->
  (forall a a' x, In a L -> In a' L -> In x (f a) -> In x (f a') -> a = a') -> NoDup (flat_map f L).
Proof.
  induction L as [|a L IH]; cbn [flat_map]; intros HL HF HD; [constructor|]. inversion HL as [|? ? Ha HL']; subst.
  assert (N1 : NoDup (f a)) by (apply HF; now left).
  assert (N2 : NoDup (flat_map f L)). { apply IH; [exact HL'|intros; apply HF; now right|]. intros. eapply HD; eauto; now right. }
  assert (D : forall x, In x (f a) -> ~ In x (flat_map f L)).
  { intros x Hx Hy. apply in_flat_map in Hy. destruct Hy as (b & Hb & Hxb). apply Ha.
    rewrite (HD a b x); [exact Hb|now left|now right|exact Hx|exact Hxb]. }
  clear - N1 N2 D. induction (f a) as [|x t IH]; [exact N2|]. cbn [app]. inversion N1; subst. constructor.
  - rewrite in_app_iff. intros [H|H]; [contradiction|]. apply (D x); [now left|exact H].
  - apply IH; [assumption|]. intros y Hy. apply D. now right.
Qed.
Theorem react_labels_distinct n_node n_dim n_time bc force : NoDup (map set_name (build_sets n_node n_dim n_time bc force)).
Proof.
  unfold build_sets. rewrite flat_map_concat_map, concat_map, map_map, <- flat_map_concat_map.
  apply nodup_flat.
  - apply seq_NoDup.
  - intros i _. rewrite map_map. cbn [set_name fst]. pose proof (unique_nodup (init_codes n_node bc i)) as N.
    induction N as [|x L Hx N IH]; cbn [map]; constructor; [|exact IH]. intros H. apply in_map_iff in H. destruct H as (y & E & Hy).
    apply set_label_inj in E. destruct E as [_ ->]. contradiction.
  - intros i i' x _ _ H H'. rewrite map_map in H, H'. apply in_map_iff in H, H'. destruct H as (l & <- & _), H' as (l' & E & _).
    cbn [set_name fst] in E. apply set_label_inj in E. destruct E as [E _]. now symmetry.
Qed.
(** The sets of all directions share out all the reactions. *)
Lemma partition_sum (f : nat -> R) (g : nat -> Z) U L : NoDup U -> (forall a, In a L -> In (g a) U) ->
  rlsum (map (fun l => rlsum (map f (filter (fun a => (g a =? l)%Z) L))) U) = rlsum (map f L).
Proof.
  intros HU. induction L as [|a L IH]; intros H.
  - cbn. clear. induction U; [reflexivity|]. cbn [map rlsum fold_right]. unfold rlsum in IHU. rewrite IHU. lra.
  - cbn [map]. change (rlsum (f a :: map f L)) with (f a + rlsum (map f L))%R. rewrite <- IH by (intros; apply H; now right).
    assert (Ha : In (g a) U) by (apply H; now left). clear IH H.
    assert (Z0 : forall V, ~ In (g a) V -> rlsum (map (fun l => rlsum (map f (filter (fun b => (g b =? l)%Z) (a :: L)))) V)
                 = rlsum (map (fun l => rlsum (map f (filter (fun b => (g b =? l)%Z) L))) V)).
    { intros V HV. f_equal. apply map_ext_in. intros l Hl. cbn [filter]. destruct (Z.eqb_spec (g a) l); [subst; contradiction|reflexivity]. }
    induction HU as [|u U Hu HU IH]; [contradiction|].
    destruct (Z.eq_dec (g a) u) as [<-|E].
    + cbn [map]. unfold rlsum at 1 4; cbn [fold_right]; fold rlsum.
      change (fold_right Rplus 0%R ?x) with (rlsum x). rewrite (Z0 U Hu). cbn [filter]. rewrite Z.eqb_refl. cbn [map].
      change (rlsum (f a :: ?x)) with (f a + rlsum x)%R. lra.
    + destruct Ha as [Ha|Ha]; [congruence|]. specialize (IH Ha). cbn [map]. unfold rlsum at 1 4; cbn [fold_right]; fold rlsum.
      change (fold_right Rplus 0%R ?x) with (rlsum x). rewrite IH. cbn [filter]. destruct (Z.eqb_spec (g a) u); [contradiction|]. lra.
Qed.
Theorem react_sets_total n_node n_dim n_time bc force t : (t < n_time)%nat ->
  rlsum (map (fun s => nth t (set_hist s) 0%R) (build_sets n_node n_dim n_time bc force))
  = rlsum (map (fun i => rlsum (map (fun a => force a i t) (seq 0 n_node))) (seq 0 n_dim)).
Proof.
  intros Ht. unfold build_sets. induction (seq 0 n_dim) as [|i D IH]; [reflexivity|]. cbn [flat_map]. rewrite map_app, rlsum_app, IH.
  cbn [map]. match goal with |- _ = rlsum (?x :: ?y) => change (rlsum (x :: y)) with (x + rlsum y)%R end. f_equal.
  rewrite map_map. rewrite <- (partition_sum (fun a => force a i t) (fun a => bc a i 0%nat) (unique (init_codes n_node bc i))).
  - f_equal. apply map_ext. intros l. cbn [set_hist snd].
    rewrite (nth_indep _ 0%R (rlsum (map (fun a => force a i 0%nat) (label_mask n_node bc i l)))) by now rewrite map_length, seq_length.
    rewrite (map_nth (fun t => rlsum (map (fun a => force a i t) (label_mask n_node bc i l)))). rewrite seq_nth by exact Ht. reflexivity.
  - apply unique_nodup.
  - intros a Ha. apply code_in. apply in_seq in Ha. lia.
Qed.
(** The comparison accepts the labels of the sets, and shows each history against
    the time steps. *)
Theorem react_compare n_node n_dim n_time bc force :
  let sets := build_sets n_node n_dim n_time bc force in
  exists cols, compare_columns (Some (map set_name sets)) (map set_hist sets) n_time = Ok cols /\
  length cols = (2 * length sets)%nat /\
  forall k s, nth_error sets k = Some s ->
    nth_error cols (2 * k + 1) = Some (set_hist s) /\
    exists c, nth_error cols (2 * k) = Some c /\ length c = n_time /\ forall t, (t < n_time)%nat -> nth t c 0%R = INR t.
Proof.
  intros sets. unfold compare_columns. rewrite !map_length, Nat.eqb_refl. cbn [negb]. eexists. split; [reflexivity|].
  clearbody sets. split.
  - induction sets as [|s L IH]; [reflexivity|]. cbn [map flat_map]. rewrite app_length, IH. cbn [length]. lia.
  - induction sets as [|s0 L IH]; intros [|k] s H; [discriminate H|discriminate H| |].
    + injection H as <-. cbn [map flat_map app Nat.mul Nat.add nth_error]. split; [reflexivity|]. eexists. split; [reflexivity|].
      rewrite map_length, seq_length. split; [reflexivity|]. intros t Ht. change 0%R with (INR 0). rewrite map_nth, seq_nth by exact Ht. reflexivity.
    + cbn [nth_error] in H. replace (2 * S k + 1)%nat with (S (S (2 * k + 1))) by lia. replace (2 * S k)%nat with (S (S (2 * k))) by lia.
      cbn [map flat_map app nth_error]. apply IH, H.
Qed.
(** Sets are fixed by the codes of the first time step: a node constrained later
    stays in the free set, and its reaction is counted there. *)
Theorem react_later_codes_refuted : exists bc force, bc 0%nat 0%nat 1%nat = 1%Z /\ force 0%nat 0%nat 1%nat = 5%R /\
  map set_name (build_sets 1 1 2 bc force) = ["dim_1_label_0"] /\
  map (fun s => nth 1 (set_hist s) 0%R) (build_sets 1 1 2 bc force) = [5%R].
Proof.
  exists (fun _ _ t => Z.of_nat t), (fun _ _ t => if Nat.eqb t 1 then 5%R else 0%R). repeat split.
  cbn. f_equal. lra.
Qed.

(** ** Displayed sets and their elements *)
Lemma nzhead_D0 u v : nzhead u <> D0 v.
Proof. induction u; cbn [nzhead]; try discriminate. exact IHu. Qed.
Lemma nat_str_zero n s : nat_str n = String "0" s -> n = 0%nat.
Proof.
  intros H. unfold nat_str in H.
  destruct (Nat.to_uint n) as [|u|u|u|u|u|u|u|u|u|u] eqn:E; try discriminate H; [now apply to_uint_nonnil in E|].
  assert (U : unorm u = D0 u). { rewrite <- E, <- Unsigned.to_of. f_equal. rewrite <- (Unsigned.of_to n), E. reflexivity. }
  unfold unorm in U. destruct (nzhead u) eqn:F; try discriminate U; [|now apply nzhead_D0 in F].
  injection U as <-. rewrite <- (Unsigned.of_to n), E. reflexivity.
Qed.
Lemma prefix_label s : prefix "label_0" (String "l" s) = prefix "abel_0" s. Proof. reflexivity. Qed.
Fixpoint occurs (pat s : string) : bool := prefix pat s || match s with EmptyString => false | String _ t => occurs pat t end.
Lemma contains_occurs pat s : pat <> "" -> ReactSetsModel.contains pat s = occurs pat s.
Proof.
  intros Hp. unfold contains. induction s as [|c s IH]; [destruct pat; [contradiction|reflexivity]|].
  cbn [index occurs]. destruct (prefix pat (String c s)); [reflexivity|]. cbn [orb]. rewrite <- IH. destruct (index 0 pat s); reflexivity.
Qed.
Lemma occurs_no_l s : has_char "l" s = false -> occurs "label_0" s = false.
Proof.
  induction s as [|c s IH]; [reflexivity|]. cbn [has_char]. intros H. apply orb_false_iff in H. destruct H as [H1 H2].
  cbn [occurs]. rewrite (IH H2), orb_false_r. cbn [prefix]. destruct (ascii_dec "l" c) as [<-|]; [discriminate H1|reflexivity].
Qed.
Lemma occurs_skip s t : has_char "l" s = false -> occurs "label_0" (s ++ t) = occurs "label_0" t.
Proof.
  induction s as [|c s IH]; [reflexivity|]. cbn [has_char]. intros H. apply orb_false_iff in H. destruct H as [H1 H2].
  change (String c s ++ t)%string with (String c (s ++ t)). cbn [occurs]. rewrite (IH H2). cbn [prefix].
  destruct (ascii_dec "l" c) as [<-|]; [discriminate H1|reflexivity].
Qed.
Lemma label_zero i l : ReactSetsModel.contains "label_0" (set_label i l) = (l =? 0)%Z.
Proof.
  rewrite contains_occurs by discriminate. unfold set_label. rewrite (occurs_skip "dim_") by reflexivity.
  rewrite occurs_skip by (apply nat_str_no; reflexivity). 
  change ("_label_" ++ z_str l)%string with ("_" ++ String "l" ("abel_" ++ z_str l))%string. rewrite (occurs_skip "_") by reflexivity.
  change (occurs "label_0" (String "l" ("abel_" ++ z_str l)))
    with (prefix "0" (z_str l) || occurs "label_0" ("abel_" ++ z_str l)).
  replace (occurs "label_0" ("abel_" ++ z_str l)) with (occurs "label_0" (z_str l)).
  2: { cbn [append occurs]. cbn [prefix]. reflexivity. }
  rewrite (occurs_no_l (z_str l)) by (apply z_no; reflexivity). rewrite orb_false_r.
  destruct (Z.eqb_spec l 0) as [->|N]; [reflexivity|].
  unfold z_str. destruct (Z.ltb_spec l 0); [reflexivity|].
  destruct (nat_str (Z.abs_nat l)) as [|c s] eqn:E; [reflexivity|]. cbn [prefix]. destruct (ascii_dec "0" c) as [<-|]; [|reflexivity].
  apply nat_str_zero in E. lia.
Qed.
(** The sets shown are those of constrained nodes. *)
Theorem react_displayed n_node n_dim n_time bc force s : In s (build_sets n_node n_dim n_time bc force) ->
  (In s (displayed (build_sets n_node n_dim n_time bc force)) <->
   exists i l, (i < n_dim)%nat /\ set_name s = set_label i l /\ l <> 0%Z).
Proof.
  intros H. unfold displayed. rewrite filter_In. split.
  - intros [_ E]. apply in_sets in H. destruct H as (i & l & Hi & _ & ->). exists i, l. cbn [set_name fst] in E |- *. rewrite label_zero in E.
    repeat split; [exact Hi|]. intros ->. discriminate E.
  - intros (i & l & Hi & E & N). split; [exact H|]. rewrite E, label_zero. destruct (Z.eqb_spec l 0); [contradiction|reflexivity].
Qed.
(** Their elements are those that touch one of their nodes. *)
Theorem react_elements conn nodes e : In e (set_elements conn nodes) <->
  exists ns a, In (e, ns) conn /\ In a ns /\ In a nodes.
Proof.
  unfold set_elements. rewrite in_map_iff. split.
  - intros ((e', ns) & <- & H). apply filter_In in H. destruct H as [H E]. apply existsb_exists in E. destruct E as (a & Ha & E).
    apply existsb_exists in E. destruct E as (b & Hb & E). apply Nat.eqb_eq in E. subst b. exists ns, a. repeat split; assumption.
  - intros (ns & a & H & Ha & Hb). exists (e, ns). split; [reflexivity|]. apply filter_In. split; [exact H|].
    apply existsb_exists. exists a. split; [exact Ha|]. apply existsb_exists. exists a. split; [exact Hb|apply Nat.eqb_refl].
Qed.

(** ** Plotted nodes *)
(** 'all' plots the nodes 1, ..., n once each, every one from its own row, and so
    does every list of such labels. *)
Theorem plotted_all n : plotted_rows n (LStr "all") = Ok (map (fun r => (Z.of_nat r + 1, r)%Z) (seq 0 n)).
Proof.
  unfold plotted_rows. cbn [String.eqb Ascii.eqb Bool.eqb rbind]. generalize (le_n n). 
  assert (H : forall m s, (s + m <= n)%nat ->
    rmap (fun k => rbind (py_index n (k - 1)) (fun r => Ok (k, r))) (map (fun k => (Z.of_nat k + 1)%Z) (seq s m))
    = Ok (map (fun r => (Z.of_nat r + 1, r)%Z) (seq s m))).
  { induction m as [|m IH]; intros s Hs; [reflexivity|]. cbn [seq map rmap].
    replace (Z.of_nat s + 1 - 1)%Z with (Z.of_nat s) by lia. unfold py_index at 1.
    destruct (Z.leb_spec 0 (Z.of_nat s)); [|lia]. destruct (Z.ltb_spec (Z.of_nat s) (Z.of_nat n)); [|lia]. cbn [andb rbind].
    rewrite IH by lia. cbn [rbind]. now rewrite Nat2Z.id. }
  intros _. apply H. lia.
Qed.
Theorem plotted_list n ks : Forall (fun k => (1 <= k <= Z.of_nat n)%Z) ks ->
  plotted_rows n (LList ks) = Ok (map (fun k => (k, Z.to_nat (k - 1))) ks).
Proof.
  unfold plotted_rows. cbn [rbind]. intros H. induction H as [|k ks Hk _ IH]; [reflexivity|]. cbn [rmap map]. unfold py_index at 1.
  destruct (Z.leb_spec 0 (k - 1)); [|lia]. destruct (Z.ltb_spec (k - 1) (Z.of_nat n)); [|lia]. cbn [andb rbind]. rewrite IH. reflexivity.
Qed.
(** Without labels all nodes should be plotted: the call is refused instead. *)
Theorem plotted_default_refuted n : plotted_rows n LNone = Err ValueError.
Proof. reflexivity. Qed.
(** Labels 0 and below are plotted from the rows of other nodes. *)
Theorem plotted_node_zero_refuted n : (0 < n)%nat -> plotted_rows n (LInt 0) = Ok [(0%Z, (n - 1)%nat)].
Proof.
  intros H. unfold plotted_rows. cbn [rbind rmap].
  assert (E : py_index n (0 - 1) = Ok (n - 1)%nat).
  { unfold py_index. change (0 - 1)%Z with (-1)%Z. destruct (Z.leb_spec 0 (-1)); [lia|]. cbn [andb].
    destruct (Z.leb_spec (- Z.of_nat n) (-1)); [|lia]. destruct (Z.ltb_spec (-1) 0); [|lia]. cbn [andb]. f_equal. lia. }
  rewrite E. reflexivity.
Qed.

(** ** Copied labels *)
Definition labelled (f : frame) : Prop := forall k, In k dbc_columns -> gget String.eqb f k <> None.
Lemma labelled_dec f : forallb (fun k => gmem f k) dbc_columns = true <-> labelled f.
Proof.
  unfold labelled. rewrite forallb_forall. split; intros H k Hk; specialize (H k Hk); unfold gmem in *; destruct (gget String.eqb f k); congruence.
Qed.
(** Every column of the copy: source labels by row, everything else as before. *)
Lemma copy_columns_get src tgt k : labelled src ->
  gget String.eqb (copy_columns src tgt) k =
  if existsb (String.eqb k) dbc_columns then option_map (align (n_rows tgt)) (gget String.eqb src k) else gget String.eqb tgt k.
Proof.
  intros L. unfold copy_columns. cbn [dbc_columns fold_left existsb].
  assert (L1 := L "DBC1" ltac:(cbn; tauto)). assert (L2 := L "DBC2" ltac:(cbn; tauto)). assert (L3 := L "DBC3" ltac:(cbn; tauto)).
  destruct (gget String.eqb src "DBC1") as [c1|] eqn:E1; [|congruence]. destruct (gget String.eqb src "DBC2") as [c2|] eqn:E2; [|congruence].
  destruct (gget String.eqb src "DBC3") as [c3|] eqn:E3; [|congruence].
  rewrite !(gget_gset String.eqb String.eqb_eq).
  destruct (String.eqb_spec "DBC3" k) as [<-|N3]; [cbn; now rewrite E3|].
  destruct (String.eqb_spec "DBC2" k) as [<-|N2]; [cbn; now rewrite E2|].
  destruct (String.eqb_spec "DBC1" k) as [<-|N1]; [cbn; now rewrite E1|].
  destruct (String.eqb_spec k "DBC1"); [congruence|]. destruct (String.eqb_spec k "DBC2"); [congruence|]. destruct (String.eqb_spec k "DBC3"); [congruence|].
  reflexivity.
Qed.
Definition copied (src tgt out : frame) : Prop :=
  (forall k, ~ In k dbc_columns -> gget String.eqb out k = gget String.eqb tgt k) /\
  (forall k c, In k dbc_columns -> gget String.eqb src k = Some c -> exists c', gget String.eqb out k = Some c' /\
     length c' = n_rows tgt /\ forall r, (r < n_rows tgt)%nat -> nth r c' None = nth r c None).
Lemma copy_columns_copied src tgt : labelled src -> copied src tgt (copy_columns src tgt).
Proof.
  intros L. split.
  - intros k Hk. rewrite copy_columns_get by exact L. destruct (existsb (String.eqb k) dbc_columns) eqn:E; [|reflexivity].
    apply existsb_exists in E. destruct E as (k' & Hk' & E). apply String.eqb_eq in E. subst k'. contradiction.
  - intros k c Hk Ec. rewrite copy_columns_get by exact L.
    replace (existsb (String.eqb k) dbc_columns) with true by (symmetry; apply existsb_exists; exists k; split; [exact Hk|apply String.eqb_refl]).
    rewrite Ec. cbn [option_map]. eexists. split; [reflexivity|]. unfold align. split; [now rewrite map_length, seq_length|].
    intros r Hr. rewrite (nth_indep _ None (nth 0 c None)) by now rewrite map_length, seq_length.
    rewrite (map_nth (fun r => nth r c None)). now rewrite seq_nth by exact Hr.
Qed.
(** The copy succeeds exactly for histories of one length whose source files all
    have the three columns; it then copies every file. *)
Theorem copy_labels_ok src tgt : snd (copy_dbc_labels src tgt) = Ok tt <-> length src = length tgt /\ Forall labelled src.
Proof.
  unfold copy_dbc_labels. destruct (Nat.eqb_spec (length src) (length tgt)) as [E|E]; cbn [negb snd].
  - revert tgt E. induction src as [|s src IH]; intros [|t tgt] E; try discriminate E; [cbn; split; [intros; split; [reflexivity|constructor]|reflexivity]|].
    injection E as E. specialize (IH tgt E). cbn [copy_loop]. destruct (forallb (fun k => gmem s k) dbc_columns) eqn:F.
    + destruct (copy_loop src tgt) as [out r]. cbn [snd] in *. apply labelled_dec in F. rewrite IH. split.
      * intros [_ H]. split; [cbn; now rewrite E|constructor; assumption].
      * intros [_ H]. inversion H; subst. split; assumption.
    + cbn [snd]. split; [discriminate|]. intros [_ H]. inversion H as [|? ? Hs _]; subst. apply labelled_dec in Hs. congruence.
  - split; [discriminate|]. intros [H _]. contradiction.
Qed.
Theorem copy_labels_values src tgt : snd (copy_dbc_labels src tgt) = Ok tt ->
  length (fst (copy_dbc_labels src tgt)) = length tgt /\
  forall i s t, nth_error src i = Some s -> nth_error tgt i = Some t ->
    exists o, nth_error (fst (copy_dbc_labels src tgt)) i = Some o /\ copied s t o.
Proof.
  intros H. pose proof (proj1 (copy_labels_ok src tgt) H) as [E L]. unfold copy_dbc_labels. rewrite E, Nat.eqb_refl. cbn [negb]. clear H.
  revert tgt E. induction L as [|s src Ls L IH]; intros [|t tgt] E; try discriminate E.
  - split; [reflexivity|]. intros [|i] s t Hs; discriminate Hs.
  - injection E as E. destruct (IH tgt E) as [IL IN]. cbn [copy_loop].
    replace (forallb (fun k => gmem s k) dbc_columns) with true by (symmetry; now apply labelled_dec).
    destruct (copy_loop src tgt) as [out r]. cbn [fst] in *. split; [cbn; now rewrite IL|].
    intros [|i] s' t' Hs Ht; [|now apply (IN i s' t')]. injection Hs as <-. injection Ht as <-. exists (copy_columns s t).
    split; [reflexivity|]. now apply copy_columns_copied.
Qed.
(** Histories of different lengths are refused without touching a file ... *)
Theorem copy_labels_length src tgt : length src <> length tgt -> copy_dbc_labels src tgt = (tgt, Err RuntimeError).
Proof. intros H. unfold copy_dbc_labels. destruct (Nat.eqb_spec (length src) (length tgt)); [contradiction|reflexivity]. Qed.
(** ... but a source file without labels is found after the earlier files have
    been overwritten. *)
Definition lab (z : R) : frame := [("NODE", [Some 1%R]); ("DBC1", [Some z]); ("DBC2", [Some z]); ("DBC3", [Some z])].
Theorem copy_labels_atomic_refuted : exists src tgt, snd (copy_dbc_labels src tgt) = Err RuntimeError /\
  nth_error (fst (copy_dbc_labels src tgt)) 0 <> nth_error tgt 0.
Proof.
  exists [lab 1; [("NODE", [Some 1%R])]], [lab 0; lab 0]. split; [reflexivity|]. cbn. intros H. injection H as H _ _. lra.
Qed.
(** Rows are matched by position: with the nodes in another order the labels go
    to other nodes, and a shorter source leaves nodes without label. *)
Definition at_node (f : frame) (k : string) (node : R) : list (option R) :=
  match gget String.eqb f "NODE", gget String.eqb f k with
  | Some ns, Some c => map snd (filter (fun p => match fst p with Some x => if Req_EM_T x node then true else false | None => false end) (combine ns c))
  | _, _ => []
  end.
Theorem copy_labels_nodes_refuted : exists s t, snd (copy_dbc_labels [s] [t]) = Ok tt /\ exists o,
  fst (copy_dbc_labels [s] [t]) = [o] /\ at_node s "DBC1" 1 = [Some 1%R] /\ at_node o "DBC1" 1 = [Some 0%R].
Proof.
  exists [("NODE", [Some 1%R; Some 2%R]); ("DBC1", [Some 1%R; Some 0%R]); ("DBC2", [Some 1%R; Some 0%R]); ("DBC3", [Some 1%R; Some 0%R])],
         [("NODE", [Some 2%R; Some 1%R])].
  split; [reflexivity|]. eexists. split; [reflexivity|]. unfold at_node. cbn.
  destruct (Req_EM_T 1 1); [|lra]. destruct (Req_EM_T 2 1); [lra|]. split; reflexivity.
Qed.
Theorem copy_labels_missing_refuted : exists s t, snd (copy_dbc_labels [s] [t]) = Ok tt /\ exists o,
  fst (copy_dbc_labels [s] [t]) = [o] /\ gget String.eqb o "DBC1" = Some [Some 1%R; None].
Proof.
  exists (lab 1), [("NODE", [Some 1%R; Some 2%R])]. split; [reflexivity|]. eexists. split; reflexivity.
Qed.

(** ** Concrete case: two nodes held at the base, one pulled *)
Definition ex_bc (a i t : nat) : Z := match a, i with 2%nat, 1%nat => 2%Z | (0%nat|1%nat), 1%nat => 1%Z | _, _ => 0%Z end.
Definition ex_force (a i t : nat) : R := match a, i with 2%nat, 1%nat => INR t | 0%nat, 1%nat => (- INR t)%R | _, _ => 0%R end.
Example ex_sets : map (fun s => (set_name s, set_nodes s)) (build_sets 3 2 4 ex_bc ex_force)
  = [("dim_1_label_0", [1; 2; 3]%nat); ("dim_2_label_1", [1; 2]%nat); ("dim_2_label_2", [3]%nat)] /\
  map set_name (displayed (build_sets 3 2 4 ex_bc ex_force)) = ["dim_2_label_1"; "dim_2_label_2"] /\
  set_elements [(1%Z, [1; 2]%nat); (2%Z, [2; 3]%nat)] [3%nat] = [2%Z].
Proof. repeat split. Qed.

Print Assumptions react_set_contents.
Print Assumptions react_sets_cover.
Print Assumptions react_labels_distinct.
Print Assumptions react_sets_total.
Print Assumptions react_compare.
Print Assumptions react_later_codes_refuted.
Print Assumptions react_displayed.
Print Assumptions react_elements.
Print Assumptions plotted_all.
Print Assumptions plotted_list.
Print Assumptions plotted_default_refuted.
Print Assumptions plotted_node_zero_refuted.
Print Assumptions copy_labels_ok.
Print Assumptions copy_labels_values.
Print Assumptions copy_labels_length.
Print Assumptions copy_labels_atomic_refuted.
Print Assumptions copy_labels_nodes_refuted.
Print Assumptions copy_labels_missing_refuted.
