(** Specimen history files: the history read is that of the simulation, in time
    order, and the boundary flags are those of the mesh (C83). *)
From Coq Require Import String Ascii List Bool Arith ZArith Lia Permutation Sorting.Sorted.
From Verif Require Import Lib PyStr PyDict HybridModel HybridProps TextLines SpecimenModel SpecimenProps HistoryModel.
Import ListNotations.
Local Open Scope string_scope.
Local Open Scope list_scope.

(** ** Specification *)

(** Files named by their time step *)
Definition step_files {A} (pre suf : string) (steps : list (nat * A)) : list (string * A) :=
  map (fun s => ((pre ++ "_" ++ nat_str (fst s) ++ suf)%string, snd s)) steps.
(** The degree of freedom j of node i is prescribed. *)
Definition constrained (bcs : list (Z * list Z)) (i j : Z) : Prop := exists l, In (i, l) bcs /\ In j l.
(** A table of flags of n nodes and three degrees of freedom *)
Definition flag_table (n : nat) (m : list (list Z)) (on : nat -> nat -> Z -> Prop) : Prop :=
  List.length m = n /\ (forall r, In r m -> List.length r = 3) /\
  forall i j, i < n -> j < 3 -> on i j (nth j (nth i m []) 0%Z).

(** ** Numbers in names *)
Lemma no_digit_app a b : no_digit (a ++ b) = no_digit a && no_digit b.
Proof. induction a as [|c a IH]; [reflexivity|]. cbn. rewrite IH. now rewrite andb_assoc. Qed.
Lemma nat_has_digit n s : no_digit (nat_str n ++ s) = false.
Proof.
  pose proof (nat_str_nonempty n) as N. pose proof (nat_str_digits n) as D.
  destruct (nat_str n) as [|c t]; [contradiction|]. cbn in D |- *. apply andb_prop in D as [-> _]. reflexivity.
Qed.
Lemma take_digits_app s t : all_digits s = true -> no_digit t = true -> take_digits (s ++ t) = s.
Proof.
  intros D N. induction s as [|c s IH]; cbn in *.
  - destruct t as [|c t]; [reflexivity|]. cbn in *. apply andb_prop in N as [N _]. apply negb_true_iff in N. now rewrite N.
  - apply andb_prop in D as [-> D]. now rewrite IH.
Qed.
Lemma skip_digits_end s t : all_digits s = true -> no_digit t = true -> skip_digits (s ++ t) = t.
Proof.
  intros D N. induction s as [|c s IH]; cbn in *.
  - destruct t as [|c t]; [reflexivity|]. cbn in *. apply andb_prop in N as [N _]. apply negb_true_iff in N. now rewrite N.
  - apply andb_prop in D as [-> D]. now apply IH.
Qed.
Lemma skip_digits_mid a b : no_digit b = false -> no_digit (skip_digits (a ++ String "_" b)) = false.
Proof.
  intros H. induction a as [|c a IH]; [exact H|]. cbn. destruct (is_digit c) eqn:E; [exact IH|]. cbn. rewrite E.
  rewrite no_digit_app. cbn. rewrite H. apply andb_false_r.
Qed.
Lemma last_number_name a n b : no_digit b = true -> last_number (a ++ String "_" (nat_str n ++ b)) = Some (nat_str n).
Proof.
  intros Hb. induction a as [|c a IH].
  - cbn [append last_number].
    change (take_digits (String "_" (nat_str n ++ b))) with "". cbn [String.eqb negb andb].
    pose proof (nat_str_nonempty n) as N. pose proof (nat_str_digits n) as D.
    pose proof (take_digits_app _ _ D Hb) as T. pose proof (skip_digits_end _ _ D Hb) as K.
    destruct (nat_str n ++ b)%string as [|x y] eqn:E; [destruct (nat_str n); [contradiction|discriminate E]|].
    cbn [last_number]. rewrite T, K, Hb. apply String.eqb_neq in N. now rewrite N.
  - assert (K : no_digit (skip_digits (String c a ++ String "_" (nat_str n ++ b))) = false)
      by (apply skip_digits_mid, nat_has_digit).
    cbn [append] in *. cbn [last_number]. rewrite K, andb_false_r. exact IH.
Qed.
Lemma path_key_name a n b : no_digit b = true -> path_key (a ++ String "_" (nat_str n ++ b)) = Ok (Z.of_nat n).
Proof. intros H. unfold path_key. rewrite last_number_name by exact H. rewrite int_of_nat_str. reflexivity. Qed.

(** ** Sorting *)
Lemma perm_filter {A} (f : A -> bool) l l' : Permutation l l' -> Permutation (filter f l) (filter f l').
Proof.
  induction 1 as [|x l l' _ IH|x y l|l l' l'' _ IH1 _ IH2]; cbn.
  - constructor.
  - destruct (f x); [now constructor|exact IH].
  - destruct (f x), (f y); try reflexivity. constructor.
  - now transitivity (filter f l').
Qed.
Lemma sorted_unique {A} (key : A -> Z) l : forall l', Permutation l l' ->
  StronglySorted (fun a b => (key a <= key b)%Z) l -> StronglySorted (fun a b => (key a < key b)%Z) l' -> l = l'.
Proof.
  induction l as [|x l IH]; intros l' P Sl Sl'; [apply Permutation_nil in P; now subst|].
  destruct l' as [|y l']; [symmetry in P; apply Permutation_nil in P; discriminate|].
  apply StronglySorted_inv in Sl as [Sl Fl]. apply StronglySorted_inv in Sl' as [Sl' Fl'].
  rewrite Forall_forall in Fl, Fl'.
  assert (E : x = y).
  { pose proof (Permutation_in x P (or_introl eq_refl)) as [->|Hx]; [reflexivity|].
    pose proof (Permutation_in y (Permutation_sym P) (or_introl eq_refl)) as [->|Hy]; [reflexivity|].
    specialize (Fl y Hy). specialize (Fl' x Hx). lia. }
  subst y. f_equal. apply IH; [now apply Permutation_cons_inv in P|assumption..].
Qed.
Lemma isort_unique {A} (key : A -> Z) l l' : Permutation l l' -> StronglySorted (fun a b => (key a < key b)%Z) l' ->
  isort key l = l'.
Proof.
  intros P H. apply (sorted_unique key); [|apply isort_sorted|exact H]. etransitivity; [apply isort_perm|exact P].
Qed.
Lemma sort_paths_unique {A} (key : string * A -> Z) l l' :
  (forall f, In f l' -> path_key (fst f) = Ok (key f)) -> Permutation l l' ->
  StronglySorted (fun a b => (key a < key b)%Z) l' -> sort_paths l = Ok l'.
Proof.
  intros K P H. unfold sort_paths.
  rewrite (rmap_all _ l (fun f => (key f, f))).
  2:{ intros f Hf. rewrite K by (eapply Permutation_in; eauto). reflexivity. }
  cbn [rbind]. f_equal. rewrite <- (isort_map (fun f => (key f, f)) fst l). cbn [fst].
  rewrite map_map. cbn [snd]. rewrite map_id. now apply isort_unique.
Qed.
Lemma steps_sorted {A} (pre suf : string) (g : string * A -> string * A) (steps : list (nat * A)) (key : string * A -> Z) :
  StronglySorted lt (map fst steps) ->
  (forall s, In s steps -> key (g ((pre ++ "_" ++ nat_str (fst s) ++ suf)%string, snd s)) = Z.of_nat (fst s)) ->
  StronglySorted (fun a b => (key a < key b)%Z) (map g (step_files pre suf steps)).
Proof.
  unfold step_files. induction steps as [|s steps IH]; intros H K; [constructor|]. cbn [map] in *.
  apply StronglySorted_inv in H as [H1 H2]. constructor.
  - apply IH; [exact H1|]. intros; apply K; now right.
  - rewrite Forall_forall in H2 |- *. intros x Hx. apply in_map_iff in Hx as [y [<- Hy]]. apply in_map_iff in Hy as [z [<- Hz]].
    rewrite (K s), (K z) by (try (now left); now right). specialize (H2 (fst z) (in_map fst _ _ Hz)). lia.
Qed.

(** ** Names *)
Lemma after_app p s : after p (p ++ s) = Some s.
Proof. induction p as [|c p IH]; [now destruct s|]. cbn. rewrite Ascii.eqb_refl. exact IH. Qed.
Lemma after_inv p s r : after p s = Some r -> s = (p ++ r)%string.
Proof.
  revert s. induction p as [|c p IH]; intros s; [destruct s; cbn; congruence|]. destruct s as [|d s]; [discriminate|]. cbn.
  destruct (Ascii.eqb_spec c d) as [->|]; [|discriminate]. intros H. f_equal. now apply IH.
Qed.
Lemma ends_with_app a p : ends_with p (a ++ p) = true.
Proof.
  induction a as [|c a IH].
  - cbn [append]. destruct p; cbn [ends_with]; rewrite ?String.eqb_refl; reflexivity.
  - cbn [append ends_with]. rewrite IH. apply orb_true_r.
Qed.
Lemma ends_with_inv p s : ends_with p s = true -> exists a, s = (a ++ p)%string.
Proof.
  induction s as [|c s IH]; cbn [ends_with]; intros H.
  - rewrite orb_false_r in H. apply String.eqb_eq in H. subst p. now exists "".
  - apply orb_prop in H as [H|H]; [apply String.eqb_eq in H; subst p; now exists ""|].
    destruct (IH H) as [a ->]. now exists (String c a).
Qed.
Lemma is_node_data_iff sim name : is_node_data sim name = true <-> exists a, name = (sim ++ a ++ ".nodedata")%string.
Proof.
  unfold is_node_data. split.
  - destruct (after sim name) as [r|] eqn:E; [|discriminate]. intros H. apply after_inv in E. apply ends_with_inv in H as [a ->]. eauto.
  - intros [a ->]. rewrite after_app. apply ends_with_app.
Qed.
Lemma digits_split s : s = (take_digits s ++ skip_digits s)%string /\ all_digits (take_digits s) = true.
Proof.
  induction s as [|c s [IH1 IH2]]; [split; reflexivity|]. cbn. destruct (is_digit c) eqn:E; [|split; reflexivity].
  split; [cbn; now f_equal|]. cbn. now rewrite E.
Qed.
Lemma take_digits_any s c t : all_digits s = true -> is_digit c = false -> take_digits (s ++ String c t) = s.
Proof.
  intros D N. induction s as [|d s IH]; cbn in *; [now rewrite N|]. apply andb_prop in D as [-> D]. now rewrite IH.
Qed.
(** The history files accepted by the reader: anything may follow .csv. *)
Definition time_step_name (sim f : string) : Prop :=
  exists d rest, d <> "" /\ all_digits d = true /\ f = (sim ++ "_tstep_" ++ d ++ ".csv" ++ rest)%string.
Lemma is_time_step_iff sim f : is_time_step sim f = true <-> time_step_name sim f.
Proof.
  unfold is_time_step, time_step_name. split.
  - destruct (after (sim ++ "_tstep_") f) as [r|] eqn:E; [|discriminate]. intros H. apply andb_prop in H as [H1 H2].
    apply after_inv in E. destruct (after ".csv" (skip_digits r)) as [rest|] eqn:E2; [|discriminate]. apply after_inv in E2.
    destruct (digits_split r) as [D1 D2]. exists (take_digits r), rest.
    split; [intros Q; rewrite Q in H1; discriminate|]. split; [exact D2|].
    rewrite E, <- app_assoc_s. f_equal. f_equal. rewrite D1 at 1. now rewrite E2.
  - intros [d [rest [N [D ->]]]]. rewrite app_assoc_s, after_app.
    change (d ++ ".csv" ++ rest)%string with (d ++ String "." ("csv" ++ rest))%string.
    rewrite take_digits_any, skip_digits_app by (auto; reflexivity).
    apply String.eqb_neq in N. rewrite N. reflexivity.
Qed.

(** ** Order of the time steps *)
Lemma filter_files {A} (f : string -> bool) (named others : list (string * A)) :
  (forall x, In x named -> f (fst x) = true) -> (forall x, In x others -> f (fst x) = false) ->
  filter (fun x => f (fst x)) (named ++ others) = named.
Proof.
  intros H1 H2. rewrite filter_app.
  assert (E1 : filter (fun x => f (fst x)) named = named).
  { clear H2. induction named as [|x l IH]; [reflexivity|]. cbn. rewrite H1 by (now left). f_equal. apply IH. intros; apply H1; now right. }
  assert (E2 : filter (fun x => f (fst x)) others = []).
  { clear H1. induction others as [|x l IH]; [reflexivity|]. cbn. rewrite H2 by (now left). apply IH. intros; apply H2; now right. }
  now rewrite E1, E2, app_nil_r.
Qed.
Lemma in_dir_sorted {A} dir pre suf (steps : list (nat * A)) : no_digit suf = true -> StronglySorted lt (map fst steps) ->
  forall l, Permutation l (map (fun f => (in_dir dir (fst f), snd f)) (step_files pre suf steps)) ->
  rbind (sort_paths l) (fun l => Ok (map snd l)) = Ok (map snd steps).
Proof.
  intros Hs Hk l P.
  assert (K : forall s : nat * A, path_key (in_dir dir (pre ++ "_" ++ nat_str (fst s) ++ suf)%string) = Ok (Z.of_nat (fst s))).
  { intros s. unfold in_dir.
    change (pre ++ "_" ++ nat_str (fst s) ++ suf)%string with (pre ++ String "_" (nat_str (fst s) ++ suf))%string.
    rewrite !app_assoc_s. now apply path_key_name. }
  set (key := fun f : string * A => match path_key (fst f) with Ok z => z | Err _ => 0%Z end).
  rewrite (sort_paths_unique key l _) with (2 := P).
  - cbn [rbind]. f_equal. unfold step_files. rewrite !map_map. cbn [snd]. reflexivity.
  - intros f Hf. apply in_map_iff in Hf as [x [<- Hx]]. apply in_map_iff in Hx as [s [<- Hs2]]. unfold key. cbn [fst]. now rewrite K.
  - apply steps_sorted; [exact Hk|]. intros s _. unfold key. cbn [fst]. now rewrite K.
Qed.

(** The node data of a simulation are collected by time step, whatever the
    order of the directory and the other files in it. *)
Theorem node_data_in_time_order {A} sim mid dir (steps : list (nat * A)) others listing :
  StronglySorted lt (map fst steps) ->
  (forall f, In f others -> ~ exists a, fst f = (sim ++ a ++ ".nodedata")%string) ->
  Permutation listing (step_files (sim ++ mid)%string ".nodedata" steps ++ others) ->
  collect sim dir listing = Ok (map snd steps).
Proof.
  intros Hk Ho P. unfold collect. apply (in_dir_sorted dir (sim ++ mid) ".nodedata" steps); [reflexivity|exact Hk|].
  apply Permutation_map. etransitivity; [apply perm_filter, P|]. rewrite filter_files; [reflexivity| |].
  - intros x Hx. apply in_map_iff in Hx as [s [<- _]]. cbn [fst]. apply is_node_data_iff.
    exists (mid ++ "_" ++ nat_str (fst s))%string. now rewrite <- !app_assoc_s.
  - intros x Hx. destruct (is_node_data sim (fst x)) eqn:E; [|reflexivity]. apply is_node_data_iff in E. now destruct (Ho x Hx).
Qed.

(** ** Boundary flags *)
Lemma nth_upd_same {A} (l : list A) k v d : k < List.length l -> nth k (upd l k v) d = v.
Proof. intros H. rewrite nth_upd by exact H. now rewrite Nat.eqb_refl. Qed.
Lemma nth_upd_other {A} (l : list A) k v i d : k <> i -> nth i (upd l k v) d = nth i l d.
Proof.
  revert k i. induction l as [|x l IH]; intros [|k] [|i] N; cbn; try reflexivity; [contradiction|]. apply IH. congruence.
Qed.
Lemma py_index_in n i : 1 <= i <= n -> py_index n (Z.of_nat i - 1) = Ok (i - 1).
Proof.
  intros H. unfold py_index. replace (Z.of_nat i - 1)%Z with (Z.of_nat (i - 1)) by lia.
  assert (E : ((0 <=? Z.of_nat (i - 1)) && (Z.of_nat (i - 1) <? Z.of_nat n))%Z = true)
    by (apply andb_true_iff; split; [apply Z.leb_le|apply Z.ltb_lt]; lia).
  rewrite E. f_equal. lia.
Qed.
Definition table3 (n : nat) (m : list (list Z)) : Prop := List.length m = n /\ forall r, In r m -> List.length r = 3.
Lemma zero_table n : table3 n (zero_sets n).
Proof. unfold zero_sets. split; [apply repeat_length|]. intros r Hr. apply repeat_spec in Hr. now subst. Qed.
Lemma table_upd n m i r : table3 n m -> List.length r = 3 -> table3 n (upd m i r).
Proof.
  intros [H1 H2] Hr. split; [now rewrite upd_length|]. intros x Hx. apply (In_nth _ _ []) in Hx as [k [Hk Ex]].
  rewrite upd_length in Hk. destruct (Nat.eq_dec i k) as [->|N].
  - rewrite nth_upd_same in Ex by exact Hk. now subst.
  - rewrite nth_upd_other in Ex by exact N. subst x. apply H2, nth_In, Hk.
Qed.
Lemma table_row n m i : table3 n m -> i < n -> List.length (nth i m []) = 3.
Proof. intros [H1 H2] Hi. apply H2, nth_In. lia. Qed.
Definition entry (m : list (list Z)) (i j : nat) : Z := nth j (nth i m []) 0%Z.
Lemma entry_upd n m i j v a b : table3 n m -> i < n -> j < 3 ->
  entry (upd m i (upd (nth i m []) j v)) a b = if (Nat.eqb a i && Nat.eqb b j)%bool then v else entry m a b.
Proof.
  intros T Hi Hj. unfold entry. destruct (Nat.eqb_spec a i) as [->|N].
  - rewrite nth_upd_same by (destruct T; lia). destruct (Nat.eqb_spec b j) as [->|N2]; cbn [andb].
    + apply nth_upd_same. rewrite (table_row n) by assumption. exact Hj.
    + apply nth_upd_other; congruence.
  - cbn [andb]. rewrite nth_upd_other by congruence. reflexivity.
Qed.
Definition in_range (n : nat) (bcs : list (Z * list Z)) : Prop :=
  forall i j, constrained bcs i j -> (1 <= i <= Z.of_nat n)%Z /\ (1 <= j <= 3)%Z.
Lemma py_index_z n z : (1 <= z <= Z.of_nat n)%Z -> py_index n (z - 1) = Ok (Z.to_nat z - 1).
Proof. intros H. rewrite <- (Z2Nat.id z) at 1 by lia. apply py_index_in. lia. Qed.

Lemma dofs_fold n i dofs : (1 <= i <= Z.of_nat n)%Z -> forall m, table3 n m -> (forall j, In j dofs -> (1 <= j <= 3)%Z) ->
  exists m', rfold (fun m dof => rbind (py_index n (i - 1)) (fun i => rbind (py_index 3 (dof - 1)) (fun j =>
      Ok (upd m i (upd (nth i m []) j 1%Z))))) dofs m = Ok m' /\ table3 n m' /\
    forall a b, a < n -> b < 3 ->
      ((Z.of_nat (S a) = i /\ In (Z.of_nat (S b)) dofs) /\ entry m' a b = 1%Z) \/
      (~ (Z.of_nat (S a) = i /\ In (Z.of_nat (S b)) dofs) /\ entry m' a b = entry m a b).
Proof.
  intros Hi. induction dofs as [|j dofs IH]; intros m T Hj.
  - exists m. split; [reflexivity|]. split; [exact T|]. intros a b _ _. right. cbn. tauto.
  - cbn [rfold]. rewrite py_index_z by exact Hi. cbn [rbind].
    pose proof (Hj j (or_introl eq_refl)) as Hj1. rewrite (py_index_z 3 j) by (cbn; lia). cbn [rbind].
    set (m1 := upd m (Z.to_nat i - 1) (upd (nth (Z.to_nat i - 1) m []) (Z.to_nat j - 1) 1%Z)).
    assert (T1 : table3 n m1).
    { apply table_upd; [exact T|]. rewrite upd_length. apply (table_row n); [exact T|lia]. }
    destruct (IH m1 T1) as [m' [E [T' H']]]; [intros; apply Hj; now right|].
    rewrite py_index_z in E by exact Hi. cbn [rbind] in E. exists m'. split; [exact E|]. split; [exact T'|].
    intros a b Ha Hb. specialize (H' a b Ha Hb).
    assert (E1 : entry m1 a b = if (Nat.eqb a (Z.to_nat i - 1) && Nat.eqb b (Z.to_nat j - 1))%bool then 1%Z else entry m a b)
      by (apply (entry_upd n); [exact T|lia|lia]).
    destruct H' as [[[A B] C]|[A B]]; [left; split; [split; [exact A|now right]|exact C]|].
    destruct (Nat.eqb_spec a (Z.to_nat i - 1)) as [Ea|Na]; [destruct (Nat.eqb_spec b (Z.to_nat j - 1)) as [Eb|Nb]|]; cbn [andb] in E1.
    + left. split; [split; [lia|left; lia]|]. now rewrite B, E1.
    + right. split; [|now rewrite B, E1]. intros [Q1 [Q2|Q2]]; [lia|]. now apply A.
    + right. split; [|now rewrite B, E1]. intros [Q1 Q2]. lia.
Qed.
Lemma dofs_err n i dofs m : dofs <> [] -> ~ (1 <= i <= Z.of_nat n)%Z -> (1 <= i)%Z ->
  rfold (fun m dof => rbind (py_index n (i - 1)) (fun i => rbind (py_index 3 (dof - 1)) (fun j =>
      Ok (upd m i (upd (nth i m []) j 1%Z))))) dofs m = Err IndexError.
Proof.
  intros N H H1. destruct dofs as [|j dofs]; [contradiction|]. cbn [rfold].
  assert (E : py_index n (i - 1) = Err IndexError).
  { unfold py_index.
    assert (E1 : ((0 <=? i - 1) && (i - 1 <? Z.of_nat n))%Z = false).
    { apply andb_false_iff. right. apply Z.ltb_ge. lia. }
    assert (E2 : ((- Z.of_nat n <=? i - 1) && (i - 1 <? 0))%Z = false).
    { apply andb_false_iff. right. apply Z.ltb_ge. lia. }
    now rewrite E1, E2. }
  rewrite E. reflexivity.
Qed.

(** The pointwise flags: one on the prescribed degrees of freedom, zero
    elsewhere. *)
Theorem pointwise_sets_law n bcs : in_range n bcs ->
  exists m, pointwise_sets n bcs = Ok m /\
    flag_table n m (fun i j v => (constrained bcs (Z.of_nat (S i)) (Z.of_nat (S j)) /\ v = 1%Z) \/
                                 (~ constrained bcs (Z.of_nat (S i)) (Z.of_nat (S j)) /\ v = 0%Z)).
Proof.
  intros R. unfold pointwise_sets.
  assert (G : forall m, table3 n m -> exists m', 
    rfold (fun m nb => rfold (fun m dof => rbind (py_index n (fst nb - 1)) (fun i => rbind (py_index 3 (dof - 1)) (fun j =>
      Ok (upd m i (upd (nth i m []) j 1%Z))))) (snd nb) m) bcs m = Ok m' /\ table3 n m' /\
    forall a b, a < n -> b < 3 ->
      (constrained bcs (Z.of_nat (S a)) (Z.of_nat (S b)) /\ entry m' a b = 1%Z) \/
      (~ constrained bcs (Z.of_nat (S a)) (Z.of_nat (S b)) /\ entry m' a b = entry m a b)).
  { induction bcs as [|[i dofs] bcs IH]; intros m T.
    - exists m. split; [reflexivity|]. split; [exact T|]. intros a b _ _. right. split; [intros [l [[] _]]|reflexivity].
    - assert (R' : in_range n bcs) by (intros a b [l [H1 H2]]; apply R; exists l; split; [now right|exact H2]).
      cbn [rfold fst snd]. destruct dofs as [|d0 ds].
      + cbn [rfold rbind]. destruct (IH R' m T) as [m' [E [T' H']]]. exists m'. split; [exact E|]. split; [exact T'|].
        intros a b Ha Hb. destruct (H' a b Ha Hb) as [[[l [A1 A2]] B]|[A B]].
        * left. split; [exists l; split; [now right|exact A2]|exact B].
        * right. split; [|exact B]. intros [l [[Q|Q] Q2]]; [apply (f_equal snd) in Q; cbn [snd] in Q; subst l; destruct Q2|]. apply A. now exists l.
      + set (dofs := d0 :: ds) in *.
        assert (Hi : (1 <= i <= Z.of_nat n)%Z) by (apply (R i d0); exists dofs; split; left; reflexivity).
        assert (Hd : forall j, In j dofs -> (1 <= j <= 3)%Z) by (intros j Hj; apply (R i j); exists dofs; split; [now left|exact Hj]).
        destruct (dofs_fold n i dofs Hi m T Hd) as [m1 [E1 [T1 H1]]]. rewrite E1. cbn [rbind].
        destruct (IH R' m1 T1) as [m' [E [T' H']]]. exists m'. split; [exact E|]. split; [exact T'|].
        intros a b Ha Hb. specialize (H1 a b Ha Hb). destruct (H' a b Ha Hb) as [[[l [A1 A2]] B]|[A B]].
        * left. split; [exists l; split; [now right|exact A2]|exact B].
        * destruct H1 as [[[P Q] W]|[P W]].
          -- left. split; [exists dofs; split; [left; apply (f_equal (fun z => (z, dofs))); symmetry; exact P|exact Q]|congruence].
          -- right. split; [|congruence]. intros [l [[Q|Q] Q2]].
             ++ apply P. pose proof (f_equal fst Q) as Q3. pose proof (f_equal snd Q) as Q4. cbn [fst snd] in Q3, Q4. subst l. split; [symmetry; exact Q3|exact Q2].
             ++ apply A. now exists l. }
  destruct (G _ (zero_table n)) as [m [E [[T1 T2] H]]]. exists m. split; [exact E|]. split; [exact T1|]. split; [exact T2|].
  intros a b Ha Hb. destruct (H a b Ha Hb) as [L|[A B]]; [now left|]. right. split; [exact A|].
  fold (entry m a b). rewrite B. unfold entry, zero_sets. rewrite (nth_indep _ [] [0; 0; 0]%Z) by (rewrite repeat_length; exact Ha). rewrite nth_repeat. destruct b as [|[|[|b]]]; [reflexivity..|lia].
Qed.

(** A label beyond the mesh is refused. *)
Theorem pointwise_sets_refused n bcs : 
  (forall i j, constrained bcs i j -> (1 <= i)%Z /\ (1 <= j <= 3)%Z) ->
  (exists i j, constrained bcs i j /\ (Z.of_nat n < i)%Z) ->
  pointwise_sets n bcs = Err IndexError.
Proof.
  intros R [i0 [j0 [[l0 [H1 H2]] H3]]]. unfold pointwise_sets. generalize (zero_table n). generalize (zero_sets n).
  induction bcs as [|[i dofs] bcs IH]; intros m T; [destruct H1|]. cbn [rfold fst snd].
  assert (R' : forall i j, constrained bcs i j -> (1 <= i)%Z /\ (1 <= j <= 3)%Z)
    by (intros a b [l [Q1 Q2]]; apply R; exists l; split; [now right|exact Q2]).
  destruct dofs as [|d ds].
  - cbn [rfold rbind]. destruct H1 as [H1|H1]; [apply (f_equal snd) in H1; cbn [snd] in H1; subst l0; destruct H2|]. now apply IH.
  - assert (Hi : (1 <= i)%Z) by (apply (R i d); exists (d :: ds); split; left; reflexivity).
    destruct (Z.le_gt_cases i (Z.of_nat n)) as [L|L].
    + assert (Hd : forall j, In j (d :: ds) -> (1 <= j <= 3)%Z) by (intros j Hj; apply (R i j); exists (d :: ds); split; [now left|exact Hj]).
      destruct (dofs_fold n i (d :: ds) (conj Hi L) m T Hd) as [m1 [E1 [T1 _]]]. rewrite E1. cbn [rbind].
      destruct H1 as [H1|H1]; [apply (f_equal fst) in H1; cbn [fst] in H1; lia|]. now apply IH.
    + rewrite dofs_err; [reflexivity|discriminate|lia|exact Hi].
Qed.

(** The flags of the history are those of the mesh file with the same boundary
    conditions. *)
Theorem history_flags_agree {V} n n_dim (d : list (nat * list (nat * V))) flags : n_dim <= 3 ->
  (forall i j, prescribed d i j -> 1 <= i <= n /\ 1 <= j <= 3) ->
  flags_of n n_dim (Some d) flags ->
  exists m, pointwise_sets n (map (fun r => (Z.of_nat (fst r), map (fun b => Z.of_nat (fst b)) (snd r))) d) = Ok m /\
    forall i j, i < n -> j < n_dim ->
      nth j (nth i m []) 0%Z = if nth j (nth i flags []) false then 1%Z else 0%Z.
Proof.
  intros Hn R [_ [_ F]]. set (bcs := map _ d).
  assert (C : forall i j, constrained bcs (Z.of_nat i) (Z.of_nat j) <-> prescribed d i j).
  { intros i j. unfold constrained, prescribed, bcs. split.
    - intros [l [H1 H2]]. apply in_map_iff in H1 as [[i' l'] [H1 H3]]. cbn [fst snd] in H1.
      pose proof (f_equal fst H1) as A. pose proof (f_equal snd H1) as B. cbn [fst snd] in A, B. apply Nat2Z.inj in A. subst i' l.
      apply in_map_iff in H2 as [[j' v] [H2 H4]]. cbn [fst] in H2. apply Nat2Z.inj in H2. subst j'. eauto.
    - intros [l [v [H1 H2]]]. exists (map (fun b => Z.of_nat (fst b)) l). split.
      + apply in_map_iff. exists (i, l). now split.
      + apply in_map_iff. exists (j, v). now split. }
  assert (Cz : forall i j, constrained bcs i j -> exists a b, i = Z.of_nat a /\ j = Z.of_nat b).
  { intros i j [l [H1 H2]]. unfold bcs in H1. apply in_map_iff in H1 as [[a l'] [H1 H3]]. cbn [fst snd] in H1.
    pose proof (f_equal fst H1) as A. pose proof (f_equal snd H1) as B. cbn [fst snd] in A, B. subst i l.
    apply in_map_iff in H2 as [[b v] [<- _]]. eauto. }
  destruct (pointwise_sets_law n bcs) as [m [E [_ [_ H]]]].
  - intros i j H. destruct (Cz i j H) as [a [b [-> ->]]]. apply C, R in H. lia.
  - exists m. split; [exact E|]. intros i j Hi Hj. specialize (H i j Hi (Nat.lt_le_trans _ _ _ Hj Hn)). specialize (F i j Hi Hj).
    rewrite C in H. destruct (nth j (nth i flags []) false).
    + destruct H as [[_ H]|[H _]]; [exact H|]. exfalso. apply H, F. reflexivity.
    + destruct H as [[H _]|[_ H]]; [|exact H]. apply F in H. discriminate.
Qed.

(** ** Histories *)
Section History.
  Context {V : Type} (of_int : Z -> V) (to_int : V -> Z) (to32 : V -> V) (d0 : V).

  Lemma rmap_hist sim m (files : list (frame V)) : forall a,
    (forall f, In f files -> f_cols f = 18 /\ List.length (f_rows f) = List.length m) ->
    rmap (fun tf => rbind (hist_frame of_int d0 m (snd tf)) (fun f => Ok (hist_name sim (fst tf), f)))
      (combine (seq a (List.length files)) files)
    = Ok (map (fun tf => (hist_name sim (fst tf),
            mkFrame 13 (map (fun p => map (fun c => nth c (fst p) d0) hist_columns ++ map of_int (snd p))
                            (combine (f_rows (snd tf)) m)))) (combine (seq a (List.length files)) files)).
  Proof.
    induction files as [|f files IH]; intros a H; [reflexivity|]. cbn [List.length seq combine rmap map fst snd].
    destruct (H f (or_introl eq_refl)) as [H1 H2]. unfold hist_frame at 1. rewrite H1, H2, !Nat.eqb_refl. cbn [negb rbind].
    rewrite IH by (intros; apply H; now right). reflexivity.
  Qed.
  Lemma seq_sorted n : forall a, StronglySorted lt (seq a n).
  Proof.
    induction n as [|n IH]; intros a; [constructor|]. cbn. constructor; [apply IH|]. apply Forall_forall. intros x Hx.
    apply in_seq in Hx. lia.
  Qed.
  Lemma fst_combine {A B} (l : list A) (l' : list B) : List.length l = List.length l' -> map fst (combine l l') = l.
  Proof. revert l'. induction l as [|x l IH]; intros [|y l'] H; try discriminate H; [reflexivity|]. cbn. f_equal. apply IH. now injection H. Qed.
  Lemma snd_combine {A B} (l : list A) (l' : list B) : List.length l = List.length l' -> map snd (combine l l') = l'.
  Proof. revert l'. induction l as [|x l IH]; intros [|y l'] H; try discriminate H; [reflexivity|]. cbn. f_equal. apply IH. now injection H. Qed.

  (** The frame of a time step: label, coordinates, displacements, reactions
      and flags. *)
  Definition hist_rows (m : list (list Z)) (f : frame V) : list (list V) :=
    map (fun p => map (fun c => nth c (fst p) d0) hist_columns ++ map of_int (snd p)) (combine (f_rows f) m).

  Lemma hist_files sim m (l : list (frame V)) : forall a,
    map (fun tf => (hist_name sim (fst tf),
            mkFrame 13 (map (fun p => map (fun c => nth c (fst p) d0) hist_columns ++ map of_int (snd p))
                            (combine (f_rows (snd tf)) m)))) (combine (seq a (List.length l)) l)
    = map (fun tf => (hist_name sim (fst tf), snd tf))
        (combine (seq a (List.length l)) (map (fun f => mkFrame 13 (hist_rows m f)) l)).
  Proof.
    induction l as [|f l IH]; intros a; [reflexivity|]. cbn [List.length seq combine map fst snd]. f_equal. apply IH.
  Qed.

  (** Files written in any directory, among any other files and listed in any
      order, are read in the order of the time steps. *)
  Theorem history_in_time_order sim dir (frames : list (frame V)) others listing :
    frames <> [] ->
    (forall f, In f others -> ~ time_step_name sim (fst f)) ->
    Permutation listing (map (fun tf => (hist_name sim (fst tf), snd tf)) (combine (seq 0 (List.length frames)) frames) ++ others) ->
    history_paths sim dir (Some listing) = Ok frames.
  Proof.
    intros N Ho P. unfold history_paths.
    set (steps := combine (seq 0 (List.length frames)) frames) in *.
    assert (L : List.length (seq 0 (List.length frames)) = List.length frames) by apply seq_length.
    assert (E : map (fun tf => (hist_name sim (fst tf), snd tf)) steps = step_files (sim ++ "_tstep")%string ".csv" steps).
    { unfold step_files. apply map_ext. intros [t f]. unfold hist_name. cbn [fst snd]. f_equal. rewrite <- app_assoc_s. reflexivity. }
    rewrite E in P.
    assert (Q : Permutation (filter (fun f => is_time_step sim (fst f)) listing) (step_files (sim ++ "_tstep")%string ".csv" steps)).
    { etransitivity; [apply perm_filter, P|]. rewrite filter_files; [reflexivity| |].
      - intros x Hx. apply in_map_iff in Hx as [s [<- _]]. cbn [fst]. apply is_time_step_iff.
        exists (nat_str (fst s)), "". split; [apply nat_str_nonempty|]. split; [apply nat_str_digits|]. now rewrite <- app_assoc_s.
      - intros x Hx. destruct (is_time_step sim (fst x)) eqn:Ex; [|reflexivity]. apply is_time_step_iff in Ex. now destruct (Ho x Hx). }
    pose proof (Permutation_length Q) as Ql. unfold step_files in Ql. rewrite map_length in Ql.
    unfold steps in Ql. rewrite combine_length, L, Nat.min_id in Ql.
    rewrite map_length, Ql. assert (Z0 : Nat.eqb (List.length frames) 0 = false) by (destruct frames; [contradiction|reflexivity]).
    rewrite Z0. rewrite (in_dir_sorted dir (sim ++ "_tstep") ".csv" steps); [|reflexivity| |].
    - unfold steps. now rewrite snd_combine by exact L.
    - unfold steps. rewrite fst_combine by exact L. apply seq_sorted.
    - now apply Permutation_map.
  Qed.

  Lemma slice_hist r s a n : List.length s = 3 -> n <= 3 -> a = 4 \/ a = 7 \/ a = 10 ->
    slice a n (map to32 (map (fun c => nth c r d0) hist_columns ++ map of_int s))
    = map to32 (firstn n (if Nat.eqb a 10 then map of_int s
                          else if Nat.eqb a 4 then [nth 6 r d0; nth 7 r d0; nth 8 r d0]
                          else [nth 15 r d0; nth 16 r d0; nth 17 r d0])).
  Proof.
    intros Hs Hn Ha. destruct s as [|x [|y [|z [|w s]]]]; try discriminate Hs.
    destruct Ha as [->|[->| ->]]; destruct n as [|[|[|[|n]]]]; try lia; reflexivity.
  Qed.

  (** The whole path from the results of the simulation to the specimen data:
      the displacements, reactions and flags read at each time are those of the
      simulation at that time step. *)
  Theorem specimen_history_law sim mid dir dir2 n_dim n (steps : list (nat * frame V)) others listing bcs :
    StronglySorted lt (map fst steps) -> steps <> [] -> n_dim <= 3 ->
    (forall s, In s steps -> f_cols (snd s) = 18 /\ List.length (f_rows (snd s)) = n /\
       forall r, In r (f_rows (snd s)) -> List.length r = 18) ->
    (forall z, to_int (to32 (of_int z)) = z) ->
    in_range n bcs ->
    (forall f, In f others -> ~ exists a, fst f = (sim ++ a ++ ".nodedata")%string) ->
    Permutation listing (step_files (sim ++ mid)%string ".nodedata" steps ++ others) ->
    exists files m,
      rbind (collect sim dir listing) (fun data => write_history of_int d0 sim data (Some bcs) Pointwise default_sets) = Ok files /\
      pointwise_sets n bcs = Ok m /\
      forall others2 listing2,
        (forall f, In f others2 -> ~ time_step_name sim (fst f)) ->
        Permutation listing2 (files ++ others2) ->
        rbind (history_paths sim dir2 (Some listing2)) (numerical_data to_int to32 n_dim n)
        = Ok (mkHistory
            (map (fun s => map (fun r => map to32 (firstn n_dim (skipn 6 r))) (f_rows (snd s))) steps)
            (map (fun s => map (fun r => map to32 (firstn n_dim (skipn 15 r))) (f_rows (snd s))) steps)
            (map (fun _ => map (firstn n_dim) m) steps)
            (seq 0 (List.length steps))).
  Proof.
    intros Hk Hn Hd Hf Ht Hb Ho P.
    rewrite (node_data_in_time_order sim mid dir steps others listing Hk Ho P). cbn [rbind].
    destruct (pointwise_sets_law n bcs Hb) as [m [Em [Lm [Rm _]]]].
    set (data := map snd steps). set (frames := map (fun f => mkFrame 13 (hist_rows m f)) data).
    exists (map (fun tf => (hist_name sim (fst tf), snd tf)) (combine (seq 0 (List.length frames)) frames)), m.
    assert (Hf' : forall f, In f data -> f_cols f = 18 /\ List.length (f_rows f) = List.length m).
    { intros f Hi. apply in_map_iff in Hi as [s [<- Hs]]. destruct (Hf s Hs) as [A [B _]]. split; [exact A|]. now rewrite B, Lm. }
    split; [|split; [exact Em|]].
    - unfold write_history. destruct data as [|f0 rest] eqn:Ed; [destruct steps; [contradiction|discriminate Ed]|].
      destruct (Hf' f0 (or_introl eq_refl)) as [_ L0]. rewrite L0, Lm, Em. cbn [rbind]. rewrite rmap_hist by exact Hf'.
      f_equal. unfold frames. rewrite map_length. apply hist_files.
    - intros others2 listing2 Ho2 P2.
      rewrite (history_in_time_order sim dir2 frames others2 listing2); [| |exact Ho2|exact P2].
      2:{ unfold frames, data. destruct steps; [contradiction|discriminate]. }
      cbn [rbind]. unfold numerical_data.
      rewrite (rmap_all _ frames (fun f => map (map to32) (f_rows f))).
      2:{ intros f Hi. apply in_map_iff in Hi as [g [<- Hg]]. destruct (Hf' g Hg) as [_ L0]. unfold load_frame. cbn [f_rows f_cols].
          unfold hist_rows. rewrite map_length, combine_length, L0, Nat.min_id, Lm, Nat.eqb_refl. reflexivity. }
      cbn [rbind]. f_equal.
      assert (S : forall a (g : list V -> list V), a = 4 \/ a = 7 ->
        (forall r, List.length r = 18 -> g r = map to32 (firstn n_dim (if Nat.eqb a 4 then [nth 6 r d0; nth 7 r d0; nth 8 r d0]
           else [nth 15 r d0; nth 16 r d0; nth 17 r d0]))) ->
        map (map (slice a n_dim)) (map (fun f => map (map to32) (f_rows f)) frames) = map (fun s => map g (f_rows (snd s))) steps).
      { intros a g Ha Hg. unfold frames, data. rewrite !map_map. apply map_ext_in. intros s Hs. cbn [f_rows].
        destruct (Hf s Hs) as [_ [B C]]. unfold hist_rows. rewrite !map_map. rewrite <- Lm in B.
        revert C B Rm. generalize (f_rows (snd s)) as rows. clear - Hd Ha Hg. intros rows. revert m.
        induction rows as [|r rows IH]; intros [|z m] C B Rm; try discriminate B; [reflexivity|]. cbn [combine map fst snd].
        rewrite IH; [|intros; apply C; now right|now injection B|intros; apply Rm; now right]. f_equal.
        rewrite slice_hist; [|apply Rm; now left|exact Hd|tauto].
        rewrite Hg by (apply C; now left). destruct Ha as [->| ->]; reflexivity. }
      f_equal.
      + apply S; [now left|]. intros r Hr. cbn [Nat.eqb]. do 18 (destruct r as [|? r]; [discriminate Hr|]).
        destruct r; [|discriminate Hr]. destruct n_dim as [|[|[|[|k]]]]; try lia; reflexivity.
      + apply S; [now right|]. intros r Hr. cbn [Nat.eqb]. do 18 (destruct r as [|? r]; [discriminate Hr|]).
        destruct r; [|discriminate Hr]. destruct n_dim as [|[|[|[|k]]]]; try lia; reflexivity.
      + unfold frames, data. rewrite !map_map. apply map_ext_in. intros s Hs. cbn [f_rows].
        destruct (Hf s Hs) as [_ [B C]]. unfold hist_rows. rewrite !map_map. rewrite <- Lm in B.
        revert B Rm. generalize (f_rows (snd s)) as rows. clear - Hd Ht. intros rows. revert m.
        induction rows as [|r rows IH]; intros [|z m] B Rm; try discriminate B; [reflexivity|]. cbn [combine map fst snd].
        rewrite IH; [|now injection B|intros; apply Rm; now right]. f_equal.
        rewrite slice_hist; [|apply Rm; now left|exact Hd|tauto]. cbn [Nat.eqb].
        rewrite <- !firstn_map, map_map. rewrite map_map. rewrite (map_ext _ (fun z => z)) by exact Ht. now rewrite map_id.
      + unfold frames, data. now rewrite !map_length.
  Qed.
End History.

(** ** Sets of constrained nodes *)
Definition ones (l : list bool) : nat := count_occ Bool.bool_dec l true.
(** The label of degree of freedom d of set k: the constrained degrees of
    freedom are numbered from one, set by set. *)
Definition set_label (sets : node_sets) (k d : nat) : Z :=
  Z.of_nat (1 + ones (concat (map snd (firstn k sets))) + ones (firstn d (snd (nth k sets ([], []))))).

Lemma ones_app a b : ones (a ++ b) = ones a + ones b.
Proof. apply count_occ_app. Qed.
Lemma set_labels_spec code : forall acc label,
  exists l, fold_left (fun a (v : bool) => if v then (fst a ++ [snd a], (snd a + 1)%Z) else (fst a ++ [0%Z], snd a)) code (acc, label)
    = (acc ++ l, (label + Z.of_nat (ones code))%Z) /\ List.length l = List.length code /\
    forall j, j < List.length code -> nth j l 0%Z = if nth j code false then (label + Z.of_nat (ones (firstn j code)))%Z else 0%Z.
Proof.
  induction code as [|v code IH]; intros acc label.
  - exists []. cbn. rewrite app_nil_r. split; [f_equal; lia|]. split; [reflexivity|]. intros j Hj. inversion Hj.
  - cbn [fold_left fst snd]. destruct v.
    + destruct (IH (acc ++ [label]) (label + 1)%Z) as [l [E [L H]]]. exists (label :: l). split; [|split].
      * rewrite E, <- app_assoc. cbn [app]. f_equal. unfold ones. cbn [count_occ].
        destruct (Bool.bool_dec true true); [lia|contradiction].
      * cbn. now rewrite L.
      * intros [|j] Hj; [cbn; lia|]. cbn [nth firstn]. rewrite H by (cbn in Hj; lia). destruct (nth j code false); [|reflexivity].
        unfold ones. cbn [count_occ]. destruct (Bool.bool_dec true true); [lia|contradiction].
    + destruct (IH (acc ++ [0%Z]) label) as [l [E [L H]]]. exists (0%Z :: l). split; [|split].
      * rewrite E, <- app_assoc. cbn [app]. f_equal.
      * cbn. now rewrite L.
      * intros [|j] Hj; [reflexivity|]. cbn [nth firstn]. rewrite H by (cbn in Hj; lia). reflexivity.
Qed.
Definition labels_of (code : list bool) (label : Z) : list Z := fst (set_labels code label).
Lemma labels_next code label : snd (set_labels code label) = (label + Z.of_nat (ones code))%Z.
Proof. unfold set_labels. destruct (set_labels_spec code [] label) as [l [E _]]. now rewrite E. Qed.
Lemma labels_nth code label j : j < List.length code ->
  nth j (labels_of code label) 0%Z = if nth j code false then (label + Z.of_nat (ones (firstn j code)))%Z else 0%Z.
Proof. unfold labels_of, set_labels. destruct (set_labels_spec code [] label) as [l [E [_ H]]]. rewrite E. apply H. Qed.
Lemma labels_length code label : List.length (labels_of code label) = List.length code.
Proof. unfold labels_of, set_labels. destruct (set_labels_spec code [] label) as [l [E [H _]]]. now rewrite E. Qed.

Lemma nodes_fold (labels : list Z) nodes : forall d, NoDup (map fst d) ->
  (NoDup (map fst d ++ nodes) /\
   rfold (fun d node => match gget Z.eqb d node with Some _ => Err RuntimeError | None => Ok (gset Z.eqb d node labels) end) nodes d
   = Ok (d ++ map (fun x => (x, labels)) nodes)) \/
  (~ NoDup (map fst d ++ nodes) /\
   rfold (fun d node => match gget Z.eqb d node with Some _ => Err RuntimeError | None => Ok (gset Z.eqb d node labels) end) nodes d
   = Err RuntimeError).
Proof.
  induction nodes as [|x nodes IH]; intros d Hd.
  - left. cbn. rewrite !app_nil_r. now split.
  - cbn [rfold]. destruct (gget Z.eqb d x) eqn:E.
    + right. split; [|reflexivity]. intros Q. apply NoDup_remove_2 in Q. apply Q, in_or_app. left.
      apply (gget_in Z.eqb Z.eqb_eq) in E. apply (in_map fst) in E. exact E.
    + apply (gget_none Z.eqb Z.eqb_eq) in E. fold (gkeys d) in *. cbn [rbind].
      assert (G : gset Z.eqb d x labels = d ++ [(x, labels)]).
      { clear - E. induction d as [|[a b] d IH]; [reflexivity|]. cbn in *.
        destruct (Z.eqb_spec x a) as [->|]; [exfalso; apply E; now left|]. cbn. f_equal. apply IH. tauto. }
      rewrite G. unfold gkeys in *.
      assert (Hd' : NoDup (map fst (d ++ [(x, labels)]))).
      { rewrite map_app. cbn. apply (Permutation_NoDup (Permutation_cons_append (map fst d) x)). constructor; [exact E|exact Hd]. }
      destruct (IH _ Hd') as [[A B]|[A B]]; rewrite B; rewrite map_app, <- app_assoc in A; cbn [map fst app] in A.
      * left. split; [exact A|]. now rewrite <- app_assoc.
      * right. now split.
Qed.

Fixpoint set_entries (sets : node_sets) (label : Z) : list (Z * list Z) :=
  match sets with
  | [] => []
  | s :: rest => map (fun x => (x, labels_of (snd s) label)) (fst s) ++ set_entries rest (label + Z.of_nat (ones (snd s)))%Z
  end.
Lemma entries_keys sets : forall label, map fst (set_entries sets label) = concat (map fst sets).
Proof.
  induction sets as [|s sets IH]; intros label; [reflexivity|]. cbn. rewrite map_app, map_map, IH. cbn [fst].
  now rewrite map_id.
Qed.
Lemma assign_fold sets : forall d label, NoDup (map fst d) ->
  (NoDup (map fst d ++ concat (map fst sets)) /\
   exists l, rfold assign_set sets (d, label) = Ok (d ++ set_entries sets label, l)) \/
  (~ NoDup (map fst d ++ concat (map fst sets)) /\ rfold assign_set sets (d, label) = Err RuntimeError).
Proof.
  induction sets as [|s sets IH]; intros d label Hd.
  - left. cbn. rewrite !app_nil_r. split; [exact Hd|]. now exists label.
  - change (rfold assign_set (s :: sets) (d, label)) with (rbind (assign_set (d, label) s) (rfold assign_set sets)).
    cbn [concat map set_entries].
    assert (Es : assign_set (d, label) s = rbind (rfold (fun d node =>
        match gget Z.eqb d node with Some _ => Err RuntimeError | None => Ok (gset Z.eqb d node (labels_of (snd s) label)) end)
        (fst s) d) (fun d => Ok (d, (label + Z.of_nat (ones (snd s)))%Z))) by (rewrite <- labels_next; reflexivity).
    rewrite Es. clear Es.
    destruct (nodes_fold (labels_of (snd s) label) (fst s) d Hd) as [[A B]|[A B]]; rewrite B; cbn [rbind].
    + assert (K : map fst (d ++ map (fun x => (x, labels_of (snd s) label)) (fst s)) = map fst d ++ fst s)
        by (rewrite map_app, map_map; cbn [fst]; now rewrite map_id).
      destruct (IH (d ++ map (fun x => (x, labels_of (snd s) label)) (fst s)) (label + Z.of_nat (ones (snd s)))%Z) as [[C [l D]]|[C D]];
        rewrite K in *; [exact A| |].
      * left. rewrite <- app_assoc in C. split; [exact C|]. exists l. etransitivity; [exact D|]. now rewrite <- app_assoc.
      * right. rewrite <- app_assoc in C. split; [exact C|exact D].
    + right. split; [|reflexivity]. intros Q. apply A. rewrite app_assoc in Q.
      clear - Q. induction (map fst d ++ fst s) as [|x l IH]; [constructor|]. cbn in Q. apply NoDup_cons_iff in Q as [Q1 Q2].
      constructor; [|now apply IH]. intros H. apply Q1, in_or_app. now left.
Qed.
Lemma rows_fold n (es : list (Z * list Z)) : (forall e, In e es -> (1 <= fst e <= Z.of_nat n)%Z /\ List.length (snd e) = 3) ->
  NoDup (map fst es) -> forall m, table3 n m ->
  exists m', rfold (fun m e => rbind (py_index n (fst e - 1)) (fun i => Ok (upd m i (snd e)))) es m = Ok m' /\ table3 n m' /\
    forall i, i < n -> (exists r, In (Z.of_nat (S i), r) es /\ nth i m' [] = r) \/
                       (~ In (Z.of_nat (S i)) (map fst es) /\ nth i m' [] = nth i m []).
Proof.
  induction es as [|[z r] es IH]; intros H N m T.
  - exists m. split; [reflexivity|]. split; [exact T|]. intros i _. right. split; [intros []|reflexivity].
  - cbn [rfold fst snd map] in *. destruct (H _ (or_introl eq_refl)) as [Hz Hr]. cbn [fst snd] in Hz, Hr.
    rewrite py_index_z by exact Hz. cbn [rbind]. apply NoDup_cons_iff in N as [N1 N2].
    assert (T1 : table3 n (upd m (Z.to_nat z - 1) r)) by (apply table_upd; assumption).
    destruct (IH (fun e He => H e (or_intror He)) N2 _ T1) as [m' [E [T' H']]].
    exists m'. split; [exact E|]. split; [exact T'|]. intros i Hi. destruct (H' i Hi) as [[q [A B]]|[A B]].
    + left. exists q. split; [now right|exact B].
    + destruct (Z.eq_dec z (Z.of_nat (S i))) as [Ez|Nz].
      * left. exists r. split; [left; now rewrite Ez|]. rewrite B, Ez. replace (Z.to_nat (Z.of_nat (S i)) - 1) with i by lia.
        apply nth_upd_same. destruct T; lia.
      * right. split; [intros [Q|Q]; [now apply Nz|now apply A]|]. rewrite B. apply nth_upd_other. lia.
Qed.
Lemma entries_in sets : forall label x r, In (x, r) (set_entries sets label) ->
  exists k s, nth_error sets k = Some s /\ In x (fst s) /\
    r = labels_of (snd s) (label + Z.of_nat (ones (concat (map snd (firstn k sets)))))%Z.
Proof.
  induction sets as [|s sets IH]; intros label x r H; [destruct H|]. cbn [set_entries] in H. apply in_app_or in H as [H|H].
  - apply in_map_iff in H as [y [H Hy]]. pose proof (f_equal fst H) as A. pose proof (f_equal snd H) as B. cbn [fst snd] in A, B. subst y r.
    exists 0, s. cbn. rewrite Z.add_0_r. auto.
  - apply IH in H as [k [t [H1 [H2 H3]]]]. exists (S k), t. split; [exact H1|]. split; [exact H2|]. rewrite H3. f_equal.
    cbn [firstn map concat]. rewrite ones_app. lia.
Qed.

(** Each constrained degree of freedom of each set has its own label, the same
    for the nodes of the set; everything else is free. *)
Theorem dirichlet_sets_law n sets :
  (forall s, In s sets -> List.length (snd s) = 3 /\ forall x, In x (fst s) -> (1 <= x <= Z.of_nat n)%Z) ->
  NoDup (concat (map fst sets)) ->
  exists m, dirichlet_sets n sets = Ok m /\
    flag_table n m (fun i j v =>
      (exists k s, nth_error sets k = Some s /\ In (Z.of_nat (S i)) (fst s) /\
         v = if nth j (snd s) false then set_label sets k j else 0%Z) \/
      ((forall s, In s sets -> ~ In (Z.of_nat (S i)) (fst s)) /\ v = 0%Z)).
Proof.
  intros H N. unfold dirichlet_sets.
  destruct (assign_fold sets [] 1%Z (NoDup_nil _)) as [[_ [l E]]|[Q _]]; [|now destruct Q].
  rewrite E. cbn [rbind fst app].
  destruct (rows_fold n (set_entries sets 1%Z)) with (m := zero_sets n) as [m [E2 [[T1 T2] R]]].
  - intros [x r] He. destruct (entries_in _ _ _ _ He) as [k [s [A [B C]]]]. apply nth_error_In in A.
    destruct (H s A) as [L R]. cbn [fst snd]. split; [now apply R|]. subst r. now rewrite labels_length.
  - now rewrite entries_keys.
  - apply zero_table.
  - exists m. split; [exact E2|]. split; [exact T1|]. split; [exact T2|]. intros i j Hi Hj.
    destruct (R i Hi) as [[r [A B]]|[A B]].
    + left. destruct (entries_in _ _ _ _ A) as [k [s [A1 [A2 A3]]]]. exists k, s. split; [exact A1|]. split; [exact A2|].
      rewrite B, A3, labels_nth by (rewrite (proj1 (H s (nth_error_In _ _ A1))); exact Hj).
      destruct (nth j (snd s) false); [|reflexivity]. unfold set_label. rewrite (nth_error_nth _ _ ([], []) A1). lia.
    + right. split.
      * intros s Hs Q. apply A. rewrite entries_keys. apply in_concat. exists (fst s). split; [now apply in_map|exact Q].
      * rewrite B. unfold zero_sets. rewrite (nth_indep _ [] [0; 0; 0]%Z) by (rewrite repeat_length; exact Hi). rewrite nth_repeat.
        destruct j as [|[|[|j]]]; [reflexivity..|lia].
Qed.
(** Distinct sets or degrees of freedom have distinct labels, none of them
    zero. *)
Lemma firstn_concat (codes : list (list bool)) : forall k d, (forall c, In c codes -> List.length c = 3) -> k < List.length codes -> d <= 3 ->
  concat (firstn k codes) ++ firstn d (nth k codes []) = firstn (3 * k + d) (concat codes).
Proof.
  induction codes as [|c codes IH]; intros k d H Hk Hd; [inversion Hk|]. pose proof (H c (or_introl eq_refl)) as Lc.
  destruct k as [|k].
  - cbn [firstn concat nth app Nat.mul Nat.add]. rewrite firstn_app, Lc. replace (d - 3) with 0 by lia. now rewrite app_nil_r.
  - cbn [firstn concat nth]. rewrite <- app_assoc, IH by (try (intros; apply H; now right); cbn in Hk; lia).
    rewrite firstn_app, Lc. rewrite (firstn_all2 (n := 3 * S k + d) c) by lia. f_equal. f_equal. lia.
Qed.
Lemma ones_lt l : forall p q, p < q -> nth p l false = true -> p < List.length l -> ones (firstn p l) < ones (firstn q l).
Proof.
  induction l as [|b l IH]; intros p q Hp Hn Hl; [inversion Hl|]. destruct q as [|q]; [lia|]. destruct p as [|p].
  - cbn in Hn. subst b. cbn [firstn]. unfold ones. cbn [count_occ]. destruct (Bool.bool_dec true true); [lia|contradiction].
  - cbn in Hn, Hl. specialize (IH p q ltac:(lia) Hn ltac:(lia)). cbn [firstn]. unfold ones in *. cbn [count_occ].
    destruct (Bool.bool_dec b true); lia.
Qed.
Theorem set_label_injective sets k d k' d' :
  (forall s, In s sets -> List.length (snd s) = 3) -> k < List.length sets -> k' < List.length sets -> d < 3 -> d' < 3 ->
  nth d (snd (nth k sets ([], []))) false = true -> nth d' (snd (nth k' sets ([], []))) false = true ->
  (0 < set_label sets k d)%Z /\ (set_label sets k d = set_label sets k' d' <-> k = k' /\ d = d').
Proof.
  intros H Hk Hk' Hd Hd' B B'. set (codes := map snd sets).
  assert (Hc : forall c, In c codes -> List.length c = 3) by (intros c Q; apply in_map_iff in Q as [s [<- Q]]; auto).
  assert (Lc : List.length codes = List.length sets) by apply map_length.
  assert (E : forall k d, k < List.length sets -> d < 3 -> set_label sets k d = Z.of_nat (1 + ones (firstn (3 * k + d) (concat codes)))).
  { intros a b Ha Hb. unfold set_label. rewrite <- firstn_concat by (try assumption; lia). rewrite ones_app.
    unfold codes. rewrite <- firstn_map. change (@nil bool) with (snd (@nil Z, @nil bool)). rewrite map_nth. f_equal. }
  assert (Nt : forall k d, k < List.length sets -> d < 3 -> nth (3 * k + d) (concat codes) false = nth d (snd (nth k sets ([], []))) false
     /\ 3 * k + d < List.length (concat codes)).
  { clear - Hc Lc. unfold codes in *. clear codes. induction sets as [|s sets IH]; intros k d Hk Hd; [inversion Hk|].
    pose proof (Hc (snd s) (or_introl eq_refl)) as Ls. cbn [map concat]. destruct k as [|k].
    - cbn [Nat.mul Nat.add nth]. rewrite app_nth1 by lia. split; [reflexivity|]. rewrite app_length. lia.
    - destruct (IH (fun c Q => Hc c (or_intror Q)) (map_length _ _) k d) as [I1 I2]; [cbn in Hk; lia|exact Hd|].
      split; [|rewrite app_length; lia]. rewrite app_nth2 by lia. rewrite Ls. replace (3 * S k + d - 3) with (3 * k + d) by lia. exact I1. }
  split; [unfold set_label; lia|]. split; [|now intros [-> ->]]. rewrite !E by assumption. intros Q.
  destruct (Nt k d Hk Hd) as [N1 N2]. destruct (Nt k' d' Hk' Hd') as [N1' N2'].
  destruct (Nat.lt_trichotomy (3 * k + d) (3 * k' + d')) as [L|[L|L]]; [|lia|].
  - pose proof (ones_lt (concat codes) _ _ L ltac:(congruence) N2). lia.
  - pose proof (ones_lt (concat codes) _ _ L ltac:(congruence) N2'). lia.
Qed.
(** A node in two sets is refused. *)
Theorem dirichlet_sets_overlap n sets : ~ NoDup (concat (map fst sets)) -> dirichlet_sets n sets = Err RuntimeError.
Proof.
  intros N. unfold dirichlet_sets. destruct (assign_fold sets [] 1%Z (NoDup_nil _)) as [[Q _]|[_ E]]; [now destruct N|].
  now rewrite E.
Qed.
(** A node beyond the mesh is refused; so are the sets of the code, those of one
    specimen, on any mesh with fewer than 1712 nodes. *)
Lemma rows_err n (es : list (Z * list Z)) : (forall e, In e es -> (1 <= fst e)%Z) -> (exists e, In e es /\ (Z.of_nat n < fst e)%Z) ->
  forall m, rfold (fun m e => rbind (py_index n (fst e - 1)) (fun i => Ok (upd m i (snd e)))) es m = Err IndexError.
Proof.
  induction es as [|e es IH]; intros H [x [Hx L]] m; [destruct Hx|]. cbn [rfold].
  pose proof (H e (or_introl eq_refl)) as He. destruct (Z.le_gt_cases (fst e) (Z.of_nat n)) as [Q|Q].
  - rewrite py_index_z by lia. cbn [rbind]. apply IH; [intros; apply H; now right|]. exists x. split; [|exact L].
    destruct Hx as [->|Hx]; [lia|exact Hx].
  - assert (E : py_index n (fst e - 1) = Err IndexError).
    { unfold py_index.
      assert (E1 : ((0 <=? fst e - 1) && (fst e - 1 <? Z.of_nat n))%Z = false) by (apply andb_false_iff; right; apply Z.ltb_ge; lia).
      assert (E2 : ((- Z.of_nat n <=? fst e - 1) && (fst e - 1 <? 0))%Z = false) by (apply andb_false_iff; right; apply Z.ltb_ge; lia).
      now rewrite E1, E2. }
    now rewrite E.
Qed.
Theorem dirichlet_sets_beyond n sets : NoDup (concat (map fst sets)) ->
  (forall x, In x (concat (map fst sets)) -> (1 <= x)%Z) ->
  (exists x, In x (concat (map fst sets)) /\ (Z.of_nat n < x)%Z) -> dirichlet_sets n sets = Err IndexError.
Proof.
  intros N H [x [Hx L]]. unfold dirichlet_sets.
  destruct (assign_fold sets [] 1%Z (NoDup_nil _)) as [[_ [l E]]|[Q _]]; [|now destruct Q]. rewrite E. cbn [rbind fst app].
  rewrite <- (entries_keys sets 1%Z) in H, Hx. apply rows_err.
  - intros e He. apply H, in_map, He.
  - apply in_map_iff in Hx as [e [<- He]]. now exists e.
Qed.
Fixpoint nodupb (l : list Z) : bool :=
  match l with [] => true | x :: t => negb (existsb (Z.eqb x) t) && nodupb t end.
Lemma nodupb_ok l : nodupb l = true -> NoDup l.
Proof.
  induction l as [|x l IH]; [constructor|]. cbn. intros H. apply andb_prop in H as [H1 H2]. constructor; [|now apply IH].
  intros Q. apply negb_true_iff in H1. assert (T : existsb (Z.eqb x) l = true) by (apply existsb_exists; exists x; split; [exact Q|apply Z.eqb_refl]).
  congruence.
Qed.
Theorem default_sets_refuted n : (exists m, dirichlet_sets n default_sets = Ok m) <-> 1712 <= n.
Proof.
  assert (N : NoDup (concat (map fst default_sets))) by (apply nodupb_ok; vm_compute; reflexivity).
  assert (H : forall x, In x (concat (map fst default_sets)) -> (1 <= x <= 1712)%Z).
  { assert (B : forallb (fun x => (1 <=? x) && (x <=? 1712))%Z (concat (map fst default_sets)) = true) by (vm_compute; reflexivity).
    rewrite forallb_forall in B. intros x Hx. specialize (B x Hx). apply andb_prop in B as [B1 B2]. lia. }
  split.
  - intros [m E]. destruct (Nat.le_gt_cases 1712 n) as [L|L]; [exact L|]. rewrite dirichlet_sets_beyond in E; [discriminate E|exact N| |].
    + intros x Hx. now apply H.
    + exists 1712%Z. split; [|lia].
      assert (B : existsb (Z.eqb 1712) (concat (map fst default_sets)) = true) by (vm_compute; reflexivity).
      apply existsb_exists in B as [x [Hx Ex]]. apply Z.eqb_eq in Ex. now subst x.
  - intros L. destruct (dirichlet_sets_law n default_sets) as [m [E _]]; [|exact N|now exists m].
    intros s Hs. split; [destruct Hs as [<-|[<-|[]]]; reflexivity|]. intros x Hx.
    assert (Q : In x (concat (map fst default_sets))) by (apply in_concat; exists (fst s); split; [now apply in_map|exact Hx]).
    specialize (H x Q). lia.
Qed.

(** ** Refusals of the readers *)
Lemma slice_front {A} (r x : list A) a k : 10 <= List.length r -> a + k <= 10 ->
  firstn k (skipn a (firstn 10 r ++ x)) = firstn k (skipn a r).
Proof.
  intros L H.
  assert (G : forall y, firstn k (skipn a (firstn 10 r ++ y)) = firstn k (skipn a (firstn 10 r))).
  { intros y. rewrite skipn_app, firstn_app.
    replace (k - List.length (skipn a (firstn 10 r))) with 0 by (rewrite skipn_length, firstn_length; lia). cbn [firstn]. apply app_nil_r. }
  rewrite G. rewrite <- (firstn_skipn 10 r) at 2. symmetry. apply G.
Qed.
Section Refusals.
  Context {V : Type} (of_int : Z -> V) (to_int : V -> Z) (to32 : V -> V).
  (** Without directory or without time step files there is no history. *)
  Theorem history_missing sim dir (listing : option (list (string * frame V))) :
    match listing with None => True | Some l => forall f, In f l -> ~ time_step_name sim (fst f) end ->
    history_paths sim dir listing = Err RuntimeError.
  Proof.
    destruct listing as [l|]; [|reflexivity]. intros H. unfold history_paths.
    assert (E : filter (fun f => is_time_step sim (fst f)) l = []).
    { pose proof (filter_files (is_time_step sim) [] l) as F. cbn [app] in F. apply F; [intros x []|].
      intros x Hx. destruct (is_time_step sim (fst x)) eqn:Q; [|reflexivity]. apply is_time_step_iff in Q. now destruct (H x Hx). }
    now rewrite E.
  Qed.
  (** The data are accepted exactly when every file has the nodes of the mesh
      and thirteen columns. *)
  Theorem numerical_data_iff n_dim n (files : list (frame V)) :
    (exists h, numerical_data to_int to32 n_dim n files = Ok h) <->
    (forall f, In f files -> List.length (f_rows f) = n /\ f_cols f = 13).
  Proof.
    unfold numerical_data. split.
    - intros [h H]. destruct (rmap (load_frame to32 n) files) as [data|] eqn:E; [|discriminate]. clear H h.
      apply rmap_ok in E. intros f Hf. induction E as [|g d files data G _ IH]; [destruct Hf|].
      destruct Hf as [->|Hf]; [|now apply IH]. unfold load_frame in G.
      destruct (Nat.eqb_spec (List.length (f_rows f)) n) as [Q1|]; [|discriminate G].
      destruct (Nat.eqb_spec (f_cols f) 13) as [Q2|]; [|discriminate G]. now split.
    - intros H. rewrite (rmap_all _ files (fun f => map (map to32) (f_rows f))); [cbn [rbind]; eauto|].
      intros f Hf. destruct (H f Hf) as [H1 H2]. unfold load_frame. now rewrite H1, H2, Nat.eqb_refl.
  Qed.
  Theorem numerical_data_refused n_dim n (files : list (frame V)) :
    (exists f, In f files /\ (List.length (f_rows f) <> n \/ f_cols f <> 13)) ->
    numerical_data to_int to32 n_dim n files = Err RuntimeError.
  Proof.
    intros [f [Hf H]]. unfold numerical_data.
    assert (E : rmap (load_frame to32 n) files = Err RuntimeError).
    { induction files as [|g files IH]; [destruct Hf|]. cbn [rmap]. destruct (load_frame to32 n g) as [d|e] eqn:G.
      - cbn [rbind]. destruct Hf as [->|Hf]; [|now rewrite IH].
        unfold load_frame in G. destruct (Nat.eqb_spec (List.length (f_rows f)) n) as [Q1|]; [|discriminate G].
        destruct (Nat.eqb_spec (f_cols f) 13) as [Q2|]; [|discriminate G]. exfalso. tauto.
      - unfold load_frame in G. destruct (negb _); [injection G as <-; reflexivity|]. destruct (negb _); [injection G as <-; reflexivity|discriminate]. }
    now rewrite E.
  Qed.
  (** New flags replace the old ones in every file and leave the rest. *)
  Theorem update_history_law n_dim n sets (files : list (string * frame V)) :
    n_dim <= 3 -> files <> [] -> List.length sets = n -> (forall s, In s sets -> List.length s = 3) ->
    (forall f, In f files -> f_cols (snd f) = 13 /\ List.length (f_rows (snd f)) = n /\
       forall r, In r (f_rows (snd f)) -> List.length r = 13) ->
    (forall z, to_int (to32 (of_int z)) = z) ->
    exists files' h,
      update_history of_int sets files = Ok files' /\ map fst files' = map fst files /\
      numerical_data to_int to32 n_dim n (map snd files) = Ok h /\
      numerical_data to_int to32 n_dim n (map snd files')
      = Ok (mkHistory (h_disps h) (h_forces h) (map (fun _ => map (firstn n_dim) sets) files) (h_time h)).
  Proof.
    intros Hd Hn Ls Rs Hf Ht.
    set (upf := fun f : frame V => mkFrame 13 (map (fun p => firstn 10 (fst p) ++ map of_int (snd p)) (combine (f_rows f) sets))).
    exists (map (fun nf => (fst nf, upf (snd nf))) files).
    assert (Lo : forall l : list (frame V), (forall f, In f l -> f_cols f = 13 /\ List.length (f_rows f) = n) ->
      rmap (load_frame to32 n) l = Ok (map (fun f => map (map to32) (f_rows f)) l)).
    { intros l Hl. apply rmap_all. intros f Hi. destruct (Hl f Hi) as [A B]. unfold load_frame. now rewrite A, B, Nat.eqb_refl. }
    assert (H1 : forall f, In f (map snd files) -> f_cols f = 13 /\ List.length (f_rows f) = n).
    { intros f Hi. apply in_map_iff in Hi as [nf [<- Hi]]. destruct (Hf nf Hi) as [A [B _]]. now split. }
    assert (H2 : forall f, In f (map upf (map snd files)) -> f_cols f = 13 /\ List.length (f_rows f) = n).
    { intros f Hi. apply in_map_iff in Hi as [g [<- Hi]]. destruct (H1 g Hi) as [A B]. split; [reflexivity|]. cbn [upf f_rows].
      unfold upf. cbn [f_rows]. rewrite map_length, combine_length, B, Ls. apply Nat.min_id. }
    eexists. split; [|split; [now rewrite map_map|split]].
    - unfold update_history. destruct files as [|[a f0] rest] eqn:Ef; [contradiction|]. rewrite <- Ef in *.
      assert (L0 : List.length (f_rows f0) = n) by (apply H1; rewrite Ef; now left). rewrite L0.
      apply rmap_all. intros nf Hi. destruct (Hf nf Hi) as [A [B _]]. unfold update_frame. rewrite A, B, Ls, !Nat.eqb_refl. reflexivity.
    - unfold numerical_data. rewrite Lo by exact H1. cbn [rbind]. reflexivity.
    - unfold numerical_data. rewrite map_map. cbn [snd]. rewrite <- (map_map snd upf). rewrite Lo by exact H2. cbn [rbind h_disps h_forces h_time].
      f_equal.
      assert (P : forall f, In f files -> forall a k, a + k <= 10 ->
        map (slice a k) (map (map to32) (f_rows (upf (snd f)))) = map (slice a k) (map (map to32) (f_rows (snd f)))).
      { intros f Hi a k Hk. destruct (Hf f Hi) as [_ [B C]]. unfold upf. cbn [f_rows]. rewrite !map_map. rewrite <- Ls in B.
        revert B C. generalize (f_rows (snd f)) as rows. clear - Hk. intros rows. revert sets.
        induction rows as [|r rows IH]; intros [|s sets] B C; try discriminate B; [reflexivity|]. cbn [combine map fst snd].
        rewrite IH; [|now injection B|intros; apply C; now right]. f_equal. unfold slice.
        rewrite !skipn_map, !firstn_map. f_equal.
        apply slice_front; [rewrite (C r (or_introl eq_refl)); lia|exact Hk]. }
      f_equal.
      + rewrite !map_map. apply map_ext_in. intros f Hi. apply P; [exact Hi|lia].
      + rewrite !map_map. apply map_ext_in. intros f Hi. apply P; [exact Hi|lia].
      + rewrite !map_map. apply map_ext_in. intros f Hi. destruct (Hf f Hi) as [_ [B C]]. unfold upf. cbn [f_rows]. rewrite !map_map.
        rewrite <- Ls in B. revert B C Rs. generalize (f_rows (snd f)) as rows. clear - Hd Ht. intros rows. revert sets.
        induction rows as [|r rows IH]; intros [|s sets] B C Rs; try discriminate B; [reflexivity|]. cbn [combine map fst snd].
        rewrite IH; [|now injection B|intros; apply C; now right|intros; apply Rs; now right]. f_equal.
        pose proof (C r (or_introl eq_refl)) as Lr. do 13 (destruct r as [|? r]; [discriminate Lr|]). destruct r; [|discriminate Lr].
        pose proof (Rs s (or_introl eq_refl)) as L3. destruct s as [|x [|y [|z [|? ?]]]]; try discriminate L3.
        destruct n_dim as [|[|[|[|?]]]]; try lia; cbn; rewrite ?Ht; reflexivity.
      + now rewrite !map_length.
  Qed.
End Refusals.

(** ** Clauses that fail *)
(** A backup copy of a file counts as another time step. *)
Theorem history_backup_refuted {A} (now old : A) :
  history_paths "bar" "data" (Some [("bar_tstep_0.csv", now); ("bar_tstep_0.csv.bak", old)]) = Ok [now; old] /\
  history_paths "bar" "data" (Some [("bar_tstep_0.csv.bak2", old); ("bar_tstep_1.csv", now)]) = Ok [now; old].
Proof. split; vm_compute; reflexivity. Qed.
(** The label column is not read: the same labelled rows in another order are
    another history. *)
Definition unit_row (label u : Z) : list Z := [label; 0; 0; 0; u; 0; 0; 0; 0; 0; 0; 0; 0]%Z.
Theorem history_labels_refuted :
  exists rows rows' h h',
    Permutation rows rows' /\ NoDup (map (fun r => nth 0 r 0%Z) rows) /\
    numerical_data (fun z => z) (fun z => z) 2 2 [mkFrame 13 rows] = Ok h /\
    numerical_data (fun z => z) (fun z => z) 2 2 [mkFrame 13 rows'] = Ok h' /\ h_disps h <> h_disps h'.
Proof.
  exists [unit_row 1 5; unit_row 2 7], [unit_row 2 7; unit_row 1 5]. do 2 eexists.
  split; [apply perm_swap|]. split; [apply nodupb_ok; reflexivity|]. split; [vm_compute; reflexivity|]. split; [vm_compute; reflexivity|].
  vm_compute. discriminate.
Qed.
(** Node zero, which does not exist, constrains the last node. *)
Theorem node_zero_refuted n : 1 <= n ->
  exists m, pointwise_sets n [(0%Z, [1%Z])] = Ok m /\ nth 0 (nth (n - 1) m []) 0%Z = 1%Z.
Proof.
  intros H. unfold pointwise_sets. cbn [rfold fst snd].
  assert (E : py_index n (0 - 1) = Ok (n - 1)).
  { unfold py_index. change (0 <=? 0 - 1)%Z with false. cbn [andb].
    assert (B : (- Z.of_nat n <=? 0 - 1)%Z && (0 - 1 <? 0)%Z = true) by (apply andb_true_intro; split; [apply Z.leb_le; lia|reflexivity]).
    rewrite B. f_equal. lia. }
  rewrite E. cbn [rbind]. change (py_index 3 (1 - 1)) with (Ok 0). cbn [rbind]. eexists. split; [reflexivity|].
  rewrite nth_upd_same by (unfold zero_sets; rewrite repeat_length; lia).
  assert (T : In (nth (n - 1) (zero_sets n) []) (zero_sets n)) by (apply nth_In; unfold zero_sets; rewrite repeat_length; lia).
  apply repeat_spec in T. now rewrite T.
Qed.

(** ** Cases *)
Example history_twelve_steps :
  history_paths "bar" "d" (Some (map (fun t => (hist_name "bar" t, t)) [10; 2; 11; 0; 1; 9; 3; 8; 7; 4; 6; 5] ++ [("notes.txt", 99); ("bar_mesh.inp", 98)]))
  = Ok [0; 1; 2; 3; 4; 5; 6; 7; 8; 9; 10; 11].
Proof. vm_compute. reflexivity. Qed.
Example node_data_steps :
  collect "bar" "d" [("bar_nodes_10.nodedata", 10); ("bar.dat", 77); ("bar_nodes_2.nodedata", 2); ("bar_nodes_9.nodedata", 9)] = Ok [2; 9; 10].
Proof. vm_compute. reflexivity. Qed.
Example pointwise_case : pointwise_sets 3 [(1, [1; 3]); (3, [2])]%Z = Ok [[1; 0; 1]; [0; 0; 0]; [0; 1; 0]]%Z.
Proof. reflexivity. Qed.
Example dirichlet_case :
  dirichlet_sets 4 [([1; 2]%Z, [true; false; true]); ([4]%Z, [false; true; false])] = Ok [[1; 0; 2]; [1; 0; 2]; [0; 0; 0]; [0; 3; 0]]%Z /\
  dirichlet_sets 4 [([1; 2]%Z, [true; false; true]); ([2]%Z, [false; true; false])] = Err RuntimeError /\
  dirichlet_sets 4 [([1; 5]%Z, [true; false; true])] = Err IndexError.
Proof. repeat split. Qed.
Example history_case :
  let row l := map Z.of_nat (seq l 18) in
  exists files h, write_history (fun z => z) 0%Z "bar" [mkFrame 18 [row 0; row 100]; mkFrame 18 [row 200; row 300]] (Some [(2, [1])]%Z) Pointwise [] = Ok files /\
    map fst files = ["bar_tstep_0.csv"; "bar_tstep_1.csv"] /\
    numerical_data (fun z => z) (fun z => z) 2 2 (map snd files) = Ok h /\
    h = mkHistory [[[6; 7]; [106; 107]]; [[206; 207]; [306; 307]]]%Z [[[15; 16]; [115; 116]]; [[215; 216]; [315; 316]]]%Z
          [[[0; 0]; [1; 0]]; [[0; 0]; [1; 0]]]%Z [0; 1].
Proof. cbv zeta. do 2 eexists. split; [vm_compute; reflexivity|]. repeat split. Qed.

Print Assumptions node_data_in_time_order.
Print Assumptions pointwise_sets_law.
Print Assumptions pointwise_sets_refused.
Print Assumptions history_flags_agree.
Print Assumptions history_in_time_order.
Print Assumptions specimen_history_law.
Print Assumptions dirichlet_sets_law.
Print Assumptions set_label_injective.
Print Assumptions dirichlet_sets_overlap.
Print Assumptions dirichlet_sets_beyond.
Print Assumptions default_sets_refuted.
Print Assumptions history_missing.
Print Assumptions numerical_data_iff.
Print Assumptions numerical_data_refused.
Print Assumptions update_history_law.
Print Assumptions history_backup_refuted.
Print Assumptions history_labels_refuted.
Print Assumptions node_zero_refuted.
