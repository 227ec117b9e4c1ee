(** Figures of reaction forces and of the components of the loss (C133). *)
From Coq Require Import String ZArith Reals List Bool Arith Lia Lra.
From Verif Require Import Lib PyDict PyStr SpecimenModel ReactSetsModel ReactSetsProps HistFigModel.
Import ListNotations.
Local Open Scope string_scope.
Local Open Scope list_scope.

(** The points of a curve: one for each time, abscissa and ordinate of that time. *)
Definition points (l : list (R * R)) (n : nat) (x y : nat -> R) : Prop := length l = n /\ forall t, (t < n)%nat -> nth_error l t = Some (x t, y t).
Lemma points_combine n (x : nat -> R) h : length h = n -> points (combine (map x (seq 0 n)) h) n x (fun t => nth t h 0%R).
Proof.
  intros L. split; [rewrite combine_length, map_length, seq_length; lia|]. intros t T.
  assert (E : nth t (combine (map x (seq 0 n)) h) (x 0%nat, 0%R) = (x t, nth t h 0%R)).
  { rewrite combine_nth by (rewrite map_length, seq_length; lia). f_equal. rewrite (map_nth x). f_equal. rewrite seq_nth by exact T. reflexivity. }
  rewrite <- E. apply nth_error_nth'. rewrite combine_length, map_length, seq_length. lia.
Qed.
Lemma prefix_inj a b c : (a ++ b)%string = (a ++ c)%string -> b = c.
Proof. induction a as [|x a IH]; cbn; intros H; [exact H|]. injection H as H. auto. Qed.

Section Reactions.
  Variables (n_node n_dim n_time : nat) (bc : nat -> nat -> nat -> Z) (force disp : nat -> nat -> nat -> R).
  Let sets := build_sets n_node n_dim n_time bc force.
  Lemma figures_of x ref : abscissae n_node n_dim n_time disp ref = Ok (map x (seq 0 n_time)) ->
    exists figs, reaction_figures n_node n_dim n_time disp ref sets = Ok figs /\ NoDup (map fst figs) /\ length figs = length sets /\
    forall s, In s sets -> exists pts, In (("dirichlet_reaction_hist_" ++ set_name s)%string, pts) figs /\ points pts n_time x (fun t => nth t (set_hist s) 0%R).
  Proof.
    intros A. exists (map (fun s => (("dirichlet_reaction_hist_" ++ set_name s)%string, combine (map x (seq 0 n_time)) (set_hist s))) sets). split; [|split; [|split]].
    - unfold reaction_figures. rewrite A. cbn [rbind]. clear. induction sets as [|s l IH]; [reflexivity|]. cbn [rmap map rbind]. rewrite IH. reflexivity.
    - rewrite map_map. cbn [fst]. pose proof (react_labels_distinct n_node n_dim n_time bc force) as N. fold sets in N. rewrite <- (map_map set_name (fun n => ("dirichlet_reaction_hist_" ++ n)%string)).
      clear -N. induction N as [|n t I N IH]; cbn [map]; constructor; auto. intros C. apply in_map_iff in C as (m & Q & J). apply prefix_inj in Q. congruence.
    - apply map_length.
    - intros s I. eexists. split; [apply in_map_iff; exists s; split; [reflexivity|exact I]|]. apply points_combine. destruct (react_set_contents _ _ _ _ _ s I) as (i & l & _ & _ & _ & _ & _ & L & _). exact L.
  Qed.
  (** Every set has its own file with its reaction force by time step. *)
  Theorem reactions_by_time : exists figs, reaction_figures n_node n_dim n_time disp None sets = Ok figs /\ NoDup (map fst figs) /\ length figs = length sets /\
    forall s, In s sets -> exists pts, In (("dirichlet_reaction_hist_" ++ set_name s)%string, pts) figs /\ points pts n_time INR (fun t => nth t (set_hist s) 0%R).
  Proof. apply figures_of. reflexivity. Qed.
  Lemma py_index_in n k : (0 <= k < Z.of_nat n)%Z -> py_index n k = Ok (Z.to_nat k).
  Proof. intros H. unfold py_index. destruct (Z.leb_spec 0 k); [|lia]. destruct (Z.ltb_spec k (Z.of_nat n)); [|lia]. reflexivity. Qed.
  (** With a reference node: by its displacement. *)
  Theorem reactions_by_displacement : forall label dim, (1 <= label <= n_node)%nat -> (dim < n_dim)%nat ->
    exists figs, reaction_figures n_node n_dim n_time disp (Some (Z.of_nat label, Z.of_nat dim)) sets = Ok figs /\ NoDup (map fst figs) /\ length figs = length sets /\
    forall s, In s sets -> exists pts, In (("dirichlet_reaction_hist_" ++ set_name s)%string, pts) figs /\ points pts n_time (disp (label - 1)%nat dim) (fun t => nth t (set_hist s) 0%R).
  Proof.
    intros label dim L D. apply figures_of. unfold abscissae. rewrite py_index_in by lia. cbn [rbind]. rewrite py_index_in by lia. cbn [rbind].
    rewrite Nat2Z.id. replace (Z.to_nat (Z.of_nat label - 1)) with (label - 1)%nat by lia. reflexivity.
  Qed.
  (** A label after the last node is refused if there is anything to show. *)
  Theorem reference_refused : forall label dim, (n_node < label)%nat -> sets <> [] -> reaction_figures n_node n_dim n_time disp (Some (Z.of_nat label, dim)) sets = Err IndexError.
  Proof.
    intros label dim L N. unfold reaction_figures. destruct sets as [|s t]; [congruence|]. cbn [rmap]. unfold abscissae at 1.
    assert (E : py_index n_node (Z.of_nat label - 1) = Err IndexError).
    { unfold py_index. destruct (Z.ltb_spec (Z.of_nat label - 1) (Z.of_nat n_node)); [lia|]. rewrite andb_false_r. destruct (Z.ltb_spec (Z.of_nat label - 1) 0); [lia|]. rewrite andb_false_r. reflexivity. }
    rewrite E. reflexivity.
  Qed.
  (** Refuted: a label that is no node is refused.  Label 0 shows the
      displacement of the last node. *)
  Theorem reference_zero_refuted : forall dim, (0 < n_node)%nat ->
    reaction_figures n_node n_dim n_time disp (Some (0%Z, dim)) sets = reaction_figures n_node n_dim n_time disp (Some (Z.of_nat n_node, dim)) sets.
  Proof.
    intros dim N. unfold reaction_figures, abscissae. assert (E : py_index n_node (0 - 1) = py_index n_node (Z.of_nat n_node - 1)).
    { rewrite (py_index_in n_node (Z.of_nat n_node - 1)) by lia. unfold py_index. destruct (Z.leb_spec 0 (0 - 1)); [lia|]. cbn [andb]. destruct (Z.leb_spec (- Z.of_nat n_node) (0 - 1)); [|lia]. destruct (Z.ltb_spec (0 - 1) 0); [|lia]. cbn [andb]. f_equal. lia. }
    rewrite E. reflexivity.
  Qed.
End Reactions.
(** ** Components of the loss *)
(** The data file has the whole history; the figure has one curve for each row,
    by time step, under distinct labels. *)
Theorem loss_components_law : forall hist, fst (loss_components hist) = hist /\ NoDup (map fst (snd (loss_components hist))) /\
  length (snd (loss_components hist)) = length hist /\
  forall i row, nth_error hist i = Some row -> exists pts, nth_error (snd (loss_components hist)) i = Some (match i with 0%nat => "Total" | _ => ("Component " ++ nat_str i)%string end, pts) /\
    points pts (length row) INR (fun t => nth t row 0%R).
Proof.
  intros hist. unfold loss_components. cbn [fst snd]. split; [reflexivity|]. split; [|split].
  - rewrite map_map. cbn [fst]. rewrite <- (map_map fst component_label).
    assert (C : map fst (combine (seq 0 (length hist)) hist) = seq 0 (length hist)) by (generalize 0%nat; induction hist as [|r l IH]; intros k; cbn; [reflexivity|rewrite IH; reflexivity]).
    rewrite C. apply FinFun.Injective_map_NoDup; [|apply seq_NoDup]. intros a b H. unfold component_label in H. destruct a, b; try reflexivity; try discriminate H.
    apply prefix_inj in H. now apply nat_str_inj.
  - rewrite map_length, combine_length, seq_length. lia.
  - intros i row H. exists (combine (map INR (seq 0 (length row))) row). split; [|now apply points_combine].
    rewrite nth_error_map. assert (C : nth_error (combine (seq 0 (length hist)) hist) i = Some (i, row)).
    { change (i, row) with ((0 + i)%nat, row). revert H. generalize 0%nat. revert i. induction hist as [|r l IH]; intros [|i] k H; try discriminate; cbn.
      - injection H as ->. now rewrite Nat.add_0_r.
      - rewrite (IH i (S k) H). do 2 f_equal. lia. }
    rewrite C. reflexivity.
Qed.
Example reaction_case : reaction_figures 2 1 2 (fun a _ t => INR (10 * a + t)) (Some (2, 0)%Z) (build_sets 2 1 2 (fun a _ _ => Z.of_nat a) (fun a _ t => INR (a + t))) =
  Ok [("dirichlet_reaction_hist_dim_1_label_0", [(INR 10, 0 + 0); (INR 11, 1 + 0)]); ("dirichlet_reaction_hist_dim_1_label_1", [(INR 10, 1 + 0); (INR 11, 1 + 1 + 0)])]%R.
Proof. reflexivity. Qed.

Print Assumptions reactions_by_time.
Print Assumptions reactions_by_displacement.
Print Assumptions reference_refused.
Print Assumptions reference_zero_refuted.
Print Assumptions loss_components_law.
