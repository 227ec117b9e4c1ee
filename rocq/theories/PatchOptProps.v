(** C101: options of the random material patch and rotation angles. *)
From Coq Require Import String ZArith Reals List Bool Arith Lia Lra Permutation.
From Verif Require Import Lib PyDict PyStr HardeningModel HardeningProps LouModel LouProps DeformModel PatchOptModel.
Import ListNotations.
Local Open Scope string_scope.
Local Open Scope list_scope.

(** ** The labels *)
(** the labels of the edges are the numbers from one, one for every edge *)
Theorem edge_labels_bijective : forall d, (d = 2 \/ d = 3)%nat ->
  map fst (edges_mapping d) = map (fun n => nat_str (n + 1)) (seq 0 (n_edges d)) /\
  NoDup (map fst (edges_mapping d)) /\ NoDup (map snd (edges_mapping d)) /\
  (forall i j, In (i, j) (map snd (edges_mapping d)) <-> (i < d /\ j < length (edges d i)))%nat.
Proof.
  intros d [-> | ->]; (split; [reflexivity|]); (split; [cbn [edges_mapping Nat.eqb map fst snd]; repeat (apply NoDup_cons; [cbn [In]; intuition congruence|]); apply NoDup_nil|]);
    (split; [cbn [edges_mapping Nat.eqb map fst snd]; repeat (apply NoDup_cons; [cbn [In]; intuition congruence|]); apply NoDup_nil|]); intros i j; cbn [n_edges edges_mapping Nat.eqb map snd In]; split.
  - intros H. repeat (destruct H as [[= <- <-]|H]; [cbn; lia|]). contradiction.
  - intros [Hi Hj]. destruct i as [|[|i]]; [| |lia]; cbn in Hj; destruct j as [|[|j]]; try lia; tauto.
  - intros H. repeat (destruct H as [[= <- <-]|H]; [cbn; lia|]). contradiction.
  - intros [Hi Hj]. destruct i as [|[|[|i]]]; [| | |lia]; cbn in Hj; do 8 (destruct j as [|j]; [tauto|]); lia.
Qed.

(** ** Corners *)
Lemma corner_label : forall d s i, gget String.eqb (corners_mapping d) s = Some i <-> (i < n_corners d)%nat /\ s = nat_str (i + 1).
Proof.
  intros d s i. unfold corners_mapping.
  assert (G : forall n b, gget String.eqb (map (fun k => (nat_str (k + 1), k)) (seq b n)) s = Some i <-> (b <= i < b + n)%nat /\ s = nat_str (i + 1)).
  { induction n as [|n IH]; intros b; cbn [seq map gget]; [split; [discriminate|lia]|].
    destruct (String.eqb_spec s (nat_str (b + 1))) as [E|E]; rewrite ?IH; split.
    - intros Q. injection Q as Q. split; [lia|rewrite <- Q; congruence].
    - intros [Hb Hs]. rewrite Hs in E. apply nat_str_inj in E. f_equal. lia.
    - intros [Hb Hs]. split; [lia|exact Hs].
    - intros [Hb Hs]. split; [|exact Hs]. assert (b <> i) by (intros ->; congruence). lia. }
  rewrite G. intuition lia.
Qed.

Definition good_corner (d : nat) (kv : string * option (list Z)) : Prop :=
  (exists i, (i < n_corners d)%nat /\ fst kv = nat_str (i + 1)) /\ exists t, snd kv = Some t /\ length t = d.

Lemma corner_fold_err : forall d l e, fold_left (corner_bc_step d) l (Err e) = Err e.
Proof. induction l as [|kv l IH]; intros e; [reflexivity|]. cbn [fold_left]. unfold corner_bc_step at 2. cbn [rbind]. apply IH. Qed.

Lemma corner_fold_ok : forall d l f g, NoDup (map fst l) -> fold_left (corner_bc_step d) l (Ok f) = Ok g ->
  Forall (good_corner d) l /\
  (forall i t, In (nat_str (i + 1), Some t) l -> g i = t) /\
  (forall i, ~ In (nat_str (i + 1)) (map fst l) -> g i = f i).
Proof.
  induction l as [|[k v] l IH]; intros f g Hnd H; cbn [fold_left] in H.
  - injection H as <-. repeat split; [constructor|intros i t []].
  - unfold corner_bc_step in H at 2. cbn [rbind fst snd] in H.
    destruct (gget String.eqb (corners_mapping d) k) as [i|] eqn:Ek; [|rewrite corner_fold_err in H; discriminate].
    destruct v as [t|]; [|rewrite corner_fold_err in H; discriminate].
    destruct (Nat.eqb_spec (length t) d) as [El|El]; [|rewrite corner_fold_err in H; discriminate].
    cbn [map fst] in Hnd. apply NoDup_cons_iff in Hnd. destruct Hnd as [Hn Hnd']. apply IH in H; [|exact Hnd']. destruct H as [Hf [Hin Hout]].
    apply (proj1 (corner_label _ _ _)) in Ek. destruct Ek as [Hi ->]. repeat split.
    + constructor; [|exact Hf]. split; [exists i; split; [exact Hi|reflexivity]|exists t; split; [reflexivity|congruence]].
    + intros j u [[= E <-]|Hj]; [|apply Hin; exact Hj].
      apply nat_str_inj in E. assert (j = i) as -> by lia. rewrite Hout by exact Hn. now rewrite Nat.eqb_refl.
    + intros j Hj. cbn [map fst] in Hj. rewrite Hout by (intros Q; apply Hj; right; exact Q).
      destruct (Nat.eqb_spec j i) as [->|E]; [|reflexivity]. exfalso. apply Hj. left. reflexivity.
Qed.

Lemma corner_fold_success : forall d l f, Forall (good_corner d) l -> exists g, fold_left (corner_bc_step d) l (Ok f) = Ok g.
Proof.
  induction l as [|[k v] l IH]; intros f H; [eexists; reflexivity|]. apply Forall_cons_iff in H. destruct H as [[[i [Hi Hk]] [t [Hv Ht]]] Hl].
  cbn [fst snd] in *. subst k v. cbn [fold_left]. unfold corner_bc_step at 2. cbn [rbind fst snd].
  rewrite (proj2 (corner_label d (nat_str (i + 1)) i) (conj Hi eq_refl)), Ht, Nat.eqb_refl. apply IH. exact Hl.
Qed.

(** the dictionary is accepted exactly when every label is the number of a
    corner and every value a tuple with one entry per dimension; the corners
    that are not mentioned are free *)
Theorem corners_bc_dictionary : forall d l, NoDup (map fst l) ->
  ((exists g, build_corners_bc d (Some l) = Ok g) <-> Forall (good_corner d) l) /\
  (forall g, build_corners_bc d (Some l) = Ok g ->
     (forall i t, In (nat_str (i + 1), Some t) l -> g i = t) /\
     (forall i, ~ In (nat_str (i + 1)) (map fst l) -> g i = repeat 0%Z d)).
Proof.
  intros d l Hnd. split; [split|].
  - intros [g H]. exact (proj1 (corner_fold_ok _ _ _ _ Hnd H)).
  - intros H. apply corner_fold_success. exact H.
  - intros g H. exact (proj2 (corner_fold_ok _ _ _ _ Hnd H)).
Qed.

(** the first bad entry decides the exception *)
Theorem corners_bc_refusal : forall d l k v l', Forall (good_corner d) l ->
  ((forall i, (i < n_corners d)%nat -> k <> nat_str (i + 1)) -> build_corners_bc d (Some (l ++ (k, v) :: l')) = Err KeyError) /\
  ((exists i, (i < n_corners d)%nat /\ k = nat_str (i + 1)) -> (v = None \/ exists t, v = Some t /\ length t <> d) ->
   build_corners_bc d (Some (l ++ (k, v) :: l')) = Err RuntimeError).
Proof.
  intros d l k v l' Hl. destruct (corner_fold_success d l (fun _ => repeat 0%Z d) Hl) as [g Hg]. cbn [build_corners_bc].
  rewrite fold_left_app, Hg. cbn [fold_left]. split.
  - intros Hk. unfold corner_bc_step at 2. cbn [rbind fst snd]. destruct (gget String.eqb (corners_mapping d) k) as [i|] eqn:E; [|apply corner_fold_err].
    apply (proj1 (corner_label _ _ _)) in E. destruct E as [Hi ->]. exfalso. exact (Hk i Hi eq_refl).
  - intros [i [Hi ->]] Hv. unfold corner_bc_step at 2. cbn [rbind fst snd]. rewrite (proj2 (corner_label d _ i) (conj Hi eq_refl)).
    destruct Hv as [-> | [t [-> Ht]]]; [apply corner_fold_err|]. destruct (Nat.eqb_spec (length t) d); [congruence|]. apply corner_fold_err.
Qed.

(** without a dictionary nothing is fixed, though the description promises a
    random set of minimal constraints *)
Theorem no_conditions_no_constraint_refuted : forall d, (d = 2 \/ d = 3)%nat ->
  exists g, build_corners_bc d None = Ok g /\ forall i z, In z (g i) -> z = 0%Z.
Proof. intros d Hd. eexists. split; [reflexivity|]. intros i z Hz. now apply repeat_spec in Hz. Qed.

(** ** The random minimal set *)
Definition dofs (d : nat) : list (nat * nat) := flat_map (fun c => map (fun j => (c, j)) (seq 0 d)) (seq 0 (n_corners d)).
Definition zsum (l : list Z) : Z := fold_right Z.add 0%Z l.
Lemma zsum_perm : forall l l', Permutation l l' -> zsum l = zsum l'.
Proof. intros l l' H. induction H; unfold zsum in *; simpl; lia. Qed.
Lemma dofs_values : forall d s, (d = 2 \/ d = 3)%nat -> length s = (n_corners d * d)%nat ->
  map (fun p => random_corners_bc d s (fst p) (snd p)) (dofs d) = s.
Proof.
  intros d s [-> | ->] H; cbn in H.
  - do 8 (destruct s as [|? s]; [discriminate|]). destruct s; [reflexivity|discriminate].
  - do 24 (destruct s as [|? s]; [discriminate|]). destruct s; [reflexivity|discriminate].
Qed.
(** whatever the shuffle, three degrees of freedom are fixed in two dimensions
    and six in three, the others are free *)
Theorem random_bc_count : forall d s, (d = 2 \/ d = 3)%nat -> Permutation (random_start d) s ->
  length s = (n_corners d * d)%nat /\
  (forall c j, (c < n_corners d)%nat -> (j < d)%nat -> random_corners_bc d s c j = 0%Z \/ random_corners_bc d s c j = 1%Z) /\
  zsum (map (fun p => random_corners_bc d s (fst p) (snd p)) (dofs d)) = Z.of_nat (n_min_bc d) /\
  Z.of_nat (n_min_bc d) = (if Nat.eqb d 2 then 3 else 6)%Z.
Proof.
  intros d s Hd Hp. assert (Hl : length s = (n_corners d * d)%nat).
  { rewrite <- (Permutation_length Hp). destruct Hd as [-> | ->]; reflexivity. }
  split; [exact Hl|]. split; [|split].
  - intros c j Hc Hj. unfold random_corners_bc. assert (Hin : In (nth (c * d + j) s 0%Z) s) by (apply nth_In; rewrite Hl; nia).
    apply (Permutation_in _ (Permutation_sym Hp)) in Hin. unfold random_start in Hin. apply in_app_or in Hin.
    destruct Hin as [Hin|Hin]; apply repeat_spec in Hin; tauto.
  - rewrite (dofs_values d s Hd Hl), <- (zsum_perm _ _ Hp). destruct Hd as [-> | ->]; reflexivity.
  - destruct Hd as [-> | ->]; reflexivity.
Qed.

Local Open Scope R_scope.
(** rigid motions of the plane: a translation and a (small) rotation *)
Definition rigid2 (a b w : R) (x : vec) : vec := fun j => match j with 0%nat => a - w * x 1%nat | _ => b + w * x 0%nat end.
Definition holds2 (dims : vec) (bc : nat -> nat -> Z) (a b w : R) : Prop :=
  forall c j, (c < 4)%nat -> (j < 2)%nat -> bc c j = 1%Z -> rigid2 a b w (corner_coords dims c) j = 0.
(** some shuffles leave the patch free to move, others do not *)
Theorem random_bc_rigid_motion_refuted : forall dims, 0 < dims 0%nat -> 0 < dims 1%nat ->
  (exists s, Permutation (random_start 2) s /\ holds2 dims (random_corners_bc 2 s) 0 1 0) /\
  (exists s, Permutation (random_start 2) s /\ forall a b w, holds2 dims (random_corners_bc 2 s) a b w -> a = 0 /\ b = 0 /\ w = 0).
Proof.
  intros dims H0 H1. split.
  - exists [1;0;1;0;1;0;0;0]%Z. split.
    + unfold random_start; cbn. apply perm_skip. apply (Permutation_cons_app [0]%Z [0;1;0;0;0]%Z 1%Z). cbn.
      apply (Permutation_cons_app [0;0]%Z [0;0;0]%Z 1%Z). apply Permutation_refl.
    + intros c j Hc Hj Hb. do 4 (destruct c as [|c]; [destruct j as [|[|j]]; [cbn in *; try discriminate Hb; ring|cbn in Hb; discriminate Hb|lia]|]). lia.
  - exists [1;1;0;1;0;0;0;0]%Z. split.
    + unfold random_start; cbn. do 2 apply perm_skip. apply perm_swap.
    + intros a b w H. pose proof (H 0%nat 0%nat ltac:(lia) ltac:(lia) eq_refl) as E1. pose proof (H 0%nat 1%nat ltac:(lia) ltac:(lia) eq_refl) as E2.
      pose proof (H 1%nat 1%nat ltac:(lia) ltac:(lia) eq_refl) as E3. cbn in E1, E2, E3. repeat split; nra.
Qed.

(** ** Edges *)
Section FillProofs.
Context {A V : Type}.
Variables (get : option V -> res A).
Lemma fill_ok : forall m lab f g, NoDup (map snd m) -> fill get m lab f = Ok g ->
  (forall label i j, In (label, (i, j)) m -> get (gget String.eqb lab label) = Ok (g i j)) /\
  (forall i j, ~ In (i, j) (map snd m) -> g i j = f i j).
Proof.
  induction m as [|[label [i j]] m IH]; intros lab f g Hnd H; cbn [fill] in H.
  - injection H as <-. split; [intros ? ? ? []|reflexivity].
  - destruct (get (gget String.eqb lab label)) as [v|] eqn:E; [|discriminate]. cbn [rbind] in H.
    cbn [map snd] in Hnd. apply NoDup_cons_iff in Hnd. destruct Hnd as [Hn Hnd']. apply IH in H; [|exact Hnd']. destruct H as [Hin Hout]. split.
    + intros l' i' j' [[= <- <- <-]|H']; [|apply Hin; exact H'].
      rewrite (Hout i j Hn), E. unfold set2. now rewrite !Nat.eqb_refl.
    + intros i' j' H'. cbn [map snd] in H'. rewrite Hout by (intros Q; apply H'; right; exact Q). unfold set2.
      destruct (Nat.eqb_spec i' i) as [->|]; [|reflexivity]. destruct (Nat.eqb_spec j' j) as [->|]; [|reflexivity].
      exfalso. apply H'. left. reflexivity.
Qed.
Lemma fill_success : forall m lab f, (forall label p, In (label, p) m -> exists v, get (gget String.eqb lab label) = Ok v) -> exists g, fill get m lab f = Ok g.
Proof.
  induction m as [|[label [i j]] m IH]; intros lab f H; [eexists; reflexivity|]. cbn [fill].
  destruct (H label (i, j) (or_introl eq_refl)) as [v ->]. cbn [rbind]. apply IH. intros l' p Hp. apply (H l' p). right. exact Hp.
Qed.
Lemma fill_refused : forall e m lab f, (forall v e', get v = Err e' -> e' = e) ->
  (exists label p, In (label, p) m /\ get (gget String.eqb lab label) = Err e) -> fill get m lab f = Err e.
Proof.
  induction m as [|[label [i j]] m IH]; intros lab f He [l' [p [Hin Hg]]]; [contradiction|]. cbn [fill].
  destruct (get (gget String.eqb lab label)) as [v|e'] eqn:E; cbn [rbind].
  - apply IH; [exact He|]. exists l', p. split; [|exact Hg]. destruct Hin as [[= <- <-]|Hin]; [congruence|exact Hin].
  - f_equal. exact (He _ _ E).
Qed.
End FillProofs.

(** the order of every edge is the non-negative part of the one given for its
    label, zero when its label is not given; one order serves for all; anything
    that is not an integer is refused *)
Theorem edges_orders_option : forall d, (d = 2 \/ d = 3)%nat ->
  (exists g, build_edges_poly_orders d ONone = Ok g /\ forall i j, g i j = 0%Z) /\
  (forall z, exists g, build_edges_poly_orders d (OInt z) = Ok g /\ forall i j, g i j = Z.max 0 z) /\
  build_edges_poly_orders d OOther = Err RuntimeError /\
  (forall l, (forall label p, In (label, p) (edges_mapping d) -> gget String.eqb l label <> Some None) ->
     exists g, build_edges_poly_orders d (ODict l) = Ok g /\
       forall label i j, In (label, (i, j)) (edges_mapping d) ->
         g i j = match gget String.eqb l label with Some (Some z) => Z.max 0 z | _ => 0%Z end) /\
  (forall l label p, In (label, p) (edges_mapping d) -> gget String.eqb l label = Some None ->
     build_edges_poly_orders d (ODict l) = Err RuntimeError).
Proof.
  intros d Hd. split; [|split; [|split; [|split]]].
  - eexists. split; reflexivity.
  - intros z. eexists. split; reflexivity.
  - reflexivity.
  - intros l H. destruct (fill_success edge_order (edges_mapping d) l (fun _ _ => 0%Z)) as [g Hg].
    { intros label p Hp. specialize (H label p Hp). destruct (gget String.eqb l label) as [[z|]|]; [eexists; reflexivity|congruence|eexists; reflexivity]. }
    exists g. split; [exact Hg|]. intros label i j Hin.
    destruct (fill_ok _ _ _ _ _ (proj1 (proj2 (proj2 (edge_labels_bijective d Hd)))) Hg) as [Hv _]. specialize (Hv label i j Hin).
    specialize (H label (i, j) Hin). destruct (gget String.eqb l label) as [[z|]|]; cbn [edge_order] in Hv; congruence.
  - intros l label p Hin Hn. cbn [build_edges_poly_orders]. apply fill_refused.
    + intros [[z|]|] e'; cbn [edge_order]; congruence.
    + exists label, p. split; [exact Hin|]. now rewrite Hn.
Qed.

(** the range of every edge is the one given for its label, the null range
    when its label is not given *)
Theorem edges_range_option : forall d, (d = 2 \/ d = 3)%nat ->
  (exists g, build_edges_disp_range d RNone = Ok g /\ forall i j, g i j = [0; 0]) /\
  build_edges_disp_range d ROther = Err RuntimeError /\
  (forall l, (forall label p, In (label, p) (edges_mapping d) -> gget String.eqb l label <> Some None) ->
     exists g, build_edges_disp_range d (RDict l) = Ok g /\
       forall label i j, In (label, (i, j)) (edges_mapping d) ->
         g i j = match gget String.eqb l label with Some (Some t) => t | _ => [0; 0] end) /\
  (forall l label p, In (label, p) (edges_mapping d) -> gget String.eqb l label = Some None ->
     build_edges_disp_range d (RDict l) = Err RuntimeError).
Proof.
  intros d Hd. split; [|split; [|split]].
  - eexists. split; reflexivity.
  - reflexivity.
  - intros l H. destruct (fill_success edge_range (edges_mapping d) l (fun _ _ => [])) as [g Hg].
    { intros label p Hp. specialize (H label p Hp). destruct (gget String.eqb l label) as [[z|]|]; [eexists; reflexivity|congruence|eexists; reflexivity]. }
    exists g. split; [exact Hg|]. intros label i j Hin.
    destruct (fill_ok _ _ _ _ _ (proj1 (proj2 (proj2 (edge_labels_bijective d Hd)))) Hg) as [Hv _]. specialize (Hv label i j Hin).
    specialize (H label (i, j) Hin). destruct (gget String.eqb l label) as [[z|]|]; cbn [edge_range] in Hv; congruence.
  - intros l label p Hin Hn. cbn [build_edges_disp_range]. apply fill_refused.
    + intros [[z|]|] e'; cbn [edge_range]; congruence.
    + exists label, p. split; [exact Hin|]. now rewrite Hn.
Qed.

(** a label that is not the number of an edge is dropped without a word (the
    corners refuse theirs), and so is a range that is not a pair accepted *)
Theorem edges_labels_checked_refuted : forall d, (d = 2 \/ d = 3)%nat ->
  (forall l label v, ~ In label (map fst (edges_mapping d)) -> build_edges_poly_orders d (ODict ((label, v) :: l)) = build_edges_poly_orders d (ODict l)) /\
  ~ In "top" (map fst (edges_mapping d)) /\
  build_corners_bc d (Some [("top", Some (repeat 1%Z d))]) = Err KeyError /\
  (forall t, exists g, build_edges_disp_range d (RDict [("1", Some t)]) = Ok g /\ g 0%nat 0%nat = t).
Proof.
  intros d Hd.
  assert (T : ~ In "top" (map fst (edges_mapping d))) by (destruct Hd as [-> | ->]; cbn; intros H; repeat (destruct H as [H|H]; [discriminate H|]); exact H).
  split; [|split; [exact T|split]].
  - clear T. intros l label v Hn. cbn [build_edges_poly_orders]. revert Hn. generalize (fun _ _ : nat => 0%Z).
    induction (edges_mapping d) as [|[lb [i j]] m IH]; intros f Hn; [reflexivity|]. cbn [fill gget]. cbn [map fst In] in Hn.
    destruct (String.eqb_spec lb label) as [E|E]; [exfalso; apply Hn; left; congruence|].
    destruct (edge_order (gget String.eqb l lb)); cbn [rbind]; [apply IH; intros Q; apply Hn; right; exact Q|reflexivity].
  - destruct Hd as [-> | ->]; reflexivity.
  - intros t. destruct (proj1 (proj2 (proj2 (edges_range_option d Hd))) [("1", Some t)]) as [g [Hg Hv]].
    { intros label p _. cbn [gget]. destruct (String.eqb label "1"); discriminate. }
    exists g. split; [exact Hg|]. rewrite (Hv "1" 0%nat 0%nat); [reflexivity|]. destruct Hd as [-> | ->]; left; reflexivity.
Qed.

(** ** Edges of a three-dimensional patch that share their corners *)
Lemma matching_pair : forall i j, (i < 3)%nat -> (j < 8)%nat -> exists j', (j' < 8)%nat /\ j' <> j /\
  nth j' (edges 3 i) (0, 0)%nat = nth j (edges 3 i) (0, 0)%nat /\
  (matching 3 i j = [j; j'] \/ matching 3 i j = [j'; j]) /\ matching 3 i j' = matching 3 i j.
Proof.
  intros i j Hi Hj. assert (C : forallb (fun i => forallb (fun j => existsb (fun j' => (negb (Nat.eqb j' j) &&
      (Nat.eqb (fst (nth j' (edges 3 i) (0, 0)%nat)) (fst (nth j (edges 3 i) (0, 0)%nat)) && Nat.eqb (snd (nth j' (edges 3 i) (0, 0)%nat)) (snd (nth j (edges 3 i) (0, 0)%nat))) &&
      (match matching 3 i j with [a; b] => (Nat.eqb a j && Nat.eqb b j') || (Nat.eqb a j' && Nat.eqb b j) | _ => false end) &&
      (match matching 3 i j, matching 3 i j' with [a; b], [a'; b'] => Nat.eqb a a' && Nat.eqb b b' | _, _ => false end))%bool)
      (seq 0 8)) (seq 0 8)) (seq 0 3) = true) by (vm_compute; reflexivity).
  rewrite forallb_forall in C. specialize (C i ltac:(apply in_seq; lia)). cbn beta in C. rewrite forallb_forall in C. specialize (C j ltac:(apply in_seq; lia)).
  cbn beta in C. apply existsb_exists in C. destruct C as [j' [Hj' C]]. apply in_seq in Hj'. exists j'. split; [lia|].
  apply andb_true_iff in C. destruct C as [C C4]. apply andb_true_iff in C. destruct C as [C C3]. apply andb_true_iff in C. destruct C as [C1 C2].
  split; [destruct (Nat.eqb_spec j' j); [discriminate|assumption]|]. apply andb_true_iff in C2. destruct C2 as [Ca Cb]. apply Nat.eqb_eq in Ca, Cb.
  split; [destruct (nth j' (edges 3 i) (0, 0)%nat), (nth j (edges 3 i) (0, 0)%nat); cbn in Ca, Cb; congruence|].
  destruct (matching 3 i j) as [|a [|b [|? ?]]]; try discriminate C3. split.
  - apply orb_true_iff in C3. destruct C3 as [C3|C3]; apply andb_true_iff in C3; destruct C3 as [P Q]; apply Nat.eqb_eq in P, Q; subst; tauto.
  - destruct (matching 3 i j') as [|a' [|b' [|? ?]]]; try discriminate C4. apply andb_true_iff in C4. destruct C4 as [P Q]. apply Nat.eqb_eq in P, Q. congruence.
Qed.

(** every edge of a three-dimensional patch has exactly one other edge with the
    same corners; averaged, the two coincide, keep the ends they share, stay
    between the two, and averaging again changes nothing *)
Theorem averaged_edges_agree : forall i j (e : nat -> nat -> vec), (i < 3)%nat -> (j < 8)%nat -> exists j', (j' < 8)%nat /\ j' <> j /\
  nth j' (edges 3 i) (0, 0)%nat = nth j (edges 3 i) (0, 0)%nat /\
  (forall k c, average_edge 3 i e j k c = (e j k c + e j' k c) / 2) /\
  (forall k c, average_edge 3 i e j' k c = average_edge 3 i e j k c) /\
  (forall k c, e j k c = e j' k c -> average_edge 3 i e j k c = e j k c) /\
  (forall k c, Rmin (e j k c) (e j' k c) <= average_edge 3 i e j k c <= Rmax (e j k c) (e j' k c)) /\
  (forall k c, average_edge 3 i (average_edge 3 i e) j k c = average_edge 3 i e j k c).
Proof.
  intros i j e Hi Hj. destruct (matching_pair i j Hi Hj) as [j' [Hj' [Hne [Hc [Hm Hm']]]]]. exists j'.
  assert (A : forall (f : nat -> nat -> vec) k c, average_edge 3 i f j k c = (f j k c + f j' k c) / 2).
  { intros f k c. unfold average_edge. destruct Hm as [-> | ->]; simpl; field. }
  assert (A' : forall (f : nat -> nat -> vec) k c, average_edge 3 i f j' k c = (f j k c + f j' k c) / 2).
  { intros f k c. unfold average_edge. rewrite Hm'. destruct Hm as [-> | ->]; simpl; field. }
  repeat split; try assumption.
  - intros k c. apply A.
  - intros k c. now rewrite A, A'.
  - intros k c E. rewrite A, <- E. field.
  - rewrite A. unfold Rmin. destruct (Rle_dec (e j k c) (e j' k c)); lra.
  - rewrite A. unfold Rmax. destruct (Rle_dec (e j k c) (e j' k c)); lra.
  - intros k c. rewrite (A (average_edge 3 i e)), A, A'. field.
Qed.

(** in two dimensions no two edges share their corners *)
Theorem plane_edges_unmatched : forall i j (e : nat -> nat -> vec), (i < 2)%nat -> (j < 2)%nat ->
  matching 2 i j = [j] /\ forall k c, average_edge 2 i e j k c = e j k c.
Proof.
  intros i j e Hi Hj. assert (M : matching 2 i j = [j]) by (destruct i as [|[|i]]; [| |lia]; (destruct j as [|[|j]]; [| |lia]); reflexivity).
  split; [exact M|]. intros k c. unfold average_edge. rewrite M. simpl. field.
Qed.

(** a displacement asked for one label only is halved: the other label of the
    same edge of the patch, left out of the dictionary, stays straight *)
Theorem edge_displacement_kept_refuted : forall i j (e s : nat -> nat -> vec), (i < 3)%nat -> (j < 8)%nat -> exists j', (j' < 8)%nat /\ j' <> j /\
  forall k c, s j k c = s j' k c -> e j' k c = s j' k c -> average_edge 3 i e j k c - s j k c = (e j k c - s j k c) / 2.
Proof.
  intros i j e s Hi Hj. destruct (averaged_edges_agree i j e Hi Hj) as [j' [Hj' [Hne [_ [A _]]]]]. exists j'. split; [exact Hj'|]. split; [exact Hne|].
  intros k c Es Ee. rewrite A, Ee, <- Es. field.
Qed.

(** ** Rotation angles *)
Lemma atan2_of_polar : forall r t, 0 < r -> - PI < t <= PI -> atan2 (r * sin t) (r * cos t) = t.
Proof.
  intros r t Hr Ht. unfold atan2. replace (r * cos t * (r * cos t) + r * sin t * (r * sin t)) with (r * r * ((sin t)² + (cos t)²)) by (unfold Rsqr; ring).
  rewrite sin2_cos2, Rmult_1_r, sqrt_square by lra. destruct (Req_EM_T r 0) as [E|E]; [lra|].
  replace (r * cos t / r) with (cos t) by (field; exact E). destruct (rltb (r * sin t) 0) eqn:Es.
  - apply rltb_iff in Es. assert (Hn : t < 0). { destruct (Rlt_le_dec t 0) as [H|H]; [exact H|]. pose proof (sin_ge_0 t H (proj2 Ht)). nra. }
    rewrite <- cos_neg, acos_cos by lra. ring.
  - apply rltb_false in Es. apply acos_cos. split; [|lra]. destruct (Rlt_le_dec t 0) as [H|H]; [|exact H].
    assert (0 < sin (- t)) by (apply sin_gt_0; lra). rewrite sin_neg in *. nra.
Qed.
Lemma atan2_range : forall y x, - PI <= atan2 y x <= PI.
Proof.
  intros y x. pose proof PI_RGT_0. unfold atan2. destruct (Req_EM_T _ 0); [lra|]. pose proof (acos_bound (x / sqrt (x * x + y * y))).
  destruct (rltb y 0); lra.
Qed.
Lemma degrees_range : forall x, - PI <= x <= PI -> -180 <= degrees x <= 180.
Proof.
  intros x Hx. pose proof PI_RGT_0. unfold degrees. replace (x * 180 / PI) with (180 * (x / PI)) by (field; lra).
  assert (-1 <= x / PI <= 1). { split; apply (Rmult_le_reg_r PI); try lra; unfold Rdiv; rewrite Rmult_assoc, Rinv_l by lra; lra. } lra.
Qed.
Definition rot (t : R) (x : R * R) : R * R := (cos t * fst x - sin t * snd x, sin t * fst x + cos t * snd x).

(** the angle is the one of the rotation that takes the direction of the first
    vector to that of the second, between -180 and 180 degrees; it is found for
    every rotation and scaling *)
Theorem rotation_angle_exact : forall x t r, x <> (0, 0) -> 0 < r -> - PI < t <= PI ->
  rotation_angle_2d x (r * fst (rot t x), r * snd (rot t x)) = degrees t.
Proof.
  intros [a b] t r Hx Hr Ht. unfold rotation_angle_2d, rot. cbn [fst snd]. f_equal.
  assert (Hn : 0 < r * (a * a + b * b)). { assert (0 < a * a + b * b) by (destruct (Req_dec a 0) as [->|]; [destruct (Req_dec b 0) as [->|]; [congruence|nra]|nra]). nra. }
  replace (a * (r * (sin t * a + cos t * b)) - b * (r * (cos t * a - sin t * b))) with (r * (a * a + b * b) * sin t) by ring.
  replace (a * (r * (cos t * a - sin t * b)) + b * (r * (sin t * a + cos t * b))) with (r * (a * a + b * b) * cos t) by ring.
  apply atan2_of_polar; [exact Hn|exact Ht].
Qed.
Theorem rotation_angle_range : forall x1 x2, -180 <= rotation_angle_2d x1 x2 <= 180.
Proof. intros x1 x2. apply degrees_range, atan2_range. Qed.

(** the mean lies in the same range, and is the common angle when there is one *)
Theorem mean_rotation_range : forall a1 a2 m, mean_rotation_angle_2d a1 a2 = Ok (Some m) -> -180 <= m <= 180.
Proof.
  intros a1 a2 m H. unfold mean_rotation_angle_2d in H. destruct (Nat.eqb_spec (length a1) (length a2)) as [E|E]; [|discriminate]. cbn [negb] in H.
  set (l := map (fun p => rotation_angle_2d (fst p) (snd p)) (combine a1 a2)) in *.
  assert (Hl : length l = length a1) by (unfold l; rewrite map_length, combine_length, <- E; lia).
  assert (Hm : a1 <> [] /\ m = lsum l / INR (length a1)) by (destruct a1; [discriminate|split; [discriminate|congruence]]).
  destruct Hm as [Hne ->].
  assert (B : forall l, Forall (fun v => -180 <= v <= 180) l -> -180 * INR (length l) <= lsum l <= 180 * INR (length l)).
  { clear. induction l as [|v l IH]; intros H; [simpl; lra|]. inversion H as [|? ? Hv Hl]; subst. specialize (IH Hl). cbn [length lsum]. rewrite S_INR. lra. }
  assert (Hb : Forall (fun v => -180 <= v <= 180) l) by (apply Forall_forall; intros v Hv; unfold l in Hv; apply in_map_iff in Hv; destruct Hv as [p [<- _]]; apply rotation_angle_range).
  specialize (B l Hb). rewrite Hl in B. assert (0 < INR (length a1)) by (apply lt_0_INR; destruct a1; [congruence|cbn; lia]).
  split; apply (Rmult_le_reg_r (INR (length a1))); try assumption; unfold Rdiv; rewrite Rmult_assoc, Rinv_l by lra; lra.
Qed.
Theorem mean_rotation_common : forall a1 t, a1 <> [] -> Forall (fun x => x <> (0, 0)) a1 -> - PI < t <= PI ->
  mean_rotation_angle_2d a1 (map (rot t) a1) = Ok (Some (degrees t)).
Proof.
  intros a1 t Hne Hx Ht. unfold mean_rotation_angle_2d. rewrite map_length, Nat.eqb_refl. cbn [negb].
  assert (S : lsum (map (fun p => rotation_angle_2d (fst p) (snd p)) (combine a1 (map (rot t) a1))) = degrees t * INR (length a1)).
  { clear Hne. induction a1 as [|x a1 IH]; [simpl; ring|]. inversion Hx as [|? ? Hx0 Hx']; subst. cbn [map combine lsum length fst snd]. rewrite (IH Hx'), S_INR.
    pose proof (rotation_angle_exact x t 1 Hx0 ltac:(lra) Ht) as A. rewrite !Rmult_1_l in A. destruct (rot t x) as [u v]. cbn [fst snd] in A. rewrite A. ring. }
  destruct a1 as [|x a1]; [congruence|]. rewrite S. do 2 f_equal. field. apply not_0_INR. discriminate.
Qed.
(** two rotations just short of half a turn, one each way, have mean zero
    although both reverse the vector, and so do all opposite rotations *)
Theorem mean_rotation_opposite_refuted : forall x t, x <> (0, 0) -> 0 <= t < PI ->
  mean_rotation_angle_2d [x; x] [rot t x; rot (- t) x] = Ok (Some 0).
Proof.
  intros x t Hx Ht. unfold mean_rotation_angle_2d. cbn [length Nat.eqb negb combine map fst snd].
  pose proof (rotation_angle_exact x t 1 Hx ltac:(lra) ltac:(lra)) as A. pose proof (rotation_angle_exact x (- t) 1 Hx ltac:(lra) ltac:(lra)) as B.
  rewrite !Rmult_1_l in A, B. rewrite <- surjective_pairing in A, B. rewrite A, B. do 2 f_equal. unfold degrees. simpl. field. pose proof PI_RGT_0. lra.
Qed.

(** ** Examples *)
Example patch_options_case :
  (exists g, build_corners_bc 2 (Some [("1", Some [1; 1]%Z); ("2", Some [0; 1]%Z)]) = Ok g /\ map g (seq 0 4) = [[1; 1]; [0; 1]; [0; 0]; [0; 0]]%Z) /\
  (exists g, build_edges_poly_orders 2 (ODict [("3", Some 2%Z); ("4", Some (-1)%Z)]) = Ok g /\ map (fun p => g (fst p) (snd p)) [(0, 0); (0, 1); (1, 0); (1, 1)]%nat = [0; 0; 2; 0]%Z) /\
  matching 3 0 0 = [0; 4]%nat.
Proof. repeat split; try (eexists; split); reflexivity. Qed.

Print Assumptions edge_labels_bijective.
Print Assumptions corners_bc_dictionary.
Print Assumptions corners_bc_refusal.
Print Assumptions no_conditions_no_constraint_refuted.
Print Assumptions random_bc_count.
Print Assumptions random_bc_rigid_motion_refuted.
Print Assumptions edges_orders_option.
Print Assumptions edges_range_option.
Print Assumptions edges_labels_checked_refuted.
Print Assumptions averaged_edges_agree.
Print Assumptions plane_edges_unmatched.
Print Assumptions edge_displacement_kept_refuted.
Print Assumptions rotation_angle_exact.
Print Assumptions rotation_angle_range.
Print Assumptions mean_rotation_range.
Print Assumptions mean_rotation_common.
Print Assumptions mean_rotation_opposite_refuted.
