(** Random deformation of a patch: corners, ranges, boundary displacements and
    the generation loop. *)
From Coq Require Import Reals List Arith Lia Lra Bool.
From Verif Require Import Lib PyDict HardeningModel DeformModel DeformProps.
Import ListNotations.
Local Open Scope R_scope.
Local Open Scope list_scope.

(** ** A unit square that is not deformed *)
Definition unit_dims : vec := fun _ => 1.
Definition unit_corners (c : nat) : vec := corner_coords unit_dims c.
Lemma unit_frame : exists r, edge_frame 2 unit_corners 0 0 = Ok r.
Proof.
  unfold edge_frame. cbn [edges edges_diag Nat.eqb nth].
  assert (N1 : norm 2 (vsub (unit_corners 1) (unit_corners 0)) = 1).
  { unfold norm, dot, vsub, unit_corners, corner_coords, unit_dims. cbn. replace (_ + _) with 1 by ring. apply sqrt_1. }
  assert (N2 : norm 2 (vsub (unit_corners 2) (unit_corners 0)) = sqrt 2).
  { unfold norm, dot, vsub, unit_corners, corner_coords, unit_dims. cbn. f_equal. ring. }
  rewrite N1, N2. destruct (Req_EM_T 1 0); [lra|].
  assert (S2 : 0 < sqrt 2) by (apply sqrt_lt_R0; lra).
  destruct (Req_EM_T (sqrt 2) 0); [lra|].
  set (o := cross _ _). destruct (Req_EM_T (norm 3 o) 0) as [Z|]; [exfalso|eexists; reflexivity].
  unfold norm in Z. apply sqrt_eq_0 in Z.
  - assert (O2 : o 2%nat = - (1 / sqrt 2)). { unfold o, cross, pad, vscale, vsub, unit_corners, corner_coords, unit_dims. cbn. field. lra. }
    unfold dot in Z. cbn [rsum] in Z. rewrite O2 in Z.
    assert (0 < 1 / sqrt 2) by (apply Rdiv_lt_0_compat; lra). pose proof (Rle_0_sqr (o 0%nat)). pose proof (Rle_0_sqr (o 1%nat)). unfold Rsqr in *. nra.
  - unfold dot. cbn [rsum]. pose proof (Rle_0_sqr (o 0%nat)). pose proof (Rle_0_sqr (o 1%nat)). pose proof (Rle_0_sqr (o 2%nat)). unfold Rsqr in *. lra.
Qed.
(** From order three on the polynomial leaves the range of its control points:
    the middle node is displaced outwards by more than the upper limit. *)
Theorem edge_range_refuted : forall solve normal, solver_correct solve -> exists order rng u r nodes,
  (forall k, 0 <= u k < 1) /\ fst rng <= 0 <= snd rng /\ edge_frame 2 unit_corners 0 0 = Ok r
  /\ edge_def solve 2 unit_dims 0 3 unit_corners 0 0 order rng u normal = Ok nodes
  /\ snd rng < dot 2 (r 1%nat) (vsub (nodes 1%nat) (unit_corners 0)).
Proof.
  intros solve normal SC. destruct unit_frame as [r EF]. exists 3%nat, (0, 1), (fun _ => 19 / 20), r.
  pose proof (seen_2d unit_dims unit_corners 0 0 r EF ltac:(lia) ltac:(cbn; lia) ltac:(unfold unit_dims; lra)) as SE.
  destruct (edge_def_eq solve 2 unit_dims 0 3 unit_corners 0 0 3 (0, 1) (fun _ => 19 / 20) normal r (or_introl eq_refl) ltac:(lia) EF SE) as (nodes & E1 & E2).
  exists nodes. split; [intros; lra|]. split; [cbn; lra|]. split; [auto|]. split; [auto|]. cbn [fst snd].
  specialize (E2 1%nat ltac:(lia)). cbn [edges Nat.eqb nth fst snd] in E2. 
  assert (N1 : norm 2 (vsub (unit_corners 1) (unit_corners 0)) = 1).
  { unfold norm, dot, vsub, unit_corners, corner_coords, unit_dims. cbn. replace (_ + _) with 1 by ring. apply sqrt_1. }
  rewrite N1 in E2. set (coefs := polynomial_sampler solve 3 (0, 0) (1, 0) (0, 1) (fun _ => 19 / 20)) in *.
  destruct (sampler_interpolates solve 3 (0, 0) (1, 0) (0, 1) (fun _ => 19 / 20) SC ltac:(cbn; lra)) as (L & I & _). fold coefs in L, I.
  assert (PC : forall x, polynomial coefs x = 9 / 2 * (19 / 20) * (x * (1 - x))).
  { intros x. rewrite (polynomial_unique [0; 1; 1 / 3; 2 / 3] coefs [0; 9 / 2 * (19 / 20); - (9 / 2 * (19 / 20)); 0]); auto.
    - rewrite polynomial_horner. cbn. ring.
    - repeat constructor; cbn; intuition lra.
    - intros y Y. rewrite (polynomial_horner [_; _; _; _]). cbn [horner].
      assert (CP : control_points 3 (0, 0) (1, 0) (0, 1) (fun _ => 19 / 20) = [(0, 0); (1, 0); (1 / 3, 19 / 20); (2 / 3, 19 / 20)]).
      { unfold control_points. cbn [Nat.sub plus seq map app fst snd]. replace (linspace 0 1 4 1) with (1 / 3) by (unfold linspace; cbn; field).
        replace (linspace 0 1 4 2) with (2 / 3) by (unfold linspace; cbn; field). replace (uniform (0, 1) (19 / 20)) with (19 / 20) by (unfold uniform; cbn; ring). reflexivity. }
      rewrite CP in I. destruct Y as [<-|[<-|[<-|[<-|[]]]]].
      + transitivity (0); [apply (I (0, 0)); cbn; auto|]. ring.
      + transitivity (0); [apply (I (1, 0)); cbn; auto|]. ring.
      + transitivity (19 / 20); [apply (I (1 / 3, 19 / 20)); cbn; auto|]. field.
      + transitivity (19 / 20); [apply (I (2 / 3, 19 / 20)); cbn; auto|]. field. }
  assert (M : node_param coefs (0, 0) (1, 0) n_poly_points (1 / 2) = 1 / 2).
  { apply node_param_middle; [unfold n_poly_points; lia|cbn; lra|]. intros t. rewrite !PC, !param_x_eq. cbn [fst]. ring. }
  replace (INR 1 / INR (3 - 1)) with (1 / 2) in E2 by (cbn; field). unfold node_at in E2. rewrite M, PC, param_x_eq, Rabs_R0 in E2. cbn [fst snd] in E2.
  rewrite (outward_coordinate 2 unit_corners 0 0 r (unit_corners 0) (1 / 2) (9 / 2 * (19 / 20) * (1 / 2 * (1 - 1 / 2)))); auto; [lra|].
  intros c C. rewrite E2. unfold from_local, vadd, mv, transpose. cbn [rsum]. field.
Qed.

(** ** Corner displacements *)
Definition in_range (b : R * R) (x : R) : Prop := fst b <= x <= snd b.
(** The two ranges overlap on an interval, or are the same single value. *)
Definition compatible (a b : R * R) : Prop := Rmax (fst a) (fst b) < Rmin (snd a) (snd b) \/ (a = b /\ fst a = snd a).
Lemma uniform_range b u : fst b <= snd b -> 0 <= u <= 1 -> in_range b (uniform b u).
Proof. intros B U. unfold in_range, uniform. nra. Qed.
Lemma zero_order_range a b ul ur : compatible a b -> 0 <= ul <= 1 -> 0 <= ur <= 1 -> in_range a (zero_order_disp a b ul ur) /\ in_range b (zero_order_disp a b ul ur).
Proof.
  intros [C|[<- E]] U1 U2; unfold zero_order_disp, rltb.
  - destruct (Rlt_dec _ _) as [L|]; [|contradiction]. pose proof (uniform_range (Rmax (fst a) (fst b), Rmin (snd a) (snd b)) ul ltac:(cbn; lra) U1) as [A B].
    cbn [fst snd] in A, B. pose proof (Rmax_l (fst a) (fst b)). pose proof (Rmax_r (fst a) (fst b)). pose proof (Rmin_l (snd a) (snd b)). pose proof (Rmin_r (snd a) (snd b)).
    unfold in_range. lra.
  - rewrite Rmax_left, Rmin_left by lra. destruct (Rlt_dec _ _); [lra|]. unfold uniform, in_range. rewrite <- E. split; split; lra.
Qed.
Lemma matching_spec d i j k : In k (matching d i j) -> nth k (edges d i) (0, 0)%nat = nth j (edges d i) (0, 0)%nat.
Proof.
  intros H. unfold matching in H. apply filter_In in H. destruct H as [_ H]. unfold pair_eqb in H. apply andb_true_iff in H. destruct H as [A B].
  apply Nat.eqb_eq in A. apply Nat.eqb_eq in B. destruct (nth k _ _), (nth j _ _). cbn in *. subst. reflexivity.
Qed.
(** All the displacements stay within their ranges, provided that the ranges of
    the two ends of every edge of order zero are compatible in the orthogonal
    directions.  Fixed degrees of freedom have the range (0, 0). *)
Theorem corners_in_range_partial : forall d rg orders u0 u, (forall c j, fst (rg c j) <= snd (rg c j)) -> (forall c j, 0 <= u0 c j <= 1) ->
  (forall i j k, 0 <= fst (u i j k) <= 1 /\ 0 <= snd (u i j k) <= 1) ->
  (forall i j k, orders i j = 0%nat -> In k (orthogonal_dims d i) ->
     compatible (rg (fst (nth j (edges d i) (0, 0)%nat)) k) (rg (snd (nth j (edges d i) (0, 0)%nat)) k)) ->
  forall c j, in_range (rg c j) (fst (corners_random_displacements d rg orders u0 u) c j).
Proof.
  intros d rg orders u0 u HR H0 HU HC.
  set (P := fun st : (nat -> nat -> R) * (nat -> nat -> nat) => (forall c j, in_range (rg c j) (fst st c j))
     /\ forall i j, snd st i j = 0%nat -> exists k, orders i k = 0%nat /\ nth k (edges d i) (0, 0)%nat = nth j (edges d i) (0, 0)%nat).
  assert (FOLD : forall {A B} (f : A -> B -> A) (Q : A -> Prop) l a, Q a -> (forall x b, In b l -> Q x -> Q (f x b)) -> Q (fold_left f l a)).
  { intros A B f Q l. induction l as [|b l IH]; intros a Qa S; [auto|]. cbn. apply IH; [apply S; cbn; auto|]. intros; apply S; cbn; auto. }
  assert (STEP : forall i j st, P st -> P (corner_edge_step d rg u i j st)).
  { intros i j [disp od] [P1 P2]. cbn [fst snd] in *. unfold corner_edge_step. destruct (nth j (edges d i) (0, 0)%nat) as [ci ce] eqn:EE.
    destruct (Nat.eqb_spec (od i j) 0) as [Z|]; [|split; auto]. split; cbn [fst snd].
    - apply (FOLD _ _ _ (fun dp => forall c k, in_range (rg c k) (dp c k))); auto. intros dp k Hk HD c q.
      destruct (P2 i j Z) as (k0 & K1 & K2). pose proof (HC i k0 k K1 Hk) as CO. rewrite K2, EE in CO. cbn [fst snd] in CO.
      destruct (HU i j k) as [U1 U2]. destruct (zero_order_range _ _ _ _ CO U1 U2) as [Z1 Z2].
      unfold set2. destruct (Nat.eqb c ce && Nat.eqb q k) eqn:B1; [apply andb_true_iff in B1; destruct B1 as [B1 B2]; apply Nat.eqb_eq in B1, B2; subst; auto|].
      destruct (Nat.eqb c ci && Nat.eqb q k) eqn:B3; [apply andb_true_iff in B3; destruct B3 as [B3 B2]; apply Nat.eqb_eq in B3, B2; subst; auto|]. auto.
    - destruct (P2 i j Z) as (k0 & K1 & K2).
      apply (FOLD _ _ _ (fun o => forall i0 j0, o i0 j0 = 0%nat -> exists k, orders i0 k = 0%nat /\ nth k (edges d i0) (0, 0)%nat = nth j0 (edges d i0) (0, 0)%nat)); auto.
      intros o k Hk HO i0 j0. unfold set2. destruct (Nat.eqb_spec i0 i) as [->|]; destruct (Nat.eqb_spec j0 k) as [->|]; cbn [andb]; auto.
      intros _. exists k0. split; auto. rewrite K2. symmetry. apply matching_spec. auto. }
  assert (ALL : P (corners_random_displacements d rg orders u0 u)).
  { unfold corners_random_displacements. apply FOLD.
    - split; cbn [fst snd]; [intros; apply uniform_range; auto|]. intros i j Z. exists j. auto.
    - intros st i _ Hst. apply FOLD; auto. }
  apply ALL.
Qed.
(** With a compatible neighbour a fixed degree of freedom does not move. *)
Corollary fixed_corner_partial : forall d lab bc orders u0 u c j, (forall c r j, lab c = Some r -> fst (r j) <= snd (r j)) -> (forall c j, 0 <= u0 c j <= 1) ->
  (forall i j k, 0 <= fst (u i j k) <= 1 /\ 0 <= snd (u i j k) <= 1) ->
  let rg := build_corners_disp_range lab bc in
  (forall i j k, orders i j = 0%nat -> In k (orthogonal_dims d i) ->
     compatible (rg (fst (nth j (edges d i) (0, 0)%nat)) k) (rg (snd (nth j (edges d i) (0, 0)%nat)) k)) ->
  bc c j = true -> fst (corners_random_displacements d rg orders u0 u) c j = 0.
Proof.
  intros d lab bc orders u0 u c j HL H0 HU rg HC B.
  assert (HR : forall c j, fst (rg c j) <= snd (rg c j)).
  { intros c' j'. unfold rg, build_corners_disp_range. destruct (bc c' j'); [cbn; lra|]. destruct (lab c') eqn:E; [eauto|cbn; lra]. }
  pose proof (corners_in_range_partial d rg orders u0 u HR H0 HU HC c j) as A.
  assert (E : rg c j = (0, 0)) by (unfold rg, build_corners_disp_range; rewrite B; reflexivity). rewrite E in A. unfold in_range in A. cbn [fst snd] in A. lra.
Qed.
(** Otherwise it does: the two displacements are averaged. *)
Theorem fixed_corner_refuted : exists lab bc orders u0 u c j, (forall c r j, lab c = Some r -> fst (r j) <= snd (r j)) /\ (forall c j, 0 <= u0 c j < 1)
  /\ (forall i j k, 0 <= fst (u i j k) < 1 /\ 0 <= snd (u i j k) < 1) /\ bc c j = true
  /\ fst (corners_random_displacements 2 (build_corners_disp_range lab bc) orders u0 u) c j <> 0.
Proof.
  exists (fun c => if Nat.eqb c 1 then Some (fun _ => (-1, 1)) else None), (fun c j => Nat.eqb c 0), (fun i j => if Nat.eqb i 0 && Nat.eqb j 0 then 0%nat else 1%nat),
    (fun _ _ => 0), (fun _ _ _ => (3 / 4, 3 / 4)), 0%nat, 1%nat.
  split. { intros c r j. destruct (Nat.eqb c 1); [|discriminate]. intros E. injection E as <-. cbn. lra. }
  split; [intros; lra|]. split; [intros; cbn; lra|]. split; [reflexivity|].
  cbn. unfold zero_order_disp, rltb, uniform. cbn. rewrite Rmax_left, Rmin_left by lra. destruct (Rlt_dec 0 0); lra.
Qed.
(** ** Edges of order zero *)
Lemma step_2d rg u i j st : (i < 2)%nat -> (j < 2)%nat -> let e := nth j (edges 2 i) (0, 0)%nat in exists v,
  (forall x y, snd (corner_edge_step 2 rg u i j st) x y = snd st x y)
  /\ forall c k, fst (corner_edge_step 2 rg u i j st) c k
       = if Nat.eqb (snd st i j) 0 && (Nat.eqb k (1 - i) && (Nat.eqb c (snd e) || Nat.eqb c (fst e))) then v else fst st c k.
Proof.
  intros Hi Hj e. destruct st as [disp o]. cbn [fst snd]. unfold corner_edge_step. fold e. destruct e as [ci ce] eqn:EE. cbn [fst snd].
  destruct (Nat.eqb (o i j) 0) eqn:Z; cbn [fst snd andb]; [|exists 0; auto].
  exists (zero_order_disp (rg ci (1 - i)%nat) (rg ce (1 - i)%nat) (fst (u i j (1 - i)%nat)) (snd (u i j (1 - i)%nat))).
  apply Nat.eqb_eq in Z.
  assert (OD : orthogonal_dims 2 i = [(1 - i)%nat]) by (destruct (lt2 i Hi) as [->| ->]; reflexivity).
  assert (MA : matching 2 i j = [j]) by (destruct (lt2 i Hi) as [->| ->]; destruct (lt2 j Hj) as [->| ->]; reflexivity).
  rewrite OD, MA. cbn [fold_left]. unfold set2. split.
  - intros x y. destruct (Nat.eqb_spec x i) as [->|]; destruct (Nat.eqb_spec y j) as [->|]; cbn [andb]; auto.
  - intros c k. destruct (Nat.eqb k (1 - i)); rewrite ?andb_true_r, ?andb_false_r; [|reflexivity]. destruct (Nat.eqb c ce), (Nat.eqb c ci); reflexivity.
Qed.
(** In two dimensions the two ends of an edge of order zero have the same
    displacement orthogonally to the edge, so that it stays parallel. *)
Theorem zero_order_parallel_partial : forall rg orders u0 u i j, (i < 2)%nat -> (j < 2)%nat ->
  let st := corners_random_displacements 2 rg orders u0 u in
  snd st i j = orders i j /\
  (orders i j = 0%nat -> fst st (fst (nth j (edges 2 i) (0, 0)%nat)) (1 - i)%nat = fst st (snd (nth j (edges 2 i) (0, 0)%nat)) (1 - i)%nat).
Proof.
  intros rg orders u0 u i j Hi Hj. cbv zeta. unfold corners_random_displacements.
  change (seq 0 2) with [0; 1]%nat. cbn [fold_left]. change (length (edges 2 0)) with 2%nat. change (length (edges 2 1)) with 2%nat. change (seq 0 2) with [0; 1]%nat. cbn [fold_left].
  set (s0 := (_, orders)). assert (I0 : snd s0 = orders) by reflexivity. clearbody s0.
  destruct (step_2d rg u 0 0 s0 ltac:(lia) ltac:(lia)) as (v1 & A1 & B1). set (s1 := corner_edge_step 2 rg u 0 0 s0) in *. clearbody s1.
  destruct (step_2d rg u 0 1 s1 ltac:(lia) ltac:(lia)) as (v2 & A2 & B2). set (s2 := corner_edge_step 2 rg u 0 1 s1) in *. clearbody s2.
  destruct (step_2d rg u 1 0 s2 ltac:(lia) ltac:(lia)) as (v3 & A3 & B3). set (s3 := corner_edge_step 2 rg u 1 0 s2) in *. clearbody s3.
  destruct (step_2d rg u 1 1 s3 ltac:(lia) ltac:(lia)) as (v4 & A4 & B4). set (s4 := corner_edge_step 2 rg u 1 1 s3) in *. clearbody s4.
  split; [rewrite A4, A3, A2, A1, I0; reflexivity|]. intros Z.
  rewrite !B4, !B3, !B2, !B1, ?A3, ?A2, ?A1, ?I0.
  destruct (lt2 i Hi) as [->| ->]; destruct (lt2 j Hj) as [->| ->]; cbn; rewrite Z, ?andb_false_r; cbn; reflexivity.
Qed.
(** In three dimensions a later edge overwrites one of the ends. *)
Theorem zero_order_parallel_refuted : exists rg orders u0 u i j k, (forall c j, fst (rg c j) <= snd (rg c j)) /\ (forall c j, 0 <= u0 c j < 1)
  /\ (forall i j k, 0 <= fst (u i j k) < 1 /\ 0 <= snd (u i j k) < 1) /\ orders i j = 0%nat /\ In k (orthogonal_dims 3 i)
  /\ let st := corners_random_displacements 3 rg orders u0 u in
     fst st (fst (nth j (edges 3 i) (0, 0)%nat)) k <> fst st (snd (nth j (edges 3 i) (0, 0)%nat)) k.
Proof.
  assert (Z : forall a b, zero_order_disp (0, 1) (0, 1) a b = a).
  { intros a b. unfold zero_order_disp, rltb, uniform. cbn [fst snd]. rewrite Rmax_left, Rmin_left by lra. destruct (Rlt_dec 0 1); lra. }
  exists (fun _ _ => (0, 1)), (fun i j => if Nat.ltb i 2 && Nat.eqb j 0 then 0%nat else 1%nat), (fun _ _ => 0), (fun i j k => if Nat.eqb i 0 then (0, 0) else (1 / 2, 1 / 2)), 0%nat, 0%nat, 2%nat.
  split; [intros; cbn; lra|]. split; [intros; lra|]. split; [intros i j k; destruct (Nat.eqb i 0); cbn; lra|]. split; [reflexivity|]. split; [cbn; auto|].
  lazy -[zero_order_disp uniform Rdiv IZR]. rewrite !Z. lra.
Qed.

(** ** The generation loop *)
Lemma rmap_in_ok {A B} (f : A -> res B) l ys : rmap f l = Ok ys -> forall x, In x l -> exists y, f x = Ok y /\ In y ys.
Proof.
  revert ys. induction l as [|a l IH]; intros ys H x; [intros []|]. cbn [rmap rbind] in H. destruct (f a) as [y|] eqn:E; cbn [rbind] in H; [|discriminate].
  destruct (rmap f l) as [ys'|] eqn:E'; cbn [rbind] in H; [|discriminate]. injection H as <-. intros [<-|X]; [exists y; cbn; auto|].
  destruct (IH ys' eq_refl x X) as (z & Z1 & Z2). exists z. cbn. auto.
Qed.
(** The default arguments, no translation range or no rotation range, do not mean
    no motion: no patch is ever generated. *)
Theorem default_motion_refuted : forall d s dr k fuel orders r, d = 2%nat \/ d = 3%nat -> (0 < s_nodes s 0)%nat ->
  s_translation s = None \/ s_rotation s = None -> generate_loop d s dr k (S fuel) orders <> Ok r.
Proof.
  intros d s dr k fuel orders r D N T H. cbn [generate_loop] in H. destruct (attempt d s (dr k) orders) as [[o es]|] eqn:E; cbn [rbind] in H; [|discriminate]. clear H.
  unfold attempt in E. destruct (corners_random_displacements _ _ _ _ _) as [disp o']. cbn [rbind] in E.
  destruct (rmap _ (all_edges d)) as [es0|] eqn:M; cbn [rbind] in E; [|discriminate].
  set (c := s_centroid s _ es0) in *.
  assert (I : In (0, 0)%nat (all_edges d)) by (destruct D as [-> | ->]; cbn; auto).
  destruct (rmap_in_ok _ _ _ M _ I) as (y & Y1 & Y2). cbn [rbind] in Y1.
  destruct (edge_def _ _ _ _ _ _ _ _ _ _ _ _) as [nd|]; cbn [rbind] in Y1; [|discriminate]. injection Y1 as <-.
  destruct (rmap (rmap _) es0) as [es1|] eqn:M2; cbn [rbind] in E; [|discriminate].
  destruct (rmap_in_ok _ _ _ M2 _ Y2) as (z & Z1 & _).
  assert (Q : In (nd 0%nat) (map nd (seq 0 (s_nodes s 0)))) by (apply in_map, in_seq; lia).
  destruct (rmap_in_ok _ _ _ Z1 _ Q) as (w & W & _).
  rewrite rigid_motion_needs_both in W by tauto. discriminate.
Qed.
(** A returned configuration is the one of some iteration and is admissible; the
    absence of a configuration means that no iteration was. *)
Theorem loop_admissible : forall d s dr k fuel orders es, generate_loop d s dr k fuel orders = Ok (Some es) ->
  exists k' o o', (k <= k' < k + fuel)%nat /\ attempt d s (dr k') o = Ok (o', es) /\ s_admissible s es = true.
Proof.
  intros d s dr k fuel. revert k. induction fuel as [|fuel IH]; intros k orders es H; cbn [generate_loop] in H; [discriminate|].
  destruct (attempt d s (dr k) orders) as [[o e]|] eqn:E; cbn [rbind fst snd] in H; [|discriminate]. destruct (s_admissible s e) eqn:A.
  - injection H as <-. exists k, orders, o. split; [lia|auto].
  - destruct (IH _ _ _ H) as (k' & o1 & o2 & K & R). exists k', o1, o2. split; [lia|auto].
Qed.
Theorem loop_exhausted : forall d s dr k fuel orders, generate_loop d s dr k fuel orders = Ok None ->
  forall k', (k <= k' < k + fuel)%nat -> exists o o' es, attempt d s (dr k') o = Ok (o', es) /\ s_admissible s es = false.
Proof.
  intros d s dr k fuel. revert k. induction fuel as [|fuel IH]; intros k orders H k' K; cbn [generate_loop] in H; [lia|].
  destruct (attempt d s (dr k) orders) as [[o e]|] eqn:E; cbn [rbind fst snd] in H; [|discriminate]. destruct (s_admissible s e) eqn:A; [discriminate|].
  destruct (Nat.eq_dec k k') as [<-|]; [exists orders, o, e; auto|]. apply (IH _ _ H). lia.
Qed.

(** ** The look-up of a node *)
(** within the tolerances of np.allclose *)
Definition near (d : nat) (x c : vec) : Prop := forall j, (j < d)%nat -> Rabs (x j - c j) <= 1 / 100000000 + 1 / 100000 * Rabs (c j).
Lemma allclose_near d x c : allclose d x c = true <-> near d x c.
Proof.
  unfold allclose, near. rewrite forallb_forall. split.
  - intros H j J. specialize (H j ltac:(apply in_seq; lia)). apply rleb_iff in H. eapply Rle_trans; [exact H|]. right. field.
  - intros H j J. apply in_seq in J. specialize (H j ltac:(lia)). apply rleb_iff. eapply Rle_trans; [exact H|]. right. field.
Qed.
Lemma lookup_fold d x : forall coords acc, let r := fold_left (fun found (lc : nat * vec) => if allclose d x (snd lc) then Some (fst lc) else found) coords acc in
  (r = acc /\ (forall l c, In (l, c) coords -> ~ near d x c)) \/ (exists l c, r = Some l /\ In (l, c) coords /\ near d x c).
Proof.
  induction coords as [|[l c] coords IH]; intros acc; cbn [fold_left fst snd]; [left; split; auto; intros l c []|].
  destruct (allclose d x c) eqn:A.
  - right. destruct (IH (Some l)) as [(E & _)|(l' & c' & E & I & N)]; cbv zeta in *; [|exists l', c'; repeat split; auto; right; auto].
    exists l, c. split; auto. split; [left; auto|]. apply allclose_near; auto.
  - destruct (IH acc) as [(E & NO)|(l' & c' & E & I & N)]; cbv zeta in *; [left|right; exists l', c'; repeat split; auto; right; auto].
    split; auto. intros l' c' [Q|I]; [|eauto]. injection Q as <- <-. intros N. apply allclose_near in N. congruence.
Qed.
(** A node is found by its coordinates within the tolerances; the label is that
    of a node of the mesh there, and none is found only if there is no such
    node. *)
Theorem node_label_near : forall d coords x,
  match node_label_from_coords d coords x with
  | Ok l => exists c, In (l, c) coords /\ near d x c
  | Err e => e = RuntimeError /\ forall l c, In (l, c) coords -> ~ near d x c
  end.
Proof.
  intros d coords x. unfold node_label_from_coords. destruct (lookup_fold d x coords None) as [(E & NO)|(l & c & E & I & N)]; cbv zeta in *; rewrite E; eauto.
Qed.
Theorem node_label_exact : forall d coords x l c, In (l, c) coords -> (forall j, (j < d)%nat -> x j = c j) ->
  (forall l' c', In (l', c') coords -> near d x c' -> l' = l) -> node_label_from_coords d coords x = Ok l.
Proof.
  intros d coords x l c I E U. pose proof (node_label_near d coords x) as H. destruct (node_label_from_coords d coords x) as [l'|e].
  - destruct H as (c' & I' & N). rewrite (U l' c' I' N). reflexivity.
  - exfalso. apply (proj2 H l c I). intros j J. rewrite E by auto. replace (c j - c j) with 0 by ring. rewrite Rabs_R0. pose proof (Rabs_pos (c j)). lra.
Qed.

(** ** Boundary displacements *)
(** The label of a node and the displacement that one of the edges gives it. *)
Definition node_of (d : nat) (coords : list (nat * vec)) (es : list (list (vec * vec))) (l : nat) (xref xdef : vec) : Prop :=
  (exists e, In e es /\ In (xref, xdef) e) /\ node_label_from_coords d coords xref = Ok l.
Lemma nget_nset_same acc l (v : vec) : gget Nat.eqb (gset Nat.eqb acc l v) l = Some v.
Proof. induction acc as [|[a w] acc IH]; cbn; [rewrite Nat.eqb_refl; auto|]. destruct (Nat.eqb l a) eqn:E; cbn; rewrite ?Nat.eqb_refl, ?E; auto. Qed.
Lemma nget_nset_other acc l l' (v : vec) : l' <> l -> gget Nat.eqb (gset Nat.eqb acc l v) l' = gget Nat.eqb acc l'.
Proof.
  intros N. induction acc as [|[a w] acc IH]; cbn.
  - destruct (Nat.eqb_spec l' l); [contradiction|auto].
  - destruct (Nat.eqb_spec l a) as [<-|]; cbn; [destruct (Nat.eqb_spec l' l); [contradiction|auto]|]. rewrite IH. reflexivity.
Qed.
Lemma edge_disps_spec d coords nodes : forall acc acc', edge_disps d coords nodes acc = Ok acc' ->
  (forall l v, gget Nat.eqb acc l = Some v -> gget Nat.eqb acc' l = Some v)
  /\ (forall xr xd, In (xr, xd) nodes -> exists l v, node_label_from_coords d coords xr = Ok l /\ gget Nat.eqb acc' l = Some v)
  /\ (forall l v, gget Nat.eqb acc' l = Some v -> gget Nat.eqb acc l = Some v \/ exists xr xd, In (xr, xd) nodes /\ node_label_from_coords d coords xr = Ok l /\ v = vsub xd xr).
Proof.
  induction nodes as [|[xr xd] nodes IH]; intros acc acc' H; cbn [edge_disps] in H; [injection H as <-; repeat split; auto; intros ? ? []|].
  destruct (node_label_from_coords d coords xr) as [l|] eqn:L; cbn [rbind] in H; [|discriminate].
  destruct (IH _ _ H) as (I1 & I2 & I3). clear IH H.
  set (acc1 := match gget Nat.eqb acc l with Some _ => acc | None => gset Nat.eqb acc l (vsub xd xr) end) in *.
  assert (S1 : exists v, gget Nat.eqb acc1 l = Some v). { unfold acc1. destruct (gget Nat.eqb acc l) eqn:G; [eauto|]. rewrite nget_nset_same. eauto. }
  split; [|split].
  - intros l' v G. apply I1. unfold acc1. destruct (gget Nat.eqb acc l) eqn:G'; auto. destruct (Nat.eq_dec l' l) as [->|]; [congruence|]. rewrite nget_nset_other; auto.
  - intros xr' xd' [E|X]; [injection E as <- <-|eauto]. destruct S1 as [v V]. exists l, v. auto.
  - intros l' v G. destruct (I3 _ _ G) as [G'|(a & b & A & B & C)]; [|right; exists a, b; cbn; auto].
    unfold acc1 in G'. destruct (gget Nat.eqb acc l) eqn:G2; auto. destruct (Nat.eq_dec l' l) as [->|]; [|rewrite nget_nset_other in G' by auto; auto].
    rewrite nget_nset_same in G'. injection G' as <-. right. exists xr, xd. cbn. auto.
Qed.
Lemma edges_disps_spec d coords es : forall acc acc', edges_disps d coords es acc = Ok acc' ->
  (forall l v, gget Nat.eqb acc l = Some v -> gget Nat.eqb acc' l = Some v)
  /\ (forall e xr xd, In e es -> In (xr, xd) e -> exists l v, node_label_from_coords d coords xr = Ok l /\ gget Nat.eqb acc' l = Some v)
  /\ (forall l v, gget Nat.eqb acc' l = Some v -> gget Nat.eqb acc l = Some v \/ exists xr xd, node_of d coords es l xr xd /\ v = vsub xd xr).
Proof.
  induction es as [|e es IH]; intros acc acc' H; cbn [edges_disps] in H; [injection H as <-; repeat split; auto; intros ? ? ? []|].
  destruct (edge_disps d coords e acc) as [acc1|] eqn:E; cbn [rbind] in H; [|discriminate].
  destruct (IH _ _ H) as (I1 & I2 & I3). destruct (edge_disps_spec _ _ _ _ _ E) as (J1 & J2 & J3). split; [|split].
  - auto.
  - intros e' xr xd [<-|X] Y; [|eauto]. destruct (J2 _ _ Y) as (l & v & A & B). exists l, v. auto.
  - intros l v G. destruct (I3 _ _ G) as [G'|(a & b & ((e' & A1 & A2) & B) & C)].
    + destruct (J3 _ _ G') as [?|(a & b & A & B & C)]; auto. right. exists a, b. split; auto. split; auto. exists e. cbn. auto.
    + right. exists a, b. split; auto. split; auto. exists e'. cbn. auto.
Qed.
(** Every boundary node gets the displacement of its deformed edge, provided that
    the edges that share a node agree on it, and no other label gets one. *)
Theorem boundary_displacements : forall d coords es acc, edges_disps d coords es [] = Ok acc ->
  (forall l xr xd xr' xd', node_of d coords es l xr xd -> node_of d coords es l xr' xd' -> forall j, (j < d)%nat -> xd j - xr j = xd' j - xr' j) ->
  (forall e xr xd, In e es -> In (xr, xd) e -> exists l v, node_of d coords es l xr xd /\ gget Nat.eqb acc l = Some v /\ forall j, (j < d)%nat -> v j = xd j - xr j)
  /\ (forall l v, gget Nat.eqb acc l = Some v -> exists xr xd, node_of d coords es l xr xd).
Proof.
  intros d coords es acc H C. destruct (edges_disps_spec _ _ _ _ _ H) as (_ & I2 & I3). split.
  - intros e xr xd E X. destruct (I2 e xr xd E X) as (l & v & L & G). exists l, v. assert (NO : node_of d coords es l xr xd) by (split; auto; exists e; auto).
    split; auto. split; auto. intros j J. destruct (I3 _ _ G) as [G'|(a & b & NO' & ->)]; [discriminate|]. unfold vsub. apply (C l); auto.
  - intros l v G. destruct (I3 _ _ G) as [G'|(a & b & NO & _)]; [discriminate|]. eauto.
Qed.

(** ** The boundary of a two-dimensional patch *)
Definition tk (n k : nat) : R := INR k / INR (n - 1).
Lemma tk_zero n k : (2 <= n)%nat -> tk n k = 0 -> k = 0%nat.
Proof.
  intros N H. assert (P : 0 < INR (n - 1)) by (apply lt_0_INR; lia). apply INR_eq. cbn [INR]. replace (INR k) with (tk n k * INR (n - 1)) by (unfold tk; field; lra). rewrite H. ring.
Qed.
Lemma tk_one n k : (2 <= n)%nat -> tk n k = 1 -> k = (n - 1)%nat.
Proof.
  intros N H. assert (P : 0 < INR (n - 1)) by (apply lt_0_INR; lia). apply INR_eq. replace (INR k) with (tk n k * INR (n - 1)) by (unfold tk; field; lra). rewrite H. ring.
Qed.
Lemma tk_inj n k k' : (2 <= n)%nat -> tk n k = tk n k' -> k = k'.
Proof.
  intros N H. assert (P : 0 < INR (n - 1)) by (apply lt_0_INR; lia). apply INR_eq. replace (INR k) with (tk n k * INR (n - 1)) by (unfold tk; field; lra). rewrite H. unfold tk. field. lra.
Qed.
(** Where the reference nodes of the four edges are. *)
Lemma ref_2d dims n i j k c : (i < 2)%nat -> (j < 2)%nat -> (c < 2)%nat -> (2 <= n)%nat ->
  edge_ref dims n (nth j (edges 2 i) (0, 0)%nat) k c = if Nat.eqb c i then dims c * tk n k else if Nat.eqb j 0 then 0 else dims c.
Proof.
  intros Hi Hj Hc N. assert (P : 0 < INR (n - 1)) by (apply lt_0_INR; lia). unfold edge_ref, linspace, tk.
  destruct (lt2 i Hi) as [->| ->]; destruct (lt2 j Hj) as [->| ->]; destruct (lt2 c Hc) as [->| ->]; cbn; field; lra.
Qed.
(** Two edges only share corners, and agree on them. *)
Lemma shared_nodes_2d (dims : vec) (ns : nat -> nat) (nodes : nat -> nat -> nat -> vec) (cd : nat -> vec) i j k i' j' k' : (forall i, (2 <= ns i)%nat) -> dims 0%nat <> 0 -> dims 1%nat <> 0 ->
  (forall i j c, (i < 2)%nat -> (j < 2)%nat -> (c < 2)%nat -> nodes i j 0%nat c = cd (fst (nth j (edges 2 i) (0, 0)%nat)) c
     /\ nodes i j (ns i - 1)%nat c = cd (snd (nth j (edges 2 i) (0, 0)%nat)) c) ->
  (i < 2)%nat -> (j < 2)%nat -> (i' < 2)%nat -> (j' < 2)%nat ->
  (forall c, (c < 2)%nat -> edge_ref dims (ns i) (nth j (edges 2 i) (0, 0)%nat) k c = edge_ref dims (ns i') (nth j' (edges 2 i') (0, 0)%nat) k' c) ->
  forall c, (c < 2)%nat -> nodes i j k c = nodes i' j' k' c.
Proof.
  intros NS D0 D1 EN Hi Hj Hi' Hj' E c Hc.
  pose proof (E 0%nat ltac:(lia)) as E0. pose proof (E 1%nat ltac:(lia)) as E1. rewrite !ref_2d in E0, E1 by auto.
  assert (MZ : forall a b, a <> 0 -> a * b = 0 -> b = 0) by (intros a b A B; apply Rmult_integral in B; tauto).
  assert (MO : forall a b, a <> 0 -> a * b = a -> b = 1) by (intros a b A B; apply (Rmult_eq_reg_l a); lra).
  destruct (lt2 i Hi) as [->| ->]; destruct (lt2 j Hj) as [->| ->]; destruct (lt2 i' Hi') as [->| ->]; destruct (lt2 j' Hj') as [->| ->]; cbn [Nat.eqb] in E0, E1;
    try (exfalso; lra);
    try (apply Rmult_eq_reg_l in E0; [|assumption]; apply tk_inj in E0; [|apply NS]; subst; reflexivity);
    try (apply Rmult_eq_reg_l in E1; [|assumption]; apply tk_inj in E1; [|apply NS]; subst; reflexivity);
    match type of E0 with _ = ?b => try symmetry in E0 end; try symmetry in E1;
    first [apply (MZ (dims 0%nat)) in E0; [|assumption] | apply (MO (dims 0%nat)) in E0; [|assumption]
          | symmetry in E0; first [apply (MZ (dims 0%nat)) in E0; [|assumption] | apply (MO (dims 0%nat)) in E0; [|assumption]]];
    first [apply (MZ (dims 1%nat)) in E1; [|assumption] | apply (MO (dims 1%nat)) in E1; [|assumption]
          | symmetry in E1; first [apply (MZ (dims 1%nat)) in E1; [|assumption] | apply (MO (dims 1%nat)) in E1; [|assumption]]];
    first [apply tk_zero in E0; [|apply NS] | apply tk_one in E0; [|apply NS]];
    first [apply tk_zero in E1; [|apply NS] | apply tk_one in E1; [|apply NS]]; subst.
  all: rewrite ?(proj1 (EN 0%nat 0%nat c ltac:(lia) ltac:(lia) Hc)), ?(proj2 (EN 0%nat 0%nat c ltac:(lia) ltac:(lia) Hc)),
      ?(proj1 (EN 0%nat 1%nat c ltac:(lia) ltac:(lia) Hc)), ?(proj2 (EN 0%nat 1%nat c ltac:(lia) ltac:(lia) Hc)),
      ?(proj1 (EN 1%nat 0%nat c ltac:(lia) ltac:(lia) Hc)), ?(proj2 (EN 1%nat 0%nat c ltac:(lia) ltac:(lia) Hc)),
      ?(proj1 (EN 1%nat 1%nat c ltac:(lia) ltac:(lia) Hc)), ?(proj2 (EN 1%nat 1%nat c ltac:(lia) ltac:(lia) Hc)); reflexivity.
Qed.
Lemma Forall2_len {A B} (P : A -> B -> Prop) l l' : Forall2 P l l' -> length l = length l'.
Proof. induction 1; cbn; auto. Qed.
Lemma rigid_motion_ext d c rot tr x y x' y' : (forall j, (j < d)%nat -> x j = y j) -> rigid_motion d c rot tr x = Ok x' -> rigid_motion d c rot tr y = Ok y' ->
  forall j, (j < d)%nat -> x' j = y' j.
Proof.
  intros E H1 H2 j J. unfold rigid_motion in *. destruct rot as [r|]; [|discriminate]. destruct tr as [t|]; [|discriminate]. injection H1 as <-. injection H2 as <-.
  unfold vadd, mv, vsub. f_equal. f_equal. apply rsum_ext. intros k K. rewrite E by auto. reflexivity.
Qed.
(** What one iteration yields: the edges of some displaced corners, all of them
    moved by the same rigid motion. *)
Definition moved_edges (s : settings) (d : nat) (dr : draws) (orders : nat -> nat -> nat) (cd : nat -> vec) (c : vec)
    (nodes : nat -> nat -> nat -> vec) (final : nat -> nat -> nat -> vec) : Prop :=
  forall i j, (i < d)%nat -> (j < length (edges d i))%nat ->
    edge_def (s_solve s) d (s_dims s) (s_noise s) (s_nodes s i) cd i j (orders i j) (s_edge_range s i j) (u_poly dr i j) (z_noise dr i j) = Ok (nodes i j)
    /\ forall k, (k < s_nodes s i)%nat ->
         rigid_motion d c (random_rotation d (s_rotation s) (u_rot dr)) (random_translation (s_translation s) (u_trans dr)) (nodes i j k) = Ok (final i j k).
Lemma attempt_2d s dr orders o' es : attempt 2 s dr orders = Ok (o', es) -> exists cd c nodes final,
  moved_edges s 2 dr o' cd c nodes final
  /\ es = map (fun ij => map (final (fst ij) (snd ij)) (seq 0 (s_nodes s (fst ij)))) (all_edges 2).
Proof.
  intros H. unfold attempt in H. destruct (corners_random_displacements _ _ _ _ _) as [disp od].
  set (cd := fun c => vadd (corner_coords (s_dims s) c) (disp c)) in *.
  change (all_edges 2) with [(0, 0); (0, 1); (1, 0); (1, 1)]%nat in *. cbn [rmap] in H.
  do 4 match type of H with context [edge_def ?a ?b ?c ?d ?e ?f ?i ?j ?g ?h ?k ?l] =>
    let n := fresh "n" in let E := fresh "E" in destruct (edge_def a b c d e f i j g h k l) as [n|] eqn:E; cbn [rbind] in H; [|discriminate] end.
  set (c := s_centroid s cd _) in *. cbn [rmap rbind] in H.
  set (rm := rigid_motion 2 c _ _) in *.
  destruct (rmap rm (map n (seq 0 (s_nodes s 0)))) as [e0|] eqn:R0; cbn [rbind] in H; [|discriminate].
  destruct (rmap rm (map n0 (seq 0 (s_nodes s 0)))) as [e1|] eqn:R1; cbn [rbind] in H; [|discriminate].
  destruct (rmap rm (map n1 (seq 0 (s_nodes s 1)))) as [e2|] eqn:R2; cbn [rbind] in H; [|discriminate].
  destruct (rmap rm (map n2 (seq 0 (s_nodes s 1)))) as [e3|] eqn:R3; cbn [rbind] in H; [|discriminate].
  injection H as <- <-.
  assert (L : forall (f : nat -> vec) m e, rmap rm (map f (seq 0 m)) = Ok e -> e = map (fun k => nth k e (fun _ => 0)) (seq 0 m) /\ forall k, (k < m)%nat -> rm (f k) = Ok (nth k e (fun _ => 0))).
  { intros f m e R. apply rmap_ok in R.
    assert (LE : length e = m) by (rewrite <- (Forall2_len _ _ _ R), map_length, seq_length; auto).
    split.
    - apply (nth_ext _ _ (fun _ => 0) (fun _ => 0)); [rewrite map_length, seq_length; auto|]. intros k K.
      rewrite nth_map_seq by (rewrite <- LE; exact K). reflexivity.
    - intros k K.
      assert (G : forall l1 l2, Forall2 (fun a b => rm a = Ok b) l1 l2 -> forall k, (k < length l1)%nat -> rm (nth k l1 (fun _ => 0)) = Ok (nth k l2 (fun _ => 0))).
      { induction 1 as [|a b l1 l2 A B IH]; intros q Q; cbn in Q; [lia|]. destruct q; [auto|]. cbn. apply IH. lia. }
      specialize (G _ _ R k ltac:(rewrite map_length, seq_length; auto)).
      rewrite nth_map_seq in G by lia. exact G. }
  destruct (L _ _ _ R0) as [L0 L0']. destruct (L _ _ _ R1) as [L1 L1']. destruct (L _ _ _ R2) as [L2 L2']. destruct (L _ _ _ R3) as [L3 L3'].
  exists cd, c, (fun i j => match i, j with 0%nat, 0%nat => n | 0%nat, _ => n0 | _, 0%nat => n1 | _, _ => n2 end),
    (fun i j k => match i, j with 0%nat, 0%nat => nth k e0 (fun _ => 0) | 0%nat, _ => nth k e1 (fun _ => 0) | _, 0%nat => nth k e2 (fun _ => 0) | _, _ => nth k e3 (fun _ => 0) end).
  split.
  - intros i j Hi Hj. assert (Hj' : (j < 2)%nat) by (destruct (lt2 i Hi) as [->| ->]; exact Hj).
    destruct (lt2 i Hi) as [->| ->]; destruct (lt2 j Hj') as [->| ->]; auto.
  - cbn [map fst snd]. rewrite <- L0, <- L1, <- L2, <- L3. reflexivity.
Qed.
(** The displacement prescribed at every boundary node of the mesh is the motion
    of its node of the deformed edges; shared corners are consistent. *)
Theorem boundary_2d : forall s dr orders o' es coords acc, (forall i, (2 <= s_nodes s i)%nat) -> s_dims s 0%nat <> 0 -> s_dims s 1%nat <> 0 ->
  attempt 2 s dr orders = Ok (o', es) -> boundary_disps_2d s coords es = Ok acc ->
  let ref := fun i j k => edge_ref (s_dims s) (s_nodes s i) (nth j (edges 2 i) (0, 0)%nat) k in
  (forall i j k i' j' k' l, (i < 2)%nat -> (j < 2)%nat -> (i' < 2)%nat -> (j' < 2)%nat -> node_label_from_coords 2 coords (ref i j k) = Ok l ->
     node_label_from_coords 2 coords (ref i' j' k') = Ok l -> forall c, (c < 2)%nat -> ref i j k c = ref i' j' k' c) ->
  exists cd c nodes final, moved_edges s 2 dr o' cd c nodes final
  /\ forall i j k, (i < 2)%nat -> (j < 2)%nat -> (k < s_nodes s i)%nat -> exists l v,
       node_label_from_coords 2 coords (ref i j k) = Ok l /\ gget Nat.eqb acc l = Some v /\ forall c, (c < 2)%nat -> v c = final i j k c - ref i j k c.
Proof.
  intros s dr orders o' es coords acc NS D0 D1 A B ref SEP. destruct (attempt_2d s dr orders o' es A) as (cd & c & nodes & final & ME & ES).
  exists cd, c, nodes, final. split; [exact ME|].
  assert (LE : forall i, (i < 2)%nat -> length (edges 2 i) = 2%nat) by (intros i Hi; destruct (lt2 i Hi) as [->| ->]; reflexivity).
  assert (EN : forall i j c, (i < 2)%nat -> (j < 2)%nat -> (c < 2)%nat -> nodes i j 0%nat c = cd (fst (nth j (edges 2 i) (0, 0)%nat)) c
     /\ nodes i j (s_nodes s i - 1)%nat c = cd (snd (nth j (edges 2 i) (0, 0)%nat)) c).
  { intros i j q Hi Hj Hq. destruct (ME i j Hi ltac:(rewrite LE; auto)) as [E _]. apply (edge_def_ends _ _ _ _ _ _ _ _ _ _ _ _ _ (or_introl eq_refl) (NS i) E); auto. }
  assert (ESL : map (fun p => combine (map (edge_ref (s_dims s) (s_nodes s (fst (fst p))) (nth (snd (fst p)) (edges 2 (fst (fst p))) (0, 0)%nat))
                            (seq 0 (s_nodes s (fst (fst p))))) (snd p)) (combine (all_edges 2) es)
     = map (fun ij => map (fun k => (ref (fst ij) (snd ij) k, final (fst ij) (snd ij) k)) (seq 0 (s_nodes s (fst ij)))) (all_edges 2)).
  { rewrite ES. assert (CM : forall (f g : nat -> vec) l, combine (map f l) (map g l) = map (fun k => (f k, g k)) l).
    { intros f g l. induction l as [|a l IH]; cbn; [auto|]. rewrite IH. reflexivity. }
    generalize (all_edges 2). intros l. induction l as [|[i j] l IH]; [reflexivity|]. cbn [map combine fst snd]. rewrite CM, IH. reflexivity. }
  unfold boundary_disps_2d in B. rewrite ESL in B.
  assert (NOF : forall l xr xd, node_of 2 coords (map (fun ij => map (fun k => (ref (fst ij) (snd ij) k, final (fst ij) (snd ij) k)) (seq 0 (s_nodes s (fst ij)))) (all_edges 2)) l xr xd ->
     exists i j k, (i < 2)%nat /\ (j < 2)%nat /\ (k < s_nodes s i)%nat /\ xr = ref i j k /\ xd = final i j k /\ node_label_from_coords 2 coords (ref i j k) = Ok l).
  { intros l xr xd ((e & E1 & E2) & E3). apply in_map_iff in E1. destruct E1 as ([i j] & <- & IJ). cbn [fst snd] in E2. apply in_map_iff in E2. destruct E2 as (k & EK & K).
    injection EK as <- <-. apply in_seq in K. exists i, j, k. change (all_edges 2) with [(0, 0); (0, 1); (1, 0); (1, 1)]%nat in IJ. cbn in IJ.
    destruct IJ as [IJ|[IJ|[IJ|[IJ|[]]]]]; injection IJ as <- <-; repeat split; auto; lia. }
  destruct (boundary_displacements 2 coords _ acc B) as [P1 _].
  - intros l xr xd xr' xd' N1 N2 q Q. destruct (NOF _ _ _ N1) as (i & j & k & Hi & Hj & Hk & -> & -> & L1). destruct (NOF _ _ _ N2) as (i' & j' & k' & Hi' & Hj' & Hk' & -> & -> & L2).
    pose proof (SEP i j k i' j' k' l Hi Hj Hi' Hj' L1 L2) as SR. rewrite (SR q Q). f_equal.
    destruct (ME i j Hi ltac:(rewrite LE; auto)) as [_ F1]. destruct (ME i' j' Hi' ltac:(rewrite LE; auto)) as [_ F2].
    apply (rigid_motion_ext 2 c _ _ _ _ _ _ (shared_nodes_2d (s_dims s) (s_nodes s) nodes cd i j k i' j' k' NS D0 D1 EN Hi Hj Hi' Hj' SR) (F1 k Hk) (F2 k' Hk')); auto.
  - intros i j k Hi Hj Hk.
    assert (IJ : In (i, j) (all_edges 2)). { change (all_edges 2) with [(0, 0); (0, 1); (1, 0); (1, 1)]%nat. destruct (lt2 i Hi) as [->| ->]; destruct (lt2 j Hj) as [->| ->]; cbn; auto. }
    destruct (P1 (map (fun k => (ref i j k, final i j k)) (seq 0 (s_nodes s i))) (ref i j k) (final i j k)) as (l & v & (_ & L) & G & V).
    + apply in_map_iff. exists (i, j). auto.
    + apply in_map_iff. exists k. split; auto. apply in_seq. lia.
    + exists l, v. auto.
Qed.

(** ** Faces of a three-dimensional patch *)
(** A uniform displacement of the edges of a face is given to its inner nodes. *)
Theorem face_uniform_partial : forall face n1 n2 acc i j acc' (t : vec), (0 < n1)%nat -> (0 < n2)%nat ->
  face_step face n1 n2 acc (i, j) = Ok acc' -> face i j <> 0%nat -> gget Nat.eqb acc (face i j) = None ->
  (forall l v, gget Nat.eqb acc l = Some v -> forall c, v c = t c) ->
  exists v, gget Nat.eqb acc' (face i j) = Some v /\ forall c, v c = t c.
Proof.
  intros face n1 n2 acc i j acc' t N1 N2 H Z G U. unfold face_step, lookup in H. destruct (Nat.eqb_spec (face i j) 0); [contradiction|].
  destruct (gget Nat.eqb acc (face 0%nat j)) as [a|] eqn:A; cbn [rbind] in H; [|discriminate].
  destruct (gget Nat.eqb acc (face (n1 - 1)%nat j)) as [b|] eqn:B; cbn [rbind] in H; [|discriminate].
  destruct (gget Nat.eqb acc (face i 0%nat)) as [a'|] eqn:A'; cbn [rbind] in H; [|discriminate].
  destruct (gget Nat.eqb acc (face i (n2 - 1)%nat)) as [b'|] eqn:B'; cbn [rbind] in H; [|discriminate].
  rewrite G in H. injection H as <-. eexists. split; [apply nget_nset_same|].
  intros c. unfold vscale, vadd. rewrite (U _ _ A), (U _ _ B), (U _ _ A'), (U _ _ B').
  assert (0 < INR n1) by (apply lt_0_INR; auto). assert (0 < INR n2) by (apply lt_0_INR; auto). field. lra.
Qed.
(** A linear displacement is not: the weights are i / n instead of i / (n - 1).
    A face of 3 x 3 nodes, labels 1 to 9, with the displacement i in the first
    direction on its edges; the middle node gets 2/3 + 1/2 instead of 1. *)
Theorem face_linear_refuted : exists face acc acc', (forall i j l v, face i j = l -> gget Nat.eqb acc l = Some v -> v 0%nat = INR i)
  /\ face_disps face 3 3 acc = Ok acc' /\ exists v, gget Nat.eqb acc' (face 1%nat 1%nat) = Some v /\ v 0%nat <> INR 1.
Proof.
  set (face := fun i j : nat => (1 + i + 3 * j)%nat).
  set (w := fun i : nat => (fun _ : nat => INR i) : vec).
  exists (fun i j => if Nat.ltb i 3 && Nat.ltb j 3 then face i j else 0%nat),
    [(1%nat, w 0%nat); (2%nat, w 1%nat); (3%nat, w 2%nat); (4%nat, w 0%nat); (6%nat, w 2%nat); (7%nat, w 0%nat); (8%nat, w 1%nat); (9%nat, w 2%nat)].
  eexists. split; [|split; [reflexivity|]].
  - intros i j l v <-. destruct i as [|[|[|i]]]; destruct j as [|[|[|j]]]; cbn; intros H; try discriminate; injection H as <-; reflexivity.
  - eexists. split; [reflexivity|]. unfold vscale, vadd, w. cbn. lra.
Qed.

(** ** Examples *)
(** A quarter turn about the third axis. *)
Example quarter_turn : exists y, rigid_motion 2 (fun _ => 0) (random_rotation 2 (Some (fun _ => Some (90, 90))) (fun _ => 0)) (random_translation (Some (fun _ => None)) (fun _ => 0))
  (fun j => if Nat.eqb j 0 then 1 else 0) = Ok y /\ y 0%nat = 0 /\ y 1%nat = 1.
Proof.
  eexists. split; [reflexivity|]. unfold vadd, mv, vsub, sampled, uniform, rotation_tensor_from_euler_angles. cbn [rsum Nat.eqb negb andb fst snd].
  assert (A : radians (90 + (90 - 90) * 0) = PI / 2) by (unfold radians; field). assert (Z : radians 0 = 0) by (unfold radians; field).
  rewrite A, Z, sin_PI2, cos_PI2, sin_0, cos_0. split; ring.
Qed.
(** The bottom edge of the unit square with three nodes. *)
Example bottom_edge : exists solve nodes, solver_correct solve
  /\ edge_def solve 2 unit_dims 0 3 unit_corners 0 0 1 (0, 0) (fun _ => 0) (fun _ => (1, 1)) = Ok nodes /\ nodes 1%nat 0%nat = 1 / 2 /\ nodes 1%nat 1%nat = 0.
Proof.
  destruct solver_exists as [solve SC]. destruct unit_frame as [r EF]. exists solve.
  pose proof (seen_2d unit_dims unit_corners 0 0 r EF ltac:(lia) ltac:(cbn; lia) ltac:(unfold unit_dims; lra)) as SE.
  destruct (straight_edge solve 2 unit_dims 3 unit_corners 0 0 1 (0, 0) (fun _ => 0) (fun _ => (1, 1)) r SC (or_introl eq_refl) ltac:(lia) EF SE ltac:(lia)) as (nodes & E1 & E2).
  exists nodes. split; auto. split; auto. rewrite !E2 by (cbn; lia). unfold unit_corners, corner_coords, unit_dims. cbn. split; field.
Qed.
(** Two corners with overlapping ranges joined by an edge of order zero. *)
Example overlapping_ranges : let rg := fun c j => if Nat.eqb c 0 then (0, 2) else (1, 3) in
  let st := corners_random_displacements 2 rg (fun i j => i + j)%nat (fun _ _ => 0) (fun _ _ _ => (1 / 2, 0)) in
  fst st 0%nat 1%nat = 3 / 2 /\ fst st 1%nat 1%nat = 3 / 2.
Proof.
  cbv zeta. assert (Z : zero_order_disp (0, 2) (1, 3) (1 / 2) 0 = 3 / 2).
  { unfold zero_order_disp, rltb, uniform. cbn [fst snd]. rewrite Rmax_right, Rmin_left by lra. destruct (Rlt_dec 1 2); lra. }
  lazy -[zero_order_disp uniform Rdiv IZR]. rewrite Z. lra.
Qed.
(** Two edges of a mesh with three nodes that share the second one. *)
Example shared_node : exists acc, edges_disps 2 [(1%nat, fun _ => 0); (2%nat, fun _ => 1); (3%nat, fun _ => 2)]
    [ [(fun _ => 0, fun _ => 5); (fun _ => 1, fun _ => 7)]; [(fun _ => 1, fun _ => 7); (fun _ => 2, fun _ => 9)] ] [] = Ok acc
  /\ map (fun p => (fst p, snd p 0%nat)) acc = [(1%nat, 5 - 0); (2%nat, 7 - 1); (3%nat, 9 - 2)].
Proof.
  assert (T : / 10 ^ 8 + / 10 ^ 5 < 1 /\ 0 < / 10 ^ 8 /\ 0 < / 10 ^ 5). { cbn. lra. }
  assert (AC : forall a b : R, 0 <= a <= 2 -> 0 <= b <= 2 -> allclose 2 (fun _ => a) (fun _ => b) = true -> Rabs (a - b) < 1).
  { intros a b A B H. unfold allclose in H. cbn [seq forallb] in H. apply andb_true_iff in H. destruct H as [H _]. apply rleb_iff in H.
    rewrite (Rabs_right b) in H by lra. assert (/ 10 ^ 8 + / 10 ^ 5 * b < 1) by (cbn in *; lra). lra. }
  assert (AS : forall a : R, 0 <= a -> allclose 2 (fun _ => a) (fun _ => a) = true).
  { intros a A. apply forallb_forall. intros j _. apply rleb_iff. rewrite Rminus_diag_eq, Rabs_R0, Rabs_right by lra. nra. }
  assert (F : forall a b : R, 0 <= a <= 2 -> 0 <= b <= 2 -> 1 <= Rabs (a - b) -> allclose 2 (fun _ => a) (fun _ => b) = false).
  { intros a b A B H. apply Bool.not_true_iff_false. intros K. apply AC in K; auto. lra. }
  set (coords := [(1%nat, fun _ : nat => 0); (2%nat, fun _ => 1); (3%nat, fun _ => 2)]).
  assert (L : node_label_from_coords 2 coords (fun _ => 0) = Ok 1%nat /\ node_label_from_coords 2 coords (fun _ => 1) = Ok 2%nat /\ node_label_from_coords 2 coords (fun _ => 2) = Ok 3%nat).
  { unfold node_label_from_coords, coords. cbn [fold_left fst snd]. split; [|split].
    - rewrite (AS 0), (F 0 1), (F 0 2) by (try lra; unfold Rabs; destruct (Rcase_abs _); lra). reflexivity.
    - rewrite (AS 1), (F 1 2) by (try lra; unfold Rabs; destruct (Rcase_abs _); lra). reflexivity.
    - rewrite (AS 2) by lra. reflexivity. }
  destruct L as (L0 & L1 & L2). eexists. cbn [edges_disps edge_disps]. rewrite L0. cbn [rbind]. rewrite L1. cbn [rbind edges_disps edge_disps]. rewrite L2.
  split; reflexivity.
Qed.
(** A face with a uniform displacement. *)
Example face_uniform_example : exists acc', face_step (fun i j => 1 + i + 3 * j)%nat 3 3 (map (fun l => (l, fun _ => 2)) [1; 2; 3; 4; 6; 7; 8; 9]%nat) (1, 1)%nat = Ok acc'
  /\ exists v, gget Nat.eqb acc' 5%nat = Some v /\ v 0%nat = 2.
Proof. eexists. split; [reflexivity|]. eexists. split; [reflexivity|]. unfold vscale, vadd. cbn. lra. Qed.

Print Assumptions boundary_2d.
Print Assumptions edge_range_refuted.
Print Assumptions straight_edge_affine.
