(** Boundary of a two-dimensional patch and connected nodes (C125). *)
From Coq Require Import String Reals List Bool Arith Lia Lra.
From Verif Require Import Lib DeformModel PatchOptModel PatchPolyModel.
Import ListNotations.
Local Open Scope list_scope.

(** ** Rings of edges *)
Section Rings.
  Context {P : Type}.
  (** The edge between two corners, by dimension and index. *)
  Definition starts (l : list P) (p : P) := exists t, l = p :: t.
  Definition ends (l : list P) (p : P) := exists t, l = t ++ [p].
  Definition joins (ec : nat -> nat -> list P) (corner : nat -> P) :=
    forall i j a b, In (i, j, (a, b)) [(0, 0, (0, 1)); (0, 1, (3, 2)); (1, 0, (0, 3)); (1, 1, (1, 2))]%nat ->
      (2 <= length (ec i j))%nat /\ starts (ec i j) (corner a) /\ ends (ec i j) (corner b).
  Definition rev_seg (s : P * P) := (snd s, fst s).

  Lemma body_eq (ec : nat -> nat -> list P) close : boundary_coords 2 ec close =
    let body := removelast (ec 0%nat 0%nat) ++ removelast (ec 1%nat 1%nat) ++ removelast (rev (ec 0%nat 1%nat)) ++ removelast (rev (ec 1%nat 0%nat)) in
    Ok (if close then body ++ firstn 1 body else body).
  Proof. unfold boundary_coords. cbn -[removelast rev firstn app]. rewrite ?app_nil_r. cbn [app]. rewrite ?app_nil_r. reflexivity. Qed.
  Lemma glue (a b : list P) p : ends a p -> starts b p -> segments (removelast a ++ b) = segments a ++ segments b.
  Proof.
    intros [t ->] [u ->]. rewrite removelast_last. unfold segments. induction t as [|x t IH]; [reflexivity|]. cbn [app tl combine] in *.
    destruct t as [|y t]; [reflexivity|]. cbn [app tl combine] in *. f_equal. exact IH.
  Qed.
  Lemma ends_rev l p : starts l p -> ends (rev l) p.
  Proof. intros [t ->]. exists (rev t). reflexivity. Qed.
  Lemma starts_rev l p : ends l p -> starts (rev l) p.
  Proof. intros [t ->]. exists (rev t). now rewrite rev_app_distr. Qed.
  Lemma starts_removelast l p : starts l p -> (2 <= length l)%nat -> forall u, starts (removelast l ++ u) p.
  Proof. intros [t ->] L u. destruct t as [|y t]; [cbn in L; lia|]. cbn [removelast app]. eexists. reflexivity. Qed.
  Lemma segments_app_one (l : list P) p q : segments ((l ++ [p]) ++ [q]) = segments (l ++ [p]) ++ [(p, q)].
  Proof.
    unfold segments. induction l as [|x l IH]; [reflexivity|]. cbn [app tl combine] in *. destruct l as [|y l]; [reflexivity|]. cbn [app tl combine] in *. f_equal. exact IH.
  Qed.
  Lemma segments_rev (l : list P) : segments (rev l) = map rev_seg (rev (segments l)).
  Proof.
    induction l as [|x l IH]; [reflexivity|]. destruct l as [|y l]; [reflexivity|]. cbn [rev] in *. rewrite segments_app_one, IH. unfold segments at 2. cbn [tl combine rev].
    rewrite map_app. f_equal.
  Qed.

  (** The closed ring starts and ends at the first corner, and runs once through
      each step of each edge: the first edge, the fourth, then the second and the
      third backwards. *)
  Theorem ring_segments : forall ec corner, joins ec corner -> exists ring, boundary_coords 2 ec true = Ok ring /\
    starts ring (corner 0%nat) /\ ends ring (corner 0%nat) /\
    segments ring = segments (ec 0%nat 0%nat) ++ segments (ec 1%nat 1%nat) ++ map rev_seg (rev (segments (ec 0%nat 1%nat))) ++ map rev_seg (rev (segments (ec 1%nat 0%nat))).
  Proof.
    intros ec corner J. rewrite body_eq. cbv zeta. eexists. split; [reflexivity|].
    destruct (J 0 0 0 1)%nat as (L1 & S1 & E1); [cbn; auto|]. destruct (J 0 1 3 2)%nat as (L2 & S2 & E2); [cbn; auto|].
    destruct (J 1 0 0 3)%nat as (L3 & S3 & E3); [cbn; auto|]. destruct (J 1 1 1 2)%nat as (L4 & S4 & E4); [cbn; auto 6|].
    set (e1 := ec 0%nat 0%nat) in *. set (e2 := ec 0%nat 1%nat) in *. set (e3 := ec 1%nat 0%nat) in *. set (e4 := ec 1%nat 1%nat) in *. clearbody e1 e2 e3 e4. clear J ec.
    assert (F : firstn 1 (removelast e1 ++ removelast e4 ++ removelast (rev e2) ++ removelast (rev e3)) = [corner 0%nat]).
    { destruct (starts_removelast e1 _ S1 L1 (removelast e4 ++ removelast (rev e2) ++ removelast (rev e3))) as (t & ->). reflexivity. }
    rewrite F. rewrite <- !app_assoc.
    assert (C : removelast (rev e3) ++ [corner 0%nat] = rev e3).
    { destruct (ends_rev _ _ S3) as (t & ->). now rewrite removelast_last. }
    rewrite C. split; [now apply starts_removelast|]. split.
    { destruct (ends_rev _ _ S3) as (t & ->). exists (removelast e1 ++ removelast e4 ++ removelast (rev e2) ++ t). now rewrite <- !app_assoc. }
    assert (LR : forall l : list P, (2 <= length l)%nat -> (2 <= length (rev l))%nat) by (intros; now rewrite rev_length).
    assert (SR3 := starts_rev _ _ E3). assert (SR2 := starts_rev _ _ E2).
    rewrite (glue e1 _ (corner 1%nat)); [|exact E1|now apply starts_removelast].
    rewrite (glue e4 _ (corner 2%nat)); [|exact E4|apply starts_removelast; auto].
    rewrite (glue (rev e2) _ (corner 3%nat)); [|now apply ends_rev|exact SR3].
    now rewrite !segments_rev.
  Qed.
  Lemma removelast_length (l : list P) : length (removelast l) = (length l - 1)%nat.
  Proof.
    induction l as [|x l IH]; [reflexivity|]. destruct l as [|y l]; [reflexivity|]. change (removelast (x :: y :: l)) with (x :: removelast (y :: l)). cbn [length] in *. lia.
  Qed.
  (** The ring has each boundary node once, and the first one again if closed. *)
  Theorem ring_length : forall (ec : nat -> nat -> list P) close, (forall i j, 1 <= length (ec i j))%nat -> exists ring, boundary_coords 2 ec close = Ok ring /\
    length ring = (length (ec 0 0) + length (ec 1 1) + length (ec 0 1) + length (ec 1 0) - 4 + (if close then Nat.min 1 (length (ec 0 0) + length (ec 1 1) + length (ec 0 1) + length (ec 1 0) - 4) else 0))%nat.
  Proof.
    intros ec close H. rewrite body_eq. cbv zeta. eexists. split; [reflexivity|]. pose proof (H 0 0)%nat. pose proof (H 0 1)%nat. pose proof (H 1 0)%nat. pose proof (H 1 1)%nat.
    destruct close; rewrite ?app_length, ?firstn_length, ?app_length, ?removelast_length, ?rev_length; lia.
  Qed.
End Rings.

(** The ring of mapped edges is the mapped ring. *)
Lemma map_removelast {A B} (f : A -> B) : forall l, map f (removelast l) = removelast (map f l).
Proof. induction l as [|x l IH]; [reflexivity|]. destruct l as [|y l]; [reflexivity|]. cbn [removelast map] in *. now rewrite IH. Qed.
Lemma ring_map {A B} (f : A -> B) ec ring close : boundary_coords 2 ec close = Ok ring -> boundary_coords 2 (fun i j => map f (ec i j)) close = Ok (map f ring).
Proof.
  rewrite !body_eq. cbv zeta. intros E. injection E as <-. f_equal.
  set (body := removelast (ec 0%nat 0%nat) ++ removelast (ec 1%nat 1%nat) ++ removelast (rev (ec 0%nat 1%nat)) ++ removelast (rev (ec 1%nat 0%nat))).
  assert (M : removelast (map f (ec 0%nat 0%nat)) ++ removelast (map f (ec 1%nat 1%nat)) ++ removelast (rev (map f (ec 0%nat 1%nat))) ++ removelast (rev (map f (ec 1%nat 0%nat))) = map f body)
    by (unfold body; rewrite !map_app, !map_removelast, !map_rev; reflexivity).
  rewrite M. destruct close; [rewrite map_app, firstn_map|]; reflexivity.
Qed.
Lemma segments_map {A B} (f : A -> B) l : segments (map f l) = map (fun s => (f (fst s), f (snd s))) (segments l).
Proof.
  unfold segments. induction l as [|x l IH]; [reflexivity|]. destruct l as [|y l]; [reflexivity|]. cbn [map tl combine] in *. now rewrite IH.
Qed.

(** ** Area and centroid *)
Local Open Scope R_scope.
Lemma seg_sum_cons f p q l : seg_sum f (p :: q :: l) = f p q + seg_sum f (q :: l).
Proof. reflexivity. Qed.
Lemma seg_sum_one f p : seg_sum f [p] = 0.
Proof. reflexivity. Qed.
Lemma seg_sum_segments f l s : segments l = s -> seg_sum f l = lsum (map (fun s => f (fst s) (snd s)) s).
Proof. now intros <-. Qed.
(** Telescoping: a difference along a ring. *)
Lemma telescope (g : pt -> R) : forall l p q, starts l p -> ends l q -> seg_sum (fun a b => g b - g a) l = g q - g p.
Proof.
  induction l as [|x l IH]; intros p q [t E1] [u E2]; [discriminate|]. injection E1 as -> <-. destruct l as [|y l].
  - destruct u as [|z u]; [injection E2 as ->; rewrite seg_sum_one; lra|destruct u; discriminate].
  - rewrite seg_sum_cons. destruct u as [|z u]; [discriminate|]. cbn in E2. injection E2 as -> E2. rewrite (IH y q); [lra|eexists; reflexivity|eexists; exact E2].
Qed.
Lemma seg_sum_ext f g l : (forall a b, f a b = g a b) -> seg_sum f l = seg_sum g l.
Proof. intros H. unfold seg_sum. f_equal. apply map_ext. intros s. apply H. Qed.
Lemma seg_sum_plus f g l : seg_sum (fun a b => f a b + g a b) l = seg_sum f l + seg_sum g l.
Proof. unfold seg_sum. induction (segments l) as [|s t IH]; cbn; [lra|rewrite IH; lra]. Qed.
Lemma seg_sum_scale k f l : seg_sum (fun a b => k * f a b) l = k * seg_sum f l.
Proof. unfold seg_sum. induction (segments l) as [|s t IH]; cbn; [lra|rewrite IH; lra]. Qed.
Lemma seg_sum_map f g l : seg_sum f (map g l) = seg_sum (fun a b => f (g a) (g b)) l.
Proof. unfold seg_sum. rewrite segments_map, map_map. reflexivity. Qed.

(** an affine map of the plane *)
Definition affine (a b c d e f : R) (p : pt) : pt := (a * fst p + b * snd p + e, c * fst p + d * snd p + f).
Definition closed (l : list pt) := exists p, starts l p /\ ends l p.
Lemma closed_diff g l : closed l -> seg_sum (fun a b => g b - g a) l = 0.
Proof. intros (p & S & E). rewrite (telescope g l p p S E). lra. Qed.
Lemma area2_affine a b c d e f l : closed l -> seg_sum cross2 (map (affine a b c d e f) l) = (a * d - b * c) * seg_sum cross2 l.
Proof.
  intros C. rewrite seg_sum_map.
  rewrite (seg_sum_ext _ (fun p q => (a * d - b * c) * cross2 p q + ((fun r => e * (c * fst r + d * snd r) - f * (a * fst r + b * snd r)) q - (fun r => e * (c * fst r + d * snd r) - f * (a * fst r + b * snd r)) p))).
  - rewrite seg_sum_plus, seg_sum_scale, (closed_diff (fun r => e * (c * fst r + d * snd r) - f * (a * fst r + b * snd r))) by exact C. lra.
  - intros p q. unfold cross2, affine. cbn [fst snd]. ring.
Qed.
(** The area of a deformed ring is multiplied by the determinant. *)
Theorem area_affine : forall a b c d e f l, closed l -> area (map (affine a b c d e f) l) = (a * d - b * c) * area l.
Proof. intros. unfold area. rewrite area2_affine by assumption. field. Qed.
Lemma moment_x a b c d e f l : closed l -> seg_sum (fun p q => cross2 p q * (fst p + fst q)) (map (affine a b c d e f) l) =
  (a * d - b * c) * (a * seg_sum (fun p q => cross2 p q * (fst p + fst q)) l + b * seg_sum (fun p q => cross2 p q * (snd p + snd q)) l + 3 * e * seg_sum cross2 l).
Proof.
  intros C. rewrite seg_sum_map.
  set (X := fun r : pt => a * fst r + b * snd r). set (Y := fun r : pt => c * fst r + d * snd r).
  rewrite (seg_sum_ext _ (fun p q => (a * d - b * c) * (a * (cross2 p q * (fst p + fst q)) + (b * (cross2 p q * (snd p + snd q)) + 3 * e * cross2 p q)) +
    ((fun r => e * X r * Y r - f * X r * X r + 2 * e * (e * Y r - f * X r)) q - (fun r => e * X r * Y r - f * X r * X r + 2 * e * (e * Y r - f * X r)) p))).
  - rewrite seg_sum_plus, seg_sum_scale, (closed_diff (fun r => e * X r * Y r - f * X r * X r + 2 * e * (e * Y r - f * X r))) by exact C.
    rewrite !seg_sum_plus, !seg_sum_scale. lra.
  - intros p q. unfold X, Y, cross2, affine. cbn [fst snd]. ring.
Qed.
Lemma moment_y a b c d e f l : closed l -> seg_sum (fun p q => cross2 p q * (snd p + snd q)) (map (affine a b c d e f) l) =
  (a * d - b * c) * (c * seg_sum (fun p q => cross2 p q * (fst p + fst q)) l + d * seg_sum (fun p q => cross2 p q * (snd p + snd q)) l + 3 * f * seg_sum cross2 l).
Proof.
  intros C. rewrite seg_sum_map.
  set (X := fun r : pt => a * fst r + b * snd r). set (Y := fun r : pt => c * fst r + d * snd r).
  rewrite (seg_sum_ext _ (fun p q => (a * d - b * c) * (c * (cross2 p q * (fst p + fst q)) + (d * (cross2 p q * (snd p + snd q)) + 3 * f * cross2 p q)) +
    ((fun r => e * Y r * Y r - f * X r * Y r + 2 * f * (e * Y r - f * X r)) q - (fun r => e * Y r * Y r - f * X r * Y r + 2 * f * (e * Y r - f * X r)) p))).
  - rewrite seg_sum_plus, seg_sum_scale, (closed_diff (fun r => e * Y r * Y r - f * X r * Y r + 2 * f * (e * Y r - f * X r))) by exact C.
    rewrite !seg_sum_plus, !seg_sum_scale. lra.
  - intros p q. unfold X, Y, cross2, affine. cbn [fst snd]. ring.
Qed.
(** The centroid moves with every invertible affine map, in particular with the
    rigid motions. *)
Theorem centroid_affine : forall a b c d e f l, closed l -> area l <> 0 -> a * d - b * c <> 0 ->
  centroid_of (map (affine a b c d e f) l) = affine a b c d e f (centroid_of l).
Proof.
  intros a b c d e f l C A D. unfold centroid_of. rewrite area_affine, moment_x, moment_y by assumption. unfold affine. cbn [fst snd].
  assert (E : seg_sum cross2 l = 2 * area l) by (unfold area; field). rewrite E. f_equal; field; auto.
Qed.
(** A rotation about the centroid and a translation move the centroid by the
    translation only. *)
Theorem rigid_motion_centroid : forall ec corner co si tx ty ring, joins ec corner -> boundary_coords 2 ec true = Ok ring -> area ring <> 0 -> co * co + si * si = 1 ->
  let g := centroid_of ring in
  let move := fun p : pt => (fst g + co * (fst p - fst g) - si * (snd p - snd g) + tx, snd g + si * (fst p - fst g) + co * (snd p - snd g) + ty) in
  patch_centroid (fun i j => map move (ec i j)) = Ok (fst g + tx, snd g + ty).
Proof.
  intros ec corner co si tx ty ring J E A U. cbv zeta. set (g := centroid_of ring).
  set (e := fst g - co * fst g + si * snd g + tx). set (f := snd g - si * fst g - co * snd g + ty).
  unfold patch_centroid. rewrite (ring_map _ ec ring true E). cbn [rbind]. f_equal.
  rewrite (map_ext _ (affine co (- si) si co e f)); [|intros p; unfold affine, e, f; f_equal; ring].
  rewrite centroid_affine; [|destruct (ring_segments ec corner J) as (r & E2 & S & T & _); rewrite E in E2; injection E2 as <-; now exists (corner 0%nat)|exact A|nra].
  fold g. unfold affine, e, f. f_equal; ring.
Qed.

(** ** The reference patch *)
Definition along (a b : pt) (t : R) : pt := (fst a + t * (fst b - fst a), snd a + t * (snd b - snd a)).
Definition corner2 (l0 l1 : R) (c : nat) : pt := match c with 0%nat => (0, 0) | 1%nat => (l0, 0) | 2%nat => (l0, l1) | _ => (0, l1) end.
(** the nodes of the edge between two corners, at the given fractions *)
Definition straight_edges (l0 l1 : R) (ts : nat -> nat -> list R) (i j : nat) : list pt :=
  let e := nth j (edges 2 i) (0, 0)%nat in map (along (corner2 l0 l1 (fst e)) (corner2 l0 l1 (snd e))) (ts i j).
Definition fractions (ts : list R) := (2 <= length ts)%nat /\ starts ts 0 /\ ends ts 1.
Lemma straight_joins l0 l1 ts : (forall i j, fractions (ts i j)) -> joins (straight_edges l0 l1 ts) (corner2 l0 l1).
Proof.
  intros H i j a b I. destruct (H i j) as (L & (t & S) & (u & E)). unfold straight_edges.
  assert (Q : nth j (edges 2 i) (0, 0)%nat = (a, b)) by (cbn in I; repeat (destruct I as [I|I]; [injection I as <- <- <- <-; reflexivity|]); contradiction).
  rewrite Q. cbv zeta. cbn [fst snd]. split; [now rewrite map_length|]. split.
  - rewrite S. eexists. cbn [map]. f_equal. unfold along. destruct (corner2 l0 l1 a). cbn. f_equal; ring.
  - rewrite E. rewrite map_app. eexists. f_equal. cbn. f_equal. unfold along. destruct (corner2 l0 l1 b). cbn. f_equal; ring.
Qed.
Lemma along_sum (f : pt -> pt -> R) (F : R -> R) a b ts : (forall s t, f (along a b s) (along a b t) = F t - F s) -> fractions ts ->
  lsum (map (fun s => f (fst s) (snd s)) (segments (map (along a b) ts))) = F 1 - F 0.
Proof.
  intros H (_ & S & E). rewrite segments_map, map_map. cbn [fst snd]. rewrite (map_ext _ (fun s => F (snd s) - F (fst s))) by (intros; apply H).
  revert S E. clear. generalize 0 as p. generalize 1 as q. revert ts. induction ts as [|x ts IH]; intros q p [t E1] [u E2]; [discriminate|]. injection E1 as -> <-. destruct ts as [|y ts].
  - destruct u as [|z u]; [injection E2 as ->; cbn; lra|destruct u; discriminate].
  - destruct u as [|z u]; [discriminate|]. cbn in E2. injection E2 as -> E2. change (segments (z :: y :: ts)) with ((z, y) :: segments (y :: ts)). cbn [map lsum fst snd].
    rewrite (IH q y); [lra|eexists; reflexivity|eexists; exact E2].
Qed.
Lemma lsum_rev_seg (f : pt -> pt -> R) k l : (forall a b, f b a = k * f a b) ->
  lsum (map (fun s => f (fst s) (snd s)) (map rev_seg (rev l))) = k * lsum (map (fun s => f (fst s) (snd s)) l).
Proof.
  intros H. rewrite map_map. induction l as [|s l IH]; [cbn; lra|]. cbn [rev]. rewrite map_app, lsum_app, IH. cbn. rewrite H. lra.
Qed.
Lemma straight_sum (f : pt -> pt -> R) l0 l1 ts ring F1 F2 F3 F4 : (forall a b, f b a = - 1 * f a b) -> (forall i j, fractions (ts i j)) ->
  boundary_coords 2 (straight_edges l0 l1 ts) true = Ok ring ->
  (forall s t, f (along (0, 0) (l0, 0) s) (along (0, 0) (l0, 0) t) = F1 t - F1 s) -> (forall s t, f (along (0, l1) (l0, l1) s) (along (0, l1) (l0, l1) t) = F2 t - F2 s) ->
  (forall s t, f (along (0, 0) (0, l1) s) (along (0, 0) (0, l1) t) = F3 t - F3 s) -> (forall s t, f (along (l0, 0) (l0, l1) s) (along (l0, 0) (l0, l1) t) = F4 t - F4 s) ->
  seg_sum f ring = (F1 1 - F1 0) + (F4 1 - F4 0) - (F2 1 - F2 0) - (F3 1 - F3 0).
Proof.
  intros A H E H1 H2 H3 H4. destruct (ring_segments _ _ (straight_joins l0 l1 ts H)) as (r & E2 & _ & _ & S). rewrite E in E2. injection E2 as <-.
  rewrite (seg_sum_segments f ring _ S). rewrite !map_app, !lsum_app, !(lsum_rev_seg f (-1)) by exact A. unfold straight_edges.
  cbn [edges Nat.eqb nth fst snd corner2]. rewrite (along_sum f F1 (0, 0) (l0, 0) (ts 0%nat 0%nat)), (along_sum f F2 (0, l1) (l0, l1) (ts 0%nat 1%nat)), (along_sum f F3 (0, 0) (0, l1) (ts 1%nat 0%nat)), (along_sum f F4 (l0, 0) (l0, l1) (ts 1%nat 1%nat)); auto. lra.
Qed.
(** The ring of the undeformed patch has the area of the patch, counter-clockwise,
    and its centroid, for all positions of the nodes on the edges. *)
Theorem reference_ring : forall l0 l1 ts, 0 < l0 -> 0 < l1 -> (forall i j, fractions (ts i j)) -> exists ring,
  boundary_coords 2 (straight_edges l0 l1 ts) true = Ok ring /\ closed ring /\ area ring = l0 * l1 /\ centroid_of ring = (l0 / 2, l1 / 2).
Proof.
  intros l0 l1 ts L0 L1 H. destruct (ring_segments _ _ (straight_joins l0 l1 ts H)) as (ring & E & S & T & _). exists ring. split; [exact E|]. split; [now exists (corner2 l0 l1 0)|].
  assert (A : area ring = l0 * l1).
  { unfold area. rewrite (straight_sum cross2 l0 l1 ts ring (fun _ => 0) (fun t => - (t * l0 * l1)) (fun _ => 0) (fun t => t * l0 * l1)); auto.
    - field.
    - intros. unfold cross2. ring.
    - intros. unfold cross2, along. cbn. ring.
    - intros. unfold cross2, along. cbn. ring.
    - intros. unfold cross2, along. cbn. ring.
    - intros. unfold cross2, along. cbn. ring. }
  split; [exact A|]. unfold centroid_of. rewrite A. f_equal.
  - rewrite (straight_sum (fun p q => cross2 p q * (fst p + fst q)) l0 l1 ts ring (fun _ => 0) (fun t => - (t * t * l0 * l0 * l1)) (fun _ => 0) (fun t => 2 * t * l0 * l0 * l1)); auto.
    + field. lra.
    + intros. unfold cross2. ring.
    + intros. unfold cross2, along. cbn. ring.
    + intros. unfold cross2, along. cbn. ring.
    + intros. unfold cross2, along. cbn. ring.
    + intros. unfold cross2, along. cbn. ring.
  - rewrite (straight_sum (fun p q => cross2 p q * (snd p + snd q)) l0 l1 ts ring (fun _ => 0) (fun t => - (2 * t * l0 * l1 * l1)) (fun _ => 0) (fun t => t * t * l0 * l1 * l1)); auto.
    + field. lra.
    + intros. unfold cross2. ring.
    + intros. unfold cross2, along. cbn. ring.
    + intros. unfold cross2, along. cbn. ring.
    + intros. unfold cross2, along. cbn. ring.
    + intros. unfold cross2, along. cbn. ring.
Qed.
(** A homogeneous deformation is admissible exactly if its determinant is positive
    (and the ring valid): inverted patches are rejected. *)
Theorem homogeneous_admissible : forall valid l0 l1 ts a b c d e f, 0 < l0 -> 0 < l1 -> (forall i j, fractions (ts i j)) ->
  (forall ring, boundary_coords 2 (straight_edges l0 l1 ts) true = Ok ring -> a * d - b * c <> 0 -> valid (map (affine a b c d e f) ring) = true) ->
  exists r, is_admissible valid 2 (fun i j => map (affine a b c d e f) (straight_edges l0 l1 ts i j)) = Ok r /\ (r = true <-> 0 < a * d - b * c).
Proof.
  intros valid l0 l1 ts a b c d e f L0 L1 H V. destruct (reference_ring l0 l1 ts L0 L1 H) as (ring & E & C & A & _).
  unfold is_admissible. cbn [Nat.eqb]. rewrite (ring_map _ _ ring true E). cbn [rbind]. eexists. split; [reflexivity|].
  rewrite area_affine, A by exact C. assert (P : 0 < l0 * l1) by now apply Rmult_lt_0_compat. unfold rltb. split.
  - intros Q. apply andb_true_iff in Q as [_ Q]. destruct (Rlt_dec 0 ((a * d - b * c) * (l0 * l1))) as [D|]; [|discriminate]. apply (Rmult_lt_reg_r (l0 * l1)); [exact P|]. now rewrite Rmult_0_l.
  - intros Q. rewrite (V ring E) by lra. destruct (Rlt_dec 0 ((a * d - b * c) * (l0 * l1))) as [|N]; [reflexivity|]. exfalso. apply N. now apply Rmult_lt_0_compat.
Qed.
(** The ring is not in clockwise order, as documented: its area is positive. *)
Theorem clockwise_refuted : exists ring, boundary_coords 2 (straight_edges 1 1 (fun _ _ => [0; 1])) true = Ok ring /\
  ring = [(0, 0); (1, 0); (1, 1); (0, 1); (0, 0)] /\ 0 < area ring.
Proof.
  destruct (reference_ring 1 1 (fun _ _ => [0; 1])) as (ring & E & _ & A & _); [lra|lra| |].
  - intros _ _. split; [cbn; lia|]. split; [exists [1]; reflexivity|exists [0]; reflexivity].
  - exists ring. split; [exact E|]. split; [|rewrite A; lra]. rewrite body_eq in E. cbn in E. injection E as <-. unfold along. cbn. repeat (f_equal; try (f_equal; ring)).
Qed.
(** In three dimensions every deformation is admissible, also a reflected patch. *)
Theorem inverted_brick_refuted : forall valid ec, is_admissible valid 3 (fun i j => map (affine (-1) 0 0 1 0 0) (ec i j)) = Ok true /\ (forall l, closed l -> area (map (affine (-1) 0 0 1 0 0) l) = - area l).
Proof. intros valid ec. split; [reflexivity|]. intros l C. rewrite area_affine by exact C. ring. Qed.

(** ** Connected nodes *)
Local Open Scope nat_scope.
(** Neighbour positions of the matrix that both hold a node. *)
Definition neighbours (n0 n1 i j i' j' : nat) : Prop := i < n0 /\ j < n1 /\ i' < n0 /\ j' < n1 /\ ((i' = S i /\ j' = j) \/ (i' = i /\ j' = S j)).
Theorem connected_iff : forall m n0 n1, exists l, connected_nodes 2 m n0 n1 = Ok l /\
  forall a b, In (a, b) l <-> a <> 0 /\ b <> 0 /\ exists i j i' j', neighbours n0 n1 i j i' j' /\ m i j = a /\ m i' j' = b.
Proof.
  intros m n0 n1. unfold connected_nodes. cbn [Nat.eqb]. eexists. split; [reflexivity|]. intros a b.
  assert (PI : forall x y, In (a, b) (if negb (Nat.eqb x 0) && negb (Nat.eqb y 0) then [(x, y)] else []) <-> a <> 0 /\ b <> 0 /\ x = a /\ y = b).
  { intros x y. destruct (Nat.eqb_spec x 0), (Nat.eqb_spec y 0); cbn; split; intros H; try contradiction; try (destruct H as (? & ? & ? & ?); subst; contradiction).
    - destruct H as [H|[]]. injection H as <- <-. auto.
    - destruct H as (? & ? & -> & ->). now left. }
  cbv zeta. rewrite in_app_iff. split.
  - intros [I|I]; apply in_flat_map in I as (x & Ix & I); apply in_flat_map in I as (y & Iy & I); apply in_seq in Ix, Iy; apply PI in I as (A & B & E1 & E2); (split; [exact A|]); (split; [exact B|]).
    + exists y, x, (S y), x. repeat split; auto; lia.
    + exists x, y, x, (S y). repeat split; auto; lia.
  - intros (A & B & i & j & i' & j' & (H1 & H2 & H3 & H4 & [[-> ->]|[-> ->]]) & E1 & E2); [left|right]; apply in_flat_map.
    + exists j. split; [apply in_seq; lia|]. apply in_flat_map. exists i. split; [apply in_seq; lia|]. now apply PI.
    + exists i. split; [apply in_seq; lia|]. apply in_flat_map. exists j. split; [apply in_seq; lia|]. now apply PI.
Qed.
(** In a mesh without holes the number of pairs is that of the grid. *)
Theorem connected_number : forall m n0 n1, (forall i j, i < n0 -> j < n1 -> m i j <> 0) -> exists l, connected_nodes 2 m n0 n1 = Ok l /\ length l = (n0 - 1) * n1 + n0 * (n1 - 1).
Proof.
  intros m n0 n1 H. unfold connected_nodes. cbn [Nat.eqb]. eexists. split; [reflexivity|]. cbv zeta. rewrite app_length.
  assert (FL : forall (f : nat -> list (nat * nat)) k a n, (forall x, a <= x < a + n -> length (f x) = k) -> length (flat_map f (seq a n)) = n * k).
  { intros f k a n. revert a. induction n as [|n IH]; intros a F; [reflexivity|]. cbn [seq flat_map]. rewrite app_length, IH by (intros; apply F; lia). rewrite F by lia. lia. }
  assert (ON : forall x y : nat, x <> 0 -> y <> 0 -> length (if negb (Nat.eqb x 0) && negb (Nat.eqb y 0) then [(x, y)] else []) = 1).
  { intros x y X Y. destruct (Nat.eqb_spec x 0), (Nat.eqb_spec y 0); try contradiction. reflexivity. }
  rewrite (FL _ (n0 - 1) 0 n1), (FL _ (n1 - 1) 0 n0); [lia| |].
  - intros i Hi. rewrite (FL _ 1 0 (n1 - 1)); [lia|]. intros j Hj. apply ON; apply H; lia.
  - intros j Hj. rewrite (FL _ 1 0 (n0 - 1)); [lia|]. intros i Hi. apply ON; apply H; lia.
Qed.
(** With an inner node (nine node element) pairs are reported that are not on an
    edge of the element. *)
Theorem inner_node_refuted : exists l, connected_nodes 2 (fun i j => 1 + i + 3 * j) 3 3 = Ok l /\ In (2, 5) l /\
  forall i j i' j', neighbours 3 3 i j i' j' -> 1 + i + 3 * j = 2 -> 1 + i' + 3 * j' = 5 -> i' = 1 /\ j' = 1.
Proof.
  eexists. split; [reflexivity|]. split; [cbn; tauto|]. intros i j i' j' (H1 & H2 & H3 & H4 & H) E1 E2. lia.
Qed.

Example ring_case : boundary_coords 2 (fun i j => match i, j with 0, 0 => [1; 2; 3] | 0, _ => [7; 8; 9] | _, 0 => [1; 4; 7] | _, _ => [3; 6; 9] end) true = Ok [1; 2; 3; 6; 9; 8; 7; 4; 1].
Proof. reflexivity. Qed.
(** eight node element: no node in the middle *)
Example connected_case : connected_nodes 2 (fun i j => nth (i + 3 * j) [1; 2; 3; 4; 0; 5; 6; 7; 8] 0) 3 3 =
  Ok [(1, 2); (2, 3); (6, 7); (7, 8); (1, 4); (4, 6); (3, 5); (5, 8)].
Proof. reflexivity. Qed.

Print Assumptions ring_segments.
Print Assumptions ring_length.
Print Assumptions area_affine.
Print Assumptions centroid_affine.
Print Assumptions rigid_motion_centroid.
Print Assumptions reference_ring.
Print Assumptions homogeneous_admissible.
Print Assumptions clockwise_refuted.
Print Assumptions inverted_brick_refuted.
Print Assumptions connected_iff.
Print Assumptions connected_number.
Print Assumptions inner_node_refuted.
