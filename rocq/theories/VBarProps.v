(** Theorems about the averaged volumetric strain operator (B-bar) of the
    vectorised forward propagation. *)
From Coq Require Import Reals List Arith ZArith Lia Lra Bool.
From Verif Require Import Lib MatrixModel MatrixSpec MatrixProofs MatrixProps TensorModel TensorSpec ElementModel QuadratureModel
  GradientModel GradientSpec GradientProps MeshModel MeshSpec MeshProps ScalerModel LossModel LossProps
  ForwardModel ForwardSpec ForwardProofs ForwardProps RcModel ResponseProps VForwardModel VForwardProps VForwardNormProps.
Import ListNotations.
Local Open Scope R_scope.

(** ** Specification *)
Definition trace (n : nat) (e : T2) : R := rsum n (fun a => e a a).
Definition delta (i j : nat) : R := if Nat.eqb i j then 1 else 0.
(** Volume of the element and volume average of a quantity at its Gauss points
    (weight and determinant times value). *)
Definition volume (gps : rule) (g : list (T2 * R * T2)) : R :=
  lsum (map (fun p => snd (fst p) * snd (fst (snd p))) (combine gps g)).
Definition mean_trace (n : nat) (gps : rule) (g : list (T2 * R * T2)) : R :=
  lsum (map (fun p => snd (fst p) * snd (fst (snd p)) * trace n (fst (fst (snd p)))) (combine gps g)) / volume gps g.

(** ** The projected operators *)
Lemma cols2 k : ((3 * (k / 2) + k mod 2) / 3 = k / 2 /\ (3 * (k / 2) + k mod 2) mod 3 = k mod 2 /\ Nat.ltb (k mod 2) 2 = true /\ 2 * (k / 2) + k mod 2 = k)%nat.
Proof.
  pose proof (Nat.mod_upper_bound k 2 ltac:(lia)). pose proof (Nat.div_mod k 2 ltac:(lia)).
  repeat split; try lia; [| |apply Nat.ltb_lt; lia].
  - symmetry. apply (Nat.div_unique _ 3 _ (k mod 2)); lia.
  - symmetry. apply (Nat.mod_unique _ 3 (k / 2)); lia.
Qed.

Lemma expand_at B c k : vexpand_grad_operator B c (3 * (k / 2) + k mod 2)%nat
  = match c with 0%nat => B 0%nat k | 1%nat => B 1%nat k | 3%nat => B 2%nat k | _ => 0 end.
Proof.
  destruct (cols2 k) as (D1 & D2 & D3 & D4). unfold vexpand_grad_operator. rewrite D1, D2, D3, D4.
  destruct c as [|[|[|[|[|[|c]]]]]]; try reflexivity. cbn [nth order_sym_3d]. destruct c; reflexivity.
Qed.
Lemma reduce_at M c k : (c < 3)%nat -> vreduce_grad_operator M c k = M (match c with 2 => 3 | _ => c end)%nat (3 * (k / 2) + k mod 2)%nat.
Proof. intros H. unfold vreduce_grad_operator. destruct c as [|[|[|]]]; try lia; reflexivity. Qed.

Lemma vol_operator pt n order q B c k : get_problem_type_parameters pt = Ok (n, order, q) -> (c < length order)%nat ->
  vcompute_local_vol_sym_gradient B n c k = if Nat.ltb c n then rsum n (fun a => B a k) / 3 else 0.
Proof.
  intros PT Hc. destruct pt as [|[|[|[|[|]]]]]; try discriminate; injection PT as <- <- <-; simpl in Hc.
  - unfold vcompute_local_vol_sym_gradient. cbn [Nat.eqb]. rewrite reduce_at by auto. unfold proj_mul.
    destruct c as [|[|[|]]]; [| | |lia]; cbn [length vol_proj_vmf map vol_indicator order_sym_3d rsum]; rewrite !expand_at; cbn; lra.
  - unfold vcompute_local_vol_sym_gradient, proj_mul. cbn [Nat.eqb].
    destruct c as [|[|[|[|[|[|]]]]]]; [| | | | | |lia]; cbn; lra.
Qed.

(** The deviatoric operator subtracts the trace over the dimension of the
    problem. *)
Lemma dev_operator pt n order q B c k : get_problem_type_parameters pt = Ok (n, order, q) -> (c < length order)%nat ->
  vcompute_local_dev_sym_gradient B n c k = B c k - if Nat.ltb c n then rsum n (fun a => B a k) / INR n else 0.
Proof.
  intros PT Hc. destruct pt as [|[|[|[|[|]]]]]; try discriminate; injection PT as <- <- <-; simpl in Hc.
  - unfold vcompute_local_dev_sym_gradient. cbn [Nat.eqb]. rewrite reduce_at by auto. unfold proj_mul.
    replace (length (dev_proj_vmf 2 order_sym_3d)) with 6%nat by reflexivity. cbn [rsum]. rewrite !expand_at.
    destruct c as [|[|[|]]]; [| | |lia]; cbn; lra.
  - unfold vcompute_local_dev_sym_gradient, proj_mul. cbn [Nat.eqb].
    destruct c as [|[|[|[|[|[|]]]]]]; [| | | | | |lia]; cbn; lra.
Qed.

(** ** Averages *)
Definition comps (B : T2) (el : element) (u : T2) (c : nat) : R :=
  rsum (el_n_node el * el_n_dim el) (fun k => B c k * flatten (el_n_dim el) u k).

Lemma strain_of_comps pt n order q el u : get_problem_type_parameters pt = Ok (n, order, q) ->
  forall B, exists e, vget_strain_from_vmf (compute_infinitesimal_strain B (length order) (el_n_node el) (el_n_dim el) u) n order = Ok e /\
    trace n e = rsum n (comps B el u) /\
    forall B' e' s, vget_strain_from_vmf (compute_infinitesimal_strain B' (length order) (el_n_node el) (el_n_dim el) u) n order = Ok e' ->
      (forall c, (c < length order)%nat -> comps B' el u c = comps B el u c + if Nat.ltb c n then s else 0) ->
      forall i j, (i < n)%nat -> (j < n)%nat -> e' i j = e i j + delta i j * s.
Proof.
  intros PT B. unfold vget_strain_from_vmf, compute_infinitesimal_strain.
  rewrite !map_length, !seq_length, !Nat.eqb_refl. cbn [negb].
  destruct pt as [|[|[|[|[|]]]]]; try discriminate; injection PT as <- <- <-; eexists; (split; [reflexivity|]); split.
  1, 3: unfold trace, comps; cbn; ring.
  1, 2: intros B' e' s; rewrite !map_length, !seq_length, !Nat.eqb_refl; cbn [negb]; intros E H i j Hi Hj; injection E as <-.
  - pose proof (H 0%nat ltac:(simpl; lia)) as H0. pose proof (H 1%nat ltac:(simpl; lia)) as H1. pose proof (H 2%nat ltac:(simpl; lia)) as H2.
    unfold comps in *. destruct i as [|[|]], j as [|[|]]; try lia; cbn in *; rewrite ?H0, ?H1, ?H2; unfold delta; cbn; lra.
  - pose proof (H 0%nat ltac:(simpl; lia)) as H0. pose proof (H 1%nat ltac:(simpl; lia)) as H1. pose proof (H 2%nat ltac:(simpl; lia)) as H2.
    pose proof (H 3%nat ltac:(simpl; lia)) as H3. pose proof (H 4%nat ltac:(simpl; lia)) as H4. pose proof (H 5%nat ltac:(simpl; lia)) as H5.
    unfold comps in *. destruct i as [|[|[|]]], j as [|[|[|]]]; try lia; cbn in *; rewrite ?H0, ?H1, ?H2, ?H3, ?H4, ?H5; unfold delta; cbn; lra.
Qed.

Lemma comps_vol pt n order q B el u c a : get_problem_type_parameters pt = Ok (n, order, q) -> (c < length order)%nat ->
  comps (fun i k => a * vcompute_local_vol_sym_gradient B n i k) el u c = if Nat.ltb c n then a * (rsum n (comps B el u) / 3) else 0.
Proof.
  intros PT Hc. unfold comps.
  rewrite (rsum_ext _ _ (fun k => if Nat.ltb c n then a * (rsum n (fun a0 => B a0 k * flatten (el_n_dim el) u k) / 3) else 0)).
  2:{ intros k _. rewrite (vol_operator pt n order q) by auto. destruct (Nat.ltb c n); [|ring].
      destruct pt as [|[|[|[|[|]]]]]; try discriminate; injection PT as <- <- <-; cbn [rsum]; field. }
  destruct (Nat.ltb c n).
  - destruct pt as [|[|[|[|[|]]]]]; try discriminate; injection PT as <- <- <-; cbn [rsum];
      generalize (el_n_node el * el_n_dim el)%nat; intros N; induction N as [|N IH]; cbn [rsum] in *; try lra; rewrite IH; field.
  - apply rsum_zero. auto.
Qed.

Lemma comps_sum {A} (f : A -> T2) l el u c : comps (fun i k => lsum (map (fun x => f x i k) l)) el u c = lsum (map (fun x => comps (f x) el u c) l).
Proof.
  unfold comps. induction l as [|x l IH]; cbn [map lsum fold_right].
  - apply rsum_zero. intros. cbn. ring.
  - change (fold_right Rplus 0) with lsum. rewrite <- IH.
    generalize (el_n_node el * el_n_dim el)%nat. intros N. induction N as [|N IHN]; cbn [rsum lsum fold_right] in *; [cbn; lra|]. rewrite IHN. cbn. ring.
Qed.
Lemma comps_scale a B el u c : comps (fun i k => a * B i k) el u c = a * comps B el u c.
Proof. unfold comps. generalize (el_n_node el * el_n_dim el)%nat. intros N. induction N as [|N IH]; cbn [rsum]; [ring|]. rewrite IH. ring. Qed.
Lemma comps_add A B el u c : comps (fun i k => A i k + B i k) el u c = comps A el u c + comps B el u c.
Proof. unfold comps. generalize (el_n_node el * el_n_dim el)%nat. intros N. induction N as [|N IH]; cbn [rsum]; [ring|]. rewrite IH. ring. Qed.

(** The averaged operator applied to the displacements. *)
Lemma averaged_operator pt n order q el gps coords avg t X A u :
  get_problem_type_parameters pt = Ok (n, order, q) ->
  vcompute_element_vol_grad_hist Infinitesimal pt el gps coords = Ok avg ->
  nth_error coords t = Some X -> nth_error avg t = Some A ->
  exists g, mapM (fun cw => vcompute_local_strain n order el (fst cw) X u) gps = Ok g /\
    forall c, (c < length order)%nat -> comps A el u c = if Nat.ltb c n then mean_trace n gps g / 3 else 0.
Proof.
  intros PT E NX NA. unfold vcompute_element_vol_grad_hist in E. rewrite PT in E. cbn [rbind] in E.
  destruct (mapM _ gps) as [gl|] eqn:EM; [|discriminate]. cbn [rbind] in E. injection E as <-.
  assert (Ht : (t < length coords)%nat) by (apply nth_error_Some; congruence).
  assert (EA : A = fun i k => 1 / lsum (map (fun l => snd (nth t l (zero2, 0))) gl) * lsum (map (fun l => fst (nth t l (zero2, 0)) i k) gl)).
  { apply nth_error_nth with (d := zero2) in NA. rewrite (nth_map_default _ O) in NA by (rewrite seq_length; auto).
    rewrite seq_nth in NA by auto. symmetry. exact NA. }
  assert (G : exists g, mapM (fun cw => vcompute_local_strain n order el (fst cw) X u) gps = Ok g /\
    lsum (map (fun l => snd (nth t l (zero2, 0))) gl) = volume gps g /\
    forall c, (c < length order)%nat -> lsum (map (fun l => comps (fst (nth t l (zero2, 0))) el u c) gl)
      = if Nat.ltb c n then lsum (map (fun p => snd (fst p) * snd (fst (snd p)) * trace n (fst (fst (snd p)))) (combine gps g)) / 3 else 0).
  { clear EA NA. revert gl EM. induction gps as [|cw gps IH]; intros gl EM; cbn [mapM] in *.
    - injection EM as <-. exists []. split; [reflexivity|]. split; [reflexivity|]. intros c _. cbn [map lsum fold_right combine]. destruct (Nat.ltb c n); lra.
    - destruct (vcompute_local_vol_grad_operator_hist _ _ _ _ cw coords) as [l|] eqn:EL; [|discriminate]. cbn [rbind] in EM.
      destruct (mapM _ gps) as [gl'|]; [|discriminate]. cbn [rbind] in EM. injection EM as <-.
      destruct (IH gl' eq_refl) as (g & EG & EV & EC). clear IH.
      unfold vcompute_local_vol_grad_operator_hist in EL.
      destruct (mapM _ coords) as [ds|] eqn:ED; [|discriminate]. cbn [rbind] in EL. injection EL as <-.
      assert (Xt : exists dB, nth_error ds t = Some dB /\ vcompute_local_gradient el X (fst cw) order = Ok dB).
      { apply mapM_Forall2 in ED. clear -ED NX. revert t NX. induction ED as [|x y l l' H F IH]; intros [|t] N; try discriminate; cbn in *; [injection N as ->; eauto|auto]. }
      destruct Xt as (dB & ND & EX).
      destruct (strain_of_comps pt n order q el u PT (snd dB)) as (e & Ee & Te & _).
      exists ((e, fst dB, snd dB) :: g). split.
      { unfold vcompute_local_strain at 1. rewrite EX. cbn [rbind]. rewrite Ee. cbn [rbind]. rewrite EG. reflexivity. }
      match goal with |- context [?a :: gl'] => set (row0 := a) end.
      assert (NT : @nth (T2 * R) t row0 (zero2, 0) = ((fun i k => snd cw * (vcompute_local_vol_sym_gradient (snd dB) n i k * fst dB)), snd cw * fst dB)).
      { apply nth_error_nth. unfold row0. rewrite nth_error_map, ND. reflexivity. }
      cbn [map]. rewrite NT. cbn [fst snd]. split.
      { unfold volume. cbn [combine map lsum fold_right fst snd]. cbn. f_equal. exact EV. }
      intros c Hc. specialize (EC c Hc). cbn [combine map fst snd]. cbn [lsum fold_right].
      change (fold_right Rplus 0) with lsum. rewrite EC.
      replace (comps (fun i k => snd cw * (vcompute_local_vol_sym_gradient (snd dB) n i k * fst dB)) el u c)
        with (comps (fun i k => (snd cw * fst dB) * vcompute_local_vol_sym_gradient (snd dB) n i k) el u c)
        by (unfold comps; apply rsum_ext; intros; ring).
      rewrite (comps_vol pt n order q) by auto. rewrite Te. destruct (Nat.ltb c n); field. }
  destruct G as (g & EG & EV & EC). exists g. split; [exact EG|]. intros c Hc. rewrite EA.
  rewrite comps_scale, (comps_sum (fun l => fst (nth t l (zero2, 0)))), EC, EV by auto. unfold mean_trace.
  destruct (Nat.ltb c n); unfold Rdiv; ring.
Qed.

(** ** The averaged strain *)
(** The strain of the averaged operator is the local strain with its trace over
    the dimension of the problem replaced by a third of the mean trace. *)
Theorem vbar_strain_value pt n order q el gps coords avg t X A c u e d B :
  get_problem_type_parameters pt = Ok (n, order, q) ->
  vcompute_element_vol_grad_hist Infinitesimal pt el gps coords = Ok avg ->
  nth_error coords t = Some X -> nth_error avg t = Some A ->
  vcompute_local_strain n order el c X u = Ok (e, d, B) ->
  exists g eb Bb, mapM (fun cw => vcompute_local_strain n order el (fst cw) X u) gps = Ok g /\
    vcompute_local_strain_vbar n order el c X u A = Ok (eb, Bb) /\
    forall i j, (i < n)%nat -> (j < n)%nat -> eb i j = e i j + delta i j * (mean_trace n gps g / 3 - trace n e / INR n).
Proof.
  intros PT EV NX NA EL. destruct (averaged_operator _ _ _ _ _ _ _ _ _ _ _ u PT EV NX NA) as (g & EG & EC).
  unfold vcompute_local_strain in EL. destruct (vcompute_local_gradient el X c order) as [dB|] eqn:ED; [|discriminate]. cbn [rbind] in EL.
  destruct (strain_of_comps pt n order q el u PT (snd dB)) as (e0 & Ee & Te & Le). rewrite Ee in EL. cbn [rbind] in EL. injection EL as -> <- <-.
  destruct (strain_of_comps pt n order q el u PT (vbar_operator A (snd dB) n)) as (eb & Eb & _ & _).
  exists g, eb, (vbar_operator A (snd dB) n). split; [exact EG|]. split.
  { unfold vcompute_local_strain_vbar. rewrite ED. cbn [rbind]. rewrite Eb. reflexivity. }
  intros i j Hi Hj. apply (Le _ _ _ Eb); auto. intros m Hm. unfold vbar_operator.
  rewrite (comps_add A (fun i k => vcompute_local_dev_sym_gradient (snd dB) n i k)), (EC m Hm).
  rewrite Te.
  replace (comps (fun i k => vcompute_local_dev_sym_gradient (snd dB) n i k) el u m)
    with (comps (snd dB) el u m - if Nat.ltb m n then rsum n (comps (snd dB) el u) / INR n else 0); [destruct (Nat.ltb m n); lra|].
  assert (NP : INR n <> 0) by (destruct pt as [|[|[|[|[|]]]]]; try discriminate; injection PT as <- <- <-; apply not_0_INR; lia).
  unfold comps. rewrite (rsum_ext _ (fun k => vcompute_local_dev_sym_gradient (snd dB) n m k * _)
     (fun k => snd dB m k * flatten (el_n_dim el) u k - if Nat.ltb m n then rsum n (fun a => snd dB a k * flatten (el_n_dim el) u k) / INR n else 0)).
  2:{ intros k _. rewrite (dev_operator pt n order q) by auto. destruct (Nat.ltb m n); [|ring].
      destruct pt as [|[|[|[|[|]]]]]; try discriminate; injection PT as <- <- <-; cbn; field. }
  destruct (Nat.ltb m n).
  - destruct pt as [|[|[|[|[|]]]]]; try discriminate; injection PT as <- <- <-; cbn [rsum];
      generalize (el_n_node el * el_n_dim el)%nat; intros N; induction N as [|N IH]; cbn [rsum] in *; try lra; cbn [INR] in *; lra.
  - generalize (el_n_node el * el_n_dim el)%nat. intros N. induction N as [|N IH]; cbn [rsum]; lra.
Qed.

(** Three dimensions: deviator of the local strain plus a third of the mean
    trace, so that the trace is the same at all points. *)
Theorem vbar_3d el gps coords avg t X A c u e d B :
  vcompute_element_vol_grad_hist Infinitesimal 4 el gps coords = Ok avg ->
  nth_error coords t = Some X -> nth_error avg t = Some A ->
  vcompute_local_strain 3 order_sym_3d el c X u = Ok (e, d, B) ->
  exists g eb Bb, mapM (fun cw => vcompute_local_strain 3 order_sym_3d el (fst cw) X u) gps = Ok g /\
    vcompute_local_strain_vbar 3 order_sym_3d el c X u A = Ok (eb, Bb) /\
    trace 3 eb = mean_trace 3 gps g /\
    (forall i j, (i < 3)%nat -> (j < 3)%nat -> eb i j - delta i j * trace 3 eb / 3 = e i j - delta i j * trace 3 e / 3) /\
    (** patch test: a uniform trace changes nothing *)
    (volume gps g <> 0 -> (forall s, In s g -> trace 3 (fst (fst s)) = trace 3 e) -> forall i j, (i < 3)%nat -> (j < 3)%nat -> eb i j = e i j).
Proof.
  intros EV NX NA EL. destruct (vbar_strain_value 4 3 order_sym_3d order_nsym_3d el gps coords avg t X A c u e d B eq_refl EV NX NA EL) as (g & eb & Bb & EG & EB & V).
  exists g, eb, Bb. split; [exact EG|]. split; [exact EB|].
  assert (T : trace 3 eb = mean_trace 3 gps g).
  { unfold trace at 1. cbn [rsum]. rewrite !V by lia. unfold delta, trace. cbn. field. }
  split; [exact T|]. split.
  - intros i j Hi Hj. rewrite T, V by auto. cbn [INR]. field.
  - intros VN U i j Hi Hj. rewrite V by auto.
    replace (mean_trace 3 gps g) with (trace 3 e); [cbn [INR]; field|].
    unfold mean_trace. replace (lsum _) with (volume gps g * trace 3 e); [field; auto|].
    assert (L : length g = length gps) by (apply (mapM_len _ _ _ EG)).
    unfold volume. clear -U L. revert gps L. induction g as [|s g IH]; intros [|cw gps] L; try discriminate; cbn [combine map lsum fold_right]; [cbn; ring|].
    cbn [fst snd]. rewrite U by (left; auto). change (fold_right Rplus 0) with lsum. rewrite <- (IH ltac:(intros; apply U; right; auto) gps) by (simpl in L; lia). ring.
Qed.

(** Plane strain: the deviator is taken with the dimension two while the
    volumetric part has a third; a uniform strain is changed by a sixth of its
    trace. *)
Theorem vbar_2d_uniform el gps coords avg t X A c u e d B :
  vcompute_element_vol_grad_hist Infinitesimal 1 el gps coords = Ok avg ->
  nth_error coords t = Some X -> nth_error avg t = Some A ->
  vcompute_local_strain 2 order_sym_2d el c X u = Ok (e, d, B) ->
  exists g eb Bb, mapM (fun cw => vcompute_local_strain 2 order_sym_2d el (fst cw) X u) gps = Ok g /\
    vcompute_local_strain_vbar 2 order_sym_2d el c X u A = Ok (eb, Bb) /\
    trace 2 eb = 2 / 3 * mean_trace 2 gps g /\
    (volume gps g <> 0 -> (forall s, In s g -> trace 2 (fst (fst s)) = trace 2 e) -> forall i j, (i < 2)%nat -> (j < 2)%nat ->
      eb i j = e i j - delta i j * trace 2 e / 6).
Proof.
  intros EV NX NA EL. destruct (vbar_strain_value 1 2 order_sym_2d order_nsym_2d el gps coords avg t X A c u e d B eq_refl EV NX NA EL) as (g & eb & Bb & EG & EB & V).
  exists g, eb, Bb. split; [exact EG|]. split; [exact EB|]. split.
  { unfold trace at 1. cbn [rsum]. rewrite !V by lia. unfold delta, trace. cbn. field. }
  intros VN U i j Hi Hj. rewrite V by auto.
  replace (mean_trace 2 gps g) with (trace 2 e); [cbn [INR]; field|].
  unfold mean_trace. replace (lsum _) with (volume gps g * trace 2 e); [field; auto|].
  assert (L : length g = length gps) by (apply (mapM_len _ _ _ EG)).
  unfold volume. clear -U L. revert gps L. induction g as [|s g IH]; intros [|cw gps] L; try discriminate; cbn [combine map lsum fold_right]; [cbn; ring|].
  cbn [fst snd]. rewrite U by (left; auto). change (fold_right Rplus 0) with lsum. rewrite <- (IH ltac:(intros; apply U; right; auto) gps) by (simpl in L; lia). ring.
Qed.

(** The patch test fails in plane strain: a rectangle stretched uniformly. *)
Theorem vbar_patch_refuted : exists avg A e d B eb Bb,
  vcompute_element_vol_grad_hist Infinitesimal 1 quad4 [([0; 0], 4)] [rows_fun ex_coords] = Ok avg /\ nth_error avg 0 = Some A /\
  vcompute_local_strain 2 order_sym_2d quad4 [0; 0] (rows_fun ex_coords) (rows_fun ex_stretch) = Ok (e, d, B) /\
  vcompute_local_strain_vbar 2 order_sym_2d quad4 [0; 0] (rows_fun ex_coords) (rows_fun ex_stretch) A = Ok (eb, Bb) /\
  e 0%nat 0%nat = 1 /\ eb 0%nat 0%nat = 5 / 6.
Proof.
  destruct ex_gradient as (B & EB & B2 & B4 & B12 & B14).
  assert (EV : exists avg, vcompute_element_vol_grad_hist Infinitesimal 1 quad4 [([0; 0], 4)] [rows_fun ex_coords] = Ok avg /\ exists A, nth_error avg 0 = Some A).
  { unfold vcompute_element_vol_grad_hist. cbn [get_problem_type_parameters rbind mapM]. unfold vcompute_local_vol_grad_operator_hist. cbn [mapM fst].
    rewrite EB. cbn [rbind map length seq]. eexists. split; [reflexivity|]. eexists. reflexivity. }
  destruct EV as (avg & EV & A & NA).
  destruct (strain_of_comps 1 2 order_sym_2d order_nsym_2d quad4 (rows_fun ex_stretch) eq_refl B) as (e & Ee & Te & _).
  assert (EL : vcompute_local_strain 2 order_sym_2d quad4 [0; 0] (rows_fun ex_coords) (rows_fun ex_stretch) = Ok (e, 1 / 2, B)).
  { unfold vcompute_local_strain. rewrite EB. cbn [rbind snd]. rewrite Ee. reflexivity. }
  destruct (vbar_2d_uniform quad4 _ _ avg 0 _ A [0; 0] _ e (1 / 2) B EV eq_refl NA EL) as (g & eb & Bb & EG & Eb & _ & V).
  cbn [mapM fst] in EG. rewrite EL in EG. cbn [rbind] in EG. injection EG as <-.
  assert (T2' : trace 2 e = 1).
  { rewrite Te. unfold comps. cbn. unfold rows_fun, ex_stretch, flatten. cbn. rewrite B2, B4, B12, B14. lra. }
  assert (E0 : e 0%nat 0%nat = 1).
  { unfold vget_strain_from_vmf, compute_infinitesimal_strain in Ee. cbn in Ee. injection Ee as <-. cbn.
    unfold rows_fun, ex_stretch, flatten. cbn. rewrite B2, B4. lra. }
  exists avg, A, e, (1 / 2), B, eb, Bb. repeat (split; [assumption|]).
  rewrite V; [rewrite E0, T2'; unfold delta; cbn; lra| | |lia|lia].
  - unfold volume. cbn. lra.
  - intros s [<-|[]]. reflexivity.
Qed.

Print Assumptions vbar_strain_value.
Print Assumptions vbar_3d.
Print Assumptions vbar_2d_uniform.
Print Assumptions vbar_patch_refuted.
