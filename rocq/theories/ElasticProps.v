(** Theorems about the elastic constitutive model. *)
From Coq Require Import Reals List Arith Bool Lia Lra Psatz.
From Verif Require Import Lib MatrixModel MatrixSpec TensorModel TensorSpec TensorProps ElasticModel ElasticSpec
  ElasticProofs.
Import ListNotations.
Local Open Scope R_scope.

Lemma tsum_cons e l i j : tsum (e :: l) i j = e i j + tsum l i j.
Proof. reflexivity. Qed.

(** ** Isotropic tangent *)
Theorem isotropic_tangent_is_hooke E v props e C :
  pget props PE = Some E -> pget props Pv = Some v -> symmetric 3 e ->
  elastic_tangent_modulus props Isotropic = Ok C ->
  exists me t, vget_tensor_mf2 e 3 order_sym_3d true = Ok me /\
    vget_tensor_from_mf2 (mv C me) 3 order_sym_3d true = Ok t /\
    eq2 3 t (hooke (lame_lambda E v) (lame_mu E v) e).
Proof.
  intros HE Hv S. unfold elastic_tangent_modulus. rewrite HE, Hv, iso_tangent_mf.
  intros H. inversion H; subst C. exists (kmf e).
  destruct (from_kmf (hooke (lame_lambda E v) (lame_mu E v) e)) as (t & Et & Q).
  { intros i j Hi Hj. unfold hooke, ident. rewrite (S i j Hi Hj), (Nat.eqb_sym i j). reflexivity. }
  exists t. split; [apply mf2_3d|]. rewrite hooke_kmf. auto.
Qed.

(** ** Path independence, three dimensions *)
Lemma el_run_3d E v props : pget props PE = Some E -> pget props Pv = Some v ->
  forall incs st eps, el_e st = kmf eps -> el_strain st = kmf eps ->
  el_stress st = kmf (hooke (lame_lambda E v) (lame_mu E v) eps) ->
  exists st', el_run 4 Isotropic props incs st = Ok st' /\
    el_e st' = kmf (fun i j => eps i j + tsum incs i j) /\
    el_strain st' = kmf (fun i j => eps i j + tsum incs i j) /\
    el_stress st' = kmf (hooke (lame_lambda E v) (lame_mu E v) (fun i j => eps i j + tsum incs i j)).
Proof.
  intros HE Hv. induction incs as [|inc t IH]; intros st eps H1 H2 H3.
  - exists st. split; [reflexivity|].
    assert (Q : eq2 3 eps (fun i j => eps i j + tsum [] i j)) by (intros i j _ _; unfold tsum; simpl; lra).
    rewrite <- (kmf_ext _ _ Q). split; auto. split; auto. rewrite H3. apply kmf_ext.
    intros i j Hi Hj. unfold hooke, trace, tsum. simpl. rewrite !Rplus_0_r. reflexivity.
  - cbn [el_run]. unfold el_state_update. cbn [get_problem_type_parameters rbind Nat.eqb].
    rewrite mf2_3d. cbn [rbind]. unfold elastic_tangent_modulus. rewrite HE, Hv, iso_tangent_mf. cbn [rbind fst].
    rewrite H1, kmf_add, hooke_kmf.
    destruct (IH (EState (kmf (fun i j => eps i j + inc i j)) (kmf (fun i j => eps i j + inc i j))
       (kmf (hooke (lame_lambda E v) (lame_mu E v) (fun i j => eps i j + inc i j))) 0 0)
       (fun i j => eps i j + inc i j)) as (st' & R1 & R2 & R3 & R4); try reflexivity.
    exists st'. split; [exact R1|].
    assert (Q : forall i j, eps i j + inc i j + tsum t i j = eps i j + tsum (inc :: t) i j)
      by (intros; rewrite tsum_cons; ring).
    split; [|split].
    + rewrite R2. apply kmf_ext. intros i j _ _. apply Q.
    + rewrite R3. apply kmf_ext. intros i j _ _. apply Q.
    + rewrite R4. apply kmf_ext. intros i j _ _. unfold hooke, trace. cbn [rsum]. rewrite !Q. reflexivity.
Qed.

Theorem elastic_path_independent_3d E v props incs :
  pget props PE = Some E -> pget props Pv = Some v -> Forall (symmetric 3) incs ->
  exists st0 st eps sig,
    el_state_init 4 = Ok st0 /\ el_run 4 Isotropic props incs st0 = Ok st /\
    vget_tensor_from_mf2 (el_strain st) 3 order_sym_3d true = Ok eps /\ eq2 3 eps (tsum incs) /\
    vget_tensor_from_mf2 (el_stress st) 3 order_sym_3d true = Ok sig /\
    eq2 3 sig (hooke (lame_lambda E v) (lame_mu E v) (tsum incs)).
Proof.
  intros HE Hv FS.
  assert (SY : symmetric 3 (tsum incs)).
  { intros i j Hi Hj. unfold tsum. f_equal. apply map_ext_in. intros e He.
    rewrite Forall_forall in FS. apply (FS e He); auto. }
  unfold el_state_init. cbn [get_problem_type_parameters rbind]. rewrite mf2_3d. cbn [rbind].
  destruct (el_run_3d E v props HE Hv incs (EState (kmf zero2) (kmf zero2) (kmf zero2) 0 0) zero2)
    as (st & R1 & _ & R3 & R4); try reflexivity.
  { apply kmf_ext. intros i j _ _. unfold hooke, trace, zero2. simpl. ring. }
  assert (Q : eq2 3 (fun i j => zero2 i j + tsum incs i j) (tsum incs)) by (intros i j _ _; unfold zero2; lra).
  destruct (from_kmf (tsum incs) SY) as (eps & E1 & E2).
  destruct (from_kmf (hooke (lame_lambda E v) (lame_mu E v) (tsum incs))) as (sig & S1 & S2).
  { intros i j Hi Hj. unfold hooke, ident. rewrite (SY i j Hi Hj), (Nat.eqb_sym i j). reflexivity. }
  eexists. exists st, eps, sig. split; [reflexivity|]. split; [exact R1|].
  rewrite R3, (kmf_ext _ _ Q). split; [exact E1|]. split; [exact E2|].
  rewrite R4. split; [|exact S2]. rewrite <- S1. f_equal. apply kmf_ext.
  intros i j Hi Hj. unfold hooke, trace. cbn [rsum]. rewrite !Q by lia. reflexivity.
Qed.

(** ** Path independence, plane strain *)
Lemma plane_kmf e : kmf (plane e) = [e 0%nat 0%nat; e 1%nat 1%nat; 0; sqrt 2 * e 0%nat 1%nat; 0; 0].
Proof.
  unfold kmf, plane. simpl.
  repeat match goal with |- cons _ _ = cons _ _ => apply f_equal2 | |- nil = nil => reflexivity end; ring.
Qed.

Lemma el_run_2d E v props : pget props PE = Some E -> pget props Pv = Some v ->
  forall incs st eps, el_e st = kmf2 eps -> el_strain st = kmf2 eps -> el_e33 st = 0 ->
  el_stress st = kmf2 (hooke (lame_lambda E v) (lame_mu E v) (plane eps)) ->
  el_s33 st = hooke (lame_lambda E v) (lame_mu E v) (plane eps) 2%nat 2%nat ->
  exists st', el_run 1 Isotropic props incs st = Ok st' /\
    let eps' := fun i j => eps i j + tsum incs i j in
    el_strain st' = kmf2 eps' /\ el_e33 st' = 0 /\
    el_stress st' = kmf2 (hooke (lame_lambda E v) (lame_mu E v) (plane eps')) /\
    el_s33 st' = hooke (lame_lambda E v) (lame_mu E v) (plane eps') 2%nat 2%nat.
Proof.
  intros HE Hv. induction incs as [|inc t IH]; intros st eps H1 H2 H3 H4 H5.
  - exists st. split; [reflexivity|]. cbv zeta.
    assert (Z : forall i j, eps i j + tsum [] i j = eps i j) by (intros; unfold tsum; simpl; lra).
    unfold kmf2. unfold hooke, trace, plane. cbn [rsum Nat.ltb Nat.leb andb]. rewrite !Z.
    rewrite H2, H4, H5. auto.
  - cbn [el_run]. unfold el_state_update. cbn [get_problem_type_parameters rbind Nat.eqb].
    rewrite mf2_2d. cbn [rbind]. unfold kmf2 at 1. rewrite to3d. cbn [rbind].
    rewrite H1, H3. unfold kmf2 at 1. rewrite to3d. cbn [rbind].
    unfold elastic_tangent_modulus. rewrite HE, Hv, iso_tangent_mf. cbn [rbind].
    set (eps1 := fun i j => eps i j + inc i j).
    assert (V : vadd [eps 0%nat 0%nat; eps 1%nat 1%nat; 0; sqrt 2 * eps 0%nat 1%nat; 0; 0]
              [inc 0%nat 0%nat; inc 1%nat 1%nat; 0; sqrt 2 * inc 0%nat 1%nat; 0; 0] = kmf (plane eps1)).
    { rewrite plane_kmf. unfold vadd, eps1. simpl.
      repeat match goal with |- cons _ _ = cons _ _ => apply f_equal2 | |- nil = nil => reflexivity end; ring. }
    rewrite V, hooke_kmf.
    change (vget_state_2Dmf_from_3Dmf (kmf (plane eps1))) with
      (Ok [plane eps1 0%nat 0%nat; plane eps1 1%nat 1%nat; sqrt 2 * plane eps1 0%nat 1%nat]). cbn [rbind].
    change (vget_state_2Dmf_from_3Dmf (kmf (hooke (lame_lambda E v) (lame_mu E v) (plane eps1)))) with
      (Ok (kmf2 (hooke (lame_lambda E v) (lame_mu E v) (plane eps1)))). cbn [rbind].
    change (vget_state_2Dmf_from_3Dmf_mat (iso_mf (lame_lambda E v) (2 * lame_mu E v))) with
      (Ok [[lame_lambda E v + 2 * lame_mu E v; lame_lambda E v; 0];
           [lame_lambda E v; lame_lambda E v + 2 * lame_mu E v; 0]; [0; 0; 2 * lame_mu E v]]).
    cbn [rbind fst]. 
    destruct (IH (EState (kmf2 eps1) (kmf2 eps1) (kmf2 (hooke (lame_lambda E v) (lame_mu E v) (plane eps1)))
       0 (hooke (lame_lambda E v) (lame_mu E v) (plane eps1) 2%nat 2%nat)) eps1)
      as (st' & R1 & R2 & R3 & R4 & R5); try reflexivity.
    exists st'. split; [exact R1|]. cbv zeta in *.
    assert (Q : forall i j, eps1 i j + tsum t i j = eps i j + tsum (inc :: t) i j)
      by (intros; rewrite tsum_cons; unfold eps1; ring).
    rewrite R2, R4, R5. unfold kmf2, hooke, trace, plane. cbn [rsum Nat.ltb Nat.leb andb].
    rewrite !Q. auto.
Qed.

Theorem elastic_path_independent_2d E v props incs :
  pget props PE = Some E -> pget props Pv = Some v -> Forall (symmetric 2) incs ->
  exists st0 st,
    el_state_init 1 = Ok st0 /\ el_run 1 Isotropic props incs st0 = Ok st /\
    vget_tensor_mf2 (tsum incs) 2 order_sym_2d true = Ok (el_strain st) /\
    vget_tensor_mf2 (hooke (lame_lambda E v) (lame_mu E v) (plane (tsum incs))) 2 order_sym_2d true
      = Ok (el_stress st) /\
    el_e33 st = 0 /\ el_s33 st = hooke (lame_lambda E v) (lame_mu E v) (plane (tsum incs)) 2%nat 2%nat.
Proof.
  intros HE Hv _.
  unfold el_state_init. cbn [get_problem_type_parameters rbind]. rewrite mf2_2d. cbn [rbind].
  destruct (el_run_2d E v props HE Hv incs (EState (kmf2 zero2) (kmf2 zero2) (kmf2 zero2) 0 0) zero2)
    as (st & R1 & R2 & R3 & R4 & R5); try reflexivity.
  { unfold kmf2, hooke, trace, plane, zero2. simpl.
    repeat match goal with |- cons _ _ = cons _ _ => apply f_equal2 | |- nil = nil => reflexivity end; ring. }
  { unfold hooke, trace, plane, zero2. simpl. ring. }
  cbv zeta in *.
  assert (Z : forall i j, zero2 i j + tsum incs i j = tsum incs i j) by (intros; unfold zero2; lra).
  eexists. exists st. split; [reflexivity|]. split; [exact R1|]. rewrite !mf2_2d, R2, R3, R4, R5.
  unfold kmf2, hooke, trace, plane. cbn [rsum Nat.ltb Nat.leb andb]. rewrite !Z. auto.
Qed.

(** Splitting the increments does not matter. *)
Corollary elastic_splitting E v props incs incs' :
  pget props PE = Some E -> pget props Pv = Some v ->
  Forall (symmetric 3) incs -> Forall (symmetric 3) incs' -> eq2 3 (tsum incs) (tsum incs') ->
  exists st0 st st', el_state_init 4 = Ok st0 /\
    el_run 4 Isotropic props incs st0 = Ok st /\ el_run 4 Isotropic props incs' st0 = Ok st' /\
    el_stress st = el_stress st' /\ el_strain st = el_strain st'.
Proof.
  intros HE Hv F F' Q.
  unfold el_state_init. cbn [get_problem_type_parameters rbind]. rewrite mf2_3d. cbn [rbind].
  assert (I0 : kmf zero2 = kmf (hooke (lame_lambda E v) (lame_mu E v) zero2)).
  { apply kmf_ext. intros i j _ _. unfold hooke, trace, zero2. simpl. ring. }
  destruct (el_run_3d E v props HE Hv incs (EState (kmf zero2) (kmf zero2) (kmf zero2) 0 0) zero2)
    as (st & R1 & _ & R3 & R4); try reflexivity; auto.
  destruct (el_run_3d E v props HE Hv incs' (EState (kmf zero2) (kmf zero2) (kmf zero2) 0 0) zero2)
    as (st' & R1' & _ & R3' & R4'); try reflexivity; auto.
  eexists. exists st, st'. split; [reflexivity|]. split; [exact R1|]. split; [exact R1'|].
  rewrite R3, R4, R3', R4'.
  assert (Q2 : forall i j, (i < 3)%nat -> (j < 3)%nat -> zero2 i j + tsum incs i j = zero2 i j + tsum incs' i j)
    by (intros; rewrite Q by auto; reflexivity).
  split; apply kmf_ext; intros i j Hi Hj; unfold hooke, trace; cbn [rsum]; rewrite ?Q2 by lia; reflexivity.
Qed.

(** ** Anisotropic symmetries *)
(** Stiffness tensor of a table of moduli indexed by component pairs. *)
Definition vcomp (i j : nat) : nat :=
  match i, j with
  | O, O => 0 | 1, 1 => 1 | 2, 2 => 2
  | O, 1 | 1, O => 3 | 1, 2 | 2, 1 => 4 | _, _ => 5
  end%nat.
Definition stiff (f : comp * comp -> R) : T4 := fun i j k l =>
  let p := vcomp i j in let q := vcomp k l in
  f (nth (Nat.min p q) order_sym_3d c11, nth (Nat.max p q) order_sym_3d c11).

Lemma assembled f :
  vget_tensor_mf4 (stiff f) 3 order_sym_3d true
  = Ok (fold_left (assemble_modulus f) (required_moduli Triclinic) (repeat (repeat 0 6) 6)).
Proof.
  unfold vget_tensor_mf4. replace (kelvin_flag 3 order_sym_3d true) with (Ok true) by reflexivity.
  cbn [rbind]. unfold order_sym_3d at 1 2. cbn. apply f_equal. unfold c11, c22, c33, c12, c13, c23.
  repeat match goal with |- cons _ _ = cons _ _ => apply f_equal2
    | |- nil = nil => reflexivity end; unfold kfac, stiff; simpl; ring.
Qed.

(** ** Technical constants *)
Theorem technical_constants_consistent a b :
  a + b <> 0 -> a - b <> 0 -> a + 2 * b <> 0 ->
  let props := [(PM c11 c11, a); (PM c11 c22, b)] in
  exists E v props' C,
    get_technical Isotropic props = Ok (E, v) /\
    elastic_init Isotropic props = Ok props' /\
    elastic_tangent_modulus props' Isotropic = Ok C /\
    elastic_tangent_modulus props Isotropic = Ok C /\
    lame_lambda E v = b /\ lame_lambda E v + 2 * lame_mu E v = a.
Proof.
  intros H1 H2 H3 props.
  set (E := (1 / (a + b)) * (a ^ 2 + a * b - 2 * b ^ 2)). set (v := b / (a + b)).
  assert (P1 : 1 + v = (a + 2 * b) / (a + b)) by (unfold v; field; auto).
  assert (P2 : 1 - 2 * v = (a - b) / (a + b)) by (unfold v; field; auto).
  assert (P3 : E = (a - b) * (a + 2 * b) / (a + b)) by (unfold E; field; auto).
  assert (L1 : lame_lambda E v = b).
  { unfold lame_lambda. rewrite P1, P2, P3. unfold v. field. auto. }
  assert (L2 : lame_mu E v = (a - b) / 2).
  { unfold lame_mu. rewrite P1, P3. field. auto. }
  exists E, v, ((PE, E) :: (Pv, v) :: props). eexists.
  split; [reflexivity|]. split; [reflexivity|]. split.
  { unfold elastic_tangent_modulus. cbn [pget pname_eqb]. apply iso_tangent_mf. }
  split; [|rewrite L1, L2; split; [auto|field]].
  unfold elastic_tangent_modulus, props. cbn [pget pname_eqb].
  rewrite L1, L2. change (moduli [(PM c11 c11, a); (PM c11 c22, b)] true (required_moduli Isotropic))
    with (Ok [((c11, c11), a); ((c11, c22), b)]). cbn [rbind]. rewrite <- assembled.
  unfold vget_tensor_mf4. replace (kelvin_flag 3 order_sym_3d true) with (Ok true) by reflexivity.
  cbn [rbind]. unfold order_sym_3d at 1 2. cbn [map]. unfold iso_mf. apply f_equal.
  assert (K : forall x, x * (sqrt 2 * sqrt 2) = 2 * x) by (intros; rewrite sqrt2_sq; ring).
  repeat match goal with |- cons _ _ = cons _ _ => apply f_equal2
    | |- nil = nil => reflexivity end; unfold kfac, stiff; simpl; try rewrite K; lra.
Qed.

Lemma vcomp_sym i j : vcomp i j = vcomp j i.
Proof. destruct i as [|[|[|i]]]; destruct j as [|[|[|j]]]; reflexivity. Qed.

Lemma stiff_minor f : minor_symmetric 3 (stiff f).
Proof.
  intros i j k l _ _ _ _. unfold stiff. rewrite (vcomp_sym j i), (vcomp_sym l k). auto.
Qed.
Lemma stiff_major f : major_symmetric 3 (stiff f).
Proof. intros i j k l _ _ _ _. unfold stiff. rewrite Nat.min_comm, Nat.max_comm. reflexivity. Qed.

Lemma moduli_ind props fl : forall l ms, moduli props fl l = Ok ms -> NoDup l ->
  forall cd, In cd l -> modulus props fl cd = Ok (ind ms cd).
Proof.
  induction l as [|a t IH]; intros ms H ND cd I; [destruct I|].
  simpl in H. destruct (modulus props fl a) as [x|] eqn:Ea; [|discriminate]. simpl in H.
  destruct (moduli props fl t) as [r|] eqn:Et; [|discriminate]. simpl in H. inversion H; subst ms.
  apply NoDup_cons_iff in ND. destruct ND as [NI ND]. cbn [ind].
  assert (CE : forall c d : comp, comp_eqb c d = true -> c = d).
  { intros [c1 c2] [d1 d2] E. unfold comp_eqb in E. simpl in E. apply andb_true_iff in E.
    destruct E as [E1 E2]. apply Nat.eqb_eq in E1, E2. subst. auto. }
  destruct I as [->|I].
  - assert (CR : forall c : comp, comp_eqb c c = true).
    { intros [c1 c2]. unfold comp_eqb. simpl. rewrite !Nat.eqb_refl. auto. }
    rewrite !CR. exact Ea.
  - destruct (comp_eqb (fst cd) (fst a) && comp_eqb (snd cd) (snd a)) eqn:Q.
    + apply andb_true_iff in Q. destruct Q as [Q1 Q2]. apply CE in Q1, Q2. exfalso. apply NI.
      destruct cd, a. simpl in *. subst. exact I.
    + apply (IH r); auto.
Qed.

Lemma required_nodup s : NoDup (required_moduli s).
Proof.
  destruct s; unfold required_moduli, c11, c22, c33, c12, c13, c23;
  repeat (apply NoDup_cons; [simpl; intros H; repeat (destruct H as [H|H]; [discriminate|]); exact H|]);
  apply NoDup_nil.
Qed.

Lemma all_moduli_required s ms cd : In cd (required_moduli s) -> all_moduli s ms cd = ind ms cd.
Proof.
  intros I. destruct s; simpl in I;
  repeat (destruct I as [<-|I]; [reflexivity|]); try destruct I.
Qed.

Definition energy_table (f : comp * comp -> R) (a b c d g h : R) : R :=
  f (c11, c11) * a * a + f (c22, c22) * b * b + f (c33, c33) * c * c
  + 2 * (f (c11, c22) * a * b + f (c11, c33) * a * c + f (c22, c33) * b * c)
  + 4 * (a * (f (c11, c12) * d + f (c11, c23) * g + f (c11, c13) * h)
       + b * (f (c22, c12) * d + f (c22, c23) * g + f (c22, c13) * h)
       + c * (f (c33, c12) * d + f (c33, c23) * g + f (c33, c13) * h))
  + 4 * (f (c12, c12) * d * d + f (c23, c23) * g * g + f (c13, c13) * h * h)
  + 8 * (f (c12, c23) * d * g + f (c12, c13) * d * h + f (c23, c13) * g * h).

Lemma energy_stiff f e : symmetric 3 e ->
  energy2 (stiff f) e = energy_table f (e 0 0)%nat (e 1 1)%nat (e 2 2)%nat (e 0 1)%nat (e 1 2)%nat (e 0 2)%nat.
Proof.
  intros S. unfold energy2, stiff. cbn [rsum]. cbn [vcomp Nat.min Nat.max nth order_sym_3d].
  rewrite (S 1 0)%nat, (S 2 0)%nat, (S 2 1)%nat by lia.
  unfold energy_table, c11, c22, c33, c12, c13, c23. ring.
Qed.

Lemma rotate_symmetric Q e : symmetric 3 e -> symmetric 3 (rotate Q e).
Proof.
  intros S i j Hi Hj. unfold rotate, mul2, transp. cbn [rsum].
  rewrite (S 1 0)%nat, (S 2 0)%nat, (S 2 1)%nat by lia. ring.
Qed.

Lemma reflect_invariant f e (a b c : bool) : symmetric 3 e ->
  f (c11, c23) = 0 -> f (c11, c13) = 0 -> f (c22, c23) = 0 -> f (c22, c13) = 0 ->
  f (c33, c23) = 0 -> f (c33, c13) = 0 -> f (c12, c23) = 0 -> f (c12, c13) = 0 ->
  (a = b \/ (f (c11, c12) = 0 /\ f (c22, c12) = 0 /\ f (c33, c12) = 0 /\ f (c23, c13) = 0)) ->
  energy2 (stiff f) (rotate (reflect a b c) e) = energy2 (stiff f) e.
Proof.
  intros S Z1 Z2 Z3 Z4 Z5 Z6 Z7 Z8 D. rewrite !energy_stiff by (auto; apply rotate_symmetric; auto).
  unfold energy_table. rewrite Z1, Z2, Z3, Z4, Z5, Z6, Z7, Z8.
  destruct D as [<-|(Y1 & Y2 & Y3 & Y4)]; [destruct a, c|rewrite Y1, Y2, Y3, Y4; destruct a, b, c];
  unfold rotate, mul2, transp, reflect; cbn [rsum Nat.eqb]; simpl; ring.
Qed.

Lemma reflect_invariant' f e (b c : bool) : symmetric 3 e ->
  f (c11, c23) = 0 -> f (c11, c13) = 0 -> f (c22, c23) = 0 -> f (c22, c13) = 0 ->
  f (c33, c23) = 0 -> f (c33, c13) = 0 -> f (c12, c23) = 0 -> f (c12, c13) = 0 ->
  energy2 (stiff f) (rotate (reflect b b c) e) = energy2 (stiff f) e.
Proof. intros. apply reflect_invariant; auto. Qed.

Lemma rot3_invariant f e c s : symmetric 3 e -> c * c + s * s = 1 ->
  f (c11, c23) = 0 -> f (c11, c13) = 0 -> f (c22, c23) = 0 -> f (c22, c13) = 0 ->
  f (c33, c23) = 0 -> f (c33, c13) = 0 -> f (c12, c23) = 0 -> f (c12, c13) = 0 ->
  f (c11, c12) = 0 -> f (c22, c12) = 0 -> f (c33, c12) = 0 -> f (c23, c13) = 0 ->
  f (c22, c22) = f (c11, c11) -> f (c22, c33) = f (c11, c33) -> f (c23, c23) = f (c13, c13) ->
  f (c12, c12) = 5 / 10 * (f (c11, c11) - f (c11, c22)) ->
  energy2 (stiff f) (rotate (rot3 c s) e) = energy2 (stiff f) e.
Proof.
  intros S CS Z1 Z2 Z3 Z4 Z5 Z6 Z7 Z8 Y1 Y2 Y3 Y4 X1 X2 X3 X4.
  rewrite !energy_stiff by (auto; apply rotate_symmetric; auto).
  unfold energy_table. rewrite Z1, Z2, Z3, Z4, Z5, Z6, Z7, Z8, Y1, Y2, Y3, Y4, X1, X2, X3, X4.
  set (e' := rotate (rot3 c s) e).
  assert (CC : c * c = 1 - s * s) by lra.
  assert (S10 : e 1%nat 0%nat = e 0%nat 1%nat) by (apply S; lia).
  assert (S20 : e 2%nat 0%nat = e 0%nat 2%nat) by (apply S; lia).
  assert (S21 : e 2%nat 1%nat = e 1%nat 2%nat) by (apply S; lia).
  assert (I1 : e' 0%nat 0%nat + e' 1%nat 1%nat = e 0%nat 0%nat + e 1%nat 1%nat).
  { unfold e', rotate, mul2, transp, rot3. cbn [rsum]. rewrite S10. ring [CC]. }
  assert (I2 : e' 2%nat 2%nat = e 2%nat 2%nat).
  { unfold e', rotate, mul2, transp, rot3. cbn [rsum]. ring. }
  assert (I3 : e' 1%nat 2%nat * e' 1%nat 2%nat + e' 0%nat 2%nat * e' 0%nat 2%nat
             = e 1%nat 2%nat * e 1%nat 2%nat + e 0%nat 2%nat * e 0%nat 2%nat).
  { unfold e', rotate, mul2, transp, rot3. cbn [rsum]. ring [CC]. }
  assert (I4 : e' 0%nat 1%nat * e' 0%nat 1%nat - e' 0%nat 0%nat * e' 1%nat 1%nat
             = e 0%nat 1%nat * e 0%nat 1%nat - e 0%nat 0%nat * e 1%nat 1%nat).
  { unfold e', rotate, mul2, transp, rot3. cbn [rsum]. rewrite S10. ring [CC]. }
  clearbody e'.
  replace (e' 0%nat 0%nat) with (e 0%nat 0%nat + e 1%nat 1%nat - e' 1%nat 1%nat) in * by lra.
  rewrite I2.
  set (a := f (c11, c11)). set (b := f (c11, c22)). set (d := f (c11, c33)). set (g := f (c13, c13)).
  transitivity (a * ((e 0%nat 0%nat + e 1%nat 1%nat) * (e 0%nat 0%nat + e 1%nat 1%nat))
    + 2 * (a - b) * (e' 0%nat 1%nat * e' 0%nat 1%nat
         - (e 0%nat 0%nat + e 1%nat 1%nat - e' 1%nat 1%nat) * e' 1%nat 1%nat)
    + f (c33, c33) * e 2%nat 2%nat * e 2%nat 2%nat
    + 2 * d * (e 0%nat 0%nat + e 1%nat 1%nat) * e 2%nat 2%nat
    + 4 * g * (e' 1%nat 2%nat * e' 1%nat 2%nat + e' 0%nat 2%nat * e' 0%nat 2%nat)); [field|].
  rewrite I3, I4. field.
Qed.

Lemma trace_mul_comm n a b : trace n (mul2 n a b) = trace n (mul2 n b a).
Proof.
  unfold trace, mul2. rewrite rsum_swap. apply rsum_ext. intros i Hi. apply rsum_ext. intros. ring.
Qed.
Lemma trace_ext n a b : eq2 n a b -> trace n a = trace n b.
Proof. intros Q. unfold trace. apply rsum_ext. intros i Hi. apply Q; auto. Qed.

Lemma mul2_ident_l3 a : eq2 3 (mul2 3 ident a) a.
Proof.
  intros i j Hi Hj. unfold mul2, ident. destruct i as [|[|[|i]]]; try lia; simpl; ring.
Qed.

Lemma rotate_trace Q e : orthogonal Q -> trace 3 (rotate Q e) = trace 3 e.
Proof.
  intros O. unfold rotate. rewrite trace_mul_comm. apply trace_ext.
  intros i j Hi Hj. rewrite <- mul2_assoc by auto.
  rewrite (mul2_ext 3 (mul2 3 (transp Q) Q) ident e e) by (auto; intros ? ? ? ?; reflexivity).
  apply mul2_ident_l3; auto.
Qed.

Lemma rotate_square Q e : orthogonal Q ->
  eq2 3 (mul2 3 (rotate Q e) (rotate Q e)) (rotate Q (mul2 3 e e)).
Proof.
  intros O. unfold rotate.
  assert (R0 : forall a : T2, eq2 3 a a) by (intros a i j _ _; reflexivity).
  assert (TR : forall a b c : T2, eq2 3 a b -> eq2 3 b c -> eq2 3 a c).
  { intros a b c A B i j Hi Hj. rewrite A by auto. apply B; auto. }
  assert (SY : forall a b : T2, eq2 3 a b -> eq2 3 b a) by (intros a b A i j Hi Hj; rewrite A by auto; auto).
  set (QT := transp Q) in *.
  eapply TR. { apply mul2_assoc. }
  eapply TR.
  { apply mul2_ext; [apply R0|]. eapply TR; [apply SY, mul2_assoc|].
    apply mul2_ext; [|apply R0]. eapply TR; [apply SY, mul2_assoc|].
    eapply TR; [apply mul2_ext; [exact O|apply R0]|]. apply mul2_ident_l3. }
  eapply TR; [apply SY, mul2_assoc|].
  apply mul2_ext; [|apply R0]. apply mul2_assoc.
Qed.

Lemma orthogonal_invariant f e Q : symmetric 3 e -> orthogonal Q ->
  f (c11, c23) = 0 -> f (c11, c13) = 0 -> f (c22, c23) = 0 -> f (c22, c13) = 0 ->
  f (c33, c23) = 0 -> f (c33, c13) = 0 -> f (c12, c23) = 0 -> f (c12, c13) = 0 ->
  f (c11, c12) = 0 -> f (c22, c12) = 0 -> f (c33, c12) = 0 -> f (c23, c13) = 0 ->
  f (c22, c22) = f (c11, c11) -> f (c33, c33) = f (c11, c11) ->
  f (c11, c33) = f (c11, c22) -> f (c22, c33) = f (c11, c22) ->
  f (c23, c23) = f (c12, c12) -> f (c13, c13) = f (c12, c12) ->
  f (c12, c12) = 5 / 10 * (f (c11, c11) - f (c11, c22)) ->
  energy2 (stiff f) (rotate Q e) = energy2 (stiff f) e.
Proof.
  intros S O Z1 Z2 Z3 Z4 Z5 Z6 Z7 Z8 Y1 Y2 Y3 Y4 X1 X2 X3 X4 X5 X6 X7.
  assert (K : forall e, symmetric 3 e -> energy2 (stiff f) e
     = f (c11, c22) * (trace 3 e * trace 3 e) + (f (c11, c11) - f (c11, c22)) * trace 3 (mul2 3 e e)).
  { clear e S. intros e S. rewrite energy_stiff by auto. unfold energy_table.
    rewrite Z1, Z2, Z3, Z4, Z5, Z6, Z7, Z8, Y1, Y2, Y3, Y4, X1, X2, X3, X4, X5, X6, X7.
    unfold trace, mul2. cbn [rsum]. rewrite (S 1 0)%nat, (S 2 0)%nat, (S 2 1)%nat by lia. field. }
  rewrite (K e S), (K _ (rotate_symmetric Q e S)).
  rewrite (trace_ext 3 _ _ (rotate_square Q e O)), !rotate_trace by auto. reflexivity.
Qed.

(** The symmetry group of each class. *)
Definition group (s : symmetry) (Q : T2) : Prop :=
  match s with
  | Isotropic => orthogonal Q
  | TransverseIsotropic =>
      (exists c s, c * c + s * s = 1 /\ Q = rot3 c s) \/ (exists a b c, Q = reflect a b c)
  | Orthotropic => exists a b c, Q = reflect a b c
  | Monoclinic => exists a c, Q = reflect a a c
  | Triclinic => exists a, Q = reflect a a a
  end.

Theorem tangent_has_material_symmetry props s C :
  (s = Isotropic -> pget props PE = None \/ pget props Pv = None) ->
  elastic_tangent_modulus props s = Ok C ->
  exists C4, minor_symmetric 3 C4 /\ major_symmetric 3 C4 /\
    vget_tensor_mf4 C4 3 order_sym_3d true = Ok C /\
    (forall c d, In (c, d) (required_moduli s) ->
       pget props (PM c d) = Some (C4 (row c) (col c) (row d) (col d))) /\
    (forall Q, group s Q -> invariant C4 Q).
Proof.
  intros NI H.
  assert (exists ms, moduli props true (required_moduli s) = Ok ms /\
     C = fold_left (assemble_modulus (all_moduli s ms)) (required_moduli Triclinic) (repeat (repeat 0 6) 6)).
  { unfold elastic_tangent_modulus in H.
    destruct s.
    1: destruct (NI eq_refl) as [E|E]; rewrite E in H; try (destruct (pget props PE)).
    all: destruct (moduli props true _) as [ms|]; [|discriminate]; cbn [rbind] in H;
         apply (f_equal (fun r => match r with Ok x => x | Err _ => C end)) in H; cbv beta iota in H;
         exists ms; split; [reflexivity|symmetry; exact H]. }
  destruct H0 as (ms & EM & ->).
  exists (stiff (all_moduli s ms)). split; [apply stiff_minor|]. split; [apply stiff_major|].
  split; [apply assembled|]. split.
  - intros c d I.
    pose proof (moduli_ind props true _ _ EM (required_nodup s) (c, d) I) as M.
    unfold modulus in M. cbn [fst snd] in M.
    destruct (pget props (PM c d)) as [x|]; [|discriminate]. f_equal.
    assert (x = ind ms (c, d)) as -> by congruence.
    rewrite <- (all_moduli_required s ms (c, d) I).
    unfold stiff. destruct s; simpl in I;
      repeat (destruct I as [I|I]; [injection I as <- <-; reflexivity|]); destruct I.
  - intros Q G e S. destruct s; simpl in G.
    + apply orthogonal_invariant; auto.
    + destruct G as [(c & s & CS & ->)|(a & b & c & ->)].
      * apply rot3_invariant; auto.
      * apply reflect_invariant; auto 10.
    + destruct G as (a & b & c & ->). apply reflect_invariant; auto 10.
    + destruct G as (a & c & ->). apply reflect_invariant'; auto 10.
    + destruct G as (a & ->). rewrite !energy_stiff by (auto; apply rotate_symmetric; auto).
      unfold rotate, mul2, transp, reflect, energy_table; cbn [rsum Nat.eqb]; destruct a; simpl; ring.
Qed.

(** The constructor only accepts isotropic materials. *)
Theorem anisotropic_constructor_raises s props : s <> Isotropic ->
  elastic_init s props = Err RuntimeError.
Proof. intros N. destruct s; try reflexivity. congruence. Qed.

(** Naming the symmetric modulus E2211 instead of E1122 is not accepted,
    although the lookup is meant to accept it. *)
Theorem symmetric_modulus_name_refuted :
  exists props : list (pname * R),
    pget props (PM c11 c11) = Some 3 /\ pget props (PM c22 c11) = Some 1 /\
    elastic_init Isotropic props = Err RuntimeError /\
    elastic_tangent_modulus props Isotropic = Err RuntimeError.
Proof.
  exists [(PM c11 c11, 3); (PM c22 c11, 1)].
  split; [reflexivity|]. split; [reflexivity|]. split; reflexivity.
Qed.

(** ** Concrete cases *)
Definition ex_props : list (pname * R) := [(PE, 5/2); (Pv, 1/4)].
Definition ex_inc (x : R) : T2 := fun i j => if Nat.eqb i j then x else 2 * x.
Example ex_elastic : exists st0 st eps sig,
    el_state_init 4 = Ok st0 /\ el_run 4 Isotropic ex_props [ex_inc 1; ex_inc 2] st0 = Ok st /\
    vget_tensor_from_mf2 (el_strain st) 3 order_sym_3d true = Ok eps /\
    vget_tensor_from_mf2 (el_stress st) 3 order_sym_3d true = Ok sig /\
    eps 0%nat 1%nat = 6 /\ sig 0%nat 0%nat = 15 /\ sig 0%nat 1%nat = 12.
Proof.
  destruct (elastic_path_independent_3d (5/2) (1/4) ex_props [ex_inc 1; ex_inc 2])
    as (st0 & st & eps & sig & H1 & H2 & H3 & H4 & H5 & H6); try reflexivity.
  { repeat constructor; intros i j _ _; unfold ex_inc; rewrite (Nat.eqb_sym i j); reflexivity. }
  exists st0, st, eps, sig. repeat (split; [assumption|]).
  rewrite H4, !H6 by lia. unfold tsum, hooke, trace, ident, tsum, ex_inc, lame_lambda, lame_mu. simpl.
  split; [lra|]. split; field.
Qed.

Example ex_technical : exists E v, get_technical Isotropic [(PM c11 c11, 3); (PM c11 c22, 1)] = Ok (E, v)
  /\ E = 5 / 2 /\ v = 1 / 4.
Proof. eexists. eexists. split; [reflexivity|]. simpl. split; field. Qed.

Example ex_transverse : exists C,
  elastic_tangent_modulus [(PM c11 c11, 7); (PM c33 c33, 5); (PM c11 c22, 3); (PM c11 c33, 2); (PM c23 c23, 4)]
    TransverseIsotropic = Ok C /\ nth 2 (nth 1 C []) 0 = 2 /\ nth 3 (nth 3 C []) 0 = 4 /\ nth 4 (nth 4 C []) 0 = 8.
Proof.
  eexists. split; [reflexivity|]. cbn. pose proof sqrt2_sq. repeat split; nra.
Qed.
