(** Theorems about the vectorised forward propagation. *)
From Coq Require Import Reals List Arith ZArith Lia Lra Bool.
From Verif Require Import Lib MatrixModel MatrixSpec MatrixProofs MatrixProps TensorModel TensorSpec ElementModel QuadratureModel
  GradientModel GradientSpec GradientProps MeshModel MeshSpec MeshProps ScalerModel LossModel LossProps
  ForwardModel ForwardSpec ForwardProofs ForwardProps RcModel ResponseProps VForwardModel.
Import ListNotations.
Local Open Scope R_scope.

Notation rstate := (list R * list R)%type.

(** ** Storage *)
Lemma store_build n order arr : sym_order n order -> length arr = length order ->
  vbuild_tensor_from_comps n order arr = Ok (vbuild order arr) /\ symmetric n (vbuild order arr) /\
  vstore_tensor_comps order (vbuild order arr) = arr.
Proof.
  intros SO L. destruct (vbuild_reads n order arr SO L) as (Sy & St).
  split; [|split; auto].
  - unfold vbuild_tensor_from_comps. rewrite (sym_index_total_sym n order SO). cbn [negb].
    rewrite L, Nat.ltb_irrefl. reflexivity.
  - unfold vstore_tensor_comps. apply nth_ext with (d := 0) (d' := 0); rewrite map_length; [auto|].
    intros k Hk. rewrite (nth_map_default _ (0, 0)%nat) by auto. destruct St as [_ St]. symmetry. apply St.
    apply nth_error_nth'; auto.
Qed.

Lemma row_ok n order a b : sym_order n order -> (length order <= length a)%nat -> (length order <= length b)%nat ->
  exists st, recurrent_row n order (a, b) = Ok st /\
    exists t, vget_tensor_from_mf2 (snd st) n order true = Ok t /\ vget_stress_vmf t n order = Ok (firstn (length order) b).
Proof.
  intros SO La Lb. unfold recurrent_row. cbn [fst snd].
  assert (L1 : length (firstn (length order) a) = length order) by (rewrite firstn_length; lia).
  assert (L2 : length (firstn (length order) b) = length order) by (rewrite firstn_length; lia).
  destruct (store_build n order _ SO L1) as (B1 & S1 & _). destruct (store_build n order _ SO L2) as (B2 & S2 & T2').
  rewrite B1, B2. cbn [rbind].
  destruct (mf2_roundtrip_sym_vectorised n order true _ SO S1) as (m1 & t1 & M1 & _).
  destruct (mf2_roundtrip_sym_vectorised n order true _ SO S2) as (m2 & t2 & M2 & F2 & Q2).
  rewrite M1, M2. cbn [rbind]. eexists. split; [reflexivity|]. cbn [snd].
  exists t2. split; auto. unfold vget_stress_vmf. f_equal. rewrite <- T2' at 1. unfold vstore_tensor_comps.
  apply map_ext_in. intros c I. destruct (row_lt n c) as (R1 & C1); [apply SO; auto|]. apply Q2; auto.
Qed.

(** ** One Gauss point *)
Lemma gp_strain_local n order el c X u : gp_strain n order el c X u
  = rbind (vcompute_local_strain n order el c X u) (fun r => Ok (fst (fst r))).
Proof.
  unfold gp_strain, vcompute_local_strain, vcompute_local_gradient.
  destruct (eval_shapefun_deriv el X c) as [r|e]; [|reflexivity]. cbn [rbind].
  destruct (vbuild_discrete_sym_gradient _ _ _ order) as [B|e]; [|reflexivity]. cbn [rbind snd].
  destruct (vget_strain_from_vmf _ n order); reflexivity.
Qed.

Lemma mapM_rbind {A B C} (f : A -> res B) (g : B -> C) l :
  mapM (fun x => rbind (f x) (fun y => Ok (g y))) l = rbind (mapM f l) (fun r => Ok (map g r)).
Proof.
  induction l as [|x l IH]; [reflexivity|]. cbn [mapM]. destruct (f x) as [y|e]; [|reflexivity]. cbn [rbind].
  rewrite IH. destruct (mapM f l); reflexivity.
Qed.
Lemma mapM_ext {A B} (f g : A -> res B) l : (forall x, In x l -> f x = g x) -> mapM f l = mapM g l.
Proof.
  induction l as [|x l IH]; intros H; [reflexivity|]. cbn [mapM]. rewrite (H x) by (left; auto).
  rewrite IH by (intros; apply H; right; auto). reflexivity.
Qed.
Lemma mapM_map {A B C} (f : B -> res C) (g : A -> B) l : mapM f (map g l) = mapM (fun x => f (g x)) l.
Proof. induction l as [|x l IH]; [reflexivity|]. cbn [mapM map]. rewrite IH. reflexivity. Qed.
Lemma mapM_pure {A B} (f : A -> res B) (g : A -> B) l : (forall x, In x l -> f x = Ok (g x)) -> mapM f l = Ok (map g l).
Proof.
  induction l as [|x l IH]; intros H; [reflexivity|]. cbn [mapM map]. rewrite (H x) by (left; auto). cbn [rbind].
  rewrite IH by (intros; apply H; right; auto). reflexivity.
Qed.
Lemma mapM_Forall2 {A B} (f : A -> res B) l r : mapM f l = Ok r <-> Forall2 (fun x y => f x = Ok y) l r.
Proof.
  revert r. induction l as [|x l IH]; intros r; cbn [mapM].
  - split; [intros H; inversion H; constructor|intros H; inversion H; reflexivity].
  - destruct (f x) as [y|e] eqn:E; cbn [rbind].
    + destruct (mapM f l) as [ys|e] eqn:M; cbn [rbind].
      * split; [intros H; inversion H; subst; constructor; auto; apply IH; auto|].
        intros H; inversion H; subst. assert (y = y0) by congruence. subst. apply IH in H4. congruence.
      * split; [discriminate|]. intros H; inversion H; subst. apply IH in H4. discriminate.
    + split; [discriminate|]. intros H; inversion H; congruence.
Qed.
Lemma mapM_len {A B} (f : A -> res B) l r : mapM f l = Ok r -> length r = length l.
Proof. intros H. apply mapM_Forall2 in H. induction H; simpl; congruence. Qed.

(** A model that keeps the number of time steps and returns at least the
    components of the stress. *)
Definition sequence_model (k : nat) (cm : list (list R) -> list (list R)) : Prop :=
  forall rows, length (cm rows) = length rows /\ forall r, In r (cm rows) -> (k <= length r)%nat.

(** What both modes compute at a Gauss point, given the strains, determinants
    and operators [g] of the history. *)
Definition point_features (order : list comp) (g : list (T2 * R * T2)) : list (list R) :=
  map (fun r => vstore_tensor_comps order (fst (fst r))) g.
Definition point_forces (order : list comp) (w : R) (outs : list (list R)) (g : list (T2 * R * T2)) : list (nat -> R) :=
  map (fun q => vcompute_local_internal_forces (length order) (firstn (length order) (fst q)) (snd (snd q)) (snd (fst (snd q))) w)
      (combine outs g).

Section Point.
  Variable cm : list (list R) -> list (list R).
  Variables (n : nat) (order : list comp).
  Hypothesis SO : sym_order n order.
  Hypothesis CM : sequence_model (length order) cm.
  Variables (el : element) (gps : rule).

  Definition rfe : felem rstate := Build_felem rstate el gps (recurrent_material cm n order).
  Notation outs g := (cm (point_features order g)).

  Lemma update_ok strains : exists states, recurrent_material_state_update cm n order strains = Ok states /\
    length states = length strains /\
    forall i b, nth_error (cm (map (vstore_tensor_comps order) strains)) i = Some b ->
      exists st t, nth_error states i = Some st /\ vget_tensor_from_mf2 (snd st) n order true = Ok t /\
        vget_stress_vmf t n order = Ok (firstn (length order) b).
  Proof.
    unfold recurrent_material_state_update. set (fin := map (vstore_tensor_comps order) strains).
    destruct (CM fin) as (L & W). rewrite L, Nat.ltb_irrefl.
    assert (WI : forall a, In a fin -> length a = length order).
    { intros a I. unfold fin in I. apply in_map_iff in I. destruct I as (t & <- & _). unfold vstore_tensor_comps. apply map_length. }
    assert (LF : length fin = length strains) by (unfold fin; apply map_length).
    rewrite <- LF. generalize dependent (cm fin). intros fo L W. clear LF. revert fo L W WI. generalize fin. clear fin. intros fin.
    induction fin as [|a fin IH]; intros [|b fo] L W WI; try discriminate.
    - exists []. split; [reflexivity|]. split; [reflexivity|]. intros [|i] b E; discriminate.
    - cbn [combine mapM]. injection L as L.
      destruct (row_ok n order a b SO) as (st & R1 & t & T1 & T2'); [rewrite WI; [auto|left; auto]|apply W; left; auto|].
      destruct (IH fo L) as (sts & E & Ls & N); [intros; apply W; right; auto|intros; apply WI; right; auto|].
      rewrite R1, E. cbn [rbind]. exists (st :: sts). split; [reflexivity|]. split; [simpl; congruence|].
      intros [|i] b' Q; cbn [nth_error] in *; [inversion Q; subst; eauto|]. apply N; auto.
  Qed.

  Lemma gp_force_ok cw X u e d B st t s : vcompute_local_strain n order el (fst cw) X u = Ok (e, d, B) ->
    vget_tensor_from_mf2 (snd st) n order true = Ok t -> vget_stress_vmf t n order = Ok s ->
    gp_force rstate snd n order el cw (X, st) = Ok (vcompute_local_internal_forces (length order) s B d (snd cw)).
  Proof.
    intros V T1 T2'. unfold gp_force. cbn [fst snd]. rewrite T1. cbn [rbind]. rewrite T2'. cbn [rbind].
    unfold vcompute_local_strain, vcompute_local_gradient in V.
    destruct (eval_shapefun_deriv el X (fst cw)) as [r|]; [|discriminate]. cbn [rbind] in *.
    destruct (vbuild_discrete_sym_gradient _ _ _ order) as [B0|]; [|discriminate]. cbn [rbind fst snd] in *.
    destruct (vget_strain_from_vmf _ n order); [|discriminate]. cbn [rbind] in V. inversion V; subst. reflexivity.
  Qed.

  Lemma seq_point cw st0 hist : match mapM (fun h => vcompute_local_strain n order el (fst cw) (fst (fst h)) (snd (fst h))) hist with
    | Err _ => forall r, gp_hist rstate snd Infinitesimal n order rfe cw st0 hist <> Ok r
    | Ok g => exists states, gp_hist rstate snd Infinitesimal n order rfe cw st0 hist
                = Ok (point_forces order (snd cw) (outs g) g, states) /\ length states = length hist
    end.
  Proof.
    unfold gp_hist, rfe. cbn [fe_mat fe_el recurrent_material].
    rewrite (mapM_ext _ (fun h => rbind (vcompute_local_strain n order el (fst cw) (fst (fst h)) (snd (fst h))) (fun r => Ok (fst (fst r)))))
      by (intros; apply gp_strain_local).
    rewrite mapM_rbind. destruct (mapM _ hist) as [g|e] eqn:M; cbn [rbind]; [|intros r H; discriminate].
    destruct (update_ok (map (fun r => fst (fst r)) g)) as (states & U & L & N). rewrite U.
    rewrite map_map in N. fold (point_features order g) in N. rewrite map_length in L.
    pose proof (mapM_len _ _ _ M) as LG.
    exists states. split; [|congruence].
    assert (LO : length (outs g) = length g).
    { destruct (CM (point_features order g)) as (E & _). rewrite E. unfold point_features. apply map_length. }
    apply mapM_Forall2 in M.
    assert (G : mapM (gp_force rstate snd n order el cw) (combine (map (fun h => fst (fst h)) hist) states)
                = Ok (point_forces order (snd cw) (outs g) g)).
    { unfold point_forces. clear U LG. generalize dependent (outs g). intros fo N LO. revert states fo L N LO.
      induction M as [|h gr hist g E M IH]; intros states fo L N LO.
      - destruct states; [|discriminate]. destruct fo; [reflexivity|discriminate].
      - destruct states as [|st states]; [discriminate|]. destruct fo as [|b fo]; [discriminate|]. cbn [combine map mapM].
        destruct (N 0%nat b eq_refl) as (st' & t & E0 & T1 & T2'). injection E0 as <-.
        destruct gr as [[e d] B]. rewrite (gp_force_ok cw _ _ e d B st t _ E T1 T2'). cbn [rbind fst snd].
        rewrite (IH states fo); [reflexivity| | |]; simpl in *; try lia.
        intros i b' Q. destruct (N (S i) b' Q) as (s & t' & A & A2 & A3). eauto. }
    rewrite G. reflexivity.
  Qed.

  (** Without normalisation of the features. *)
  Lemma vec_point cw hist : hist <> [] ->
    vcompute_local_internal_forces_hist cm None None Infinitesimal n order el cw hist false None
    = rbind (mapM (fun h => vcompute_local_strain n order el (fst cw) (fst h) (snd h)) hist) (fun g =>
      Ok (point_forces order (snd cw) (outs g) g,
          map (fun ab => firstn (length order) (fst ab) ++ firstn (length order) (snd ab)) (combine (point_features order g) (outs g)))).
  Proof.
    intros NE. unfold vcompute_local_internal_forces_hist. destruct (mapM _ hist) as [g|e] eqn:M; [|reflexivity]. cbn [rbind].
    assert (GN : g <> []) by (pose proof (mapM_len _ _ _ M); destruct hist, g; try discriminate; congruence).
    unfold vrecurrent_material_state_update. rewrite !map_map. cbn [fst apply_rows].
    change (map (fun x => vstore_tensor_comps order (fst (fst x))) g) with (point_features order g).
    destruct (CM (point_features order g)) as (LO & W).
    replace (match map (fun x => fst (fst x)) g with [] => Err RuntimeError | _ :: _ => _ end)
      with (if negb (Nat.eqb (length (outs g)) (length (point_features order g))) then Err RuntimeError
        else Ok (map (fun ab => firstn (length order) (fst ab) ++ firstn (length order) (snd ab)) (combine (point_features order g) (outs g))))
      by (destruct g; [congruence|reflexivity]).
    rewrite LO, Nat.eqb_refl. cbn [negb rbind].
    assert (WI : forall a, In a (point_features order g) -> length a = length order).
    { intros a I. unfold point_features in I. apply in_map_iff in I. destruct I as (t & <- & _). apply map_length. }
    rewrite (mapM_map (stress_columns (length order))).
    rewrite (mapM_pure _ (fun ab => firstn (length order) (snd ab))).
    2:{ intros [a b] I. cbn [fst snd]. apply in_combine_l in I as Ia. apply in_combine_r in I as Ib. apply WI in Ia. apply W in Ib.
        unfold stress_columns. rewrite app_length, !firstn_length, Ia, Nat.min_id, (Nat.min_l _ _ Ib).
        destruct (Nat.ltb_spec (length order + length order) (2 * length order)); [lia|].
        rewrite (firstn_all2 a) by lia. rewrite skipn_app, Ia, Nat.sub_diag, (skipn_all2 a) by lia. cbn [skipn app].
        rewrite (firstn_all2 (firstn _ b)) by (rewrite firstn_length; lia). reflexivity. }
    cbn [rbind]. repeat f_equal. unfold point_forces.
    assert (LF : length (point_features order g) = length g) by (unfold point_features; apply map_length).
    rewrite LF in LO. clear M GN W WI CM. generalize dependent (outs g). intros fo LO. generalize dependent (point_features order g). intros fi LF.
    revert fi fo LF LO. induction g as [|r g IH]; intros fi fo LF LO; destruct fi, fo; try discriminate; [reflexivity|].
    cbn [combine map fst snd]. f_equal. apply IH; simpl in *; lia.
  Qed.
End Point.

(** ** One element *)
Lemma add_forces_nth a b t k : length a = length b -> nth t (add_forces a b) (fun _ => 0) k = nth t a (fun _ => 0) k + nth t b (fun _ => 0) k.
Proof.
  revert b t. induction a as [|x a IH]; intros [|y b] t L; try discriminate.
  - destruct t; simpl; lra.
  - destruct t; [reflexivity|]. simpl. apply IH. simpl in L. lia.
Qed.
Lemma add_forces_length a b : length a = length b -> length (add_forces a b) = length a.
Proof. intros L. unfold add_forces. rewrite map_length, combine_length. lia. Qed.

Lemma fold_forces T cs : forall accs, length accs = T -> Forall (fun c => length c = T) cs ->
  length (fold_left add_forces cs accs) = T /\
  forall t k, nth t (fold_left add_forces cs accs) (fun _ => 0) k
    = nth t accs (fun _ => 0) k + lsum (map (fun c => nth t c (fun _ => 0) k) cs).
Proof.
  induction cs as [|c cs IH]; intros accs L F; cbn [fold_left map lsum].
  - split; auto. intros. cbn. lra.
  - inversion F; subst. destruct (IH (add_forces accs c)) as (A & B); [rewrite add_forces_length; congruence|auto|].
    split; auto. intros t k. rewrite B, add_forces_nth by congruence. cbn. lra.
Qed.

Section Elem.
  Variable cm : list (list R) -> list (list R).
  Variables (pt n : nat) (order n_ipc : list comp).
  Hypothesis PT : get_problem_type_parameters pt = Ok (n, order, n_ipc).
  Hypothesis CM : sequence_model (length order) cm.
  Variables (el : element) (gps : rule).
  Notation rf := (rfe cm n order el gps).

  Lemma SO : sym_order n order.
  Proof. destruct (problem_type_orders _ _ _ _ PT). auto. Qed.

  (** Strains, determinants and operators at the points of the element. *)
  Definition grads (hist : list (T2 * T2)) (cw : list R * R) : res (list (T2 * R * T2)) :=
    mapM (fun h => vcompute_local_strain n order el (fst cw) (fst h) (snd h)) hist.
  Definition gpf (q : (list R * R) * list (T2 * R * T2)) : list (nat -> R) :=
    point_forces order (snd (fst q)) (cm (point_features order (snd q))) (snd q).
  (** Internal forces of the element at time [t]. *)
  Definition element_forces (G : list (list (T2 * R * T2))) (t k : nat) : R :=
    lsum (map (fun q => nth t (gpf q) (fun _ => 0) k) (combine gps G)).

  Lemma gpf_length q T : length (snd q) = T -> length (gpf q) = T.
  Proof.
    intros L. unfold gpf, point_forces. rewrite map_length, combine_length. destruct (CM (point_features order (snd q))) as (E & _).
    rewrite E. unfold point_features. rewrite map_length. lia.
  Qed.

  Lemma seq_points states_old hist3 : forall g i accs sth, length accs = length hist3 ->
    match mapM (grads (map fst hist3)) g with
    | Err _ => forall r, gp_hist_loop rstate snd Infinitesimal n order rf (combine (seq i (length g)) g) states_old hist3 accs sth <> Ok r
    | Ok G => exists sth', gp_hist_loop rstate snd Infinitesimal n order rf (combine (seq i (length g)) g) states_old hist3 accs sth
                = Ok (fold_left add_forces (map gpf (combine g G)) accs, sth ++ sth') /\
              Forall (fun s => length s = length hist3) sth'
    end.
  Proof.
    induction g as [|cw g IH]; intros i accs sth L.
    - cbn [mapM length seq combine gp_hist_loop map fold_left]. exists []. rewrite app_nil_r. split; [reflexivity|constructor].
    - cbn [mapM length seq combine gp_hist_loop fst snd].
      pose proof (seq_point cm n order SO CM el gps cw (match states_old with None => None | Some l => nth_error l i end) hist3) as P.
      unfold grads at 1. rewrite mapM_map.
      destruct (mapM _ hist3) as [gr|e] eqn:M; cbn [rbind].
      2:{ intros r H. destruct (gp_hist _ _ _ _ _ _ _ _ _) as [x|] eqn:Q; [|discriminate]. apply (P x). reflexivity. }
      destruct P as (states & P & LS). rewrite P. cbn [rbind fst snd].
      assert (LC : length (gpf (cw, gr)) = length hist3) by (apply gpf_length; cbn [snd]; apply (mapM_len _ _ _ M)).
      specialize (IH (S i) (add_forces accs (gpf (cw, gr))) (sth ++ [states])).
      rewrite add_forces_length in IH by congruence. specialize (IH L).
      destruct (mapM (grads (map fst hist3)) g) as [G|e]; cbn [rbind].
      + destruct IH as (sth' & E & F). exists (states :: sth'). split; [|constructor; auto].
        rewrite <- app_assoc in E. exact E.
      + exact IH.
  Qed.

  Lemma seq_element states_old hist3 :
    match mapM (grads (map fst hist3)) gps with
    | Err _ => forall r, compute_element_internal_forces_hist rstate snd Infinitesimal pt rf states_old hist3 <> Ok r
    | Ok G => exists fs sth, compute_element_internal_forces_hist rstate snd Infinitesimal pt rf states_old hist3 = Ok (fs, sth) /\
                length fs = length hist3 /\ Forall (fun s => length s = length hist3) sth /\
                forall t k, nth t fs (fun _ => 0) k = element_forces G t k
    end.
  Proof.
    unfold compute_element_internal_forces_hist. rewrite PT. cbn [rbind fe_rule rfe].
    pose proof (seq_points states_old hist3 gps 0 (map (fun _ _ => 0) hist3) [] (map_length _ _)) as P.
    destruct (mapM (grads (map fst hist3)) gps) as [G|e] eqn:M; [|exact P].
    destruct P as (sth & E & F). cbn [app] in E.
    assert (FL : Forall (fun c => length c = length hist3) (map gpf (combine gps G))).
    { apply mapM_Forall2 in M. clear E. induction M as [|cw gr l G Q M IH]; constructor; auto.
      apply gpf_length. cbn [snd]. unfold grads in Q. rewrite (mapM_len _ _ _ Q), map_length. reflexivity. }
    destruct (fold_forces (length hist3) _ (map (fun _ _ => 0) hist3) (map_length _ _) FL) as (A & B).
    eexists. exists sth. split; [exact E|]. split; [exact A|]. split; [exact F|].
    intros t k. rewrite B. unfold element_forces. rewrite map_map.
    replace (nth t (map (fun (_ : T2 * T2 * T2) (_ : nat) => 0) hist3) (fun _ => 0) k) with 0; [lra|].
    clear. revert t. induction hist3 as [|h l IH]; intros [|t]; cbn; auto.
  Qed.

  Lemma vec_element hist : hist <> [] ->
    vcompute_element_internal_forces_hist cm None None false Infinitesimal pt el gps hist
    = rbind (mapM (grads hist) gps) (fun G => Ok (map (element_forces G) (seq 0 (length hist)),
        map (fun g => map (fun ab => firstn (length order) (fst ab) ++ firstn (length order) (snd ab))
                          (combine (point_features order g) (cm (point_features order g)))) G)).
  Proof.
    intros NE. unfold vcompute_element_internal_forces_hist. rewrite PT. cbn [rbind].
    rewrite (mapM_ext _ (fun cw => rbind (grads hist cw) (fun g => Ok (gpf (cw, g),
       map (fun ab => firstn (length order) (fst ab) ++ firstn (length order) (snd ab)) (combine (point_features order g) (cm (point_features order g)))))))
      by (intros cw _; apply (vec_point cm n order CM el cw hist NE)).
    assert (E : mapM (fun cw => rbind (grads hist cw) (fun g => Ok (gpf (cw, g),
       map (fun ab => firstn (length order) (fst ab) ++ firstn (length order) (snd ab)) (combine (point_features order g) (cm (point_features order g)))))) gps
     = rbind (mapM (grads hist) gps) (fun G => Ok (map (fun q => (gpf q, map (fun ab => firstn (length order) (fst ab) ++ firstn (length order) (snd ab))
          (combine (point_features order (snd q)) (cm (point_features order (snd q)))))) (combine gps G)))).
    { generalize gps. intros g. induction g as [|cw g IH]; [reflexivity|]. cbn [mapM]. destruct (grads hist cw) as [x|]; [|reflexivity]. cbn [rbind].
      rewrite IH. destruct (mapM (grads hist) g); reflexivity. }
    rewrite E. destruct (mapM (grads hist) gps) as [G|] eqn:M; [|reflexivity]. cbn [rbind]. f_equal. f_equal.
    - apply map_ext. intros t. unfold element_forces. apply FunctionalExtensionality.functional_extensionality. intros k. rewrite map_map. reflexivity.
    - rewrite map_map. cbn [snd]. apply mapM_len in M. revert M. generalize gps G. clear. intros g G. revert g.
      induction G as [|x G IH]; intros [|cw g] L; try discriminate; [reflexivity|]. cbn [combine map fst snd]. f_equal. apply IH. simpl in L. lia.
  Qed.
End Elem.

(** ** The mesh *)
Section Whole.
  Variable cm : list (list R) -> list (list R).
  Variables (pt n_dim : nat) (order n_ipc : list comp).
  Hypothesis PT : get_problem_type_parameters pt = Ok (n_dim, order, n_ipc).
  Hypothesis CM : sequence_model (length order) cm.
  Variables (el : element) (gps : rule).
  Variable conn : list (list Z).
  Variables n_node n_time : nat.
  Variable coords : list (list R).
  Variable disps : nat -> list (list R).
  Variable reaction : nat -> T2.
  Variable bc : nat -> labels.
  Variable norm : option (list R * list R).
  Variable weights : nat -> R.
  (** A mesh of one element type: labels of nodes in range, one row per node. *)
  Hypothesis NE : conn <> [].
  Hypothesis NT : n_time <> O.
  Hypothesis HC : forall nodes, In nodes conn -> nodes <> [] /\ labels_in_range n_node nodes /\ length nodes = el_n_node el.
  Hypothesis ED : el_n_dim el = n_dim.
  Hypothesis HX : nodal_array n_node n_dim coords.
  Hypothesis HU : forall t, nodal_array n_node n_dim (disps t).

  Notation rf := (rfe cm n_dim order el gps).
  Definition gath (rows : list (list R)) (nodes : list Z) : list (list R) :=
    map (fun x => nth (Z.to_nat x - 1) rows []) nodes.
  Definition ehist (nodes : list Z) : list (T2 * T2) :=
    map (fun t => (rows_fun (gath coords nodes), rows_fun (gath (disps t) nodes))) (seq 0 n_time).
  (** Gradients at all points of an element over time. *)
  Definition egrads (nodes : list Z) : res (list (list (T2 * R * T2))) := mapM (grads n_dim order el (ehist nodes)) gps.
  Definition eforce (G : list (list (T2 * R * T2))) (t : nat) : list R :=
    map (element_forces cm order gps G t) (seq 0 (el_n_node el * el_n_dim el)).
  Definition mesh_force (els : list (list Z)) (Gs : list (list (list (T2 * R * T2)))) (t p d : nat) : R :=
    lsum (map (fun q => contribution n_dim (fst q) (eforce (snd q) t) p d) (combine els Gs)).

  Lemma gather_in rows nodes : length rows = n_node -> labels_in_range n_node nodes -> gather_rows rows nodes = Ok (gath rows nodes).
  Proof.
    intros L H. pose proof (element_configuration_value [nodes] rows 1 nodes [] eq_refl) as E.
    rewrite L in E. exact (E H).
  Qed.

  Lemma batched_ok nodes t : In nodes conn ->
    batched_config coords disps Infinitesimal nodes t = Ok (rows_fun (gath coords nodes), rows_fun (gath (disps t) nodes)).
  Proof.
    intros I. destruct (HC nodes I) as (_ & R1 & _). unfold batched_config.
    rewrite (gather_in (disps t)), (gather_in coords); auto; [apply HX|apply HU].
  Qed.

  Lemma config_ok nodes key t : conn_of conn key = Some nodes -> In nodes conn ->
    exists inc, element_config conn coords coords disps Infinitesimal t key
      = Ok (rows_fun (gath coords nodes), rows_fun (gath (disps t) nodes), inc).
  Proof.
    intros C I. destruct (HC nodes I) as (_ & R1 & _). unfold element_config, config_coords, get_element_configuration. rewrite C.
    rewrite (gather_in coords), (gather_in (disps t)), (gather_in (disps (time_idx_old t))); auto;
      try apply HX; try apply (HU t); try apply (HU (time_idx_old t)). cbn [rbind]. eexists. reflexivity.
  Qed.

  Lemma seq_hist nodes key : conn_of conn key = Some nodes -> In nodes conn ->
    exists hist3, mapM (fun t => element_config conn coords coords disps Infinitesimal t key) (seq 0 n_time) = Ok hist3 /\
      map fst hist3 = ehist nodes /\ length hist3 = n_time.
  Proof.
    intros C I. unfold ehist.
    enough (Z : forall ts, exists hist3, mapM (fun t => element_config conn coords coords disps Infinitesimal t key) ts = Ok hist3 /\
      map fst hist3 = map (fun t => (rows_fun (gath coords nodes), rows_fun (gath (disps t) nodes))) ts /\ length hist3 = length ts).
    { specialize (Z (seq 0 n_time)). rewrite seq_length in Z. exact Z. }
    induction ts as [|t ts (h & E & M & L)]; [exists []; auto|]. cbn [mapM map].
    destruct (config_ok nodes key t C I) as (inc & ->). rewrite E. cbn [rbind].
    eexists. split; [reflexivity|]. cbn [map fst length]. split; congruence.
  Qed.

  Definition meshes_ok (ms : list (list R)) : Prop := length ms = n_time /\ Forall (fun m => length m = (n_node * n_dim)%nat) ms.

  Lemma add_element key nodes : conn_of conn key = Some nodes -> In nodes conn ->
    forall ms fs, length ms = length fs -> Forall (fun m => length m = (n_node * n_dim)%nat) ms ->
    exists ms', add_element_forces rstate conn n_node key rf ms fs = Ok ms' /\ length ms' = length ms /\
      Forall (fun m => length m = (n_node * n_dim)%nat) ms' /\
      forall t p d, (t < length ms)%nat -> (p < n_node)%nat -> (d < n_dim)%nat ->
        nth (p * n_dim + d) (nth t ms' []) 0 = nth (p * n_dim + d) (nth t ms []) 0
          + contribution n_dim nodes (map (nth t fs (fun _ => 0)) (seq 0 (el_n_node el * el_n_dim el))) p d.
  Proof.
    intros C I. destruct (HC nodes I) as (NN & R1 & LN).
    induction ms as [|m ms IH]; intros [|f fs] L F; try discriminate.
    - exists []. cbn. repeat split; auto. intros; lia.
    - cbn [add_element_forces]. inversion F as [|? ? Lm Fms]; subst x l.
      destruct (assembly_value conn n_dim n_node [(key, force_list rstate rf f)]) as (a & A & La & Va).
      { discriminate. }
      { intros k x [Q|[]]. injection Q as <- <-. exists nodes. split; [exact C|]. split; [exact NN|]. split; [exact R1|].
        unfold force_list. rewrite map_length, seq_length. cbn [fe_el rfe]. congruence. }
      rewrite A. cbn [rbind].
      unfold add_lists. rewrite Lm, La, Nat.eqb_refl. cbn [rbind].
      destruct (IH fs) as (ms' & E & Ls & Fs & V); [simpl in L; lia|auto|]. rewrite E. cbn [rbind].
      eexists. split; [reflexivity|]. split; [simpl; congruence|]. split.
      { constructor; auto. rewrite map_length, combine_length. lia. }
      intros [|t] p d Ht Hp Hd; cbn [nth].
      + rewrite (ladd_nth m a) by congruence. rewrite Va by auto. cbn [map lsum fold_right fst snd]. rewrite C. cbn. unfold force_list. cbn [fe_el rfe]. lra.
      + apply V; auto. simpl in Ht. lia.
  Qed.

  Lemma last_ok sth : Forall (fun s : list rstate => length s = n_time) sth -> exists l, last_states rstate n_time sth = Ok l.
  Proof.
    intros F. unfold last_states. destruct n_time as [|m]; [congruence|].
    induction F as [|s sth L F (l & IH)]; [exists []; reflexivity|]. cbn [mapM].
    destruct (nth_error s m) as [x|] eqn:E; [|apply nth_error_None in E; lia]. cbn [rbind]. rewrite IH. cbn [rbind]. eauto.
  Qed.

  Lemma seq_loop : forall suf pre sts ms, conn = pre ++ suf -> length sts = length suf -> meshes_ok ms ->
    match mapM egrads suf with
    | Err _ => forall r, element_loop rstate snd conn n_node coords coords disps Infinitesimal pt n_time (S (length pre)) (map (fun _ => rf) suf) sts ms <> Ok r
    | Ok Gs => exists ms' sts', element_loop rstate snd conn n_node coords coords disps Infinitesimal pt n_time (S (length pre)) (map (fun _ => rf) suf) sts ms = Ok (ms', sts') /\
        meshes_ok ms' /\
        forall t p d, (t < n_time)%nat -> (p < n_node)%nat -> (d < n_dim)%nat ->
          nth (p * n_dim + d) (nth t ms' []) 0 = nth (p * n_dim + d) (nth t ms []) 0 + mesh_force suf Gs t p d
    end.
  Proof.
    induction suf as [|nodes suf IH]; intros pre sts ms EC LS MO.
    - cbn [mapM map]. destruct sts; [|discriminate]. exists ms, []. split; [reflexivity|]. split; [auto|]. intros. unfold mesh_force. cbn. lra.
    - destruct sts as [|st sts]; [discriminate|]. cbn [mapM map element_loop].
      assert (I : In nodes conn) by (rewrite EC; apply in_or_app; right; left; auto).
      assert (C : conn_of conn (S (length pre)) = Some nodes).
      { cbn [conn_of]. rewrite EC, nth_error_app2, Nat.sub_diag by lia. reflexivity. }
      destruct (seq_hist nodes _ C I) as (hist3 & E3 & M3 & L3). rewrite E3. cbn [rbind].
      pose proof (seq_element cm pt n_dim order n_ipc PT CM el gps st hist3) as SE. rewrite M3 in SE. change (mapM (grads n_dim order el (ehist nodes)) gps) with (egrads nodes) in SE.
      destruct (egrads nodes) as [G|e] eqn:EG; cbn [rbind].
      2:{ intros r H. destruct (compute_element_internal_forces_hist _ _ _ _ _ _ _) as [x|] eqn:Q; [|discriminate]. apply (SE x). reflexivity. }
      destruct SE as (fs & sth & E & LF & FS & V). rewrite E. cbn [rbind fst snd]. rewrite L3 in *.
      destruct (last_ok sth FS) as (l & EL). rewrite EL. cbn [rbind].
      destruct MO as [Lm Fm].
      destruct (add_element _ nodes C I ms fs) as (ms1 & E1 & L1 & F1 & V1); [congruence|auto|]. rewrite E1. cbn [rbind].
      specialize (IH (pre ++ [nodes]) sts ms1). rewrite <- app_assoc in IH. specialize (IH EC).
      rewrite app_length, Nat.add_1_r in IH. injection LS as LS. specialize (IH LS (conj (eq_trans L1 Lm) F1)).
      destruct (mapM egrads suf) as [Gs|e]; cbn [rbind].
      + destruct IH as (ms' & sts' & E' & MO' & V'). rewrite E'. cbn [rbind fst snd]. exists ms', (Some l :: sts').
        split; [reflexivity|]. split; [exact MO'|]. intros t p d Ht Hp Hd. rewrite V' by auto. rewrite V1 by (auto; congruence).
        unfold mesh_force. cbn [combine map lsum fold_right fst snd]. unfold eforce.
        rewrite (map_ext (nth t fs (fun _ => 0)) (element_forces cm order gps G t)) by (intros; apply V). cbn. lra.
      + intros r H. destruct (element_loop _ _ _ _ _ _ _ _ _ _ _ _ _ _) as [x|] eqn:Q; [|discriminate]. apply (IH x). reflexivity.
  Qed.

  Lemma vec_elements : vcompute_elements_internal_forces_hist cm None None conn coords disps Infinitesimal pt n_time el gps
    = rbind (mapM egrads conn) (fun Gs => Ok (map (fun G => (map (element_forces cm order gps G) (seq 0 n_time),
        map (fun g => map (fun ab => firstn (length order) (fst ab) ++ firstn (length order) (snd ab))
                          (combine (point_features order g) (cm (point_features order g)))) G)) Gs)).
  Proof.
    unfold vcompute_elements_internal_forces_hist. rewrite <- mapM_rbind. apply mapM_ext. intros nodes I.
    rewrite (mapM_pure _ (fun t => (rows_fun (gath coords nodes), rows_fun (gath (disps t) nodes)))) by (intros; apply batched_ok; auto).
    cbn [rbind]. fold (ehist nodes).
    rewrite (vec_element cm pt n_dim order n_ipc PT CM el gps) by (unfold ehist; destruct n_time; [congruence|discriminate]).
    replace (length (ehist nodes)) with n_time by (unfold ehist; rewrite map_length, seq_length; reflexivity). reflexivity.
  Qed.

  Lemma same_ok : same_sizes conn = true.
  Proof.
    destruct conn as [|c l] eqn:E; [congruence|]. cbn. apply forallb_forall. intros x I. apply Nat.eqb_eq.
    destruct (HC x) as (_ & _ & ->); [right; auto|]. destruct (HC c) as (_ & _ & ->); [left; auto|]. reflexivity.
  Qed.

  Lemma vec_mesh Gs idx t : length Gs = length conn -> build_elements_mesh_indexing conn n_dim = Ok idx ->
    length (vassemble_internal_forces (map (fun G => eforce G t) Gs) idx n_node n_dim) = (n_node * n_dim)%nat /\
    forall p d, (p < n_node)%nat -> (d < n_dim)%nat ->
      nth (p * n_dim + d) (vassemble_internal_forces (map (fun G => eforce G t) Gs) idx n_node n_dim) 0 = mesh_force conn Gs t p d.
  Proof.
    intros LG EI.
    assert (W : forall i nodes, nth_error conn i = Some nodes -> nodes <> [] /\ labels_in_range n_node nodes /\
              length (nth i (map (fun G => eforce G t) Gs) []) = (length nodes * n_dim)%nat).
    { intros i nodes Q. destruct (HC nodes (nth_error_In _ _ Q)) as (A & B & D). split; [exact A|]. split; [exact B|].
      assert (i < length conn)%nat by (apply nth_error_Some; congruence).
      rewrite (nth_map_default _ []) by lia. unfold eforce. rewrite map_length, seq_length. congruence. }
    pose proof (vectorised_assembly conn n_dim n_node (map (fun G => eforce G t) Gs) idx NE ltac:(rewrite map_length; auto) EI W) as A.
    destruct (assembly_value conn n_dim n_node (combine (seq 1 (length conn)) (map (fun G => eforce G t) Gs))) as (r & E & L & V).
    - destruct conn; [congruence|]. destruct Gs; discriminate.
    - intros key a I. apply (In_nth _ _ (O, [])) in I. destruct I as (i & Hi & Q). rewrite combine_length, seq_length, map_length in Hi.
      rewrite combine_nth in Q by (rewrite seq_length, map_length; auto). injection Q as <- Q. rewrite seq_nth by lia. cbn [Nat.add conn_of].
      destruct (nth_error conn i) as [nodes|] eqn:N; [|apply nth_error_None in N; lia]. destruct (W i nodes N) as (W1 & W2 & W3).
      exists nodes. split; [reflexivity|]. split; [exact W1|]. split; [exact W2|]. rewrite <- Q. auto.
    - rewrite A in E. injection E as E. rewrite E. split; [exact L|]. intros p d Hp Hd. rewrite V by auto. unfold mesh_force. clear -LG.
      assert (Z : forall suf Gs pre, conn = pre ++ suf -> length Gs = length suf ->
        lsum (map (fun ka => match conn_of conn (fst ka) with Some nodes => contribution n_dim nodes (snd ka) p d | None => 0 end)
                  (combine (seq (S (length pre)) (length suf)) (map (fun G => eforce G t) Gs)))
        = lsum (map (fun q => contribution n_dim (fst q) (eforce (snd q) t) p d) (combine suf Gs))).
      { induction suf as [|nodes suf IH]; intros [|G Gs'] pre EC L; try discriminate; [reflexivity|].
        cbn [length seq map combine lsum fold_right fst snd].
        assert (C : conn_of conn (S (length pre)) = Some nodes).
        { cbn [conn_of]. rewrite EC, nth_error_app2, Nat.sub_diag by lia. reflexivity. }
        rewrite C. specialize (IH Gs' (pre ++ [nodes])). rewrite <- app_assoc, app_length, Nat.add_1_r in IH. cbn in IH |- *. rewrite IH; auto. }
      apply (Z conn Gs []); auto.
  Qed.

  Lemma hist_loss_ext int int' bcs : (forall t, (t < n_time)%nat -> int t = int' t) ->
    hist_loss norm n_node n_dim n_time weights int (fun _ _ _ => 0) reaction bcs
    = hist_loss norm n_node n_dim n_time weights int' (fun _ _ _ => 0) reaction bcs.
  Proof.
    intros H. unfold hist_loss. assert (G : forall l a, (forall t, In t l -> (t < n_time)%nat) ->
      fold_left (fun loss t => loss + weights t * force_equilibrium_loss norm n_node n_dim (int t) (fun _ _ => 0) (reaction t) bcs) l a
      = fold_left (fun loss t => loss + weights t * force_equilibrium_loss norm n_node n_dim (int' t) (fun _ _ => 0) (reaction t) bcs) l a).
    { induction l as [|t l IH]; intros a I; [reflexivity|]. cbn [fold_left]. rewrite (H t) by (apply I; left; auto). apply IH. intros; apply I; right; auto. }
    apply G. intros t I. apply in_seq in I. lia.
  Qed.

  (** The vectorised mode and the sequential one succeed together, with the
      same loss, for every sequence model whose features are not normalised. *)
  Theorem vforward_agrees sts v : length sts = length conn ->
    (exists states, forward_sequential_element rstate snd conn n_node coords coords disps reaction (bc O) norm weights
        Infinitesimal pt n_time (map (fun _ => rf) conn) sts = Ok (v, states)) <->
    (exists hist, vforward_sequential_element cm None None conn n_node coords disps reaction bc norm weights
        Pointwise 1 1 Infinitesimal pt n_time el gps = Ok (v, hist)).
  Proof.
    intros LS. unfold forward_sequential_element, vforward_sequential_element. rewrite PT. cbn [rbind fst snd Nat.ltb Nat.leb].
    unfold build_elements_mesh_indexing at 1. rewrite same_ok. cbn [rbind].
    pose proof (seq_loop conn [] sts (map (fun _ => repeat 0 (n_node * n_dim)) (seq 0 n_time)) eq_refl LS) as SL. cbn [length] in SL.
    assert (M0 : meshes_ok (map (fun _ => repeat 0 (n_node * n_dim)) (seq 0 n_time))).
    { split; [rewrite map_length, seq_length; auto|]. apply Forall_forall. intros m I. apply in_map_iff in I. destruct I as (? & <- & _). apply repeat_length. }
    specialize (SL M0). rewrite vec_elements.
    destruct (mapM egrads conn) as [Gs|e] eqn:MG; cbn [rbind].
    - destruct SL as (ms & sts' & E & MO & V). rewrite E. cbn [rbind fst snd].
      rewrite vectorised_hist_loss. cbn [rbind].
      rewrite ED.
      assert (Q : hist_loss norm n_node n_dim n_time weights (fun t => mesh_fun n_dim (nth t ms [])) (fun _ _ _ => 0) reaction (bc O)
        = hist_loss norm n_node n_dim n_time weights
          (fun t => mesh_fun n_dim (vassemble_internal_forces (map (fun r => map (nth t (fst r) (fun _ => 0)) (seq 0 (el_n_node el * n_dim)))
             (map (fun G => (map (element_forces cm order gps G) (seq 0 n_time),
                map (fun g => map (fun ab => firstn (length order) (fst ab) ++ firstn (length order) (snd ab))
                          (combine (point_features order g) (cm (point_features order g)))) G)) Gs))
             (map (fun c => build_element_mesh_indexing c n_dim) conn) n_node n_dim)) (fun _ _ _ => 0) reaction (bc O)).
      { apply hist_loss_ext. intros t Ht. f_equal. rewrite map_map. cbn [fst].
        rewrite (map_ext (fun G => map (nth t (map (element_forces cm order gps G) (seq 0 n_time)) (fun _ => 0)) (seq 0 (el_n_node el * n_dim))) (fun G => eforce G t)).
        2:{ intros G. unfold eforce. rewrite ED. rewrite (nth_map_default _ O) by (rewrite seq_length; auto). rewrite seq_nth by auto. reflexivity. }
        destruct MO as [L1 F1].
        destruct (vec_mesh Gs (map (fun c => build_element_mesh_indexing c n_dim) conn) t) as (LV & VV).
        { apply (mapM_len _ _ _ MG). }
        { unfold build_elements_mesh_indexing. rewrite same_ok. reflexivity. }
        apply (blocks_ext n_dim n_node).
        - rewrite Forall_forall in F1. apply F1, nth_In. lia.
        - exact LV.
        - intros p d Hp Hd. rewrite VV, V by auto. rewrite (nth_map_default _ O) by (rewrite seq_length; auto). rewrite nth_repeat0. lra. }
      rewrite Q. split; intros (x & X); inversion X; eauto.
    - split; intros (x & X); [|discriminate]. exfalso.
      destruct (element_loop _ _ _ _ _ _ _ _ _ _ _ _ _ _) as [y|] eqn:Y; [|discriminate]. apply (SL y). reflexivity.
  Qed.
End Whole.

Print Assumptions vforward_agrees.
