(** Theorems about the local strain-stress paths of the material model finder. *)
From Coq Require Import Reals List Arith ZArith Lia Lra Bool Permutation.
From Verif Require Import Lib MatrixModel MatrixSpec MatrixProofs MatrixProps TensorModel TensorSpec ElementModel QuadratureModel
  GradientModel GradientSpec GradientProps MeshModel ScalerModel LossModel LossProps
  ForwardModel ForwardSpec RcModel ResponseProps ForwardProps VForwardModel VForwardProps LocalPathsModel.
Import ListNotations.
Local Open Scope R_scope.

(** ** Specification *)

(** Components of a tensor in the given order, read off entry by entry. *)
Definition comps_of (order : list comp) (t : T2) : list R :=
  map (fun c => t (Nat.pred (fst c)) (Nat.pred (snd c))) order.

(** The path of a Gauss point with strains [eps t] and stresses [sig t]. *)
Definition is_path (order : list comp) (times : list R) (eps sig : nat -> T2) (p : path) : Prop :=
  strain_comps_order p = order /\ stress_comps_order p = order /\
  strain_path p = map (fun t => comps_of order (eps t)) (seq 0 (length times)) /\
  stress_path p = map (fun t => comps_of order (sig t)) (seq 0 (length times)) /\
  path_times p = map (fun t => [t]) times.

(** Element index [e] (label e+1) is asked for. *)
Definition asked (sel : option (list Z)) (e : nat) : bool :=
  match sel with
  | None => true
  | Some l => if in_dec Z.eq_dec (Z.of_nat e + 1)%Z l then true else false
  end.

(** The points of the elements [es], in order. *)
Definition points (ng : nat -> nat) (es : list nat) : list (nat * nat) :=
  flat_map (fun e => map (fun j => (e, j)) (seq 0 (ng e))) es.

Lemma selected_asked sel e : selected sel (S e) = asked sel e.
Proof.
  destruct sel as [l|]; [|reflexivity]. cbn [selected asked].
  destruct (existsb _ l) eqn:E.
  - apply existsb_exists in E. destruct E as (z & I & Q). apply Z.eqb_eq in Q.
    destruct (in_dec _ _ _) as [_|N]; auto. exfalso. apply N. replace (Z.of_nat e + 1)%Z with z by lia. auto.
  - destruct (in_dec _ _ _) as [I|N]; auto. exfalso.
    assert (X : existsb (Z.eqb (Z.of_nat (S e))) l = true).
    { apply existsb_exists. eexists. split; [exact I|]. apply Z.eqb_eq. lia. }
    congruence.
Qed.

Lemma comps_of_store order t : vstore_tensor_comps order t = comps_of order t.
Proof. apply map_ext. intros c. unfold row, col. rewrite !Nat.sub_1_r. reflexivity. Qed.

Lemma comps_of_eq n order t t' : sym_order n order -> eq2 n t t' -> comps_of order t = comps_of order t'.
Proof.
  intros SO E. apply map_ext_in. intros c I. destruct SO as (_ & C & _). specialize (C c I).
  unfold comp_in in C. apply E; lia.
Qed.

(** ** Sequential mode *)
Section Seq.
  Variables (pt n : nat) (order osn : list comp).
  Hypothesis PT : get_problem_type_parameters pt = Ok (n, order, osn).
  Variable times : list R.

  Lemma pt_sym : sym_order n order.
  Proof. destruct (problem_type_orders pt n order osn PT) as (H & _). exact H. Qed.

  (** A stored state: the matricial forms of a strain and a stress tensor. *)
  Definition stores (st : list R * list R) (e s : T2) : Prop :=
    symmetric n e /\ symmetric n s /\
    vget_tensor_mf2 e n order true = Ok (fst st) /\ vget_tensor_mf2 s n order true = Ok (snd st).

  Lemma local_row_stores st e s : stores st e s -> local_row n order st = Ok (comps_of order e, comps_of order s).
  Proof.
    intros (S1 & S2 & M1 & M2). unfold local_row.
    destruct (mf2_roundtrip_sym_vectorised n order true e pt_sym S1) as (m & t & A & B & C).
    rewrite M1 in A. injection A as <-. rewrite B. cbn [rbind].
    destruct (mf2_roundtrip_sym_vectorised n order true s pt_sym S2) as (m' & t' & A' & B' & C').
    rewrite M2 in A'. injection A' as <-. rewrite B'. cbn [rbind]. rewrite !comps_of_store.
    rewrite (comps_of_eq n order t e pt_sym C), (comps_of_eq n order t' s pt_sym C'). reflexivity.
  Qed.

  Definition the_path (eps sig : nat -> T2) : path :=
    Path order (map (fun t => comps_of order (eps t)) (seq 0 (length times)))
         order (map (fun t => comps_of order (sig t)) (seq 0 (length times))) (map (fun t => [t]) times).
  Lemma the_path_is eps sig p : is_path order times eps sig p <-> p = the_path eps sig.
  Proof.
    unfold is_path, the_path. destruct p; cbn. split.
    - intros (-> & -> & -> & -> & ->). reflexivity.
    - intros H. injection H. intros -> -> -> -> ->. auto 10.
  Qed.

  Lemma element_paths ng hist eps sig :
    (forall j t, (j < ng)%nat -> (t < length times)%nat -> exists states st,
       nth_error hist t = Some states /\ nth_error states j = Some st /\ stores st (eps j t) (sig j t)) ->
    build_element_local_samples Infinitesimal pt ng times hist
    = Ok (map (fun j => the_path (eps j) (sig j)) (seq 0 ng)).
  Proof.
    intros H. unfold build_element_local_samples. rewrite PT. cbn [rbind].
    apply mapM_pure. intros j J. apply in_seq in J.
    assert (E : mapM (local_row_at n order hist j) (seq 0 (length times))
      = Ok (map (fun t => (comps_of order (eps j t), comps_of order (sig j t))) (seq 0 (length times)))).
    { apply mapM_pure. intros t T. apply in_seq in T. unfold local_row_at.
      destruct (H j t) as (states & st & -> & -> & ST); [lia..|]. apply local_row_stores; auto. }
    rewrite E. cbn [rbind]. rewrite !map_map. reflexivity.
  Qed.

  Lemma concat_pick {A} (f : nat -> list A) (b : nat -> bool) l :
    concat (map (fun e => if b e then f e else []) l) = flat_map f (filter b l).
  Proof. induction l as [|x l IH]; [reflexivity|]. cbn. rewrite IH. destruct (b x); reflexivity. Qed.

  Lemma sequential_exact sel elements eps sig :
    (forall e ng hist, nth_error elements e = Some (ng, hist) ->
       forall j t, (j < ng)%nat -> (t < length times)%nat -> exists states st,
       nth_error hist t = Some states /\ nth_error states j = Some st /\ stores st (eps e j t) (sig e j t)) ->
    sequential_local_samples Infinitesimal pt sel times elements
    = Ok (map (fun ej => the_path (eps (fst ej) (snd ej)) (sig (fst ej) (snd ej)))
              (points (fun e => fst (nth e elements (O, []))) (filter (asked sel) (seq 0 (length elements))))).
  Proof.
    intros H. unfold sequential_local_samples.
    assert (E : mapM (fun ie : nat * (nat * list (list (list R * list R))) =>
        if selected sel (S (fst ie))
        then build_element_local_samples Infinitesimal pt (fst (snd ie)) times (snd (snd ie)) else Ok [])
        (combine (seq 0 (length elements)) elements)
      = Ok (map (fun ie : nat * (nat * list (list (list R * list R))) => if asked sel (fst ie) then
          map (fun j => the_path (eps (fst ie) j) (sig (fst ie) j)) (seq 0 (fst (snd ie))) else [])
          (combine (seq 0 (length elements)) elements))).
    { apply mapM_pure. intros (e & (ng & hist)) I. cbn [fst snd]. rewrite selected_asked.
      destruct (asked sel e); [|reflexivity]. apply element_paths.
      apply H. apply (In_nth _ _ (O, (O, []))) in I. destruct I as (k & K & N).
      rewrite combine_length, seq_length in K. rewrite Nat.min_id in K. rewrite combine_nth in N by apply seq_length.
      injection N as N1 N2. rewrite seq_nth in N1 by auto. cbn in N1. subst e.
      rewrite <- N2. apply nth_error_nth'. auto. }
    rewrite E. cbn [rbind]. f_equal. clear E H.
    assert (C : combine (seq 0 (length elements)) elements
                = map (fun e => (e, nth e elements (O, []))) (seq 0 (length elements))).
    { apply nth_ext with (d := (O, (O, []))) (d' := (O, (O, []))).
      - rewrite combine_length, map_length, seq_length. lia.
      - intros k K. rewrite combine_length, seq_length, Nat.min_id in K.
        rewrite combine_nth by apply seq_length.
        rewrite (nth_map_default _ O) by (rewrite seq_length; auto). rewrite seq_nth by auto. reflexivity. }
    rewrite C, map_map. cbn [fst snd]. rewrite concat_pick. unfold points.
    induction (filter _ _) as [|x l IH]; [reflexivity|]. cbn [flat_map]. rewrite map_app, map_map. cbn [fst snd].
    rewrite IH. reflexivity.
  Qed.

  (** ** Vectorised mode *)
  Lemma py_index_label {A} (l : list A) (d : A) z : (1 <= z <= Z.of_nat (length l))%Z ->
    py_index l (z - 1) = Ok (nth (Z.to_nat (z - 1)) l d).
  Proof.
    intros H. unfold py_index. destruct (Z.ltb_spec (z - 1) 0); [lia|].
    destruct (Z.ltb_spec (z - 1) 0); [lia|]. rewrite (nth_error_nth' l d) by lia. reflexivity.
  Qed.

  Definition wanted (sel : option (list Z)) (n_elem : nat) : list nat :=
    match sel with None => seq 0 n_elem | Some l => map (fun z => Z.to_nat (z - 1)) l end.

  Lemma vectorised_exact sel hist ng eps sig :
    (forall z, In z (match sel with None => [] | Some l => l end) -> (1 <= z <= Z.of_nat (length hist))%Z) ->
    (forall e, (e < length hist)%nat -> length (nth e hist []) = ng) ->
    (forall e j, (e < length hist)%nat -> (j < ng)%nat ->
       nth j (nth e hist []) [] = map (fun t => comps_of order (eps e j t) ++ comps_of order (sig e j t)) (seq 0 (length times))) ->
    build_elements_local_samples Infinitesimal pt sel times hist
    = Ok (map (fun ej => the_path (eps (fst ej) (snd ej)) (sig (fst ej) (snd ej)))
              (points (fun _ => ng) (wanted sel (length hist)))).
  Proof.
    intros HS HG HR. unfold build_elements_local_samples. rewrite PT. cbn [rbind].
    assert (E : mapM (py_index hist) (match sel with Some l => map (fun x => (x - 1)%Z) l
        | None => map Z.of_nat (seq 0 (length hist)) end)
      = Ok (map (fun e => nth e hist []) (wanted sel (length hist)))).
    { destruct sel as [l|]; cbn [wanted].
      - rewrite mapM_map, map_map. apply mapM_pure. intros z I. apply py_index_label. auto.
      - rewrite mapM_map. apply mapM_pure. intros e I. apply in_seq in I.
        pose proof (py_index_label hist [] (Z.of_nat e + 1)%Z) as P.
        replace (Z.of_nat e + 1 - 1)%Z with (Z.of_nat e) in P by lia. rewrite Nat2Z.id in P. apply P. lia. }
    rewrite E. cbn [rbind]. f_equal. clear E.
    assert (W : forall e, In e (wanted sel (length hist)) -> (e < length hist)%nat).
    { intros e I. destruct sel as [l|]; cbn [wanted] in I.
      - apply in_map_iff in I. destruct I as (z & <- & Iz). specialize (HS z Iz). lia.
      - apply in_seq in I. lia. }
    unfold points. clear HS. induction (wanted sel (length hist)) as [|e l IH]; [reflexivity|].
    cbn [map flat_map]. rewrite map_app, IH by (intros; apply W; right; auto). f_equal.
    assert (L : (e < length hist)%nat) by (apply W; left; auto). rewrite map_map. cbn [fst snd].
    apply nth_ext with (d := Path [] [] [] [] []) (d' := Path [] [] [] [] []).
    - rewrite !map_length, seq_length. auto.
    - intros j J. rewrite map_length, HG in J by auto.
      rewrite (nth_map_default _ ([] : list (list R))) by (rewrite HG; auto).
      rewrite (nth_map_default _ O) by (rewrite seq_length; auto). rewrite seq_nth by auto. cbn [Nat.add].
      rewrite HR by auto. unfold the_path. rewrite !map_map.
      f_equal; apply map_ext; intros t.
      + assert (LC : length order = length (comps_of order (eps e j t))) by (unfold comps_of; rewrite map_length; auto).
        rewrite LC at 1. rewrite firstn_app, Nat.sub_diag, firstn_O, app_nil_r. apply firstn_all.
      + assert (LC : length order = length (comps_of order (eps e j t))) by (unfold comps_of; rewrite map_length; auto).
        rewrite LC at 2. rewrite skipn_app, Nat.sub_diag, skipn_O, skipn_all. cbn [app].
        assert (LC' : length order = length (comps_of order (sig e j t))) by (unfold comps_of; rewrite map_length; auto).
        rewrite LC'. apply firstn_all.
  Qed.
End Seq.

(** ** What each mode stores *)

(** The sequential mode stores the paths of the asked elements in the order of
    the mesh, each once, in the order of its Gauss points. *)
Theorem sequential_paths_law pt n order osn times sel elements eps sig :
  get_problem_type_parameters pt = Ok (n, order, osn) ->
  (forall e ng hist, nth_error elements e = Some (ng, hist) ->
     forall j t, (j < ng)%nat -> (t < length times)%nat -> exists states st,
     nth_error hist t = Some states /\ nth_error states j = Some st /\
     symmetric n (eps e j t) /\ symmetric n (sig e j t) /\
     vget_tensor_mf2 (eps e j t) n order true = Ok (fst st) /\
     vget_tensor_mf2 (sig e j t) n order true = Ok (snd st)) ->
  exists ps, sequential_local_samples Infinitesimal pt sel times elements = Ok ps /\
    Forall2 (fun ej p => is_path order times (eps (fst ej) (snd ej)) (sig (fst ej) (snd ej)) p)
      (points (fun e => fst (nth e elements (O, []))) (filter (asked sel) (seq 0 (length elements)))) ps.
Proof.
  intros PT H. eexists. split; [apply (sequential_exact pt n order osn PT); exact H|].
  induction (points _ _) as [|x l IH]; cbn [map]; constructor; auto.
  apply the_path_is. reflexivity.
Qed.

(** The vectorised mode stores them in the order they are asked for. *)
Theorem vectorised_paths_law pt n order osn times sel hist ng eps sig :
  get_problem_type_parameters pt = Ok (n, order, osn) ->
  (forall z, In z (match sel with None => [] | Some l => l end) -> (1 <= z <= Z.of_nat (length hist))%Z) ->
  (forall e, (e < length hist)%nat -> length (nth e hist []) = ng) ->
  (forall e j, (e < length hist)%nat -> (j < ng)%nat ->
     nth j (nth e hist []) [] = map (fun t => comps_of order (eps e j t) ++ comps_of order (sig e j t)) (seq 0 (length times))) ->
  exists ps, build_elements_local_samples Infinitesimal pt sel times hist = Ok ps /\
    Forall2 (fun ej p => is_path order times (eps (fst ej) (snd ej)) (sig (fst ej) (snd ej)) p)
      (points (fun _ => ng) (match sel with None => seq 0 (length hist)
                             | Some l => map (fun z => Z.to_nat (z - 1)) l end)) ps.
Proof.
  intros PT A B C. eexists. split; [apply (vectorised_exact pt n order osn PT) with (ng := ng); eassumption|].
  fold (wanted sel (length hist)).
  induction (points _ _) as [|x l IH]; cbn [map]; constructor; auto.
  apply the_path_is. reflexivity.
Qed.

(** A label beyond the mesh stops the vectorised mode. *)
Theorem vectorised_label_refused pt p times l hist z :
  get_problem_type_parameters pt = Ok p -> In z l ->
  (Z.of_nat (length hist) < z \/ z <= - Z.of_nat (length hist))%Z ->
  build_elements_local_samples Infinitesimal pt (Some l) times hist = Err IndexError.
Proof.
  intros PT I Z. unfold build_elements_local_samples. rewrite PT. destruct p as ((n & order) & osn). cbn [rbind].
  assert (E : mapM (py_index hist) (map (fun x => (x - 1)%Z) l) = Err IndexError).
  { clear PT. induction l as [|x l IH]; [destruct I|]. cbn [map mapM].
    assert (X : forall y, py_index hist y = Err IndexError \/ exists v, py_index hist y = Ok v).
    { intros y. unfold py_index. generalize (if (y <? 0)%Z then (y + Z.of_nat (length hist))%Z else y). intros y'.
      cbv zeta. destruct (y' <? 0)%Z; auto. destruct (nth_error _ _); eauto. }
    destruct (X (x - 1)%Z) as [->|(v & V)]; [reflexivity|]. rewrite V. cbn [rbind].
    destruct I as [->|I]; [|rewrite (IH I); reflexivity]. exfalso. unfold py_index in V.
    destruct (Z.ltb_spec (z - 1) 0).
    - destruct (Z.ltb_spec (z - 1 + Z.of_nat (length hist)) 0); [discriminate|]. lia.
    - destruct (Z.ltb_spec (z - 1) 0); [lia|].
      destruct (nth_error hist _) eqn:N; [|discriminate].
      assert (nth_error hist (Z.to_nat (z - 1)) <> None) as N' by congruence. apply nth_error_Some in N'. lia. }
  rewrite E. reflexivity.
Qed.

(** ** The two modes *)
Lemma filter_ext_in' {A} (f g : A -> bool) l : (forall x, In x l -> f x = g x) -> filter f l = filter g l.
Proof.
  induction l as [|x l IH]; intros H; [reflexivity|]. cbn. rewrite (H x) by (left; auto).
  rewrite IH by (intros; apply H; right; auto). reflexivity.
Qed.

Definition increasing (l : list Z) : Prop := forall i j a b, (i < j)%nat ->
  nth_error l i = Some a -> nth_error l j = Some b -> (a < b)%Z.
Lemma increasing_tail x l : increasing (x :: l) -> increasing l /\ forall y, In y l -> (x < y)%Z.
Proof.
  intros H. split.
  - intros i j a b L A B. apply (H (S i) (S j) a b); auto. lia.
  - intros y I. apply In_nth_error in I. destruct I as (k & K). apply (H O (S k) x y); auto. lia.
Qed.

Lemma asked_in l e : asked (Some l) e = true <-> In (Z.of_nat e + 1)%Z l.
Proof. cbn. destruct (in_dec _ _ _); split; auto; discriminate. Qed.

(** Asked labels that increase are met in the same order by the loop. *)
Lemma filter_increasing n : forall (s : nat) l, increasing l ->
  (forall z, In z l -> (Z.of_nat s + 1 <= z <= Z.of_nat s + Z.of_nat n)%Z) ->
  filter (asked (Some l)) (seq s n) = map (fun z => Z.to_nat (z - 1)) l.
Proof.
  induction n as [|n IH]; intros s l IN R.
  - destruct l as [|z l]; [reflexivity|]. exfalso. specialize (R z (or_introl eq_refl)). lia.
  - cbn [seq filter]. destruct (asked (Some l) s) eqn:A.
    + apply asked_in in A. destruct l as [|z l]; [destruct A|].
      destruct (increasing_tail z l IN) as (IN' & LT).
      assert (Q : z = (Z.of_nat s + 1)%Z).
      { destruct A as [A|A]; auto. specialize (LT _ A). specialize (R z (or_introl eq_refl)). lia. }
      cbn [map]. f_equal; [lia|].
      rewrite <- (IH (S s) l IN').
      * apply filter_ext_in'. intros x I. apply in_seq in I.
        destruct (asked (Some (z :: l)) x) eqn:E1, (asked (Some l) x) eqn:E2; auto; exfalso.
        -- apply asked_in in E1. destruct E1 as [E1|E1]; [lia|]. apply asked_in in E1. congruence.
        -- apply asked_in in E2. assert (E3 : asked (Some (z :: l)) x = true) by (apply asked_in; right; auto). congruence.
      * intros y I. specialize (LT y I). specialize (R y (or_intror I)). lia.
    + apply IH; auto. intros z I. specialize (R z I).
      assert (z <> Z.of_nat s + 1)%Z; [|lia]. intros ->.
      assert (asked (Some l) s = true) by (apply asked_in; auto). congruence.
Qed.

Lemma NoDup_Z_to_nat l : NoDup l -> (forall z, In z l -> (1 <= z)%Z) -> NoDup (map (fun z => Z.to_nat (z - 1)) l).
Proof.
  induction 1 as [|z l N ND IH]; intros R; cbn; constructor.
  - intros I. apply in_map_iff in I. destruct I as (y & Q & I). assert (y = z); [|subst; auto].
    pose proof (R y (or_intror I)). pose proof (R z (or_introl eq_refl)). lia.
  - apply IH. intros; apply R; right; auto.
Qed.

Lemma filter_permuted n l : NoDup l -> (forall z, In z l -> (1 <= z <= Z.of_nat n)%Z) ->
  Permutation (filter (asked (Some l)) (seq 0 n)) (map (fun z => Z.to_nat (z - 1)) l).
Proof.
  intros ND R. apply NoDup_Permutation.
  - apply NoDup_filter, seq_NoDup.
  - apply NoDup_Z_to_nat; auto. intros z I. specialize (R z I). lia.
  - intros e. rewrite filter_In, in_seq, asked_in, in_map_iff. split.
    + intros (_ & I). eexists. split; [|exact I]. lia.
    + intros (z & <- & I). specialize (R z I). split; [lia|].
      replace (Z.of_nat (Z.to_nat (z - 1)) + 1)%Z with z by lia. auto.
Qed.

Lemma points_perm ng l l' : Permutation l l' -> Permutation (points ng l) (points ng l').
Proof. intros P. apply Permutation_flat_map; auto. Qed.

Section Modes.
  Variables (pt n : nat) (order osn : list comp).
  Hypothesis PT : get_problem_type_parameters pt = Ok (n, order, osn).
  Variable cm : list (list R) -> list (list R).
  Hypothesis CM : sequence_model (length order) cm.
  Variable times : list R.
  Variables (n_elem ng : nat).
  Variable strains : nat -> nat -> list T2.
  Hypothesis LT : forall e j, length (strains e j) = length times.
  Hypothesis TS : times <> [].
  Variable states : nat -> nat -> list (list R * list R).
  Hypothesis SU : forall e j, (e < n_elem)%nat -> (j < ng)%nat ->
    recurrent_material_state_update cm n order (strains e j) = Ok (states e j).
  Variable rows : nat -> nat -> list (list R).
  Hypothesis VU : forall e j, (e < n_elem)%nat -> (j < ng)%nat ->
    vrecurrent_material_state_update cm None None order (strains e j) = Ok (rows e j).

  Definition seq_elements : list (nat * list (list (list R * list R))) :=
    map (fun e => (ng, map (fun t => map (fun j => nth t (states e j) ([], [])) (seq 0 ng)) (seq 0 (length times))))
        (seq 0 n_elem).
  Definition vec_hist : list (list (list (list R))) :=
    map (fun e => map (fun j => rows e j) (seq 0 ng)) (seq 0 n_elem).

  Notation so := (pt_sym pt n order osn PT).
  Definition in_row e j t := comps_of order (nth t (strains e j) zero2).
  Definition out_row e j t :=
    firstn (length order) (nth t (cm (map (vstore_tensor_comps order) (strains e j))) []).
  Definition eps_of e j t : T2 := vbuild order (in_row e j t).
  Definition sig_of e j t : T2 := vbuild order (out_row e j t).

  Lemma in_row_len e j t : length (in_row e j t) = length order.
  Proof. unfold in_row, comps_of. apply map_length. Qed.
  Lemma out_row_len e j t : (t < length times)%nat -> length (out_row e j t) = length order.
  Proof.
    intros H. unfold out_row. rewrite firstn_length.
    destruct (CM (map (vstore_tensor_comps order) (strains e j))) as (L & W). rewrite map_length, LT in L.
    specialize (W (nth t (cm (map (vstore_tensor_comps order) (strains e j))) [])).
    assert (In (nth t (cm (map (vstore_tensor_comps order) (strains e j))) [])
               (cm (map (vstore_tensor_comps order) (strains e j)))) by (apply nth_In; lia).
    specialize (W H0). lia.
  Qed.
  Lemma eps_comps e j t : comps_of order (eps_of e j t) = in_row e j t.
  Proof.
    rewrite <- comps_of_store. destruct (store_build n order (in_row e j t) so (in_row_len e j t)) as (_ & _ & Q). exact Q.
  Qed.
  Lemma sig_comps e j t : (t < length times)%nat -> comps_of order (sig_of e j t) = out_row e j t.
  Proof.
    intros H. rewrite <- comps_of_store.
    destruct (store_build n order (out_row e j t) so (out_row_len e j t H)) as (_ & _ & Q). exact Q.
  Qed.

  Lemma rows_are e j : (e < n_elem)%nat -> (j < ng)%nat ->
    rows e j = map (fun t => comps_of order (eps_of e j t) ++ comps_of order (sig_of e j t)) (seq 0 (length times)).
  Proof.
    intros He Hj. specialize (VU e j He Hj). unfold vrecurrent_material_state_update in VU.
    pose proof (LT e j) as L. destruct (strains e j) as [|s0 ss] eqn:Es.
    { destruct times; [contradiction|discriminate]. }
    rewrite <- Es in *. cbn [apply_rows] in VU. rewrite map_length in VU.
    destruct (CM (map (vstore_tensor_comps order) (strains e j))) as (LC & W). rewrite map_length in LC.
    rewrite LC, Nat.eqb_refl in VU. cbn [negb] in VU.
    assert (V : map (fun ab : list R * list R => firstn (length order) (fst ab) ++ firstn (length order) (snd ab))
       (combine (map (vstore_tensor_comps order) (strains e j)) (cm (map (vstore_tensor_comps order) (strains e j)))) = rows e j) by congruence.
    rewrite <- V. clear VU V.
    apply nth_ext with (d := [] ++ []) (d' := []).
    { rewrite !map_length, combine_length, seq_length, map_length. lia. }
    intros t T. rewrite map_length, combine_length, map_length in T.
    rewrite (nth_map_default _ ([], [])) by (rewrite combine_length, map_length; lia).
    rewrite combine_nth by (rewrite map_length; lia).
    rewrite (nth_map_default _ O) by (rewrite seq_length; lia). rewrite seq_nth by lia. cbn [Nat.add fst snd].
    rewrite eps_comps, sig_comps by lia. unfold in_row, out_row. f_equal.
    rewrite (nth_map_default _ zero2) by lia. rewrite comps_of_store.
    assert (Q : length order = length (comps_of order (nth t (strains e j) zero2)))
      by (unfold comps_of; rewrite map_length; auto).
    rewrite Q at 1. apply firstn_all.
  Qed.

  Lemma states_are e j t : (e < n_elem)%nat -> (j < ng)%nat -> (t < length times)%nat ->
    stores n order (nth t (states e j) ([], [])) (eps_of e j t) (sig_of e j t).
  Proof.
    intros He Hj Ht. specialize (SU e j He Hj). unfold recurrent_material_state_update in SU.
    destruct (CM (map (vstore_tensor_comps order) (strains e j))) as (LC & W).
    rewrite LC, Nat.ltb_irrefl in SU. apply mapM_Forall2 in SU.
    rewrite map_length, LT in LC.
    assert (N : recurrent_row n order (in_row e j t, nth t (cm (map (vstore_tensor_comps order) (strains e j))) [])
                = Ok (nth t (states e j) ([], []))).
    { revert SU. generalize (states e j). intros st F.
      assert (LF : length st = length times).
      { clear -F LC LT. assert (Q : length (combine (map (vstore_tensor_comps order) (strains e j))
          (cm (map (vstore_tensor_comps order) (strains e j)))) = length st) by (induction F; cbn; congruence).
        rewrite combine_length, map_length, LT in Q. lia. }
      assert (G : forall A B (Rr : A -> B -> Prop) l r k da db, Forall2 Rr l r -> (k < length l)%nat -> Rr (nth k l da) (nth k r db)).
      { intros A B Rr l r k da db FF. revert k. induction FF; intros [|k] K; cbn in *; try lia; auto. apply IHFF. lia. }
      specialize (G _ _ _ _ _ t ([], []) ([], []) F). rewrite combine_nth in G by (rewrite map_length, LT; lia).
      rewrite combine_length, map_length, LT in G. rewrite (nth_map_default _ zero2) in G by (rewrite LT; lia).
      rewrite comps_of_store in G. apply G. lia. }
    unfold recurrent_row in N. cbn [fst snd] in N.
    assert (F1 : firstn (length order) (in_row e j t) = in_row e j t).
    { rewrite <- (in_row_len e j t). apply firstn_all. }
    rewrite F1 in N. fold (out_row e j t) in N.
    destruct (store_build n order (in_row e j t) so (in_row_len e j t)) as (B1 & S1 & _).
    destruct (store_build n order (out_row e j t) so (out_row_len e j t Ht)) as (B2 & S2 & _).
    rewrite B1, B2 in N. cbn [rbind] in N. unfold stores, eps_of, sig_of. split; [exact S1|]. split; [exact S2|].
    destruct (vget_tensor_mf2 (vbuild order (in_row e j t)) n order true) as [m1|]; [|discriminate].
    destruct (vget_tensor_mf2 (vbuild order (out_row e j t)) n order true) as [m2|]; [|discriminate].
    cbn [rbind] in N. injection N as N. rewrite <- N. auto.
  Qed.

  Definition stored (es : list nat) : list path :=
    map (fun ej => the_path order times (eps_of (fst ej) (snd ej)) (sig_of (fst ej) (snd ej))) (points (fun _ => ng) es).

  Lemma seq_stored sel : sequential_local_samples Infinitesimal pt sel times seq_elements
    = Ok (stored (filter (asked sel) (seq 0 n_elem))).
  Proof.
    rewrite (sequential_exact pt n order osn PT times sel seq_elements eps_of sig_of).
    - unfold stored. f_equal. f_equal. unfold seq_elements at 2. rewrite map_length, seq_length.
      unfold points. assert (F : forall e, In e (filter (asked sel) (seq 0 n_elem)) -> fst (nth e seq_elements (O, [])) = ng).
      { intros e I. apply filter_In in I. destruct I as (I & _). apply in_seq in I. unfold seq_elements.
        rewrite (nth_map_default _ O) by (rewrite seq_length; lia). reflexivity. }
      induction (filter _ _) as [|e l IH]; [reflexivity|]. cbn [flat_map].
      rewrite F by (left; auto). rewrite IH by (intros; apply F; right; auto). reflexivity.
    - intros e ng' hist E j t J T.
      assert (L : (e < n_elem)%nat).
      { assert (nth_error seq_elements e <> None) as X by congruence. apply nth_error_Some in X.
        unfold seq_elements in X. rewrite map_length, seq_length in X. auto. }
      unfold seq_elements in E. rewrite nth_error_map in E.
      rewrite (nth_error_nth' _ O) in E by (rewrite seq_length; auto). rewrite seq_nth in E by auto. cbn in E.
      injection E as <- <-.
      exists (map (fun j => nth t (states e j) ([], [])) (seq 0 ng)), (nth t (states e j) ([], [])).
      split.
      { rewrite nth_error_map, (nth_error_nth' _ O) by (rewrite seq_length; auto). rewrite seq_nth by auto. reflexivity. }
      split.
      { rewrite nth_error_map, (nth_error_nth' _ O) by (rewrite seq_length; auto). rewrite seq_nth by auto. reflexivity. }
      apply states_are; auto.
  Qed.

  Lemma vec_len : length vec_hist = n_elem.
  Proof. unfold vec_hist. rewrite map_length, seq_length. reflexivity. Qed.
  Lemma vec_stored sel :
    (forall z, In z (match sel with None => [] | Some l => l end) -> (1 <= z <= Z.of_nat n_elem)%Z) ->
    build_elements_local_samples Infinitesimal pt sel times vec_hist = Ok (stored (wanted sel n_elem)).
  Proof.
    intros R. rewrite (vectorised_exact pt n order osn PT times sel vec_hist ng eps_of sig_of); rewrite ?vec_len; auto.
    - intros e He. unfold vec_hist. rewrite (nth_map_default _ O) by (rewrite seq_length; auto).
      rewrite map_length, seq_length. reflexivity.
    - intros e j He Hj. unfold vec_hist. rewrite (nth_map_default _ O) by (rewrite seq_length; auto).
      rewrite (nth_map_default _ O) by (rewrite seq_length; auto). rewrite !seq_nth by auto. cbn [Nat.add].
      apply rows_are; auto.
  Qed.

  (** With all elements, or with labels of the mesh listed in increasing order,
      the two modes store the same paths in the same order. *)
  Theorem local_paths_modes_agree sel :
    (forall l, sel = Some l -> increasing l /\ forall z, In z l -> (1 <= z <= Z.of_nat n_elem)%Z) ->
    exists ps, sequential_local_samples Infinitesimal pt sel times seq_elements = Ok ps /\
      build_elements_local_samples Infinitesimal pt sel times vec_hist = Ok ps /\
      length ps = (match sel with None => n_elem | Some l => length l end * ng)%nat.
  Proof.
    intros H. exists (stored (wanted sel n_elem)).
    assert (LW : length (stored (wanted sel n_elem)) = (match sel with None => n_elem | Some l => length l end * ng)%nat).
    { unfold stored. rewrite map_length.
      assert (G : forall es, length (points (fun _ => ng) es) = (length es * ng)%nat).
      { induction es as [|e es IH]; [reflexivity|]. cbn [points flat_map]. rewrite app_length, map_length, seq_length.
        unfold points in IH. rewrite IH. cbn. lia. }
      rewrite G. destruct sel; cbn [wanted]; rewrite ?map_length, ?seq_length; reflexivity. }
    rewrite seq_stored. destruct sel as [l|].
    - destruct (H l eq_refl) as (IN & R). rewrite (filter_increasing n_elem 0 l IN) by (intros z I; specialize (R z I); lia).
      split; [reflexivity|]. split; auto. apply vec_stored. auto.
    - split; [|split; auto; apply vec_stored; intros z []].
      f_equal. cbn [wanted]. f_equal. cbn [asked].
      induction (seq 0 n_elem) as [|x l IH]; [reflexivity|]. cbn. rewrite IH. reflexivity.
  Qed.

  (** With distinct labels of the mesh in any order they store the same paths,
      possibly in another order. *)
  Theorem local_paths_modes_permuted l : NoDup l -> (forall z, In z l -> (1 <= z <= Z.of_nat n_elem)%Z) ->
    exists ps qs, sequential_local_samples Infinitesimal pt (Some l) times seq_elements = Ok ps /\
      build_elements_local_samples Infinitesimal pt (Some l) times vec_hist = Ok qs /\ Permutation ps qs.
  Proof.
    intros ND R. eexists. eexists. split; [apply seq_stored|]. split; [apply vec_stored; auto|].
    apply Permutation_map, points_perm. cbn [wanted]. apply filter_permuted; auto.
  Qed.
End Modes.

(** ** A mesh of two elements, one Gauss point each, one time *)
Definition cmw (rows : list (list R)) : list (list R) := map (fun r => firstn 3 (r ++ [0; 0; 0])) rows.
Definition strw (e _ : nat) : list T2 := [fun _ _ => INR (S e)].
Definition stw (e j : nat) : list (list R * list R) :=
  match recurrent_material_state_update cmw 2 order_sym_2d (strw e j) with Ok l => l | Err _ => [] end.
Definition roww (e j : nat) : list (list R) :=
  match vrecurrent_material_state_update cmw None None order_sym_2d (strw e j) with Ok l => l | Err _ => [] end.

Lemma cmw_model : sequence_model (length order_sym_2d) cmw.
Proof.
  intros rows. split; [apply map_length|]. intros r I. apply in_map_iff in I. destruct I as (x & <- & _).
  rewrite firstn_length, app_length. cbn [length order_sym_2d]. lia.
Qed.
Lemma stw_ok e j : recurrent_material_state_update cmw 2 order_sym_2d (strw e j) = Ok (stw e j).
Proof.
  unfold stw. destruct (recurrent_material_state_update cmw 2 order_sym_2d (strw e j)) as [l|x] eqn:E; [reflexivity|].
  exfalso. unfold recurrent_material_state_update, strw, cmw in E. cbn [map length Nat.ltb Nat.leb combine mapM] in E.
  destruct (row_ok 2 order_sym_2d (vstore_tensor_comps order_sym_2d (fun _ _ => INR (S e)))
    (firstn 3 (vstore_tensor_comps order_sym_2d (fun _ _ => INR (S e)) ++ [0; 0; 0])) order_sym_2d_ok) as (st & Q & _); [cbn; lia..|].
  rewrite Q in E. discriminate.
Qed.
Lemma roww_ok e j : vrecurrent_material_state_update cmw None None order_sym_2d (strw e j) = Ok (roww e j).
Proof. reflexivity. Qed.
Notation seqw := (seq_elements [0] 2 1 stw).
Notation vecw := (vec_hist 2 1 roww).
Notation storedw := (stored order_sym_2d cmw [0] 1 strw).

Lemma seq_w sel : sequential_local_samples Infinitesimal 1 sel [0] seqw = Ok (storedw (filter (asked sel) (seq 0 2))).
Proof.
  apply (seq_stored 1 2 order_sym_2d order_nsym_2d eq_refl cmw cmw_model); [reflexivity|].
  intros; apply stw_ok.
Qed.
Lemma vec_w sel : (forall z, In z (match sel with None => [] | Some l => l end) -> (1 <= z <= 2)%Z) ->
  build_elements_local_samples Infinitesimal 1 sel [0] vecw = Ok (storedw (wanted sel 2)).
Proof.
  intros H. apply (vec_stored 1 2 order_sym_2d order_nsym_2d eq_refl cmw cmw_model [0] 2 1 strw); auto; try discriminate.
Qed.
Lemma stored_w_strain e l : strain_path (nth 0 (storedw (e :: l)) (Path [] [] [] [] [])) = [[INR (S e); INR (S e); INR (S e)]].
Proof. reflexivity. Qed.

(** Asked for in another order, the vectorised mode stores another data set; a
    repeated label is stored twice; label 0 is the last element and a label
    beyond the mesh an error, where the sequential mode ignores them. *)
Theorem local_paths_selection_refuted :
  (exists p q, sequential_local_samples Infinitesimal 1 (Some [2; 1]%Z) [0] seqw = Ok [p; q] /\
     build_elements_local_samples Infinitesimal 1 (Some [2; 1]%Z) [0] vecw = Ok [q; p] /\ p <> q) /\
  (exists p, sequential_local_samples Infinitesimal 1 (Some [1; 1]%Z) [0] seqw = Ok [p] /\
     build_elements_local_samples Infinitesimal 1 (Some [1; 1]%Z) [0] vecw = Ok [p; p]) /\
  (exists p, sequential_local_samples Infinitesimal 1 (Some [0]%Z) [0] seqw = Ok [] /\
     build_elements_local_samples Infinitesimal 1 (Some [0]%Z) [0] vecw = Ok [p] /\
     build_elements_local_samples Infinitesimal 1 (Some [2]%Z) [0] vecw = Ok [p]) /\
  (sequential_local_samples Infinitesimal 1 (Some [3]%Z) [0] seqw = Ok [] /\
   build_elements_local_samples Infinitesimal 1 (Some [3]%Z) [0] vecw = Err IndexError).
Proof.
  split; [|split; [|split]].
  - exists (nth 0 (storedw [0%nat]) (Path [] [] [] [] [])), (nth 0 (storedw [1%nat]) (Path [] [] [] [] [])).
    rewrite seq_w. split; [reflexivity|]. rewrite vec_w by (intros z [<-|[<-|[]]]; lia). split; [reflexivity|].
    intros Q. apply (f_equal strain_path) in Q. rewrite !stored_w_strain in Q.
    injection Q as Q _. cbn [INR] in Q. lra.
  - exists (nth 0 (storedw [0%nat]) (Path [] [] [] [] [])).
    rewrite seq_w. split; [reflexivity|]. rewrite vec_w by (intros z [<-|[<-|[]]]; lia). reflexivity.
  - eexists. rewrite seq_w. split; [reflexivity|]. split; reflexivity.
  - rewrite seq_w. split; reflexivity.
Qed.

(** Both elements: strains 1 and 2 with the stresses of the model. *)
Example local_paths_case : exists ps,
  sequential_local_samples Infinitesimal 1 None [0] seqw = Ok ps /\
  build_elements_local_samples Infinitesimal 1 (Some [1; 2]%Z) [0] vecw = Ok ps /\
  map strain_path ps = [[[1; 1; 1]]; [[1 + 1; 1 + 1; 1 + 1]]].
Proof.
  eexists. rewrite seq_w. split; [reflexivity|]. rewrite vec_w by (intros z [<-|[<-|[]]]; lia). split; reflexivity.
Qed.

(** Finite strains are not implemented. *)
Theorem local_paths_finite pt p sel times hist : get_problem_type_parameters pt = Ok p ->
  build_elements_local_samples Finite pt sel times hist = Err RuntimeError.
Proof. intros H. unfold build_elements_local_samples. rewrite H. destruct p as ((? & ?) & ?). reflexivity. Qed.

Theorem element_paths_finite pt p n_gauss times hist : get_problem_type_parameters pt = Ok p ->
  build_element_local_samples Finite pt n_gauss times hist = Err RuntimeError.
Proof. intros H. unfold build_element_local_samples. rewrite H. destruct p as ((? & ?) & ?). reflexivity. Qed.

Print Assumptions local_paths_modes_agree.
Print Assumptions local_paths_selection_refuted.
