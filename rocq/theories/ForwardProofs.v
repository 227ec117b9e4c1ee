(** Loop interchange for the sequential forward modes. *)
From Coq Require Import Reals List Arith ZArith Lia Lra Bool.
From Verif Require Import Lib MatrixModel TensorModel ElementModel QuadratureModel GradientModel
  MeshModel MeshSpec MeshProps ScalerModel LossModel LossProps ForwardModel.
Import ListNotations.
Local Open Scope R_scope.

(** Same successful results. *)
Definition okeq {A} (a b : res A) : Prop := forall v, a = Ok v <-> b = Ok v.

Lemma Ok_inj {A} (a b : A) : Ok a = Ok b -> a = b.
Proof. congruence. Qed.

Lemma okeq_refl {A} (a : res A) : okeq a a. Proof. intros v; tauto. Qed.
Lemma okeq_sym {A} (a b : res A) : okeq a b -> okeq b a.
Proof. intros H v. symmetry. apply H. Qed.
Lemma okeq_trans {A} (a b c : res A) : okeq a b -> okeq b c -> okeq a c.
Proof. intros H K v. rewrite (H v). apply K. Qed.

Lemma rbind_ok {A B} (a : res A) (f : A -> res B) v :
  rbind a f = Ok v <-> exists x, a = Ok x /\ f x = Ok v.
Proof.
  destruct a; simpl; split.
  - eauto.
  - intros (x & E & H). inversion E; subst; auto.
  - discriminate.
  - intros (x & E & _). discriminate.
Qed.

Lemma okeq_bind {A B} (a b : res A) (f g : A -> res B) :
  okeq a b -> (forall x, a = Ok x -> okeq (f x) (g x)) -> okeq (rbind a f) (rbind b g).
Proof.
  intros H K v. rewrite !rbind_ok. split; intros (x & E & F).
  - exists x. split; [apply H; auto|]. apply (K x E). auto.
  - apply H in E. exists x. split; auto. apply (K x E); auto.
Qed.

Lemma okeq_assoc {A B C} (a : res A) (f : A -> res B) (g : B -> res C) :
  okeq (rbind (rbind a f) g) (rbind a (fun x => rbind (f x) g)).
Proof. destruct a; simpl; apply okeq_refl. Qed.

Lemma okeq_comm {A B C} (a : res A) (b : res B) (f : A -> B -> res C) :
  okeq (rbind a (fun x => rbind b (fun y => f x y))) (rbind b (fun y => rbind a (fun x => f x y))).
Proof. destruct a, b; simpl; intros v; split; auto; discriminate. Qed.

(** ** A grid of cells: rows (elements or Gauss points) times columns (times) *)
Section Grid.
  Context {E S I O : Type}.
  Variable cell : E -> S -> I -> res (O * S).

  Fixpoint path (e : E) (st : S) (is : list I) : res (list O * S) :=
    match is with
    | [] => Ok ([], st)
    | i :: t => rbind (cell e st i) (fun r => rbind (path e (snd r) t) (fun q => Ok (fst r :: fst q, snd q)))
    end.

  Fixpoint sweep (es : list E) (sts : list S) (i : I) : res (list O * list S) :=
    match es, sts with
    | e :: es', st :: sts' =>
        rbind (cell e st i) (fun r => rbind (sweep es' sts' i) (fun q => Ok (fst r :: fst q, snd r :: snd q)))
    | _, _ => Ok ([], [])
    end.

  Fixpoint sweeps (es : list E) (sts : list S) (is : list I) : res (list (list O) * list S) :=
    match is with
    | [] => Ok ([], sts)
    | i :: t => rbind (sweep es sts i) (fun r => rbind (sweeps es (snd r) t) (fun q => Ok (fst r :: fst q, snd q)))
    end.

  Fixpoint paths (es : list E) (sts : list S) (is : list I) : res (list (list O * S)) :=
    match es, sts with
    | e :: es', st :: sts' =>
        rbind (path e st is) (fun r => rbind (paths es' sts' is) (fun q => Ok (r :: q)))
    | _, _ => Ok []
    end.

  Definition zipcons (l : list O) (M : list (list O)) : list (list O) :=
    map (fun p => fst p :: snd p) (combine l M).
  Definition transpose (n : nat) (P : list (list O)) : list (list O) :=
    fold_right zipcons (repeat [] n) P.

  Lemma sweeps_cons e es : forall is st sts, 
    okeq (sweeps (e :: es) (st :: sts) is)
         (rbind (path e st is) (fun r => rbind (sweeps es sts is) (fun q =>
            Ok (zipcons (fst r) (fst q), snd r :: snd q)))).
  Proof.
    induction is as [|i t IH]; intros st sts; [apply okeq_refl|].
    intros v. cbn [sweeps path sweep]. rewrite !rbind_ok. split.
    - intros (r & E1 & E2). apply rbind_ok in E1. destruct E1 as (c & C1 & E1).
      apply rbind_ok in E1. destruct E1 as (q & Q1 & E1). inversion E1; subst r; clear E1.
      apply rbind_ok in E2. destruct E2 as (w & W1 & E2). inversion E2; subst v; clear E2.
      cbn [fst snd] in *. apply IH in W1. apply rbind_ok in W1. destruct W1 as (p & P1 & W1).
      apply rbind_ok in W1. destruct W1 as (u & U1 & W1). inversion W1; subst w; clear W1.
      exists (fst c :: fst p, snd p). split.
      + apply rbind_ok. exists c. split; auto. apply rbind_ok. exists p. split; auto.
      + apply rbind_ok. exists (fst q :: fst u, snd u). split.
        * apply rbind_ok. exists q. split; auto. apply rbind_ok. exists u. split; auto.
        * reflexivity.
    - intros (r & E1 & E2). apply rbind_ok in E1. destruct E1 as (c & C1 & E1).
      apply rbind_ok in E1. destruct E1 as (p & P1 & E1). inversion E1; subst r; clear E1.
      apply rbind_ok in E2. destruct E2 as (w & W1 & E2). inversion E2; subst v; clear E2.
      apply rbind_ok in W1. destruct W1 as (q & Q1 & W1).
      apply rbind_ok in W1. destruct W1 as (u & U1 & W1). inversion W1; subst w; clear W1.
      exists (fst c :: fst q, snd c :: snd q). split.
      + apply rbind_ok. exists c. split; auto. apply rbind_ok. exists q. split; auto.
      + apply rbind_ok. exists (zipcons (fst p) (fst u), snd p :: snd u). split; [|reflexivity].
        apply IH. apply rbind_ok. exists p. split; auto. apply rbind_ok. exists u. split; auto.
  Qed.

  Lemma sweeps_nil : forall is, sweeps [] [] is = Ok (repeat [] (length is), []).
  Proof. induction is; simpl; auto. rewrite IHis. reflexivity. Qed.

  Theorem interchange es : forall sts is, length es = length sts ->
    okeq (sweeps es sts is)
         (rbind (paths es sts is) (fun P => Ok (transpose (length is) (map fst P), map snd P))).
  Proof.
    induction es as [|e es IH]; intros [|st sts] is L; simpl in L; try discriminate.
    - rewrite sweeps_nil. apply okeq_refl.
    - eapply okeq_trans; [apply sweeps_cons|]. cbn [paths].
      eapply okeq_trans; [|apply okeq_sym, okeq_assoc].
      apply okeq_bind; [apply okeq_refl|]. intros r _.
      eapply okeq_trans; [|apply okeq_sym, okeq_assoc].
      eapply okeq_trans.
      { apply okeq_bind; [apply IH; lia|]. intros; apply okeq_refl. }
      eapply okeq_trans; [apply okeq_assoc|]. apply okeq_refl.
  Qed.

  Lemma path_length e : forall is st r, path e st is = Ok r -> length (fst r) = length is.
  Proof.
    induction is as [|i t IH]; intros st r H; simpl in H; [inversion H; auto|].
    apply rbind_ok in H. destruct H as (c & _ & H). apply rbind_ok in H. destruct H as (q & Q & H).
    inversion H; subst. simpl. f_equal. eauto.
  Qed.

  Lemma paths_length es : forall sts is P, paths es sts is = Ok P ->
    Forall (fun l => length l = length is) (map fst P).
  Proof.
    induction es as [|e es IH]; intros [|st sts] is P H; simpl in H; try (inversion H; constructor).
    apply rbind_ok in H. destruct H as (r & R1 & H). apply rbind_ok in H. destruct H as (q & Q & H).
    inversion H; subst. simpl. constructor; [eapply path_length; eauto|eauto].
  Qed.
End Grid.

Arguments zipcons {O}. Arguments transpose {O}.

Lemma transpose_length {O} n (P : list (list O)) :
  Forall (fun l => length l = n) P -> length (transpose n P) = n.
Proof.
  induction 1 as [|l P H F IH]; simpl; [apply repeat_length|].
  unfold zipcons. rewrite map_length, combine_length. fold (transpose n P). rewrite IH. lia.
Qed.

(** Reading the inputs first and running the cells afterwards. *)
Lemma path_pre {E S I J O} (pre : E -> I -> res J) (cell : E -> S -> J -> res (O * S)) e :
  forall is st,
  okeq (path (fun e st i => rbind (pre e i) (cell e st)) e st is)
       (rbind (mapM (pre e) is) (path cell e st)).
Proof.
  induction is as [|i t IH]; intros st; [apply okeq_refl|].
  intros v. cbn [path mapM]. rewrite !rbind_ok. split.
  - intros (r & A & B). apply rbind_ok in A. destruct A as (j & J1 & A).
    apply rbind_ok in B. destruct B as (q & Q & B). inversion B; subst v; clear B.
    apply IH in Q. apply rbind_ok in Q. destruct Q as (js & M & Q).
    exists (j :: js). split.
    + apply rbind_ok. exists j. split; auto. apply rbind_ok. exists js. auto.
    + cbn [path]. apply rbind_ok. exists r. split; auto. apply rbind_ok. exists q. auto.
  - intros (l & A & B). apply rbind_ok in A. destruct A as (j & J1 & A).
    apply rbind_ok in A. destruct A as (js & M & A). inversion A; subst l; clear A.
    cbn [path] in B. apply rbind_ok in B. destruct B as (r & R1 & B).
    apply rbind_ok in B. destruct B as (q & Q & B). inversion B; subst v; clear B.
    exists r. split; [apply rbind_ok; exists j; auto|].
    apply rbind_ok. exists q. split; auto. apply IH. apply rbind_ok. exists js. auto.
Qed.

Lemma path_ext {E S I O} (c1 c2 : E -> S -> I -> res (O * S)) e :
  (forall st i, okeq (c1 e st i) (c2 e st i)) ->
  forall is st, okeq (path c1 e st is) (path c2 e st is).
Proof.
  intros H. induction is as [|i t IH]; intros st; [apply okeq_refl|]. cbn [path].
  apply okeq_bind; auto. intros r _. apply okeq_bind; auto. intros; apply okeq_refl.
Qed.

(** ** One element: Gauss points against times *)
Section Element.
  Variable state : Type.
  Variable stress_mf : state -> list R.
  Variable su : T2 -> state -> state.
  Variables (n_dim : nat) (order : list comp) (el : element).

  Definition gcell (cw : list R * R) (st : state) (h : T2 * T2 * T2) : res (((nat -> R) * state) * state) :=
    rbind (gp_strain n_dim order el (fst cw) (fst (fst h)) (snd h)) (fun e =>
    let st' := su e st in
    rbind (gp_force state stress_mf n_dim order el cw (fst (fst h), st')) (fun f => Ok ((f, st'), st'))).

  Definition addf (a f : nat -> R) : nat -> R := fun k => a k + f k.

  Lemma gauss_point_step_cell states_old acc i cw h st :
    nth_error states_old i = Some st ->
    okeq (gauss_point_step state su stress_mf Infinitesimal n_dim order el (fst (fst h)) (snd h) states_old acc (i, cw))
         (rbind (gcell cw st h) (fun r => Ok (addf (fst acc) (fst (fst r)), snd acc ++ [snd r]))).
  Proof.
    intros N. unfold gauss_point_step, gcell, gp_strain, gp_force. cbn [fst snd].
    destruct (eval_shapefun_deriv el (fst (fst h)) (fst cw)) as [[[sfd J] dJ]|e]; [|simpl; apply okeq_refl].
    cbn [rbind fst snd].
    destruct (vbuild_discrete_sym_gradient sfd (el_n_node el) (el_n_dim el) order) as [B|e]; [|simpl; apply okeq_refl].
    cbn [rbind].
    destruct (vget_strain_from_vmf _ n_dim order) as [e|e]; [|simpl; apply okeq_refl].
    cbn [rbind]. rewrite N.
    destruct (vget_tensor_from_mf2 _ n_dim order true) as [s|x]; [|simpl; apply okeq_refl].
    cbn [rbind].
    destruct (vget_stress_vmf s n_dim order) as [v|x]; [|simpl; apply okeq_refl].
    apply okeq_refl.
  Qed.

  (** Fixed inputs [h]: the loop over Gauss points is a sweep. *)
  Lemma gauss_loop_sweep h : forall rule pre sts acc,
    length rule = length sts ->
    okeq (gauss_loop state su stress_mf Infinitesimal n_dim order el (fst (fst h)) (snd h) (pre ++ sts)
            (combine (seq (length pre) (length rule)) rule) acc)
         (rbind (sweep gcell rule sts h) (fun r =>
            Ok (fold_left addf (map fst (fst r)) (fst acc), snd acc ++ snd r))).
  Proof.
    induction rule as [|cw rule IH]; intros pre [|st sts] acc L; simpl in L; try discriminate.
    - simpl. rewrite app_nil_r. destruct acc. apply okeq_refl.
    - cbn [length seq combine gauss_loop sweep].
      eapply okeq_trans.
      { apply okeq_bind.
        - apply (gauss_point_step_cell (pre ++ st :: sts) acc (length pre) cw h st).
          rewrite nth_error_app2, Nat.sub_diag by lia. reflexivity.
        - intros; apply okeq_refl. }
      eapply okeq_trans; [apply okeq_assoc|].
      eapply okeq_trans; [|apply okeq_sym, okeq_assoc].
      apply okeq_bind; [apply okeq_refl|]. intros r _. cbn [rbind].
      specialize (IH (pre ++ [st]) sts (addf (fst acc) (fst (fst r)), snd acc ++ [snd r])).
      rewrite app_length in IH. cbn [length] in IH. rewrite Nat.add_1_r, <- app_assoc in IH. cbn [app] in IH.
      eapply okeq_trans; [apply IH; lia|].
      eapply okeq_trans; [|apply okeq_sym, okeq_assoc].
      apply okeq_bind; [apply okeq_refl|]. intros q _. cbn [rbind fst snd map fold_left].
      rewrite <- app_assoc. apply okeq_refl.
  Qed.

  (** Fixed Gauss point: the three passes over time are a path. *)
  Lemma gp_hist_path fe cw : fe_el state fe = el -> fe_mat state fe = Standard state su ->
    forall hist st,
    okeq (gp_hist state stress_mf Infinitesimal n_dim order fe cw (Some st) hist)
         (rbind (path gcell cw st hist) (fun r => Ok (map fst (fst r), map snd (fst r)))).
  Proof.
    intros E1 E2. unfold gp_hist. rewrite E1, E2.
    induction hist as [|h t IH]; intros st; [apply okeq_refl|].
    cbn [mapM path].
    intros v. specialize (fun st => IH st). rewrite !rbind_ok. split.
    - intros (states & A & B). apply rbind_ok in A. destruct A as (strains & S1 & A).
      apply rbind_ok in S1. destruct S1 as (e & Ee & S1). apply rbind_ok in S1. destruct S1 as (es & Ees & S1).
      inversion S1; subst strains; clear S1. inversion A; subst states; clear A.
      cbn [map combine su_loop mapM] in B. apply rbind_ok in B. destruct B as (cs & C & B).
      apply rbind_ok in C. destruct C as (f & F & C). apply rbind_ok in C. destruct C as (fs & Fs & C).
      inversion C; subst cs; clear C. inversion B; subst v; clear B.
      destruct (IH (su e st) (fs, su_loop state su (su e st) es)) as [IH1 _].
      assert (X : rbind (path gcell cw (su e st) t) (fun r => Ok (map fst (fst r), map snd (fst r)))
         = Ok (fs, su_loop state su (su e st) es)).
      { apply IH1. apply rbind_ok. exists (su_loop state su (su e st) es). split.
        - apply rbind_ok. exists es. auto.
        - apply rbind_ok. exists fs. auto. }
      apply rbind_ok in X. destruct X as (q & Q & X). apply Ok_inj in X. apply pair_equal_spec in X. destruct X as [X1 X2].
      exists ((f, su e st) :: fst q, snd q). split.
      + apply rbind_ok. exists ((f, su e st), su e st). split.
        * unfold gcell. apply rbind_ok. exists e. split; auto. cbv zeta. apply rbind_ok. exists f. auto.
        * apply rbind_ok. exists q. auto.
      + cbn [fst snd map su_loop]. rewrite X1, X2. reflexivity.
    - intros (r & A & B). apply rbind_ok in A. destruct A as (c & C & A).
      apply rbind_ok in A. destruct A as (q & Q & A). inversion A; subst r; clear A.
      inversion B; subst v; clear B. cbn [fst snd map].
      unfold gcell in C. apply rbind_ok in C. destruct C as (e & Ee & C). cbv zeta in C.
      apply rbind_ok in C. destruct C as (f & F & C). inversion C; subst c; clear C. cbn [fst snd] in *.
      destruct (IH (su e st) (map fst (fst q), map snd (fst q))) as [_ IH2].
      assert (X := IH2 ltac:(apply rbind_ok; exists q; auto)).
      apply rbind_ok in X. destruct X as (sts & S1 & X). apply rbind_ok in S1. destruct S1 as (es & Es & S1).
      inversion S1; subst sts; clear S1. apply rbind_ok in X. destruct X as (fs & Fs & X).
      apply Ok_inj in X. apply pair_equal_spec in X. destruct X as [X1 X2].
      exists (su_loop state su st (e :: es)). split.
      + apply rbind_ok. exists (e :: es). split; [|reflexivity].
        apply rbind_ok. exists e. split; auto. apply rbind_ok. exists es. auto.
      + apply rbind_ok. exists (f :: fs). split.
        * cbn [su_loop map combine mapM]. apply rbind_ok. exists f. split; auto.
          apply rbind_ok. exists fs. auto.
        * cbn [su_loop]. rewrite X1, X2. reflexivity.
  Qed.

  (** All Gauss points over time, with the accumulated forces. *)
  Lemma gp_hist_loop_paths fe : fe_el state fe = el -> fe_mat state fe = Standard state su ->
    forall hist rule pre sts accs sth, length rule = length sts ->
    okeq (gp_hist_loop state stress_mf Infinitesimal n_dim order fe
            (combine (seq (length pre) (length rule)) rule) (Some (pre ++ sts)) hist accs sth)
         (rbind (paths gcell rule sts hist) (fun P =>
            Ok (fold_left add_forces (map (fun p => map fst (fst p)) P) accs,
                sth ++ map (fun p => map snd (fst p)) P))).
  Proof.
    intros E1 E2 hist. induction rule as [|cw rule IH]; intros pre [|st sts] accs sth L; simpl in L; try discriminate.
    - simpl. rewrite app_nil_r. apply okeq_refl.
    - cbn [length seq combine gp_hist_loop paths fst snd].
      rewrite nth_error_app2, Nat.sub_diag by lia. cbn [nth_error].
      eapply okeq_trans.
      { apply okeq_bind; [apply (gp_hist_path fe cw E1 E2)|]. intros; apply okeq_refl. }
      eapply okeq_trans; [apply okeq_assoc|].
      eapply okeq_trans; [|apply okeq_sym, okeq_assoc].
      apply okeq_bind; [apply okeq_refl|]. intros r _. cbn [rbind fst snd].
      specialize (IH (pre ++ [st]) sts (add_forces accs (map fst (fst r))) (sth ++ [map snd (fst r)])).
      rewrite app_length in IH. cbn [length] in IH. rewrite Nat.add_1_r, <- app_assoc in IH. cbn [app] in IH.
      eapply okeq_trans; [apply IH; lia|].
      eapply okeq_trans; [|apply okeq_sym, okeq_assoc].
      apply okeq_bind; [apply okeq_refl|]. intros q _. cbn [rbind map fold_left].
      rewrite <- app_assoc. apply okeq_refl.
  Qed.
End Element.

(** ** Folding rows into columns *)
Lemma fold_zip {A B} (g : A -> B -> A) n : forall (Q : list (list B)) (accs : list A),
  length accs = n -> Forall (fun l => length l = n) Q ->
  fold_left (fun ms l => map (fun p => g (fst p) (snd p)) (combine ms l)) Q accs
  = map (fun p => fold_left g (snd p) (fst p)) (combine accs (transpose n Q)).
Proof.
  induction Q as [|l Q IH]; intros accs L F.
  - simpl. subst n. induction accs; simpl; auto. f_equal. auto.
  - pose proof (Forall_inv F) as L1. cbv beta in L1. pose proof (Forall_inv_tail F) as F1. cbn [fold_left transpose fold_right].
    rewrite IH; auto.
    2:{ rewrite map_length, combine_length. lia. }
    pose proof (transpose_length n Q F1) as L2. fold (transpose n Q).
    clear IH F F1. generalize dependent (transpose n Q). revert l L1. generalize dependent n.
    induction accs as [|a accs IH]; intros n L l L1 M L2; [reflexivity|].
    destruct l as [|b l]; [simpl in *; lia|]. destruct M as [|row M]; [simpl in *; lia|].
    unfold zipcons. simpl. f_equal. simpl in *.
    apply IH with (n := pred n); lia.
Qed.

Lemma transpose_map {A B} (h : A -> B) n : forall P : list (list A),
  transpose n (map (map h) P) = map (map h) (transpose n P).
Proof.
  induction P as [|l P IH]; simpl.
  - induction n; simpl; auto. f_equal; auto.
  - fold (transpose n (map (map h) P)) (transpose n P). rewrite IH. generalize (transpose n P) as M.
    unfold zipcons. induction l; intros [|r M]; simpl; auto. f_equal. auto.
Qed.

Lemma transpose_rows {E O} (Q : E -> O -> Prop) n : forall es (P : list (list O)),
  Forall2 (fun e l => Forall (Q e) l) es P ->
  Forall (fun row => Forall2 Q es row) (transpose n P).
Proof.
  induction 1 as [|e l es P H F IH]; simpl.
  - apply Forall_forall. intros x X. apply repeat_spec in X. subst. constructor.
  - fold (transpose n P). generalize dependent (transpose n P).
    induction H as [|o l Ho Hl IHl]; intros M IM; [constructor|].
    destruct M as [|r M]; [constructor|]. inversion IM; subst.
    unfold zipcons. simpl. constructor; [constructor; auto|]. apply IHl; auto.
Qed.

Section ElementHist.
  Variable state : Type.
  Variable stress_mf : state -> list R.
  Variable su : T2 -> state -> state.
  Variable pt : nat.

  (** One element at one time. *)
  Definition elem_cell (fe : felem state) (l : list state) (h : T2 * T2 * T2)
    : res ((nat -> R) * list state) :=
    compute_element_internal_forces state su stress_mf Infinitesimal pt (fe_el state fe)
      (fe_rule state fe) l (fst (fst h)) (snd h).

  Lemma sweep_length {E S I O} (cell : E -> S -> I -> res (O * S)) : forall es sts i r,
    length es = length sts -> sweep cell es sts i = Ok r ->
    length (fst r) = length es /\ length (snd r) = length es.
  Proof.
    induction es as [|e es IH]; intros [|st sts] i r L H; simpl in L, H; try discriminate.
    - inversion H; subst; auto.
    - apply rbind_ok in H. destruct H as (c & C & H). apply rbind_ok in H. destruct H as (q & Q & H).
      inversion H; subst. simpl. destruct (IH sts i q); auto; lia.
  Qed.

  Lemma elem_cell_sweep fe l h n_dim order n_ipc :
    get_problem_type_parameters pt = Ok (n_dim, order, n_ipc) ->
    length (fe_rule state fe) = length l ->
    okeq (elem_cell fe l h)
         (rbind (sweep (gcell state stress_mf su n_dim order (fe_el state fe)) (fe_rule state fe) l h)
            (fun r => Ok (fold_left addf (map fst (fst r)) (fun _ => 0), snd r))).
  Proof.
    intros PT L. unfold elem_cell, compute_element_internal_forces. rewrite PT. cbn [rbind].
    exact (gauss_loop_sweep state stress_mf su n_dim order (fe_el state fe) h (fe_rule state fe) [] l
             ((fun _ => 0), []) L).
  Qed.

  Lemma elem_path_sweeps fe n_dim order n_ipc :
    get_problem_type_parameters pt = Ok (n_dim, order, n_ipc) ->
    forall hist l, length (fe_rule state fe) = length l ->
    okeq (path elem_cell fe l hist)
         (rbind (sweeps (gcell state stress_mf su n_dim order (fe_el state fe)) (fe_rule state fe) l hist)
            (fun r => Ok (map (fun row => fold_left addf (map fst row) (fun _ => 0)) (fst r), snd r))).
  Proof.
    intros PT. induction hist as [|h t IH]; intros l L; [apply okeq_refl|]. cbn [path sweeps].
    eapply okeq_trans.
    { apply okeq_bind; [apply (elem_cell_sweep fe l h _ _ _ PT L)|]. intros; apply okeq_refl. }
    eapply okeq_trans; [apply okeq_assoc|].
    eapply okeq_trans; [|apply okeq_sym, okeq_assoc].
    apply okeq_bind; [apply okeq_refl|]. intros r R1. cbn [rbind snd fst].
    apply sweep_length in R1; auto. destruct R1 as [_ R2].
    eapply okeq_trans.
    { apply okeq_bind; [apply IH; auto|]. intros; apply okeq_refl. }
    eapply okeq_trans; [apply okeq_assoc|].
    eapply okeq_trans; [|apply okeq_sym, okeq_assoc]. apply okeq_refl.
  Qed.

  Lemma path_last n_dim order el cw : forall hist st r, hist <> [] ->
    path (gcell state stress_mf su n_dim order el) cw st hist = Ok r ->
    nth_error (map snd (fst r)) (length hist - 1) = Some (snd r).
  Proof.
    induction hist as [|h t IH]; intros st r N H; [congruence|]. cbn [path] in H.
    apply rbind_ok in H. destruct H as (c & C & H). apply rbind_ok in H. destruct H as (q & Q & H).
    inversion H; subst r; clear H. cbn [fst snd map length].
    destruct t as [|h' t].
    - cbn [path] in Q. inversion Q; subst q. simpl.
      unfold gcell in C. apply rbind_ok in C. destruct C as (e & _ & C). cbv zeta in C.
      apply rbind_ok in C. destruct C as (f & _ & C). inversion C; subst c. reflexivity.
    - apply IH in Q; [|discriminate]. cbn [length] in Q |- *.
      replace (S (S (length t)) - 1)%nat with (S (S (length t) - 1))%nat by lia. exact Q.
  Qed.

  Lemma paths_last n_dim order el hist : hist <> [] -> forall rule sts P,
    paths (gcell state stress_mf su n_dim order el) rule sts hist = Ok P ->
    last_states state (length hist) (map (fun p => map snd (fst p)) P) = Ok (map snd P).
  Proof.
    intros N. unfold last_states. destruct (length hist) as [|m] eqn:Lh; [destruct hist; [congruence|discriminate]|].
    induction rule as [|cw rule IH]; intros [|st sts] P H; cbn [paths] in H; try (inversion H; reflexivity).
    apply rbind_ok in H. destruct H as (r & R1 & H). apply rbind_ok in H. destruct H as (q & Q & H).
    inversion H; subst P. cbn [map mapM]. apply path_last in R1; auto.
    replace (length hist - 1)%nat with m in R1 by lia. rewrite R1. cbn [rbind].
    rewrite (IH _ _ Q). reflexivity.
  Qed.

  (** The history of one element is the path of its single-time updates. *)
  Theorem element_hist_path fe : fe_mat state fe = Standard state su ->
    forall hist l, hist <> [] -> length (fe_rule state fe) = length l ->
    okeq (rbind (compute_element_internal_forces_hist state stress_mf Infinitesimal pt fe (Some l) hist)
            (fun r => rbind (last_states state (length hist) (snd r)) (fun lst => Ok (fst r, lst))))
         (path elem_cell fe l hist).
  Proof.
    intros EM hist l N L.
    unfold compute_element_internal_forces_hist.
    destruct (get_problem_type_parameters pt) as [[[n_dim order] n_ipc]|e] eqn:PT.
    2:{ destruct hist as [|h t]; [congruence|]. cbn [path]. unfold elem_cell at 1, compute_element_internal_forces.
        rewrite PT. apply okeq_refl. }
    cbn [rbind].
    eapply okeq_trans; [|apply okeq_sym, (elem_path_sweeps fe _ _ _ PT hist l L)].
    eapply okeq_trans.
    2:{ apply okeq_sym. eapply okeq_trans.
        { apply okeq_bind; [apply interchange; exact L|]. intros; apply okeq_refl. }
        apply okeq_assoc. }
    eapply okeq_trans.
    { apply okeq_bind.
      - exact (gp_hist_loop_paths state stress_mf su n_dim order (fe_el state fe) fe eq_refl EM hist
                 (fe_rule state fe) [] l (map (fun _ _ => 0) hist) [] L).
      - intros; apply okeq_refl. }
    eapply okeq_trans; [apply okeq_assoc|].
    apply okeq_bind; [apply okeq_refl|]. intros P HP. cbn [rbind fst snd app].
    rewrite (paths_last _ _ _ hist N _ _ _ HP). cbn [rbind].
    pose proof (paths_length _ _ _ _ _ HP) as FL.
    assert (EQ : fold_left add_forces (map (fun p => map fst (fst p)) P) (map (fun _ _ => 0) hist)
      = map (fun row => fold_left addf (map fst row) (fun _ => 0)) (transpose (length hist) (map fst P))).
    { rewrite <- (map_map fst (map fst)).
      change add_forces with (fun (ms l : list (nat -> R)) => map (fun p => addf (fst p) (snd p)) (combine ms l)).
      rewrite (fold_zip addf (length hist)).
      - rewrite transpose_map.
        pose proof (transpose_length _ _ FL) as TL. generalize dependent (transpose (length hist) (map fst P)).
        clear. induction hist as [|h t IH]; intros [|r M] TL; simpl in *; try lia; auto.
        f_equal. apply IH. lia.
      - apply map_length.
      - rewrite Forall_forall in FL |- *. intros x X. apply in_map_iff in X. destruct X as (y & <- & Y).
        rewrite map_length. auto. }
    rewrite EQ. apply okeq_refl.
  Qed.
End ElementHist.
