(** Agreement of the two sequential forward modes. *)
From Coq Require Import Reals List Arith ZArith Lia Lra Bool.
From Verif Require Import Lib MatrixModel TensorModel ElementModel QuadratureModel GradientModel GradientSpec GradientProps MatrixProps TensorSpec
  MeshModel MeshSpec MeshProps ScalerModel LossModel LossProps ForwardModel ForwardSpec ForwardProofs.
Import ListNotations.
Local Open Scope R_scope.

Section Mesh.
  Variable state : Type.
  Variable stress_mf : state -> list R.
  Variable conn : list (list Z).
  Variable n_node : nat.
  Variables coords_init coords : list (list R).
  Variable disps : nat -> list (list R).
  Variable reaction : nat -> T2.
  Variable bc : labels.
  Variable norm : option (list R * list R).
  Variable weights : nat -> R.
  Variable pt : nat.
  Variables (n_dim : nat) (order n_ipc : list comp).
  Hypothesis PT : get_problem_type_parameters pt = Ok (n_dim, order, n_ipc).

  Notation felem := (felem state).
  Notation config := (element_config conn coords_init coords disps Infinitesimal).
  Notation asmb := (element_assembler conn n_node).

  Definition elem_update (fe : felem) (st : option (list state)) (h : T2 * T2 * T2)
    : res ((nat -> R) * list state) :=
    match fe_mat state fe, st with
    | Standard _ su, Some l => elem_cell state stress_mf su pt fe l h
    | _, None => Err AttributeError
    | Recurrent _ _, Some _ => Err AttributeError
    end.

  Definition ecell (kf : nat * felem) (st : option (list state)) (t : nat)
    : res ((nat * list R) * option (list state)) :=
    rbind (config t (fst kf)) (fun h =>
    rbind (elem_update (snd kf) st h) (fun r =>
    Ok ((fst kf, force_list state (snd kf) (fst r)), Some (snd r)))).

  Definition keyed (key : nat) (fes : list felem) : list (nat * felem) :=
    combine (seq key (length fes)) fes.

  Lemma keyed_cons key fe fes : keyed key (fe :: fes) = (key, fe) :: keyed (S key) fes.
  Proof. reflexivity. Qed.
  Lemma keyed_length key fes : length (keyed key fes) = length fes.
  Proof. unfold keyed. rewrite combine_length, seq_length. lia. Qed.

  Lemma time_elements_sweep t : forall fes sts key,
    okeq (time_elements state stress_mf conn coords_init coords disps Infinitesimal pt t key fes sts)
         (sweep ecell (keyed key fes) sts t).
  Proof.
    induction fes as [|fe fes IH]; intros sts key; [apply okeq_refl|].
    destruct sts as [|st sts]; [apply okeq_refl|].
    rewrite keyed_cons. cbn [time_elements sweep]. unfold ecell at 1. cbn [fst snd].
    eapply okeq_trans; [|apply okeq_sym, okeq_assoc].
    apply okeq_bind; [apply okeq_refl|]. intros h _.
    eapply okeq_trans; [|apply okeq_sym, okeq_assoc].
    apply okeq_bind; [apply okeq_refl|]. intros r _. cbn [rbind fst snd].
    apply okeq_bind; [apply IH|]. intros; apply okeq_refl.
  Qed.

  (** Requirements on the mesh: nodes of every element within the mesh, one
      coordinate per spatial dimension, standard materials, one state per
      Gauss point. *)
  Definition elem_ok (kf : nat * felem) : Prop :=
    (exists nodes, conn_of conn (fst kf) = Some nodes /\ nodes <> [] /\
       labels_in_range n_node nodes /\ length nodes = el_n_node (fe_el state (snd kf))) /\
    el_n_dim (fe_el state (snd kf)) = n_dim /\
    (exists su, fe_mat state (snd kf) = Standard state su).
  Definition state_ok (kf : nat * felem) (st : option (list state)) : Prop :=
    exists l, st = Some l /\ length (fe_rule state (snd kf)) = length l.

  (** Outputs of a cell carry the label of the element and the right size. *)
  Definition out_ok (kf : nat * felem) (x : nat * list R) : Prop :=
    fst x = fst kf /\ length (snd x) = (el_n_node (fe_el state (snd kf)) * el_n_dim (fe_el state (snd kf)))%nat.

  Lemma force_list_length fe f :
    length (force_list state fe f) = (el_n_node (fe_el state fe) * el_n_dim (fe_el state fe))%nat.
  Proof. unfold force_list. rewrite map_length, seq_length. reflexivity. Qed.

  Lemma ecell_out kf st t r : ecell kf st t = Ok r -> out_ok kf (fst r).
  Proof.
    unfold ecell. intros H. apply rbind_ok in H. destruct H as (h & _ & H).
    apply rbind_ok in H. destruct H as (q & _ & H). inversion H; subst. split; auto.
    apply force_list_length.
  Qed.

  Lemma sweep_out t : forall es sts r, length es = length sts -> sweep ecell es sts t = Ok r ->
    Forall2 out_ok es (fst r).
  Proof.
    induction es as [|e es IH]; intros [|st sts] r L H; simpl in L; try discriminate; cbn [sweep] in H.
    - inversion H. constructor.
    - apply rbind_ok in H. destruct H as (c & C & H). apply rbind_ok in H. destruct H as (q & Q & H).
      inversion H; subst. cbn [fst]. constructor; [eapply ecell_out; eauto|]. eapply IH; eauto.
  Qed.

  (** Assembly of a full row. *)
  Definition asm (row : list (nat * list R)) : list R :=
    match asmb row with Ok a => a | Err _ => [] end.

  Definition entry (p d : nat) (x : nat * list R) : R :=
    match conn_of conn (fst x) with Some nodes => contribution n_dim nodes (snd x) p d | None => 0 end.

  Lemma asm_ok es row : es <> [] -> Forall elem_ok es -> Forall2 out_ok es row ->
    asmb row = Ok (asm row) /\ length (asm row) = (n_node * n_dim)%nat /\
    forall p d, (p < n_node)%nat -> (d < n_dim)%nat ->
      nth (p * n_dim + d) (asm row) 0 = lsum (map (entry p d) row).
  Proof.
    intros NE FE FO. unfold asm.
    destruct (assembly_value conn n_dim n_node row) as (r & E & L & V).
    - inversion FO; subst; congruence.
    - intros key a Hin. revert key a Hin.
      assert (G : Forall (fun x => exists nodes, conn_of conn (fst x) = Some nodes /\ nodes <> [] /\
         labels_in_range n_node nodes /\ length (snd x) = (length nodes * n_dim)%nat) row).
      { clear NE. revert FE. induction FO as [|e x es row O1 O2 IH]; intros FE; constructor.
        - pose proof (Forall_inv FE) as [(nodes & C & Nn & Lr & Ln) [Hd _]]. destruct O1 as [K1 K2].
          exists nodes. rewrite K1. split; auto. split; auto. split; auto.
          rewrite K2, Ln, Hd. reflexivity.
        - apply IH. exact (Forall_inv_tail FE). }
      rewrite Forall_forall in G. intros key a Hin. exact (G (key, a) Hin).
    - rewrite E. split; [reflexivity|]. split; [exact L|]. intros p d Hp Hd. rewrite V; auto.
  Qed.

  Lemma list_ext_blocks (a b : list R) : length a = (n_node * n_dim)%nat -> length b = (n_node * n_dim)%nat ->
    (forall p d, (p < n_node)%nat -> (d < n_dim)%nat -> nth (p * n_dim + d) a 0 = nth (p * n_dim + d) b 0) ->
    a = b.
  Proof.
    intros La Lb H. apply nth_ext with (d := 0) (d' := 0); [congruence|]. intros k Hk. rewrite La in Hk.
    assert (n_dim <> 0)%nat by (intros ->; lia).
    rewrite (Nat.div_mod k n_dim) by auto. rewrite Nat.mul_comm.
    apply H; [apply Nat.div_lt_upper_bound; lia|apply Nat.mod_upper_bound; auto].
  Qed.

  Definition ladd (a b : list R) : list R := map (fun p => fst p + snd p) (combine a b).
  Lemma ladd_length a b : length a = length b -> length (ladd a b) = length a.
  Proof. intros L. unfold ladd. rewrite map_length, combine_length. lia. Qed.
  Lemma ladd_nth a b k : length a = length b -> nth k (ladd a b) 0 = nth k a 0 + nth k b 0.
  Proof.
    revert b k. induction a as [|x a IH]; intros [|y b] [|k] L; simpl in *; try lia; try lra.
    apply IH. lia.
  Qed.
  Lemma add_lists_ok a b : length a = length b -> add_lists a b = Ok (ladd a b).
  Proof. intros L. unfold add_lists. rewrite L, Nat.eqb_refl. reflexivity. Qed.

  Definition add_single (m : list R) (x : nat * list R) : list R := ladd m (asm [x]).

  Lemma single_ok e x : elem_ok e -> out_ok e x ->
    asmb [x] = Ok (asm [x]) /\ length (asm [x]) = (n_node * n_dim)%nat /\
    forall p d, (p < n_node)%nat -> (d < n_dim)%nat -> nth (p * n_dim + d) (asm [x]) 0 = entry p d x.
  Proof.
    intros E O. destruct (asm_ok [e] [x]) as (A & L & V).
    - discriminate.
    - constructor; auto.
    - constructor; auto.
    - split; auto. split; auto. intros p d Hp Hd. rewrite V; auto. simpl. lra.
  Qed.

  Lemma fold_singles : forall es row m, Forall elem_ok es -> Forall2 out_ok es row ->
    length m = (n_node * n_dim)%nat ->
    length (fold_left add_single row m) = (n_node * n_dim)%nat /\
    forall p d, (p < n_node)%nat -> (d < n_dim)%nat ->
      nth (p * n_dim + d) (fold_left add_single row m) 0
      = nth (p * n_dim + d) m 0 + lsum (map (entry p d) row).
  Proof.
    intros es row m FE FO. revert m FE. induction FO as [|e x es row O1 O2 IH]; intros m FE L.
    - simpl. split; auto. intros. lra.
    - destruct (single_ok e x (Forall_inv FE) O1) as (A & La & Va). cbn [fold_left].
      assert (L2 : length (add_single m x) = (n_node * n_dim)%nat).
      { unfold add_single. rewrite ladd_length; congruence. }
      destruct (IH (add_single m x) (Forall_inv_tail FE) L2) as [I1 I2]. split; auto.
      intros p d Hp Hd. rewrite I2 by auto. unfold add_single.
      rewrite ladd_nth by congruence. rewrite Va by auto. simpl. lra.
  Qed.

  Lemma nth_repeat0 k n : nth k (repeat 0 n) 0 = 0.
  Proof. revert k; induction n; intros [|k]; simpl; auto. Qed.

  Theorem singles_are_assembly es row : es <> [] -> Forall elem_ok es -> Forall2 out_ok es row ->
    fold_left add_single row (repeat 0 (n_node * n_dim)) = asm row.
  Proof.
    intros NE FE FO. destruct (asm_ok es row NE FE FO) as (_ & L & V).
    destruct (fold_singles es row (repeat 0 (n_node * n_dim)) FE FO (repeat_length _ _)) as [L2 V2].
    apply list_ext_blocks; auto. intros p d Hp Hd. rewrite V2, V by auto. rewrite nth_repeat0. lra.
  Qed.

  (** ** Time-major mode *)
  Definition add_loss (loss : R) (t : nat) (mesh : list R) : R :=
    loss + weights t * force_equilibrium_loss norm n_node n_dim (mesh_fun n_dim mesh)
                         (fun _ _ => 0) (reaction t) bc.

  Lemma time_loop_sweeps fes : fes <> [] -> Forall elem_ok (keyed 1 fes) ->
    forall times sts loss, length fes = length sts ->
    okeq (time_loop state stress_mf conn n_node coords_init coords disps reaction bc norm weights
            Infinitesimal pt n_dim fes times sts loss)
         (rbind (sweeps ecell (keyed 1 fes) sts times) (fun r =>
            Ok (fold_left (fun l p => add_loss l (fst p) (snd p)) (combine times (map asm (fst r))) loss,
                snd r))).
  Proof.
    intros NE FE. induction times as [|t times IH]; intros sts loss L; [apply okeq_refl|].
    cbn [time_loop sweeps].
    eapply okeq_trans; [|apply okeq_sym, okeq_assoc].
    apply okeq_bind; [apply time_elements_sweep|]. intros r R1.
    apply time_elements_sweep in R1.
    assert (L1 : length (keyed 1 fes) = length sts) by (rewrite keyed_length; auto).
    pose proof (sweep_out t _ _ _ L1 R1) as FO.
    assert (NE1 : keyed 1 fes <> []) by (destruct fes; [congruence|discriminate]).
    destruct (asm_ok _ _ NE1 FE FO) as (A & _ & _). rewrite A. cbn [rbind].
    destruct (sweep_length ecell _ _ _ _ L1 R1) as [_ L2]. rewrite keyed_length in L2.
    eapply okeq_trans; [apply IH; congruence|].
    eapply okeq_trans; [|apply okeq_sym, okeq_assoc].
    apply okeq_bind; [apply okeq_refl|]. intros q _. apply okeq_refl.
  Qed.

  (** ** Element-major mode *)
  Lemma path_relabel (kf : nat * felem) su : fe_mat state (snd kf) = Standard state su -> forall hist l,
    okeq (path (fun (kf : nat * felem) (st : option (list state)) (h : T2 * T2 * T2) => rbind (elem_update (snd kf) st h) (fun r =>
                  Ok ((fst kf, force_list state (snd kf) (fst r)), Some (snd r)))) kf (Some l) hist)
         (rbind (path (elem_cell state stress_mf su pt) (snd kf) l hist) (fun r =>
            Ok (map (fun f => (fst kf, force_list state (snd kf) f)) (fst r), Some (snd r)))).
  Proof.
    intros EM. induction hist as [|h t IH]; intros l; [apply okeq_refl|]. cbn [path].
    unfold elem_update at 1. rewrite EM.
    eapply okeq_trans; [apply okeq_assoc|].
    eapply okeq_trans; [|apply okeq_sym, okeq_assoc].
    apply okeq_bind; [apply okeq_refl|]. intros r _. cbn [rbind fst snd].
    eapply okeq_trans.
    { apply okeq_bind; [apply IH|]. intros; apply okeq_refl. }
    eapply okeq_trans; [apply okeq_assoc|].
    eapply okeq_trans; [|apply okeq_sym, okeq_assoc]. apply okeq_refl.
  Qed.

  Lemma mapM_length {A B} (f : A -> res B) : forall l r, mapM f l = Ok r -> length r = length l.
  Proof.
    induction l as [|x l IH]; intros r H; cbn [mapM] in H; [inversion H; auto|].
    apply rbind_ok in H. destruct H as (y & _ & H). apply rbind_ok in H. destruct H as (ys & Y & H).
    inversion H; subst. simpl. f_equal. auto.
  Qed.

  (** Adding the assembled forces of one element. *)
  Lemma add_element_forces_ok (kf : nat * felem) : elem_ok kf -> forall meshes fs,
    Forall (fun m => length m = (n_node * n_dim)%nat) meshes ->
    add_element_forces state conn n_node (fst kf) (snd kf) meshes fs
    = Ok (map (fun p => add_single (fst p) (snd p))
            (combine meshes (map (fun f => (fst kf, force_list state (snd kf) f)) fs))).
  Proof.
    intros E. induction meshes as [|m ms IH]; intros [|f fs] F; cbn [add_element_forces map combine]; auto.
    assert (O : out_ok kf (fst kf, force_list state (snd kf) f)).
    { split; auto. apply force_list_length. }
    destruct (single_ok kf _ E O) as (A & L & _). rewrite A. cbn [rbind].
    pose proof (Forall_inv F) as Lm. cbv beta in Lm.
    rewrite add_lists_ok by congruence. cbn [rbind]. rewrite IH by exact (Forall_inv_tail F). reflexivity.
  Qed.

  Lemma add_singles_length kf meshes xs : elem_ok kf -> Forall (out_ok kf) xs ->
    Forall (fun m => length m = (n_node * n_dim)%nat) meshes ->
    Forall (fun m => length m = (n_node * n_dim)%nat)
      (map (fun p => add_single (fst p) (snd p)) (combine meshes xs)).
  Proof.
    intros E FO FM. revert xs FO. induction FM as [|m ms M1 M2 IH]; intros [|x xs] FO; simpl; constructor.
    - destruct (single_ok kf x E (Forall_inv FO)) as (_ & L & _).
      unfold add_single. simpl. rewrite ladd_length; congruence.
    - apply IH. exact (Forall_inv_tail FO).
  Qed.

  Lemma path_out kf : forall times st r, path ecell kf st times = Ok r -> Forall (out_ok kf) (fst r).
  Proof.
    induction times as [|t times IH]; intros st r H; cbn [path] in H; [inversion H; constructor|].
    apply rbind_ok in H. destruct H as (c & C & H). apply rbind_ok in H. destruct H as (q & Q & H).
    inversion H; subst. cbn [fst]. constructor; [eapply ecell_out; eauto|eauto].
  Qed.
  Lemma paths_out times : forall es sts P, length es = length sts -> paths ecell es sts times = Ok P ->
    Forall2 (fun e l => Forall (out_ok e) l) es (map fst P).
  Proof.
    induction es as [|e es IH]; intros [|st sts] P L H; simpl in L; try discriminate; cbn [paths] in H.
    - inversion H. constructor.
    - apply rbind_ok in H. destruct H as (r & R1 & H). apply rbind_ok in H. destruct H as (q & Q & H).
      inversion H; subst. cbn [map]. constructor; [eapply path_out; eauto|eauto].
  Qed.

  (** One element over all times. *)
  Lemma element_step kf l times meshes : times <> [] -> elem_ok kf -> state_ok kf (Some l) ->
    Forall (fun m => length m = (n_node * n_dim)%nat) meshes ->
    okeq (rbind (mapM (fun t => config t (fst kf)) times) (fun hist =>
          rbind (compute_element_internal_forces_hist state stress_mf Infinitesimal pt (snd kf) (Some l) hist) (fun r =>
          rbind (last_states state (length times) (snd r)) (fun lst =>
          rbind (add_element_forces state conn n_node (fst kf) (snd kf) meshes (fst r)) (fun meshes' =>
          Ok (meshes', lst))))))
         (rbind (path ecell kf (Some l) times) (fun r =>
          rbind (match snd r with Some l' => Ok l' | None => Err KeyError end) (fun l' =>
          Ok (map (fun p => add_single (fst p) (snd p)) (combine meshes (fst r)), l')))).
  Proof.
    intros NT E (l0 & E0 & L) FM. inversion E0; subst l0; clear E0.
    destruct E as (E1 & E2 & (su & EM)).
    assert (E : elem_ok kf) by (split; auto; split; eauto).
    eapply okeq_trans.
    2:{ apply okeq_sym. eapply okeq_trans.
        { apply okeq_bind.
          - apply (path_pre (fun (kf : nat * felem) t => config t (fst kf))
              (fun (kf : nat * felem) (st : option (list state)) (h : T2 * T2 * T2) => rbind (elem_update (snd kf) st h) (fun r =>
                 Ok ((fst kf, force_list state (snd kf) (fst r)), Some (snd r)))) kf times (Some l)).
          - intros; apply okeq_refl. }
        apply okeq_assoc. }
    apply okeq_bind; [apply okeq_refl|]. intros hist H.
    pose proof (mapM_length _ _ _ H) as LH.
    eapply okeq_trans.
    2:{ apply okeq_sym. eapply okeq_trans.
        { apply okeq_bind; [apply (path_relabel kf su EM)|]. intros; apply okeq_refl. }
        eapply okeq_trans; [apply okeq_assoc|].
        apply okeq_bind.
        - apply okeq_sym, (element_hist_path state stress_mf su pt (snd kf) EM hist l).
          + destruct hist; [destruct times; [congruence|discriminate]|discriminate].
          + exact L.
        - intros; apply okeq_refl. }
    eapply okeq_trans; [|apply okeq_sym, okeq_assoc].
    apply okeq_bind; [apply okeq_refl|]. intros r _.
    eapply okeq_trans; [|apply okeq_sym, okeq_assoc]. rewrite LH.
    apply okeq_bind; [apply okeq_refl|]. intros lst _.
    rewrite add_element_forces_ok by auto. cbn [rbind fst snd]. apply okeq_refl.
  Qed.

  Lemma path_some kf : elem_ok kf -> forall times l r, path ecell kf (Some l) times = Ok r ->
    exists l', snd r = Some l'.
  Proof.
    intros _. induction times as [|t times IH]; intros l r H; cbn [path] in H.
    - inversion H; subst. eexists; reflexivity.
    - apply rbind_ok in H. destruct H as (c & C & H). apply rbind_ok in H. destruct H as (q & Q & H).
      inversion H; subst. cbn [snd]. unfold ecell in C. apply rbind_ok in C. destruct C as (h & _ & C).
      apply rbind_ok in C. destruct C as (u & _ & C). inversion C; subst c. eauto.
  Qed.

  Lemma element_loop_paths n_time : n_time <> O -> forall fes key sts meshes,
    Forall elem_ok (keyed key fes) -> Forall2 state_ok (keyed key fes) sts ->
    Forall (fun m => length m = (n_node * n_dim)%nat) meshes ->
    okeq (element_loop state stress_mf conn n_node coords_init coords disps Infinitesimal pt n_time key fes sts meshes)
         (rbind (paths ecell (keyed key fes) sts (seq 0 n_time)) (fun P =>
            Ok (fold_left (fun ms l => map (fun p => add_single (fst p) (snd p)) (combine ms l)) (map fst P) meshes,
                map snd P))).
  Proof.
    intros NT. induction fes as [|fe fes IH]; intros key sts meshes FE FS FM.
    - inversion FS; subst. apply okeq_refl.
    - rewrite keyed_cons in *. inversion FS as [|? st ? sts' S1 S2]; subst.
      destruct S1 as (l & -> & Ll).
      pose proof (Forall_inv FE) as E1. pose proof (Forall_inv_tail FE) as E2.
      cbn [element_loop paths].
      assert (NT' : seq 0 n_time <> []) by (destruct n_time; [congruence|discriminate]).
      pose proof (element_step (key, fe) l (seq 0 n_time) meshes NT' E1
                    ltac:(exists l; auto) FM) as ST. cbn [fst snd] in ST. rewrite seq_length in ST.
      eapply okeq_trans.
      { instantiate (1 := rbind (rbind (path ecell (key, fe) (Some l) (seq 0 n_time)) (fun r =>
          rbind (match snd r with Some l' => Ok l' | None => Err KeyError end) (fun l' =>
          Ok (map (fun p => add_single (fst p) (snd p)) (combine meshes (fst r)), l'))))
         (fun m => rbind (element_loop state stress_mf conn n_node coords_init coords disps Infinitesimal
             pt n_time (S key) fes sts' (fst m)) (fun rest => Ok (fst rest, Some (snd m) :: snd rest)))).
        eapply okeq_trans.
        2:{ apply okeq_bind; [apply ST|]. intros; apply okeq_refl. }
        apply okeq_sym.
        eapply okeq_trans; [apply okeq_assoc|]. apply okeq_bind; [apply okeq_refl|]. intros hist _.
        eapply okeq_trans; [apply okeq_assoc|]. apply okeq_bind; [apply okeq_refl|]. intros r _.
        eapply okeq_trans; [apply okeq_assoc|]. apply okeq_bind; [apply okeq_refl|]. intros lst _.
        eapply okeq_trans; [apply okeq_assoc|]. apply okeq_bind; [apply okeq_refl|]. intros ms _.
        apply okeq_refl. }
      eapply okeq_trans; [apply okeq_assoc|].
      eapply okeq_trans; [|apply okeq_sym, okeq_assoc].
      apply okeq_bind; [apply okeq_refl|]. intros r R1.
      destruct (path_some (key, fe) E1 _ _ _ R1) as (l' & El'). rewrite El'. cbn [rbind fst snd].
      pose proof (path_out _ _ _ _ R1) as RO.
      eapply okeq_trans.
      { apply okeq_bind; [apply IH; auto|].
        - apply (add_singles_length (key, fe)); auto.
        - intros; apply okeq_refl. }
      eapply okeq_trans; [apply okeq_assoc|].
      eapply okeq_trans; [|apply okeq_sym, okeq_assoc].
      apply okeq_bind; [apply okeq_refl|]. intros P _. cbn [rbind map fold_left fst snd].
      rewrite El'. apply okeq_refl.
  Qed.

  Lemma fold_nth {A} (F : R -> nat -> A -> R) d : forall (M pre : list A) n0 acc, length pre = n0 ->
    fold_left (fun acc t => F acc t (nth t (pre ++ M) d)) (seq n0 (length M)) acc
    = fold_left (fun acc p => F acc (fst p) (snd p)) (combine (seq n0 (length M)) M) acc.
  Proof.
    induction M as [|x M IH]; intros pre n0 acc L; [reflexivity|].
    cbn [length seq fold_left combine fst snd].
    rewrite app_nth2, L, Nat.sub_diag by lia. cbn [nth].
    replace (pre ++ x :: M) with ((pre ++ [x]) ++ M) by (rewrite <- app_assoc; reflexivity).
    apply IH. rewrite app_length. simpl. lia.
  Qed.

  (** ** Main theorem *)
  (** Partial: Standard materials and at least one step; otherwise see recurrent_modes_refuted and no_time_steps_refuted. *)
  Theorem modes_agree_partial fes sts n_time : fes <> [] -> n_time <> O ->
    Forall elem_ok (keyed 1 fes) -> Forall2 state_ok (keyed 1 fes) sts ->
    forall v,
    forward_sequential_time state stress_mf conn n_node coords_init coords disps reaction bc norm weights
      Infinitesimal pt n_time fes sts = Ok v <->
    forward_sequential_element state stress_mf conn n_node coords_init coords disps reaction bc norm weights
      Infinitesimal pt n_time fes sts = Ok v.
  Proof.
    intros NE NT FE FS.
    assert (LS : length (keyed 1 fes) = length sts) by (clear -FS; induction FS; simpl; congruence).
    change (okeq (forward_sequential_time state stress_mf conn n_node coords_init coords disps reaction bc norm weights
      Infinitesimal pt n_time fes sts)
      (forward_sequential_element state stress_mf conn n_node coords_init coords disps reaction bc norm weights
      Infinitesimal pt n_time fes sts)).
    unfold forward_sequential_time, forward_sequential_element. rewrite PT. cbn [rbind fst snd].
    eapply okeq_trans.
    { apply (time_loop_sweeps fes NE FE). rewrite <- LS, keyed_length. reflexivity. }
    eapply okeq_trans.
    { apply okeq_bind; [apply interchange; exact LS|]. intros; apply okeq_refl. }
    eapply okeq_trans; [apply okeq_assoc|].
    eapply okeq_trans.
    2:{ apply okeq_sym. apply okeq_bind.
        - apply (element_loop_paths n_time NT fes 1 sts _ FE FS).
          apply Forall_forall. intros m Hm. apply in_map_iff in Hm. destruct Hm as (? & <- & _).
          apply repeat_length.
        - intros; apply okeq_refl. }
    eapply okeq_trans; [|apply okeq_sym, okeq_assoc].
    apply okeq_bind; [apply okeq_refl|]. intros P HP. cbn [rbind fst snd].
    pose proof (paths_length _ _ _ _ _ HP) as PL. rewrite seq_length in *.
    pose proof (transpose_rows out_ok n_time _ _ (paths_out _ _ _ _ LS HP)) as TR.
    assert (NE1 : keyed 1 fes <> []) by (destruct fes; [congruence|discriminate]).
    assert (EQ : fold_left (fun ms l => map (fun p => add_single (fst p) (snd p)) (combine ms l)) (map fst P)
               (map (fun _ => repeat 0 (n_node * n_dim)) (seq 0 n_time))
             = map asm (transpose n_time (map fst P))).
    { rewrite (fold_zip add_single n_time); auto.
      2:{ rewrite map_length, seq_length. reflexivity. }
      pose proof (transpose_length _ _ PL) as TL.
      generalize dependent (transpose n_time (map fst P)). intros M TR TL.
      rewrite <- TL. generalize 0%nat at 1 as s0.
      clear - PT NE1 FE TR. induction TR as [|row M T1 T2' IH]; intros s0; [reflexivity|].
      cbn [length seq map combine fst snd]. f_equal; [|apply IH].
      apply (singles_are_assembly (keyed 1 fes)); auto. }
    rewrite EQ.
    pose proof (transpose_length _ _ PL) as TL.
    generalize dependent (transpose n_time (map fst P)). intros M TR _ TL.
    replace (hist_loss norm n_node n_dim n_time weights
              (fun t => mesh_fun n_dim (nth t (map asm M) [])) (fun _ _ _ => 0) reaction bc)
      with (fold_left (fun l p => add_loss l (fst p) (snd p)) (combine (seq 0 n_time) (map asm M)) 0);
      [apply okeq_refl|].
    unfold hist_loss.
    pose proof (fold_nth add_loss [] (map asm M) [] 0 0 eq_refl) as FN.
    rewrite map_length, TL in FN. rewrite <- FN. reflexivity.
  Qed.
End Mesh.

(** ** Increments *)
Lemma nth_map_default {A B} (f : A -> B) d0 d1 : forall l a, (a < length l)%nat ->
  nth a (map f l) d1 = f (nth a l d0).
Proof. induction l; intros [|k] H; simpl in *; try lia; auto. apply IHl. lia. Qed.

Lemma combine_nth_default {A B} (l : list A) (m : list B) a x y :
  length l = length m -> nth a (combine l m) (x, y) = (nth a l x, nth a m y).
Proof. apply combine_nth. Qed.

Lemma sub_rows_nth u v a d n : length u = length v ->
  (forall r, In r u -> length r = n) -> (forall r, In r v -> length r = n) ->
  (a < length u)%nat -> (d < n)%nat ->
  rows_fun (sub_rows u v) a d = rows_fun u a d - rows_fun v a d.
Proof.
  intros L Hu Hv Ha Hd. unfold rows_fun, sub_rows.
  rewrite (nth_map_default _ ([], [])) by (rewrite combine_length; lia).
  rewrite combine_nth by auto. cbn [fst snd].
  assert (L1 : length (nth a u []) = n) by (apply Hu, nth_In; auto).
  assert (L2 : length (nth a v []) = n) by (apply Hv, nth_In; lia).
  rewrite (nth_map_default _ (0, 0)) by (rewrite combine_length; lia).
  rewrite combine_nth by lia. reflexivity.
Qed.

Lemma gathered_rows rows nodes n_node n_dim : nodal_array n_node n_dim rows -> labels_in_range n_node nodes ->
  (forall r, In r (map (fun x => nth (Z.to_nat x - 1) rows []) nodes) -> length r = n_dim) /\
  forall a d, (a < length nodes)%nat ->
    rows_fun (map (fun x => nth (Z.to_nat x - 1) rows []) nodes) a d = node_value rows nodes a d.
Proof.
  intros [L H] HR. split.
  - intros r Hr. apply in_map_iff in Hr. destruct Hr as (x & <- & Hx). apply H, nth_In.
    pose proof (HR x Hx). lia.
  - intros a d Ha. unfold rows_fun, node_value.
    rewrite (nth_map_default _ 0%Z) by auto. reflexivity.
Qed.

(** Success and value of the strain operator at a Gauss point. *)
Lemma gp_strain_ext n_dim order el c X X' u u' :
  (forall a d, (a < el_n_node el)%nat -> (d < el_n_dim el)%nat -> u a d = u' a d) ->
  X = X' -> gp_strain n_dim order el c X u = gp_strain n_dim order el c X' u'.
Proof.
  intros H <-. unfold gp_strain. destruct (eval_shapefun_deriv el X c) as [r|e]; [|reflexivity].
  cbn [rbind]. destruct (vbuild_discrete_sym_gradient _ _ _ order) as [B|e]; [|reflexivity].
  cbn [rbind]. f_equal. unfold compute_infinitesimal_strain. apply map_ext. intros k.
  apply rsum_ext. intros m Hm. unfold flatten. f_equal.
  assert (el_n_dim el <> 0)%nat by (intros E; rewrite E in Hm; lia).
  apply H; [apply Nat.div_lt_upper_bound; lia|apply Nat.mod_upper_bound; auto].
Qed.

(** One linear operator describes all strains at a Gauss point. *)
Lemma gp_strain_linear n_dim order el c X u0 e0 :
  gp_strain n_dim order el c X u0 = Ok e0 ->
  exists K : nat -> nat -> nat -> R, forall u, exists e,
    gp_strain n_dim order el c X u = Ok e /\
    forall i j, e i j = rsum (el_n_node el * el_n_dim el) (fun k => K i j k * flatten (el_n_dim el) u k).
Proof.
  unfold gp_strain. destruct (eval_shapefun_deriv el X c) as [r|]; [|discriminate].
  cbn [rbind]. destruct (vbuild_discrete_sym_gradient _ _ _ order) as [B|]; [|discriminate].
  cbn [rbind]. unfold vget_strain_from_vmf, compute_infinitesimal_strain.
  rewrite map_length, seq_length, Nat.eqb_refl. cbn [negb].
  destruct (sym_index_total n_dim order); [|discriminate]. intros _. cbn [negb].
  exists (fun i j k => match sym_index i j order with
    | Some m => (if Nat.ltb m (length order) then B m k else 0) *
                (if offdiag (nth m order (0,0)%nat) then 1/2 else 1)
    | None => 0 end).
  intros u. rewrite map_length, seq_length, Nat.eqb_refl. cbn [negb].
  eexists. split; [reflexivity|]. intros i j. cbv beta.
  destruct (sym_index i j order) as [m|].
  - destruct (Nat.ltb_spec m (length order)) as [Hm|Hm].
    + rewrite (nth_map_default _ 0%nat) by (rewrite seq_length; auto).
      rewrite seq_nth by auto. simpl. rewrite Rmult_comm, <- rsum_scal. apply rsum_ext. intros. ring.
    + rewrite nth_overflow by (rewrite map_length, seq_length; lia).
      rewrite rsum_zero; [ring|]. intros. ring.
  - rewrite rsum_zero; [ring|]. intros. ring.
Qed.

Section Increments.
  Variable conn : list (list Z).
  Variables (n_node n_dim : nat) (coords_init coords : list (list R)) (disps : nat -> list (list R)).
  Variables (pd : nat) (order : list comp) (el : element) (c : list R).
  Variables (key : nat) (nodes : list Z).
  Hypothesis C : conn_of conn key = Some nodes.
  Hypothesis HR : labels_in_range n_node nodes.
  Hypothesis LN : length nodes = el_n_node el.
  Hypothesis LD : el_n_dim el = n_dim.
  Hypothesis HX : nodal_array n_node n_dim coords.
  Hypothesis HU : forall t, nodal_array n_node n_dim (disps t).

  (** The configuration of an element at a step. *)
  Lemma element_config_value t : exists h,
    element_config conn coords_init coords disps Infinitesimal t key = Ok h /\
    (forall s h', element_config conn coords_init coords disps Infinitesimal s key = Ok h' ->
       fst (fst h') = fst (fst h)) /\
    forall a d, (a < el_n_node el)%nat -> (d < el_n_dim el)%nat ->
      fst (fst h) a d = node_value coords nodes a d /\
      snd (fst h) a d = node_value (disps t) nodes a d /\
      snd h a d = node_value (disps t) nodes a d - node_value (disps (t - 1)) nodes a d.
  Proof.
    destruct HX as [LX _].
    unfold element_config, config_coords.
    rewrite (element_configuration_value conn coords key nodes []) by (auto; rewrite LX; auto).
    pose proof (fun t => element_configuration_value conn (disps t) key nodes [] C) as V.
    assert (V' : forall t, get_element_configuration conn (disps t) key
      = Ok (map (fun x => nth (Z.to_nat x - 1) (disps t) []) nodes)).
    { intros s. apply V. destruct (HU s) as [Ls _]. rewrite Ls. exact HR. }
    rewrite V', V'. cbn [rbind]. eexists. split; [reflexivity|]. split.
    - intros s h'. rewrite !V'. cbn [rbind]. intros H. inversion H. reflexivity.
    - intros a d Ha Hd. cbn [fst snd]. rewrite <- LN in Ha.
      destruct (gathered_rows _ _ _ _ HX HR) as [_ G1].
      destruct (gathered_rows _ _ _ _ (HU t) HR) as [R2 G2].
      destruct (gathered_rows _ _ _ _ (HU (time_idx_old t)) HR) as [R3 G3].
      rewrite G1, G2 by auto. split; [reflexivity|]. split; [reflexivity|].
      rewrite (sub_rows_nth _ _ a d n_dim).
      + rewrite G2, G3 by auto. unfold time_idx_old. rewrite Nat.max_0_l. reflexivity.
      + rewrite !map_length. reflexivity.
      + exact R2.
      + exact R3.
      + rewrite map_length. exact Ha.
      + rewrite <- LD. exact Hd.
  Qed.

  (** The strain increments handed to a standard material up to step [t] add up
      to the strain of the displacement gained since the first step; a recurrent
      material gets the strain of the displacement itself. *)
  Theorem increments_telescope u_any e_any :
    gp_strain pd order el c (rows_fun (map (fun x => nth (Z.to_nat x - 1) coords []) nodes)) u_any = Ok e_any ->
    exists inc tot : nat -> T2,
      (forall t, exists h,
        element_config conn coords_init coords disps Infinitesimal t key = Ok h /\
        gp_strain pd order el c (fst (fst h)) (snd h) = Ok (inc t) /\
        gp_strain pd order el c (fst (fst h)) (snd (fst h)) = Ok (tot t)) /\
      forall t i j, rsum (S t) (fun s => inc s i j) = tot t i j - tot 0%nat i j.
  Proof.
    intros OK. destruct (gp_strain_linear _ _ _ _ _ _ _ OK) as (K & HK).
    set (X := rows_fun (map (fun x => nth (Z.to_nat x - 1) coords []) nodes)) in *.
    assert (EX : forall t h, element_config conn coords_init coords disps Infinitesimal t key = Ok h -> fst (fst h) = X).
    { intros t h. unfold element_config, config_coords.
      rewrite (element_configuration_value conn coords key nodes []) by (auto; destruct HX as [LX _]; rewrite LX; auto).
      destruct (get_element_configuration conn (disps t) key); [|discriminate].
      destruct (get_element_configuration conn (disps (time_idx_old t)) key); [|discriminate].
      cbn [rbind]. intros H. inversion H. reflexivity. }
    set (U := fun t => node_value (disps t) nodes).
    set (val := fun (u : T2) i j => rsum (el_n_node el * el_n_dim el) (fun k => K i j k * flatten (el_n_dim el) u k)).
    set (pick := fun u => match gp_strain pd order el c X u with Ok e => e | Err _ => fun _ _ => 0 end).
    assert (P1 : forall u, gp_strain pd order el c X u = Ok (pick u)).
    { intros u. destruct (HK u) as (e & E & _). unfold pick. rewrite E. reflexivity. }
    assert (P2 : forall u i j, pick u i j = val u i j).
    { intros u i j. destruct (HK u) as (e & E & V). unfold pick. rewrite E. apply V. }
    exists (fun t => pick (fun a d => U t a d - U (t - 1)%nat a d)), (fun t => pick (U t)). split.
    - intros t. destruct (element_config_value t) as (h & E & _ & V). exists h. split; [exact E|].
      rewrite (EX _ _ E), <- !P1. split; apply gp_strain_ext; auto; intros a d Ha Hd;
        destruct (V a d Ha Hd) as (_ & V1 & V2); auto.
    - intros t i j.
      assert (LIN : forall s, pick (fun a d => U s a d - U (s - 1)%nat a d) i j = pick (U s) i j - pick (U (s - 1)%nat) i j).
      { intros s. rewrite !P2. unfold val. rewrite <- rsum_minus. apply rsum_ext. intros k _.
        unfold flatten. ring. }
      induction t as [|t IH].
      + cbn [rsum]. rewrite LIN. simpl. lra.
      + change (rsum (S (S t)) (fun s => pick (fun a d => U s a d - U (s - 1)%nat a d) i j))
          with (rsum (S t) (fun s => pick (fun a d => U s a d - U (s - 1)%nat a d) i j)
                + pick (fun a d => U (S t) a d - U (S t - 1)%nat a d) i j).
        rewrite IH, LIN. replace (S t - 1)%nat with t by lia. lra.
  Qed.

  (** With a vanishing first displacement the increments add up to the strain of
      the displacement itself. *)
  (** Partial: Vanishing first displacement only; otherwise see first_displacement_lost_refuted. *)
  Corollary increments_from_rest_partial u_any e_any :
    (forall a d, (a < length nodes)%nat -> (d < n_dim)%nat -> node_value (disps 0%nat) nodes a d = 0) ->
    gp_strain pd order el c (rows_fun (map (fun x => nth (Z.to_nat x - 1) coords []) nodes)) u_any = Ok e_any ->
    exists inc tot : nat -> T2,
      (forall t, exists h,
        element_config conn coords_init coords disps Infinitesimal t key = Ok h /\
        gp_strain pd order el c (fst (fst h)) (snd h) = Ok (inc t) /\
        gp_strain pd order el c (fst (fst h)) (snd (fst h)) = Ok (tot t)) /\
      forall t i j, rsum (S t) (fun s => inc s i j) = tot t i j.
  Proof.
    intros Z0 OK. destruct (increments_telescope u_any e_any OK) as (inc & tot & A & B).
    exists inc, tot. split; auto. intros t i j. rewrite B.
    assert (T0 : tot 0%nat i j = 0); [|lra].
    destruct (A 0%nat) as (h & E & _ & E2).
    destruct (element_config_value 0) as (h' & E' & _ & V). rewrite E in E'. inversion E'; subst h'.
    destruct (gp_strain_linear _ _ _ _ _ _ _ E2) as (K & HK).
    destruct (HK (snd (fst h))) as (e & Ee & Ve). rewrite Ee in E2. inversion E2; subst e.
    rewrite Ve. apply rsum_zero. intros k Hk. unfold flatten.
    assert (el_n_dim el <> 0)%nat by (intros Q; rewrite Q in Hk; lia).
    destruct (V (k / el_n_dim el)%nat (k mod el_n_dim el)%nat) as (_ & V1 & _).
    - apply Nat.div_lt_upper_bound; lia.
    - apply Nat.mod_upper_bound; auto.
    - rewrite V1, Z0; [ring| |].
      + rewrite LN. apply Nat.div_lt_upper_bound; lia.
      + rewrite <- LD. apply Nat.mod_upper_bound; auto.
  Qed.
End Increments.

(** ** The modes succeed on every well-formed mesh *)
Definition elem_coords (coords : list (list R)) (nodes : list Z) : T2 :=
  rows_fun (map (fun x => nth (Z.to_nat x - 1) coords []) nodes).

Section Total.
  Variable state : Type.
  Variable stress_mf : state -> list R.
  Variable conn : list (list Z).
  Variable n_node : nat.
  Variables coords_init coords : list (list R).
  Variable disps : nat -> list (list R).
  Variable reaction : nat -> T2.
  Variable bc : labels.
  Variable norm : option (list R * list R).
  Variable weights : nat -> R.
  Variable pt : nat.
  Variables (n_dim : nat) (order nsym : list comp).
  Hypothesis PT : get_problem_type_parameters pt = Ok (n_dim, order, nsym).
  Hypothesis HX : nodal_array n_node n_dim coords.
  Hypothesis HU : forall t, nodal_array n_node n_dim (disps t).

  (** Non-singular element maps and stresses of the right size. *)
  Definition regular (kf : nat * felem state) : Prop :=
    (forall nodes cw, conn_of conn (fst kf) = Some nodes -> In cw (fe_rule state (snd kf)) ->
       det n_dim (fst (fst (eval_jacobian (fe_el state (snd kf)) (elem_coords coords nodes) (fst cw)))) <> 0) /\
    (forall su e s, fe_mat state (snd kf) = Standard state su -> length (stress_mf (su e s)) = length order).

  Lemma gauss_loop_total su el X u : el_n_dim el = n_dim ->
    (forall e s, length (stress_mf (su e s)) = length order) ->
    forall rule states i acc,
    (forall cw, In cw rule -> exists r, eval_shapefun_deriv el X (fst cw) = Ok r) ->
    (i + length rule <= length states)%nat ->
    exists f sts, gauss_loop state su stress_mf Infinitesimal n_dim order el X u states
      (combine (seq i (length rule)) rule) acc = Ok (f, sts) /\ length sts = (length (snd acc) + length rule)%nat.
  Proof.
    intros ED HL rule. induction rule as [|cw rule IH]; intros states i acc HE LS.
    - simpl. destruct acc as [f s]. exists f, s. split; [reflexivity|simpl; lia].
    - cbn [length seq combine gauss_loop].
      assert (ST : exists acc', gauss_point_step state su stress_mf Infinitesimal n_dim order el X u states acc (i, cw) = Ok acc'
                     /\ length (snd acc') = S (length (snd acc))).
      { unfold gauss_point_step. cbn [fst snd].
        destruct (HE cw (or_introl eq_refl)) as ([[sfd J] dJ] & E). rewrite E. cbn [rbind]. rewrite ED.
        assert (VB : exists B, vbuild_discrete_sym_gradient sfd (el_n_node el) n_dim order = Ok B).
        { destruct pt as [|[|[|[|[|q]]]]]; simpl in PT; try discriminate; inversion PT; subst n_dim order;
            eexists; reflexivity. }
        destruct VB as (B & EB). rewrite EB. cbn [rbind].
        match goal with |- context [vget_strain_from_vmf ?v n_dim order] =>
          assert (VS : exists e, vget_strain_from_vmf v n_dim order = Ok e) end.
        { unfold vget_strain_from_vmf, compute_infinitesimal_strain. rewrite map_length, seq_length, Nat.eqb_refl.
          destruct pt as [|[|[|[|[|q]]]]]; simpl in PT; try discriminate; inversion PT; subst n_dim order;
            eexists; reflexivity. }
        destruct VS as (e & ES). rewrite ES. cbn [rbind].
        destruct (nth_error states i) as [st|] eqn:EN.
        2:{ apply nth_error_None in EN. simpl in LS. lia. }
        assert (VT : exists s, vget_tensor_from_mf2 (stress_mf (su e st)) n_dim order true = Ok s).
        { unfold vget_tensor_from_mf2. rewrite HL, Nat.eqb_refl.
          destruct pt as [|[|[|[|[|q]]]]]; simpl in PT; try discriminate; inversion PT; subst n_dim order;
            eexists; reflexivity. }
        destruct VT as (s & ET). rewrite ET. cbn [rbind]. unfold vget_stress_vmf. cbn [rbind].
        eexists. split; [reflexivity|]. cbn [snd]. rewrite app_length. simpl. lia. }
      destruct ST as (acc' & E & L'). rewrite E. cbn [rbind].
      destruct (IH states (S i) acc') as (f & sts & E2 & L2).
      { intros c Hc. apply HE. right. auto. }
      { simpl in LS. lia. }
      exists f, sts. split; [exact E2|]. simpl. lia.
  Qed.

  Lemma ecell_total kf st t : elem_ok state conn n_node n_dim kf -> regular kf -> state_ok state kf st ->
    exists o st', ecell state stress_mf conn coords_init coords disps pt kf st t = Ok (o, st') /\ state_ok state kf st'.
  Proof.
    intros ((nodes & C & NN & HR & LN) & ED & (su & EM)) (RG & RL) (l & -> & LL).
    unfold ecell.
    destruct (element_config_value conn n_node n_dim coords_init coords disps (fe_el state (snd kf)) (fst kf) nodes
                C HR LN ED HX HU t) as (h & E & _ & _).
    assert (EX : fst (fst h) = elem_coords coords nodes).
    { revert E. unfold element_config, config_coords.
      rewrite (element_configuration_value conn coords (fst kf) nodes []) by (auto; destruct HX as [LX _]; rewrite LX; auto).
      destruct (get_element_configuration conn (disps t) (fst kf)); [|discriminate].
      destruct (get_element_configuration conn (disps (time_idx_old t)) (fst kf)); [|discriminate].
      cbn [rbind]. intros H. inversion H. reflexivity. }
    rewrite E. cbn [rbind]. unfold elem_update. rewrite EM. unfold elem_cell, compute_element_internal_forces.
    rewrite PT. cbn [rbind].
    destruct (gauss_loop_total su (fe_el state (snd kf)) (fst (fst h)) (snd h) ED
                (fun e s => RL su e s EM) (fe_rule state (snd kf)) l 0 ((fun _ => 0), [])) as (f & sts & E2 & L2).
    - intros cw Hcw. rewrite EX. apply shapefun_deriv_defined. rewrite ED. apply RG; auto.
    - simpl. lia.
    - rewrite E2. cbn [rbind fst snd]. eexists. eexists. split; [reflexivity|].
      exists sts. split; auto.
  Qed.

  Lemma sweep_total t : forall es sts, Forall (elem_ok state conn n_node n_dim) es -> Forall regular es ->
    Forall2 (state_ok state) es sts ->
    exists row sts', sweep (ecell state stress_mf conn coords_init coords disps pt) es sts t = Ok (row, sts') /\
      Forall2 (state_ok state) es sts'.
  Proof.
    intros es sts FE FR FS. revert FE FR. induction FS as [|e st es sts S1 S2 IH]; intros FE FR.
    - exists [], []. split; auto. 
    - destruct (ecell_total e st t (Forall_inv FE) (Forall_inv FR) S1) as (o & st' & E & SO).
      destruct (IH (Forall_inv_tail FE) (Forall_inv_tail FR)) as (row & sts' & E2 & SO2).
      cbn [sweep]. rewrite E. cbn [rbind fst snd]. rewrite E2. cbn [rbind fst snd].
      eexists. eexists. split; [reflexivity|]. constructor; auto.
  Qed.

  Lemma sweeps_total : forall times es sts, Forall (elem_ok state conn n_node n_dim) es -> Forall regular es ->
    Forall2 (state_ok state) es sts ->
    exists r, sweeps (ecell state stress_mf conn coords_init coords disps pt) es sts times = Ok r.
  Proof.
    induction times as [|t times IH]; intros es sts FE FR FS; [eexists; reflexivity|].
    destruct (sweep_total t es sts FE FR FS) as (row & sts' & E & SO). cbn [sweeps]. rewrite E. cbn [rbind fst snd].
    destruct (IH es sts' FE FR SO) as (r & E2). rewrite E2. eexists. reflexivity.
  Qed.

  (** Both modes return, with the same loss and the same final states. *)
  (** Partial: Same restrictions as modes_agree_partial. *)
  Theorem modes_succeed_and_agree_partial fes sts n_time : fes <> [] -> n_time <> O ->
    Forall (elem_ok state conn n_node n_dim) (keyed state 1 fes) -> Forall regular (keyed state 1 fes) ->
    Forall2 (state_ok state) (keyed state 1 fes) sts ->
    exists v,
    forward_sequential_time state stress_mf conn n_node coords_init coords disps reaction bc norm weights
      Infinitesimal pt n_time fes sts = Ok v /\
    forward_sequential_element state stress_mf conn n_node coords_init coords disps reaction bc norm weights
      Infinitesimal pt n_time fes sts = Ok v.
  Proof.
    intros NE NT FE FR FS.
    destruct (sweeps_total (seq 0 n_time) _ _ FE FR FS) as (r & E).
    pose proof (modes_agree_partial state stress_mf conn n_node coords_init coords disps reaction bc norm weights pt
                  n_dim order nsym PT fes sts n_time NE NT FE FS) as MA.
    assert (LS : length fes = length sts).
    { rewrite <- (keyed_length state 1 fes). clear -FS. induction FS; simpl; congruence. }
    assert (T : exists v, forward_sequential_time state stress_mf conn n_node coords_init coords disps reaction bc norm weights
      Infinitesimal pt n_time fes sts = Ok v).
    { unfold forward_sequential_time. rewrite PT. cbn [rbind fst snd]. eexists.
      apply (time_loop_sweeps state stress_mf conn n_node coords_init coords disps reaction bc norm weights pt
               n_dim fes NE FE (seq 0 n_time) sts 0 LS).
      rewrite E. cbn [rbind]. reflexivity. }
    destruct T as (v & T). exists v. split; [exact T|]. apply MA. exact T.
  Qed.
End Total.

(** ** Concrete cases *)
(** A rectangle of four nodes, stretched along the first direction. *)
Definition ex_conn : list (list Z) := [[1; 2; 3; 4]%Z].
Definition ex_coords : list (list R) := [[0; 0]; [2; 0]; [2; 1]; [0; 1]].
Definition ex_stretch : list (list R) := [[0; 0]; [2; 0]; [2; 0]; [0; 0]].
Definition ex_rest : list (list R) := [[0; 0]; [0; 0]; [0; 0]; [0; 0]].
Definition ex_disps (t : nat) : list (list R) := match t with O => ex_rest | _ => ex_stretch end.
Definition ex_su (e : T2) (s : list R) : list R :=
  [nth 0 s 0 + e 0%nat 0%nat; nth 1 s 0 + e 1%nat 1%nat; 7].
Definition ex_fe : felem (list R) :=
  Build_felem (list R) quad4 [([0; 0], 4)] (Standard (list R) ex_su).
Definition ex_rfe : felem (list R) :=
  Build_felem (list R) quad4 [([0; 0], 4)]
    (Recurrent (list R) (fun es => map (fun e : T2 => [e 0%nat 0%nat; e 1%nat 1%nat; 7]) es)).

Lemma ex_labels : labels_in_range 4 [1; 2; 3; 4]%Z.
Proof. intros x Hx. simpl in Hx. destruct Hx as [<-|[<-|[<-|[<-|[]]]]]; lia. Qed.
Lemma ex_array rows : In rows [ex_coords; ex_stretch; ex_rest] -> nodal_array 4 2 rows.
Proof.
  simpl. intros [<-|[<-|[<-|[]]]]; (split; [reflexivity|]); intros r; simpl;
    intros [<-|[<-|[<-|[<-|[]]]]]; reflexivity.
Qed.
Lemma ex_det : det 2 (fst (fst (eval_jacobian quad4 (elem_coords ex_coords [1; 2; 3; 4]%Z) [0; 0]))) <> 0.
Proof. unfold eval_jacobian, local_deriv, elem_coords, rows_fun, ex_coords. simpl. lra. Qed.

(** The hypotheses of the agreement theorem hold for this mesh. *)
Example ex_modes_agree : exists v,
  forward_sequential_time (list R) (fun s => s) ex_conn 4 ex_coords ex_coords ex_disps
    (fun _ _ _ => 0) (fun _ _ => 0%Z) None (fun _ => 1) Infinitesimal 1 3 [ex_fe] [Some [[0; 0; 0]]] = Ok v /\
  forward_sequential_element (list R) (fun s => s) ex_conn 4 ex_coords ex_coords ex_disps
    (fun _ _ _ => 0) (fun _ _ => 0%Z) None (fun _ => 1) Infinitesimal 1 3 [ex_fe] [Some [[0; 0; 0]]] = Ok v.
Proof.
  eapply (modes_succeed_and_agree_partial (list R) (fun s => s) ex_conn 4 ex_coords ex_coords ex_disps); try discriminate.
  - reflexivity.
  - apply ex_array. simpl. auto.
  - intros t; apply ex_array; destruct t; simpl; auto.
  - constructor; [|constructor]. split; [|split].
    + exists [1; 2; 3; 4]%Z. split; [reflexivity|]. split; [discriminate|]. split; [exact ex_labels|reflexivity].
    + reflexivity.
    + eexists; reflexivity.
  - constructor; [|constructor]. split.
    + intros nodes cw E Hc. simpl in E. inversion E; subst nodes. simpl in Hc. destruct Hc as [<-|[]]. exact ex_det.
    + intros su e s E. simpl in E. inversion E; subst su. reflexivity.
  - constructor; [|constructor]. exists [[0; 0; 0]]. split; reflexivity.
Qed.

(** Elements with a recurrent material carry no states: the time-major mode
    always raises, for every mesh and history. *)
Theorem recurrent_time_mode_raises state stress_mf conn n_node ci co disps reac bc norm w pt n_time fe fes st sts v :
  (exists rsu, fe_mat state fe = Recurrent state rsu) ->
  n_time <> O ->
  forward_sequential_time state stress_mf conn n_node ci co disps reac bc norm w
    Infinitesimal pt n_time (fe :: fes) (st :: sts) <> Ok v.
Proof.
  intros (rsu & EM) NT E. unfold forward_sequential_time in E.
  destruct (get_problem_type_parameters pt); [|discriminate]. cbn [rbind] in E.
  destruct n_time as [|m]; [congruence|]. cbn [seq time_loop time_elements] in E. rewrite EM in E.
  destruct (element_config conn ci co disps Infinitesimal 0 1); [|discriminate]. cbn [rbind] in E.
  destruct st; discriminate.
Qed.

Lemma rows_fun_ex : rows_fun ex_coords = elem_coords ex_coords [1; 2; 3; 4]%Z.
Proof. reflexivity. Qed.

(** The element-major mode succeeds on the same input. *)
Theorem recurrent_modes_refuted : exists fe,
  (exists v, forward_sequential_element (list R) (fun s => s) ex_conn 4 ex_coords ex_coords ex_disps
    (fun _ _ _ => 0) (fun _ _ => 0%Z) None (fun _ => 1) Infinitesimal 1 1 [fe] [None] = Ok v) /\
  forall v, forward_sequential_time (list R) (fun s => s) ex_conn 4 ex_coords ex_coords ex_disps
    (fun _ _ _ => 0) (fun _ _ => 0%Z) None (fun _ => 1) Infinitesimal 1 1 [fe] [None] <> Ok v.
Proof.
  exists ex_rfe. split.
  2:{ intros v. apply recurrent_time_mode_raises; [eexists; reflexivity|discriminate]. }
  unfold forward_sequential_element. cbn [get_problem_type_parameters rbind fst snd element_loop seq mapM].
  assert (EC : exists u du, element_config ex_conn ex_coords ex_coords ex_disps Infinitesimal 0 1
             = Ok (rows_fun ex_coords, u, du)) by (eexists; eexists; reflexivity).
  destruct EC as (u & du & EC). rewrite EC. cbn [rbind].
  unfold compute_element_internal_forces_hist.
  cbn [get_problem_type_parameters rbind ex_rfe fe_rule length seq combine gp_hist_loop fst snd].
  unfold gp_hist. cbn [fe_mat fe_el mapM fst snd].
  destruct (proj2 (shapefun_deriv_defined quad4 (elem_coords ex_coords [1; 2; 3; 4]%Z) [0; 0]) ex_det) as (r & ER).
  rewrite <- rows_fun_ex in ER. fold order_sym_2d.
  assert (GS : exists e, gp_strain 2 order_sym_2d quad4 [0; 0] (rows_fun ex_coords) u = Ok e).
  { unfold gp_strain. rewrite ER. cbn [rbind]. eexists. reflexivity. }
  destruct GS as (e & GS). change (fe_el (list R) ex_rfe) with quad4. rewrite GS. cbn [ex_rfe fe_mat].
  cbn [rbind map combine mapM].
  assert (GF : exists f, gp_force (list R) (fun s => s) 2 order_sym_2d quad4 ([0; 0], 4)
     (rows_fun ex_coords, [e 0%nat 0%nat; e 1%nat 1%nat; 7]) = Ok f).
  { unfold gp_force. cbn [fst snd]. 
    assert (VT : exists s, vget_tensor_from_mf2 [e 0%nat 0%nat; e 1%nat 1%nat; 7] 2 order_sym_2d true = Ok s) by (eexists; reflexivity).
    destruct VT as (s & VT). rewrite VT. cbn [rbind]. unfold vget_stress_vmf. cbn [rbind].
    rewrite ER. cbn [rbind]. eexists. reflexivity. }
  destruct GF as (f & GF). cbn [fst snd]. rewrite GF. cbn [rbind fst snd app].
  cbn [last_states mapM nth_error rbind add_forces map combine].
  cbn [add_element_forces].
  match goal with |- context [element_assembler ex_conn 4 ?a] =>
    assert (AS : exists x, element_assembler ex_conn 4 a = Ok x /\ length x = 8%nat) end.
  { destruct (assembly_value ex_conn 2 4 [(1%nat, force_list (list R) ex_rfe (fun k => 0 + f k))]) as (x & Ex & Lx & _).
    - discriminate.
    - intros key a [Ha|[]]. inversion Ha; subst. exists [1; 2; 3; 4]%Z.
      split; [reflexivity|]. split; [discriminate|]. split; [exact ex_labels|reflexivity].
    - exists x. split; [exact Ex|exact Lx]. }
  destruct AS as (x & Ex & Lx). cbn [fst snd] in Ex |- *. rewrite Ex. cbn [rbind].
  unfold add_lists. rewrite Lx. cbn [length repeat Nat.mul Nat.add Nat.eqb rbind element_loop fst snd].
  eexists. reflexivity.
Qed.

(** Without time steps one mode returns a zero loss and the other raises. *)
Theorem no_time_steps_refuted state stress_mf conn n_node ci co disps reac bc norm w fe st :
  forward_sequential_time state stress_mf conn n_node ci co disps reac bc norm w
    Infinitesimal 1 0 [fe] [st] = Ok (0, [st]) /\
  (forall v, forward_sequential_element state stress_mf conn n_node ci co disps reac bc norm w
    Infinitesimal 1 0 [fe] [st] <> Ok v).
Proof.
  split; [reflexivity|]. intros v E. unfold forward_sequential_element in E.
  cbn [get_problem_type_parameters rbind element_loop seq mapM] in E.
  destruct (compute_element_internal_forces_hist state stress_mf Infinitesimal 1 fe st []); [|discriminate].
  discriminate.
Qed.

(** With a non-zero first displacement the accumulated increments differ from
    the strain of the displacement: the first increment is always zero. *)
Theorem first_displacement_lost_refuted : exists disps h inc tot,
  (forall t, nodal_array 4 2 (disps t)) /\
  element_config ex_conn ex_coords ex_coords disps Infinitesimal 0 1 = Ok h /\
  gp_strain 2 order_sym_2d quad4 [0; 0] (fst (fst h)) (snd h) = Ok inc /\
  gp_strain 2 order_sym_2d quad4 [0; 0] (fst (fst h)) (snd (fst h)) = Ok tot /\
  inc 0%nat 0%nat = 0 /\ tot 0%nat 0%nat = 1.
Proof.
  destruct (proj2 (shapefun_deriv_defined quad4 (elem_coords ex_coords [1; 2; 3; 4]%Z) [0; 0]) ex_det) as (r & ER).
  pose (disps := fun _ : nat => ex_stretch).
  assert (HD : forall t, nodal_array 4 2 (disps t)) by (intros t; apply ex_array; simpl; auto).
  assert (HC : nodal_array 4 2 ex_coords) by (apply ex_array; simpl; auto).
  destruct (patch_test quad4 (elem_coords ex_coords [1; 2; 3; 4]%Z) [0; 0] (fun _ => 0)
              (fun a b => if andb (Nat.eqb a 0) (Nat.eqb b 0) then 1 else 0) order_sym_2d r) as (B & s & B1 & S1 & Q).
  { simpl. auto 12. }
  { reflexivity. }
  { apply (proj1 (problem_type_orders 1 2 order_sym_2d order_nsym_2d eq_refl)). }
  { exact ER. }
  assert (GS : gp_strain 2 order_sym_2d quad4 [0; 0] (elem_coords ex_coords [1; 2; 3; 4]%Z)
    (affine_field 2 (fun _ => 0) (fun a b => if andb (Nat.eqb a 0) (Nat.eqb b 0) then 1 else 0)
       (elem_coords ex_coords [1; 2; 3; 4]%Z)) = Ok s).
  { unfold gp_strain. rewrite ER. cbn [rbind]. rewrite B1. cbn [rbind]. exact S1. }
  destruct (increments_telescope ex_conn 4 2 ex_coords ex_coords disps 2 order_sym_2d quad4 [0; 0] 1 [1; 2; 3; 4]%Z
    eq_refl ex_labels eq_refl eq_refl HC HD _ _ GS) as (inc & tot & A & T).
  destruct (A 0%nat) as (h & E & E1 & E2).
  exists disps, h, (inc 0%nat), (tot 0%nat). split; [exact HD|]. split; [exact E|]. split; [exact E1|]. split; [exact E2|].
  split.
  { pose proof (T 0%nat 0%nat 0%nat) as T0. simpl in T0. lra. }
  destruct (element_config_value ex_conn 4 2 ex_coords ex_coords disps quad4 1 [1; 2; 3; 4]%Z
    eq_refl ex_labels eq_refl eq_refl HC HD 0) as (h' & E' & _ & V).
  rewrite E in E'. inversion E'; subst h'.
  assert (EQ : gp_strain 2 order_sym_2d quad4 [0; 0] (fst (fst h)) (snd (fst h)) = Ok s).
  { rewrite <- GS. apply gp_strain_ext.
    - intros a d Ha Hd. destruct (V a d Ha Hd) as (_ & V1 & _). rewrite V1.
      unfold disps, node_value, affine_field, elem_coords, rows_fun, ex_stretch, ex_coords.
      simpl in Ha, Hd. destruct d as [|[|d]]; [| |lia]; destruct a as [|[|[|[|a]]]]; try lia; simpl; lra.
    - revert E. unfold element_config, config_coords. simpl. intros E. inversion E. reflexivity. }
  rewrite E2 in EQ. apply Ok_inj in EQ. rewrite EQ, Q by (simpl; lia).
  unfold TensorSpec.symp. simpl. lra.
Qed.

Print Assumptions modes_succeed_and_agree_partial.
Print Assumptions increments_telescope.
