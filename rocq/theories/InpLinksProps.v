(** Meshes converted between Links and Abaqus input files (C95). *)
From Coq Require Import String Ascii List Bool Arith ZArith Lia Permutation Sorted.
From Verif Require Import Lib PyStr PyDict TextLines HybridModel HybridProps SpecimenModel SpecimenProps LinksFileModel LinksFileProps InpLinksModel.
Import ListNotations.
Local Open Scope string_scope.
Local Open Scope list_scope.

(** ** Labels *)
Lemma py_int_z z : py_int (z_str z) = Ok z.
Proof.
  unfold z_str. destruct (Z.ltb_spec z 0).
  - unfold py_int, strip. cbn [lstrip]. change (is_space "-") with false. cbn iota.
    assert (E : rstrip (String "-" (nat_str (Z.abs_nat z))) = String "-" (nat_str (Z.abs_nat z))).
    { cbn [rstrip]. cbn [blank]. change (is_space "-") with false. cbn [andb].
      rewrite rstrip_digits by apply nat_str_digits. reflexivity. }
    rewrite E. change (Ascii.eqb "-" "-") with true. cbn iota. rewrite int_of_nat_str. cbn [rbind]. f_equal. rewrite Zabs2Nat.id_abs. lia.
  - rewrite py_int_str. f_equal. rewrite Zabs2Nat.id_abs. lia.
Qed.
Lemma words_z z : words (z_str z) = [z_str z].
Proof.
  unfold z_str. destruct (z <? 0)%Z; [|apply words_nat].
  pose proof (words_nat (Z.abs_nat z)) as W. pose proof (nat_str_nonempty (Z.abs_nat z)) as N. pose proof (nat_str_digits (Z.abs_nat z)) as D.
  destruct (nat_str (Z.abs_nat z)) as [|c s]; [contradiction|]. cbn [all_digits] in D. apply andb_prop in D as [D _].
  change (words (String "-" (String c s))) with
    (if is_space c then "-" :: words (String c s) else match words (String c s) with w :: ws => String "-" w :: ws | [] => ["-"] end).
  rewrite (digit_not_space c D), W. reflexivity.
Qed.
Lemma z_no x z : is_digit x = false -> Ascii.eqb "-" x = false -> has_char x (z_str z) = false.
Proof.
  intros H1 H2. unfold z_str. destruct (z <? 0)%Z; [|now apply nat_str_no]. cbn [has_char]. rewrite H2. now apply nat_str_no.
Qed.
Lemma z_no_t z : has_ci "t" (z_str z) = false.
Proof. unfold z_str. destruct (z <? 0)%Z; [|apply nat_no_t]. cbn [has_ci]. rewrite nat_no_t. reflexivity. Qed.

(** ** Sorted labels *)
Lemma insert_sorted x l : StronglySorted Z.lt l -> ~ In x l -> StronglySorted Z.lt (insert (fun z => z) x l).
Proof.
  induction l as [|y l IH]; intros H N; cbn [insert]; [repeat constructor|].
  apply StronglySorted_inv in H as [H1 H2]. destruct (Z.leb_spec x y).
  - assert (x < y)%Z by (assert (x <> y) by (intros ->; apply N; left; reflexivity); lia).
    constructor; [constructor; assumption|]. constructor; [assumption|].
    rewrite Forall_forall in *. intros z Hz. specialize (H2 z Hz). lia.
  - constructor; [apply IH; [exact H1|intros Q; apply N; now right]|].
    rewrite Forall_forall in *. intros z Hz.
    assert (P : Permutation (insert (fun z => z) x l) (x :: l)).
    { clear. induction l as [|a l IH]; cbn [insert]; [reflexivity|]. destruct (x <=? a)%Z; [reflexivity|].
      rewrite IH. constructor. }
    apply (Permutation_in _ P) in Hz as [->|Hz]; [lia|auto].
Qed.
Lemma isort_sorted l : NoDup l -> StronglySorted Z.lt (isort (fun z => z) l).
Proof.
  induction 1 as [|x l N _ IH]; cbn [isort]; [constructor|]. apply insert_sorted; [exact IH|].
  intros Q. apply N. exact (Permutation_in _ (isort_perm _ l) Q).
Qed.
Lemma isort_fixed l : StronglySorted Z.lt l -> isort (fun z => z) l = l.
Proof.
  induction 1 as [|x l H IH F]; [reflexivity|]. cbn [isort]. rewrite IH. destruct l as [|y l]; [reflexivity|]. cbn [insert].
  apply Forall_cons_iff in F as [F _]. destruct (Z.leb_spec x y); [reflexivity|lia].
Qed.
Lemma sorted_nodup l : StronglySorted Z.lt l -> NoDup l.
Proof.
  induction 1 as [|x l H IH F]; constructor; [|exact IH]. intros Q. rewrite Forall_forall in F. specialize (F x Q). lia.
Qed.

(** ** What is extracted from a converted file *)
Section Out.
  Context {C : Type} (pf : string -> res C) (fmt : C -> string) (rnd : C -> C) (zero : C).
  Hypothesis laws : number_laws pf fmt rnd.
  Hypothesis wide : forall c, roomy fmt c.

  (** Prescribed components, in order, of a node. *)
  Definition present (e : list (Z * C)) : list (nat * C) :=
    flat_map (fun k => match gget Z.eqb e (Z.of_nat k) with Some v => [(S k, rnd v)] | None => [] end) [0; 1; 2].

  Definition out_lines (n_dim : nat) (rows : list (nat * (nat * list nat))) (coords : list (list C)) (d : @nodal C) : list string :=
    "" :: ("ELEMENTS " ++ nat_str (List.length rows))%string :: map links_elem_line rows
    ++ "" :: ("NODE_COORDINATES " ++ nat_str (List.length coords) ++ " CARTESIAN")%string
    :: map (links_node_line fmt) (number coords)
    ++ "" :: ("NODES_WITH_PRESCRIBED_DISPLACEMENTS " ++ nat_str (List.length d))%string
    :: map (nodal_line fmt zero n_dim d) (isort (fun z => z) (map fst d)).

  Lemma nodal_no_t n_dim d id : has_ci "t" (nodal_line fmt zero n_dim d id) = false.
  Proof.
    unfold nodal_line, pad_left. rewrite !has_ci_app, spaces_no_t, z_no_t. cbn [orb has_ci].
    rewrite !join_no_t; try reflexivity.
    - intros x H. apply in_map_iff in H as [c [<- _]]. apply (nl_t _ _ _ laws).
    - intros x H. apply in_map_iff in H as [k [<- _]]. unfold dim_code. destruct (gget _ _ _); reflexivity.
  Qed.
  Lemma nodal_plain n_dim d id : has_char "*" (nodal_line fmt zero n_dim d id) = false.
  Proof.
    unfold nodal_line, pad_left. rewrite !has_char_app, has_char_spaces, z_no by reflexivity. cbn [orb has_char].
    rewrite !has_char_join; try reflexivity.
    - rewrite forallb_map. apply forallb_all. intros c. now rewrite (nl_star _ _ _ laws).
    - rewrite forallb_map. apply forallb_all. intros k. unfold dim_code. destruct (gget _ _ _); reflexivity.
  Qed.
  Lemma nodal_words n_dim d id : let e := node_bcs d id in
    exists ws, words (nodal_line fmt zero n_dim d id) = z_str id :: join "" (map (dim_code e) [0; 1; 2]) :: ws /\
      rmap pf (firstn 3 ws) = Ok (map rnd (map (dim_value zero e) [0; 1; 2])).
  Proof.
    intros e. unfold nodal_line. fold e. set (vals := map (dim_value zero e) [0; 1; 2] ++ (if Nat.eqb n_dim 2 then [zero] else [])).
    exists (flat_map words (map fmt vals)). split.
    - change (" " ++ pad_left 3 (z_str id) ++ " " ++ join "" (map (dim_code e) [0;1;2]) ++ join " " (map fmt vals))%string
        with (spaces 1 ++ pad_left 3 (z_str id) ++ String " " (join "" (map (dim_code e) [0;1;2]) ++ join " " (map fmt vals)))%string.
      rewrite words_spaces, words_space. unfold pad_left. rewrite words_spaces, words_z. cbn [app].
      f_equal. destruct (wide (dim_value zero e 0)) as [s Es].
      assert (E : exists s', join " " (map fmt vals) = String " " s').
      { unfold vals. cbn [map app join]. rewrite Es. eexists. reflexivity. }
      destruct E as [s' E]. rewrite <- words_join, E. rewrite words_space.
      replace (words (join "" (map (dim_code e) [0; 1; 2]))) with [join "" (map (dim_code e) [0; 1; 2])]; [reflexivity|].
      cbn [map]. unfold dim_code. destruct (gget _ _ _), (gget _ _ _), (gget _ _ _); reflexivity.
    - destruct (bare_words pf fmt rnd laws vals) as (ws & E1 & E2 & E3). rewrite E1.
      assert (L : List.length (map (dim_value zero e) [0;1;2]) = 3) by reflexivity.
      unfold vals in E2, E3. set (a := map (dim_value zero e) [0;1;2]) in *. rewrite map_app in E2.
      assert (F : forall (n : nat) (l : list string) r, rmap pf l = Ok r -> rmap pf (firstn n l) = Ok (firstn n r)).
      { clear. induction n as [|n IH]; intros [|w l] r H; cbn [firstn rmap] in *.
        - reflexivity. - reflexivity. - injection H as <-; reflexivity.
        - destruct (pf w); [|discriminate]. cbn [rbind] in *. destruct (rmap pf l) eqn:E; [|discriminate]. cbn [rbind] in H. injection H as <-.
          rewrite (IH l _ E). reflexivity. }
      rewrite (F 3 _ _ E2). reflexivity.
  Qed.
  Lemma nodal_parse n_dim d id : disp_row pf (nodal_line fmt zero n_dim d id) = Ok (id, present (node_bcs d id)).
  Proof.
    destruct (nodal_words n_dim d id) as (ws & E1 & E2). set (e := node_bcs d id) in *.
    unfold disp_row, nth_word. rewrite E1. cbn [nth_error rbind skipn]. rewrite py_int_z. cbn [rbind].
    assert (K : rmap py_int (chars (join "" (map (dim_code e) [0; 1; 2])))
      = Ok (map (fun k => match gget Z.eqb e (Z.of_nat k) with Some _ => 1%Z | None => 0%Z end) [0; 1; 2])).
    { cbn [map]. unfold dim_code. destruct (gget _ _ _), (gget _ _ _), (gget _ _ _); reflexivity. }
    rewrite K. cbn [rbind]. rewrite E2. cbn [rbind]. unfold present, dim_value. cbn [map flat_map rfold nth_error rbind].
    destruct (gget Z.eqb e (Z.of_nat 0)), (gget Z.eqb e (Z.of_nat 1)), (gget Z.eqb e (Z.of_nat 2)); reflexivity.
  Qed.

  Lemma out_conn n_dim rows coords d : (forall r, In r rows -> fst (snd r) < 1000) ->
    extract_conn (out_lines n_dim rows coords d) = Ok (map (fun r => map Z.of_nat (snd (snd r))) rows).
  Proof.
    intros Hp. unfold extract_conn, out_lines.
    assert (K : In "ELEMENTS" keywords) by (cbn; tauto).
    match goal with |- context [map links_elem_line rows ++ ?r] => set (rest := r) end.
    change (rbind (rbind (count_head ("ELEMENTS" ++ String " " (nat_str (List.length rows)))%string)
      (fun _ => rows_pass "ELEMENTS" count_head (fun l => rmap py_int (skipn 2 (words l))) (Some []) (map links_elem_line rows ++ rest))) bound
      = Ok (map (fun r => map Z.of_nat (snd (snd r))) rows)).
    rewrite count_ok by reflexivity. cbn [rbind].
    rewrite (rows_read _ _ _ links_elem_line (fun p => map Z.of_nat (snd (snd p)))).
    - reflexivity.
    - intros [i [p nodes]] Hi. specialize (Hp _ Hi). cbn [fst snd] in Hp.
      split; [exact (no_t_clean _ (elem_no_t _) _ K)|]. split; [apply elem_plain|].
      split; [apply words_blank; rewrite words_elem by exact Hp; discriminate|]. now apply links_elem_parse.
  Qed.
  Lemma out_coords n_dim rows coords d : extract_coords pf (out_lines n_dim rows coords d) = Ok (map (map rnd) coords).
  Proof.
    unfold extract_coords, out_lines.
    assert (K : In "NODE_COORDINATES" keywords) by (cbn; tauto).
    match goal with |- context [rows_pass _ _ _ _ (?x :: ?a :: map links_elem_line ?c ++ ?b :: ?r)] =>
      change (x :: a :: map links_elem_line c ++ b :: r) with ((x :: a :: map links_elem_line c) ++ b :: r) end.
    rewrite rows_skip.
    2:{ intros l [<-|[<-|Hl]]; [reflexivity| |].
        - apply (kw_absent "c"); [reflexivity|]. rewrite has_ci_app, nat_no_ci by reflexivity. reflexivity.
        - apply in_map_iff in Hl as [r [<- _]]. exact (no_t_clean _ (elem_no_t _) _ K). }
    match goal with |- context [map (links_node_line fmt) (number coords) ++ ?r] => set (rest := r) end.
    change (rbind (rbind (count_head ("NODE_COORDINATES" ++ String " " (nat_str (List.length coords) ++ String " " "CARTESIAN"))%string)
      (fun _ => rows_pass "NODE_COORDINATES" count_head (fun l => rmap pf (skipn 1 (words l))) (Some []) (map (links_node_line fmt) (number coords) ++ rest))) bound
      = Ok (map (map rnd) coords)).
    assert (Ch : count_head ("NODE_COORDINATES" ++ String " " (nat_str (List.length coords) ++ String " " "CARTESIAN"))%string = Ok tt).
    { unfold count_head, count_of, nth_word. rewrite !words_space, words_nat.
      change (words "NODE_COORDINATES") with ["NODE_COORDINATES"]. cbn [app nth_error rbind]. now rewrite py_int_str. }
    rewrite Ch. cbn [rbind].
    rewrite (rows_read _ _ _ (links_node_line fmt) (fun p => map rnd (snd p))).
    - change (rbind (Ok (Some ([] ++ map (fun p => map rnd (snd p)) (number coords)))) bound = Ok (map (map rnd) coords)).
      cbn [rbind bound app]. f_equal. exact (map_snd_number (map rnd) coords).
    - intros [i r] _. split; [exact (no_t_clean _ (node_no_t pf fmt rnd laws _) _ K)|]. split; [apply (node_plain pf fmt rnd laws)|].
      rewrite node_words. split; [apply words_blank; rewrite node_words; discriminate|]. cbn [skipn snd].
      destruct (bare_words pf fmt rnd laws r) as [ws [E1 [E2 _]]]. now rewrite E1.
  Qed.
  Lemma out_bcs n_dim rows coords d : NoDup (map fst d) ->
    extract_bcs pf (out_lines n_dim rows coords d) = Ok (map (fun id => (id, present (node_bcs d id))) (isort (fun z => z) (map fst d))).
  Proof.
    intros Nd. unfold extract_bcs, out_lines.
    assert (K : In "NODES_WITH_PRESCRIBED_DISPLACEMENTS" keywords) by (cbn; tauto).
    match goal with |- context [rows_pass _ _ _ _ (?x :: ?a :: map links_elem_line ?c ++ ?b :: ?y :: map (links_node_line fmt) ?e ++ ?r)] =>
      replace (x :: a :: map links_elem_line c ++ b :: y :: map (links_node_line fmt) e ++ r)
        with ((x :: a :: map links_elem_line c ++ b :: y :: map (links_node_line fmt) e) ++ r)
        by (cbn [app]; rewrite <- app_assoc; reflexivity) end.
    rewrite rows_skip.
    2:{ intros l [<-|[<-|Hl]]; [reflexivity| |].
        - apply (kw_absent "w"); [reflexivity|]. rewrite has_ci_app, nat_no_ci by reflexivity. reflexivity.
        - apply in_app_or in Hl as [Hl|[<-|[<-|Hl]]].
          + apply in_map_iff in Hl as [r [<- _]]. exact (no_t_clean _ (elem_no_t _) _ K).
          + reflexivity.
          + apply (kw_absent "w"); [reflexivity|]. rewrite !has_ci_app, nat_no_ci by reflexivity. reflexivity.
          + apply in_map_iff in Hl as [r [<- _]]. exact (no_t_clean _ (node_no_t pf fmt rnd laws _) _ K). }
    match goal with |- context [rows_pass _ _ _ _ ("" :: _ :: ?ls)] => rewrite <- (app_nil_r ls) end.
    match goal with |- context [rows_pass _ _ _ _ ("" :: _ :: ?ls)] => set (tail := ls) end.
    change (rbind (rows_pass "NODES_WITH_PRESCRIBED_DISPLACEMENTS" (fun _ => Ok tt) (disp_row pf) (Some []) tail)
      (fun o => rbind (bound o) (fun rows => Ok (fold_left (fun d r => gset Z.eqb d (fst r) (snd r)) rows [])))
      = Ok (map (fun id => (id, present (node_bcs d id))) (isort (fun z => z) (map fst d)))).
    subst tail.
    rewrite (rows_read _ _ _ (nodal_line fmt zero n_dim d) (fun id => (id, present (node_bcs d id)))).
    - cbn [rows_pass rbind bound app]. rewrite fold_gset_new; [reflexivity|]. cbn [map app]. rewrite map_map. cbn [fst]. rewrite map_id.
      apply (Permutation_NoDup (Permutation_sym (isort_perm _ _)) Nd).
    - intros id _. split; [exact (no_t_clean _ (nodal_no_t _ _ _) _ K)|]. split; [apply nodal_plain|].
      destruct (nodal_words n_dim d id) as (ws & E1 & _).
      split; [apply words_blank; rewrite E1; discriminate|]. apply nodal_parse.
  Qed.
  (** Nothing states the element type. *)
  Lemma out_type n_dim rows coords d : extract_type (out_lines n_dim rows coords d) = Err NameError.
  Proof.
    unfold extract_type. rewrite <- (app_nil_r (out_lines n_dim rows coords d)), type_skip; [reflexivity|].
    assert (K : In "ELEMENT_TYPES" keywords) by (cbn; tauto).
    intros l Hl. unfold out_lines in Hl. destruct Hl as [<-|[<-|Hl]]; [reflexivity| |].
    - apply (kw_absent "_"); [reflexivity|]. rewrite has_ci_app, nat_no_ci by reflexivity. reflexivity.
    - apply in_app_or in Hl as [Hl|[<-|[<-|Hl]]].
      + apply in_map_iff in Hl as [r [<- _]]. exact (no_t_clean _ (elem_no_t _) _ K).
      + reflexivity.
      + apply (kw_absent "m"); [reflexivity|]. rewrite !has_ci_app, nat_no_ci by reflexivity. reflexivity.
      + apply in_app_or in Hl as [Hl|[<-|[<-|Hl]]].
        * apply in_map_iff in Hl as [r [<- _]]. exact (no_t_clean _ (node_no_t pf fmt rnd laws _) _ K).
        * reflexivity.
        * apply (kw_absent "y"); [reflexivity|]. rewrite !has_ci_app, nat_no_ci by reflexivity. reflexivity.
        * apply in_map_iff in Hl as [r [<- _]]. exact (no_t_clean _ (nodal_no_t _ _ _) _ K).
  Qed.

  (** ** The dictionaries *)
  Lemma zk : forall a b, Z.eqb a b = true <-> a = b.
  Proof. apply Z.eqb_eq. Qed.
  Lemma conn_nodup n lines : forall on acc e, NoDup (map fst (fst acc)) -> conn_pass n on lines acc = Ok e -> NoDup (map fst (fst e)).
  Proof.
    induction lines as [|l ls IH]; intros on acc e N H; cbn [conn_pass] in H.
    - injection H as <-. exact N.
    - destruct (search_kw "*element, type" l).
      + destruct (type_value l); [|discriminate]. exact (IH _ _ _ N H).
      + destruct (on && (section_end l || blank l)); [exact (IH _ _ _ N H)|]. destruct on; [|exact (IH _ _ _ N H)].
        destruct (elem_row n l) as [r|]; [|discriminate]. cbn [rbind] in H. refine (IH _ _ _ _ H). cbn [fst].
        apply (gset_nodup Z.eqb zk). exact N.
  Qed.
  Lemma bc_row_nodup l d d' : NoDup (map fst d) -> bc_row pf l d = Ok d' -> NoDup (map fst d').
  Proof.
    intros N. unfold bc_row. destruct (py_int _) as [id|]; cbn [rbind]; [|discriminate].
    destruct (rmap py_int _) as [dofs|]; cbn [rbind]; [|discriminate]. destruct (nth_error _ 3) as [w|]; [|discriminate].
    destruct (pf w) as [v|]; cbn [rbind]; [|discriminate]. destruct dofs as [|a [|b [|? ?]]]; try discriminate.
    intros H. injection H as <-. apply (gset_nodup Z.eqb zk). exact N.
  Qed.
  Lemma bcs_nodup lines : forall on d d', NoDup (map fst d) -> bcs_pass pf on lines d = Ok d' -> NoDup (map fst d').
  Proof.
    induction lines as [|l ls IH]; intros on d d' N H; cbn [bcs_pass] in H.
    - injection H as <-. exact N.
    - destruct (search_kw "*boundary" l); [exact (IH _ _ _ N H)|].
      destruct (on && (section_end l || blank l)); [exact (IH _ _ _ N H)|]. destruct on; [|exact (IH _ _ _ N H)].
      destruct (bc_row pf l d) as [d1|] eqn:E; [|discriminate]. cbn [rbind] in H. refine (IH _ _ _ _ H). exact (bc_row_nodup _ _ _ N E).
  Qed.
  (** The rows written are those of the labels 1 to n. *)
  Lemma elem_lines_rows conn elems : elem_lines conn = Ok elems -> exists rows, elems = map links_elem_line rows /\
    List.length rows = List.length conn /\ (forall r, In r rows -> fst (snd r) < 1000) /\
    forall i, i < List.length conn -> exists nodes, gget Z.eqb conn (Z.of_nat (S i)) = Some nodes /\ nth_error rows i = Some (S i, (1, nodes)).
  Proof.
    unfold elem_lines. set (n := List.length conn).
    assert (G : forall m k elems, rmap (fun e => match gget Z.eqb conn (Z.of_nat e) with
        | Some nodes => Ok (links_elem_line (e, (1, nodes))) | None => Err KeyError end) (seq k m) = Ok elems ->
      exists rows, elems = map links_elem_line rows /\ List.length rows = m /\ (forall r, In r rows -> fst (snd r) < 1000) /\
      forall i, i < m -> exists nodes, gget Z.eqb conn (Z.of_nat (k + i)) = Some nodes /\ nth_error rows i = Some (k + i, (1, nodes))).
    { induction m as [|m IH]; intros k el H; cbn [seq rmap] in H.
      - injection H as <-. exists []. repeat split; try easy.
      - destruct (gget Z.eqb conn (Z.of_nat k)) as [nodes|] eqn:E; [|discriminate]. cbn [rbind] in H.
        destruct (rmap _ (seq (S k) m)) as [el'|] eqn:E'; [|discriminate]. cbn [rbind] in H. injection H as <-.
        destruct (IH (S k) el' E') as (rows & R1 & R2 & R3 & R4). exists ((k, (1, nodes)) :: rows). subst el'.
        split; [reflexivity|]. split; [cbn; now rewrite R2|]. split.
        + intros r [<-|Hr]; [cbn; lia|auto].
        + intros [|i] Hi; [exists nodes; rewrite Nat.add_0_r; auto|]. destruct (R4 i) as (nd & Q1 & Q2); [lia|].
          exists nd. replace (k + S i) with (S k + i) by lia. auto. }
    intros H. destruct (G n 1 elems H) as (rows & R1 & R2 & R3 & R4). exists rows. auto.
  Qed.

  (** Every conversion that succeeds. *)
  Lemma inp_to_dat_parts n_dim lines out : inp_to_dat pf fmt zero n_dim lines = Ok out ->
    exists coords e d rows, nodes_pass pf n_dim false lines = Ok coords /\ conn_pass (List.length coords) false lines ([], []) = Ok e /\
      bcs_pass pf false lines [] = Ok d /\ out = out_lines n_dim rows coords d /\ List.length rows = List.length (fst e) /\
      (forall r, In r rows -> fst (snd r) < 1000) /\
      forall i, i < List.length (fst e) -> exists nodes, gget Z.eqb (fst e) (Z.of_nat (S i)) = Some nodes /\ nth_error rows i = Some (S i, (1, nodes)).
  Proof.
    unfold inp_to_dat. destruct (nodes_pass pf n_dim false lines) as [coords|] eqn:E1; cbn [rbind]; [|discriminate].
    destruct (Nat.eqb _ 0); [discriminate|]. destruct (conn_pass _ false lines ([], [])) as [e|] eqn:E2; cbn [rbind]; [|discriminate].
    destruct (negb _); [discriminate|]. destruct (bcs_pass pf false lines []) as [d|] eqn:E3; cbn [rbind]; [|discriminate].
    destruct (elem_lines (fst e)) as [elems|] eqn:E4; cbn [rbind]; [|discriminate]. intros H. injection H as <-.
    destruct (elem_lines_rows _ _ E4) as (rows & R1 & R2 & R3 & R4). exists coords, e, d, rows. subst elems.
    repeat (split; [first [reflexivity|assumption]|]). split.
    { unfold out_lines. rewrite R2. cbn [app]. rewrite <- ?app_assoc. reflexivity. }
    repeat (split; [assumption|]). exact R4.
  Qed.

  (** ** Agreement with the specimen reader *)
  Definition untype (p : Z * ((fe_kind * nat) * list nat)) : Z * list nat := (fst p, snd (snd p)).
  Lemma gset_untype d k t v : map untype (gset Z.eqb d k (t, v)) = gset Z.eqb (map untype d) k v.
  Proof.
    induction d as [|[k' [t' v']] d IH]; [reflexivity|]. cbn [map gset untype fst snd]. destruct (k =? k')%Z; [reflexivity|].
    cbn [map untype fst snd]. now rewrite IH.
  Qed.
  Lemma gget_untype d k : gget Z.eqb (map untype d) k = match gget Z.eqb d k with Some x => Some (snd x) | None => None end.
  Proof.
    induction d as [|[k' [t' v']] d IH]; [reflexivity|]. cbn [map gget untype fst snd]. destruct (k =? k')%Z; [reflexivity|exact IH].
  Qed.
  Lemma conn_of_elems n lines : forall on acc e, elems_pass n on lines acc = Ok e ->
    conn_pass n (match on with Some _ => true | None => false end) lines (map untype (fst acc), snd acc) = Ok (map untype (fst e), snd e).
  Proof.
    induction lines as [|l ls IH]; intros on acc e H; cbn [elems_pass conn_pass] in *.
    - injection H as <-. reflexivity.
    - destruct (search_kw "*element, type" l).
      + unfold elem_type_line in H. destruct (type_value l) as [t|]; [|discriminate]. destruct (fetorch_type t) as [ty|]; [|discriminate].
        cbn [rbind] in H. exact (IH _ _ _ H).
      + destruct on as [t|]; cbn [andb]; [|exact (IH _ _ _ H)].
        destruct (section_end l || blank l); [exact (IH _ _ _ H)|].
        destruct (elem_row n l) as [r|]; [|discriminate]. cbn [rbind] in *. apply IH in H. cbn [fst snd] in *.
        rewrite gset_untype in H. exact H.
  Qed.

  (** Flags and prescribed displacements. *)
  Definition flag (m : list (list bool)) (i k : nat) : bool := nth k (nth i m []) false.
  Definition agree (n n_dim : nat) (m : list (list bool)) (d : @nodal C) : Prop :=
    forall i k, i < n -> k < n_dim -> (flag m i k = true <-> gget Z.eqb (node_bcs d (Z.of_nat (S i))) (Z.of_nat k) <> None).
  Lemma flags_fold n n_dim id l : (1 <= id)%Z -> forall m m1, shape n n_dim m ->
    rfold (fun m dim => if ((0 <=? dim) && (dim <? Z.of_nat n_dim))%Z
        then rbind (py_index n (id - 1)) (fun i => Ok (upd m i (upd (nth i m []) (Z.to_nat dim) true))) else Ok m) l m = Ok m1 ->
    shape n n_dim m1 /\ forall i k, i < n -> k < n_dim ->
      (flag m1 i k = true <-> flag m i k = true \/ (Z.of_nat (S i) = id /\ In (Z.of_nat k) l)).
  Proof.
    intros Hid. induction l as [|x l IH]; intros m m1 Sm H; cbn [rfold] in H.
    - injection H as <-. split; [exact Sm|]. intros. cbn [In]. tauto.
    - destruct ((0 <=? x) && (x <? Z.of_nat n_dim))%Z eqn:B.
      + apply andb_prop in B as [B1 B2]. apply Z.leb_le in B1. apply Z.ltb_lt in B2.
        destruct (py_index n (id - 1)) as [i0|] eqn:P; [|discriminate]. cbn [rbind] in H.
        assert (Pi : i0 = Z.to_nat (id - 1) /\ i0 < n).
        { unfold py_index in P. destruct ((0 <=? id - 1) && (id - 1 <? Z.of_nat n))%Z eqn:Q.
          - apply andb_prop in Q as [Q1 Q2]. apply Z.ltb_lt in Q2. injection P as <-. lia.
          - destruct ((- Z.of_nat n <=? id - 1) && (id - 1 <? 0))%Z eqn:Q'; [|discriminate]. apply andb_prop in Q' as [_ Q']. apply Z.ltb_lt in Q'. lia. }
        destruct Pi as [-> Hn]. set (i0 := Z.to_nat (id - 1)) in *.
        assert (S1 : shape n n_dim (upd m i0 (upd (nth i0 m []) (Z.to_nat x) true))).
        { split; [rewrite upd_length; apply Sm|]. intros r Hr. apply in_upd in Hr as [->|Hr]; [|now apply Sm].
          rewrite upd_length. eapply shape_row; [exact Sm|lia]. }
        destruct (IH _ _ S1 H) as [S2 F]. split; [exact S2|]. intros i k Hi Hk. rewrite (F i k Hi Hk). unfold flag at 1.
        rewrite nth_upd by (destruct Sm as [-> _]; lia). destruct (Nat.eqb_spec i i0) as [->|Ne].
        * rewrite nth_upd by (rewrite (shape_row n n_dim) by (auto; lia); lia). destruct (Nat.eqb_spec k (Z.to_nat x)) as [->|Nk].
          -- split; [intros _; right; split; [unfold i0; lia|left; lia]|]. intros _. left. reflexivity.
          -- fold (flag m i0 k). cbn [In]. split; [tauto|]. intros [Q|[Q [Q'|Q']]]; [tauto| |tauto]. exfalso. apply Nk. lia.
        * fold (flag m i k). cbn [In]. split; [tauto|]. intros [Q|[Q [Q'|Q']]]; [tauto| |tauto]. exfalso. apply Ne. unfold i0. lia.
      + destruct (IH _ _ Sm H) as [S2 F]. split; [exact S2|]. intros i k Hi Hk. rewrite (F i k Hi Hk). cbn [In].
        split; [tauto|]. intros [Q|[Q [Q'|Q']]]; [tauto| |tauto]. exfalso. subst x.
        apply andb_false_iff in B as [B|B]; [apply Z.leb_gt in B|apply Z.ltb_ge in B]; lia.
  Qed.
  Lemma sets_fold (v : C) l : forall e k, gget Z.eqb (fold_left (fun e dim => gset Z.eqb e dim v) l e) k <> None <-> gget Z.eqb e k <> None \/ In k l.
  Proof.
    induction l as [|x l IH]; intros e k; cbn [fold_left In]; [tauto|]. rewrite IH, (gget_gset Z.eqb zk).
    destruct (Z.eqb_spec x k) as [->|N]; split; intros; intuition (auto; try discriminate).
  Qed.
  Lemma row_agree n n_dim l m m1 d d1 : shape n n_dim m -> agree n n_dim m d ->
    flag_row n n_dim l m = Ok m1 -> bc_row pf l d = Ok d1 -> (forall id, In id (map fst d1) -> (1 <= id)%Z) ->
    shape n n_dim m1 /\ agree n n_dim m1 d1.
  Proof.
    intros Sm A. unfold flag_row, bc_row.
    destruct (py_int _) as [id|]; cbn [rbind]; [|discriminate].
    destruct (rmap py_int _) as [dofs|]; cbn [rbind]; [|discriminate]. destruct dofs as [|a [|b [|? ?]]]; try discriminate.
    intros F. destruct (nth_error _ 3) as [w|]; [|discriminate].
    destruct (pf w) as [v|]; cbn [rbind]; [|discriminate]. intros H Hp. injection H as <-.
    assert (Hid : (1 <= id)%Z) by (apply Hp; apply (gkeys_in_gset Z.eqb zk); left; reflexivity).
    destruct (flags_fold n n_dim id _ Hid m m1 Sm F) as [S1 G]. split; [exact S1|].
    intros i k Hi Hk. rewrite (G i k Hi Hk). unfold node_bcs at 1. rewrite (gget_gset Z.eqb zk).
    destruct (Z.eqb_spec id (Z.of_nat (S i))) as [->|N].
    - rewrite sets_fold, (A i k Hi Hk). split; [intros [Q|[_ Q]]; auto|]. intros [Q|Q]; auto.
    - fold (node_bcs d (Z.of_nat (S i))). rewrite (A i k Hi Hk). split; [intros [Q|[Q _]]; auto; congruence|auto].
  Qed.
  Lemma bcs_grow lines : forall on d d' id, bcs_pass pf on lines d = Ok d' -> In id (map fst d) -> In id (map fst d').
  Proof.
    induction lines as [|l ls IH]; intros on d d' id H I; cbn [bcs_pass] in H.
    - injection H as <-. exact I.
    - destruct (search_kw "*boundary" l); [exact (IH _ _ _ _ H I)|].
      destruct (on && (section_end l || blank l)); [exact (IH _ _ _ _ H I)|]. destruct on; [|exact (IH _ _ _ _ H I)].
      destruct (bc_row pf l d) as [d1|] eqn:E; [|discriminate]. cbn [rbind] in H. refine (IH _ _ _ _ H _).
      revert E. unfold bc_row. destruct (py_int _) as [x|]; cbn [rbind]; [|discriminate].
      destruct (rmap py_int _) as [dofs|]; cbn [rbind]; [|discriminate]. destruct (nth_error _ 3) as [w|]; [|discriminate].
      destruct (pf w) as [v|]; cbn [rbind]; [|discriminate]. destruct dofs as [|a [|b [|? ?]]]; try discriminate.
      intros Q. injection Q as <-. apply (gkeys_in_gset Z.eqb zk). right. exact I.
  Qed.
  Lemma passes_agree n n_dim lines : forall on m m' d d', shape n n_dim m -> agree n n_dim m d ->
    bounds_pass n n_dim on lines m = Ok m' -> bcs_pass pf on lines d = Ok d' -> (forall id, In id (map fst d') -> (1 <= id)%Z) ->
    agree n n_dim m' d'.
  Proof.
    induction lines as [|l ls IH]; intros on m m' d d' Sm A H1 H2 Hp; cbn [bounds_pass bcs_pass] in *.
    - injection H1 as <-. injection H2 as <-. exact A.
    - destruct (search_kw "*boundary" l); [exact (IH _ _ _ _ _ Sm A H1 H2 Hp)|].
      destruct (on && (section_end l || blank l)); [exact (IH _ _ _ _ _ Sm A H1 H2 Hp)|].
      destruct on; [|exact (IH _ _ _ _ _ Sm A H1 H2 Hp)].
      destruct (flag_row n n_dim l m) as [m1|] eqn:E1; [|discriminate]. destruct (bc_row pf l d) as [d1|] eqn:E2; [|discriminate].
      cbn [rbind] in *. destruct (row_agree n n_dim l m m1 d d1 Sm A E1 E2) as [S1 A1].
      { intros id I. apply Hp. exact (bcs_grow _ _ _ _ _ H2 I). }
      exact (IH _ _ _ _ _ S1 A1 H1 H2 Hp).
  Qed.

  Lemma present_in e k v : k < 3 -> (In (S k, v) (present e) <-> exists u, gget Z.eqb e (Z.of_nat k) = Some u /\ v = rnd u).
  Proof.
    intros Hk. unfold present. rewrite in_flat_map. split.
    - intros [j [Hj H]]. destruct (gget Z.eqb e (Z.of_nat j)) as [u|] eqn:E; [|destruct H]. destruct H as [H|[]].
      injection H as -> <-. eauto.
    - intros [u [E ->]]. exists k. split; [cbn; lia|]. rewrite E. left. reflexivity.
  Qed.

  (** The converted file has the nodes, the elements in the order of their
      labels, and the constrained degrees of freedom that the specimen reader
      finds in the same file. *)
  Theorem inp_conversion_agrees n_dim lines coords e flags out : n_dim <= 3 ->
    read_mesh pf n_dim lines = Ok (coords, e, flags) -> inp_to_dat pf fmt zero n_dim lines = Ok out ->
    extract_coords pf out = Ok (map (map rnd) coords) /\
    (exists conn, extract_conn out = Ok conn /\ List.length conn = List.length e /\
       forall i, i < List.length e -> exists ty nodes, gget Z.eqb e (Z.of_nat (S i)) = Some (ty, nodes) /\ nth_error conn i = Some (map Z.of_nat nodes)) /\
    exists bcs, extract_bcs pf out = Ok bcs /\ StronglySorted Z.lt (map fst bcs) /\
      ((forall id, In id (map fst bcs) -> (1 <= id)%Z) ->
       forall i k, i < List.length coords -> k < n_dim ->
         (nth k (nth i flags []) false = true <-> exists l v, In (Z.of_nat (S i), l) bcs /\ In (S k, v) l)).
  Proof.
    intros Hd R H. destruct (inp_to_dat_parts n_dim lines out H) as (coords' & e' & d & rows & E1 & E2 & E3 & -> & L1 & L2 & L3).
    unfold read_mesh in R. rewrite E1 in R. cbn [rbind] in R. destruct (Nat.eqb _ 0); [discriminate|]. destruct (negb (rectangular _)); [discriminate|].
    destruct (elems_pass _ None lines ([], [])) as [e0|] eqn:E4; [|discriminate]. cbn [rbind] in R. destruct (negb _); [discriminate|].
    destruct (bounds_pass _ n_dim false lines _) as [f|] eqn:E5; [|discriminate]. cbn [rbind] in R.
    assert (coords' = coords /\ fst e0 = e /\ f = flags) as (-> & <- & ->) by (inversion R; auto). clear R.
    pose proof (conn_of_elems _ _ _ _ _ E4) as E6. cbn [fst snd map] in E6. rewrite E2 in E6. injection E6 as ->. cbn [fst] in *.
    rewrite map_length in *. split; [apply out_coords|]. split.
    - eexists. split; [apply out_conn; exact L2|]. split; [now rewrite map_length, L1|].
      intros i Hi. destruct (L3 i Hi) as (nodes & G & Nr). rewrite gget_untype in G. destruct (gget Z.eqb (fst e0) (Z.of_nat (S i))) as [[ty nd]|]; [|discriminate].
      injection G as <-. exists ty, nd. split; [reflexivity|]. rewrite (map_nth_error _ _ _ Nr). reflexivity.
    - pose proof (bcs_nodup lines false [] d (NoDup_nil _) E3) as Nd.
      eexists. split; [apply out_bcs; exact Nd|]. rewrite map_map. cbn [fst]. rewrite map_id. split; [now apply isort_sorted|].
      intros Hp i k Hi Hk.
      assert (Hp' : forall id, In id (map fst d) -> (1 <= id)%Z).
      { intros id I. apply Hp. exact (Permutation_in _ (Permutation_sym (isort_perm _ _)) I). }
      assert (A0 : agree (List.length coords) n_dim (repeat (repeat false n_dim) (List.length coords)) []).
      { intros a b Ha Hb. unfold flag. rewrite zeros_get by exact Ha. cbn. split; [discriminate|tauto]. }
      pose proof (passes_agree _ n_dim lines false _ _ [] d (zeros_shape _ _) A0 E5 E3 Hp') as A.
      rewrite (A i k Hi Hk). split.
      + intros Q. destruct (gget Z.eqb (node_bcs d (Z.of_nat (S i))) (Z.of_nat k)) as [u|] eqn:G; [|congruence].
        exists (present (node_bcs d (Z.of_nat (S i)))), (rnd u). split; [|apply present_in; [lia|eauto]].
        apply in_map_iff. exists (Z.of_nat (S i)). split; [reflexivity|].
        apply (Permutation_in _ (Permutation_sym (isort_perm _ _))).
        unfold node_bcs in G. destruct (gget Z.eqb d (Z.of_nat (S i))) as [x|] eqn:Gd; [|discriminate].
        apply (gget_in Z.eqb zk) in Gd. apply (in_map fst) in Gd. exact Gd.
      + intros (l & v & I1 & I2). apply in_map_iff in I1 as (id & Eq & _). 
        assert (l = present (node_bcs d (Z.of_nat (S i)))) as -> by congruence. clear Eq.
        apply present_in in I2 as (u & G & _); [|lia]. rewrite G. discriminate.
  Qed.
  (** No converted file states the element type, so that none can be converted
      back. *)
  Theorem inp_no_way_back_refuted n_dim lines out fmt2 vstr : inp_to_dat pf fmt zero n_dim lines = Ok out ->
    extract_type out = Err NameError /\ dat_to_inp pf fmt2 vstr out = Err NameError.
  Proof.
    intros H. destruct (inp_to_dat_parts n_dim lines out H) as (coords & e & d & rows & _ & _ & _ & -> & _).
    split; [apply out_type|]. unfold dat_to_inp, adimu_mesh. rewrite out_type. reflexivity.
  Qed.
End Out.

(** ** Written meshes *)
Lemma plain_no_kw p l : plain l -> search_kw (String "*" p) l = false.
Proof. intros H. apply kw_no_star; [reflexivity|exact H]. Qed.
Section Back.
  Context {C V : Type} (pf : string -> res C) (fmt : C -> string) (rnd : C -> C) (zero : C).
  Context (fmt2 : C -> string) (rnd2 : C -> C) (vstr : V -> string) (val : V -> C).
  Hypothesis laws : number_laws pf fmt rnd.
  Hypothesis wide : forall c, roomy fmt c.
  Hypothesis laws2 : text_laws pf fmt2 rnd2 vstr.
  Hypothesis values : forall v, has_char "," (vstr v) = false /\ pf (String " " (vstr v)) = Ok (val v).

  Lemma bound_line_bc i j v d : 1 <= j ->
    bc_row pf (bound_line vstr i j v) d
    = Ok (gset Z.eqb d (Z.of_nat i) (gset Z.eqb (node_bcs d (Z.of_nat i)) (Z.of_nat (j - 1)) (val v))).
  Proof.
    intros Hj. destruct (values v) as [V1 V2].
    assert (F : split_on "," (bound_line vstr i j v)
      = [pad_left 3 (nat_str i); String " " (nat_str j); String " " (nat_str j); String " " (vstr v)]).
    { unfold bound_line.
      change (pad_left 3 (nat_str i) ++ ", " ++ nat_str j ++ ", " ++ nat_str j ++ ", " ++ vstr v)%string
        with (pad_left 3 (nat_str i) ++ String "," ((" " ++ nat_str j) ++ String "," ((" " ++ nat_str j) ++ String "," (" " ++ vstr v))))%string.
      rewrite split_on_app, (split_on_none _ (pad_left 3 (nat_str i))) by now apply pad_no.
      assert (N : has_char "," (" " ++ nat_str j) = false) by (cbn [append has_char]; now rewrite nat_str_no).
      rewrite !split_on_app, !(split_on_none _ (" " ++ nat_str j)) by exact N.
      rewrite (split_on_none _ (" " ++ vstr v)) by exact V1. reflexivity. }
    unfold bc_row. rewrite F. cbn [hd tl firstn nth_error]. rewrite py_int_pad. cbn [rbind rmap]. rewrite py_int_space. cbn [rbind].
    rewrite V2. cbn [rbind]. unfold zrange. replace (Z.to_nat (Z.of_nat j - (Z.of_nat j - 1))) with 1 by lia. cbn [seq map fold_left].
    replace (Z.of_nat j - 1 + Z.of_nat 0)%Z with (Z.of_nat (j - 1)) by lia. reflexivity.
  Qed.

  Definition put (d : @nodal C) (t : nat * nat * V) : @nodal C :=
    gset Z.eqb d (Z.of_nat (fst (fst t))) (gset Z.eqb (node_bcs d (Z.of_nat (fst (fst t)))) (Z.of_nat (snd (fst t) - 1)) (val (snd t))).
  Lemma bcs_rows rows : (forall t, In t rows -> 1 <= snd (fst t)) -> forall d,
    bcs_pass pf true (map (fun t => bound_line vstr (fst (fst t)) (snd (fst t)) (snd t)) rows) d = Ok (fold_left put rows d).
  Proof.
    induction rows as [|[[i j] v] rows IH]; intros H d; [reflexivity|]. cbn [map fst snd bcs_pass fold_left].
    pose proof (bound_star vstr i j v (tl_vstar _ _ _ _ laws2 v)) as P.
    rewrite (plain_no_kw "boundary" _ P), (section_end_star _ P), bound_blank. cbn [andb orb].
    rewrite bound_line_bc by exact (H _ (or_introl eq_refl)). cbn [rbind]. apply IH. intros t Ht. apply H. right. exact Ht.
  Qed.
  Lemma put_get rows : forall d i k, (forall t, In t rows -> 1 <= snd (fst t)) -> NoDup (map fst rows) ->
    gget Z.eqb (node_bcs (fold_left put rows d) (Z.of_nat i)) (Z.of_nat k)
    = match List.find (fun t => Nat.eqb (fst (fst t)) i && Nat.eqb (snd (fst t)) (S k)) rows with
      | Some t => Some (val (snd t))
      | None => gget Z.eqb (node_bcs d (Z.of_nat i)) (Z.of_nat k)
      end.
  Proof.
    induction rows as [|[[a b] v] rows IH]; intros d i k H N; [reflexivity|]. cbn [fold_left List.find fst snd].
    cbn [map fst] in N. apply NoDup_cons_iff in N as [N1 N2].
    rewrite IH by (auto; intros t Ht; apply H; right; exact Ht).
    assert (Hb : 1 <= b) by exact (H _ (or_introl eq_refl)).
    assert (G : gget Z.eqb (node_bcs (put d (a, b, v)) (Z.of_nat i)) (Z.of_nat k)
      = if Nat.eqb a i && Nat.eqb b (S k) then Some (val v) else gget Z.eqb (node_bcs d (Z.of_nat i)) (Z.of_nat k)).
    { unfold put, node_bcs at 1. cbn [fst snd]. rewrite (gget_gset Z.eqb zk).
      destruct (Nat.eqb_spec a i) as [->|Ne]; cbn [andb].
      - rewrite Z.eqb_refl, (gget_gset Z.eqb zk). destruct (Nat.eqb_spec b (S k)) as [->|Nb].
        + replace (S k - 1) with k by lia. now rewrite Z.eqb_refl.
        + destruct (Z.eqb_spec (Z.of_nat (b - 1)) (Z.of_nat k)); [lia|reflexivity].
      - destruct (Z.eqb_spec (Z.of_nat a) (Z.of_nat i)); [lia|reflexivity]. }
    rewrite G. destruct (Nat.eqb a i && Nat.eqb b (S k)) eqn:B; [|destruct (List.find _ rows); reflexivity].
    apply andb_prop in B as [B1 B2]. apply Nat.eqb_eq in B1, B2. subst a b.
    destruct (List.find _ rows) as [t|] eqn:F; [|reflexivity]. exfalso. apply N1.
    apply List.find_some in F as [F1 F2]. apply andb_prop in F2 as [F2 F3]. apply Nat.eqb_eq in F2, F3.
    apply in_map_iff. exists t. split; [|exact F1]. destruct t as [[x y] w]. cbn [fst snd] in *. congruence.
  Qed.
  Lemma put_keys rows : forall d id, In id (map fst (fold_left put rows d)) <-> In id (map fst d) \/ exists t, In t rows /\ id = Z.of_nat (fst (fst t)).
  Proof.
    induction rows as [|t rows IH]; intros d id; cbn [fold_left].
    - split; [auto|]. intros [H|[t [[] _]]]; exact H.
    - rewrite IH. assert (K : In id (map fst (put d t)) <-> id = Z.of_nat (fst (fst t)) \/ In id (map fst d)) by apply (gkeys_in_gset Z.eqb zk).
      rewrite K. cbn [In]. split.
      + intros [[->|H]|[u [H1 H2]]]; [right; exists t; auto|auto|right; exists u; auto].
      + intros [H|[u [[<-|H1] H2]]]; [auto|auto|right; exists u; auto].
  Qed.
  Lemma put_nodup rows : forall d, NoDup (map fst d) -> NoDup (map fst (fold_left put rows d)).
  Proof. induction rows as [|t rows IH]; intros d N; [exact N|]. cbn [fold_left]. apply IH. now apply (gset_nodup Z.eqb zk). Qed.

  Lemma labels_found (conn : list (list nat)) : forall k m, k + List.length conn = m ->
    forall pre, (forall z, In z (map fst pre) -> (z < Z.of_nat k)%Z) ->
    rmap (fun e => match gget Z.eqb (pre ++ map (fun p => (Z.of_nat (fst p), snd p)) (combine (seq k (List.length conn)) conn)) (Z.of_nat e) with
        | Some nodes => Ok (links_elem_line (e, (1, nodes))) | None => Err KeyError end) (seq k (List.length conn))
    = Ok (map links_elem_line (map (fun p => (fst p, (1, snd p))) (combine (seq k (List.length conn)) conn))).
  Proof.
    induction conn as [|r conn IH]; intros k m Hm pre Hp; [reflexivity|].
    cbn [List.length seq combine map rmap fst snd] in *.
    assert (G : gget Z.eqb (pre ++ (Z.of_nat k, r) :: map (fun p => (Z.of_nat (fst p), snd p)) (combine (seq (S k) (List.length conn)) conn)) (Z.of_nat k) = Some r).
    { clear - Hp. induction pre as [|[z v] pre IH]; cbn [app gget]; [now rewrite Z.eqb_refl|].
      destruct (Z.eqb_spec (Z.of_nat k) z) as [E|_]; [specialize (Hp z (or_introl eq_refl)); lia|]. apply IH. intros; apply Hp; right; assumption. }
    rewrite G. cbn [rbind].
    specialize (IH (S k) m ltac:(lia) (pre ++ [(Z.of_nat k, r)])). rewrite <- app_assoc in IH. cbn [app] in IH. rewrite IH; [reflexivity|].
    intros z Hz. rewrite map_app, in_app_iff in Hz. destruct Hz as [Hz|[<-|[]]]; [specialize (Hp z Hz); lia|cbn; lia].
  Qed.

  Lemma skip_head_bcs k coords rest d : table coords k ->
    bcs_pass pf false (elem_head fmt2 coords ++ rest) d = bcs_pass pf false rest d.
  Proof.
    intros Ht. unfold elem_head.
    change (bcs_pass pf false ((map (node_line fmt2) (number coords) ++ [""]) ++ rest) d = bcs_pass pf false rest d).
    rewrite <- app_assoc. pose proof (rows_plain pf fmt2 rnd2 vstr laws2 k coords Ht) as P.
    induction P as [|l ls Pl _ IH]; [reflexivity|]. cbn [app bcs_pass]. rewrite (plain_no_kw "boundary" _ Pl). cbn [andb]. exact IH.
  Qed.
  Lemma write_bcs k coords conn t ty d : table coords k -> fetorch_type t = Ok ty -> (forall r, In r (bound_rows d) -> 1 <= snd (fst r)) ->
    bcs_pass pf false (write_mesh fmt2 vstr coords conn t (Some d)) [] = Ok (fold_left put (bound_rows d) []).
  Proof.
    intros Ht Hty Hd. rewrite write_split, (skip_head_bcs k) by exact Ht. cbn [bcs_pass]. rewrite (known_not_boundary t ty) by exact Hty. cbn [andb].
    assert (E : forall ls rest d0, Forall plain ls -> bcs_pass pf false (ls ++ rest) d0 = bcs_pass pf false rest d0).
    { intros ls rest d0 P. induction P as [|l ls Pl _ IH]; [reflexivity|]. cbn [app bcs_pass]. rewrite (plain_no_kw "boundary" _ Pl). cbn [andb]. exact IH. }
    rewrite E by apply elems_plain.
    change (bcs_pass pf true (map (fun t => bound_line vstr (fst (fst t)) (snd (fst t)) (snd t)) (bound_rows d)) [] = Ok (fold_left put (bound_rows d) [])).
    now apply bcs_rows.
  Qed.

  (** The title is not read. *)
  Lemma title_unread n_dim t1 t2 ls : plain t1 -> plain t2 ->
    inp_to_dat pf fmt zero n_dim (t1 :: ls) = inp_to_dat pf fmt zero n_dim (t2 :: ls).
  Proof.
    intros P1 P2. unfold inp_to_dat. cbn [nodes_pass].
    rewrite (plain_no_kw "node" _ P1), (plain_no_kw "node" _ P2). cbn [andb].
    destruct (nodes_pass pf n_dim false ls) as [coords|]; [|reflexivity]. cbn [rbind]. destruct (Nat.eqb _ 0); [reflexivity|].
    cbn [conn_pass bcs_pass]. rewrite (plain_no_kw "element, type" _ P1), (plain_no_kw "element, type" _ P2), (plain_no_kw "boundary" _ P1), (plain_no_kw "boundary" _ P2).
    reflexivity.
  Qed.

  (** A mesh written as an Abaqus file is converted to a Links file with the
      same nodes, elements and prescribed displacements. *)
  Theorem inp_round_trip n_dim k coords conn t ty d title :
    coords <> [] -> table coords k -> in_mesh (List.length coords) conn -> covered (List.length coords) conn ->
    fetorch_type t = Ok ty -> plain title ->
    NoDup (map fst d) -> (forall i l, In (i, l) d -> NoDup (map fst l) /\ forall j, In j (map fst l) -> 1 <= j <= 3) ->
    exists out bcs, inp_to_dat pf fmt zero n_dim (title :: tl (write_mesh fmt2 vstr coords conn t (Some d))) = Ok out /\
      extract_coords pf out = Ok (map (fun r => map rnd (map rnd2 (firstn n_dim r))) coords) /\
      extract_conn out = Ok (map (map Z.of_nat) conn) /\
      extract_bcs pf out = Ok bcs /\ StronglySorted Z.lt (map fst bcs) /\
      forall i j v, (exists l, In (Z.of_nat i, l) bcs /\ In (j, v) l) <-> (exists l u, In (i, l) d /\ In (j, u) l /\ v = rnd (val u)).
  Proof.
    intros Hn Ht Hc Hv Hty Pt N1 N2.
    assert (Rd : forall r, In r (bound_rows d) -> 1 <= snd (fst r) <= 3).
    { intros [[i j] v] H. unfold bound_rows in H. apply in_flat_map in H as ([a l] & H1 & H2). apply in_map_iff in H2 as ([b w] & E & H2).
      cbn [fst snd] in *. injection E as -> -> ->. apply (proj2 (N2 i l H1)). apply (in_map fst) in H2. exact H2. }
    assert (Nr : NoDup (map fst (bound_rows d))).
    { clear - N1 N2. unfold bound_rows. induction d as [|[i l] d' IH]; [constructor|]. cbn [flat_map map fst snd] in *.
      apply NoDup_cons_iff in N1 as [A1 A2]. rewrite map_app, map_map. cbn [fst].
      assert (NI : forall x, In x (map (fun b : nat * V => (i, fst b)) l) -> ~ In x (map fst (flat_map (fun n => map (fun b => (fst n, fst b, snd b)) (snd n)) d'))).
      { intros x Hx Hy. apply in_map_iff in Hx as (b & <- & _). apply in_map_iff in Hy as ([[p q] w] & E & Hy).
        apply in_flat_map in Hy as ([a m] & H1 & H2). apply in_map_iff in H2 as (b' & E' & _). cbn [fst snd] in *. apply A1.
        apply in_map_iff. exists (a, m). split; [cbn; congruence|exact H1]. }
      assert (Nl : NoDup (map (fun b : nat * V => (i, fst b)) l)).
      { destruct (N2 i l (or_introl eq_refl)) as [Q _]. rewrite <- (map_map fst (fun b => (i, b))).
        apply FinFun.Injective_map_NoDup; [intros a b; congruence|exact Q]. }
      specialize (IH A2 (fun i' l' H => N2 i' l' (or_intror H))). revert Nl NI. generalize (map (fun b : nat * V => (i, fst b)) l). intros ls.
      induction ls as [|x ls IHl]; intros Nl NI; [exact IH|]. cbn [app]. apply NoDup_cons_iff in Nl as [B1 B2]. constructor.
      - rewrite in_app_iff. intros [Q|Q]; [exact (B1 Q)|]. exact (NI x (or_introl eq_refl) Q).
      - apply IHl; [exact B2|]. intros y Hy. apply NI. right. exact Hy. }
    set (rows := map (fun p : nat * list nat => (fst p, (1, snd p))) (number conn)).
    set (dd := fold_left put (bound_rows d) []).
    assert (E : inp_to_dat pf fmt zero n_dim (title :: tl (write_mesh fmt2 vstr coords conn t (Some d)))
      = Ok (out_lines fmt zero n_dim rows (map (fun r => map rnd2 (firstn n_dim r)) coords) dd)).
    { rewrite (title_unread n_dim title "ADiMU mesh data file (generated from Links data)") by (exact Pt || reflexivity).
      change ("ADiMU mesh data file (generated from Links data)" :: tl (write_mesh fmt2 vstr coords conn t (Some d))) with (write_mesh fmt2 vstr coords conn t (Some d)).
      unfold inp_to_dat. rewrite (write_nodes pf fmt2 rnd2 vstr laws2 n_dim k) by exact Ht. cbn [rbind]. rewrite map_length.
      assert (L : Nat.eqb (List.length coords) 0 = false) by (destruct coords; [contradiction|reflexivity]). rewrite L.
      pose proof (write_elems pf fmt2 rnd2 vstr laws2 (List.length coords) k coords conn t ty (Some d) Ht Hc Hty) as W.
      apply conn_of_elems in W. cbn [fst snd map] in W. rewrite W. cbn [rbind fst snd]. apply covered_ok in Hv. rewrite Hv. cbn [negb].
      rewrite (write_bcs k coords conn t ty d Ht Hty) by (intros r Hr; apply Rd, Hr). cbn [rbind]. fold dd.
      rewrite map_map. cbn [untype fst snd]. unfold elem_lines. rewrite map_length.
      assert (Ln : List.length (number conn) = List.length conn) by (unfold number; rewrite combine_length, seq_length; lia).
      pose proof (labels_found conn 1 _ eq_refl [] ltac:(intros z [])) as Lf. cbn [app] in Lf. fold (number conn) in Lf. unfold untype. cbn [fst snd].
      rewrite Ln, Lf. cbn [rbind]. fold rows. unfold out_lines.
      assert (Lr : List.length rows = List.length conn) by (unfold rows; rewrite map_length; exact Ln). rewrite Lr, map_length. cbn [app]. rewrite <- ?app_assoc. reflexivity. }
    assert (Nd : NoDup (map fst dd)) by (apply put_nodup; constructor).
    eexists. eexists. split; [exact E|]. split; [rewrite (out_coords pf fmt rnd zero laws); f_equal; now rewrite map_map|].
    split.
    { rewrite (out_conn fmt zero).
      - f_equal. unfold rows. rewrite map_map. cbn [snd]. exact (map_snd_number (map Z.of_nat) conn).
      - intros r Hr. apply in_map_iff in Hr as (p & <- & _). cbn. lia. }
    split; [exact (out_bcs pf fmt rnd zero laws wide n_dim rows _ dd Nd)|].
    rewrite map_map. cbn [fst]. rewrite map_id. split; [now apply isort_sorted|].
    intros i j v.
    assert (Fi : forall k0, k0 < 3 -> forall x, gget Z.eqb (node_bcs dd (Z.of_nat i)) (Z.of_nat k0) = Some x <-> exists l u, In (i, l) d /\ In (S k0, u) l /\ x = val u).
    { intros k0 Hk x. unfold dd. rewrite put_get by (auto; intros r Hr; apply Rd, Hr). cbn [node_bcs gget].
      assert (Br : forall u, In (i, S k0, u) (bound_rows d) <-> exists l, In (i, l) d /\ In (S k0, u) l).
      { intros u. unfold bound_rows. rewrite in_flat_map. split.
        - intros ([a l] & H1 & H2). apply in_map_iff in H2 as ([b w] & Q & H2). cbn [fst snd] in *. injection Q as -> -> ->. eauto.
        - intros (l & H1 & H2). exists (i, l). split; [exact H1|]. apply in_map_iff. exists (S k0, u). auto. }
      destruct (List.find _ (bound_rows d)) as [[[a b] w]|] eqn:F.
      - apply List.find_some in F as [F1 F2]. cbn [fst snd] in *. apply andb_prop in F2 as [F2 F3]. apply Nat.eqb_eq in F2, F3. subst a b.
        split.
        + intros Q. injection Q as <-. apply Br in F1 as (l & H1 & H2). eauto.
        + intros (l & u & H1 & H2 & ->). f_equal. f_equal.
          assert (I2 : In (i, S k0, u) (bound_rows d)) by (apply Br; eauto).
          clear - Nr F1 I2. induction (bound_rows d) as [|[q w'] rs IH]; [destruct F1|]. cbn [map fst] in Nr. apply NoDup_cons_iff in Nr as [A1 A2].
          destruct F1 as [F1|F1], I2 as [I2|I2].
          * congruence.
          * injection F1 as -> ->. exfalso. apply A1. apply (in_map fst) in I2. exact I2.
          * injection I2 as -> ->. exfalso. apply A1. apply (in_map fst) in F1. exact F1.
          * auto.
      - split; [discriminate|]. intros (l & u & H1 & H2 & ->). exfalso.
        assert (I2 : In (i, S k0, u) (bound_rows d)) by (apply Br; eauto).
        pose proof (List.find_none _ _ F _ I2) as Q. cbn [fst snd] in Q. rewrite !Nat.eqb_refl in Q. discriminate. }
    split.
    - intros (l & H1 & H2). apply in_map_iff in H1 as (id & Q & _). assert (id = Z.of_nat i) as -> by congruence.
      assert (l = present rnd (node_bcs dd (Z.of_nat i))) as -> by congruence. clear Q.
      assert (J : exists k0, j = S k0 /\ k0 < 3).
      { unfold present in H2. apply in_flat_map in H2 as (k0 & H3 & H4). exists k0. destruct (gget _ _ _); [|destruct H4]. destruct H4 as [H4|[]].
        injection H4 as <- _. split; [reflexivity|]. cbn in H3. lia. }
      destruct J as (k0 & -> & Hk). apply present_in in H2 as (u & G & ->); [|exact Hk]. apply (Fi k0 Hk) in G as (l & w & H3 & H4 & ->). eauto.
    - intros (l & u & H1 & H2 & ->).
      assert (J : 1 <= j <= 3) by (apply (proj2 (N2 i l H1)); apply (in_map fst) in H2; exact H2).
      destruct j as [|k0]; [lia|]. exists (present rnd (node_bcs dd (Z.of_nat i))). split.
      + apply in_map_iff. exists (Z.of_nat i). split; [reflexivity|]. apply (Permutation_in _ (Permutation_sym (isort_perm _ _))).
        apply put_keys. right. exists (i, S k0, u). split; [|reflexivity]. unfold bound_rows. apply in_flat_map. exists (i, l). split; [exact H1|].
        apply in_map_iff. exists (S k0, u). auto.
      + apply present_in; [lia|]. exists (val u). split; [|reflexivity]. apply Fi; [lia|]. eauto.
  Qed.
End Back.

(** ** Cases *)
Definition x_rnd (c : nat) : nat := c mod 1000 / 10 * 10.
Definition x_fmt (c : nat) : string := pad_left 5 (nat_str (x_rnd c)).
Lemma x_laws : number_laws h_pf x_fmt x_rnd.
Proof.
  split; intros c; unfold x_fmt.
  - exists (nat_str (x_rnd c)). split; [apply words_pad|]. unfold h_pf. rewrite py_int_str. cbn [rbind]. now rewrite Nat2Z.id.
  - apply pad_no_t.
  - now apply pad_no.
Qed.
Lemma x_wide c : roomy x_fmt c.
Proof.
  unfold roomy, x_fmt, pad_left.
  assert (L : String.length (nat_str (x_rnd c)) < 5).
  { assert (B : x_rnd c < 1000).
    { unfold x_rnd. pose proof (Nat.mod_upper_bound c 1000 ltac:(lia)). pose proof (Nat.mul_div_le (c mod 1000) 10 ltac:(lia)). lia. }
    pose proof (small_length (x_rnd c) B). lia. }
  destruct (5 - String.length (nat_str (x_rnd c))) as [|k] eqn:E; [lia|]. cbn [spaces append]. eauto.
Qed.
Definition two_tris_dat : res (list string) := inp_to_dat h_pf x_fmt 0 2 two_tris.
Example inp_converted : two_tris_dat = Ok
  [""; "ELEMENTS 2"; "  1  1  1 2 3"; "  2  1  1 3 4"; "";
   "NODE_COORDINATES 4 CARTESIAN"; "  1     0     0"; "  2   120     0"; "  3   120   120"; "  4     0   120"; "";
   "NODES_WITH_PRESCRIBED_DISPLACEMENTS 2"; "   1 110    0     0     0     0"; "   4 101    0     0     0     0"].
Proof. vm_compute. reflexivity. Qed.
Example inp_converted_read : rbind two_tris_dat (extract_bcs h_pf) = Ok [(1%Z, [(1, 0); (2, 0)]); (4%Z, [(1, 0); (3, 0)])].
Proof. vm_compute. reflexivity. Qed.

(** A file read as a specimen mesh cannot be converted when its elements are
    not labelled from 1 on, or when it prescribes null displacements without
    writing them. *)
Theorem inp_every_mesh_refuted : exists labels zeros mesh mesh',
  read_mesh h_pf 2 labels = Ok mesh /\ inp_to_dat h_pf x_fmt 0 2 labels = Err KeyError /\
  read_mesh h_pf 2 zeros = Ok mesh' /\ inp_to_dat h_pf x_fmt 0 2 zeros = Err IndexError.
Proof.
  exists ["*Node"; "1, 0, 0"; "2, 9, 0"; "3, 0, 5"; "*Element, type=CPE3"; "101, 1, 2, 3"].
  exists ["*Node"; "1, 0, 0"; "2, 9, 0"; "3, 0, 5"; "*Element, type=CPE3"; "1, 1, 2, 3"; "*Boundary"; "1, 1, 2"].
  do 2 eexists. split; [vm_compute; reflexivity|]. split; [vm_compute; reflexivity|]. split; vm_compute; reflexivity.
Qed.
(** Constraints of nodes outside the mesh are written, those of other degrees
    of freedom leave a node without prescribed displacements, and the labels
    of the nodes are not read. *)
Theorem inp_constraints_refuted : exists lines out,
  inp_to_dat h_pf x_fmt 0 2 lines = Ok out /\
  extract_bcs h_pf out = Ok [(2%Z, []); (70%Z, [(1, 50)])] /\ extract_coords h_pf out = Ok [[0; 0]; [90; 0]; [0; 50]].
Proof.
  exists ["*Node"; "3, 0, 0"; "1, 90, 0"; "2, 0, 50"; "*Element, type=CPE3"; "1, 1, 2, 3"; "*Boundary"; "70, 1, 1, 50"; "2, 6, 6, 10"].
  eexists. split; [vm_compute; reflexivity|]. split; vm_compute; reflexivity.
Qed.

(** The Abaqus file of a Links mesh is that of the other converter below
    another title. *)
Theorem dat_to_inp_lines {C} pf fmt vstr lines (out : list string) :
  @dat_to_inp C pf fmt vstr lines = Ok out ->
  exists m, adimu_mesh pf fmt vstr lines = Ok m /\ List.length out = List.length m /\
    hd EmptyString out = "Automatically generated ABAQUS format input file"%string /\ tl out = tl m.
Proof.
  unfold dat_to_inp. destruct (adimu_mesh pf fmt vstr lines) as [m|] eqn:E; cbn [rbind]; [|discriminate].
  intros H. injection H as <-. exists m. split; [reflexivity|]. split; [|split; reflexivity].
  destruct m; [|reflexivity]. exfalso. unfold adimu_mesh in E.
  repeat match type of E with context [rbind ?x _] => destruct x; cbn [rbind] in E; [|discriminate] end.
  injection E as E. discriminate E.
Qed.

Print Assumptions inp_conversion_agrees.
Print Assumptions inp_no_way_back_refuted.
Print Assumptions inp_round_trip.
Print Assumptions inp_every_mesh_refuted.
Print Assumptions inp_constraints_refuted.
