(** Boundary conditions of uniaxial specimens (C96). *)
From Coq Require Import String Ascii List Bool Arith ZArith Lia Reals Lra.
From Verif Require Import Lib PyStr PyDict TextLines SpecimenModel SpecimenProps LinksFileModel LinksFileProps InpLinksModel InpLinksProps UniaxialModel.
Import ListNotations.
Local Open Scope string_scope.
Local Open Scope list_scope.

Section Laws.
  Context {C : Type} (zero : C) (sub : C -> C -> C) (near above : C -> bool) (pf : string -> res C) (fmt : C -> string) (rnd : C -> C).

  (** ** What each node is prescribed *)
  Definition code_of (b : bool) : nat := if b then 1 else 0.
  (** on the face loaded at the top, which the base excludes *)
  Definition loaded (top : C) (c : list C) : bool :=
    match c with [_; y; _] => near (sub y top) && negb (near y) | _ => false end.
  Definition fixed (top : C) (c : list C) : bool :=
    match c with [x; y; z] => near x || near y || near (sub y top) || near z | _ => false end.
  (** Each component is prescribed on its own faces: x and z on the symmetry
      planes, y at the base and at the top, where it is the load. *)
  Theorem uniaxial_code label top disp x y z : known_specimen label = true ->
    node_dbc zero sub near label top disp x y z
    = Ok ([code_of (near x); code_of (near y || near (sub y top)); code_of (near z)],
          [zero; if near (sub y top) && negb (near y) then disp else zero; zero]).
  Proof.
    intros K. unfold node_dbc. rewrite K. cbn [negb].
    destruct (near x), (near y), (near z), (near (sub y top)); reflexivity.
  Qed.

  Definition row_of (top disp : C) (p : nat * list C) : @dbc_row C :=
    match snd p with
    | [x; y; z] => (fst p, ([code_of (near x); code_of (near y || near (sub y top)); code_of (near z)],
                            [zero; if loaded top (snd p) then disp else zero; zero]))
    | _ => (fst p, ([], []))
    end.
  Lemma rows_law label top disp coords : known_specimen label = true -> (forall c, In c coords -> List.length c = 3) ->
    forall i, specimen_rows zero sub near label top disp i coords
    = Ok (map (row_of top disp) (filter (fun p => fixed top (snd p)) (combine (seq (S i) (List.length coords)) coords))).
  Proof.
    intros K. induction coords as [|c coords IH]; intros H i; [reflexivity|].
    pose proof (H c (or_introl eq_refl)) as L. destruct c as [|x [|y [|z [|w c]]]]; try discriminate L. clear L.
    cbn [specimen_rows]. rewrite uniaxial_code by exact K. cbn [rbind].
    rewrite (IH (fun c Hc => H c (or_intror Hc)) (S i)). cbn [rbind fst List.length seq combine filter snd fixed].
    destruct (near x) eqn:Ex, (near y) eqn:Ey, (near z) eqn:Ez, (near (sub y top)) eqn:Et; cbn [orb andb negb code_of forallb Nat.eqb fst];
      cbn [map row_of fst snd loaded]; rewrite ?Ex, ?Ey, ?Ez, ?Et; reflexivity.
  Qed.
  (** The rows are those of the nodes on one of the faces, in order and with
      their labels. *)
  Theorem uniaxial_rows label top disp coords : known_specimen label = true -> (forall c, In c coords -> List.length c = 3) ->
    specimen_dbc zero sub near label top disp coords
    = Ok (map (row_of top disp) (filter (fun p => fixed top (snd p)) (number coords))).
  Proof. intros K H. exact (rows_law label top disp coords K H 0). Qed.

  (** The reaction group holds the nodes of the loaded face if the load is
      positive, *)
  Theorem uniaxial_group label top disp coords rows : known_specimen label = true -> (forall c, In c coords -> List.length c = 3) ->
    above zero = false -> above disp = true -> specimen_dbc zero sub near label top disp coords = Ok rows ->
    reaction_nodes above rows = map fst (filter (fun p => loaded top (snd p)) (number coords)).
  Proof.
    intros K H Z D E. rewrite uniaxial_rows in E by assumption. injection E as <-. unfold reaction_nodes.
    assert (G : forall l : list (nat * list C), (forall p, In p l -> List.length (snd p) = 3) ->
      map fst (filter (fun r => existsb above (snd (snd r))) (map (row_of top disp) (filter (fun p => fixed top (snd p)) l)))
      = map fst (filter (fun p => loaded top (snd p)) l)).
    { induction l as [|[i c] l IH]; intros Hl; [reflexivity|]. pose proof (Hl _ (or_introl eq_refl)) as L. cbn [snd] in L.
      specialize (IH (fun p Hp => Hl p (or_intror Hp))).
      destruct c as [|x [|y [|z [|w c]]]]; try discriminate L. cbn [filter snd fixed loaded].
      destruct (near x) eqn:Ex, (near y) eqn:Ey, (near z) eqn:Ez, (near (sub y top)) eqn:Et; cbn [orb andb negb];
        cbn [map filter row_of fst snd existsb loaded]; rewrite ?Et, ?Ey; cbn [andb negb orb]; rewrite ?Z, ?D; cbn [orb map fst]; rewrite ?IH; reflexivity. }
    apply G. intros [i c] Hi. apply number_in in Hi as [_ Hi]. exact (H c Hi).
  Qed.
  (** and nothing otherwise, although the face is displaced. *)
  Theorem uniaxial_compression_refuted label top disp coords rows : known_specimen label = true -> (forall c, In c coords -> List.length c = 3) ->
    above zero = false -> above disp = false -> specimen_dbc zero sub near label top disp coords = Ok rows ->
    reaction_nodes above rows = [].
  Proof.
    intros K H Z D E. rewrite uniaxial_rows in E by assumption. injection E as <-. unfold reaction_nodes.
    assert (G : forall l : list (nat * list C),
      filter (fun r => existsb above (snd (snd r))) (map (row_of top disp) (filter (fun p => fixed top (snd p)) l)) = []).
    { induction l as [|[i c] l IH]; [reflexivity|]. cbn [filter snd]. destruct (fixed top c); [|exact IH]. cbn [map filter].
      destruct c as [|x [|y [|z [|w c]]]]; try exact IH. cbn [row_of snd fst existsb]. rewrite Z.
      destruct (loaded top [x; y; z]); rewrite ?D, ?Z; cbn [orb]; exact IH. }
    now rewrite G.
  Qed.

  (** ** The file *)
  Hypothesis laws : number_laws pf fmt rnd.
  Lemma bare_join vals : (forall v, In v vals -> roomy fmt v) -> words (join "" (map fmt vals)) = flat_map words (map fmt vals).
  Proof.
    induction vals as [|v [|u vals] IH]; intros H; [reflexivity|cbn [map join flat_map]; now rewrite app_nil_r|].
    change (join "" (map fmt (v :: u :: vals))) with (fmt v ++ "" ++ join "" (map fmt (u :: vals)))%string.
    destruct (H u (or_intror (or_introl eq_refl))) as [s Es].
    assert (E : exists s', join "" (map fmt (u :: vals)) = String " " s').
    { cbn [map join]. rewrite Es. destruct (map fmt vals); eexists; reflexivity. }
    destruct E as [s' E]. specialize (IH (fun w Hw => H w (or_intror Hw))). rewrite E in *.
    change (fmt v ++ "" ++ String " " s')%string with (fmt v ++ String " " s')%string. rewrite words_space.
    change (words (String " " s')) with (words s') in IH. rewrite IH. reflexivity.
  Qed.
  Definition components (r : @dbc_row C) : list (nat * C) :=
    match r with
    | (_, ([a; b; c], [u; v; w])) =>
      (if Nat.eqb a 1 then [(1, rnd u)] else []) ++ (if Nat.eqb b 1 then [(2, rnd v)] else []) ++ (if Nat.eqb c 1 then [(3, rnd w)] else [])
    | _ => []
    end.
  Definition proper (r : @dbc_row C) : Prop :=
    exists i a b c u v w, r = (i, ([code_of a; code_of b; code_of c], [u; v; w])) /\ roomy fmt u /\ roomy fmt v /\ roomy fmt w.
  Lemma dbc_no_t r : proper r -> has_ci "t" (dbc_line fmt r) = false.
  Proof.
    intros (i & a & b & c & u & v & w & -> & _). unfold dbc_line. cbn [fst snd].
    rewrite !has_ci_app, pad_no_t. cbn [has_ci orb]. rewrite !join_no_t; try reflexivity.
    - intros s H. apply in_map_iff in H as (q & <- & _). apply (nl_t _ _ _ laws).
    - intros s H. apply in_map_iff in H as (q & <- & _). apply nat_no_t.
  Qed.
  Lemma dbc_plain r : proper r -> has_char "*" (dbc_line fmt r) = false.
  Proof.
    intros (i & a & b & c & u & v & w & -> & _). unfold dbc_line. cbn [fst snd].
    rewrite !has_char_app, pad_no by reflexivity. cbn [has_char orb]. rewrite !has_char_join; try reflexivity.
    - rewrite forallb_map. apply forallb_all. intros q. now rewrite (nl_star _ _ _ laws).
    - rewrite forallb_map. apply forallb_all. intros q. now rewrite nat_str_no.
  Qed.
  Lemma dbc_words i a b c u v w : roomy fmt u -> roomy fmt v -> roomy fmt w ->
    words (dbc_line fmt (i, ([code_of a; code_of b; code_of c], [u; v; w])))
    = nat_str i :: join "" (map nat_str [code_of a; code_of b; code_of c]) :: flat_map words (map fmt [u; v; w]).
  Proof.
    intros Ru Rv Rw. unfold dbc_line. cbn [fst snd].
    match goal with |- words (?p ++ ?l ++ ?s ++ ?k ++ ?s' ++ ?t)%string = _ =>
      change (words (spaces 2 ++ l ++ String " " (k ++ String " " t))%string = nat_str i :: k :: flat_map words (map fmt [u; v; w])) end.
    rewrite words_spaces, words_space, words_pad, words_space. rewrite bare_join.
    - destruct a, b, c; reflexivity.
    - intros q [<-|[<-|[<-|[]]]]; assumption.
  Qed.
  Lemma dbc_parse r : proper r -> disp_row pf (dbc_line fmt r) = Ok (Z.of_nat (fst r), components r).
  Proof.
    intros (i & a & b & c & u & v & w & -> & Ru & Rv & Rw). unfold disp_row, nth_word. rewrite dbc_words by assumption.
    cbn [nth_error rbind skipn]. rewrite py_int_str. cbn [rbind].
    assert (K : rmap py_int (chars (join "" (map nat_str [code_of a; code_of b; code_of c])))
      = Ok (map Z.of_nat [code_of a; code_of b; code_of c])) by (destruct a, b, c; reflexivity).
    rewrite K. cbn [rbind].
    destruct (nl_word _ _ _ laws u) as (wu & W1 & P1), (nl_word _ _ _ laws v) as (wv & W2 & P2), (nl_word _ _ _ laws w) as (ww & W3 & P3).
    cbn [map flat_map]. rewrite W1, W2, W3. cbn [app firstn rmap]. rewrite P1, P2, P3. cbn [rbind].
    destruct a, b, c; reflexivity.
  Qed.
  (** The written file holds the prescribed displacements of the rows. *)
  Theorem uniaxial_file group rows : (forall r, In r rows -> proper r) -> NoDup (map fst rows) ->
    extract_bcs pf (dbc_lines above fmt group rows) = Ok (map (fun r => (Z.of_nat (fst r), components r)) rows).
  Proof.
    intros H N. unfold extract_bcs, dbc_lines.
    assert (K : In "NODES_WITH_PRESCRIBED_DISPLACEMENTS" keywords) by (cbn; tauto).
    match goal with |- context [map (dbc_line fmt) rows ++ ?r] => set (rest := r) end.
    change (rbind (rows_pass "NODES_WITH_PRESCRIBED_DISPLACEMENTS" (fun _ => Ok tt) (disp_row pf) (Some []) (map (dbc_line fmt) rows ++ rest))
      (fun o => rbind (bound o) (fun rows => Ok (fold_left (fun d r => gset Z.eqb d (fst r) (snd r)) rows [])))
      = Ok (map (fun r => (Z.of_nat (fst r), components r)) rows)).
    rewrite (rows_read _ _ _ (dbc_line fmt) (fun r => (Z.of_nat (fst r), components r))).
    - assert (E : forall acc, rows_pass "NODES_WITH_PRESCRIBED_DISPLACEMENTS" (fun _ => Ok tt) (disp_row pf) (Some acc) rest = Ok (Some acc))
        by (intros acc; unfold rest; destruct group; reflexivity).
      rewrite E. cbn [rbind bound app]. rewrite fold_gset_new; [reflexivity|]. cbn [map app]. rewrite map_map. cbn [fst].
      replace (map (fun x : @dbc_row C => Z.of_nat (fst x)) rows) with (map Z.of_nat (map fst rows)) by apply map_map.
      apply FinFun.Injective_map_NoDup; [intros p q; lia|exact N].
    - intros r Hr. specialize (H r Hr). split; [exact (no_t_clean _ (dbc_no_t r H) _ K)|]. split; [now apply dbc_plain|].
      split; [|now apply dbc_parse]. destruct H as (i & a & b & c & u & v & w & -> & Ru & Rv & Rw).
      apply words_blank. rewrite dbc_words by assumption. discriminate.
  Qed.
  (** From a specimen to its file: the component j of node i is prescribed
      exactly on its faces, with the rounded load on the loaded face. *)
  Theorem uniaxial_specimen label top disp coords group : known_specimen label = true -> (forall c, In c coords -> List.length c = 3) ->
    roomy fmt zero -> roomy fmt disp ->
    exists rows, specimen_dbc zero sub near label top disp coords = Ok rows /\
    extract_bcs pf (dbc_lines above fmt group rows)
    = Ok (map (fun p => (Z.of_nat (fst p),
          match snd p with
          | [x; y; z] => (if near x then [(1, rnd zero)] else [])
              ++ (if near y then [(2, rnd zero)] else if near (sub y top) then [(2, rnd disp)] else [])
              ++ (if near z then [(3, rnd zero)] else [])
          | _ => []
          end)) (filter (fun p => fixed top (snd p)) (number coords))).
  Proof.
    intros K H R1 R2. eexists. split; [apply uniaxial_rows; assumption|].
    assert (S3 : forall p, In p (filter (fun p => fixed top (snd p)) (number coords)) -> exists i x y z, p = (i, [x; y; z])).
    { intros [i c] Hp. apply filter_In in Hp as [Hp _]. apply number_in in Hp as [_ Hp]. specialize (H c Hp).
      destruct c as [|x [|y [|z [|w c]]]]; try discriminate H. eauto. }
    rewrite uniaxial_file.
    - f_equal. rewrite map_map. apply map_ext_in. intros p Hp. destruct (S3 p Hp) as (i & x & y & z & ->).
      cbn [row_of fst snd components loaded]. destruct (near x), (near y), (near z), (near (sub y top)); reflexivity.
    - intros r Hr. apply in_map_iff in Hr as (p & <- & Hp). destruct (S3 p Hp) as (i & x & y & z & ->).
      exists i, (near x), (near y || near (sub y top)), (near z), zero, (if loaded top [x; y; z] then disp else zero), zero.
      split; [reflexivity|]. destruct (loaded top [x; y; z]); auto.
    - rewrite map_map. assert (E : forall p, In p (filter (fun p => fixed top (snd p)) (number coords)) -> fst (row_of top disp p) = fst p).
      { intros p Hp. destruct (S3 p Hp) as (i & x & y & z & ->). reflexivity. }
      rewrite (map_ext_in _ fst _ E). clear E S3. unfold number. generalize 1.
      assert (G : forall (l : list (list C)) k, NoDup (map fst (filter (fun p => fixed top (snd p)) (combine (seq k (List.length l)) l))) /\
        forall i, In i (map fst (filter (fun p => fixed top (snd p)) (combine (seq k (List.length l)) l))) -> k <= i).
      { induction l as [|c l IH]; intros k; [split; [constructor|intros i []]|]. cbn [List.length seq combine filter snd].
        destruct (IH (S k)) as [I1 I2]. destruct (fixed top c); cbn [map fst].
        - split.
          + constructor; [|exact I1]. intros Q. apply I2 in Q. lia.
          + intros i [<-|Q]; [lia|]. apply I2 in Q. lia.
        - split; [exact I1|]. intros i Q. apply I2 in Q. lia. }
      intros k. apply G.
  Qed.
  (** The nodes read from a Links file are those of the conversions. *)
  Theorem uniaxial_nodes lines coords : extract_coords pf lines = Ok coords -> read_nodes pf lines = Ok coords.
  Proof.
    unfold extract_coords, read_nodes.
    assert (G : forall ls acc o, rows_pass "NODE_COORDINATES" count_head (fun l => rmap pf (skipn 1 (words l))) acc ls = Ok o ->
      rows_pass "NODE_COORDINATES" (fun _ => Ok tt) (fun l => rmap pf (skipn 1 (words l))) acc ls = Ok o).
    { induction ls as [|l ls IH]; intros acc o H; [exact H|]. cbn [rows_pass] in *. destruct (search_kw "NODE_COORDINATES" l).
      - destruct (count_head l); [|discriminate H]. cbn [rbind] in *. exact (IH _ _ H).
      - destruct acc as [rows|]; [|exact (IH _ _ H)]. destruct (section_end l || blank l); [exact H|].
        destruct (rmap pf (skipn 1 (words l))); [|discriminate H]. cbn [rbind] in *. exact (IH _ _ H). }
    destruct (rows_pass "NODE_COORDINATES" count_head _ None lines) as [o|] eqn:E; [|discriminate]. rewrite (G _ _ _ E). auto.
  Qed.
End Laws.

(** Over the reals *)
Definition r_near (x : R) : bool := if Rlt_dec (Rabs x) (1 / 100000000) then true else false.
Theorem uniaxial_prescription label top disp x y z : known_specimen label = true ->
  exists a b c v, node_dbc 0%R Rminus r_near label top disp x y z = Ok ([a; b; c], [0%R; v; 0%R]) /\
    (a = 1 <-> (Rabs x < 1 / 100000000)%R) /\ (c = 1 <-> (Rabs z < 1 / 100000000)%R) /\
    (b = 1 <-> (Rabs y < 1 / 100000000 \/ Rabs (y - top) < 1 / 100000000)%R) /\
    ((Rabs y < 1 / 100000000)%R -> v = 0%R) /\
    (b = 1 -> (1 / 100000000 <= Rabs y)%R -> v = disp) /\ (b = 0 -> v = 0%R) /\ (a <= 1 /\ b <= 1 /\ c <= 1).
Proof.
  intros K. rewrite uniaxial_code by exact K. do 4 eexists. split; [reflexivity|]. unfold r_near.
  destruct (Rlt_dec (Rabs x) (1 / 100000000)), (Rlt_dec (Rabs y) (1 / 100000000)), (Rlt_dec (Rabs z) (1 / 100000000)),
    (Rlt_dec (Rabs (y - top)) (1 / 100000000)); cbn; repeat split; intros; try tauto; try lra; try lia; try discriminate.
Qed.

(** ** Cases *)
Definition z_fmt (z : Z) : string := pad_left 4 (z_str z).
Definition z_near (z : Z) : bool := (z =? 0)%Z.
Definition z_above (z : Z) : bool := (0 <? z)%Z.
Lemma z_laws : number_laws py_int z_fmt (fun z => z).
Proof.
  split; intros z; unfold z_fmt, pad_left.
  - exists (z_str z). split; [rewrite words_spaces; apply words_z|apply py_int_z].
  - now rewrite has_ci_app, spaces_no_t, z_no_t.
  - rewrite has_char_app, has_char_spaces, z_no by reflexivity. reflexivity.
Qed.
Definition z_bar : list (list Z) := [[0; 0; 0]; [5; 0; 2]; [0; 6; 0]; [5; 6; 3]; [0; 12; 4]; [5; 12; 0]; [5; 12; 7]]%Z.
Definition z_file (disp : Z) : res (list string) :=
  rbind (specimen_dbc 0%Z Z.sub z_near "3d_tensile_dogbone" 12%Z disp z_bar) (fun rows => Ok (dbc_lines z_above z_fmt true rows)).
Example uniaxial_case : z_file 30 = Ok
  ["NODES_WITH_PRESCRIBED_DISPLACEMENTS 6";
   "     1 111    0   0   0"; "     2 010    0   0   0"; "     3 101    0   0   0"; "     5 110    0  30   0";
   "     6 011    0  30   0"; "     7 010    0  30   0"; ""; "NODE_GROUPS 1"; "1 3"; "5"; "6"; "7"].
Proof. vm_compute. reflexivity. Qed.
Example uniaxial_case_read : rbind (z_file 30) (extract_bcs py_int)
  = Ok [(1, [(1%nat, 0); (2%nat, 0); (3%nat, 0)]); (2, [(2%nat, 0)]); (3, [(1%nat, 0); (3%nat, 0)]); (5, [(1%nat, 0); (2%nat, 30)]);
        (6, [(2%nat, 30); (3%nat, 0)]); (7, [(2%nat, 30)])]%Z.
Proof. vm_compute. reflexivity. Qed.
(** A compressive load fills the width of its field: the values of the line
    are joined and can no longer be told apart. *)
Theorem uniaxial_width_refuted : exists lines, z_file (-300) = Ok lines /\ extract_bcs py_int lines = Err ValueError.
Proof. eexists. split; [vm_compute; reflexivity|]. vm_compute. reflexivity. Qed.

(** Other specimens are refused. *)
Theorem uniaxial_unknown {C} zero sub near label (top disp : C) x y z :
  label <> "3d_tensile_double_notched"%string -> label <> "3d_tensile_dogbone"%string ->
  node_dbc zero sub near label top disp x y z = Err RuntimeError.
Proof.
  intros A B. unfold node_dbc, known_specimen. apply String.eqb_neq in A, B. rewrite A, B. reflexivity.
Qed.
(** The reaction group follows the table: its header counts the labels below. *)
Theorem uniaxial_group_lines {C} above fmt (rows : list (nat * (list nat * list C))) :
  exists pre h labels, dbc_lines above fmt true rows = pre ++ [h] ++ labels /\
    pre = dbc_lines above fmt false rows ++ [EmptyString; "NODE_GROUPS 1"%string] /\
    words h = ["1"%string; nat_str (List.length labels)] /\
    labels = map (fun r => nat_str (fst r)) (filter (fun r => existsb above (snd (snd r))) rows).
Proof.
  exists (dbc_lines above fmt false rows ++ [EmptyString; "NODE_GROUPS 1"%string]).
  exists ("1 " ++ nat_str (List.length (reaction_nodes above rows)))%string.
  exists (map nat_str (reaction_nodes above rows)).
  split; [|split; [reflexivity|split]].
  - unfold dbc_lines. cbn [app]. rewrite app_nil_r, <- !app_assoc. reflexivity.
  - rewrite map_length. apply (eq_trans (words_space "1" (nat_str (List.length (reaction_nodes above rows))))).
    now rewrite words_nat.
  - unfold reaction_nodes. now rewrite map_map.
Qed.

Print Assumptions uniaxial_code.
Print Assumptions uniaxial_rows.
Print Assumptions uniaxial_group.
Print Assumptions uniaxial_compression_refuted.
Print Assumptions uniaxial_file.
Print Assumptions uniaxial_specimen.
Print Assumptions uniaxial_nodes.
Print Assumptions uniaxial_prescription.
Print Assumptions uniaxial_width_refuted.
