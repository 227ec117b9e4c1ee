(** Links input data files: what is written is extracted, and the converted
    mesh is that of the simulation (C82). *)
From Coq Require Import String Ascii List Bool Arith ZArith Lia.
From Verif Require Import Lib PyStr PyDict TextLines SpecimenModel SpecimenProps LinksFileModel.
Import ListNotations.
Local Open Scope string_scope.
Local Open Scope list_scope.

(** ** Specification *)

(** A formatted number is one word, read as its rounded value, without the
    letter t and without stars. *)
Record number_laws {C} (pf : string -> res C) (fmt : C -> string) (rnd : C -> C) : Prop := {
  nl_word : forall c, exists w, words (fmt c) = [w] /\ pf w = Ok (rnd c);
  nl_t : forall c, has_ci "t" (fmt c) = false;
  nl_star : forall c, has_char "*" (fmt c) = false
}.
(** The width of the format leaves a blank before the number. *)
Definition roomy {C} (fmt : C -> string) (c : C) : Prop := exists s, fmt c = String " " s.

Definition keywords : list string :=
  ["ELEMENT_TYPES"; "NODE_COORDINATES"; "ELEMENTS"; "NODES_WITH_PRESCRIBED_DISPLACEMENTS"].
Definition clean (l : string) : Prop := forall kw, In kw keywords -> search_kw kw l = false.
(** The lines that depend on texts chosen by the user. *)
Definition free_lines (ip : params) (increm mats : list string) : list string :=
  [p_title ip; ("ANALYSIS_TYPE " ++ p_analysis ip)%string; ("LARGE_STRAIN_FORMULATION " ++ p_large ip)%string;
   ("SOLUTION_ALGORITHM " ++ p_algorithm ip)%string; ("SOLVER " ++ p_solver ip)%string;
   ("PARALLEL_SOLVER " ++ p_parallel ip)%string; ("VTK_OUTPUT " ++ p_vtk ip)%string; p_node_out ip; p_global_out ip]
  ++ increm ++ mats.

(** ** Words *)
Lemma words_head c t : is_space c = false -> exists w ws, words (String c t) = w :: ws.
Proof.
  intros H. cbn [words]. rewrite H. destruct t as [|d t]; [eauto|]. destruct (is_space d); [eauto|].
  destruct (words (String d t)); eauto.
Qed.
Lemma words_space a b : words (a ++ String " " b)%string = words a ++ words b.
Proof.
  induction a as [|c a IH]; [reflexivity|]. destruct (is_space c) eqn:Ec.
  - cbn [append words]. rewrite Ec. exact IH.
  - destruct a as [|d a].
    + cbn [append words]. rewrite Ec. reflexivity.
    + cbn [append] in IH |- *. cbn [words] in IH |- *. fold (words (String d a)) in *. rewrite Ec.
      destruct (is_space d) eqn:Ed.
      * cbn [app]. f_equal. exact IH.
      * destruct (words_head d a Ed) as [w [ws Ew]].
        assert (Ew' := Ew). cbn [words] in Ew'. rewrite Ed in Ew'. rewrite IH, Ew'. reflexivity.
Qed.
Lemma words_spaces k s : words (spaces k ++ s)%string = words s.
Proof. induction k as [|k IH]; [reflexivity|]. exact IH. Qed.
Lemma words_trail k s : words (s ++ spaces k)%string = words s.
Proof.
  destruct k as [|k]; [now rewrite app_nil_s|]. cbn [spaces]. rewrite words_space.
  assert (E : words (spaces k) = []) by (rewrite <- (app_nil_s (spaces k)); apply words_spaces). now rewrite E, app_nil_r.
Qed.
Lemma words_digits s : s <> "" -> all_digits s = true -> words s = [s].
Proof.
  induction s as [|c s IH]; [contradiction|]. intros _ H. cbn [all_digits] in H. apply andb_prop in H as [H1 H2].
  cbn [words]. rewrite digit_not_space by exact H1. destruct s as [|d s]; [reflexivity|].
  pose proof H2 as H3. cbn [all_digits] in H3. apply andb_prop in H3 as [H3 _]. rewrite (digit_not_space d) by exact H3.
  rewrite IH by (auto; discriminate). reflexivity.
Qed.
Lemma words_nat n : words (nat_str n) = [nat_str n].
Proof. apply words_digits; [apply nat_str_nonempty|apply nat_str_digits]. Qed.
Lemma words_pad k n : words (pad_left k (nat_str n)) = [nat_str n].
Proof. unfold pad_left. now rewrite words_spaces, words_nat. Qed.
Lemma words_join l : words (join " " l) = flat_map words l.
Proof.
  induction l as [|x [|y l] IH]; [reflexivity|cbn [flat_map]; now rewrite app_nil_r|].
  change (join " " (x :: y :: l)) with (x ++ String " " (join " " (y :: l)))%string.
  rewrite words_space, IH. reflexivity.
Qed.
Lemma words_nats l : words (join " " (map nat_str l)) = map nat_str l.
Proof.
  rewrite words_join. induction l as [|n l IH]; [reflexivity|]. cbn [map flat_map]. now rewrite words_nat, IH.
Qed.
Lemma small_length n : n < 1000 -> String.length (nat_str n) <= 3.
Proof.
  intros H. assert (Q : forallb (fun k => Nat.leb (String.length (nat_str k)) 3) (seq 0 1000) = true) by (vm_compute; reflexivity).
  rewrite forallb_forall in Q. apply Nat.leb_le, Q, in_seq. lia.
Qed.
Lemma words_elem i p nodes : p < 1000 ->
  words (links_elem_line (i, (p, nodes))) = nat_str i :: nat_str p :: map nat_str nodes.
Proof.
  intros Hp. apply small_length in Hp. unfold links_elem_line, pad_center. cbn [fst snd].
  pose proof (nat_str_nonempty p) as Np. destruct (nat_str p) as [|c ps] eqn:Ep; [contradiction|]. rewrite <- Ep in *.
  set (k := 5 - String.length (nat_str p)).
  assert (H1 : exists a, k / 2 = S a) by (destruct (k / 2) eqn:E; [|eauto]; apply Nat.div_small_iff in E; subst k; lia).
  assert (H2 : exists b, k - k / 2 = S b).
  { destruct (k - k / 2) eqn:E; [|eauto]. pose proof (Nat.div_lt k 2). subst k. lia. }
  destruct H2 as [b ->]. destruct H1 as [a ->]. cbn [spaces append]. rewrite words_space, words_pad.
  rewrite <- !app_assoc_s. rewrite words_spaces. cbn [append]. rewrite words_space, words_nat, words_spaces, words_nats.
  reflexivity.
Qed.
Lemma links_elem_parse i p nodes : p < 1000 ->
  rmap py_int (skipn 2 (words (links_elem_line (i, (p, nodes))))) = Ok (map Z.of_nat nodes).
Proof.
  intros Hp. rewrite words_elem by exact Hp. cbn [skipn].
  induction nodes as [|n nodes IH]; [reflexivity|]. cbn [map rmap]. rewrite py_int_str. cbn [rbind]. rewrite IH. reflexivity.
Qed.

(** ** Keywords *)
Lemma no_t_clean l : has_ci "t" l = false -> clean l.
Proof.
  intros H kw Hk. apply (search_kw_absent "t"); [|exact H].
  repeat (destruct Hk as [<-|Hk]; [reflexivity|]). destruct Hk.
Qed.
Lemma digits_no_ci x s : is_digit x = false -> (forall d, is_digit d = true -> lower d = d) -> all_digits s = true -> has_ci x s = false.
Proof.
  intros Hx Hl. induction s as [|d s IH]; [reflexivity|]. cbn. intros H. apply andb_prop in H as [H1 H2].
  rewrite (Hl d H1), IH by exact H2. destruct (Ascii.eqb_spec d x) as [->|]; [congruence|reflexivity].
Qed.
Lemma digit_lower d : is_digit d = true -> lower d = d.
Proof. destruct d as [[] [] [] [] [] [] [] []]; cbn; intros; try discriminate; reflexivity. Qed.
Lemma nat_no_t n : has_ci "t" (nat_str n) = false.
Proof. apply digits_no_ci; [reflexivity|apply digit_lower|apply nat_str_digits]. Qed.
Lemma spaces_no_t k : has_ci "t" (spaces k) = false.
Proof. induction k; [reflexivity|exact IHk]. Qed.
Lemma pad_no_t k n : has_ci "t" (pad_left k (nat_str n)) = false.
Proof. unfold pad_left. now rewrite has_ci_app, spaces_no_t, nat_no_t. Qed.
Lemma join_no_t sep l : has_ci "t" sep = false -> (forall x, In x l -> has_ci "t" x = false) -> has_ci "t" (join sep l) = false.
Proof.
  intros Hs. induction l as [|x [|y l] IH]; intros H; [reflexivity|apply H; left; reflexivity|].
  change (join sep (x :: y :: l)) with (x ++ sep ++ join sep (y :: l))%string.
  rewrite !has_ci_app, (H x), Hs by (left; reflexivity). cbn [orb]. apply IH. intros; apply H; right; assumption.
Qed.
Lemma elem_no_t r : has_ci "t" (links_elem_line r) = false.
Proof.
  unfold links_elem_line, pad_center. rewrite !has_ci_app, pad_no_t, !spaces_no_t, nat_no_t. cbn [orb].
  apply join_no_t; [reflexivity|]. intros x H. apply in_map_iff in H as [n [<- _]]. apply nat_no_t.
Qed.
Lemma elem_plain r : has_char "*" (links_elem_line r) = false.
Proof.
  unfold links_elem_line, pad_center. rewrite !has_char_app, pad_no, !has_char_spaces, nat_str_no by reflexivity. cbn [orb].
  apply has_char_join; [reflexivity|now apply nodes_no_char].
Qed.
Lemma words_blank l : words l <> [] -> blank l = false.
Proof.
  intros H. destruct (blank l) eqn:E; [|reflexivity]. exfalso. apply H. clear H.
  induction l as [|c l IH]; [reflexivity|]. cbn [blank] in E. apply andb_prop in E as [E1 E2]. cbn [words]. rewrite E1. auto.
Qed.

(** ** Passes *)
Section Pass.
  Context {A : Type} (kw : string) (head : string -> res unit) (row : string -> res A).
  Lemma rows_skip pre rest : (forall l, In l pre -> search_kw kw l = false) ->
    rows_pass kw head row None (pre ++ rest) = rows_pass kw head row None rest.
  Proof.
    induction pre as [|l pre IH]; intros H; [reflexivity|]. cbn [app rows_pass].
    rewrite H by (left; reflexivity). apply IH. intros; apply H; right; assumption.
  Qed.
  Lemma rows_read {B} (f : B -> string) (g : B -> A) l : forall rest acc,
    (forall b, In b l -> search_kw kw (f b) = false /\ has_char "*" (f b) = false /\ blank (f b) = false /\ row (f b) = Ok (g b)) ->
    rows_pass kw head row (Some acc) (map f l ++ rest) = rows_pass kw head row (Some (acc ++ map g l)) rest.
  Proof.
    induction l as [|b l IH]; intros rest acc H; [cbn; now rewrite app_nil_r|]. cbn [map app rows_pass].
    destruct (H b) as [H1 [H2 [H3 H4]]]; [left; reflexivity|].
    rewrite H1, (section_end_star _ H2), H3. cbn [orb]. rewrite H4. cbn [rbind].
    rewrite IH by (intros; apply H; right; assumption). now rewrite <- app_assoc.
  Qed.
End Pass.
Lemma type_skip pre rest acc : (forall l, In l pre -> search_kw "ELEMENT_TYPES" l = false) ->
  type_pass false (pre ++ rest) acc = type_pass false rest acc.
Proof.
  induction pre as [|l pre IH]; intros H; [reflexivity|]. cbn [app type_pass].
  rewrite H by (left; reflexivity). apply IH. intros; apply H; right; assumption.
Qed.

(** ** The written file *)
Section Written.
  Context {C : Type} (pf : string -> res C) (fmt : C -> string) (rnd : C -> C) (zero : C).
  Hypothesis laws : number_laws pf fmt rnd.

  Definition head_lines (ip : params) (increm : list string) (phases : list nat) : list string :=
    [""; "TITLE "; p_title ip; ""; ("ANALYSIS_TYPE " ++ p_analysis ip)%string; "";
     ("LARGE_STRAIN_FORMULATION " ++ p_large ip)%string; ""; ("SOLUTION_ALGORITHM " ++ p_algorithm ip)%string]
    ++ increm
    ++ [""; ""; ("SOLVER " ++ p_solver ip)%string; ""; ("PARALLEL_SOLVER " ++ p_parallel ip)%string; "";
        ("VTK_OUTPUT " ++ p_vtk ip)%string; ""; p_node_out ip; ""; p_global_out ip; "";
        ("VTK_OUTPUT " ++ p_vtk ip)%string; ""; ("ELEMENT_GROUPS " ++ nat_str (List.length phases))%string]
    ++ map (fun m => (nat_str m ++ " 1 " ++ nat_str m)%string) phases ++ [""].
  Definition type_lines (t : string) (n : nat) : list string :=
    ["ELEMENT_TYPES 1"; ("1 " ++ t)%string; ("  " ++ nat_str n ++ " GP")%string; ""].
  Definition mat_lines (phases : list nat) (mats : list string) : list string :=
    ("MATERIALS " ++ nat_str (List.length phases))%string :: mats ++ [""].
  Lemma lines_split ip increm mats phases n_dim t n coords conn disps lines dl :
    rmap (links_disp_line fmt zero n_dim) disps = Ok dl ->
    links_lines fmt zero ip increm mats phases n_dim t n coords conn disps = Ok lines ->
    lines = head_lines ip increm phases ++ type_lines t n ++ mat_lines phases mats
      ++ ("ELEMENTS " ++ nat_str (List.length conn))%string :: map links_elem_line (number conn)
      ++ "" :: ("NODE_COORDINATES " ++ nat_str (List.length coords) ++ " CARTESIAN")%string
      :: map (links_node_line fmt) (number coords)
      ++ "" :: ("NODES_WITH_PRESCRIBED_DISPLACEMENTS " ++ nat_str (List.length disps))%string :: dl.
  Proof.
    intros E. unfold links_lines. rewrite E. cbn [rbind]. intros H. injection H as <-.
    unfold head_lines, type_lines, mat_lines. cbn [app]. rewrite <- !app_assoc. cbn [app]. rewrite <- !app_assoc. reflexivity.
  Qed.

  Lemma clean_const l : forallb (fun kw => negb (search_kw kw l)) keywords = true -> clean l.
  Proof. intros H kw Hk. rewrite forallb_forall in H. specialize (H kw Hk). now apply negb_true_iff in H. Qed.
  Lemma kw_nat kw n : In kw keywords -> search_kw kw (nat_str n) = false.
  Proof. intros H. exact (no_t_clean _ (nat_no_t n) kw H). Qed.
  Lemma clean_groups n : clean ("ELEMENT_GROUPS " ++ nat_str n)%string.
  Proof.
    intros kw H. pose proof (kw_nat kw n H) as E.
    repeat (destruct H as [<-|H]; [exact E|]). destruct H.
  Qed.
  Lemma clean_materials n : clean ("MATERIALS " ++ nat_str n)%string.
  Proof.
    intros kw H. pose proof (kw_nat kw n H) as E.
    repeat (destruct H as [<-|H]; [exact E|]). destruct H.
  Qed.
  Lemma clean_phase m : clean (nat_str m ++ " 1 " ++ nat_str m)%string.
  Proof. apply no_t_clean. rewrite !has_ci_app, !nat_no_t. reflexivity. Qed.
  Lemma clean_head ip increm mats phases : Forall clean (free_lines ip increm mats) ->
    Forall clean (head_lines ip increm phases).
  Proof.
    intros H. unfold free_lines in H. rewrite !Forall_app in H. destruct H as [H [Hi _]].
    repeat match type of H with Forall _ (_ :: _) => let K := fresh "K" in apply Forall_cons_iff in H as [K H] end.
    unfold head_lines. rewrite !Forall_app. split; [|split; [exact Hi|split; [|split]]].
    - repeat constructor; try assumption; apply clean_const; reflexivity.
    - repeat (constructor; try assumption); try (apply clean_const; reflexivity). apply clean_groups.
    - apply Forall_forall. intros l Hl. apply in_map_iff in Hl as [m [<- _]]. apply clean_phase.
    - constructor; [apply clean_const; reflexivity|constructor].
  Qed.
  Lemma clean_mats ip increm mats phases : Forall clean (free_lines ip increm mats) ->
    Forall clean (mat_lines phases mats).
  Proof.
    intros H. unfold free_lines in H. rewrite !Forall_app in H. destruct H as [_ [_ H]].
    unfold mat_lines. constructor; [apply clean_materials|]. rewrite Forall_app. split; [exact H|].
    constructor; [apply clean_const; reflexivity|constructor].
  Qed.
  Lemma clean_in l kw ls : Forall clean ls -> In kw keywords -> In l ls -> search_kw kw l = false.
  Proof. intros H Hk Hl. rewrite Forall_forall in H. exact (H l Hl kw Hk). Qed.

  Definition sim_types : list (string * nat) := [("QUAD4", 4); ("QUAD8", 4); ("HEXA8", 8); ("HEXA20", 8)].
  Lemma type_extracted t n pre rest : Forall clean pre -> In (t, n) sim_types ->
    extract_type (pre ++ type_lines t n ++ rest) = Ok (t, Z.of_nat n).
  Proof.
    intros Hp Ht. unfold extract_type. rewrite type_skip by (intros l Hl; apply (clean_in l _ pre Hp); [left; reflexivity|exact Hl]).
    repeat (destruct Ht as [Ht|Ht]; [injection Ht as <- <-; reflexivity|]). destruct Ht.
  Qed.
  Lemma type_lines_no t n kw l : In (t, n) sim_types -> In kw (tl keywords) -> In l (type_lines t n) -> search_kw kw l = false.
  Proof.
    intros Ht Hk Hl.
    repeat (destruct Ht as [Ht|Ht];
      [injection Ht as <- <-;
       repeat (destruct Hk as [<-|Hk];
         [repeat (destruct Hl as [<-|Hl]; [reflexivity|]); destruct Hl|]); destruct Hk|]).
    destruct Ht.
  Qed.

  Lemma count_ok a n : words a = [a] -> count_head (a ++ String " " (nat_str n))%string = Ok tt.
  Proof. intros H. unfold count_head, count_of, nth_word. rewrite words_space, H, words_nat. cbn. now rewrite py_int_str. Qed.

  Lemma conn_extracted t n pre mats rest (conn : list (nat * list nat)) phases :
    Forall clean pre -> Forall clean (mat_lines phases mats) -> In (t, n) sim_types ->
    (forall p, In p conn -> fst p < 1000) ->
    extract_conn (pre ++ type_lines t n ++ mat_lines phases mats
      ++ ("ELEMENTS " ++ nat_str (List.length conn))%string :: map links_elem_line (number conn) ++ "" :: rest)
    = Ok (map (fun p => map Z.of_nat (snd p)) conn).
  Proof.
    intros Hp Hm Ht Hph. unfold extract_conn.
    assert (K : In "ELEMENTS" keywords) by (cbn; tauto).
    rewrite rows_skip by (intros l Hl; exact (clean_in l _ pre Hp K Hl)).
    rewrite rows_skip by (intros l Hl; apply (type_lines_no t n); [exact Ht|cbn; tauto|exact Hl]).
    rewrite rows_skip by (intros l Hl; exact (clean_in l _ _ Hm K Hl)).
    match goal with |- context [rows_pass _ _ _ _ (_ :: ?ls)] => set (tail := ls) end.
    change (rbind (rbind (count_head ("ELEMENTS" ++ String " " (nat_str (List.length conn)))%string)
      (fun _ => rows_pass "ELEMENTS" count_head (fun l => rmap py_int (skipn 2 (words l))) (Some []) tail)) bound
      = Ok (map (fun p => map Z.of_nat (snd p)) conn)).
    rewrite count_ok by reflexivity. cbn [rbind]. subst tail.
    rewrite (rows_read _ _ _ links_elem_line (fun p => map Z.of_nat (snd (snd p)))).
    - change (rbind (Ok (Some ([] ++ map (fun p => map Z.of_nat (snd (snd p))) (number conn)))) bound
        = Ok (map (fun p => map Z.of_nat (snd p)) conn)). cbn [rbind bound app]. f_equal.
      exact (map_snd_number (fun p : nat * list nat => map Z.of_nat (snd p)) conn).
    - intros [i [p nodes]] Hi. apply number_in in Hi as [_ Hi]. specialize (Hph _ Hi). cbn [fst] in Hph.
      split; [exact (no_t_clean _ (elem_no_t _) _ K)|]. split; [apply elem_plain|].
      split; [apply words_blank; rewrite words_elem by exact Hph; discriminate|]. now apply links_elem_parse.
  Qed.

  Lemma kw_absent x kw l : has_ci x kw = true -> has_ci x l = false -> search_kw kw l = false.
  Proof. apply search_kw_absent. Qed.
  Lemma nat_no_ci x n : is_digit x = false -> has_ci x (nat_str n) = false.
  Proof. intros H. apply digits_no_ci; [exact H|apply digit_lower|apply nat_str_digits]. Qed.

  Lemma bare_words r : exists ws, flat_map words (map fmt r) = ws /\ rmap pf ws = Ok (map rnd r) /\ List.length ws = List.length r.
  Proof.
    induction r as [|c r [ws [E1 [E2 E3]]]]; [exists []; auto|].
    destruct (nl_word _ _ _ laws c) as [w [W1 W2]]. exists (w :: ws). cbn [map flat_map]. rewrite W1, E1.
    split; [reflexivity|]. split; [|cbn; now rewrite E3]. cbn [rmap]. rewrite W2. cbn [rbind]. rewrite E2. reflexivity.
  Qed.
  Lemma node_words i r : words (links_node_line fmt (i, r)) = nat_str i :: flat_map words (map fmt r).
  Proof.
    unfold links_node_line. cbn [fst snd].
    change (pad_left 3 (nat_str i) ++ " " ++ join " " (map fmt r))%string with (pad_left 3 (nat_str i) ++ String " " (join " " (map fmt r)))%string.
    now rewrite words_space, words_pad, words_join.
  Qed.
  Lemma node_no_t r : has_ci "t" (links_node_line fmt r) = false.
  Proof.
    unfold links_node_line. rewrite !has_ci_app, pad_no_t. cbn [orb has_ci]. apply join_no_t; [reflexivity|].
    intros x H. apply in_map_iff in H as [c [<- _]]. apply (nl_t _ _ _ laws).
  Qed.
  Lemma node_plain r : has_char "*" (links_node_line fmt r) = false.
  Proof.
    unfold links_node_line. rewrite !has_char_app, pad_no by reflexivity. cbn [orb has_char].
    apply has_char_join; [reflexivity|]. rewrite forallb_map. apply forallb_all. intros c. now rewrite (nl_star _ _ _ laws).
  Qed.
  Lemma coords_extracted t n pre mats rest (conn : list (nat * list nat)) coords phases :
    Forall clean pre -> Forall clean (mat_lines phases mats) -> In (t, n) sim_types ->
    extract_coords pf (pre ++ type_lines t n ++ mat_lines phases mats
      ++ ("ELEMENTS " ++ nat_str (List.length conn))%string :: map links_elem_line (number conn)
      ++ "" :: ("NODE_COORDINATES " ++ nat_str (List.length coords) ++ " CARTESIAN")%string
      :: map (links_node_line fmt) (number coords) ++ "" :: rest)
    = Ok (map (map rnd) coords).
  Proof.
    intros Hp Hm Ht. unfold extract_coords.
    assert (K : In "NODE_COORDINATES" keywords) by (cbn; tauto).
    rewrite rows_skip by (intros l Hl; exact (clean_in l _ pre Hp K Hl)).
    rewrite rows_skip by (intros l Hl; apply (type_lines_no t n); [exact Ht|cbn; tauto|exact Hl]).
    rewrite rows_skip by (intros l Hl; exact (clean_in l _ _ Hm K Hl)).
    match goal with |- context [rows_pass _ _ _ _ (?a :: map links_elem_line ?c ++ ?b :: ?r)] =>
      change (a :: map links_elem_line c ++ b :: r) with ((a :: map links_elem_line c) ++ b :: r) end.
    rewrite rows_skip.
    2:{ intros l [<-|Hl].
        - apply (kw_absent "c"); [reflexivity|]. rewrite has_ci_app, nat_no_ci by reflexivity. reflexivity.
        - apply in_map_iff in Hl as [r [<- _]]. exact (no_t_clean _ (elem_no_t _) _ K). }
    match goal with |- context [rows_pass _ _ _ _ ("" :: _ :: ?ls)] => set (tail := ls) end.
    change (rbind (rbind (count_head ("NODE_COORDINATES" ++ String " " (nat_str (List.length coords) ++ String " " "CARTESIAN"))%string)
      (fun _ => rows_pass "NODE_COORDINATES" count_head (fun l => rmap pf (skipn 1 (words l))) (Some []) tail)) bound
      = Ok (map (map rnd) coords)).
    assert (Ch : count_head ("NODE_COORDINATES" ++ String " " (nat_str (List.length coords) ++ String " " "CARTESIAN"))%string = Ok tt).
    { unfold count_head, count_of, nth_word. rewrite !words_space, words_nat.
      change (words "NODE_COORDINATES") with ["NODE_COORDINATES"]. cbn [app nth_error rbind]. now rewrite py_int_str. }
    rewrite Ch. cbn [rbind]. subst tail.
    rewrite (rows_read _ _ _ (links_node_line fmt) (fun p => map rnd (snd p))).
    - change (rbind (Ok (Some ([] ++ map (fun p => map rnd (snd p)) (number coords)))) bound = Ok (map (map rnd) coords)).
      cbn [rbind bound app]. f_equal. exact (map_snd_number (map rnd) coords).
    - intros [i r] _. split; [exact (no_t_clean _ (node_no_t _) _ K)|]. split; [apply node_plain|].
      rewrite node_words. split; [apply words_blank; rewrite node_words; discriminate|]. cbn [skipn snd].
      destruct (bare_words r) as [ws [E1 [E2 _]]]. now rewrite E1.
  Qed.

  (** ** Displacements *)
  Definition full (n_dim : nat) (vs : list C) : list C := if Nat.eqb n_dim 2 then vs ++ [zero] else vs.
  Lemma full_length n_dim vs : n_dim = 2 \/ n_dim = 3 -> List.length vs = n_dim -> List.length (full n_dim vs) = 3.
  Proof. intros [->| ->] H; unfold full; cbn; [rewrite app_length, H|]; auto. Qed.
  Definition disp_text (i : nat) (vs : list C) : string :=
    (" " ++ pad_left 3 (nat_str i) ++ " " ++ "111" ++ join " " (map fmt vs))%string.
  Lemma disp_line_ok n_dim i vs : List.length (full n_dim vs) = 3 ->
    links_disp_line fmt zero n_dim (i, map Some vs) = Ok (disp_text i (full n_dim vs)).
  Proof.
    intros H. unfold links_disp_line. cbn [fst snd].
    assert (E : (if Nat.eqb n_dim 2 then map Some vs ++ [Some zero] else map Some vs) = map Some (full n_dim vs))
      by (unfold full; destruct (Nat.eqb n_dim 2); [now rewrite map_app|reflexivity]).
    rewrite E. destruct (full n_dim vs) as [|a [|b [|c [|d l]]]]; try discriminate H. reflexivity.
  Qed.
  Lemma disp_words i vs : vs <> [] -> Forall (roomy fmt) vs ->
    words (disp_text i vs) = nat_str i :: "111" :: flat_map words (map fmt vs).
  Proof.
    intros N R. destruct vs as [|v vs]; [contradiction|]. apply Forall_cons_iff in R as [[s Es] _].
    unfold disp_text. change (" " ++ pad_left 3 (nat_str i) ++ " " ++ "111" ++ join " " (map fmt (v :: vs)))%string
      with (spaces 1 ++ pad_left 3 (nat_str i) ++ String " " ("111" ++ join " " (map fmt (v :: vs))))%string.
    rewrite words_spaces, words_space, words_pad. cbn [app].
    assert (E : exists s', join " " (map fmt (v :: vs)) = String " " s').
    { destruct vs as [|v2 vs]; cbn [map join]; rewrite Es; eexists; reflexivity. }
    destruct E as [s' E]. rewrite <- words_join, E. rewrite words_space. reflexivity.
  Qed.
  Lemma disp_parse i vs : List.length vs = 3 -> Forall (roomy fmt) vs ->
    disp_row pf (disp_text i vs) = Ok (Z.of_nat i, combine (seq 1 3) (map rnd vs)).
  Proof.
    intros L R. unfold disp_row, nth_word.
    assert (N : vs <> []) by (destruct vs; [discriminate L|discriminate]).
    rewrite disp_words by assumption. cbn [nth_error rbind skipn]. rewrite py_int_str. cbn [rbind].
    change (rmap py_int (chars "111")) with (@Ok (list Z) [1; 1; 1]%Z). cbn [rbind].
    destruct (bare_words vs) as [ws [E1 [E2 E3]]]. rewrite E1.
    destruct vs as [|a [|b [|c [|d vs]]]]; try discriminate L.
    destruct ws as [|wa [|wb [|wc [|wd ws]]]]; try discriminate E3. cbn [firstn]. rewrite E2. reflexivity.
  Qed.
  Lemma disp_no_t i vs : has_ci "t" (disp_text i vs) = false.
  Proof.
    unfold disp_text. rewrite !has_ci_app, pad_no_t. cbn [orb has_ci]. apply join_no_t; [reflexivity|].
    intros x H. apply in_map_iff in H as [c [<- _]]. apply (nl_t _ _ _ laws).
  Qed.
  Lemma disp_plain i vs : has_char "*" (disp_text i vs) = false.
  Proof.
    unfold disp_text. rewrite !has_char_app, pad_no by reflexivity. cbn [orb has_char].
    apply has_char_join; [reflexivity|]. rewrite forallb_map. apply forallb_all. intros c. now rewrite (nl_star _ _ _ laws).
  Qed.
  Lemma fold_gset_new {V : Type} (rows : list (Z * V)) : forall d, NoDup (map fst d ++ map fst rows) ->
    fold_left (fun d r => gset Z.eqb d (fst r) (snd r)) rows d = d ++ rows.
  Proof.
    induction rows as [|[k v] rows IH]; intros d H; [cbn; now rewrite app_nil_r|]. cbn [fold_left fst snd].
    assert (G : gset Z.eqb d k v = d ++ [(k, v)]).
    { assert (Nk : ~ In k (map fst d)).
      { cbn [map fst] in H. apply NoDup_remove_2 in H. intros Q. apply H. apply in_or_app. now left. }
      clear - Nk. induction d as [|[a b] d IH]; [reflexivity|]. cbn [gset].
      destruct (Z.eqb_spec k a) as [->|]; [exfalso; apply Nk; left; reflexivity|]. cbn [app]. f_equal. apply IH.
      intros Q. apply Nk. now right. }
    rewrite G, IH; [now rewrite <- app_assoc|]. rewrite map_app, <- app_assoc. exact H.
  Qed.
  Lemma bcs_extracted t n n_dim pre mats (conn : list (nat * list nat)) coords phases (disps : list (nat * list C)) :
    Forall clean pre -> Forall clean (mat_lines phases mats) -> In (t, n) sim_types ->
    (forall d, In d disps -> List.length (full n_dim (snd d)) = 3 /\ Forall (roomy fmt) (full n_dim (snd d))) ->
    NoDup (map fst disps) ->
    extract_bcs pf (pre ++ type_lines t n ++ mat_lines phases mats
      ++ ("ELEMENTS " ++ nat_str (List.length conn))%string :: map links_elem_line (number conn)
      ++ "" :: ("NODE_COORDINATES " ++ nat_str (List.length coords) ++ " CARTESIAN")%string
      :: map (links_node_line fmt) (number coords)
      ++ "" :: ("NODES_WITH_PRESCRIBED_DISPLACEMENTS " ++ nat_str (List.length disps))%string
      :: map (fun d => disp_text (fst d) (full n_dim (snd d))) disps)
    = Ok (map (fun d => (Z.of_nat (fst d), combine (seq 1 3) (map rnd (full n_dim (snd d))))) disps).
  Proof.
    intros Hp Hm Ht Hd Nd. unfold extract_bcs.
    assert (K : In "NODES_WITH_PRESCRIBED_DISPLACEMENTS" keywords) by (cbn; tauto).
    rewrite rows_skip by (intros l Hl; exact (clean_in l _ pre Hp K Hl)).
    rewrite rows_skip by (intros l Hl; apply (type_lines_no t n); [exact Ht|cbn; tauto|exact Hl]).
    rewrite rows_skip by (intros l Hl; exact (clean_in l _ _ Hm K Hl)).
    match goal with |- context [rows_pass _ _ _ _ (?a :: map links_elem_line ?c ++ ?b :: ?x :: map (links_node_line fmt) ?e ++ ?r)] =>
      replace (a :: map links_elem_line c ++ b :: x :: map (links_node_line fmt) e ++ r)
        with ((a :: map links_elem_line c ++ b :: x :: map (links_node_line fmt) e) ++ r)
        by (cbn [app]; rewrite <- app_assoc; reflexivity) end.
    rewrite rows_skip.
    2:{ intros l [<-|Hl].
        - apply (kw_absent "w"); [reflexivity|]. rewrite has_ci_app, nat_no_ci by reflexivity. reflexivity.
        - apply in_app_or in Hl as [Hl|[<-|[<-|Hl]]].
          + apply in_map_iff in Hl as [r [<- _]]. exact (no_t_clean _ (elem_no_t _) _ K).
          + reflexivity.
          + apply (kw_absent "w"); [reflexivity|]. rewrite !has_ci_app, nat_no_ci by reflexivity. reflexivity.
          + apply in_map_iff in Hl as [r [<- _]]. exact (no_t_clean _ (node_no_t _) _ K). }
    match goal with |- context [rows_pass _ _ _ _ ("" :: _ :: ?ls)] => rewrite <- (app_nil_r ls) end.
    match goal with |- context [rows_pass _ _ _ _ ("" :: _ :: ?ls)] => set (tail := ls) end.
    change (rbind (rows_pass "NODES_WITH_PRESCRIBED_DISPLACEMENTS" (fun _ => Ok tt) (disp_row pf) (Some []) tail)
      (fun o => rbind (bound o) (fun rows => Ok (fold_left (fun d r => gset Z.eqb d (fst r) (snd r)) rows [])))
      = Ok (map (fun d => (Z.of_nat (fst d), combine (seq 1 3) (map rnd (full n_dim (snd d))))) disps)).
    subst tail.
    rewrite (rows_read _ _ _ (fun d => disp_text (fst d) (full n_dim (snd d)))
      (fun d => (Z.of_nat (fst d), combine (seq 1 3) (map rnd (full n_dim (snd d)))))).
    - cbn [rows_pass rbind bound app]. rewrite fold_gset_new; [reflexivity|]. cbn [map app]. rewrite map_map. cbn [fst].
      rewrite <- (map_map fst Z.of_nat). apply FinFun.Injective_map_NoDup; [|exact Nd]. intros a b. apply Nat2Z.inj.
    - intros [i vs] Hi. destruct (Hd _ Hi) as [L R]. cbn [fst snd] in *.
      split; [exact (no_t_clean _ (disp_no_t _ _) _ K)|]. split; [apply disp_plain|].
      assert (N : full n_dim vs <> []) by (destruct (full n_dim vs); [discriminate L|discriminate]).
      split; [apply words_blank; rewrite disp_words by assumption; discriminate|].
      now apply disp_parse.
  Qed.

  (** A simulation that can be written: phases of three digits at most,
      displacements of n_dim components, and a blank before each value. *)
  Record simulation (ip : params) (increm mats : list string) (n_dim : nat) (etype t : string) (n : nat)
    (conn : list (nat * list nat)) (disps : list (nat * list C)) : Prop := {
    sm_dim : n_dim = 2 \/ n_dim = 3;
    sm_type : links_elem_type n_dim etype = Ok (t, n);
    sm_free : Forall clean (free_lines ip increm mats);
    sm_phase : forall p, In p conn -> fst p < 1000;
    sm_disp : forall d, In d disps -> List.length (snd d) = n_dim /\ Forall (roomy fmt) (full n_dim (snd d));
    sm_nodup : NoDup (map fst disps)
  }.
  Definition all_prescribed (disps : list (nat * list C)) : list (nat * list (option C)) :=
    map (fun d => (fst d, map Some (snd d))) disps.

  Lemma sim_type_in n_dim e t n : links_elem_type n_dim e = Ok (t, n) -> In (t, n) sim_types.
  Proof.
    unfold links_elem_type. intros H.
    repeat match type of H with context [if ?b then _ else _] => destruct b end; try discriminate H;
      injection H as <- <-; cbn; tauto.
  Qed.
  Lemma disp_lines_ok n_dim disps : (forall d, In d disps -> List.length (full n_dim (snd d)) = 3) ->
    rmap (links_disp_line fmt zero n_dim) (all_prescribed disps) = Ok (map (fun d => disp_text (fst d) (full n_dim (snd d))) disps).
  Proof.
    unfold all_prescribed. induction disps as [|[i vs] disps IH]; intros H; [reflexivity|]. cbn [map rmap fst snd].
    rewrite disp_line_ok by (apply (H (i, vs)); left; reflexivity). cbn [rbind].
    rewrite IH by (intros; apply H; right; assumption). reflexivity.
  Qed.

  (** What the simulation writes is what the readers extract. *)
  Theorem links_file_round_trip ip increm mats phases n_dim etype t n coords conn disps :
    simulation ip increm mats n_dim etype t n conn disps ->
    exists lines,
      links_lines fmt zero ip increm mats phases n_dim t n coords conn (all_prescribed disps) = Ok lines /\
      extract_type lines = Ok (t, Z.of_nat n) /\
      extract_coords pf lines = Ok (map (map rnd) coords) /\
      extract_conn lines = Ok (map (fun p => map Z.of_nat (snd p)) conn) /\
      extract_bcs pf lines
      = Ok (map (fun d => (Z.of_nat (fst d), combine (seq 1 3) (map rnd (if Nat.eqb n_dim 2 then snd d ++ [zero] else snd d)))) disps).
  Proof.
    intros [Hn Ht Hf Hp Hd Nd]. apply sim_type_in in Ht.
    assert (Hl : forall d, In d disps -> List.length (full n_dim (snd d)) = 3)
      by (intros d Hi; apply full_length; [exact Hn|apply Hd, Hi]).
    pose proof (disp_lines_ok n_dim disps Hl) as D.
    assert (E : exists lines, links_lines fmt zero ip increm mats phases n_dim t n coords conn (all_prescribed disps) = Ok lines)
      by (unfold links_lines; rewrite D; cbn [rbind]; eauto).
    destruct E as [lines E]. exists lines. split; [exact E|].
    apply (lines_split _ _ _ _ _ _ _ _ _ _ _ _ D) in E. unfold all_prescribed in E. rewrite map_length in E. subst lines.
    pose proof (clean_head ip increm mats phases Hf) as Ch. pose proof (clean_mats ip increm mats phases Hf) as Cm.
    split; [exact (type_extracted t n _ _ Ch Ht)|]. split; [exact (coords_extracted t n _ mats _ conn coords phases Ch Cm Ht)|].
    split; [exact (conn_extracted t n _ mats _ conn phases Ch Cm Ht Hp)|].
    apply (bcs_extracted t n n_dim _ mats conn coords phases disps Ch Cm Ht); [|exact Nd].
    intros d Hi. split; [exact (Hl d Hi)|exact (proj2 (Hd d Hi))].
  Qed.

  (** Degrees of freedom left free, which the displacements describe with None,
      stop the writer. *)
  Lemma fmt_none l : In None l -> rmap (fmt_opt fmt) l = Err TypeError.
  Proof.
    induction l as [|[c|] l IH]; intros H; [destruct H| |reflexivity]. destruct H as [H|H]; [discriminate|].
    cbn [rmap fmt_opt rbind]. rewrite IH by exact H. reflexivity.
  Qed.
  Lemma fmt_some l : ~ In None l -> exists vals, rmap (fmt_opt fmt) l = Ok vals.
  Proof.
    induction l as [|[c|] l IH]; intros H; [eexists; reflexivity| |exfalso; apply H; left; reflexivity].
    destruct IH as [vals E]; [intros Q; apply H; now right|]. cbn [rmap fmt_opt rbind]. rewrite E. eexists; reflexivity.
  Qed.
  Lemma none_full n_dim (vs : list (option C)) : In None (if Nat.eqb n_dim 2 then vs ++ [Some zero] else vs) <-> In None vs.
  Proof.
    destruct (Nat.eqb n_dim 2); [|tauto]. rewrite in_app_iff. cbn. intuition discriminate.
  Qed.
  Theorem links_file_written_iff ip increm mats phases n_dim t n coords conn (disps : list (nat * list (option C))) :
    (exists lines, links_lines fmt zero ip increm mats phases n_dim t n coords conn disps = Ok lines)
    <-> forall d, In d disps -> ~ In None (snd d).
  Proof.
    unfold links_lines. split.
    - intros [lines H] d Hd Hn. destruct (rmap (links_disp_line fmt zero n_dim) disps) as [dl|] eqn:E; [|discriminate].
      clear H. revert dl E. induction disps as [|x disps IH]; intros dl E; [destruct Hd|]. cbn [rmap] in E.
      destruct Hd as [->|Hd].
      + unfold links_disp_line in E. rewrite fmt_none in E; [discriminate E|]. now apply none_full.
      + destruct (links_disp_line fmt zero n_dim x); [|discriminate E]. cbn [rbind] in E.
        destruct (rmap (links_disp_line fmt zero n_dim) disps) as [dl'|]; [|discriminate E]. exact (IH Hd dl' eq_refl).
    - intros H. assert (E : exists dl, rmap (links_disp_line fmt zero n_dim) disps = Ok dl).
      { induction disps as [|x disps IH]; [eexists; reflexivity|]. cbn [rmap].
        destruct IH as [dl E]; [intros; apply H; right; assumption|].
        unfold links_disp_line at 1. destruct (fmt_some (if Nat.eqb n_dim 2 then snd x ++ [Some zero] else snd x)) as [vals V].
        { rewrite none_full. apply H. left; reflexivity. }
        rewrite V. cbn [rbind]. rewrite E. eexists; reflexivity. }
      destruct E as [dl E]. rewrite E. eexists; reflexivity.
  Qed.
End Written.

(** ** The converted mesh *)
Lemma labels_back l : rmap to_label (map Z.of_nat l) = Ok l.
Proof.
  induction l as [|i l IH]; [reflexivity|]. cbn [map rmap]. unfold to_label at 1.
  assert (E : (0 <=? Z.of_nat i)%Z = true) by (apply Z.leb_le; lia). rewrite E, Nat2Z.id. cbn [rbind]. rewrite IH. reflexivity.
Qed.
Lemma conn_back {P} (conn : list (P * list nat)) :
  rmap (rmap to_label) (map (fun p => map Z.of_nat (snd p)) conn) = Ok (map snd conn).
Proof.
  induction conn as [|[p r] conn IH]; [reflexivity|]. cbn [map rmap snd]. rewrite labels_back. cbn [rbind]. rewrite IH. reflexivity.
Qed.
Lemma bcs_back {B D} (f : nat * B -> D) (disps : list (nat * B)) :
  rmap (fun r => rbind (to_label (fst r)) (fun i => Ok (i, snd r))) (map (fun d => (Z.of_nat (fst d), f d)) disps)
  = Ok (map (fun d => (fst d, f d)) disps).
Proof.
  induction disps as [|d disps IH]; [reflexivity|]. cbn [map rmap fst snd]. unfold to_label at 1.
  assert (E : (0 <=? Z.of_nat (fst d))%Z = true) by (apply Z.leb_le; lia). rewrite E, Nat2Z.id. cbn [rbind]. rewrite IH. reflexivity.
Qed.

(** Links types and Gauss points, their Abaqus counterparts and the elements of
    the simulator *)
Definition converted_types : list (string * (string * (fe_kind * nat))) :=
  [("SQUAD4", ("CPE4", (Quad4, 4))); ("SHEXA8", ("C3D8", (Hexa8, 8))); ("SHEXA20", ("C3D20R", (Hexa20, 8)))].

Section Converted.
  Context {C : Type} (pf : string -> res C) (fmt fmt2 vstr : C -> string) (rnd rnd2 : C -> C) (zero : C).
  Hypothesis laws : number_laws pf fmt rnd.
  Hypothesis laws2 : text_laws pf fmt2 rnd2 vstr.

  (** The mesh read from the converted file is that of the simulation: rounded
      coordinates, connectivities, elements with as many Gauss points, and the
      nodes with prescribed displacements are those of the simulation. *)
  Theorem links_mesh_of_simulation ip increm mats phases n_dim etype t n coords conn disps abq ty :
    simulation fmt zero ip increm mats n_dim etype t n conn disps ->
    In (etype, (abq, ty)) converted_types ->
    coords <> [] -> table coords n_dim ->
    in_mesh (List.length coords) (map snd conn) -> covered (List.length coords) (map snd conn) ->
    (forall d, In d disps -> 1 <= fst d <= List.length coords) ->
    exists lines mesh flags,
      links_lines fmt zero ip increm mats phases n_dim t n coords conn (all_prescribed disps) = Ok lines /\
      adimu_mesh pf fmt2 vstr lines = Ok mesh /\
      read_mesh pf n_dim mesh
      = Ok (map (fun r => map rnd2 (map rnd r)) coords,
            map (fun p => (Z.of_nat (fst p), (ty, snd p))) (combine (seq 1 (List.length conn)) (map snd conn)),
            flags) /\
      List.length flags = List.length coords /\
      forall i d, i < List.length coords -> d < n_dim ->
        (nth d (nth i flags []) false = true <-> In (S i) (map fst disps)).
  Proof.
    intros Hs Ht Hn Htab Hm Hc Hd.
    destruct (links_file_round_trip pf fmt rnd zero laws ip increm mats phases n_dim etype t n coords conn disps Hs)
      as [lines [E0 [E1 [E2 [E3 E4]]]]].
    destruct Hs as [S1 S2 S3 S4 S5 S6].
    set (bcs := map (fun d : nat * list C => (fst d, combine (seq 1 3) (map rnd (if Nat.eqb n_dim 2 then snd d ++ [zero] else snd d)))) disps).
    assert (Eabq : links_to_abaqus t (Z.of_nat n) = Ok abq /\ fetorch_type abq = Ok ty).
    { revert S2. repeat (destruct Ht as [Ht|Ht];
        [injection Ht as <- <- <-; destruct S1 as [->| ->]; cbn; intros Q; try discriminate Q; injection Q as <- <-; split; reflexivity|]).
      destruct Ht. }
    destruct Eabq as [Ea Ef].
    assert (Ls : forall d, In d disps -> List.length (map rnd (if Nat.eqb n_dim 2 then snd d ++ [zero] else snd d)) = 3).
    { intros d Hi. rewrite map_length. apply (full_length zero n_dim (snd d) S1). apply S5, Hi. }
    assert (Pr : forall i j, prescribed bcs i j <-> In i (map fst disps) /\ 1 <= j <= 3).
    { intros i j. unfold prescribed, bcs. split.
      - intros [l [v [H1 H2]]]. apply in_map_iff in H1 as [d [H1 H3]].
        pose proof (f_equal fst H1) as A1. pose proof (f_equal snd H1) as A2. cbn [fst snd] in A1, A2. rewrite <- A2 in H2. rewrite <- A1.
        split; [apply in_map, H3|]. apply in_combine_l, in_seq in H2. lia.
      - intros [H1 H2]. apply in_map_iff in H1 as [d [<- H1]]. specialize (Ls d H1).
        destruct (map rnd (if Nat.eqb n_dim 2 then snd d ++ [zero] else snd d)) as [|a [|b [|c [|e vals]]]] eqn:Ev; try discriminate Ls.
        assert (J : In j [1; 2; 3]) by (cbn; lia).
        exists (combine (seq 1 3) [a; b; c]). cbn [seq combine].
        destruct J as [<-|[<-|[<-|[]]]].
        + exists a. split; [|left; reflexivity]. apply in_map_iff. exists d. split; [|exact H1]. now rewrite Ev.
        + exists b. split; [|right; left; reflexivity]. apply in_map_iff. exists d. split; [|exact H1]. now rewrite Ev.
        + exists c. split; [|right; right; left; reflexivity]. apply in_map_iff. exists d. split; [|exact H1]. now rewrite Ev. }
    destruct (specimen_mesh_round_trip pf fmt2 rnd2 vstr laws2 n_dim n_dim (map (map rnd) coords) (map snd conn) abq ty (Some bcs))
      as [flags [F1 F2]].
    - destruct coords; [contradiction|discriminate].
    - destruct Htab as [T1 T2]. split; [exact T1|]. intros r Hr. apply in_map_iff in Hr as [x [<- Hx]]. rewrite map_length. auto.
    - now rewrite map_length.
    - now rewrite map_length.
    - exact Ef.
    - rewrite map_length. intros i j P. apply Pr in P as [P1 P2]. apply in_map_iff in P1 as [d [<- P1]]. specialize (Hd d P1). lia.
    - rewrite map_length in F1. destruct F1 as [G1 [_ G3]].
      exists lines, (write_mesh fmt2 vstr (map (map rnd) coords) (map snd conn) abq (Some bcs)), flags.
      split; [exact E0|]. split.
      { unfold adimu_mesh. rewrite E1. cbn [rbind fst snd]. rewrite Ea. cbn [rbind]. rewrite E2. cbn [rbind]. rewrite E3. cbn [rbind].
        rewrite conn_back. cbn [rbind]. rewrite E4. cbn [rbind]. rewrite bcs_back. reflexivity. }
      split.
      { rewrite F2. f_equal. f_equal. f_equal.
        - rewrite map_map. apply map_ext_in. intros r Hr. rewrite firstn_all2; [reflexivity|].
          rewrite !map_length. destruct Htab as [_ T2]. now rewrite T2.
        - now rewrite map_length. }
      split; [exact G1|]. intros i d Hi Hd2. rewrite (G3 i d Hi Hd2). rewrite Pr. split; [tauto|]. intros Q. split; [exact Q|].
      destruct S1; lia.
  Qed.

  (** The quadratic quadrilaterals of two-dimensional patches are not converted. *)
  Theorem links_quad8_refuted ip increm mats phases t n coords conn disps :
    simulation fmt zero ip increm mats 2 "SQUAD8" t n conn disps ->
    exists lines,
      links_lines fmt zero ip increm mats phases 2 t n coords conn (all_prescribed disps) = Ok lines /\
      adimu_mesh pf fmt2 vstr lines = Err RuntimeError.
  Proof.
    intros Hs.
    destruct (links_file_round_trip pf fmt rnd zero laws ip increm mats phases 2 "SQUAD8" t n coords conn disps Hs)
      as [lines [E0 [E1 _]]].
    exists lines. split; [exact E0|]. unfold adimu_mesh. rewrite E1. cbn [rbind fst snd].
    destruct Hs as [_ S2 _ _ _ _]. cbn in S2. injection S2 as <- <-. reflexivity.
  Qed.
End Converted.

(** ** A concrete simulation *)
(** Numbers in steps of ten, in five columns; an empty text is refused by the
    conversion. *)
Definition l_fmt (c : nat) : string := pad_left 5 (nat_str (c / 10 * 10)).
Lemma l_laws : number_laws h_pf l_fmt (fun c => c / 10 * 10).
Proof.
  split; intros c; unfold l_fmt.
  - exists (nat_str (c / 10 * 10)). split; [apply words_pad|]. unfold h_pf. rewrite py_int_str. cbn [rbind]. now rewrite Nat2Z.id.
  - apply pad_no_t.
  - now apply pad_no.
Qed.
Definition l_params : params :=
  mkParams "Patch" "1" "OFF" "1" "PARDISO" "1" "ASCII" "NODE_OUTPUT" "GLOBAL_OUTPUT".
Definition l_coords : list (list nat) := [[0; 0]; [100; 0]; [205; 0]; [0; 50]; [100; 50]; [200; 50]].
Definition l_conn : list (nat * list nat) := [(1, [1; 2; 5; 4]); (2, [2; 3; 6; 5])].
Definition l_disps : list (nat * list nat) := [(1, [0; 0]); (3, [27; 0]); (4, [0; 0])].
Definition l_sim (ip : params) conn disps : res (list string) :=
  links_lines l_fmt 0 ip ["Number_of_Increments 2"] ["1 ELASTIC"; "2 ELASTIC"] [1; 2] 2 "QUAD4" 4 l_coords conn disps.

Lemma roomy_small c : c < 100 -> roomy l_fmt c.
Proof.
  intros H. assert (Q : forallb (fun c => match l_fmt c with String " " _ => true | _ => false end) (seq 0 100) = true) by (vm_compute; reflexivity).
  rewrite forallb_forall in Q. specialize (Q c). rewrite in_seq in Q.
  destruct (l_fmt c) as [|a s] eqn:E; [discriminate Q; lia|]. exists s. rewrite E.
  destruct a as [[] [] [] [] [] [] [] []]; try reflexivity; discriminate Q; lia.
Qed.
Example links_simulation : simulation l_fmt 0 l_params ["Number_of_Increments 2"] ["1 ELASTIC"; "2 ELASTIC"] 2 "SQUAD4" "QUAD4" 4 l_conn l_disps.
Proof.
  split.
  - now left.
  - reflexivity.
  - repeat constructor; intros kw Hk; repeat (destruct Hk as [<-|Hk]; [reflexivity|]); destruct Hk.
  - intros p [<-|[<-|[]]]; cbn; lia.
  - intros d Hd. repeat (destruct Hd as [<-|Hd]; [split; [reflexivity|]; repeat constructor; apply roomy_small; lia|]). destruct Hd.
  - repeat constructor; cbn; lia.
Qed.
Example links_written : l_sim l_params l_conn (all_prescribed l_disps) = Ok
  [""; "TITLE "; "Patch"; ""; "ANALYSIS_TYPE 1"; ""; "LARGE_STRAIN_FORMULATION OFF"; ""; "SOLUTION_ALGORITHM 1";
   "Number_of_Increments 2"; ""; ""; "SOLVER PARDISO"; ""; "PARALLEL_SOLVER 1"; ""; "VTK_OUTPUT ASCII"; "";
   "NODE_OUTPUT"; ""; "GLOBAL_OUTPUT"; ""; "VTK_OUTPUT ASCII"; ""; "ELEMENT_GROUPS 2"; "1 1 1"; "2 1 2"; "";
   "ELEMENT_TYPES 1"; "1 QUAD4"; "  4 GP"; ""; "MATERIALS 2"; "1 ELASTIC"; "2 ELASTIC"; "";
   "ELEMENTS 2"; "  1  1  1 2 5 4"; "  2  2  2 3 6 5"; "";
   "NODE_COORDINATES 6 CARTESIAN"; "  1     0     0"; "  2   100     0"; "  3   200     0";
   "  4     0    50"; "  5   100    50"; "  6   200    50"; "";
   "NODES_WITH_PRESCRIBED_DISPLACEMENTS 3"; "   1 111    0     0     0";
   "   3 111   20     0     0"; "   4 111    0     0     0"].
Proof. vm_compute. reflexivity. Qed.
Example links_converted :
  rbind (rbind (l_sim l_params l_conn (all_prescribed l_disps)) (adimu_mesh h_pf h_fmt nat_str)) (read_mesh h_pf 2)
  = Ok ([[0; 0]; [100; 0]; [200; 0]; [0; 50]; [100; 50]; [200; 50]],
        [(1%Z, ((Quad4, 4), [1; 2; 5; 4])); (2%Z, ((Quad4, 4), [2; 3; 6; 5]))],
        [[true; true]; [false; false]; [true; true]; [true; true]; [false; false]; [false; false]]).
Proof. vm_compute. reflexivity. Qed.

(** ** What the format does not survive *)
Definition titled (t : string) : params :=
  mkParams t "1" "OFF" "1" "PARDISO" "1" "ASCII" "NODE_OUTPUT" "GLOBAL_OUTPUT".
(** A title with the word "elements" hides the mesh. *)
Theorem links_title_refuted :
  exists lines conn, l_sim (titled "Patch") l_conn (all_prescribed l_disps) = Ok lines /\ extract_conn lines = Ok conn /\
  exists lines', l_sim (titled "Patch with 2 elements") l_conn (all_prescribed l_disps) = Ok lines' /\
    exists e, extract_conn lines' = Err e.
Proof.
  do 2 eexists. split; [vm_compute; reflexivity|]. split; [vm_compute; reflexivity|].
  eexists. split; [vm_compute; reflexivity|]. eexists. vm_compute. reflexivity.
Qed.
(** Material phases of four digits are joined to the element labels or nodes
    and the connectivities are read shifted. *)
Theorem links_phase_refuted :
  exists lines, l_sim l_params [(1, [1; 2; 5; 4]); (1000, [2; 3; 6; 5])] (all_prescribed l_disps) = Ok lines /\
    extract_conn lines = Ok [[1; 2; 5; 4]; [3; 6; 5]]%Z.
Proof. eexists. split; [vm_compute; reflexivity|]. vm_compute. reflexivity. Qed.
(** A value as wide as its format is joined to the code of its displacement:
    the file is not read, or the displacements are. *)
Theorem links_width_refuted :
  exists lines, l_sim l_params l_conn (all_prescribed [(1, [0; 0]); (3, [12340; 0])]) = Ok lines /\
    exists e, extract_bcs h_pf lines = Err e.
Proof. eexists. split; [vm_compute; reflexivity|]. eexists. vm_compute. reflexivity. Qed.
(** A node left free in one direction, as the patch describes it, cannot be
    written. *)
Theorem links_free_dof_refuted :
  l_sim l_params l_conn [(1, [Some 0; Some 0]); (3, [Some 27; None])] = Err TypeError.
Proof. reflexivity. Qed.

(** ** A file of several element types is refused *)
Theorem links_several_types {C} (pf : string -> res C) (fmt vstr : C -> string) pre l post w n :
  (forall x, In x pre -> search_kw "ELEMENT_TYPES" x = false) -> search_kw "ELEMENT_TYPES" l = true ->
  nth_error (words l) 1 = Some w -> py_int w = Ok n -> (1 < n)%Z ->
  adimu_mesh pf fmt vstr (pre ++ l :: post) = Err RuntimeError.
Proof.
  intros HP HL HW HN LT. unfold adimu_mesh, extract_type.
  assert (T : forall acc, type_pass false (pre ++ l :: post) acc = Err RuntimeError).
  { induction pre as [|x pre IH]; intros acc; cbn [app type_pass].
    - rewrite HL. unfold count_of, nth_word. rewrite HW. cbn [rbind]. rewrite HN. cbn [rbind].
      apply Z.ltb_lt in LT. rewrite LT. reflexivity.
    - rewrite (HP x (or_introl eq_refl)). cbn [andb]. apply IH. intros y Hy. apply HP. right. exact Hy. }
  rewrite T. reflexivity.
Qed.
Example links_two_types : nth_error (words "ELEMENT_TYPES 2") 1 = Some "2" /\ py_int "2" = Ok 2%Z /\ adimu_mesh h_pf l_fmt l_fmt ["TITLE"; "ELEMENT_TYPES 2"; "1 QUAD4"] = Err RuntimeError.
Proof. repeat split; vm_compute; reflexivity. Qed.

Print Assumptions links_file_round_trip.
Print Assumptions links_file_written_iff.
Print Assumptions links_mesh_of_simulation.
Print Assumptions links_quad8_refuted.
Print Assumptions links_title_refuted.
Print Assumptions links_phase_refuted.
Print Assumptions links_width_refuted.
Print Assumptions links_free_dof_refuted.
Print Assumptions links_several_types.
