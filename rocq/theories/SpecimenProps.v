(** Specimen mesh files: a written mesh is read back (C81). *)
From Coq Require Import String Ascii List Bool Arith ZArith Lia Permutation.
From Verif Require Import Lib PyStr PyDict TextLines SpecimenModel.
Import ListNotations.
Local Open Scope string_scope.
Local Open Scope list_scope.

(** ** Specification *)

(** What is assumed of the texts of numbers: a formatted coordinate is read
    back as its rounded value, and no text has commas or stars. *)
Record text_laws {C V} (pf : string -> res C) (fmt : C -> string) (rnd : C -> C) (vstr : V -> string) : Prop := {
  tl_read : forall c, pf (String " " (fmt c)) = Ok (rnd c);
  tl_comma : forall c, has_char "," (fmt c) = false;
  tl_star : forall c, has_char "*" (fmt c) = false;
  tl_vstar : forall v, has_char "*" (vstr v) = false
}.
(** A mesh: coordinate rows of one length, elements with nodes of the mesh. *)
Definition table {A} (l : list (list A)) (k : nat) : Prop := k > 0 /\ forall r, In r l -> List.length r = k.
Definition in_mesh (n : nat) (conn : list (list nat)) : Prop :=
  forall r, In r conn -> r <> [] /\ forall i, In i r -> 1 <= i <= n.
Definition covered (n : nat) (conn : list (list nat)) : Prop :=
  forall i, 1 <= i <= n -> exists r, In r conn /\ In i r.
Definition prescribed {V} (d : list (nat * list (nat * V))) (i j : nat) : Prop :=
  exists l v, In (i, l) d /\ In (j, v) l.
Definition bcs_in_mesh {V} (n : nat) (d : list (nat * list (nat * V))) : Prop :=
  forall i j, prescribed d i j -> 1 <= i <= n /\ 1 <= j.
Definition flags_of {V} (n n_dim : nat) (bcs : option (list (nat * list (nat * V)))) (flags : list (list bool)) : Prop :=
  List.length flags = n /\ (forall r, In r flags -> List.length r = n_dim) /\
  forall i d, i < n -> d < n_dim ->
    (nth d (nth i flags []) false = true <->
     match bcs with None => False | Some b => prescribed b (S i) (S d) end).

(** ** Lines *)
Lemma kw_no_star p l : has_char "*" p = true -> has_char "*" l = false -> search_kw p l = false.
Proof. intros Hp Hl. apply (search_kw_absent "*"); rewrite has_ci_star; assumption. Qed.
Lemma nat_str_no c n : is_digit c = false -> has_char c (nat_str n) = false.
Proof. intros H. apply digits_no_char; [exact H|apply nat_str_digits]. Qed.
Lemma pad_no c k n : is_digit c = false -> Ascii.eqb " " c = false -> has_char c (pad_left k (nat_str n)) = false.
Proof. intros H1 H2. unfold pad_left. rewrite has_char_app, has_char_spaces, nat_str_no by assumption. reflexivity. Qed.
Lemma blank_comma l : has_char "," l = true -> blank l = false.
Proof.
  induction l as [|c l IH]; [discriminate|]. cbn [has_char blank]. intros H.
  destruct (Ascii.eqb_spec c ",") as [->|]; [reflexivity|]. cbn in H. rewrite IH by exact H. apply andb_false_r.
Qed.
Lemma forallb_map {A B} (f : A -> B) p l : forallb p (map f l) = forallb (fun x => p (f x)) l.
Proof. induction l as [|x l IH]; [reflexivity|]. cbn. now rewrite IH. Qed.
Lemma forallb_all {A} (p : A -> bool) l : (forall x, p x = true) -> forallb p l = true.
Proof. intros H. apply forallb_forall. auto. Qed.

(** a row 'label, a, b, ...' *)
Lemma row_fields i l : l <> [] -> forallb (fun y => negb (has_char "," y)) l = true ->
  split_on "," (pad_left 3 (nat_str i) ++ ", " ++ join ", " l)%string
  = pad_left 3 (nat_str i) :: map (String " ") l.
Proof.
  intros Hl Hc. destruct l as [|x l]; [contradiction|].
  destruct (split_join "," (pad_left 3 (nat_str i)) (x :: l)) as [E|E]; [| |exact E|discriminate E].
  - now apply pad_no.
  - exact Hc.
Qed.
Lemma row_star i l : forallb (fun y => negb (has_char "*" y)) l = true ->
  has_char "*" (pad_left 3 (nat_str i) ++ ", " ++ join ", " l)%string = false.
Proof.
  intros H. rewrite !has_char_app, pad_no, has_char_join by (auto; reflexivity). reflexivity.
Qed.
Lemma row_blank i l : blank (pad_left 3 (nat_str i) ++ ", " ++ join ", " l)%string = false.
Proof. apply blank_comma. rewrite !has_char_app. cbn. apply orb_true_r. Qed.

(** ** Passes over lines without keywords *)
Section Skip.
  Context {C : Type} (pf : string -> res C).
  Definition plain (l : string) : Prop := has_char "*" l = false.
  Lemma nodes_skip n_dim pre rest : Forall plain pre -> nodes_pass pf n_dim false (pre ++ rest) = nodes_pass pf n_dim false rest.
  Proof.
    induction 1 as [|l pre H _ IH]; [reflexivity|]. cbn [app nodes_pass].
    rewrite kw_no_star by (auto; reflexivity). exact IH.
  Qed.
  Lemma elems_skip n pre rest acc : Forall plain pre -> elems_pass n None (pre ++ rest) acc = elems_pass n None rest acc.
  Proof.
    induction 1 as [|l pre H _ IH]; [reflexivity|]. cbn [app elems_pass].
    rewrite kw_no_star by (auto; reflexivity). exact IH.
  Qed.
  Lemma bounds_skip n n_dim pre rest m : Forall plain pre ->
    bounds_pass n n_dim false (pre ++ rest) m = bounds_pass n n_dim false rest m.
  Proof.
    induction 1 as [|l pre H _ IH]; [reflexivity|]. cbn [app bounds_pass].
    rewrite kw_no_star by (auto; reflexivity). exact IH.
  Qed.
  Lemma nodes_rows {A} (f : A -> string) (g : A -> list C) n_dim l rest :
    (forall a, In a l -> plain (f a) /\ blank (f a) = false /\ node_row pf n_dim (f a) = Ok (g a)) ->
    nodes_pass pf n_dim true (map f l ++ rest)
    = rbind (nodes_pass pf n_dim true rest) (fun rs => Ok (map g l ++ rs)).
  Proof.
    induction l as [|a l IH]; intros H.
    - cbn [map app]. destruct (nodes_pass pf n_dim true rest); reflexivity.
    - cbn [map app nodes_pass]. destruct (H a) as [H1 [H2 H3]]; [left; reflexivity|].
      rewrite kw_no_star by (auto; reflexivity). rewrite (section_end_star _ H1), H2. cbn [orb andb].
      rewrite H3. cbn [rbind]. rewrite IH by (intros; apply H; right; assumption).
      destruct (nodes_pass pf n_dim true rest); reflexivity.
  Qed.
  Lemma elems_rows {A} (f : A -> string) (g : A -> Z * list nat) n t l rest acc :
    (forall a, In a l -> plain (f a) /\ blank (f a) = false /\ elem_row n (f a) = Ok (g a)) ->
    elems_pass n (Some t) (map f l ++ rest) acc
    = elems_pass n (Some t) rest
        (fold_left (fun acc a => (gset Z.eqb (fst acc) (fst (g a)) (t, snd (g a)), snd acc ++ snd (g a))) l acc).
  Proof.
    revert acc. induction l as [|a l IH]; intros acc H; [reflexivity|].
    cbn [map app elems_pass fold_left]. destruct (H a) as [H1 [H2 H3]]; [left; reflexivity|].
    rewrite kw_no_star by (auto; reflexivity). rewrite (section_end_star _ H1), H2. cbn [orb].
    rewrite H3. cbn [rbind]. apply IH. intros; apply H; right; assumption.
  Qed.
  Lemma bounds_rows {A} (f : A -> string) (g : A -> list (list bool) -> list (list bool)) n n_dim l rest m :
    (forall a m, In a l -> plain (f a) /\ blank (f a) = false /\ flag_row n n_dim (f a) m = Ok (g a m)) ->
    bounds_pass n n_dim true (map f l ++ rest) m
    = bounds_pass n n_dim true rest (fold_left (fun m a => g a m) l m).
  Proof.
    revert m. induction l as [|a l IH]; intros m H; [reflexivity|].
    cbn [map app bounds_pass fold_left]. destruct (H a m) as [H1 [H2 H3]]; [left; reflexivity|].
    rewrite kw_no_star by (auto; reflexivity). rewrite (section_end_star _ H1), H2. cbn [orb andb].
    rewrite H3. cbn [rbind]. apply IH. intros; apply H; right; assumption.
  Qed.
End Skip.

(** ** Rows of the writer *)
Lemma number_in {A} (l : list A) i x : In (i, x) (number l) -> 1 <= i <= List.length l /\ In x l.
Proof.
  intros H. unfold number in H. split.
  - apply in_combine_l, in_seq in H. lia.
  - now apply in_combine_r in H.
Qed.
Lemma number_fst {A} (l : list A) : map fst (number l) = seq 1 (List.length l).
Proof.
  unfold number. generalize 1. induction l as [|x l IH]; intros k; [reflexivity|]. cbn. now rewrite IH.
Qed.
Lemma number_snd {A} (l : list A) : map snd (number l) = l.
Proof.
  unfold number. generalize 1. induction l as [|x l IH]; intros k; [reflexivity|]. cbn. now rewrite IH.
Qed.
Lemma combine_app_eq {A B} (l1 l2 : list A) (r1 r2 : list B) : List.length l1 = List.length r1 ->
  combine (l1 ++ l2) (r1 ++ r2) = combine l1 r1 ++ combine l2 r2.
Proof.
  revert r1. induction l1 as [|a l1 IH]; intros [|b r1] H; try discriminate H; [reflexivity|].
  cbn. now rewrite IH by (now injection H).
Qed.
Lemma map_snd_number {A B} (f : A -> B) (l : list A) : map (fun p => f (snd p)) (number l) = map f l.
Proof. rewrite <- (map_map snd f), number_snd. reflexivity. Qed.

Lemma in_range_ok n r : (forall i, In i r -> 1 <= i <= n) ->
  forallb (fun z => (1 <=? z) && (z <=? Z.of_nat n))%Z (map Z.of_nat r) = true.
Proof.
  intros H. rewrite forallb_map. apply forallb_forall. intros i Hi. specialize (H i Hi).
  apply andb_true_intro. split; apply Z.leb_le; lia.
Qed.
Lemma in_range_bad n r : ~ (forall i, In i r -> 1 <= i <= n) ->
  forallb (fun z => (1 <=? z) && (z <=? Z.of_nat n))%Z (map Z.of_nat r) = false.
Proof.
  intros H. destruct (forallb _ _) eqn:E; [|reflexivity]. exfalso. apply H. intros i Hi.
  rewrite forallb_map in E. rewrite forallb_forall in E. specialize (E i Hi). apply andb_prop in E as [E1 E2].
  apply Z.leb_le in E1, E2. lia.
Qed.
Lemma to_of_nat r : map Z.to_nat (map Z.of_nat r) = r.
Proof. rewrite map_map. rewrite <- (map_id r) at 2. apply map_ext. intros; apply Nat2Z.id. Qed.
Lemma parse_nodes r : rmap py_int (map (String " ") (map nat_str r)) = Ok (map Z.of_nat r).
Proof.
  rewrite map_map. induction r as [|i r IH]; [reflexivity|]. cbn [map rmap]. rewrite py_int_space. cbn [rbind].
  rewrite IH. reflexivity.
Qed.
Lemma nodes_no_char c r : is_digit c = false -> forallb (fun y => negb (has_char c y)) (map nat_str r) = true.
Proof. intros H. rewrite forallb_map. apply forallb_all. intros x. now rewrite nat_str_no. Qed.

Lemma elem_line_parse n i r : r <> [] ->
  elem_row n (elem_line (i, r))
  = if forallb (fun z => (1 <=? z) && (z <=? Z.of_nat n))%Z (map Z.of_nat r) then Ok (Z.of_nat i, r) else Err RuntimeError.
Proof.
  intros Hr. unfold elem_row, elem_line. cbn [fst snd].
  rewrite row_fields; [|now destruct r|now apply nodes_no_char]. cbn [hd tl].
  rewrite py_int_pad. cbn [rbind]. rewrite parse_nodes. cbn [rbind]. now rewrite to_of_nat.
Qed.

Lemma bound_fields {V} (vstr : V -> string) i j v :
  exists rest, split_on "," (bound_line vstr i j v)
  = pad_left 3 (nat_str i) :: String " " (nat_str j) :: String " " (nat_str j) :: rest.
Proof.
  unfold bound_line.
  change (pad_left 3 (nat_str i) ++ ", " ++ nat_str j ++ ", " ++ nat_str j ++ ", " ++ vstr v)%string
    with (pad_left 3 (nat_str i) ++ String "," ((" " ++ nat_str j) ++ String "," ((" " ++ nat_str j) ++ String "," (" " ++ vstr v))))%string.
  rewrite split_on_app, (split_on_none _ (pad_left 3 (nat_str i))) by now apply pad_no.
  assert (N : has_char "," (" " ++ nat_str j) = false) by (cbn [append has_char]; now rewrite nat_str_no).
  rewrite !split_on_app, !(split_on_none _ (" " ++ nat_str j)) by exact N.
  eexists. reflexivity.
Qed.
Lemma bound_star {V} (vstr : V -> string) i j v : has_char "*" (vstr v) = false -> has_char "*" (bound_line vstr i j v) = false.
Proof.
  intros H. unfold bound_line. rewrite !has_char_app, pad_no, !nat_str_no, H by reflexivity. reflexivity.
Qed.
Lemma bound_blank {V} (vstr : V -> string) i j v : blank (bound_line vstr i j v) = false.
Proof. apply blank_comma. unfold bound_line. rewrite !has_char_app. cbn. apply orb_true_r. Qed.

Definition mark (n_dim i j : nat) (m : list (list bool)) : list (list bool) :=
  if Nat.leb j n_dim then upd m (i - 1) (upd (nth (i - 1) m []) (j - 1) true) else m.
Lemma bound_line_parse {V} (vstr : V -> string) n n_dim i j v m : 1 <= i <= n -> 1 <= j ->
  flag_row n n_dim (bound_line vstr i j v) m = Ok (mark n_dim i j m).
Proof.
  intros Hi Hj. unfold flag_row. destruct (bound_fields vstr i j v) as [rest ->]. cbn [hd tl firstn].
  rewrite py_int_pad. cbn [rbind rmap]. rewrite py_int_space. cbn [rbind].
  unfold zrange. replace (Z.to_nat (Z.of_nat j - (Z.of_nat j - 1))) with 1 by lia.
  cbn [seq map rfold rbind].
  replace (Z.of_nat j - 1 + Z.of_nat 0)%Z with (Z.of_nat (j - 1)) by lia. unfold mark.
  destruct (Nat.leb_spec j n_dim) as [L|L].
  - replace ((0 <=? Z.of_nat (j - 1)) && (Z.of_nat (j - 1) <? Z.of_nat n_dim))%Z with true
      by (symmetry; apply andb_true_intro; split; [apply Z.leb_le|apply Z.ltb_lt]; lia).
    unfold py_index. replace (Z.of_nat i - 1)%Z with (Z.of_nat (i - 1)) by lia.
    replace ((0 <=? Z.of_nat (i - 1)) && (Z.of_nat (i - 1) <? Z.of_nat n))%Z with true
      by (symmetry; apply andb_true_intro; split; [apply Z.leb_le|apply Z.ltb_lt]; lia).
    cbn [rbind]. now rewrite !Nat2Z.id.
  - replace ((0 <=? Z.of_nat (j - 1)) && (Z.of_nat (j - 1) <? Z.of_nat n_dim))%Z with false; [reflexivity|].
    symmetry. apply andb_false_intro2. apply Z.ltb_ge. lia.
Qed.

(** ** Flags *)
Definition shape (n n_dim : nat) (m : list (list bool)) : Prop :=
  List.length m = n /\ forall r, In r m -> List.length r = n_dim.
Lemma in_upd {A} (l : list A) k v x : In x (upd l k v) -> x = v \/ In x l.
Proof.
  revert k. induction l as [|a l IH]; intros k H; [destruct H|]. destruct k; cbn [upd] in H; destruct H as [<-|H]; cbn; auto.
  destruct (IH _ H); auto.
Qed.
Lemma shape_row n n_dim m i : shape n n_dim m -> i < n -> List.length (nth i m []) = n_dim.
Proof. intros [L R] H. apply R, nth_In. lia. Qed.
Lemma mark_shape n n_dim i j m : shape n n_dim m -> 1 <= i <= n -> shape n n_dim (mark n_dim i j m).
Proof.
  intros H Hi. unfold mark. destruct (Nat.leb j n_dim); [|exact H]. split.
  - rewrite upd_length. apply H.
  - intros r Hr. apply in_upd in Hr as [->|Hr]; [|now apply H]. rewrite upd_length. eapply shape_row; [exact H|lia].
Qed.
Lemma mark_get n n_dim i j m a d : shape n n_dim m -> 1 <= i <= n -> 1 <= j -> a < n -> d < n_dim ->
  (nth d (nth a (mark n_dim i j m) []) false = true <-> (i = S a /\ j = S d) \/ nth d (nth a m []) false = true).
Proof.
  intros Hs Hi Hj Ha Hd. unfold mark. destruct (Nat.leb_spec j n_dim) as [L|L].
  - rewrite nth_upd by (destruct Hs as [-> _]; lia). destruct (Nat.eqb_spec a (i - 1)) as [->|N].
    + rewrite nth_upd by (rewrite (shape_row n n_dim) by (auto; lia); lia).
      destruct (Nat.eqb_spec d (j - 1)) as [->|N]; [split; [intros _; left; lia|reflexivity]|].
      split; [auto|]. intros [[_ E]|E]; [lia|exact E].
    + split; [auto|]. intros [[E _]|E]; [lia|exact E].
  - split; [auto|]. intros [[_ E]|E]; [lia|exact E].
Qed.
Lemma marks_get n n_dim (l : list (nat * nat)) : forall m, shape n n_dim m ->
  (forall p, In p l -> 1 <= fst p <= n /\ 1 <= snd p) ->
  let m' := fold_left (fun m p => mark n_dim (fst p) (snd p) m) l m in
  shape n n_dim m' /\ forall a d, a < n -> d < n_dim ->
    (nth d (nth a m' []) false = true <-> In (S a, S d) l \/ nth d (nth a m []) false = true).
Proof.
  induction l as [|[i j] l IH]; intros m Hm Hl; cbn [fold_left].
  - split; [exact Hm|]. intros. cbn. tauto.
  - destruct (Hl (i, j)) as [Hi Hj]; [left; reflexivity|]. cbn [fst snd] in *.
    destruct (IH (mark n_dim i j m)) as [S1 G]; [now apply mark_shape|intros; apply Hl; right; assumption|].
    split; [exact S1|]. intros a d Ha Hd. rewrite G, (mark_get n) by auto. cbn [In].
    split; [intros [H|[[-> ->]|H]]; auto|]. intros [[H|H]|H]; auto. injection H as -> ->. auto.
Qed.
Lemma zeros_shape n n_dim : shape n n_dim (repeat (repeat false n_dim) n).
Proof.
  split; [apply repeat_length|]. intros r H. apply repeat_spec in H. subst. apply repeat_length.
Qed.
Lemma nth_repeat_false d k : nth d (repeat false k) false = false.
Proof. revert d. induction k; intros [|d]; cbn; auto. Qed.
Lemma zeros_get n n_dim a d : a < n -> nth d (nth a (repeat (repeat false n_dim) n) []) false = false.
Proof.
  intros H. assert (I : In (nth a (repeat (repeat false n_dim) n) []) (repeat (repeat false n_dim) n))
    by (apply nth_In; now rewrite repeat_length).
  apply repeat_spec in I. rewrite I. apply nth_repeat_false.
Qed.

(** ** Elements *)
Lemma fold_number {T} (t : T) (conn : list (list nat)) k d nodes :
  (forall i, In i (map fst d) -> (i < Z.of_nat k)%Z) ->
  fold_left (fun acc (a : nat * list nat) =>
      (gset Z.eqb (fst acc) (Z.of_nat (fst a)) (t, snd a), snd acc ++ snd a))
    (combine (seq k (List.length conn)) conn) (d, nodes)
  = (d ++ map (fun p => (Z.of_nat (fst p), (t, snd p))) (combine (seq k (List.length conn)) conn), nodes ++ concat conn).
Proof.
  revert k d nodes. induction conn as [|r conn IH]; intros k d nodes Hd.
  - cbn. now rewrite !app_nil_r.
  - cbn [List.length seq combine fold_left fst snd map concat].
    assert (G : gset Z.eqb d (Z.of_nat k) (t, r) = d ++ [(Z.of_nat k, (t, r))]).
    { clear - Hd. induction d as [|[i v] d IH]; [reflexivity|]. cbn [gset].
      destruct (Z.eqb_spec (Z.of_nat k) i) as [E|E].
      - specialize (Hd i (or_introl eq_refl)). lia.
      - cbn [app]. f_equal. apply IH. intros; apply Hd; right; assumption. }
    rewrite G, IH; [now rewrite <- !app_assoc|].
    intros i Hi. rewrite map_app, in_app_iff in Hi. destruct Hi as [Hi|[<-|[]]]; [specialize (Hd i Hi); lia|cbn; lia].
Qed.
Lemma covered_ok n conn : covered n conn <-> nodes_covered n (concat conn) = true.
Proof.
  unfold nodes_covered. rewrite forallb_forall. split.
  - intros H i Hi. apply in_seq in Hi. destruct (H i) as [r [H1 H2]]; [lia|].
    apply existsb_exists. exists i. split; [apply in_concat; eauto|apply Nat.eqb_refl].
  - intros H i Hi. specialize (H i). rewrite in_seq in H. specialize (H ltac:(lia)).
    apply existsb_exists in H as [x [H1 H2]]. apply Nat.eqb_eq in H2. subst x. apply in_concat in H1. exact H1.
Qed.

(** ** Element type line *)
Lemma known_types t k : fetorch_type t = Ok k ->
  In (t, k) [("CPE3", (Tri3, 1)); ("CPE4", (Quad4, 4)); ("C3D4", (Tetra4, 4)); ("C3D8", (Hexa8, 8)); ("C3D8R", (Hexa8, 1)); ("C3D20R", (Hexa20, 8))].
Proof.
  unfold fetorch_type.
  repeat match goal with |- context [String.eqb t ?s] => destruct (String.eqb_spec t s) as [->|_]; [intros E; injection E as <-; cbn; tauto|] end.
  discriminate.
Qed.
Fixpoint all_alnum (s : string) : bool := match s with EmptyString => true | String c t => is_alnum c && all_alnum t end.
Lemma take_alnum_all s : all_alnum s = true -> take_alnum s = s.
Proof. induction s as [|c s IH]; [reflexivity|]. cbn. intros H. apply andb_prop in H as [H1 H2]. now rewrite H1, IH. Qed.
Lemma type_value_line t : t <> "" -> all_alnum t = true -> type_value ("*Element, type=" ++ t)%string = Some t.
Proof.
  intros N A. destruct t as [|c t]; [contradiction|].
  assert (E : type_value ("*Element, type=" ++ String c t)%string
    = match (if is_alnum c then Some (take_alnum (String c t)) else None) with
      | Some v => Some v | None => type_value ("ype=" ++ String c t)%string end) by reflexivity.
  rewrite E. pose proof A as A'. cbn [all_alnum] in A'. apply andb_prop in A' as [-> _]. now rewrite take_alnum_all.
Qed.
Lemma elem_keyword t : search_kw "*element, type" ("*Element, type=" ++ t)%string = true.
Proof. reflexivity. Qed.

(** ** Round trip *)
Section RoundTrip.
  Context {C V : Type} (pf : string -> res C) (fmt : C -> string) (rnd : C -> C) (vstr : V -> string).
  Hypothesis laws : text_laws pf fmt rnd vstr.

  Lemma parse_coords n_dim r : rmap pf (firstn n_dim (map (String " ") (map fmt r))) = Ok (map rnd (firstn n_dim r)).
  Proof.
    revert r. induction n_dim as [|k IH]; intros r; [reflexivity|]. destruct r as [|c r]; [reflexivity|].
    cbn [map firstn rmap]. rewrite (tl_read _ _ _ _ laws). cbn [rbind]. rewrite IH. reflexivity.
  Qed.
  Lemma node_line_ok n_dim i r : r <> [] ->
    plain (node_line fmt (i, r)) /\ blank (node_line fmt (i, r)) = false /\
    node_row pf n_dim (node_line fmt (i, r)) = Ok (map rnd (firstn n_dim r)).
  Proof.
    intros Hr. unfold node_line, plain. cbn [fst snd]. split; [|split].
    - apply row_star. rewrite forallb_map. apply forallb_all. intros c. now rewrite (tl_star _ _ _ _ laws).
    - apply row_blank.
    - unfold node_row. rewrite row_fields; [apply parse_coords|now destruct r|].
      rewrite forallb_map. apply forallb_all. intros c. now rewrite (tl_comma _ _ _ _ laws).
  Qed.
  Lemma rows_plain k coords : table coords k -> Forall plain (map (node_line fmt) (number coords)).
  Proof.
    intros [Hk Ht]. apply Forall_forall. intros x Hx. apply in_map_iff in Hx as [[i r] [<- Hi]].
    apply number_in in Hi as [_ Hi]. destruct (node_line_ok 0 i r) as [H _]; [|exact H].
    specialize (Ht r Hi). destruct r; [cbn in Ht; lia|discriminate].
  Qed.
  Lemma elems_plain conn : Forall plain (map elem_line (number conn)).
  Proof.
    apply Forall_forall. intros x Hx. apply in_map_iff in Hx as [[i r] [<- Hi]].
    apply row_star. now apply nodes_no_char.
  Qed.

  Definition bound_rows (d : list (nat * list (nat * V))) : list (nat * nat * V) :=
    flat_map (fun n => map (fun b => (fst n, fst b, snd b)) (snd n)) d.
  Lemma bound_rows_lines d :
    flat_map (fun n => map (fun b => bound_line vstr (fst n) (fst b) (snd b)) (snd n)) d
    = map (fun t => bound_line vstr (fst (fst t)) (snd (fst t)) (snd t)) (bound_rows d).
  Proof.
    unfold bound_rows. induction d as [|[i l] d IH]; [reflexivity|]. cbn [flat_map fst snd]. rewrite map_app, IH.
    f_equal. rewrite map_map. apply map_ext. reflexivity.
  Qed.
  Lemma bound_rows_in d i j : In (i, j) (map fst (bound_rows d)) <-> prescribed d i j.
  Proof.
    unfold bound_rows, prescribed. rewrite in_map_iff. split.
    - intros [[[a b] v] [E H]]. cbn in E. injection E as -> ->. apply in_flat_map in H as [[a l] [H1 H2]].
      cbn [fst snd] in H2. apply in_map_iff in H2 as [[b w] [E H2]]. cbn [fst snd] in E. injection E as -> -> ->. eauto.
    - intros [l [v [H1 H2]]]. exists (i, j, v). split; [reflexivity|]. apply in_flat_map. exists (i, l).
      split; [exact H1|]. cbn [fst snd]. apply in_map_iff. exists (j, v). auto.
  Qed.

  Lemma write_nodes n_dim k coords conn t bcs : table coords k ->
    nodes_pass pf n_dim false (write_mesh fmt vstr coords conn t bcs)
    = Ok (map (fun r => map rnd (firstn n_dim r)) coords).
  Proof.
    intros Ht. unfold write_mesh.
    match goal with |- nodes_pass _ _ _ (_ ++ _ ++ ?r) = _ => set (rest := r) end.
    change (nodes_pass pf n_dim true (map (node_line fmt) (number coords) ++ rest)
            = Ok (map (fun r => map rnd (firstn n_dim r)) coords)).
    rewrite (nodes_rows pf (node_line fmt) (fun p => map rnd (firstn n_dim (snd p)))).
    - change (nodes_pass pf n_dim true rest) with (@Ok (list (list C)) []). cbn [rbind]. rewrite app_nil_r.
      f_equal. exact (map_snd_number (fun r => map rnd (firstn n_dim r)) coords).
    - intros [i r] Hi. apply number_in in Hi as [_ Hi]. apply node_line_ok.
      destruct Ht as [Hk Ht]. specialize (Ht r Hi). destruct r; [cbn in Ht; lia|discriminate].
  Qed.

  Definition elem_head (coords : list (list C)) : list string :=
    "ADiMU mesh data file (generated from Links data)" :: "" :: "*Node" :: map (node_line fmt) (number coords) ++ [""].
  Lemma write_split coords conn t bcs :
    write_mesh fmt vstr coords conn t bcs
    = elem_head coords ++ ("*Element, type=" ++ t)%string :: map elem_line (number conn)
      ++ match bcs with None => [] | Some d => "" :: "*Boundary" :: map (fun t => bound_line vstr (fst (fst t)) (snd (fst t)) (snd t)) (bound_rows d) end.
  Proof.
    unfold write_mesh, elem_head. cbn [app]. rewrite <- app_assoc. cbn [app].
    destruct bcs as [d|]; [rewrite bound_rows_lines|]; reflexivity.
  Qed.
  Lemma bounds_plain d : Forall plain (map (fun t => bound_line vstr (fst (fst t)) (snd (fst t)) (snd t)) (bound_rows d)).
  Proof.
    apply Forall_forall. intros x Hx. apply in_map_iff in Hx as [[[i j] v] [<- Hi]].
    apply bound_star, (tl_vstar _ _ _ _ laws).
  Qed.

  Lemma skip_head_elems n k coords rest acc : table coords k ->
    elems_pass n None (elem_head coords ++ rest) acc = elems_pass n None rest acc.
  Proof.
    intros Ht. unfold elem_head.
    change (elems_pass n None ((map (node_line fmt) (number coords) ++ [""]) ++ rest) acc = elems_pass n None rest acc).
    rewrite <- app_assoc, elems_skip by (eapply rows_plain; eassumption). reflexivity.
  Qed.
  Lemma skip_head_bounds n n_dim k coords rest m : table coords k ->
    bounds_pass n n_dim false (elem_head coords ++ rest) m = bounds_pass n n_dim false rest m.
  Proof.
    intros Ht. unfold elem_head.
    change (bounds_pass n n_dim false ((map (node_line fmt) (number coords) ++ [""]) ++ rest) m = bounds_pass n n_dim false rest m).
    rewrite <- app_assoc, bounds_skip by (eapply rows_plain; eassumption). reflexivity.
  Qed.

  Lemma write_type n k coords conn t bcs acc : table coords k ->
    elems_pass n None (write_mesh fmt vstr coords conn t bcs) acc
    = rbind (elem_type_line ("*Element, type=" ++ t)%string) (fun ty =>
        elems_pass n (Some ty) (map elem_line (number conn)
          ++ match bcs with None => [] | Some d => "" :: "*Boundary" :: map (fun t => bound_line vstr (fst (fst t)) (snd (fst t)) (snd t)) (bound_rows d) end) acc).
  Proof. intros Ht. rewrite write_split, (skip_head_elems n k) by exact Ht. reflexivity. Qed.
  Lemma after_elems n ty bcs acc :
    elems_pass n (Some ty) match bcs with None => [] | Some d => "" :: "*Boundary" :: map (fun t => bound_line vstr (fst (fst t)) (snd (fst t)) (snd t)) (bound_rows d) end acc = Ok acc.
  Proof.
    destruct bcs as [d|]; [|reflexivity].
    change (elems_pass n None (map (fun t => bound_line vstr (fst (fst t)) (snd (fst t)) (snd t)) (bound_rows d)) acc = Ok acc).
    rewrite <- (app_nil_r (map _ (bound_rows d))). rewrite elems_skip by apply bounds_plain. reflexivity.
  Qed.

  Lemma known_line t ty : fetorch_type t = Ok ty -> elem_type_line ("*Element, type=" ++ t)%string = Ok ty.
  Proof.
    intros H. apply known_types in H. unfold elem_type_line.
    repeat (destruct H as [H|H]; [injection H as <- <-; reflexivity|]). destruct H.
  Qed.
  Lemma known_not_boundary t ty : fetorch_type t = Ok ty -> search_kw "*boundary" ("*Element, type=" ++ t)%string = false.
  Proof.
    intros H. apply known_types in H.
    repeat (destruct H as [H|H]; [injection H as <- <-; reflexivity|]). destruct H.
  Qed.

  Lemma write_elems n k coords conn t ty bcs : table coords k -> in_mesh n conn -> fetorch_type t = Ok ty ->
    elems_pass n None (write_mesh fmt vstr coords conn t bcs) ([], [])
    = Ok (map (fun p => (Z.of_nat (fst p), (ty, snd p))) (number conn), concat conn).
  Proof.
    intros Ht Hc Hty. rewrite (write_type n k) by exact Ht. rewrite (known_line t ty) by exact Hty. cbn [rbind].
    rewrite (elems_rows elem_line (fun p => (Z.of_nat (fst p), snd p))).
    - rewrite after_elems. cbn [fst snd]. unfold number. rewrite fold_number; [reflexivity|]. intros i [].
    - intros [i r] Hi. apply number_in in Hi as [_ Hi]. destruct (Hc r Hi) as [Hr Hn].
      split; [apply row_star; now apply nodes_no_char|]. split; [apply row_blank|].
      rewrite elem_line_parse, in_range_ok by assumption. reflexivity.
  Qed.

  Lemma write_bounds n n_dim k coords conn t ty bcs : table coords k -> fetorch_type t = Ok ty ->
    match bcs with None => True | Some d => bcs_in_mesh n d end ->
    exists flags, flags_of n n_dim bcs flags /\
    bounds_pass n n_dim false (write_mesh fmt vstr coords conn t bcs) (repeat (repeat false n_dim) n) = Ok flags.
  Proof.
    intros Ht Hty Hb. rewrite write_split, (skip_head_bounds n n_dim k) by exact Ht.
    match goal with |- context [map elem_line (number conn) ++ ?r] => set (rest := r) end.
    assert (E : forall m, bounds_pass n n_dim false (("*Element, type=" ++ t)%string :: map elem_line (number conn) ++ rest) m
      = bounds_pass n n_dim false rest m).
    { intros m. cbn [bounds_pass]. rewrite (known_not_boundary t ty) by exact Hty. cbn [andb].
      apply bounds_skip, elems_plain. }
    rewrite E. subst rest. clear E. destruct bcs as [d|].
    - change (exists flags, flags_of n n_dim (Some d) flags /\
        bounds_pass n n_dim true (map (fun t => bound_line vstr (fst (fst t)) (snd (fst t)) (snd t)) (bound_rows d))
          (repeat (repeat false n_dim) n) = Ok flags).
      rewrite <- (app_nil_r (map _ (bound_rows d))).
      rewrite (bounds_rows _ (fun t m => mark n_dim (fst (fst t)) (snd (fst t)) m)).
      + eexists. split; [|reflexivity].
        destruct (marks_get n n_dim (map fst (bound_rows d)) (repeat (repeat false n_dim) n)) as [H1 H2].
        * apply zeros_shape.
        * intros [i j] Hp. apply bound_rows_in in Hp. exact (Hb i j Hp).
        * assert (F : fold_left (fun m (p : nat * nat) => mark n_dim (fst p) (snd p) m) (map fst (bound_rows d)) (repeat (repeat false n_dim) n)
            = fold_left (fun m (a : nat * nat * V) => mark n_dim (fst (fst a)) (snd (fst a)) m) (bound_rows d) (repeat (repeat false n_dim) n)).
          { clear. generalize (repeat (repeat false n_dim) n). induction (bound_rows d) as [|[[i j] v] l IH]; intros m; [reflexivity|].
            cbn [map fold_left fst snd]. apply IH. }
          rewrite F in H1, H2. split; [apply H1|]. split; [apply H1|]. intros i e Hi He.
          rewrite H2, zeros_get, bound_rows_in by assumption. intuition discriminate.
      + intros [[i j] v] m Hi. cbn [fst snd].
        assert (P : prescribed d i j) by (apply bound_rows_in; change (i, j) with (fst (i, j, v)); now apply in_map).
        destruct (Hb i j P) as [B1 B2]. split; [apply bound_star, (tl_vstar _ _ _ _ laws)|].
        split; [apply bound_blank|]. now apply bound_line_parse.
    - eexists. split; [|reflexivity]. destruct (zeros_shape n n_dim) as [L R]. split; [exact L|]. split; [exact R|].
      intros i e Hi He. rewrite zeros_get by exact Hi. intuition discriminate.
  Qed.

  Lemma rect_rows n_dim k (coords : list (list C)) : table coords k ->
    rectangular (map (fun r => map rnd (firstn n_dim r)) coords) = true.
  Proof.
    intros [Hk Ht]. destruct coords as [|r coords]; [reflexivity|]. cbn [map rectangular]. rewrite forallb_map.
    apply forallb_forall. intros x Hx. rewrite !map_length, !firstn_length, (Ht x), (Ht r) by (cbn; auto).
    apply Nat.eqb_refl.
  Qed.

  (** A mesh written to a file is read back: the same nodes in the same order
      (with rounded coordinates), the same elements and the same constrained
      degrees of freedom. *)
  Theorem specimen_mesh_round_trip n_dim k coords conn t ty bcs :
    coords <> [] -> table coords k -> in_mesh (List.length coords) conn -> covered (List.length coords) conn ->
    fetorch_type t = Ok ty -> match bcs with None => True | Some d => bcs_in_mesh (List.length coords) d end ->
    exists flags, flags_of (List.length coords) n_dim bcs flags /\
    read_mesh pf n_dim (write_mesh fmt vstr coords conn t bcs)
    = Ok (map (fun r => firstn n_dim (map rnd r)) coords,
          map (fun p => (Z.of_nat (fst p), (ty, snd p))) (combine (seq 1 (List.length conn)) conn),
          flags).
  Proof.
    intros Hn Ht Hc Hv Hty Hb. unfold read_mesh. rewrite (write_nodes n_dim k) by exact Ht. cbn [rbind].
    rewrite map_length. assert (L : Nat.eqb (List.length coords) 0 = false) by (destruct coords; [contradiction|reflexivity]).
    rewrite L, (rect_rows n_dim k) by exact Ht. cbn [negb].
    rewrite (write_elems _ k _ _ _ ty) by assumption. cbn [rbind snd fst].
    apply covered_ok in Hv. rewrite Hv. cbn [negb].
    destruct (write_bounds (List.length coords) n_dim k coords conn t ty bcs Ht Hty Hb) as [flags [H1 H2]].
    exists flags. split; [exact H1|]. rewrite H2. cbn [rbind]. unfold number.
    assert (M : map (fun r => map rnd (firstn n_dim r)) coords = map (fun r => firstn n_dim (map rnd r)) coords)
      by (apply map_ext; intros r; symmetry; apply firstn_map).
    now rewrite M.
  Qed.

  (** A mesh with an unused node, a node label out of range or an unknown
      element type is refused. *)
  Theorem specimen_mesh_refused n_dim k coords conn t bcs :
    table coords k -> (forall r, In r conn -> r <> []) -> t <> "" -> all_alnum t = true ->
    (coords = [] \/ (exists e, fetorch_type t = Err e)
     \/ ~ in_mesh (List.length coords) conn \/ ~ covered (List.length coords) conn) ->
    read_mesh pf n_dim (write_mesh fmt vstr coords conn t bcs) = Err RuntimeError.
  Proof.
    intros Ht Hr Tn Ta H. unfold read_mesh. rewrite (write_nodes n_dim k) by exact Ht. cbn [rbind].
    rewrite map_length. destruct (Nat.eqb_spec (List.length coords) 0) as [L|L]; [reflexivity|].
    destruct H as [->|H]; [now contradiction L|]. rewrite (rect_rows n_dim k) by exact Ht. cbn [negb].
    rewrite (write_type _ k) by exact Ht.
    assert (Et : elem_type_line ("*Element, type=" ++ t)%string = fetorch_type t)
      by (unfold elem_type_line; now rewrite type_value_line).
    rewrite Et. destruct (fetorch_type t) as [ty|e] eqn:Ety.
    2:{ assert (e = RuntimeError); [|subst; reflexivity]. revert Ety. unfold fetorch_type.
        repeat match goal with |- context [if ?b then _ else _] => destruct b end; congruence. }
    destruct H as [[e H]|H]; [discriminate|]. cbn [rbind].
    assert (D : in_mesh (List.length coords) conn \/
      exists pre r post, conn = pre ++ r :: post /\ in_mesh (List.length coords) pre /\ ~ (forall i, In i r -> 1 <= i <= List.length coords)).
    { clear - Hr. induction conn as [|r conn IH]; [left; intros r []|].
      destruct (forallb (fun i => Nat.leb 1 i && Nat.leb i (List.length coords)) r) eqn:E.
      - assert (Er : forall i, In i r -> 1 <= i <= List.length coords).
        { intros i Hi. rewrite forallb_forall in E. specialize (E i Hi). apply andb_prop in E as [E1 E2].
          apply Nat.leb_le in E1, E2. lia. }
        destruct IH as [IH|[pre [s [post [E1 [E2 E3]]]]]]; [intros; apply Hr; right; assumption| |].
        + left. intros s [<-|Hs]; [split; [apply Hr; left; reflexivity|exact Er]|now apply IH].
        + right. exists (r :: pre), s, post. split; [now rewrite E1|]. split; [|exact E3].
          intros x [<-|Hx]; [split; [apply Hr; left; reflexivity|exact Er]|now apply E2].
      - right. exists [], r, conn. split; [reflexivity|]. split; [intros x []|]. intros Q.
        apply Bool.not_true_iff_false in E. apply E. apply forallb_forall. intros i Hi. specialize (Q i Hi).
        apply andb_true_intro; split; apply Nat.leb_le; lia. }
    destruct D as [D|[pre [r [post [E [Hpre Hbad]]]]]].
    - destruct H as [H|H]; [contradiction|].
      rewrite (elems_rows elem_line (fun p => (Z.of_nat (fst p), snd p))).
      + rewrite after_elems. cbn [fst snd rbind]. unfold number. rewrite fold_number by (intros i []). cbn [snd app].
        destruct (nodes_covered (List.length coords) (concat conn)) eqn:Ec; [|reflexivity].
        apply covered_ok in Ec. contradiction.
      + intros [i r] Hi. apply number_in in Hi as [_ Hi]. destruct (D r Hi) as [Hr1 Hn].
        split; [apply row_star; now apply nodes_no_char|]. split; [apply row_blank|].
        rewrite elem_line_parse, in_range_ok by assumption. reflexivity.
    - assert (En : exists i, number conn = number pre ++ (i, r) :: combine (seq (S i) (List.length post)) post).
      { exists (1 + List.length pre). rewrite E. unfold number. rewrite app_length. cbn [List.length].
        rewrite seq_app, combine_app_eq by now rewrite seq_length. reflexivity. }
      destruct En as [i En]. rewrite En, map_app, <- app_assoc.
      rewrite (elems_rows elem_line (fun p => (Z.of_nat (fst p), snd p))).
      + cbn [map app elems_pass].
        assert (Pl : plain (elem_line (i, r))) by (apply row_star; now apply nodes_no_char).
        rewrite kw_no_star by (auto; reflexivity). rewrite (section_end_star _ Pl).
        assert (Bl : blank (elem_line (i, r)) = false) by apply row_blank. rewrite Bl. cbn [orb].
        rewrite elem_line_parse by (apply Hr; rewrite E; apply in_elt). rewrite in_range_bad by exact Hbad. reflexivity.
      + intros [j x] Hj. apply number_in in Hj as [_ Hj]. destruct (Hpre x Hj) as [Hr1 Hn].
        split; [apply row_star; now apply nodes_no_char|]. split; [apply row_blank|].
        rewrite elem_line_parse, in_range_ok by assumption. reflexivity.
  Qed.
End RoundTrip.

(** ** Any file *)
Lemma elem_row_range n l id r : elem_row n l = Ok (id, r) -> forall i, In i r -> 1 <= i <= n.
Proof.
  unfold elem_row. destruct (py_int _) as [z|]; [|discriminate]. cbn [rbind].
  destruct (rmap py_int _) as [zs|]; [|discriminate]. cbn [rbind].
  destruct (forallb _ zs) eqn:E; [|discriminate]. intros H. injection H as _ <-. intros i Hi.
  apply in_map_iff in Hi as [y [<- Hy]]. rewrite forallb_forall in E. specialize (E y Hy).
  apply andb_prop in E as [E1 E2]. apply Z.leb_le in E1, E2. lia.
Qed.
Definition edict_ok (n : nat) (e : edict) : Prop :=
  NoDup (map fst e) /\ forall id ty r, In (id, (ty, r)) e ->
    (exists t, fetorch_type t = Ok ty) /\ forall i, In i r -> 1 <= i <= n.
Lemma gset_in {K V : Type} (eqk : K -> K -> bool) (d : list (K * V)) k v (x : K * V) : In x (gset eqk d k v) -> snd x = v \/ In x d.
Proof.
  induction d as [|[a b] d IH]; cbn [gset]; [intros [<-|[]]; auto|].
  destruct (eqk k a); cbn [In]; intros [<-|H]; auto. destruct (IH H); auto.
Qed.
Lemma elems_ok n lines : forall on acc e, elems_pass n on lines acc = Ok e ->
  match on with None => True | Some ty => exists t, fetorch_type t = Ok ty end ->
  edict_ok n (fst acc) -> edict_ok n (fst e).
Proof.
  induction lines as [|l lines IH]; intros on acc e; cbn [elems_pass]; [intros H; injection H as <-; auto|].
  destruct (search_kw "*element, type" l).
  - unfold elem_type_line. destruct (type_value l) as [t|]; [|discriminate].
    destruct (fetorch_type t) as [ty|] eqn:Et; [|discriminate]. cbn [rbind]. intros H _ A.
    apply (IH _ _ _ H); [eauto|exact A].
  - destruct on as [ty|]; [|apply IH]. destruct (section_end l || blank l).
    + intros H _ A. apply (IH _ _ _ H); [exact I|exact A].
    + destruct (elem_row n l) as [[id r]|] eqn:Er; [|discriminate]. cbn [rbind]. intros H Hty A.
      apply (IH _ _ _ H Hty). cbn [fst snd]. destruct A as [A1 A2]. split.
      * apply (gset_nodup Z.eqb Z.eqb_eq). exact A1.
      * intros id' ty' r' Hin. apply gset_in in Hin as [Q|Q]; [|exact (A2 _ _ _ Q)].
        cbn [snd] in Q. injection Q as -> ->. split; [exact Hty|exact (elem_row_range n l id r Er)].
Qed.
Lemma rfold_shape {A} (f : list (list bool) -> A -> res (list (list bool))) n n_dim l :
  (forall m a m', In a l -> shape n n_dim m -> f m a = Ok m' -> shape n n_dim m') ->
  forall m m', shape n n_dim m -> rfold f l m = Ok m' -> shape n n_dim m'.
Proof.
  induction l as [|a l IH]; intros Hf m m' Hm; cbn [rfold]; [intros E; injection E as <-; exact Hm|].
  destruct (f m a) as [m1|] eqn:E; [|discriminate]. cbn [rbind]. apply IH.
  - intros; eapply Hf; [right|..]; eassumption.
  - eapply Hf; [left; reflexivity|exact Hm|exact E].
Qed.
Lemma flag_row_shape n n_dim l m m' : shape n n_dim m -> flag_row n n_dim l m = Ok m' -> shape n n_dim m'.
Proof.
  intros Hm. unfold flag_row. destruct (py_int _) as [z|]; [|discriminate]. cbn [rbind].
  destruct (rmap py_int _) as [zs|]; [|discriminate]. cbn [rbind].
  destruct zs as [|a [|b [|c zs]]]; try discriminate.
  apply rfold_shape; [|exact Hm]. clear m m' Hm. intros m d m' _ Hm.
  destruct ((0 <=? d)%Z && (d <? Z.of_nat n_dim)%Z); [|intros E; injection E as <-; exact Hm].
  destruct (py_index n (z - 1)) as [i|] eqn:Ei; [|discriminate]. cbn [rbind]. intros E. injection E as <-.
  assert (Hi : i < n).
  { revert Ei. unfold py_index.
    destruct ((0 <=? z - 1)%Z && (z - 1 <? Z.of_nat n)%Z) eqn:E1.
    - intros E. injection E as <-. apply andb_prop in E1 as [E1 E2]. apply Z.leb_le in E1. apply Z.ltb_lt in E2. lia.
    - destruct ((- Z.of_nat n <=? z - 1)%Z && (z - 1 <? 0)%Z) eqn:E2; [|discriminate].
      intros E. injection E as <-. apply andb_prop in E2 as [E2 E3]. apply Z.leb_le in E2. apply Z.ltb_lt in E3. lia. }
  split; [rewrite upd_length; apply Hm|]. intros r Hr. apply in_upd in Hr as [->|Hr]; [|now apply Hm].
  rewrite upd_length. eapply shape_row; eassumption.
Qed.
Lemma bounds_shape n n_dim lines : forall on m m', shape n n_dim m ->
  bounds_pass n n_dim on lines m = Ok m' -> shape n n_dim m'.
Proof.
  induction lines as [|l lines IH]; intros on m m' Hm; cbn [bounds_pass]; [intros E; injection E as <-; exact Hm|].
  destruct (search_kw "*boundary" l); [apply IH; exact Hm|].
  destruct (on && _); [apply IH; exact Hm|]. destruct on; [|apply IH; exact Hm].
  destruct (flag_row n n_dim l m) as [m1|] eqn:E; [|discriminate]. cbn [rbind]. apply IH.
  eapply flag_row_shape; eassumption.
Qed.
Lemma forall2_len {A B} (P : A -> B -> Prop) l r : Forall2 P l r -> List.length l = List.length r.
Proof. induction 1; cbn; congruence. Qed.
Lemma node_row_length {C} (pf : string -> res C) n_dim l r : node_row pf n_dim l = Ok r -> List.length r <= n_dim.
Proof.
  unfold node_row. intros H. apply rmap_ok in H. apply forall2_len in H. rewrite firstn_length in H. lia.
Qed.
Lemma nodes_length {C} (pf : string -> res C) n_dim lines : forall on rows,
  nodes_pass pf n_dim on lines = Ok rows -> forall r, In r rows -> List.length r <= n_dim.
Proof.
  induction lines as [|l lines IH]; intros on rows; cbn [nodes_pass]; [intros E; injection E as <-; intros r []|].
  destruct (search_kw "*node" l); [apply IH|].
  destruct (on && _); [intros E; injection E as <-; intros r []|]. destruct on; [|apply IH].
  destruct (node_row pf n_dim l) as [r0|] eqn:E0; [|discriminate]. cbn [rbind].
  destruct (nodes_pass pf n_dim true lines) as [rs|] eqn:E1; [|discriminate]. cbn [rbind]. intros E. injection E as <-.
  intros r [<-|Hr]; [eapply node_row_length; eassumption|eapply IH; eassumption].
Qed.

(** Whatever the file: a mesh that is read has nodes with coordinate rows of
    one length, distinct element labels, elements of known types whose nodes
    belong to the mesh, and one flag per node and dimension. *)
Theorem specimen_mesh_sound {C} (pf : string -> res C) n_dim lines coords e flags :
  read_mesh pf n_dim lines = Ok (coords, e, flags) ->
  coords <> [] /\ (exists k, k <= n_dim /\ forall r, In r coords -> List.length r = k) /\
  NoDup (map fst e) /\
  (forall id ty r, In (id, (ty, r)) e ->
     (exists t, fetorch_type t = Ok ty) /\ forall i, In i r -> 1 <= i <= List.length coords) /\
  List.length flags = List.length coords /\ (forall r, In r flags -> List.length r = n_dim).
Proof.
  unfold read_mesh. destruct (nodes_pass pf n_dim false lines) as [rows|] eqn:E1; [|discriminate]. cbn [rbind].
  destruct (Nat.eqb_spec (List.length rows) 0) as [|L]; [discriminate|].
  destruct (rectangular rows) eqn:E2; [|discriminate]. cbn [negb].
  destruct (elems_pass (List.length rows) None lines ([], [])) as [ee|] eqn:E3; [|discriminate]. cbn [rbind].
  destruct (nodes_covered _ _); [|discriminate]. cbn [negb].
  destruct (bounds_pass _ _ _ _ _) as [fl|] eqn:E4; [|discriminate]. cbn [rbind].
  intros E. injection E as <- <- <-. split; [now intros ->|]. split.
  { destruct rows as [|r rows]; [now contradiction L|]. exists (List.length r). split.
    - eapply nodes_length; [exact E1|left; reflexivity].
    - intros x [<-|Hx]; [reflexivity|]. cbn [rectangular] in E2. rewrite forallb_forall in E2.
      apply Nat.eqb_eq, E2, Hx. }
  assert (O : edict_ok (List.length rows) (fst ee)).
  { eapply elems_ok; [exact E3|exact I|]. split; [constructor|intros ? ? ? []]. }
  destruct O as [O1 O2]. split; [exact O1|]. split; [exact O2|].
  destruct (bounds_shape _ _ _ _ _ _ (zeros_shape (List.length rows) n_dim) E4) as [S1 S2]. auto.
Qed.

(** ** Cases *)
(** Coordinates in hundredths, written in tenths of a unit: a formatting that rounds. *)
Definition h_fmt (c : nat) : string := nat_str (c / 10 * 10).
Definition h_pf (s : string) : res nat := rbind (py_int s) (fun z => Ok (Z.to_nat z)).
Lemma h_laws : text_laws h_pf h_fmt (fun c => c / 10 * 10) nat_str.
Proof.
  split.
  - intros c. unfold h_pf, h_fmt. rewrite py_int_space. cbn [rbind]. now rewrite Nat2Z.id.
  - intros c. unfold h_fmt. now apply nat_str_no.
  - intros c. unfold h_fmt. now apply nat_str_no.
  - intros v. now apply nat_str_no.
Qed.
Definition two_tris : list string :=
  write_mesh h_fmt nat_str [[0; 0]; [128; 0]; [128; 125]; [0; 125]] [[1; 2; 3]; [1; 3; 4]] "CPE3"
    (Some [(1, [(1, 0); (2, 0)]); (4, [(1, 0); (3, 7)])]).
Example specimen_written : two_tris =
  ["ADiMU mesh data file (generated from Links data)"; "";
   "*Node"; "  1, 0, 0"; "  2, 120, 0"; "  3, 120, 120"; "  4, 0, 120"; "";
   "*Element, type=CPE3"; "  1, 1, 2, 3"; "  2, 1, 3, 4"; "";
   "*Boundary"; "  1, 1, 1, 0"; "  1, 2, 2, 0"; "  4, 1, 1, 0"; "  4, 3, 3, 7"].
Proof. reflexivity. Qed.
Example specimen_read : read_mesh h_pf 2 two_tris =
  Ok ([[0; 0]; [120; 0]; [120; 120]; [0; 120]],
      [(1%Z, ((Tri3, 1), [1; 2; 3])); (2%Z, ((Tri3, 1), [1; 3; 4]))],
      [[true; true]; [false; false]; [false; false]; [true; false]]).
Proof. vm_compute. reflexivity. Qed.
Example specimen_refused_cases :
  read_mesh h_pf 2 (write_mesh h_fmt nat_str [[0; 0]; [1; 0]; [1; 1]; [5; 5]] [[1; 2; 3]] "CPE3" None) = Err RuntimeError /\
  read_mesh h_pf 2 (write_mesh h_fmt nat_str [[0; 0]; [1; 0]; [1; 1]] [[1; 2; 4]] "CPE3" None) = Err RuntimeError /\
  read_mesh h_pf 2 (write_mesh h_fmt nat_str [[0; 0]; [1; 0]; [1; 1]] [[1; 2; 3]] "CPS3" None) = Err RuntimeError.
Proof. vm_compute. auto. Qed.

(** The node labels of a file are not those of its mesh: the nodes are numbered
    by their rows, and the same file with its rows labelled otherwise is the
    same mesh. *)
Theorem specimen_labels_refuted :
  exists lines lines' mesh,
    lines = ["*Node"; "1, 0, 0"; "2, 9, 0"; "3, 0, 5"; "*Element, type=CPE3"; "1, 1, 2, 3"] /\
    lines' = ["*Node"; "1, 0, 0"; "3, 9, 0"; "2, 0, 5"; "*Element, type=CPE3"; "1, 1, 2, 3"] /\
    read_mesh h_pf 2 lines = Ok mesh /\ read_mesh h_pf 2 lines' = Ok mesh /\
    fst (fst mesh) = [[0; 0]; [9; 0]; [0; 5]].
Proof. do 3 eexists. split; [reflexivity|]. split; [reflexivity|]. split; [vm_compute; reflexivity|]. split; vm_compute; reflexivity. Qed.

(** Elements with the same label overwrite each other and leave nodes without
    elements, although the coverage of the nodes is checked. *)
Theorem specimen_coverage_refuted :
  exists lines coords e flags,
    read_mesh h_pf 2 lines = Ok (coords, e, flags) /\
    exists i, 1 <= i <= List.length coords /\ forall id ty r, In (id, (ty, r)) e -> ~ In i r.
Proof.
  exists ["*Node"; "1, 0, 0"; "2, 9, 0"; "3, 0, 5"; "4, 9, 5"; "*Element, type=CPE3"; "1, 1, 2, 3"; "1, 2, 4, 3"].
  do 3 eexists. split; [vm_compute; reflexivity|]. exists 1. split; [cbn; lia|].
  intros id ty r [H|[]]. injection H as <- <- <-. cbn. lia.
Qed.

(** A comment, a lower-case keyword or an element continued on a second line
    stop the reader with an error of the conversion to numbers. *)
Theorem specimen_layout_refuted :
  (exists mesh, read_mesh h_pf 2 ["*Node"; "1, 0, 0"; "2, 9, 0"; "3, 0, 5"; "*Element, type=CPE3"; "1, 1, 2, 3"] = Ok mesh) /\
  read_mesh h_pf 2 ["*Node"; "1, 0, 0"; "** corner"; "2, 9, 0"; "3, 0, 5"; "*Element, type=CPE3"; "1, 1, 2, 3"] = Err ValueError /\
  read_mesh h_pf 2 ["*node"; "1, 0, 0"; "2, 9, 0"; "3, 0, 5"; "*element, type=CPE3"; "1, 1, 2, 3"] = Err ValueError /\
  read_mesh h_pf 2 ["*Node"; "1, 0, 0"; "2, 9, 0"; "3, 0, 5"; "*Element, type=CPE3"; "1, 1, 2,"; "3"] = Err ValueError.
Proof. split; [eexists; vm_compute; reflexivity|]. vm_compute. auto. Qed.

Print Assumptions specimen_mesh_round_trip.
Print Assumptions specimen_mesh_refused.
Print Assumptions specimen_mesh_sound.
Print Assumptions specimen_labels_refuted.
Print Assumptions specimen_coverage_refuted.
Print Assumptions specimen_layout_refuted.
