(** Python text processing: split, strip, int(), padding and the keyword
    searches of the mesh file readers (vocabulary shared by the models; nothing
    here models repository code). A file is the list of its lines without their
    newlines. *)
From Coq Require Import String Ascii List Bool Arith ZArith Lia.
From Verif Require Import Lib PyStr PyDict.
Import ListNotations.
Local Open Scope string_scope.

(** s.split(c) *)
Fixpoint split_on (c : ascii) (s : string) : list string :=
  match s with
  | EmptyString => [EmptyString]
  | String d t =>
    if Ascii.eqb d c then EmptyString :: split_on c t
    else match split_on c t with f :: fs => String d f :: fs | [] => [String d EmptyString] end
  end.
(** c.isspace() on ASCII *)
Definition is_space (c : ascii) : bool :=
  (let n := nat_of_ascii c in ((9 <=? n) && (n <=? 13)) || ((28 <=? n) && (n <=? 32)))%nat.
(** s.strip() == '' *)
Fixpoint blank (s : string) : bool :=
  match s with EmptyString => true | String c t => is_space c && blank t end.
Fixpoint lstrip (s : string) : string :=
  match s with String c t => if is_space c then lstrip t else s | EmptyString => s end.
Fixpoint rstrip (s : string) : string :=
  match s with EmptyString => EmptyString | String c t => if blank s then EmptyString else String c (rstrip t) end.
Definition strip (s : string) : string := rstrip (lstrip s).
(** s.split() *)
Fixpoint words (s : string) : list string :=
  match s with
  | EmptyString => []
  | String c t =>
    if is_space c then words t
    else match t with
         | EmptyString => [String c EmptyString]
         | String d _ => if is_space d then String c EmptyString :: words t
                         else match words t with w :: ws => String c w :: ws | [] => [String c EmptyString] end
         end
  end.
(** int(s): surrounding blanks, a sign and decimal digits (underscores between
    digits, which Python accepts, are not modelled) *)
Definition py_int (s : string) : res Z :=
  match strip s with
  | String c t =>
    if Ascii.eqb c "-" then rbind (int_of t) (fun n => Ok (- Z.of_nat n)%Z)
    else if Ascii.eqb c "+" then rbind (int_of t) (fun n => Ok (Z.of_nat n))
    else rbind (int_of (String c t)) (fun n => Ok (Z.of_nat n))
  | EmptyString => Err ValueError
  end.
(** '{:>ns}', '{:^ns}' *)
Fixpoint spaces (n : nat) : string := match n with O => EmptyString | S k => String " " (spaces k) end.
Definition pad_left (n : nat) (s : string) : string := spaces (n - String.length s) ++ s.
Definition pad_center (n : nat) (s : string) : string :=
  let k := n - String.length s in spaces (k / 2) ++ s ++ spaces (k - k / 2).
(** sep.join(l) *)
Fixpoint join (sep : string) (l : list string) : string :=
  match l with [] => EmptyString | [x] => x | x :: t => x ++ sep ++ join sep t end.
(** Case-insensitive matching *)
Definition lower (c : ascii) : ascii :=
  (let n := nat_of_ascii c in if (65 <=? n) && (n <=? 90) then ascii_of_nat (n + 32) else c)%nat.
Definition is_upper (c : ascii) : bool := (let n := nat_of_ascii c in (65 <=? n) && (n <=? 90))%nat.
Definition is_alnum (c : ascii) : bool :=
  (let n := nat_of_ascii (lower c) in is_digit c || ((97 <=? n) && (n <=? 122)))%nat.
Definition is_word (c : ascii) : bool := is_alnum c || Ascii.eqb c "_".
(** what follows the prefix p (any case) of s *)
Fixpoint drop_ci (p s : string) : option string :=
  match p with
  | EmptyString => Some s
  | String a p' =>
    match s with
    | String b s' => if Ascii.eqb (lower b) (lower a) then drop_ci p' s' else None
    | EmptyString => None
    end
  end.
(** re.search(p + r'\b', s, re.IGNORECASE), for p ending with a word character *)
Definition at_boundary (rest : string) : bool :=
  match rest with EmptyString => true | String c _ => negb (is_word c) end.
Fixpoint search_kw (p s : string) : bool :=
  match drop_ci p s with Some rest => at_boundary rest | None => false end
  || match s with String _ t => search_kw p t | EmptyString => false end.
(** re.search(r'^[*][A-Z]+', s) *)
Definition section_end (s : string) : bool :=
  match s with String c (String d _) => Ascii.eqb c "*" && is_upper d | _ => false end.

(** ** Facts *)
Lemma split_on_nonempty c s : split_on c s <> [].
Proof. destruct s as [|d s]; cbn; [discriminate|]. destruct (Ascii.eqb d c); [discriminate|]. now destruct (split_on c s). Qed.
Lemma split_on_app c a b : split_on c (a ++ String c b) = (split_on c a ++ split_on c b)%list.
Proof.
  induction a as [|d a IH]; cbn [append split_on]; [now rewrite Ascii.eqb_refl|]. rewrite IH.
  destruct (Ascii.eqb d c); [reflexivity|].
  destruct (split_on c a) eqn:E; [now apply split_on_nonempty in E|reflexivity].
Qed.
Lemma split_on_none c s : has_char c s = false -> split_on c s = [s].
Proof.
  induction s as [|d s IH]; [reflexivity|]. cbn. intros H. apply orb_false_iff in H as [H1 H2].
  rewrite H1, IH by exact H2. reflexivity.
Qed.
(** splitting what was joined with a separator and a blank *)
Lemma split_join c x l : has_char c x = false -> forallb (fun y => negb (has_char c y)) l = true ->
  split_on c (join (String c " ") (x :: l)) = x :: map (String " ") l \/ Ascii.eqb c " " = true.
Proof.
  destruct (Ascii.eqb c " ") eqn:Ec; [auto|]. intros Hx Hl. left.
  assert (Q : forall p x l, has_char c (p ++ x) = false -> forallb (fun y => negb (has_char c y)) l = true ->
    split_on c (p ++ join (String c " ") (x :: l)) = (p ++ x) :: map (String " ") l).
  { clear x l Hx Hl. intros p x l. revert p x. induction l as [|y l IH]; intros p x Hp Hl.
    - cbn [join map]. now rewrite split_on_none.
    - cbn [forallb] in Hl. apply andb_prop in Hl as [Hy Hl]. rewrite negb_true_iff in Hy.
      change (join (String c " ") (x :: y :: l)) with (x ++ String c (String " " (join (String c " ") (y :: l)))).
      rewrite app_assoc_s, split_on_app, (split_on_none c (p ++ x)) by exact Hp.
      change (String " " (join (String c " ") (y :: l))) with (" " ++ join (String c " ") (y :: l)).
      rewrite IH; [reflexivity| |exact Hl]. cbn [append has_char]. rewrite Ascii.eqb_sym, Ec. exact Hy. }
  exact (Q "" x l Hx Hl).
Qed.

Lemma has_char_spaces c n : Ascii.eqb " " c = false -> has_char c (spaces n) = false.
Proof. intros H. induction n; [reflexivity|]. cbn [spaces has_char]. now rewrite H, IHn. Qed.
Lemma has_char_join c sep l : has_char c sep = false -> forallb (fun y => negb (has_char c y)) l = true ->
  has_char c (join sep l) = false.
Proof.
  intros Hs. induction l as [|x [|y l] IH]; intros H; [reflexivity| |].
  - cbn [forallb] in H. rewrite andb_true_r, negb_true_iff in H. exact H.
  - change (join sep (x :: y :: l)) with (x ++ sep ++ join sep (y :: l)).
    cbn [forallb] in H. apply andb_prop in H as [Hx H]. rewrite negb_true_iff in Hx.
    rewrite !has_char_app, Hx, Hs, IH by exact H. reflexivity.
Qed.

Lemma digit_not_space c : is_digit c = true -> is_space c = false.
Proof. destruct c as [[] [] [] [] [] [] [] []]; cbn; intros; try discriminate; reflexivity. Qed.
Lemma blank_app a b : blank (a ++ b) = blank a && blank b.
Proof. induction a as [|c a IH]; [reflexivity|]. cbn. now rewrite IH, andb_assoc. Qed.
Lemma blank_spaces n : blank (spaces n) = true.
Proof. induction n; [reflexivity|]. cbn [spaces blank]. now rewrite IHn. Qed.
Lemma rstrip_digits s : all_digits s = true -> rstrip s = s.
Proof.
  induction s as [|c s IH]; [reflexivity|]. cbn [all_digits rstrip]. intros H. apply andb_prop in H as [H1 H2].
  cbn [blank]. rewrite digit_not_space by exact H1. cbn. now rewrite IH.
Qed.
Lemma lstrip_digits s : all_digits s = true -> lstrip s = s.
Proof.
  destruct s as [|c s]; [reflexivity|]. cbn [all_digits lstrip]. intros H. apply andb_prop in H as [H1 H2].
  now rewrite digit_not_space.
Qed.
Lemma lstrip_blank a b : blank a = true -> lstrip (a ++ b) = lstrip b.
Proof.
  induction a as [|c a IH]; [reflexivity|]. cbn [blank append lstrip]. intros H. apply andb_prop in H as [H1 H2].
  rewrite H1. now apply IH.
Qed.
Lemma rstrip_blank b : blank b = true -> rstrip b = "".
Proof. destruct b as [|c b]; [reflexivity|]. cbn [rstrip]. now intros ->. Qed.
Lemma rstrip_app a b : blank b = true -> rstrip (a ++ b) = rstrip a.
Proof.
  intros H. induction a as [|c a IH]; [now apply rstrip_blank|]. cbn [append rstrip].
  change (String c (a ++ b)) with (String c a ++ b). rewrite blank_app, H, andb_true_r.
  destruct (blank (String c a)); [reflexivity|]. now rewrite IH.
Qed.
Lemma strip_digits a s b : blank a = true -> blank b = true -> all_digits s = true -> strip (a ++ s ++ b) = s.
Proof.
  intros Ha Hb Hs. unfold strip. rewrite lstrip_blank by exact Ha. destruct s as [|c s].
  - change ("" ++ b) with b. replace b with (b ++ "") by apply app_nil_s. rewrite lstrip_blank by exact Hb. reflexivity.
  - cbn [all_digits] in Hs. apply andb_prop in Hs as [H1 H2]. cbn [append lstrip].
    rewrite digit_not_space by exact H1. change (String c (s ++ b)) with (String c s ++ b).
    rewrite rstrip_app by exact Hb. apply rstrip_digits. cbn. now rewrite H1.
Qed.
Lemma py_int_nat a n b : blank a = true -> blank b = true -> py_int (a ++ nat_str n ++ b) = Ok (Z.of_nat n).
Proof.
  intros Ha Hb. unfold py_int. rewrite strip_digits by (auto; apply nat_str_digits).
  pose proof (nat_str_nonempty n) as N. pose proof (nat_str_digits n) as D. pose proof (int_of_nat_str n) as I.
  destruct (nat_str n) as [|c t]; [contradiction|]. cbn [all_digits] in D. apply andb_prop in D as [D _].
  assert (E1 : Ascii.eqb c "-" = false) by (destruct (Ascii.eqb_spec c "-"); [subst; discriminate D|reflexivity]).
  assert (E2 : Ascii.eqb c "+" = false) by (destruct (Ascii.eqb_spec c "+"); [subst; discriminate D|reflexivity]).
  rewrite E1, E2, I. reflexivity.
Qed.
Lemma py_int_str n : py_int (nat_str n) = Ok (Z.of_nat n).
Proof. rewrite <- (app_nil_s (nat_str n)). apply (py_int_nat "" n ""); reflexivity. Qed.
Lemma py_int_space n : py_int (String " " (nat_str n)) = Ok (Z.of_nat n).
Proof. rewrite <- (app_nil_s (nat_str n)). apply (py_int_nat " " n ""); reflexivity. Qed.
Lemma py_int_pad k n : py_int (pad_left k (nat_str n)) = Ok (Z.of_nat n).
Proof.
  unfold pad_left. rewrite <- (app_nil_s (nat_str n)) at 2. apply py_int_nat; [apply blank_spaces|reflexivity].
Qed.

(** A keyword found in a line has all its characters there. *)
Fixpoint has_ci (x : ascii) (s : string) : bool :=
  match s with EmptyString => false | String d t => Ascii.eqb (lower d) x || has_ci x t end.
Lemma drop_ci_has x p s r : drop_ci p s = Some r -> has_ci x p = true -> has_ci x s = true.
Proof.
  revert s. induction p as [|a p IH]; intros s; [discriminate|]. destruct s as [|b s]; [discriminate|].
  cbn [drop_ci]. destruct (Ascii.eqb_spec (lower b) (lower a)) as [E|]; [|discriminate].
  intros H. cbn [has_ci]. intros Q. apply orb_prop in Q as [Q|Q].
  - now rewrite E, Q.
  - rewrite (IH s H Q). apply orb_true_r.
Qed.
Lemma search_kw_has x p s : has_ci x p = true -> search_kw p s = true -> has_ci x s = true.
Proof.
  intros Hp. induction s as [|c s IH]; cbn [search_kw]; intros H.
  - rewrite orb_false_r in H. destruct (drop_ci p "") eqn:E; [|discriminate]. exact (drop_ci_has x p "" s E Hp).
  - apply orb_prop in H as [H|H].
    + destruct (drop_ci p (String c s)) eqn:E; [|discriminate]. exact (drop_ci_has x p _ _ E Hp).
    + cbn [has_ci]. rewrite IH by exact H. apply orb_true_r.
Qed.
Lemma search_kw_absent x p s : has_ci x p = true -> has_ci x s = false -> search_kw p s = false.
Proof. intros Hp Hs. destruct (search_kw p s) eqn:E; [|reflexivity]. rewrite (search_kw_has x p s Hp E) in Hs. discriminate. Qed.
Lemma lower_star d : Ascii.eqb (lower d) "*" = Ascii.eqb d "*".
Proof. destruct d as [[] [] [] [] [] [] [] []]; reflexivity. Qed.
Lemma has_ci_star s : has_ci "*" s = has_char "*" s.
Proof. induction s as [|d s IH]; [reflexivity|]. cbn [has_ci has_char]. now rewrite lower_star, IH. Qed.
Lemma has_ci_app x a b : has_ci x (a ++ b) = has_ci x a || has_ci x b.
Proof. induction a as [|c a IH]; [reflexivity|]. cbn. now rewrite IH, orb_assoc. Qed.
Lemma section_end_star s : has_char "*" s = false -> section_end s = false.
Proof. destruct s as [|c [|d s]]; try reflexivity. cbn. intros H. apply orb_false_iff in H as [H _]. now rewrite H. Qed.
