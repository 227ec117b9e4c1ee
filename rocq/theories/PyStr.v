(** Python strings: decimal numbers and separators (vocabulary shared by the
    models; nothing here models repository code). *)
From Coq Require Import String Ascii List Bool Arith Lia Decimal DecimalString DecimalNat DecimalFacts.
From Verif Require Import Lib.
Import ListNotations.
Local Open Scope string_scope.

(** str(n) for n >= 0 *)
Definition nat_str (n : nat) : string := NilZero.string_of_uint (Nat.to_uint n).
(** int(s) for unsigned decimal digits; ValueError otherwise (the signs, blanks
    and underscores also accepted by Python are not modelled). *)
Definition int_of (s : string) : res nat :=
  match NilZero.uint_of_string s with Some d => Ok (Nat.of_uint d) | None => Err ValueError end.

Definition is_digit (c : ascii) : bool :=
  match uint_of_char c (Some Nil) with Some _ => true | None => false end.
Fixpoint all_digits (s : string) : bool :=
  match s with EmptyString => true | String c t => is_digit c && all_digits t end.
Fixpoint skip_digits (s : string) : string :=
  match s with String c t => if is_digit c then skip_digits t else s | EmptyString => s end.

(** Field lists of s.split('-'). *)
Definition dash : ascii := "-"%char.
Fixpoint split_dash (s : string) : list string :=
  match s with
  | EmptyString => [EmptyString]
  | String c t =>
    if Ascii.eqb c dash then EmptyString :: split_dash t
    else match split_dash t with f :: fs => String c f :: fs | [] => [String c EmptyString] end
  end.
(** os.path.splitext(s)[0], for names that do not start with a dot. *)
Definition dot : ascii := "."%char.
Fixpoint has_char (c : ascii) (s : string) : bool :=
  match s with EmptyString => false | String d t => Ascii.eqb d c || has_char c t end.
Fixpoint splitext_root (s : string) : string :=
  match s with
  | EmptyString => EmptyString
  | String c t => if Ascii.eqb c dot && negb (has_char dot t) then EmptyString else String c (splitext_root t)
  end.
(** s.startswith(p) *)
Fixpoint starts_with (p s : string) : bool :=
  match p with
  | EmptyString => true
  | String a p' => match s with String b s' => Ascii.eqb a b && starts_with p' s' | EmptyString => false end
  end.

Lemma to_uint_nonnil n : Nat.to_uint n <> Nil.
Proof.
  intros H. assert (E : Nat.to_uint (Nat.of_uint (Nat.to_uint n)) = unorm (Nat.to_uint n)) by apply Unsigned.to_of.
  rewrite Unsigned.of_to, H in E. discriminate.
Qed.
Lemma int_of_nat_str n : int_of (nat_str n) = Ok n.
Proof.
  unfold int_of, nat_str. rewrite NilZero.usu by apply to_uint_nonnil. now rewrite Unsigned.of_to.
Qed.
Lemma nat_str_inj n m : nat_str n = nat_str m -> n = m.
Proof. intros H. apply (f_equal int_of) in H. rewrite !int_of_nat_str in H. now injection H. Qed.
Lemma nat_str_digits n : all_digits (nat_str n) = true.
Proof.
  unfold nat_str. destruct (Nat.to_uint n) eqn:E; [now apply to_uint_nonnil in E| | | | | | | | | |];
    unfold NilZero.string_of_uint; clear E;
    match goal with |- all_digits (NilEmpty.string_of_uint ?d) = true => generalize d end;
    intros d; induction d; cbn; auto.
Qed.
Lemma nat_str_nonempty n : nat_str n <> EmptyString.
Proof.
  unfold nat_str. destruct (Nat.to_uint n) eqn:E; [now apply to_uint_nonnil in E| | | | | | | | | |];
    discriminate.
Qed.

Lemma app_assoc_s a b c : (a ++ b ++ c)%string = ((a ++ b) ++ c)%string.
Proof. induction a as [|x a IH]; [reflexivity|]. cbn. now rewrite IH. Qed.
Lemma app_inj_s a b c : (a ++ b = a ++ c)%string -> b = c.
Proof. induction a as [|x a IH]; [auto|]. cbn. intros H. injection H. auto. Qed.
Lemma app_nil_s a : (a ++ "")%string = a.
Proof. induction a as [|x a IH]; [reflexivity|]. cbn. now rewrite IH. Qed.

Lemma digits_no_char c s : is_digit c = false -> all_digits s = true -> has_char c s = false.
Proof.
  intros Hc. induction s as [|d s IH]; [reflexivity|]. cbn. intros H. apply andb_prop in H as [H1 H2].
  rewrite IH by exact H2. destruct (Ascii.eqb_spec d c) as [->|]; [congruence|reflexivity].
Qed.
Lemma skip_digits_app s c t : all_digits s = true -> is_digit c = false ->
  skip_digits (s ++ String c t) = String c t.
Proof.
  induction s as [|d s IH]; cbn [append all_digits skip_digits].
  - intros _ Hc. now rewrite Hc.
  - intros H Hc. apply andb_prop in H as [H1 H2]. rewrite H1. now apply IH.
Qed.

Lemma has_char_app c a b : has_char c (a ++ b) = has_char c a || has_char c b.
Proof. induction a as [|x a IH]; [reflexivity|]. cbn. rewrite IH. now rewrite orb_assoc. Qed.

Lemma splitext_app a e : has_char dot e = false -> splitext_root (a ++ String dot e) = a.
Proof.
  intros He. induction a as [|x a IH].
  - cbn. now rewrite He.
  - cbn [append splitext_root]. rewrite has_char_app. cbn [has_char]. rewrite Ascii.eqb_refl. cbn.
    rewrite orb_true_r, andb_false_r. now rewrite IH.
Qed.

Lemma split_nonempty s : split_dash s <> [].
Proof. destruct s as [|c s]; cbn; [discriminate|]. destruct (Ascii.eqb c dash); [discriminate|]. now destruct (split_dash s). Qed.
Lemma split_app a b : split_dash (a ++ String dash b) = (split_dash a ++ split_dash b)%list.
Proof.
  induction a as [|c a IH]; [reflexivity|]. cbn [append split_dash]. rewrite IH.
  destruct (Ascii.eqb c dash); [reflexivity|].
  destruct (split_dash a) eqn:E; [now apply split_nonempty in E|reflexivity].
Qed.
Lemma split_none s : has_char dash s = false -> split_dash s = [s].
Proof.
  induction s as [|c s IH]; [reflexivity|]. cbn. intros H. apply orb_false_iff in H as [H1 H2].
  rewrite H1, IH by exact H2. reflexivity.
Qed.
Lemma starts_with_app p s : starts_with p (p ++ s) = true.
Proof. induction p as [|a p IH]; [reflexivity|]. cbn. now rewrite Ascii.eqb_refl. Qed.
